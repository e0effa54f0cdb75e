(** C71: an assigned bridge reaches the client that asked for it. *)
From Coq Require Import ZArith Znumtheory Lia List Bool Permutation.
From Coq Require Import Strings.Byte.
From Coq Require String.
From Verif Require Import ZMod Bytes Suite Spec Pedersen ElGamal FujiOkam Equality Codec Maps Net Bridge Client
  Perm SimpleShuffle PairShuffle Server Coordinator History System Chain Prop_Topology Prop_Chain Round RoundInv
  Prop_Pedersen Prop_ElGamal Prop_FujiOkam Prop_Shuffle Prop_Codec Prop_Bridge Prop_Assign Prop_Coord Prop_Round Session Prop_Session Signing Prop_Signing Delivery.
Import ListNotations.
Import String.StringSyntax.
Open Scope Z_scope.
Delimit Scope string_scope with str.

(** ** Specification *)
(** The coordinator takes the bridge [b], posted by [nb], from the unused ones. *)
Definition takes (y y1 : sys) (b : bytes) (nb : option Z) : Prop :=
  mget (co_bridges (y_coord y)) b = Some (nb, false) /\ mget (co_bridges (y_coord y1)) b = Some (nb, true).
(** No request for signatures, no answer to one and no signed assignment is on its way. *)
Definition no_signing (y : sys) : Prop :=
  forall m, In m (y_msgs y) -> mType m <> SIGN_ASSIGNMENTS /\ mType m <> GOT_SIGNS.
(** The client at [a] holds [x] with the signatures of all servers and the coordinator. *)
Definition holds_signed (S : suite) (G : gob) (y : sys) (a : addr) (x : assignment) : Prop :=
  exists k bs sigs, mget (y_clients y) a = Some k /\ In (x, bs) (cl_assigns k) /\ gdec_2d G bs = Some sigs /\ signed_by_all S y x sigs.
(** The coordinator's signature on the message that hands out [x] has a response other
    than 0 (with response 0 a signature on the zero base does not verify). *)
Definition handout_nonzero (S : suite) (G : gob) (y : sys) (x : assignment) : Prop :=
  forall sigs, signed_by_all S y x sigs -> response_nonzero S (co_priv (y_coord y)) (enc_assignment S x ++ genc_2d G sigs).

Section C71.
Context (S : suite) (OK : suite_ok S) (H : oracle) (G : gob) (GOK : gob_ok G).

(** C71: in an open round the coordinator handles the request of a client under the
    pseudonym [nym] and takes the bridge [b] for it.  In every later state of that round
    with no message of the signing protocol on its way, the client holds [b], signed by
    all, provided that in between no bridge was posted while signatures on it were on
    their way and nobody else requested under [nym]. *)
Theorem C71_assignment_delivered : forall y V i cr sr chal m y1 bn nym b nb,
  calm_reach S H G y V -> open_round y -> fo_nonneg (co_fb (y_coord y)) ->
  nth_error (y_msgs y) i = Some m -> mType m = REQUEST_BRIDGES -> mDst m = co_addr (y_coord y) ->
  (exists k, mget (y_clients y) (mSrc m) = Some k) ->
  get_bytes (mParams m) "nym"%str = Some bn -> dec_point S bn = Some nym ->
  guard S y V (ADeliver i cr sr chal) -> sys_step S H G y (ADeliver i cr sr chal) = Some y1 ->
  takes y y1 b nb -> handout_nonzero S G y1 (Assign (Some nym) b nb) ->
  forall y2 V2, calm_later S H G nym (mSrc m) y1 (ledger_step S y V (ADeliver i cr sr chal)) y2 V2 ->
  no_signing y2 -> holds_signed S G y2 (mSrc m) (Assign (Some nym) b nb).
Proof.
  intros y V i cr sr chal m y1 bn nym b nb CR O NN Em T ED CK EB EN GU E [B1 B2] HN y2 V2 CL NS. set (x := Assign (Some nym) b nb) in *.
  pose proof (calm_is_reach S H G y V CR) as R. pose proof (calm_inv S OK H G GOK y V CR) as SI.
  destruct (reach_run S H G y V R) as (self & a0 & fb & trap & gammas & t & RUN).
  pose proof (proj2 (run_bridges S G OK GOK self a0 fb trap gammas t _ RUN)) as HB.
  assert (PC : post_calm S G y (ADeliver i cr sr chal)).
  { cbn [post_calm]. intros m0 E0 T0. assert (m0 = m) by congruence. subst m0. rewrite T in T0. discriminate. }
  pose proof (cr_step S H G y V _ y1 CR GU PC E) as CR1. pose proof (calm_inv S OK H G GOK _ _ CR1) as SI1.
  destruct (open_step S H G y V _ y1 (reach_inv S OK H G GOK y V R) O GU eq_refl E) as [O1 SR]. destruct (view_eq y y1 SR) as (W1 & W2 & _).
  assert (NN1 : fo_nonneg (co_fb (y_coord y1))) by (unfold co_fb in *; now rewrite W1).
  assert (PC' : post_calm S G y (ADeliver i cr sr chal)) by assumption.
  pose proof (sig_step S OK H G GOK (key_of y) _ _ y V _ y1 (reach_inv S OK H G GOK y V R) HB SI GU PC E) as SI'.
  destruct (track_start S OK H G GOK (key_of y) _ _ y V i cr sr chal m y1 bn nym b nb R SI HB Em T ED CK EB EN E B1 B2) as [GX TR]. fold x in GX, TR.
  assert (KE : forall a, In a (map fst (co_servers (y_coord y))) -> key_of y1 a = key_of y a).
  { intros a Ia. rewrite <- W2 in Ia. apply (b_srv _ _ _ _ _ (proj1 (reach_inv S OK H G GOK _ _ (calm_is_reach S H G _ _ CR1)))) in Ia.
    unfold key_of at 1. destruct (mget (y_servers y1) a) as [s|] eqn:Es; [|contradiction]. now destruct (z_sv _ _ _ _ _ _ SI' a s Es). }
  assert (FE : full S (key_of y1) (co_static (y_coord y1)) (co_servers (y_coord y1)) x = full S (key_of y) (co_static (y_coord y)) (co_servers (y_coord y)) x).
  { unfold full. rewrite W1, W2. f_equal. apply map_ext_in. intros s Is. unfold ssig. rewrite KE; [reflexivity|]. now apply in_map. }
  rewrite <- W1, <- W2 in SI', TR, FE.
  destruct (follow S OK H G GOK (key_of y) nym (mSrc m) x y1 _ y2 V2 CL CR1 O1 NN1 GX SI') as (O2 & ST2 & _ & TR2); [|exact TR|].
  { rewrite <- FE. apply HN. eapply (full_signed S OK H G GOK); eassumption. }
  destruct (tracked_done _ _ _ _ _ _ _ _ _ TR2 NS) as (k & bs & Ek & Ib).
  pose proof (calm_later_reach S H G _ _ _ _ _ _ CL CR1) as CR2.
  assert (NN2 : fo_nonneg (co_fb (y_coord y2))) by (unfold co_fb in *; now rewrite ST2).
  destruct (proj1 (C63_assignments_fully_signed S OK H G GOK y2 V2 CR2 NN2) _ _ _ _ Ek Ib) as (_ & sigs & D & SB).
  exists k, bs, sigs. auto.
Qed.

(** The same for the request of a client of the table, from the command on: the client gets
    exactly min(ind, unused) bridges. *)
Theorem C71_request_delivered : forall y V a k ind rn,
  calm_reach S H G y V -> open_round y -> in_table S y a k ->
  fobase_ok (co_fb (y_coord y)) -> fo_nonneg (co_fb (y_coord y)) -> cl_fb k <> None -> 0 <= cl_priv k ->
  (forall v r, In (cl_pub k, (v, r)) V -> fits v) ->
  0 <= rqInd rn < sQ S -> ind <= cl_rep k -> cl_rep k - ind < 2 ^ 61 -> cl_rep k - ind < sQ S ->
  exists m, cl_request S G k ind rn = Some (Some m) /\ mDst m = co_addr (y_coord y) /\
  forall y1 V1 i cr sr chal, calm_reach S H G y1 V1 -> later S H G y V y1 V1 -> nth_error (y_msgs y1) i = Some m ->
  guard S y1 V1 (ADeliver i cr sr chal) -> (forall j, range_order (crBridges cr j) (co_bridges (y_coord y1))) ->
  exists y2 l, sys_step S H G y1 (ADeliver i cr sr chal) = Some y2 /\
    Z.of_nat (length l) = Z.min (Z.max ind 0) (Z.of_nat (length (unused (y_coord y1)))) /\ NoDup (map asAddr l) /\
    (forall x, In x l -> asNymR x = Some (cl_nym k) /\ takes y1 y2 (asAddr x) (asNym x)) /\
    forall y3 V3, calm_later S H G (cl_nym k) a y2 (ledger_step S y1 V1 (ADeliver i cr sr chal)) y3 V3 -> no_signing y3 ->
    forall x, In x l -> handout_nonzero S G y2 x -> holds_signed S G y3 a x.
Proof.
  intros y V a k ind rn CR O IT FOK NN KF KP FV RI IL I61 IQ. pose proof (calm_is_reach S H G y V CR) as R.
  destruct (C61_request_served S OK H G GOK y V a k ind rn R O IT FOK NN KF KP FV RI IL I61 IQ) as (m & M1 & M2 & MS).
  exists m. split; [assumption|]. split; [assumption|]. intros y1 V1 i cr sr chal CR1 LT Em GU RO.
  destruct (MS y1 V1 cr LT RO) as (l & c2 & out & E1 & L1 & L2 & L3 & _ & _).
  destruct LT as (lt & GO & NE). destruct (open_goes S OK H G GOK y V lt y1 V1 R O GO NE) as [O1 SR]. destruct (view_eq _ _ SR) as (W1 & W2 & _).
  assert (ED : mDst m = co_addr (y_coord y1)) by (rewrite M2; unfold co_addr; now rewrite W1).
  destruct (request_fields S G k ind rn m M1) as (T & _ & FN & _).
  destruct IT as [Ek IT]. destruct (announced S OK H G GOK y V a k R O Ek IT) as (v & r & R0 & g & C & J1 & J2 & J3 & J4 & J5 & J6 & J7 & J8 & J9 & J10 & J11 & J12 & J13 & J14 & J15).
  assert (SRC : mSrc m = a).
  { rewrite <- J12. unfold cl_request in M1. cbv zeta in M1. clear - M1. odestruct M1. injection M1 as <-. reflexivity. }
  destruct (e_cl _ _ _ (reach_ses S OK H G GOK y V R NN) a k Ek) as [_ _ K3].
  assert (NG : in_group S (cl_nym k)) by (rewrite (K3 _ J7); unfold pt_mul; in_grp).
  assert (DN : dec_point S (enc_point S (cl_nym k)) = Some (cl_nym k)) by (now apply (dec_enc_point S OK)).
  assert (ES : exists y2, sys_step S H G y1 (ADeliver i cr sr chal) = Some y2 /\ y_coord y2 = c2).
  { cbn [sys_step]. rewrite Em. cbn zeta. destruct (keq (mDst m) _); [|contradiction]. rewrite E1. eexists. split; reflexivity. }
  destruct ES as (y2 & ES & EC). exists y2, l. split; [assumption|]. split; [assumption|]. split; [assumption|].
  assert (TK : forall x, In x l -> asNymR x = Some (cl_nym k) /\ takes y1 y2 (asAddr x) (asNym x)).
  { intros x Ix. destruct (L3 x Ix) as (U1 & U2 & U3). split; [assumption|]. split; [assumption|]. now rewrite EC. }
  split; [assumption|]. intros y3 V3 CL NS x Ix HN. destruct (TK x Ix) as [X1 X2]. destruct x as [xr xa xn]. cbn [asNymR asAddr asNym] in *. subst xr.
  assert (CK : exists k1, mget (y_clients y1) (mSrc m) = Some k1).
  { rewrite SRC. destruct (goes_client S H G y V lt y1 V1 GO a k Ek) as (k1 & Ek1 & _). now exists k1. }
  rewrite <- SRC in CL |- *.
  eapply (C71_assignment_delivered y1 V1 i cr sr chal m y2); try eassumption. unfold co_fb in *. now rewrite W1.
Qed.
End C71.

(** ** An instance *)
(** A checker for the conditions of [calm_later]. *)
Definition no_request (y : sys) (a : action) : bool :=
  match a with
  | ADeliver i _ _ _ => match nth_error (y_msgs y) i with Some m => negb (mType m =? REQUEST_BRIDGES) | None => true end
  | ALoop (EEnd _ _) => false
  | _ => true
  end.
Lemma no_request_ok S nym b y a : no_request y a = true -> alone S nym b y a /\ is_end a = false.
Proof.
  destruct a as [| |i cr sr chal|e|]; cbn; try (intros _; split; [exact I|reflexivity]).
  - intros E. split; [|reflexivity]. intros m bn Em T. rewrite Em, T in E. discriminate.
  - destruct e; try discriminate; intros _; (split; [exact I|reflexivity]).
Qed.
Fixpoint later_play (l : list (sys -> action)) (y : sys) (V : ledger) : option (sys * ledger) :=
  match l with
  | [] => Some (y, V)
  | f :: r =>
      let a := f y in
      if okb toy_suite false y V a && calmb toy_suite toy_gob y a && no_request y a then
        olet y' := sys_step toy_suite toy_oracle toy_gob y a in later_play r y' (ledger_step toy_suite y V a)
      else None
  end.
Lemma later_play_ok nym b l : forall y0 V0 y V y' V', calm_later toy_suite toy_oracle toy_gob nym b y0 V0 y V -> later_play l y V = Some (y', V') ->
  calm_later toy_suite toy_oracle toy_gob nym b y0 V0 y' V'.
Proof.
  induction l as [|f l IH]; cbn [later_play]; intros y0 V0 y V y' V' R E; [now injection E as <- <-|].
  destruct (_ && _ && _) eqn:EO; [|discriminate]. apply andb_true_iff in EO. destruct EO as [EO EN]. apply andb_true_iff in EO. destruct EO as [EO EC].
  destruct (sys_step _ _ _ y (f y)) as [y1|] eqn:ES; [|discriminate]. destruct (no_request_ok toy_suite nym b _ _ EN) as [AL NE].
  eapply IH; [|exact E]. eapply ca_step; try eassumption; [exact (proj2 (okb_guard _ _ _ _ _ EO) eq_refl)|now apply calmb_ok].
Qed.

(** D has posted a bridge and its request for it is on its way; the coordinator handles it;
    then everything on its way is delivered. *)
Definition toy_ask : list (sys -> action) :=
  toy_mid2 ++ [do (ACommand adD (CPost [x62; x32]%byte))] ++ dls 1 ++ [do (ACommand adD (CRequest 1 toy_rn))].
Lemma signed_unique S y x s1 s2 : signed_by_all S y x s1 -> signed_by_all S y x s2 -> s1 = s2.
Proof.
  intros (L1 & A1 & _ & C1) (L2 & A2 & _ & C2). apply nth_error_all. intros i. set (n := length (co_servers (y_coord y))) in *.
  destruct (Nat.lt_trichotomy i n) as [L|[->|L]].
  - destruct (nth_error (co_servers (y_coord y)) i) as [[a pk]|] eqn:E; [|apply nth_error_None in E; unfold n in L; lia].
    destruct (A1 i a pk E) as (s & Es & _ & ->). destruct (A2 i a pk E) as (s' & Es' & _ & ->). congruence.
  - congruence.
  - rewrite !(proj2 (nth_error_None _ _)) by lia. reflexivity.
Qed.
(** Everything to check about the state in which D's request is on its way. *)
Definition toy_x : assignment := Assign (Some 12) [x62; x32]%byte (Some 12).
Definition nonzero_full (y : sys) (x : assignment) : bool :=
  negb ((example_nonce toy_suite - co_priv (y_coord y) * sPick toy_suite (enc_point toy_suite 0) (enc_assignment toy_suite x ++
    genc_2d toy_gob (full toy_suite (key_of y) (co_static (y_coord y)) (co_servers (y_coord y)) x))) mod sQ toy_suite =? 0).
Definition after_ask (yv : sys * ledger) :=
  let y := fst yv in let V := snd yv in
  match sys_step toy_suite toy_oracle toy_gob y (tdl 0 y) with
  | Some y1 => Some (okb toy_suite false y V (tdl 0 y), mget (co_bridges (y_coord y1)) [x62; x32]%byte, co_fb (y_coord y1), nonzero_full y1 toy_x,
      match later_play (dls 5) y1 (ledger_step toy_suite y V (tdl 0 y)) with
      | Some (y2, _) => Some (y_msgs y2)
      | None => None
      end)
  | None => None
  end.
Example C71_instance : exists y V i cr sr chal m y1 bn y2 V2,
  calm_reach toy_suite toy_oracle toy_gob y V /\ open_round y /\ fo_nonneg (co_fb (y_coord y)) /\
  nth_error (y_msgs y) i = Some m /\ mType m = REQUEST_BRIDGES /\ mDst m = co_addr (y_coord y) /\
  (exists k, mget (y_clients y) (mSrc m) = Some k /\ cl_assigns k = []) /\
  get_bytes (mParams m) "nym"%str = Some bn /\ dec_point toy_suite bn = Some 12 /\
  guard toy_suite y V (ADeliver i cr sr chal) /\ sys_step toy_suite toy_oracle toy_gob y (ADeliver i cr sr chal) = Some y1 /\
  takes y y1 [x62; x32]%byte (Some 12) /\ handout_nonzero toy_suite toy_gob y1 toy_x /\
  calm_later toy_suite toy_oracle toy_gob 12 (mSrc m) y1 (ledger_step toy_suite y V (ADeliver i cr sr chal)) y2 V2 /\ no_signing y2.
Proof.
  destruct (calm_run toy_ask (fun yv => let y := fst yv in (co_status (y_coord y), co_fb (y_coord y), mget (co_bridges (y_coord y)) [x62; x32]%byte,
     map (fun m => (mType m, mDst m, mSrc m, get_bytes (mParams m) "nym"%str)) (y_msgs y), co_addr (y_coord y), option_map cl_assigns (mget (y_clients y) adD), after_ask yv))
    (3, toy_fb, Some (Some 12, false), [(REQUEST_BRIDGES, adC, adD, Some (enc_point toy_suite 12))], adC, Some [],
     Some (true, Some (Some 12, true), toy_fb, true, Some []))) as (y & V & CR & F); [vm_compute; reflexivity|]. cbv zeta in F. cbn [fst] in F.
  assert (F1 : co_status (y_coord y) = 3) by congruence. assert (F2 : co_fb (y_coord y) = toy_fb) by congruence.
  assert (F3 : mget (co_bridges (y_coord y)) [x62; x32]%byte = Some (Some 12, false)) by congruence.
  assert (F4 : map (fun m => (mType m, mDst m, mSrc m, get_bytes (mParams m) "nym"%str)) (y_msgs y) = [(REQUEST_BRIDGES, adC, adD, Some (enc_point toy_suite 12))]) by congruence.
  assert (F5 : co_addr (y_coord y) = adC) by congruence. assert (F6 : option_map cl_assigns (mget (y_clients y) adD) = Some []) by congruence.
  assert (F7 : after_ask (y, V) = Some (true, Some (Some 12, true), toy_fb, true, Some [])) by congruence. clear F.
  destruct (y_msgs y) as [|m [|m1 r]] eqn:EM; try discriminate F4. cbn [map] in F4.
  assert (M1 : mType m = REQUEST_BRIDGES) by congruence. assert (M2 : mDst m = adC) by congruence. assert (M3 : mSrc m = adD) by congruence.
  assert (M4 : get_bytes (mParams m) "nym"%str = Some (enc_point toy_suite 12)) by congruence. clear F4.
  unfold after_ask in F7. cbn [fst snd] in F7. destruct (sys_step toy_suite toy_oracle toy_gob y (tdl 0 y)) as [y1|] eqn:E1; [|discriminate].
  assert (G1 : okb toy_suite false y V (tdl 0 y) = true) by congruence. assert (G2 : mget (co_bridges (y_coord y1)) [x62; x32]%byte = Some (Some 12, true)) by congruence.
  assert (G3 : co_fb (y_coord y1) = toy_fb) by congruence. assert (G4 : nonzero_full y1 toy_x = true) by congruence.
  destruct (later_play (dls 5) y1 (ledger_step toy_suite y V (tdl 0 y))) as [[y2 V2]|] eqn:E2; [|discriminate]. assert (G5 : y_msgs y2 = []) by congruence. clear F7.
  destruct (mget (y_clients y) adD) as [k|] eqn:Ek; [|discriminate F6]. cbn [option_map] in F6.
  pose proof (proj2 (okb_guard _ _ _ _ _ G1) eq_refl) as GU.
  exists y, V, 0%nat. do 3 eexists. exists m, y1, (enc_point toy_suite 12), y2, V2. split; [assumption|]. split.
  { split; [assumption|]. split.
    - intros (_ & m0 & I0 & T0). rewrite EM in I0. destruct I0 as [<-|[]]. rewrite M1 in T0. discriminate.
    - intros m0 I0. rewrite EM in I0. destruct I0 as [<-|[]]. rewrite M1. discriminate. }
  rewrite F2. split; [vm_compute; intuition discriminate|]. split; [now rewrite EM|]. split; [assumption|]. split; [congruence|].
  split; [exists k; rewrite M3; split; [assumption|congruence]|]. split; [assumption|]. split; [vm_compute; reflexivity|].
  split; [exact GU|]. split; [exact E1|]. split; [now split|]. split; [|split].
  - assert (CR1 : calm_reach toy_suite toy_oracle toy_gob y1 (ledger_step toy_suite y V (tdl 0 y))).
    { eapply cr_step; try eassumption. intros m0 E0 T0. rewrite EM in E0. injection E0 as <-. rewrite M1 in T0. discriminate. }
    intros sigs SB. assert (sigs = full toy_suite (key_of y1) (co_static (y_coord y1)) (co_servers (y_coord y1)) toy_x).
    { eapply signed_unique; [exact SB|]. eapply (full_signed toy_suite toy_ok toy_oracle toy_gob toy_gob_ok); [exact CR1|]. rewrite G3. vm_compute. intuition discriminate. }
    subst sigs. unfold nonzero_full in G4. unfold response_nonzero. intros Z0. rewrite Z0 in G4. discriminate.
  - rewrite M3. eapply later_play_ok; [apply ca_refl|exact E2].
  - intros m0 I0. rewrite G5 in I0. destruct I0.
Qed.

Print Assumptions C71_assignment_delivered.
Print Assumptions C71_request_delivered.
