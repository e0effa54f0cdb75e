(** C72: an orderly session never stops a process. *)
From Coq Require Import ZArith Znumtheory Lia List Bool Permutation.
From Coq Require Import Strings.Byte.
From Coq Require String.
From Verif Require Import ZMod Bytes Suite Spec Pedersen ElGamal FujiOkam Equality Codec Maps Net Bridge Client
  Perm SimpleShuffle PairShuffle Server Coordinator History System Chain Prop_Pedersen Prop_FujiOkam Prop_Codec Prop_Coord Prop_Topology Prop_Chain Round RoundInv
  Prop_Round Session Prop_Session Signing Prop_Signing Progress Live Prop_Live Delivery Enrol Conduct.
Import ListNotations.
Import String.StringSyntax.
Open Scope Z_scope.
Delimit Scope string_scope with str.

(** ** Specification *)
(** What is left to the parties and their luck, for each action of an orderly session (see
    [conduct] and [orderly] in Conduct.v): a delivery is of a message on its way, and the
    draws of a shuffling server finish its proof; a round is begun when the previous one is
    over; a joining client has an address of its own; a vote names an assignment the client
    holds; a request asks for more than the client's reputation (and is refused at home) or
    is one the client can prove. *)
Definition provable (S : suite) (V : ledger) (y : sys) (k : client) (ind : Z) : Prop :=
  cl_fb k <> None /\ 0 <= cl_priv k /\ (forall v r, In (cl_pub k, (v, r)) V -> fits v) /\
  cl_rep k - ind < 2 ^ 61 /\ cl_rep k - ind < sQ S.
Definition feasible (S : suite) (H : oracle) (V : ledger) (y : sys) (a : action) : Prop :=
  match a with
  | ALaunch _ _ _ => False
  | AJoin b _ _ => b <> co_addr (y_coord y) /\ mget (y_servers y) b = None /\ mget (y_clients y) b = None
  | ADeliver i _ sr _ => exists m, nth_error (y_msgs y) i = Some m /\ draws_ok S H y m sr
  | ALoop (EBegin _ _) => round_over y
  | ALoop _ => True
  | ACommand _ (CPost _) => True
  | ACommand b (CVote id _) => forall k, mget (y_clients y) b = Some k -> 0 <= id < Z.of_nat (length (cl_assigns k))
  | ACommand b (CRequest ind _) => forall k, mget (y_clients y) b = Some k -> cl_rep k < ind \/ provable S V y k ind
  end.

Section Orderly.
Context (S : suite) (OK : suite_ok S) (H : oracle) (G : gob) (GOK : gob_ok G).

(** C72: in every orderly session, whatever is delivered next, started by the coordinator's
    loop or entered by a user, the process that handles it goes on. *)
Theorem C72_orderly_session_never_stops : forall y V a,
  orderly S H G y V -> trap_right (co_static (y_coord y)) -> guard S y V a -> conduct S y a -> feasible S H V y a ->
  exists y', sys_step S H G y a = Some y'.
Proof.
  intros y V a OR TR GU CD FE. pose proof (orderly_reach S H G y V OR) as R.
  enough (X : sys_step S H G y a <> None) by (destruct (sys_step S H G y a) as [y'|]; [now exists y'|contradiction]).
  destruct a as [b priv rk|b priv s|i cr sr chal|e|b cmd]; cbn [feasible] in FE.
  - destruct FE.
  - destruct FE as (F1 & F2 & F3). cbn [sys_step]. destruct (keq b _); [contradiction|]. rewrite F2, F3. discriminate.
  - destruct FE as (m & Em & DR). exact (orderly_live S OK H G GOK y V i m cr sr chal OR TR Em GU DR).
  - destruct e as [ty p src rn| |fakes ord| |ord rs]; try (destruct GU; fail).
    + exact (begin_live S OK H G GOK y V fakes ord R FE GU).
    + cbn [sys_step is_loop co_step begin_vote]. discriminate.
    + exact (end_live S OK H G GOK y V ord rs R GU).
  - destruct CD as (O & (k & IT) & RI). pose proof IT as [Ek _]. cbn [sys_step]. rewrite Ek. destruct cmd as [ba|ind rn|id f]; cbn [cl_command].
    + discriminate.
    + destruct (FE k Ek) as [L|(P1 & P2 & P3 & P4 & P5)].
      * unfold cl_request. destruct (Z.ltb_spec (cl_rep k) ind); [discriminate|lia].
      * destruct (Z.lt_ge_cases (cl_rep k) ind) as [L|L].
        -- unfold cl_request. destruct (Z.ltb_spec (cl_rep k) ind); [discriminate|lia].
        -- destruct TR as (T1 & T2 & _).
           destruct (C61_request_served S OK H G GOK y V b k ind rn R O IT T1 T2 P1 P2 P3 RI L P4 P5) as (m & E & _). rewrite E. discriminate.
    + specialize (FE k Ek). unfold cl_vote. cbv zeta. destruct (Z.ltb_spec id 0); [lia|].
      destruct (nth_error (cl_assigns k) (Z.to_nat id)) as [[x bs]|] eqn:EN; [discriminate|].
      apply nth_error_None in EN. lia.
Qed.

(** Once ended, a round of an orderly session is over after a fixed number of deliveries,
    whatever their order: nobody stops on a vote. *)
Theorem C72_orderly_round_closes : forall y V ord rs,
  orderly S H G y V -> fo_nonneg (co_fb (y_coord y)) -> guard S y V (ALoop (EEnd ord rs)) ->
  exists y1, sys_step S H G y (ALoop (EEnd ord rs)) = Some y1 /\
    surely S H G (n_servers y + 2 * n_clients y + 1) round_over y1 (ledger_step S y V (ALoop (EEnd ord rs))).
Proof.
  intros y V ord rs OR NN GU. apply (C66_round_closes S OK H G GOK y V ord rs); [now apply orderly_reach|assumption|].
  apply (h_diffs S G y (orderly_hon S OK H G GOK y V OR NN)). apply GU.
Qed.
End Orderly.

(** ** Concrete sessions *)
Import Prop_Bridge Prop_Shuffle Prop_Assign.
Definition openb (y : sys) : bool :=
  (co_status (y_coord y) =? CO_MESSAGE) && negb (has_end y) && forallb (fun m => negb (mType m =? ANNOUNCEMENT_FINALIZE)) (y_msgs y).
Lemma openb_ok y : openb y = true -> open_round y.
Proof.
  unfold openb. intros E. bands E. apply Z.eqb_eq in E. apply negb_true_iff in X0. apply has_end_no in X0. split; [assumption|]. split; [assumption|].
  intros m Im T. rewrite forallb_forall in X. specialize (X m Im). rewrite T in X. discriminate.
Qed.
Definition traffic_b (c : coord) (m : msg) : bool :=
  existsb (Z.eqb (mType m)) [POST_BRIDGE; REQUEST_BRIDGES; SIGN_ASSIGNMENTS; GOT_SIGNS] ||
  ((mType m =? Net.VOTE) && if keq (mDst m) (co_addr c) then true else false).
Definition conductb (y : sys) (a : action) : bool :=
  match a with
  | ACommand b cmd => openb y &&
      match mget (y_clients y) b with
      | Some k => existsb (Z.eqb (nym_of toy_suite y (cl_pub k))) (mkeys (co_ecomms (y_coord y)))
      | None => false
      end && match cmd with CRequest _ rn => secretb toy_suite (rqInd rn) | _ => true end
  | ALoop (EEnd _ _) => forallb (fun m => negb (traffic_b (y_coord y) m)) (y_msgs y)
  | ADeliver _ _ _ chal => (length chal =? 480)%nat
  | _ => true
  end.
Lemma conductb_ok y a : conductb y a = true -> conduct toy_suite y a.
Proof.
  destruct a as [b priv rk|b priv s|i cr sr chal|e|b cmd]; cbn [conductb conduct long_chal]; try exact (fun _ => I).
  - intros E m _ _. now apply Nat.eqb_eq.
  - destruct e; cbn [long_chal]; try exact (fun _ => I). intros E m Im T. rewrite forallb_forall in E. specialize (E m Im). apply negb_true_iff in E.
    unfold traffic_b in E. apply orb_false_iff in E. destruct E as [E1 E2]. destruct T as [T|[T1 T2]].
    + assert (X : existsb (Z.eqb (mType m)) [POST_BRIDGE; REQUEST_BRIDGES; SIGN_ASSIGNMENTS; GOT_SIGNS] = true); [|congruence].
      apply existsb_exists. exists (mType m). split; [assumption|apply Z.eqb_refl].
    + rewrite T1 in E2. destruct (keq (mDst m) _); [discriminate E2|contradiction].
  - intros E. bands E. split; [now apply openb_ok|]. destruct (mget (y_clients y) b) as [k|] eqn:Ek; [|discriminate]. split.
    + exists k. split; [assumption|]. apply existsb_exists in X0. destruct X0 as (n & In0 & En). apply Z.eqb_eq in En. now rewrite En.
    + destruct cmd; try exact I. now apply secretb_ok.
Qed.
Fixpoint orderly_play (l : list (sys -> action)) (y : sys) (V : ledger) : option (sys * ledger) :=
  match l with
  | [] => Some (y, V)
  | f :: r =>
      let a := f y in
      if okb toy_suite false y V a && conductb y a then
        olet y' := sys_step toy_suite toy_oracle toy_gob y a in orderly_play r y' (ledger_step toy_suite y V a)
      else None
  end.
Lemma toy_s_orderly : orderly toy_suite toy_oracle toy_gob toy_s [].
Proof.
  assert (X : exists y V, orderly toy_suite toy_oracle toy_gob y V /\ y = toy_s /\ V = []); [|now destruct X as (y & V & X & -> & ->)].
  destruct (sys_run toy_suite toy_oracle toy_gob toy_z0 toy_conf) as [y1|] eqn:E1; [|vm_compute in E1; discriminate].
  destruct (sys_step toy_suite toy_oracle toy_gob y1 (ALoop EConfigure)) as [y2|] eqn:E2.
  2:{ exfalso. vm_compute in E1. injection E1 as <-. vm_compute in E2. discriminate E2. }
  exists y2, []. split; [|split; [unfold toy_s, toy_started; now rewrite E1, E2|reflexivity]].
  eapply (o_start toy_suite toy_oracle toy_gob adC 5 toy_fb toy_trap (repeat 3 480) toy_conf y1 y2); try assumption.
  - repeat (constructor; [exact I || (cbn; unfold rel_prime; apply Zis_gcd_intro; [apply Z.divide_1_l| apply Z.divide_1_l| ]; intros x Hx Hy)|]); try constructor.
    + apply (Z.divide_sub_r _ (4 * 3) 11); [now apply Z.divide_mul_r|assumption].
    + apply (Z.divide_sub_r _ 11 (2 * 5)); [assumption|now apply Z.divide_mul_r].
  - vm_compute in E1. injection E1 as <-. reflexivity.
  - vm_compute in E1. injection E1 as <-. discriminate.
Qed.
Lemma orderly_play_orderly l : forall y V y' V', orderly toy_suite toy_oracle toy_gob y V -> orderly_play l y V = Some (y', V') ->
  orderly toy_suite toy_oracle toy_gob y' V'.
Proof.
  induction l as [|f l IH]; cbn [orderly_play]; intros y V y' V' R E; [now injection E as <- <-|].
  destruct (okb toy_suite false y V (f y) && conductb y (f y)) eqn:EO; [|discriminate]. apply andb_true_iff in EO. destruct EO as [EO EC].
  destruct (sys_step _ _ _ y (f y)) as [y1|] eqn:ES; [|discriminate].
  exact (IH _ _ _ _ (o_step toy_suite toy_oracle toy_gob y V (f y) y1 R (proj2 (okb_guard _ _ _ _ _ EO) eq_refl) (conductb_ok _ _ EC) ES) E).
Qed.
Lemma orderly_run {B} l (f : sys * ledger -> B) b : option_map f (orderly_play l toy_s []) = Some b ->
  exists y V, orderly toy_suite toy_oracle toy_gob y V /\ f (y, V) = b.
Proof.
  destruct (orderly_play l toy_s []) as [[y V]|] eqn:E; cbn [option_map]; [|discriminate]. intros [= <-]. exists y, V.
  split; [exact (orderly_play_orderly _ _ _ _ _ toy_s_orderly E)|reflexivity].
Qed.

Lemma toy_trap_right : trap_right (CoStatic adC 5 (pt_mul_base toy_suite 5) toy_fb toy_trap (repeat 3 480)
  (snd (gn_generate_all toy_fb (repeat 3 480)))).
Proof.
  split; [exact toy_fb_ok|]. split; [vm_compute; intuition discriminate|]. split; [apply repeat_length|]. exact (proj1 C10_instance).
Qed.

(** Two rounds: D joins in the first; in the second it posts a bridge, requests it, gets it
    and votes for it; the vote is on its way. *)
Example C72_instance : exists y V i cr sr chal m, orderly toy_suite toy_oracle toy_gob y V /\ trap_right (co_static (y_coord y)) /\
  nth_error (y_msgs y) i = Some m /\ mType m = Net.VOTE /\ guard toy_suite y V (ADeliver i cr sr chal) /\
  conduct toy_suite y (ADeliver i cr sr chal) /\ feasible toy_suite toy_oracle V y (ADeliver i cr sr chal).
Proof.
  destruct (orderly_run (toy_upto_vote) (fun yv => let y := fst yv in (co_static (y_coord y), map mType (y_msgs y), okb toy_suite false y (snd yv) (tdl 0 y), conductb y (tdl 0 y)))
    (CoStatic adC 5 (pt_mul_base toy_suite 5) toy_fb toy_trap (repeat 3 480) (snd (gn_generate_all toy_fb (repeat 3 480))), [Net.VOTE], true, true))
    as (y & V & OR & F); [vm_compute; reflexivity|]. cbv zeta in F. cbn [fst snd] in F.
  assert (F1 : co_static (y_coord y) = CoStatic adC 5 (pt_mul_base toy_suite 5) toy_fb toy_trap (repeat 3 480) (snd (gn_generate_all toy_fb (repeat 3 480)))) by congruence.
  assert (F2 : map mType (y_msgs y) = [Net.VOTE]) by congruence. assert (F3 : okb toy_suite false y V (tdl 0 y) = true) by congruence.
  assert (F4 : conductb y (tdl 0 y) = true) by congruence. clear F.
  destruct (y_msgs y) as [|m M] eqn:EM; [discriminate|]. assert (T : mType m = Net.VOTE) by (cbn [map] in F2; congruence).
  pose proof (proj2 (okb_guard _ _ _ _ _ F3) eq_refl) as GU. apply conductb_ok in F4. unfold tdl in GU, F4.
  exists y, V, 0%nat. do 3 eexists. exists m. split; [assumption|]. split; [rewrite F1; exact toy_trap_right|]. rewrite EM. split; [reflexivity|].
  split; [assumption|]. split; [exact GU|]. split; [exact F4|].
  exists m. rewrite EM. split; [reflexivity|]. intros [X|X]; rewrite T in X; discriminate X.
Qed.
(** The vote has been counted and the round ended: the next one can begin. *)
Example C72_instance_round : exists y V fakes ord, orderly toy_suite toy_oracle toy_gob y V /\ trap_right (co_static (y_coord y)) /\
  guard toy_suite y V (ALoop (EBegin fakes ord)) /\ conduct toy_suite y (ALoop (EBegin fakes ord)) /\
  feasible toy_suite toy_oracle V y (ALoop (EBegin fakes ord)) /\ V = [(2, (0, 12)); (3, (6, 21))].
Proof.
  destruct (orderly_run toy_ready2 (fun yv => let y := fst yv in (co_static (y_coord y), co_status (y_coord y), okb toy_suite false y (snd yv) (tbegin [] y), snd yv))
    (CoStatic adC 5 (pt_mul_base toy_suite 5) toy_fb toy_trap (repeat 3 480) (snd (gn_generate_all toy_fb (repeat 3 480))), CO_READY_FOR_NEW_ROUND, true, [(2, (0, 12)); (3, (6, 21))]))
    as (y & V & OR & F); [vm_compute; reflexivity|]. cbv zeta in F. cbn [fst snd] in F.
  assert (F1 : co_static (y_coord y) = CoStatic adC 5 (pt_mul_base toy_suite 5) toy_fb toy_trap (repeat 3 480) (snd (gn_generate_all toy_fb (repeat 3 480)))) by congruence.
  assert (F2 : co_status (y_coord y) = CO_READY_FOR_NEW_ROUND) by congruence. assert (F3 : okb toy_suite false y V (tbegin [] y) = true) by congruence.
  assert (F4 : V = [(2, (0, 12)); (3, (6, 21))]) by congruence. clear F.
  pose proof (proj2 (okb_guard _ _ _ _ _ F3) eq_refl) as GU. unfold tbegin in GU.
  exists y, V. do 2 eexists. split; [assumption|]. split; [rewrite F1; exact toy_trap_right|]. split; [exact GU|]. split; [exact I|]. split; assumption.
Qed.

(** ** Without the discipline on commands *)
(** A client that posts a bridge before it has a pseudonym stops the coordinator. *)
Definition toy_hasty : list (sys -> action) :=
  dls 2 ++ [tbegin [(6, 2)]] ++ dls 5 ++ [do (AJoin adD 4 8); do (ACommand adD (CPost [x62; x32]%byte))].
Theorem C65_hasty_post_stops_refuted : ~ (forall S H G, suite_ok S -> gob_ok G -> forall y V,
  calm_reach S H G y V -> forall i cr sr chal m, nth_error (y_msgs y) i = Some m -> mType m = POST_BRIDGE ->
  guard S y V (ADeliver i cr sr chal) -> sys_step S H G y (ADeliver i cr sr chal) <> None).
Proof.
  intros X.
  destruct (calm_run toy_hasty (fun yv => let y := fst yv in (map mType (y_msgs y),
     okb toy_suite false y (snd yv) (tdl 1 y), match sys_step toy_suite toy_oracle toy_gob y (tdl 1 y) with None => true | Some _ => false end))
    ([CLIENT_REGISTER_CONTROLLERSIDE; POST_BRIDGE], true, true)) as (y & V & R & F); [vm_compute; reflexivity|]. cbv zeta in F. cbn [fst snd] in F.
  assert (F1 : map mType (y_msgs y) = [CLIENT_REGISTER_CONTROLLERSIDE; POST_BRIDGE]) by congruence.
  assert (F4 : okb toy_suite false y V (tdl 1 y) = true) by congruence.
  assert (F5 : match sys_step toy_suite toy_oracle toy_gob y (tdl 1 y) with None => true | Some _ => false end = true) by congruence.
  destruct (y_msgs y) as [|m0 [|m M]] eqn:EM; try discriminate F1. assert (T : mType m = POST_BRIDGE) by (cbn [map] in F1; congruence).
  pose proof (proj2 (okb_guard _ _ _ _ _ F4) eq_refl) as GU. unfold tdl in GU, F5.
  eapply (X _ _ _ toy_ok toy_gob_ok y V R) in GU; [|rewrite EM; reflexivity|exact T]. destruct (sys_step _ _ _ _ _); [discriminate|now apply GU].
Qed.

Print Assumptions C72_orderly_session_never_stops.
Print Assumptions C72_orderly_round_closes.
Print Assumptions C65_hasty_post_stops_refuted.
