(** Whole sessions: C61 (a request of a client of the table is served), C62 (a server signs
    exactly what it has checked itself). *)
From Coq Require Import ZArith Znumtheory Lia List Bool Permutation.
From Coq Require Import Strings.Byte.
From Coq Require String.
From Verif Require Import ZMod Bytes Suite Spec Pedersen ElGamal FujiOkam Equality Codec Maps Net Bridge Client
  Perm SimpleShuffle PairShuffle Server Coordinator History System Chain Prop_Topology Prop_Chain Round RoundInv
  Prop_Pedersen Prop_ElGamal Prop_FujiOkam Prop_Shuffle Prop_Codec Prop_Bridge Prop_Assign Prop_Coord Prop_Round Session.
Import ListNotations.
Import String.StringSyntax.
Open Scope Z_scope.
Delimit Scope string_scope with str.

(** A later state of the same round. *)
Definition later (S : suite) (H : oracle) (G : gob) (y : sys) (V : ledger) (y' : sys) (V' : ledger) : Prop :=
  exists l, goes S H G y V l y' V' /\ existsb is_end l = false.
(** The client at [a] is in the table announced for this round. *)
Definition in_table (S : suite) (y : sys) (a : addr) (k : client) : Prop :=
  mget (y_clients y) a = Some k /\ In (nym_of S y (cl_pub k)) (mkeys (co_ecomms (y_coord y))).

Section Serve.
Context (S : suite) (OK : suite_ok S) (H : oracle) (G : gob) (GOK : gob_ok G).

Lemma view_eq y y' : same_round y y' -> co_static (y_coord y') = co_static (y_coord y) /\ co_servers (y_coord y') = co_servers (y_coord y) /\
  co_first (y_coord y') = co_first (y_coord y) /\ co_G (y_coord y') = co_G (y_coord y) /\ co_ecomms (y_coord y') = co_ecomms (y_coord y) /\
  co_keys (y_coord y') = co_keys (y_coord y) /\ co_pb (y_coord y') = co_pb (y_coord y).
Proof. intros [E _]. unfold round_view in E. injection E as -> -> _ -> -> _ -> -> ->. repeat split. Qed.

Lemma open_first y V : reach S H G y V -> open_round y -> co_first (y_coord y) = false.
Proof.
  intros R (O1 & O2 & O3). destruct (reach_inv S OK H G GOK y V R) as [B P].
  destruct P as [T A|T i p keys vals GT HT A|T0 T1 K A|T n M1 p keys vals GT HT A]; try apply A.
  pose proof (p1_status _ _ _ _ _ _ _ A) as X. rewrite O1 in X. discriminate.
Qed.

(** The fields of a request. *)
Lemma request_fields k ind rn m : cl_request S G k ind rn = Some (Some m) ->
  mType m = REQUEST_BRIDGES /\ get_int (mParams m) "ind"%str = Some ind /\ get_bytes (mParams m) "nym"%str = Some (enc_point S (cl_nym k)) /\
  (exists mm, msg_request (mParams m) = Some mm) /\ exists sig, get_bytes (mParams m) "signature"%str = Some sig.
Proof.
  unfold cl_request. cbv zeta. intros E. odestruct E. injection E as <-. cbn [mType mParams].
  split; [reflexivity|]. split; [reflexivity|]. split; [reflexivity|]. split; eexists; reflexivity.
Qed.

(** C61: in a round whose announcement has reached everybody, a client of the table asks for
    any [ind] up to its reputation; whenever in the same round the coordinator handles the
    request it assigns exactly min(ind, unused) bridges, and every server, whenever in the
    same round it handles the message the coordinator sends it, signs each of them. *)
Theorem C61_request_served : forall y V a k ind rn,
  reach S H G y V -> open_round y -> in_table S y a k ->
  fobase_ok (co_fb (y_coord y)) -> fo_nonneg (co_fb (y_coord y)) -> cl_fb k <> None -> 0 <= cl_priv k ->
  (forall v r, In (cl_pub k, (v, r)) V -> fits v) ->
  0 <= rqInd rn < sQ S -> ind <= cl_rep k -> cl_rep k - ind < 2 ^ 61 -> cl_rep k - ind < sQ S ->
  exists m, cl_request S G k ind rn = Some (Some m) /\ mDst m = co_addr (y_coord y) /\
  forall y1 V1 cr, later S H G y V y1 V1 ->
  (forall i, range_order (crBridges cr i) (co_bridges (y_coord y1))) ->
  exists l c2 out, co_handle S G (y_coord y1) (mType m) (mParams m) (mSrc m) cr = Some (c2, out) /\
    Z.of_nat (length l) = Z.min (Z.max ind 0) (Z.of_nat (length (unused (y_coord y1)))) /\
    NoDup (map asAddr l) /\
    (forall x, In x l -> asNymR x = Some (cl_nym k) /\ mget (co_bridges (y_coord y1)) (asAddr x) = Some (asNym x, false) /\
       mget (co_bridges c2) (asAddr x) = Some (asNym x, true)) /\
    (l <> [] -> map mDst out = map fst (co_servers (y_coord y1))) /\
    forall m2 y2 V2 sr, In m2 out -> later S H G y1 V1 y2 V2 ->
      exists s b, mget (y_servers y2) (mDst m2) = Some s /\ dec_assignments S G b = Some l /\
        sv_handle S H G s (mType m2) (mParams m2) (mSrc m2) sr = Some (s,
          [Msg (co_addr (y_coord y)) GOT_SIGNS
             [("success"%str, VBool true); ("assignments"%str, VBytes b);
              ("signatures"%str, VBytes (genc_2d G (map (fun x =>
                 eg_sign S (example_nonce S) (enc_assignment S x) (sv_priv s) (Some pt_new)) l)))] (sv_addr s)]).
Proof.
  intros y V a k ind rn R O [Ek IT] FOK NN KF KP FV RI IL I61 IQ.
  destruct (announced S OK H G GOK y V a k R O Ek IT) as (v & r & R0 & g & C & J1 & J2 & J3 & J4 & J5 & J6 & J7 & J8 & J9 & J10 & J11 & J12 & J13 & J14 & J15).
  pose proof (reach_ses S OK H G GOK y V R NN) as SE. destruct (e_cl _ _ _ SE a k Ek) as [K1 K2 K3].
  destruct K1 as [K1|[K1 _]]; [contradiction|]. pose proof (K2 _ J2) as KR. pose proof (K3 _ J7) as KN.
  assert (FR : fits v) by (eapply FV; exact J1). rewrite (fits_int64 v FR) in J4.
  destruct J9 as [GT1 HT1].
  assert (NG : in_group S (cl_nym k)) by (rewrite KN; unfold pt_mul; in_grp).
  destruct (C28_honest_accepted S G OK GOK k g C R0 (co_fb (y_coord y)) ind rn) as (m & M1 & M2 & M3 & M4 & M5 & M6); try assumption; try lia.
  { rewrite KN. unfold pt_mul. pose proof (sP_gt1 S OK). rewrite <- zexp_pos by lia. reflexivity. }
  { rewrite J8. now apply member_in_group. } { rewrite J8. now apply member_in_group. }
  { rewrite J8, J4. unfold opens in J15. now rewrite (Z.mod_small R0) in J15. }
  exists m. split; [assumption|]. split; [congruence|]. intros y1 V1 cr (l1 & GO1 & NE1) RO.
  destruct (request_fields _ _ _ _ M1) as (F1 & F2 & F3 & (mm & F4) & (sig & F5)).
  destruct (open_goes S OK H G GOK y V l1 y1 V1 R O GO1 NE1) as [O1 SR1]. pose proof (goes_reach S H G _ _ _ _ _ GO1 R) as R1.
  destruct (view_eq _ _ SR1) as (W1 & W2 & W3 & W4 & W5 & W6 & W7).
  assert (WF : co_fb (y_coord y1) = co_fb (y_coord y)) by (unfold co_fb; now rewrite W1).
  assert (WA : co_addr (y_coord y1) = co_addr (y_coord y)) by (unfold co_addr; now rewrite W1).
  assert (DN : dec_point S (enc_point S (cl_nym k)) = Some (cl_nym k)) by (now apply (dec_enc_point S OK)).
  assert (VI : verify_ind S G (cl_pb k) (co_fb (y_coord y)) (mParams m) (Some C) = Some true) by (apply M6; intros ? ?; reflexivity).
  assert (RV : request_valid S G (y_coord y1) (mParams m) ind (cl_nym k)).
  { exists (enc_point S (cl_nym k)), sig, mm. split; [assumption|]. split; [assumption|]. split; [assumption|].
    split; [now apply member_in_group|]. split; [pose proof (dec_enc_unchecked S _ NG) as X; exact X|]. split; [assumption|]. split.
    - unfold verify_sig in M5. rewrite F3, DN, F5, F4 in M5. rewrite W4, J5. congruence.
    - rewrite W7, WF, W5, J14, <- J8. exact VI. }
  destruct (reach_run S H G y1 V1 R1) as (self & a0 & fb & trap & gammas & t & RR).
  pose proof (run_reqs S H G self a0 fb trap gammas t _ RR (open_first y1 V1 R1 O1)) as RQ.
  destruct (C46_exact S G OK GOK self a0 fb trap gammas t _ RR RQ (mParams m) (mSrc m) cr ind (cl_nym k) RV RO)
    as (l & c2 & out & Q1 & Q2 & Q3 & Q4 & Q5 & Q6 & Q7).
  exists l, c2, out. rewrite F1. split; [assumption|]. split; [assumption|]. split; [assumption|]. split.
  { intros x Ix. destruct (Q4 x Ix) as (U1 & U2 & U3 & U4). auto. }
  split; [intros Nl; apply (Q7 Nl)|].
  intros m2 y2 V2 sr I2 (l2 & GO2 & NE2).
  destruct (open_goes S OK H G GOK y1 V1 l2 y2 V2 R1 O1 GO2 NE2) as [O2 SR2]. pose proof (goes_reach S H G _ _ _ _ _ GO2 R1) as R2.
  destruct (view_eq _ _ SR2) as (X1 & X2 & X3 & X4 & X5 & X6 & X7).
  assert (NL : l <> []) by (intros E; rewrite (Q6 E) in I2; destruct I2).
  destruct (Q7 NL) as [DS AS]. destruct (AS m2 I2) as (T2 & b & B1 & B2).
  assert (ID : In (mDst m2) (map fst (co_servers (y_coord y2)))) by (rewrite X2, <- DS; now apply in_map).
  destruct (reach_inv S OK H G GOK y2 V2 R2) as [BB _]. apply (b_srv _ _ _ _ _ BB) in ID.
  destruct (mget (y_servers y2) (mDst m2)) as [s|] eqn:Es; [|contradiction]. exists s, b. split; [reflexivity|]. split; [assumption|].
  assert (NN2 : fo_nonneg (co_fb (y_coord y2))) by (unfold co_fb in *; now rewrite X1, W1).
  destruct (e_sv _ _ _ (reach_ses S OK H G GOK y2 V2 R2 NN2) _ _ Es) as [SF _].
  destruct O2 as (O21 & O22 & O23).
  destruct (proj1 (C44_agreement S OK H G GOK y2 V2 R2 O21 O22 O23) _ _ Es) as (_ & SPB & SEC & _).
  (* the message sent to the servers *)
  change (co_handle S G (y_coord y1) REQUEST_BRIDGES (mParams m) (mSrc m) cr) with (co_request S G (y_coord y1) (mParams m) (mSrc m) cr) in Q1.
  assert (PM : exists bb fo pd pi ri nn eq, mParams m2 =
     [("assignments"%str, VBytes bb); ("ind"%str, VInt ind); ("nym"%str, VBytes (enc_point S (cl_nym k)));
             ("FOCommd"%str, VBytes fo); ("PCommd"%str, VBytes pd); ("PCommind"%str, VBytes pi);
             ("rind"%str, VBytes ri); ("arg_nonneg"%str, VBytes nn); ("arg_equal"%str, VBytes eq)] /\
     mSrc m2 = co_addr (y_coord y1) /\
     get_bytes (mParams m) "FOCommd"%str = Some fo /\ get_bytes (mParams m) "PCommd"%str = Some pd /\ get_bytes (mParams m) "PCommind"%str = Some pi /\
     get_bytes (mParams m) "rind"%str = Some ri /\ get_bytes (mParams m) "arg_nonneg"%str = Some nn /\ get_bytes (mParams m) "arg_equal"%str = Some eq).
  { clear - Q1 I2 F2 F3. unfold co_request in Q1. rewrite F2, F3 in Q1. odestruct Q1; injection Q1 as <- <-; try (destruct I2; fail).
    apply in_map_iff in I2. destruct I2 as (sv & <- & _). cbn [mParams mSrc]. do 7 eexists. split; [reflexivity|].
    split; [|repeat split; assumption].
    match goal with X : open_assignments S ?q ?l = Some ?z |- _ => destruct (open_total S l q) as (x & Hx); rewrite Hx in X; injection X as <- end.
    match goal with X : assign_bridges _ _ _ _ = _ |- _ => unfold assign_bridges in X end.
    match goal with X : (let '(_, _) := ?g in _) = _ |- _ => destruct g; injection X as _ <- end. reflexivity. }
  destruct PM as (bb & fo & pd & pi & ri & nn & eq & PM & PS & P1 & P2 & P3 & P4 & P5 & P6).
  assert (bb = b) by (rewrite PM in B1; unfold get_bytes in B1; cbn [lookup String.eqb Ascii.eqb Bool.eqb] in B1; congruence). subst bb.
  rewrite T2. change (sv_handle S H G s SIGN_ASSIGNMENTS (mParams m2) (mSrc m2) sr) with (sv_sign S G s (mParams m2) (mSrc m2)).
  unfold sv_sign. rewrite SF, SPB, SEC.
  assert (VI2 : verify_ind S G (co_pb (y_coord y2)) (co_fb (y_coord y2)) (mParams m2) (Some C) = Some true).
  { replace (co_pb (y_coord y2)) with (cl_pb k) by (rewrite X7, W7; exact J8).
    replace (co_fb (y_coord y2)) with (co_fb (y_coord y)) by (unfold co_fb in *; now rewrite X1, W1).
    apply M6. rewrite PM. intros q Iq.
    assert (GB : forall z b0, get_bytes (mParams m) z = Some b0 -> lookup (mParams m) z = Some (VBytes b0)).
    { intros z b0. unfold get_bytes. destruct (lookup (mParams m) z) as [[]|]; try discriminate. now intros [= ->]. }
    assert (GI : lookup (mParams m) "ind"%str = Some (VInt ind)).
    { clear - F2. unfold get_int in F2. destruct (lookup (mParams m) "ind"%str) as [[]|]; try discriminate. now injection F2 as ->. }
    cbn [In] in Iq. repeat (destruct Iq as [<-|Iq]; [rewrite ?GI; try (erewrite GB by eassumption); reflexivity|]). destruct Iq. }
  rewrite B1.
  replace (get_bytes (mParams m2) "nym"%str) with (Some (enc_point S (cl_nym k))) by (rewrite PM; reflexivity).
  rewrite DN, X5, W5, J14, VI2. cbn [negb]. rewrite B2, PS, WA. reflexivity.
Qed.
End Serve.

(** ** C62 *)
(** The response of the signature of [msg] with key [x] on the zero base is not 0. *)
Definition response_nonzero (S : suite) (x : Z) (msg : bytes) : Prop :=
  (example_nonce S - x * sPick S (enc_point S 0) msg) mod sQ S <> 0.

Lemma zero_base_sign S : suite_ok S -> forall x msg pk, response_nonzero S x msg ->
  eg_verify S msg pk (eg_sign S (example_nonce S) msg x (Some pt_new)) (Some pt_new) = true.
Proof.
  intros OK x msg pk N. pose proof (sQ_gt1 S OK) as HQ. pose proof (sP_gt1 S OK) as HP.
  pose proof (ok_nonce S OK example_key) as HN. fold (example_nonce S) in HN.
  unfold eg_sign. set (v := example_nonce S) in *. unfold pt_mul_opt, pt_new.
  assert (T0 : pt_mul S 0 v = 0) by (unfold pt_mul; rewrite zexp_pos by lia; rewrite Z.pow_0_l by lia; apply Z.mod_0_l; lia).
  rewrite T0. set (c := hash_elgamal S msg 0). unfold eg_verify.
  rewrite (eg_read_sign S OK); [|now apply pick_secret|now apply sec_range_sub].
  unfold pt_mul_opt, pt_new. rewrite (zero_base_T S OK); [apply Z.eqb_refl|].
  assert (E : sec_sub S v (sec_mul S x c) = (v - x * c) mod sQ S) by (unfold sec_sub, sec_mul; apply Zminus_mod_idemp_r).
  rewrite E. pose proof (Z.mod_pos_bound (v - x * c) (sQ S) ltac:(lia)).
  unfold response_nonzero in N. fold v in N. unfold c, hash_elgamal in *. lia.
Qed.

Section Sign.
Context (S : suite) (OK : suite_ok S) (H : oracle) (G : gob) (GOK : gob_ok G).

(** C62: once the announcement has reached everybody, a server that is asked, by anybody, to
    sign assignments answers the sender; it reports success exactly if the request's
    proofs verify against the table, Pedersen base and Fujisaki-Okamoto base of the
    coordinator; if they do not, the answer holds no signature; if they do, it holds one
    signature for each assignment of the message, made with the private key that belongs
    to the public key the coordinator has for this server; and those verify. *)
Theorem C62_signs_what_verifies : forall y V a s p src sr s' out,
  reach S H G y V -> open_round y -> fo_nonneg (co_fb (y_coord y)) -> mget (y_servers y) a = Some s ->
  sv_handle S H G s SIGN_ASSIGNMENTS p src sr = Some (s', out) ->
  s' = s /\
  exists bn nym ok m, get_bytes p "nym"%str = Some bn /\ dec_point S bn = Some nym /\
    verify_ind S G (co_pb (y_coord y)) (co_fb (y_coord y)) p (mget (co_ecomms (y_coord y)) nym) = Some ok /\
    out = [m] /\ mDst m = src /\ mType m = GOT_SIGNS /\ get_bool (mParams m) "success"%str = Some ok /\
    (ok = false -> get_bytes (mParams m) "signatures"%str = None) /\
    (ok = true -> exists ba l bs sigs pk x, get_bytes p "assignments"%str = Some ba /\
       get_bytes (mParams m) "assignments"%str = Some ba /\ dec_assignments S G ba = Some l /\
       get_bytes (mParams m) "signatures"%str = Some bs /\ gdec_2d G bs = Some sigs /\ length sigs = length l /\
       In (a, pk) (co_servers (y_coord y)) /\ pk = pt_mul_base S x /\
       forall i asg, nth_error l i = Some asg -> exists sig, nth_error sigs i = Some sig /\
         sig = eg_sign S (example_nonce S) (enc_assignment S asg) x (Some pt_new) /\
         (response_nonzero S x (enc_assignment S asg) -> eg_verify S (enc_assignment S asg) pk sig (Some pt_new) = true)).
Proof.
  intros y V a s p src sr s' out R O NN Es E.
  change (sv_handle S H G s SIGN_ASSIGNMENTS p src sr) with (sv_sign S G s p src) in E.
  pose proof (reach_ses S OK H G GOK y V R NN) as SE. destruct (e_sv _ _ _ SE _ _ Es) as [SF SP].
  pose proof O as (O1 & O2 & O3).
  destruct (proj1 (C44_agreement S OK H G GOK y V R O1 O2 O3) _ _ Es) as (_ & SPB & SEC & _).
  destruct (reach_inv S OK H G GOK y V R) as [BB _].
  assert (IA : In a (map fst (co_servers (y_coord y)))).
  { apply (b_srv _ _ _ _ _ BB). congruence. }
  apply in_map_iff in IA. destruct IA as ([a' pk] & Ea & IA). cbn [fst] in Ea. subst a'.
  pose proof (e_pk _ _ _ SE _ _ _ IA Es) as EPK.
  unfold sv_sign in E. rewrite SF, SPB, SEC in E.
  destruct (get_bytes p "nym"%str) as [bn|] eqn:En; [|discriminate]. destruct (dec_point S bn) as [nym|] eqn:Ed; [|discriminate].
  destruct (verify_ind S G (co_pb (y_coord y)) (co_fb (y_coord y)) p (mget (co_ecomms (y_coord y)) nym)) as [ok|] eqn:EV; [|discriminate].
  destruct ok; cbn [negb] in E.
  - destruct (get_bytes p "assignments"%str) as [ba|] eqn:Eb; [|discriminate]. destruct (dec_assignments S G ba) as [l|] eqn:El; [|discriminate].
    cbv zeta in E. injection E as <- <-. split; [reflexivity|]. exists bn, nym, true. eexists.
    do 3 (split; [reflexivity || assumption|]). split; [reflexivity|]. split; [reflexivity|]. split; [reflexivity|]. split; [reflexivity|].
    split; [discriminate|]. intros _. exists ba, l. do 2 eexists. exists pk, (sv_priv s).
    split; [reflexivity|]. split; [reflexivity|]. split; [assumption|]. split; [reflexivity|].
    split; [apply (g_2d G GOK)|]. split; [apply map_length|]. split; [assumption|]. split; [congruence|].
    intros i asg Ei. eexists. split; [apply map_nth_error; exact Ei|]. split; [reflexivity|].
    intros NZ. now apply zero_base_sign.
  - injection E as <- <-. split; [reflexivity|]. exists bn, nym, false. eexists.
    do 3 (split; [reflexivity || assumption|]). split; [reflexivity|]. split; [reflexivity|]. split; [reflexivity|]. split; [reflexivity|].
    split; [reflexivity|]. discriminate.
Qed.
End Sign.

(** ** Instances *)
Definition toy_facts (yv : sys * ledger) :=
  let y := fst yv in
  (snd yv, co_status (y_coord y), y_msgs y, round_exp y, mkeys (co_ecomms (y_coord y)), client_at adD y,
   option_map (fun k => (cl_priv k, match cl_fb k with Some _ => true | None => false end)) (mget (y_clients y) adD),
   co_fb (y_coord y)).
Example C61_instance : exists y V k, reach toy_suite toy_oracle toy_gob y V /\ open_round y /\ in_table toy_suite y adD k /\
  fobase_ok (co_fb (y_coord y)) /\ fo_nonneg (co_fb (y_coord y)) /\ cl_fb k <> None /\ 0 <= cl_priv k /\
  (forall v r, In (cl_pub k, (v, r)) V -> fits v) /\ 0 <= rqInd toy_rn < sQ toy_suite /\
  cl_rep k = 5.
Proof.
  destruct (toy_run toy_mid2 toy_facts ([(2, (0, 7)); (3, (5, 12))], 3, [], 4, [16; 12],
      Some (3, 5, Some 1, Some 3, PBase 13 18, 12), Some (4, true), toy_fb)) as (y & V & _ & R & F);
    [vm_compute; reflexivity|]. unfold toy_facts in F. cbn [fst snd] in F.
  assert (F1 : snd (y, V) = [(2, (0, 7)); (3, (5, 12))]) by (cbn [snd]; congruence).
  assert (F2 : co_status (y_coord y) = 3) by congruence. assert (F3 : y_msgs y = []) by congruence.
  assert (F4 : round_exp y = 4) by congruence. assert (F5 : mkeys (co_ecomms (y_coord y)) = [16; 12]) by congruence.
  assert (F6 : client_at adD y = Some (3, 5, Some 1, Some 3, PBase 13 18, 12)) by congruence.
  assert (F7 : option_map (fun k => (cl_priv k, match cl_fb k with Some _ => true | None => false end)) (mget (y_clients y) adD) = Some (4, true)) by congruence.
  assert (F8 : co_fb (y_coord y) = toy_fb) by congruence. clear F.
  destruct (client_at_some _ _ _ _ _ _ _ _ F6) as (k & Ek & E1 & E2 & _). rewrite Ek in F7. cbn [option_map] in F7.
  assert (KP : cl_priv k = 4) by congruence.
  exists y, V, k. split; [assumption|]. split.
  { split; [assumption|]. split; [apply has_end_no; unfold has_end; now rewrite F3|]. rewrite F3. intros m []. }
  split. { split; [assumption|]. rewrite F5, E1. unfold nym_of. rewrite F4. vm_compute. auto. }
  rewrite F8. split; [exact toy_fb_ok|]. split; [vm_compute; intuition discriminate|].
  split; [destruct (cl_fb k); [discriminate|congruence]|]. split; [lia|].
  split. { cbn [snd] in F1. rewrite F1. intros v r [I|[I|[]]]; injection I as I0 <- <-; unfold fits; lia. }
  split; [vm_compute; intuition discriminate|]. assumption.
Qed.

(** D posts a bridge and requests it; the coordinator has asked both servers. *)
Definition toy_asked : list (sys -> action) :=
  toy_mid2 ++ [do (ACommand adD (CPost [x62; x32]%byte))] ++ dls 1 ++ [do (ACommand adD (CRequest 1 toy_rn))] ++ dls 1.
(** The success field of the answer of the server at [a] to the [i]-th message, as sent and
    with the indicator changed. *)
Definition toy_answer (a : addr) (i : nat) (change : bool) (y : sys) : option (option bool) :=
  olet m := nth_error (y_msgs y) i in
  olet s := mget (y_servers y) a in
  let p := if change then ("ind"%str, VInt 2) :: mParams m else mParams m in
  olet (_, out) := sv_handle toy_suite toy_oracle toy_gob s (mType m) p (mSrc m) toy_sr1 in
  Some (match out with [r] => get_bool (mParams r) "success"%str | _ => None end).
Example C62_instance : exists y V, reach toy_suite toy_oracle toy_gob y V /\ open_round y /\ fo_nonneg (co_fb (y_coord y)) /\
  map (fun m => (mDst m, mType m)) (y_msgs y) = [(adA, SIGN_ASSIGNMENTS); (adB, SIGN_ASSIGNMENTS)] /\
  toy_answer adA 0 false y = Some (Some true) /\ toy_answer adB 1 false y = Some (Some true) /\
  toy_answer adA 0 true y = Some (Some false).
Proof.
  destruct (toy_run toy_asked (fun yv => let y := fst yv in (co_status (y_coord y), map (fun m => (mDst m, mType m)) (y_msgs y),
      (toy_answer adA 0 false y, toy_answer adB 1 false y, toy_answer adA 0 true y), co_fb (y_coord y)))
    (3, [(adA, SIGN_ASSIGNMENTS); (adB, SIGN_ASSIGNMENTS)], (Some (Some true), Some (Some true), Some (Some false)), toy_fb))
    as (y & V & _ & R & F); [vm_compute; reflexivity|]. cbv zeta in F. cbn [fst snd] in F.
  assert (F1 : co_status (y_coord y) = 3) by congruence.
  assert (F2 : map (fun m => (mDst m, mType m)) (y_msgs y) = [(adA, SIGN_ASSIGNMENTS); (adB, SIGN_ASSIGNMENTS)]) by congruence.
  assert (F3 : co_fb (y_coord y) = toy_fb) by congruence.
  assert (F4 : forall m, In m (y_msgs y) -> mType m = SIGN_ASSIGNMENTS).
  { intros m I. apply (in_map (fun m => (mDst m, mType m))) in I. rewrite F2 in I.
    destruct I as [I|[I|[]]]; congruence. }
  exists y, V. split; [assumption|]. split.
  { split; [assumption|]. split.
    - intros [_ (m & I & T)]. rewrite (F4 m I) in T. discriminate.
    - intros m I T. rewrite (F4 m I) in T. discriminate. }
  rewrite F3. split; [vm_compute; intuition discriminate|]. split; [assumption|].
  repeat split; congruence.
Qed.

Print Assumptions C61_request_served.
Print Assumptions C62_signs_what_verifies.
