(** Properties of whole rounds: C41, C42, C43, C44, C54. *)
From Coq Require Import ZArith Znumtheory Lia List Bool Permutation.
From Coq Require Import Strings.Byte.
From Coq Require String.
From Verif Require Import ZMod Bytes Suite Spec Pedersen ElGamal FujiOkam Equality Codec Maps Net Bridge Client
  Perm SimpleShuffle PairShuffle Server Coordinator History System Chain Prop_Topology Prop_Chain Round RoundInv
  Prop_Bridge.
Import ListNotations.
Import String.StringSyntax.
Open Scope Z_scope.
Delimit Scope string_scope with str.

(** ** Specification *)
(** [c] opens to [v] with blinding [r] under the coordinator's current base. *)
Definition opens (S : suite) (y : sys) (c v r : Z) : Prop :=
  commits_to (sP S) (pb_GT (co_pb (y_coord y))) (pb_HT (co_pb (y_coord y))) (v mod sQ S) (r mod sQ S) c.
(** The commitment the coordinator stores for the client [k]: under its long-term key
    between rounds, under its pseudonym in a round (in the buffer if it has just joined). *)
Definition stored (y : sys) (k : client) (c : Z) : Prop :=
  (co_status (y_coord y) = CO_READY_FOR_NEW_ROUND /\ mget (co_bcomms (y_coord y)) (cl_pub k) = Some c) \/
  (co_status (y_coord y) = CO_MESSAGE /\
    (mget (co_ecomms (y_coord y)) (cl_nym k) = Some c \/ In (cl_nym k, c) (co_buffer (y_coord y)))).
(** No overflow of Go's 64-bit int. *)
Definition fits (v : Z) : Prop := - 2 ^ 63 <= v < 2 ^ 63.

Lemma fits_int64 v : fits v -> int64 v = v.
Proof.
  unfold fits, int64. change (2 ^ 63) with 9223372036854775808. change (2 ^ 64) with 18446744073709551616. intros F.
  rewrite Z.mod_small; lia.
Qed.

Section Rounds.
Context (S : suite) (OK : suite_ok S) (H : oracle) (G : gob) (GOK : gob_ok G).

Lemma opens_com y v r : pbase_ok S (co_pb (y_coord y)) -> opens S y (ped_commit_r S (co_pb (y_coord y)) v r) v r.
Proof.
  intros PB. unfold opens, commits_to. rewrite <- (com_mod2 S OK _ v r PB). pose proof (sQ_gt1 S OK).
  apply (ped_commit_plain S OK); apply Z.mod_pos_bound; lia.
Qed.

Lemma ent_get pb e (T : list entry) k v r : rel_prime e (sQ S) -> Forall (in_group S) (map fst T) -> NoDup (map fst T) ->
  In (k, (v, r)) T -> mget (map (ent S pb e) T) (pt_mul S k e) = Some (ped_commit_r S pb v r).
Proof.
  intros RP F N I. apply mwf_In; [unfold mwf, mkeys; now apply ent_keys_nodup|].
  change (pt_mul S k e, ped_commit_r S pb v r) with (ent S pb e (k, (v, r))). now apply in_map.
Qed.

(** *** C41 *)
(** Between rounds the table has exactly the ledger's keys, and the commitment of each opens
    to the ledger's value and blinding. *)
Theorem C41_table : forall y V, reach S H G y V ->
  co_status (y_coord y) = CO_READY_FOR_NEW_ROUND ->
  Permutation (mkeys (co_bcomms (y_coord y))) (map fst V) /\ NoDup (map fst V) /\
  forall k v r, In (k, (v, r)) V -> exists c, mget (co_bcomms (y_coord y)) k = Some c /\ opens S y c v r.
Proof.
  intros y V R ST. destruct (reach_inv S OK H G GOK y V R) as [B P].
  destruct P as [T A|T i p keys vals GT HT A|T0 T1 K A|T n M1 p keys vals GT HT A].
  2:{ exfalso. pose proof (p2_status _ _ _ _ _ _ _ _ _ _ _ _ _ _ A) as X. rewrite ST in X. discriminate. }
  2:{ exfalso. pose proof (p3_status _ _ _ _ _ _ _ _ _ A) as X. rewrite ST in X. discriminate. }
  2:{ exfalso. pose proof (p4_status _ _ _ _ _ _ _ _ _ _ _ _ _ _ _ A) as X. rewrite ST in X. discriminate. }
  destruct A as [A1 A2 A3 A4 A5 A6 A7].
  pose proof (T_group S T V A5 (b_Vg _ _ _ _ _ B)) as TG. pose proof (T_nodup T V A5 (b_V _ _ _ _ _ B)) as TN.
  split; [|split].
  - rewrite A3. rewrite <- (Permutation_map fst A5). unfold mkeys. rewrite map_map. apply Permutation_refl'.
    apply map_ext_in. intros t Ht. unfold ent. cbn [fst]. apply (pt_mul_1 S OK). rewrite Forall_forall in TG. apply TG. now apply in_map.
  - apply B.
  - intros k v r I. apply (Permutation_in _ (Permutation_sym A5)) in I.
    assert (Gk : in_group S k) by (rewrite Forall_forall in TG; apply TG; apply in_map_iff; now exists (k, (v, r))).
    exists (ped_commit_r S (co_pb (y_coord y)) v r). split; [|apply opens_com; apply B].
    rewrite A3. rewrite <- (pt_mul_1 S OK k Gk) at 1. apply ent_get; try assumption. apply rel_prime_1.
Qed.

(** *** C42 *)
Theorem C42_settled : forall y V, reach S H G y V -> settled y ->
  forall a k, mget (y_clients y) a = Some k ->
  exists v r R c, In (cl_pub k, (v, r)) V /\ cl_R k = Some R /\ stored y k c /\
    R mod sQ S = r mod sQ S /\ cl_rep k = int64 v /\ opens S y c v R.
Proof.
  intros y V R ST a k Ek. destruct (reach_inv S OK H G GOK y V R) as [B P]. unfold settled in ST. rewrite ST in P.
  destruct (b_cl _ _ _ _ _ B a k Ek) as (_ & _ & _ & _ & _ & I64 & _).
  assert (OO : forall v r R0, R0 mod sQ S = r mod sQ S -> opens S y (ped_commit_r S (co_pb (y_coord y)) v r) v R0).
  { intros v r R0 E. unfold opens. rewrite E. now apply opens_com; apply B. }
  destruct P as [T A|T i p keys vals GT HT A|T0 T1 K A|T n M1 p keys vals GT HT A].
  - destruct A as [A1 A2 A3 A4 A5 A6 A7].
    pose proof (T_group S T V A5 (b_Vg _ _ _ _ _ B)) as TG. pose proof (T_nodup T V A5 (b_V _ _ _ _ _ B)) as TN.
    destruct (A6 a k Ek) as (_ & v & r & R0 & C1 & C2 & C3 & C4). unfold rsum, dsum in *. cbn [map zsum fold_right] in *.
    rewrite !Z.add_0_r in *. rewrite I64 in C4.
    exists v, r, R0, (ped_commit_r S (co_pb (y_coord y)) v r). split; [now apply (Permutation_in _ A5)|]. split; [assumption|].
    split; [|split; [assumption|split; [assumption|now apply OO]]]. left. split; [assumption|]. rewrite A3.
    assert (Gk : in_group S (cl_pub k)) by (rewrite Forall_forall in TG; apply TG; apply in_map_iff; now exists (cl_pub k, (v, r))).
    rewrite <- (pt_mul_1 S OK (cl_pub k) Gk) at 1. apply ent_get; try assumption. apply rel_prime_1.
  - exfalso. destruct (p2_M _ _ _ _ _ _ _ _ _ _ _ _ _ _ A) as [src X]. discriminate X.
  - destruct A as [A1 A2 A3 A4 A5 A6 A7 A8 A9 A10 A11 A12 A13]. cbn [filter map] in A7, A9. rewrite app_nil_r in *.
    pose proof (T_group S _ V A9 (b_Vg _ _ _ _ _ B)) as TG. pose proof (T_nodup _ V A9 (b_V _ _ _ _ _ B)) as TN.
    destruct (A11 a k Ek) as [[[] _]|(C1 & v & r & C2 & C3 & C4)].
    destruct C4 as [(m & [] & _)|(R0 & C5 & C6 & C7)]. destruct C7 as [(m & [] & _)|[C7 C8]].
    exists v, r, R0, (ped_commit_r S (co_pb (y_coord y)) v r). split; [now apply (Permutation_in _ A9)|]. split; [assumption|].
    split; [|split; [assumption|split; [congruence|now apply OO]]]. right. split; [assumption|]. rewrite C7.
    rewrite map_app in TG, TN. apply Forall_app in TG. apply in_app_or in C2. destruct C2 as [C2|C2].
    + left. rewrite A5. apply ent_get; try assumption; [rewrite A3; apply (exps_unit S _ _ _ _ B)|apply TG|].
      now apply NoDup_app_remove_r in TN.
    + right. apply (Permutation_in _ (Permutation_sym A7)).
      change (pt_mul S (cl_pub k) K, ped_commit_r S (co_pb (y_coord y)) v r) with (ent S (co_pb (y_coord y)) K (cl_pub k, (v, r))).
      now apply in_map.
  - exfalso. destruct (p4_M _ _ _ _ _ _ _ _ _ _ _ _ _ _ _ A) as [src X]. now apply Permutation_nil_cons in X.
Qed.

(** The property as stated: the stored commitment opens to the client's own Reputation and R,
    as long as the reputation has not left the range of Go's int. *)
Theorem C42_client_opens : forall y V, reach S H G y V -> settled y ->
  (forall k v r, In (k, (v, r)) V -> fits v) ->
  forall a k, mget (y_clients y) a = Some k ->
  exists R c, cl_R k = Some R /\ stored y k c /\ opens S y c (cl_rep k) R.
Proof.
  intros y V R ST F a k Ek. destruct (C42_settled y V R ST a k Ek) as (v & r & R0 & c & I & E1 & E2 & E3 & E4 & E5).
  exists R0, c. split; [assumption|]. split; [assumption|]. rewrite E4, (fits_int64 v (F _ _ _ I)). assumption.
Qed.

(** *** C44 *)
Theorem C44_agreement : forall y V, reach S H G y V ->
  co_status (y_coord y) = CO_MESSAGE -> ~ ending y ->
  (forall m, In m (y_msgs y) -> mType m <> ANNOUNCEMENT_FINALIZE) ->
  (forall a s, mget (y_servers y) a = Some s ->
     sv_G s = co_G (y_coord y) /\ sv_pb s = co_pb (y_coord y) /\
     sv_ecomms s = co_ecomms (y_coord y) /\ sv_ekeys s = co_ekeys (y_coord y)) /\
  (forall a k, mget (y_clients y) a = Some k -> In (nym_of S y (cl_pub k)) (mkeys (co_ecomms (y_coord y))) ->
     cl_G k = co_G (y_coord y) /\ cl_pb k = co_pb (y_coord y) /\
     cl_nym k = nym_of S y (cl_pub k) /\ cl_PCommr k = mget (co_ecomms (y_coord y)) (cl_nym k)).
Proof.
  intros y V R ST NE NF. destruct (reach_inv S OK H G GOK y V R) as [B P].
  assert (NS : forall a, ~ sent_to (core (y_msgs y)) ANNOUNCEMENT_FINALIZE a).
  { intros a (m & I & E & _). apply core_in in I. now apply (NF m (proj1 I)). }
  destruct P as [T A|T i p keys vals GT HT A|T0 T1 K A|T n M1 p keys vals GT HT A].
  - exfalso. pose proof (p1_status _ _ _ _ _ _ _ A) as X. rewrite ST in X. discriminate.
  - exfalso. pose proof (p2_status _ _ _ _ _ _ _ _ _ _ _ _ _ _ A) as X. rewrite ST in X. discriminate.
  - pose proof (mid_keys S _ _ _ _ _ _ _ _ B A) as NK.
    destruct A as [A1 A2 A3 A4 A5 A6 A7 A8 A9 A10 A11 A12 A13]. split.
    + intros a s Es. destruct (A12 a s Es) as [X|X]; [now apply NS in X|exact X].
    + intros a k Ek I.
      assert (TG : Forall (in_group S) (map fst (T0 ++ T1))).
      { pose proof (b_Vg _ _ _ _ _ B) as F. rewrite Forall_forall in F |- *. intros x Hx. apply F.
        apply (Permutation_in _ (Permutation_map fst A9)). rewrite map_app. apply in_or_app. now left. }
      assert (IT : In (cl_pub k) (map fst T0)).
      { unfold mkeys in I. rewrite A5, map_map in I. apply in_map_iff in I. destruct I as (t & E & It).
        unfold ent, nym_of, round_exp in E. cbn [fst] in E. rewrite <- A3 in E.
        replace (cl_pub k) with (fst t); [now apply in_map|]. revert E. apply (pt_mul_inj S OK).
        - rewrite map_app in TG. apply Forall_app in TG. destruct TG as [TG _]. rewrite Forall_forall in TG. apply TG. now apply in_map.
        - pose proof (b_Vg _ _ _ _ _ B) as F. rewrite Forall_forall in F. apply F. apply (b_cl _ _ _ _ _ B a k Ek).
        - rewrite A3. apply (exps_unit S _ _ _ _ B). }
      destruct (A13 a k Ek IT) as [X|(X1 & X2 & X3)]; [now apply NS in X|].
      split; [assumption|]. split; [assumption|]. split; [|assumption].
      destruct (A11 a k Ek) as [[C1 _]|(C1 & v & r & C2 & C3 & C4)].
      { exfalso. apply (NoDup_app_disjoint _ _ NK _ IT). apply in_or_app. right.
        apply in_map_iff. exists (cl_register S k). split.
        - unfold pget, get_bytes. cbn [mParams cl_register lookup String.eqb Ascii.eqb Bool.eqb]. apply (dec_enc_unchecked S).
          rewrite Forall_forall in TG. apply TG. rewrite map_app. apply in_or_app. now left.
        - apply filter_In. split; [assumption|reflexivity]. }
      destruct C4 as [X|(R0 & C5 & C6 & C7)].
      { exfalso. destruct X as (m & Im & Tm & Dm). rewrite Forall_forall in A10. specialize (A10 m Im).
        inversion A10 as [b p src D1 D2 Em|b kb D1 Em|b d kb pc src D1 D2 D3 Em|b kb r0 g src D1 D2 D3 D4 Em]; subst m; cbn [mType mDst cl_register] in *; try discriminate Tm.
        subst b. assert (kb = k) by congruence. subst kb. apply (NoDup_app_disjoint _ _ NK _ IT). apply in_or_app. left.
        apply in_map_iff. eexists. split; [|exact D3]. reflexivity. }
      destruct C7 as [X|[C7 C8]]; [now apply NS in X|]. unfold nym_of, round_exp. now rewrite <- A3.
  - exfalso. apply NE. split; [assumption|]. destruct (p4_M _ _ _ _ _ _ _ _ _ _ _ _ _ _ _ A) as [src X].
    exists (Msg (before (map fst (co_servers (y_coord y))) (co_addr (y_coord y)) n) Net.ROUND_END p src). split; [|reflexivity].
    apply (core_in (y_msgs y)). eapply Permutation_in; [symmetry; exact X|]. now left.
Qed.

(** *** C54 *)
(** A schedule and the states it goes through. *)
Inductive goes : sys -> ledger -> list action -> sys -> ledger -> Prop :=
| g_nil y V : goes y V [] y V
| g_step y V a y1 l y2 V2 : guard S y V a -> sys_step S H G y a = Some y1 ->
    goes y1 (ledger_step S y V a) l y2 V2 -> goes y V (a :: l) y2 V2.
Definition is_end (a : action) : bool := match a with ALoop (EEnd _ _) => true | _ => false end.

Lemma goes_reach y V l y' V' : goes y V l y' V' -> reach S H G y V -> reach S H G y' V'.
Proof. induction 1 as [|y V a y1 l y2 V2 GU E _ IH]; intros R; [assumption|]. apply IH. exact (r_step S H G y V a y1 R GU E). Qed.

Lemma handle_pub k ty p chal k' out : cl_handle S G k ty p chal = Some (k', out) -> cl_pub k' = cl_pub k.
Proof.
  unfold cl_handle. intros E.
  unfold cl_register_confirmation, cl_init_r, cl_honesty_answer, cl_announce_final, cl_rdiff, cl_got_signatures, cl_round_end,
    cl_vote_start, cl_vote_reply in E.
  odestruct E; injection E as <- _; reflexivity.
Qed.
Lemma step_client y a y' b k : sys_step S H G y a = Some y' -> mget (y_clients y) b = Some k ->
  exists k', mget (y_clients y') b = Some k' /\ cl_pub k' = cl_pub k.
Proof.
  intros E Ek. destruct a as [a priv rk|a priv s|i cr sr chal|e|a cmd]; cbn [sys_step] in E.
  - destruct (keq a _); [discriminate|]. destruct (mget (y_servers y) a); [discriminate|].
    destruct (mget (y_clients y) a); [discriminate|]. injection E as <-. now exists k.
  - destruct (keq a _); [discriminate|]. destruct (mget (y_servers y) a); [discriminate|].
    destruct (mget (y_clients y) a) eqn:EA; [discriminate|]. injection E as <-. cbn [y_clients]. rewrite mget_mset.
    destruct (keq b a) as [->|]; [congruence|]. now exists k.
  - destruct (nth_error (y_msgs y) i) as [m|]; [|discriminate]. cbn zeta in E. destruct (keq (mDst m) _).
    + destruct (co_handle _ _ _ _ _ _ _) as [[c' out]|]; [|discriminate]. injection E as <-. now exists k.
    + destruct (mget (y_servers y) (mDst m)).
      * destruct (sv_handle _ _ _ _ _ _ _ _) as [[s' out]|]; [|discriminate]. injection E as <-. now exists k.
      * destruct (mget (y_clients y) (mDst m)) as [k0|] eqn:E0; [|discriminate].
        destruct (cl_handle _ _ _ _ _ _) as [[k0' out]|] eqn:EH; [|discriminate]. injection E as <-. cbn [y_clients].
        rewrite mget_mset. destruct (keq b (mDst m)) as [->|]; [|now exists k]. exists k0'. split; [reflexivity|].
        rewrite E0 in Ek. injection Ek as <-. now apply handle_pub in EH.
  - destruct (is_loop e); [|discriminate]. destruct (co_step _ _ _ _) as [[c' out]|]; [|discriminate]. injection E as <-. now exists k.
  - destruct (mget (y_clients y) a); [|discriminate]. destruct (cl_command _ _ _ _); [|discriminate]. injection E as <-. now exists k.
Qed.
Lemma goes_client y V l y' V' : goes y V l y' V' -> forall b k, mget (y_clients y) b = Some k ->
  exists k', mget (y_clients y') b = Some k' /\ cl_pub k' = cl_pub k.
Proof.
  induction 1 as [|y V a y1 l y2 V2 GU E _ IH]; intros b k Ek; [now exists k|].
  destruct (step_client _ _ _ _ _ E Ek) as (k1 & E1 & P1). destruct (IH b k1 E1) as (k2 & E2 & P2). exists k2. split; congruence.
Qed.
Lemma keep_value y V a k v r : is_end a = false -> In (k, (v, r)) V -> exists r', In (k, (v, r')) (ledger_step S y V a).
Proof.
  intros NE I. destruct a as [a priv rk|a priv s|i cr sr chal|e|a cmd]; cbn [ledger_step]; try (now exists r).
  - exists r. apply in_or_app. now left.
  - destruct (nth_error (y_msgs y) i) as [m|]; [|now exists r]. unfold ledger_msg. destruct (_ && _); [|now exists r].
    unfold set_blind. destruct (Z.eqb_spec k (pget (mParams m) "public_key"%str)) as [E|N].
    + exists (crR cr). apply in_map_iff. exists (k, (v, r)). cbn [fst snd]. rewrite E, Z.eqb_refl. split; [reflexivity|]. now rewrite <- E.
    + exists r. apply in_map_iff. exists (k, (v, r)). cbn [fst snd]. destruct (Z.eqb_spec k (pget (mParams m) "public_key"%str)); [contradiction|]. auto.
  - destruct e as [ty p src rn| |fakes ord| |ord rs]; try (now exists r).
    exists r. destruct (co_first _); [apply in_or_app; now left|assumption].
Qed.
Lemma goes_value y V l y' V' : goes y V l y' V' -> existsb is_end l = false -> forall k v r, In (k, (v, r)) V ->
  exists r', In (k, (v, r')) V'.
Proof.
  induction 1 as [|y V a y1 l y2 V2 GU E _ IH]; intros NE k v r I; [now exists r|]. cbn [existsb] in NE.
  apply orb_false_iff in NE. destruct NE as [N1 N2]. destruct (keep_value y V a k v r N1 I) as [r' I']. now apply (IH N2 k v r').
Qed.

(** A client that joins while a round is open is in the table after the round has ended,
    with a commitment to the starting credit plus its difference of this round, which its
    own R opens. *)
Theorem C54_open_round_partial : forall y V a priv s y1 l1 y2 V2 ord rs l2 y3 V3,
  reach S H G y V -> guard S y V (AJoin a priv s) -> sys_step S H G y (AJoin a priv s) = Some y1 ->
  goes y1 (ledger_step S y V (AJoin a priv s)) l1 y2 V2 -> existsb is_end l1 = false ->
  goes y2 V2 (ALoop (EEnd ord rs) :: l2) y3 V3 -> existsb is_end l2 = false ->
  co_status (y_coord y3) = CO_READY_FOR_NEW_ROUND -> settled y3 ->
  let pub := pt_mul_base S priv in
  let v := starting_credit + rep_diff (y_coord y2) (nym_of S y2 pub) in
  exists k R c, mget (y_clients y3) a = Some k /\ cl_pub k = pub /\ cl_R k = Some R /\ cl_rep k = int64 v /\
    mget (co_bcomms (y_coord y3)) pub = Some c /\ opens S y3 c v R.
Proof.
  intros y V a priv s y1 l1 y2 V2 ord rs l2 y3 V3 R GU E G1 N1 G2 N2 ST SE pub v.
  assert (R1 : reach S H G y1 (ledger_step S y V (AJoin a priv s))) by exact (r_step S H G y V (AJoin a priv s) y1 R GU E).
  pose proof (goes_reach _ _ _ _ _ G1 R1) as R2. pose proof (goes_reach _ _ _ _ _ G2 R2) as R3.
  assert (K1 : exists k1, mget (y_clients y1) a = Some k1 /\ cl_pub k1 = pub).
  { cbn [sys_step] in E. destruct (keq a _); [discriminate|]. destruct (mget (y_servers y) a); [discriminate|].
    destruct (mget (y_clients y) a); [discriminate|]. injection E as <-. cbn [y_clients]. rewrite mget_mset_eq. eexists. split; [reflexivity|]. reflexivity. }
  destruct K1 as (k1 & E1 & P1).
  destruct (goes_client _ _ _ _ _ G1 a k1 E1) as (k2 & E2 & P2). destruct (goes_client _ _ _ _ _ G2 a k2 E2) as (k3 & E3 & P3).
  assert (PP : cl_pub k3 = pub) by congruence.
  assert (I1 : In (pub, (starting_credit, 0)) (ledger_step S y V (AJoin a priv s))) by (cbn [ledger_step]; apply in_or_app; right; now left).
  destruct (goes_value _ _ _ _ _ G1 N1 _ _ _ I1) as [r2 I2].
  inversion G2 as [|? ? ? y2' ? ? ? GE EE G2' ]; subst.
  assert (I2' : In (pub, (v, r2 + drawn ord rs (nym_of S y2 pub))) (ledger_step S y2 V2 (ALoop (EEnd ord rs)))).
  { cbn [ledger_step]. apply in_map_iff. exists (pub, (starting_credit, r2)). now split. }
  destruct (goes_value _ _ _ _ _ G2' N2 _ _ _ I2') as [r3 I3].
  destruct (C42_settled y3 V3 R3 SE a k3 E3) as (v' & r' & R0 & c & J1 & J2 & J3 & J4 & J5 & J6).
  destruct (C41_table y3 V3 R3 ST) as (_ & ND & _).
  assert (v' = v).
  { rewrite PP in J1. pose proof (T_unique _ _ _ _ ND J1 I3). congruence. }
  subst v'. exists k3, R0, c. repeat (split; [assumption|]). split; [|assumption].
  destruct J3 as [[_ J3]|[J3 _]]; [now rewrite PP in J3|]. rewrite ST in J3. discriminate.
Qed.
End Rounds.

(** ** Concrete schedules *)
(** A checker for the conditions on schedules; [free] drops the condition on votes. *)
Definition guard_free (S : suite) (y : sys) (V : ledger) (a : action) : Prop :=
  match a with
  | ADeliver _ cr sr _ =>
      is_secret S (crR cr) /\ range_order (crClients cr) (co_clients (y_coord y)) /\
      range_order (crDiffs cr) (co_diffs (y_coord y)) /\ rel_prime (srKey sr) (sQ S)
  | _ => guard S y V a
  end.
(** The states schedules reach when votes are handled at any time. *)
Inductive reach_free (S : suite) (H : oracle) (G : gob) : sys -> ledger -> Prop :=
| f_reach y V : reach S H G y V -> reach_free S H G y V
| f_step y V a y' : reach_free S H G y V -> guard_free S y V a -> sys_step S H G y a = Some y' ->
    reach_free S H G y' (ledger_step S y V a).

Fixpoint zlist_eqb (l1 l2 : list Z) : bool :=
  match l1, l2 with [], [] => true | a :: r1, b :: r2 => (a =? b) && zlist_eqb r1 r2 | _, _ => false end.
Lemma zlist_eqb_eq l1 : forall l2, zlist_eqb l1 l2 = true -> l1 = l2.
Proof.
  induction l1 as [|a l1 IH]; intros [|b l2]; try discriminate; [reflexivity|]. cbn. intros E. apply andb_true_iff in E.
  destruct E as [E1 E2]. apply Z.eqb_eq in E1. subst b. now rewrite (IH l2 E2).
Qed.
Fixpoint nodupb (l : list Z) : bool :=
  match l with [] => true | a :: r => negb (existsb (Z.eqb a) r) && nodupb r end.
Lemma nodupb_ok l : nodupb l = true -> NoDup l.
Proof.
  induction l as [|a l IH]; cbn; intros E; constructor; apply andb_true_iff in E; destruct E as [E1 E2]; [|now apply IH].
  intros I. apply negb_true_iff in E1. rewrite <- not_true_iff_false in E1. apply E1. apply existsb_exists. exists a. split; [assumption|apply Z.eqb_refl].
Qed.
Definition has_end (y : sys) : bool := existsb (fun m => mType m =? Net.ROUND_END) (y_msgs y).
Lemma has_end_no y : has_end y = false -> ~ ending y.
Proof.
  intros E [_ (m & I & T)]. unfold has_end in E. rewrite <- not_true_iff_false in E. apply E. apply existsb_exists. exists m.
  split; [assumption|]. now apply Z.eqb_eq.
Qed.
Definition quiet (y : sys) : bool := match core (y_msgs y) with [] => true | _ => false end.
Lemma quiet_ok y : quiet y = true -> settled y.
Proof. unfold quiet, settled. now destruct (core (y_msgs y)). Qed.
Definition secretb (S : suite) (r : Z) : bool := (0 <=? r) && (r <? sQ S).
Lemma secretb_ok S r : secretb S r = true -> is_secret S r.
Proof. unfold secretb, is_secret. intros E. apply andb_true_iff in E. destruct E as [E1 E2]. apply Z.leb_le in E1. apply Z.ltb_lt in E2. lia. Qed.

Definition okb (S : suite) (free : bool) (y : sys) (V : ledger) (a : action) : bool :=
  let c := y_coord y in
  match a with
  | ALaunch _ _ _ => false
  | AJoin _ priv _ => (co_status c =? CO_MESSAGE) && negb (has_end y) && negb (existsb (Z.eqb (pt_mul_base S priv)) (map fst V))
  | ADeliver i cr sr _ =>
      secretb S (crR cr) && zlist_eqb (crClients cr) (mkeys (co_clients c)) && zlist_eqb (crDiffs cr) (mkeys (co_diffs c)) &&
      (Z.gcd (srKey sr) (sQ S) =? 1) &&
      (free || negb (has_end y) || match nth_error (y_msgs y) i with Some m => negb (mType m =? Net.VOTE) | None => true end)
  | ACommand _ _ => true
  | ALoop (EBegin fakes ord) =>
      quiet y && nodupb (map (fun f => pt_mul_base S (fst f)) fakes) &&
      zlist_eqb ord (mkeys (co_bcomms (if co_first c then add_fakes S c fakes else c)))
  | ALoop EVotePhase => true
  | ALoop (EEnd ord rs) =>
      (co_status c =? CO_MESSAGE) && quiet y && zlist_eqb ord (mkeys (co_ecomms c) ++ map fst (co_buffer c)) &&
      (length rs =? length ord)%nat && forallb (secretb S) rs
  | ALoop _ => false
  end.
Ltac bands E := repeat match type of E with _ && _ = true => let X := fresh "X" in apply andb_true_iff in E; destruct E as [E X] end.
Lemma okb_guard S free y V a : okb S free y V a = true ->
  guard_free S y V a /\ (free = false -> guard S y V a).
Proof.
  destruct a as [a priv rk|a priv s|i cr sr chal|e|a cmd]; cbn [okb guard_free guard]; intros E; [discriminate| | | |].
  - bands E. apply Z.eqb_eq in E. apply negb_true_iff in X0. apply has_end_no in X0. apply negb_true_iff in X.
    assert (N : ~ In (pt_mul_base S priv) (map fst V)).
    { intros I. rewrite <- not_true_iff_false in X. apply X. apply existsb_exists. eexists. split; [exact I|apply Z.eqb_refl]. }
    split; [|intros _]; now repeat split.
  - bands E. apply secretb_ok in E. apply zlist_eqb_eq in X1, X2. apply Z.eqb_eq in X0.
    assert (RP : rel_prime (srKey sr) (sQ S)) by (unfold rel_prime; rewrite <- X0; apply Zgcd_is_gcd).
    unfold range_order. rewrite <- X1, <- X2. split; [repeat (split; [assumption || apply Permutation_refl|]); assumption|]. intros ->. repeat (split; [assumption || apply Permutation_refl|]).
    intros EN m Em TV. exfalso. apply orb_true_iff in X. destruct X as [X|X].
    + cbn [orb] in X. apply negb_true_iff in X. now apply (has_end_no y X).
    + rewrite Em, TV in X. discriminate X.
  - destruct e as [ty p src rn| |fakes ord| |ord rs]; try discriminate; [|auto|].
    + bands E. apply quiet_ok in E. apply nodupb_ok in X0. apply zlist_eqb_eq in X. unfold range_order. rewrite <- X.
      split; [|intros _]; repeat split; try assumption; try apply Permutation_refl; auto.
    + bands E. apply Z.eqb_eq in E. apply quiet_ok in X2. apply zlist_eqb_eq in X1. apply Nat.eqb_eq in X0.
      rewrite <- X1. assert (FF : Forall (is_secret S) rs).
      { apply Forall_forall. intros r Hr. apply secretb_ok. rewrite forallb_forall in X. now apply X. }
      split; [|intros _]; repeat split; try assumption; apply Permutation_refl.
  - auto.
Qed.

(** Run a schedule whose actions may look at the state (for the iteration orders). *)
Fixpoint play (S : suite) (H : oracle) (G : gob) (free : bool) (l : list (sys -> action)) (y : sys) (V : ledger)
  : option (sys * ledger) :=
  match l with
  | [] => Some (y, V)
  | f :: r =>
      let a := f y in
      if okb S free y V a then
        olet y' := sys_step S H G y a in play S H G free r y' (ledger_step S y V a)
      else None
  end.
Lemma play_reach S H G l : forall y V y' V', reach S H G y V -> play S H G false l y V = Some (y', V') -> reach S H G y' V'.
Proof.
  induction l as [|f l IH]; cbn [play]; intros y V y' V' R E; [now injection E as <- <-|].
  destruct (okb S false y V (f y)) eqn:EO; [|discriminate]. destruct (sys_step S H G y (f y)) as [y1|] eqn:ES; [|discriminate].
  apply (IH _ _ _ _ (r_step S H G y V (f y) y1 R (proj2 (okb_guard _ _ _ _ _ EO) eq_refl) ES) E).
Qed.
Lemma play_free S H G l : forall y V y' V', reach_free S H G y V -> play S H G true l y V = Some (y', V') -> reach_free S H G y' V'.
Proof.
  induction l as [|f l IH]; cbn [play]; intros y V y' V' R E; [now injection E as <- <-|].
  destruct (okb S true y V (f y)) eqn:EO; [|discriminate]. destruct (sys_step S H G y (f y)) as [y1|] eqn:ES; [|discriminate].
  apply (IH _ _ _ _ (f_step S H G y V (f y) y1 R (proj1 (okb_guard _ _ _ _ _ EO)) ES) E).
Qed.

Import Prop_FujiOkam Prop_Codec Prop_Bridge Prop_Shuffle Prop_Assign.
Definition toy_z0 : sys := init_sys toy_suite adC 5 toy_fb toy_trap (repeat 3 480).
Definition toy_sr1 : sv_rand := SvRand 3 toy_u [7; 2] toy_ps2 2.
(** Deliver the [i]-th message. *)
Definition tdl (i : nat) (y : sys) : action :=
  ADeliver i (CoRand 3 (mkeys (co_clients (y_coord y))) (fun _ => [[x62; x32]]%byte) (mkeys (co_diffs (y_coord y))))
    toy_sr1 (repeat true 480).
Definition tbegin (fakes : list (Z * Z)) (y : sys) : action :=
  ALoop (EBegin fakes (mkeys (co_bcomms (if co_first (y_coord y) then add_fakes toy_suite (y_coord y) fakes else y_coord y)))).
Definition tend (y : sys) : action :=
  let o := mkeys (co_ecomms (y_coord y)) ++ map fst (co_buffer (y_coord y)) in ALoop (EEnd o (firstn (length o) [5; 9; 3])).
Definition do (a : action) (_ : sys) : action := a.
Definition dls (n : nat) : list (sys -> action) := repeat (tdl 0) n.
Definition tplay := play toy_suite toy_oracle toy_gob.

Definition toy_conf : list action :=
  [ALaunch adA 2 3; dl 0 2; dl 0 2; ALaunch adB 3 5; dl 0 7; dl 0 7; dl 0 7; dl 0 7; dl 0 7].
Definition toy_started : option sys :=
  olet y := sys_run toy_suite toy_oracle toy_gob toy_z0 toy_conf in sys_step toy_suite toy_oracle toy_gob y (ALoop EConfigure).
Definition toy_s : sys := match toy_started with Some y => y | None => toy_z0 end.
Lemma toy_s_reach : reach toy_suite toy_oracle toy_gob toy_s [].
Proof.
  destruct (sys_run toy_suite toy_oracle toy_gob toy_z0 toy_conf) as [y1|] eqn:E1; [|vm_compute in E1; discriminate].
  destruct (sys_step toy_suite toy_oracle toy_gob y1 (ALoop EConfigure)) as [y2|] eqn:E2.
  2:{ exfalso. vm_compute in E1. injection E1 as <-. vm_compute in E2. discriminate E2. }
  assert (ES : toy_s = y2) by (unfold toy_s, toy_started; now rewrite E1, E2). rewrite ES.
  eapply (r_start toy_suite toy_oracle toy_gob adC 5 toy_fb toy_trap (repeat 3 480) toy_conf y1 y2); try assumption.
  - repeat (constructor; [exact I || (cbn; unfold rel_prime; apply Zis_gcd_intro; [apply Z.divide_1_l| apply Z.divide_1_l| ]; intros x Hx Hy)|]); try constructor.
    + apply (Z.divide_sub_r _ (4 * 3) 11); [now apply Z.divide_mul_r|assumption].
    + apply (Z.divide_sub_r _ 11 (2 * 5)); [assumption|now apply Z.divide_mul_r].
  - vm_compute in E1. injection E1 as <-. reflexivity.
  - vm_compute in E1. injection E1 as <-. discriminate.
Qed.

(** Round 1: a fake client, then the client D joins; round 2: D posts a bridge, requests it
    and votes for it. *)
Definition toy_round1 : list (sys -> action) := dls 2 ++ [tbegin [(6, 2)]] ++ dls 5 ++ [do (AJoin adD 4 8)] ++ dls 8.
Definition toy_upto_vote : list (sys -> action) :=
  toy_round1 ++ [tend] ++ dls 5 ++ [tbegin []] ++ dls 6 ++ [do (ACommand adD (CPost [x62; x32]%byte))] ++ dls 1 ++
  [do (ACommand adD (CRequest 1 toy_rn))] ++ dls 6 ++ [do (ACommand adD (CVote 0 1))].
Definition toy_ready1 : list (sys -> action) := toy_round1 ++ [tend] ++ dls 5.
Definition toy_ready2 : list (sys -> action) := toy_upto_vote ++ dls 1 ++ [tend] ++ dls 5.
Definition toy_mid2 : list (sys -> action) := toy_ready1 ++ [tbegin []] ++ dls 6.

Lemma toy_reach l : forall y V, tplay false l toy_s [] = Some (y, V) -> reach toy_suite toy_oracle toy_gob y V.
Proof. intros y V E. exact (play_reach _ _ _ _ _ _ _ _ toy_s_reach E). Qed.

(** A schedule runs, and [f] of the state it reaches is [b]. *)
Lemma toy_run {B} l (f : sys * ledger -> B) b : option_map f (tplay false l toy_s []) = Some b ->
  exists y V, tplay false l toy_s [] = Some (y, V) /\ reach toy_suite toy_oracle toy_gob y V /\ f (y, V) = b.
Proof.
  destruct (tplay false l toy_s []) as [[y V]|] eqn:E; cbn [option_map]; [|discriminate]. intros [= <-]. exists y, V.
  split; [reflexivity|]. split; [exact (toy_reach _ y V E)|reflexivity].
Qed.
Definition client_at (a : addr) (y : sys) : option (Z * Z * option Z * option Z * pbase * Z) :=
  option_map (fun k => (cl_pub k, cl_rep k, cl_R k, cl_G k, cl_pb k, cl_nym k)) (mget (y_clients y) a).
Lemma client_at_some a y p r R g pb n : client_at a y = Some (p, r, R, g, pb, n) -> exists k, mget (y_clients y) a = Some k /\
  cl_pub k = p /\ cl_rep k = r /\ cl_R k = R /\ cl_G k = g /\ cl_pb k = pb /\ cl_nym k = n.
Proof.
  unfold client_at. destruct (mget (y_clients y) a) as [k|]; [|discriminate]. intros [= <- <- <- <- <- <-]. exists k. repeat split.
Qed.

Example C41_instance : exists y V, reach toy_suite toy_oracle toy_gob y V /\ V = [(2, (0, 12)); (3, (6, 21))] /\
  co_status (y_coord y) = CO_READY_FOR_NEW_ROUND /\ settled y /\ co_bcomms (y_coord y) = [(2, 3); (3, 3)] /\
  co_pb (y_coord y) = PBase 3 12 /\ (12 ^ 0 * 3 ^ (12 mod 11)) mod 23 = 3 /\ (12 ^ 6 * 3 ^ (21 mod 11)) mod 23 = 3.
Proof.
  destruct (toy_run toy_ready2 (fun yv => (snd yv, co_status (y_coord (fst yv)), core (y_msgs (fst yv)), co_bcomms (y_coord (fst yv)),
    co_pb (y_coord (fst yv)))) ([(2, (0, 12)); (3, (6, 21))], 1, [], [(2, 3); (3, 3)], PBase 3 12)) as (y & V & _ & R & F);
    [vm_compute; reflexivity|]. cbn [fst snd] in F. injection F as F1 F2 F3 F4 F5.
  exists y, V. repeat (split; [assumption || reflexivity|]). reflexivity.
Qed.
Example C42_instance : exists y V k, reach toy_suite toy_oracle toy_gob y V /\ settled y /\
  (forall q v r, In (q, (v, r)) V -> fits v) /\ mget (y_clients y) adD = Some k /\ cl_rep k = 6 /\ cl_R k = Some 10.
Proof.
  destruct (toy_run toy_ready2 (fun yv => (snd yv, core (y_msgs (fst yv)), client_at adD (fst yv)))
    ([(2, (0, 12)); (3, (6, 21))], [], Some (3, 6, Some 10, Some 3, PBase 13 18, 12))) as (y & V & _ & R & F);
    [vm_compute; reflexivity|]. cbn [fst snd] in F. injection F as F1 F2 F3.
  destruct (client_at_some _ _ _ _ _ _ _ _ F3) as (k & Ek & _ & E2 & E3 & _).
  exists y, V, k. split; [assumption|]. split; [assumption|]. split; [|auto].
  rewrite F1. intros q v r [I|[I|[]]]; injection I as <- <- <-; unfold fits; lia.
Qed.
Example C44_instance : exists y V, reach toy_suite toy_oracle toy_gob y V /\ co_status (y_coord y) = CO_MESSAGE /\ ~ ending y /\
  y_msgs y = [] /\ length (y_servers y) = 2%nat /\ exists k, mget (y_clients y) adD = Some k /\
  In (nym_of toy_suite y (cl_pub k)) (mkeys (co_ecomms (y_coord y))).
Proof.
  destruct (toy_run toy_mid2 (fun yv => (co_status (y_coord (fst yv)), y_msgs (fst yv), length (y_servers (fst yv)),
      round_exp (fst yv), mkeys (co_ecomms (y_coord (fst yv))), client_at adD (fst yv)))
    (3, [], 2%nat, 4, [16; 12], Some (3, 5, Some 1, Some 3, PBase 13 18, 12))) as (y & V & _ & R & F);
    [vm_compute; reflexivity|]. cbn [fst snd] in F. injection F as F1 F2 F3 F4 F5 F6.
  destruct (client_at_some _ _ _ _ _ _ _ _ F6) as (k & Ek & E1 & _).
  exists y, V. split; [assumption|]. split; [assumption|]. split; [apply has_end_no; unfold has_end; now rewrite F2|].
  split; [assumption|]. split; [assumption|]. exists k. split; [assumption|]. rewrite F5, E1. unfold nym_of. rewrite F4. vm_compute. auto.
Qed.

(** A client that has joined since the announcement has another base. *)
Theorem C44_late_joiner_differs : exists y V k, reach toy_suite toy_oracle toy_gob y V /\ co_status (y_coord y) = CO_MESSAGE /\
  y_msgs y = [] /\ mget (y_clients y) adD = Some k /\ cl_G k = co_G (y_coord y) /\
  pb_GT (cl_pb k) <> pb_GT (co_pb (y_coord y)) /\ pb_HT (cl_pb k) <> pb_HT (co_pb (y_coord y)).
Proof.
  destruct (toy_run toy_round1 (fun yv => (co_status (y_coord (fst yv)), y_msgs (fst yv), co_G (y_coord (fst yv)),
      co_pb (y_coord (fst yv)), client_at adD (fst yv)))
    (3, [], Some 3, PBase 12 13, Some (3, 5, Some 3, Some 3, PBase 9 4, 12))) as (y & V & _ & R & F);
    [vm_compute; reflexivity|]. cbn [fst snd] in F. injection F as F1 F2 F3 F4 F5.
  destruct (client_at_some _ _ _ _ _ _ _ _ F5) as (k & Ek & _ & _ & _ & E4 & E5 & _).
  exists y, V, k. rewrite F3, F4, E4, E5. repeat (split; [assumption || reflexivity|]). split; discriminate.
Qed.

(** *** C43: a vote between the start of round end and its completion *)
Theorem C43_every_schedule_refuted :
  ~ (forall S H G, suite_ok S -> gob_ok G -> forall y V, reach_free S H G y V -> settled y ->
     (forall k v r, In (k, (v, r)) V -> fits v) ->
     forall a k, mget (y_clients y) a = Some k ->
     exists R c, cl_R k = Some R /\ stored y k c /\ opens S y c (cl_rep k) R).
Proof.
  intros C.
  destruct (toy_run toy_upto_vote (fun yv => option_map (fun yv => (snd yv, core (y_msgs (fst yv)), co_status (y_coord (fst yv)),
      co_bcomms (y_coord (fst yv)), co_pb (y_coord (fst yv)), client_at adD (fst yv))) (tplay true ([tend] ++ dls 6) (fst yv) (snd yv)))
    (Some ([(2, (0, 12)); (3, (5, 21))], [], 1, [(2, 3); (3, 6)], PBase 3 12, Some (3, 6, Some 10, Some 3, PBase 13 18, 12))))
    as (y0 & V0 & _ & R0 & F); [vm_compute; reflexivity|]. cbn [fst snd] in F.
  destruct (tplay true ([tend] ++ dls 6) y0 V0) as [[y V]|] eqn:E; [|discriminate F]. cbn [option_map fst snd] in F.
  injection F as F1 F2 F3 F4 F5 F6. destruct (client_at_some _ _ _ _ _ _ _ _ F6) as (k & Ek & E1 & E2 & E3 & _).
  apply f_reach in R0. pose proof (play_free _ _ _ _ _ _ _ _ R0 E) as R.
  destruct (C toy_suite toy_oracle toy_gob toy_ok toy_gob_ok y V R F2) with (a := adD) (k := k) as (r & c & X1 & X2 & X3); [|assumption|].
  { rewrite F1. intros q v r [I|[I|[]]]; injection I as <- <- <-; unfold fits; lia. }
  rewrite E3 in X1. injection X1 as <-. destruct X2 as [[_ X2]|[X2 _]]; [|rewrite F3 in X2; discriminate X2].
  rewrite F4, E1 in X2. injection X2 as <-. unfold opens in X3. rewrite F5, E2 in X3. clear - X3. vm_compute in X3. discriminate X3.
Qed.

(** *** C54: a client that registers at another moment *)
(** Before the first announcement: handling its registration stops the coordinator. *)
Definition any_time_join_handled : Prop :=
  forall S H G, suite_ok S -> gob_ok G -> forall y V, reach S H G y V ->
  forall a priv s y1, sys_step S H G y (AJoin a priv s) = Some y1 ->
  forall i m cr sr chal, nth_error (y_msgs y1) i = Some m -> mType m = CLIENT_REGISTER_CONTROLLERSIDE ->
  is_secret S (crR cr) -> sys_step S H G y1 (ADeliver i cr sr chal) <> None.
Definition stops0 (y : sys) : bool := match sys_step toy_suite toy_oracle toy_gob y (tdl 0 y) with None => true | _ => false end.
Theorem C54_before_first_round_refuted : ~ any_time_join_handled.
Proof.
  intros C.
  destruct (toy_run (dls 2) (fun yv => (option_map (fun y => (map mType (y_msgs y),
      stops0 y)) (sys_step toy_suite toy_oracle toy_gob (fst yv) (AJoin adD 4 8)))) (Some ([CLIENT_REGISTER_CONTROLLERSIDE], true)))
    as (y & V & _ & R & F); [vm_compute; reflexivity|]. cbn [fst] in F.
  destruct (sys_step toy_suite toy_oracle toy_gob y (AJoin adD 4 8)) as [y1|] eqn:E; [|discriminate F]. cbn [option_map] in F.
  assert (F1 : map mType (y_msgs y1) = [CLIENT_REGISTER_CONTROLLERSIDE]) by congruence.
  assert (F2 : stops0 y1 = true) by congruence. clear F.
  destruct (y_msgs y1) as [|m [|? ?]] eqn:EM; try discriminate F1. injection F1 as F1.
  unfold stops0 in F2.
  apply (C toy_suite toy_oracle toy_gob toy_ok toy_gob_ok y V R adD 4 8 y1 E 0%nat m
    (CoRand 3 (mkeys (co_clients (y_coord y1))) (fun _ => [[x62; x32]]%byte) (mkeys (co_diffs (y_coord y1)))) toy_sr1 (repeat true 480)).
  - now rewrite EM.
  - exact F1.
  - unfold is_secret. cbn [crR]. vm_compute. split; [discriminate|reflexivity].
  - unfold tdl in F2. now destruct (sys_step toy_suite toy_oracle toy_gob y1 _).
Qed.

(** Between two rounds: the registration is handled, but the announcement drops it, and the
    FINALIZE message stops the client. *)
Fixpoint run_with (S : suite) (H : oracle) (G : gob) (l : list (sys -> action)) (y : sys) : option sys :=
  match l with
  | [] => Some y
  | f :: r => olet y1 := sys_step S H G y (f y) in run_with S H G r y1
  end.
Lemma run_with_run S H G (l : list (sys -> action)) : forall y y', run_with S H G l y = Some y' ->
  exists acts, sys_run S H G y acts = Some y'.
Proof.
  induction l as [|f l IH]; intros y y' E; [exists []; exact E|]. cbn [run_with] in E.
  destruct (sys_step S H G y (f y)) as [y1|] eqn:E1; [|discriminate].
  destruct (IH _ _ E) as [acts EA]. exists (f y :: acts). cbn [sys_run]. now rewrite E1.
Qed.
Definition adE : addr := [x45]%byte.
Definition toy_between : list (sys -> action) := [do (AJoin adE 7 8)] ++ dls 8 ++ [tbegin []] ++ dls 4.
Theorem C54_between_rounds_refuted : exists y V y1 acts m k, reach toy_suite toy_oracle toy_gob y V /\
  co_status (y_coord y) = CO_READY_FOR_NEW_ROUND /\ y_msgs y = [] /\
  sys_run toy_suite toy_oracle toy_gob y acts = Some y1 /\
  mget (y_clients y1) adE = Some k /\ cl_R k <> None /\
  (forall r, ~ In (cl_pub k) (mkeys (co_bcomms (y_coord y1))) /\
     mget (co_ecomms (y_coord y1)) (cl_nym k) = None /\ ~ In (cl_nym k, r) (co_buffer (y_coord y1))) /\
  nth_error (y_msgs y1) 0 = Some m /\ mDst m = adE /\ mType m = ANNOUNCEMENT_FINALIZE /\
  forall chal, cl_handle toy_suite toy_gob k (mType m) (mParams m) chal = None.
Proof.
  destruct (toy_run toy_ready1 (fun yv => (co_status (y_coord (fst yv)), y_msgs (fst yv),
      option_map (fun y => (client_at adE y, mkeys (co_bcomms (y_coord y)), mkeys (co_ecomms (y_coord y)), co_buffer (y_coord y),
         option_map (fun m => (mDst m, mType m)) (nth_error (y_msgs y) 0),
         match mget (y_clients y) adE, nth_error (y_msgs y) 0 with
         | Some k, Some m => match cl_announce_final toy_suite k (mParams m) with None => true | _ => false end
         | _, _ => false end))
        (run_with toy_suite toy_oracle toy_gob toy_between (fst yv))))
    (1, [], Some (Some (8, 5, Some 3, Some 3, PBase 9 4, 2), [2; 3], [16; 12], [], Some (adE, ANNOUNCEMENT_FINALIZE), true)))
    as (y & V & _ & R & F); [vm_compute; reflexivity|]. cbn [fst] in F.
  destruct (run_with toy_suite toy_oracle toy_gob toy_between y) as [y1|] eqn:E; [|discriminate F]. cbn [option_map] in F.
  destruct (run_with_run _ _ _ _ _ _ E) as [acts EA]. clear E.
  injection F as F1 F2 G1 G2 G3 G4 G5 G6. destruct (client_at_some _ _ _ _ _ _ _ _ G1) as (k & Ek & E1 & _ & E3 & _ & _ & E6).
  assert (EM : exists m, nth_error (y_msgs y1) 0 = Some m) by (destruct (y_msgs y1) as [|m ?]; [discriminate G5|now exists m]).
  destruct EM as [m EM].
  assert (G5' : option_map (fun m => (mDst m, mType m)) (nth_error (y_msgs y1) 0) = Some (adE, ANNOUNCEMENT_FINALIZE)) by exact G5.
  clear G5. rename G5' into G5. rewrite EM in G5.
  assert (G6' : match cl_announce_final toy_suite k (mParams m) with None => true | _ => false end = true).
  { destruct (y_msgs y1) as [|m0 ?]; [discriminate EM|]. cbn [nth_error] in EM. injection EM as <-. rewrite Ek in G6. exact G6. }
  clear G6. injection G5 as M1 M2.
  exists y, V, y1, acts, m, k. split; [assumption|]. split; [assumption|]. split; [assumption|]. split; [assumption|].
  split; [assumption|]. split; [congruence|]. split.
  { intros r. rewrite E1, G2, E6, G4. split; [intros [X|[X|[]]]; discriminate X|]. split; [|intros []].
    apply mget_none. rewrite G3. intros [X|[X|[]]]; discriminate X. }
  split; [exact EM|]. split; [assumption|]. split; [assumption|]. intros chal. rewrite M2.
  change (cl_announce_final toy_suite k (mParams m) = None). now destruct (cl_announce_final toy_suite k (mParams m)).
Qed.

Lemma play_goes S H G l : forall y V y' V', play S H G false l y V = Some (y', V') ->
  exists acts, goes S H G y V acts y' V' /\ (Forall (fun f : sys -> action => forall y, is_end (f y) = false) l -> existsb is_end acts = false).
Proof.
  induction l as [|f l IH]; cbn [play]; intros y V y' V' E.
  { injection E as <- <-. exists []. split; [constructor|reflexivity]. }
  destruct (okb S false y V (f y)) eqn:EO; [|discriminate]. destruct (sys_step S H G y (f y)) as [y1|] eqn:ES; [|discriminate].
  destruct (IH _ _ _ _ E) as (acts & GA & N). exists (f y :: acts). split.
  - econstructor; [exact (proj2 (okb_guard _ _ _ _ _ EO) eq_refl)|exact ES|exact GA].
  - intros F. inversion F as [|? ? F1 F2]; subst. cbn [existsb]. now rewrite F1, (N F2).
Qed.
Lemma dls_no_end n : Forall (fun f : sys -> action => forall y, is_end (f y) = false) (dls n).
Proof. unfold dls. induction n; cbn [repeat]; constructor; [reflexivity|assumption]. Qed.

Example C54_instance : exists y V y1 y2 V2 y3 V3 l1 l2 ord rs, reach toy_suite toy_oracle toy_gob y V /\
  guard toy_suite y V (AJoin adD 4 8) /\ sys_step toy_suite toy_oracle toy_gob y (AJoin adD 4 8) = Some y1 /\
  goes toy_suite toy_oracle toy_gob y1 (ledger_step toy_suite y V (AJoin adD 4 8)) l1 y2 V2 /\ existsb is_end l1 = false /\
  goes toy_suite toy_oracle toy_gob y2 V2 (ALoop (EEnd ord rs) :: l2) y3 V3 /\ existsb is_end l2 = false /\
  co_status (y_coord y3) = CO_READY_FOR_NEW_ROUND /\ settled y3.
Proof.
  destruct (toy_run (dls 2 ++ [tbegin [(6, 2)]] ++ dls 5) (fun yv => let '(y, V) := yv in
      let a := AJoin adD 4 8 in
      if okb toy_suite false y V a then
        olet y1 := sys_step toy_suite toy_oracle toy_gob y a in
        olet q := tplay false (dls 8) y1 (ledger_step toy_suite y V a) in
        olet z := tplay false ([tend] ++ dls 5) (fst q) (snd q) in
        Some (co_status (y_coord (fst z)), core (y_msgs (fst z)))
      else None) (Some (1, []))) as (y & V & _ & R & F); [vm_compute; reflexivity|].
  cbv beta iota zeta in F. destruct (okb toy_suite false y V (AJoin adD 4 8)) eqn:EO; [|discriminate F].
  destruct (sys_step toy_suite toy_oracle toy_gob y (AJoin adD 4 8)) as [y1|] eqn:E1; [|discriminate F].
  destruct (tplay false (dls 8) y1 _) as [[y2 V2]|] eqn:E2; [|discriminate F]. cbn [fst snd] in F.
  destruct (tplay false ([tend] ++ dls 5) y2 V2) as [[y3 V3]|] eqn:E3; [|discriminate F]. cbn [fst snd] in F. injection F as F1 F2.
  destruct (play_goes _ _ _ _ _ _ _ _ E2) as (l1 & GA & N1). specialize (N1 (dls_no_end 8)).
  unfold tplay in E3. cbn [app play] in E3.
  destruct (okb toy_suite false y2 V2 (tend y2)) eqn:EO2; [|discriminate E3].
  destruct (sys_step toy_suite toy_oracle toy_gob y2 (tend y2)) as [y2'|] eqn:ES2; [|discriminate E3].
  destruct (play_goes _ _ _ _ _ _ _ _ E3) as (l2 & GB & N2). specialize (N2 (dls_no_end 5)).
  exists y, V, y1, y2, V2, y3, V3, l1, l2. do 2 eexists. split; [assumption|]. split; [exact (proj2 (okb_guard _ _ _ _ _ EO) eq_refl)|].
  split; [assumption|]. split; [exact GA|]. split; [exact N1|]. split.
  - econstructor; [exact (proj2 (okb_guard _ _ _ _ _ EO2) eq_refl)|exact ES2|exact GB].
  - repeat split; assumption.
Qed.

Print Assumptions C41_table.
Print Assumptions C42_settled.
Print Assumptions C42_client_opens.
Print Assumptions C43_every_schedule_refuted.
Print Assumptions C44_agreement.
Print Assumptions C44_late_joiner_differs.
Print Assumptions C54_open_round_partial.
Print Assumptions C54_before_first_round_refuted.
Print Assumptions C54_between_rounds_refuted.
