(** C87: reputation as a ration of bridges.  What one request takes is bounded by the
    reputation of the client that sent it, but nothing bounds the number of requests. *)
From Coq Require Import ZArith Znumtheory Lia List Bool Permutation.
From Coq Require Import Strings.Byte.
From Coq Require String.
From Verif Require Import ZMod Bytes Suite Spec Pedersen ElGamal FujiOkam Equality Codec Maps Net Bridge Client
  Perm SimpleShuffle PairShuffle Server Coordinator History System Chain Prop_Topology Prop_Chain Round RoundInv
  Prop_Pedersen Prop_ElGamal Prop_FujiOkam Prop_Shuffle Prop_Codec Prop_Bridge Prop_Assign Prop_Coord Prop_Round Session
  Prop_Session Enrol.
Import ListNotations.
Import String.StringSyntax.
Open Scope Z_scope.
Delimit Scope string_scope with str.

(** ** Vocabulary *)
(** How many bridges nobody has been given yet. *)
Definition free_bridges (y : sys) : Z := Z.of_nat (length (unused (y_coord y))).
(** The bridges given away by a step: free before it, used after it. *)
Definition given (y y' : sys) (b : bytes) : Prop :=
  exists nb, mget (co_bridges (y_coord y)) b = Some (nb, false) /\ mget (co_bridges (y_coord y')) b = Some (nb, true).

(** ** Counting *)
Lemma taken_count n ords m l m' : mwf m -> get_bridges n ords m = (l, m') ->
  length (free_list m) = (length l + length (free_list m'))%nat.
Proof.
  intros W E. destruct (get_bridges_spec _ _ _ _ _ E) as (ND & _ & I1 & O1 & K).
  assert (P : Permutation (free_list m) (map fst l ++ free_list m')).
  { apply NoDup_Permutation.
    - apply NoDup_filter. exact W.
    - apply NoDup_app_intro.
      + exact ND.
      + apply NoDup_filter. rewrite K. exact W.
      + intros a Ia Ib. apply in_map_iff in Ia. destruct Ia as ((b & nb) & <- & Ia). destruct (I1 _ _ Ia) as [_ M].
        apply filter_In in Ib. destruct Ib as [_ F]. unfold bridge_free in F. cbn [fst] in F. rewrite M in F. discriminate.
    - intros a. rewrite in_app_iff. unfold free_list. rewrite !filter_In, K. split.
      + intros [Ia F]. destruct (in_dec keq a (map fst l)) as [I|N]; [now left|]. right. split; [assumption|].
        unfold bridge_free in *. now rewrite O1.
      + intros [Ia|[Ia F]].
        * apply in_map_iff in Ia. destruct Ia as ((b & nb) & <- & Ia). destruct (I1 _ _ Ia) as [M _]. cbn [fst]. split.
          -- eapply mget_keys. exact M.
          -- unfold bridge_free. now rewrite M.
        * split; [assumption|]. destruct (in_dec keq a (map fst l)) as [I|N].
          -- apply in_map_iff in I. destruct I as ((b & nb) & <- & I). destruct (I1 _ _ I) as [_ M]. unfold bridge_free in F. cbn [fst] in F. rewrite M in F. discriminate.
          -- unfold bridge_free in *. now rewrite <- O1. }
  rewrite (Permutation_length P), app_length, map_length. reflexivity.
Qed.

(** What a request takes, whatever state it is handled in. *)
Lemma request_takes S G c p src rn c' out : mwf (co_bridges c) -> co_request S G c p src rn = Some (c', out) ->
  exists ind, get_int p "ind"%str = Some ind /\
    Z.of_nat (length (unused c)) - Z.max 0 ind <= Z.of_nat (length (unused c')) <= Z.of_nat (length (unused c)).
Proof.
  intros W E. destruct (co_request_spec _ _ _ _ _ _ _ _ E) as [[-> ->]|(ind & nymR & bn & m & brs & mp & x & E1 & E2 & E3 & E4 & E5 & -> & _)].
  - unfold co_request in E. destruct (get_int p "ind"%str) as [ind|]; [|discriminate]. exists ind. split; [reflexivity|lia].
  - exists ind. split; [assumption|]. pose proof (taken_count _ _ _ _ _ W E5) as N.
    destruct (get_bridges_spec _ _ _ _ _ E5) as (_ & L & _ & _ & K).
    rewrite <- !free_list_unused; [cbn [co_bridges set_asigs set_bridges]; lia| |assumption].
    cbn [co_bridges set_asigs set_bridges]. eapply mwf_keys; eassumption.
Qed.

Lemma goes_app S H G y V l1 y1 V1 : goes S H G y V l1 y1 V1 -> forall l2 y2 V2, goes S H G y1 V1 l2 y2 V2 ->
  goes S H G y V (l1 ++ l2) y2 V2.
Proof.
  induction 1 as [|y V a y1 l y2 V2 GU E _ IH]; intros l2 y3 V3 GO; [assumption|]. cbn [app]. eapply g_step; [exact GU|exact E|]. now apply IH.
Qed.

Section Ration.
Context (S : suite) (OK : suite_ok S) (H : oracle) (G : gob) (GOK : gob_ok G).

Lemma reach_bridges_wf y V : reach S H G y V -> mwf (co_bridges (y_coord y)).
Proof.
  intros R. destruct (reach_run S H G y V R) as (self & a0 & fb & trap & gammas & t & RR).
  exact (proj1 (run_bridges S G OK GOK _ _ _ _ _ _ _ RR)).
Qed.

(** C87, what holds: whatever number a user asks for, and whenever the request is handled,
    it takes no more bridges than the reputation the client had when it asked. *)
Theorem C87_one_request_partial : forall y V a k ind rn y1,
  reach S H G y V -> mget (y_clients y) a = Some k -> sys_step S H G y (ACommand a (CRequest ind rn)) = Some y1 ->
  (cl_rep k < ind -> y_msgs y1 = y_msgs y) /\
  forall m, In m (y_msgs y1) -> ~ In m (y_msgs y) ->
  forall y2 V2 i cr sr chal y3, reach S H G y2 V2 -> nth_error (y_msgs y2) i = Some m -> mDst m = co_addr (y_coord y2) ->
  sys_step S H G y2 (ADeliver i cr sr chal) = Some y3 ->
  free_bridges y2 - Z.max 0 (cl_rep k) <= free_bridges y3 <= free_bridges y2.
Proof.
  intros y V a k ind rn y1 R Ek E. cbn [sys_step cl_command] in E. rewrite Ek in E.
  destruct (cl_request S G k ind rn) as [r|] eqn:Er; [|discriminate]. injection E as <-. cbn [y_msgs].
  assert (RI : cl_rep k < ind -> r = None).
  { intros L. unfold cl_request in Er. rewrite (proj2 (Z.ltb_lt _ _) L) in Er. now injection Er as <-. }
  split. { intros L. rewrite (RI L). apply app_nil_r. }
  intros m Im NI y2 V2 i cr sr chal y3 R2 Em ED E. apply in_app_iff in Im. destruct Im as [Im|Im]; [contradiction|].
  destruct r as [m0|]; [|destruct Im]. destruct Im as [->|[]].
  assert (LE : ind <= cl_rep k). { destruct (Z.le_gt_cases ind (cl_rep k)); [assumption|]. discriminate (RI ltac:(lia)). }
  destruct (request_fields S G k ind rn m Er) as (F1 & F2 & _).
  cbn [sys_step] in E. rewrite Em, F1 in E. destruct (keq (mDst m) (co_addr (y_coord y2))); [|contradiction].
  change (co_handle S G (y_coord y2) REQUEST_BRIDGES (mParams m) (mSrc m) cr) with (co_request S G (y_coord y2) (mParams m) (mSrc m) cr) in E.
  destruct (co_request S G (y_coord y2) (mParams m) (mSrc m) cr) as [[c' out]|] eqn:EQ; [|discriminate]. injection E as <-.
  destruct (request_takes S G _ _ _ _ _ _ (reach_bridges_wf y2 V2 R2) EQ) as (ind' & F3 & B).
  assert (ind' = ind) by congruence. subst ind'. unfold free_bridges. cbn [y_coord]. lia.
Qed.

(** The servers have been asked to sign [b] over to the client with the pseudonym [nym]. *)
Definition asked_for (y : sys) (nym : Z) (b : bytes) : Prop :=
  forall s, In s (map fst (co_servers (y_coord y))) -> exists m bs l x, In m (y_msgs y) /\ mDst m = s /\
    mType m = SIGN_ASSIGNMENTS /\ get_bytes (mParams m) "assignments"%str = Some bs /\ dec_assignments S G bs = Some l /\
    In x l /\ asNymR x = Some nym /\ asAddr x = b.
(** Only the client at [a] asks, always for [ind] bridges, and the coordinator answers. *)
Definition only_asks (a : addr) (ind : Z) (x : System.action) : Prop :=
  (exists rn, x = ACommand a (CRequest ind rn)) \/ exists i cr sr chal, x = ADeliver i cr sr chal.

Lemma range_self {K V} `{EqK K} (m : amap K V) : range_order (mkeys m) m.
Proof. unfold range_order. apply Permutation_refl. Qed.

(** C87, what does not hold: a client may ask as often as it likes, and each time gets the
    full number, until no bridge is left; its reputation is not used up. *)
Theorem C87_repeated_requests : forall y V a k ind rn,
  reach S H G y V -> open_round y -> in_table S y a k ->
  fobase_ok (co_fb (y_coord y)) -> fo_nonneg (co_fb (y_coord y)) -> cl_fb k <> None -> 0 <= cl_priv k ->
  (forall v r, In (cl_pub k, (v, r)) V -> fits v) ->
  0 <= rqInd rn < sQ S -> 0 <= ind <= cl_rep k -> cl_rep k - ind < 2 ^ 61 -> cl_rep k - ind < sQ S ->
  forall n : nat, exists l y' V', goes S H G y V l y' V' /\ Forall (only_asks a ind) l /\ length l = (2 * n)%nat /\
    mget (y_clients y') a = Some k /\
    free_bridges y' = Z.max 0 (free_bridges y - Z.of_nat n * ind) /\
    exists bs, NoDup bs /\ Z.of_nat (length bs) = Z.min (free_bridges y) (Z.of_nat n * ind) /\
      forall b, In b bs -> given y y' b /\ asked_for y' (cl_nym k) b.
Proof.
  intros y V a k ind rn R O IT FOK NN KF KP FV RI IL I61 IQ.
  destruct (C61_request_served S OK H G GOK y V a k ind rn R O IT FOK NN KF KP FV RI (proj2 IL) I61 IQ) as (m & M1 & M2 & MS).
  destruct (request_fields S G k ind rn m M1) as (T & FI & FN & _).
  assert (NG : in_group S (cl_nym k)).
  { destruct (announced S OK H G GOK y V a k R O (proj1 IT) (proj2 IT)) as (v & r & R0 & g & C & J1 & J2 & J3 & J4 & J5 & J6 & J7 & _).
    destruct (e_cl _ _ _ (reach_ses S OK H G GOK y V R NN) a k (proj1 IT)) as [_ _ K3]. rewrite (K3 _ J7). unfold pt_mul. in_grp. }
  assert (DN : dec_point S (enc_point S (cl_nym k)) = Some (cl_nym k)) by (now apply (dec_enc_point S OK)).
  assert (P0 : rel_prime 1 (sQ S)) by (apply rel_prime_1).
  enough (forall n : nat, exists l y' V', goes S H G y V l y' V' /\ Forall (only_asks a ind) l /\ length l = (2 * n)%nat /\
    mget (y_clients y') a = Some k /\ existsb is_end l = false /\
    free_bridges y' = Z.max 0 (free_bridges y - Z.of_nat n * ind) /\
    (forall b nb, mget (co_bridges (y_coord y')) b = Some (nb, false) -> mget (co_bridges (y_coord y)) b = Some (nb, false)) /\
    exists bs, NoDup bs /\ Z.of_nat (length bs) = Z.min (free_bridges y) (Z.of_nat n * ind) /\
      forall b, In b bs -> given y y' b /\ asked_for y' (cl_nym k) b) as X.
  { intros n. destruct (X n) as (l & y' & V' & A1 & A2 & A3 & A4 & A5 & A6 & A7 & A8). exists l, y', V'. auto 10. }
  induction n as [|n (l & y1 & V1 & GO & AL & LL & EC & NE & FB & OF & bs & NB & LB & GV)].
  { exists [], y, V. split; [constructor|]. split; [constructor|]. split; [reflexivity|]. split; [apply IT|]. split; [reflexivity|].
    split; [unfold free_bridges; lia|]. split; [auto|]. exists []. split; [constructor|]. split; [unfold free_bridges; cbn [length]; lia|]. intros b []. }

  pose proof (goes_reach S H G _ _ _ _ _ GO R) as R1.
  destruct (open_goes S OK H G GOK y V l y1 V1 R O GO NE) as [O1 SR]. destruct (view_eq _ _ SR) as (W1 & W2 & _).
  set (cr := CoRand 0 (mkeys (co_clients (y_coord y1))) (fun _ => mkeys (co_bridges (y_coord y1))) (mkeys (co_diffs (y_coord y1)))).
  set (y2 := Sys (y_coord y1) (y_servers y1) (y_clients y1) (y_msgs y1 ++ [m]) (y_log y1)).
  assert (RO : forall i, range_order (crBridges cr i) (co_bridges (y_coord y1))) by (intros i; apply range_self).
  destruct (MS y1 V1 cr (ex_intro _ l (conj GO NE)) RO) as (la & c2 & out & E1 & L1 & L2 & L3 & _ & _).
  set (act1 := ACommand a (CRequest ind rn)). set (act2 := ADeliver (length (y_msgs y1)) cr (SvRand 0 (fun _ => 0) [] (PsRand [] [] [] 0 0 []) 1) []).
  set (y3 := Sys c2 (y_servers y1) (y_clients y1) (y_msgs y1 ++ out) (y_log y1)).
  assert (ED : mDst m = co_addr (y_coord y1)) by (rewrite M2; unfold co_addr; now rewrite W1).
  assert (S1 : sys_step S H G y1 act1 = Some y2).
  { unfold act1. cbn [sys_step cl_command]. rewrite EC, M1. reflexivity. }
  assert (S2 : sys_step S H G y2 act2 = Some y3).
  { unfold act2. cbn [sys_step y2 y_msgs y_coord y_servers y_clients y_log].
    rewrite nth_error_app2, Nat.sub_diag by lia. cbn [nth_error]. destruct (keq (mDst m) (co_addr (y_coord y1))); [|contradiction].
    rewrite E1. rewrite firstn_app, Nat.sub_diag, firstn_all, firstn_O, app_nil_r.
    rewrite skipn_all2 by (rewrite app_length; cbn; lia). rewrite app_nil_r. reflexivity. }
  assert (G2 : guard S y2 V1 act2).
  { unfold act2. cbn [guard]. split; [unfold is_secret; cbn; pose proof (sQ_gt1 S OK); lia|]. split; [apply range_self|]. split; [apply range_self|].
    split; [exact P0|]. intros _ m0 Em0 T0. cbn [y2 y_msgs] in Em0. rewrite nth_error_app2, Nat.sub_diag in Em0 by lia. injection Em0 as <-.
    rewrite T in T0. discriminate. }
  exists (l ++ [act1; act2]), y3. eexists. split.
  { eapply goes_app; [exact GO|]. eapply g_step; [exact I|exact S1|]. eapply g_step; [|exact S2|constructor].
    exact G2. }
  split. { apply Forall_app. split; [assumption|]. constructor; [left; now exists rn|]. constructor; [right; now do 4 eexists|constructor]. }
  split; [rewrite app_length; cbn [length]; lia|]. split; [exact EC|].
  split; [rewrite existsb_app, NE; reflexivity|].
  rewrite T in E1. change (co_handle S G (y_coord y1) REQUEST_BRIDGES (mParams m) (mSrc m) cr) with (co_request S G (y_coord y1) (mParams m) (mSrc m) cr) in E1.
  destruct (co_request_spec _ _ _ _ _ _ _ _ E1) as [[-> ->]|(ind' & nymR & bn & mq & brs & mp & x & F1 & F2 & F3 & F4 & F5 & EQ & OUT)].
  { assert (la = []) by (destruct la as [|x la]; [reflexivity|]; destruct (L3 x (or_introl eq_refl)) as (_ & A & B); congruence). subst la.
    cbn [length] in L1. change (free_bridges y3) with (free_bridges y1). fold (free_bridges y1) in L1.
    split; [unfold free_bridges in *; nia|]. split; [exact OF|]. exists bs. split; [assumption|]. split; [unfold free_bridges in *; nia|].
    intros b Ib. destruct (GV b Ib) as [Gb Ab]. split; [exact Gb|]. intros s Is. destruct (Ab s Is) as (m1 & bb & la & x & A & B). exists m1, bb, la, x. split; [|assumption].
    cbn [y3 y_msgs]. apply in_or_app. now left. }
  assert (ind' = ind) by congruence. subst ind'. pose proof (reach_bridges_wf y1 V1 R1) as W.
  assert (HB : bridges_ok S (co_bridges (y_coord y1))).
  { destruct (reach_run S H G y1 V1 R1) as (self & a0 & fb & trap & gammas & t & RR). exact (proj2 (run_bridges S G OK GOK _ _ _ _ _ _ _ RR)). }
  pose proof (taken_count _ _ _ _ _ W F5) as TC. pose proof (get_bridges_count (Z.to_nat ind) (crBridges cr) (co_bridges (y_coord y1)) W RO) as CN.
  rewrite F5 in CN. cbn [fst] in CN. destruct (get_bridges_spec _ _ _ _ _ F5) as (ND & _ & I1 & OO & K).
  assert (LBR : Z.of_nat (length brs) = Z.min (free_bridges y1) ind).
  { unfold free_bridges. rewrite <- free_list_unused by assumption. lia. }
  assert (FB3 : free_bridges y3 = free_bridges y1 - Z.of_nat (length brs)).
  { unfold free_bridges in *. cbn [y3 y_coord]. rewrite EQ. rewrite <- free_list_unused in * by (subst c2; cbn [co_bridges set_asigs set_bridges]; eauto using mwf_keys).
    cbn [co_bridges set_asigs set_bridges]. rewrite free_list_unused in TC by assumption. lia. }
  assert (B3 : co_bridges (y_coord y3) = mp) by (cbn [y3 y_coord]; now rewrite EQ).
  split; [nia|].
  assert (SV : co_servers c2 = co_servers (y_coord y1)) by (now rewrite EQ).
  assert (OF3 : forall b nb, mget (co_bridges (y_coord y3)) b = Some (nb, false) -> ~ In b (map fst brs) /\ mget (co_bridges (y_coord y1)) b = Some (nb, false)).
  { intros b nb Mb. rewrite B3 in Mb. assert (Nb : ~ In b (map fst brs)).
    { intros Ib. apply in_map_iff in Ib. destruct Ib as ((b0 & nb0) & E0 & Ib). cbn [fst] in E0. subst b0. destruct (I1 _ _ Ib). congruence. }
    split; [assumption|]. now rewrite <- OO. }
  split. { intros b nb Mb. apply OF. now apply OF3. }
  assert (DJ : forall b, In b bs -> ~ In b (map fst brs)).
  { intros b Ib Jb. apply in_map_iff in Jb. destruct Jb as ((b0 & nb0) & E0 & Jb). cbn [fst] in E0. subst b0. destruct (I1 _ _ Jb) as [Mb _].
    destruct (proj1 (GV b Ib)) as (nb & _ & Ub). congruence. }
  exists (bs ++ map fst brs). split; [now apply NoDup_app_intro|].
  split; [rewrite app_length, map_length, Nat2Z.inj_add, LB, LBR; unfold free_bridges in *; nia|].
  intros b Ib. apply in_app_iff in Ib. destruct Ib as [Ib|Ib].
  { destruct (GV b Ib) as [(nb & U1 & U2) Ab]. split.
    - exists nb. split; [assumption|]. rewrite B3. rewrite (OO b (DJ b Ib)). assumption.
    - intros s Is. cbn [y3 y_coord y_msgs] in Is |- *. rewrite SV in Is. destruct (Ab s Is) as (m1 & bb & la' & x' & A & B). exists m1, bb, la', x'.
      split; [|assumption]. apply in_or_app. now left. }
  split.
  { apply in_map_iff in Ib. destruct Ib as ((b0 & nb0) & E0 & Ib). cbn [fst] in E0. subst b0. destruct (I1 _ _ Ib) as [U1 U2].
    exists nb0. split; [now apply OF|]. now rewrite B3. }
  intros s Is. cbn [y3 y_coord y_msgs] in Is |- *. rewrite SV in Is.
  destruct OUT as [[-> _]|(_ & pm & OUT)]; [destruct Ib|].
  apply in_map_iff in Ib. destruct Ib as ((b0 & nb0) & E0 & Ib). cbn [fst] in E0. subst b0.
  assert (nymR = cl_nym k) as -> by (rewrite FN in F2; injection F2 as <-; congruence).
  apply in_map_iff in Is. destruct Is as (sv & <- & Is).
  exists (Msg (fst sv) SIGN_ASSIGNMENTS (("assignments"%str, VBytes (enc_assignments S G (map (fun b : bytes * option Z => Assign (Some (cl_nym k)) (fst b) (snd b)) brs))) :: pm) (co_addr (y_coord y1))).
  exists (enc_assignments S G (map (fun b : bytes * option Z => Assign (Some (cl_nym k)) (fst b) (snd b)) brs)).
  exists (map (fun b : bytes * option Z => Assign (Some (cl_nym k)) (fst b) (snd b)) brs), (Assign (Some (cl_nym k)) b nb0).
  split; [apply in_or_app; right; rewrite OUT; unfold to_servers; apply in_map_iff; now exists sv|].
  split; [reflexivity|]. split; [reflexivity|]. split; [reflexivity|]. split.
  { apply (C27_assignments_round_trip S G OK GOK). intros z Iz. eapply (taken_assignment_ok S (cl_nym k)); [exact NG|exact HB|exact F5|exact Iz]. }
  split; [apply in_map_iff; now exists (b, nb0)|]. split; reflexivity.
Qed.
End Ration.

(** ** Instances *)
Import Prop_FujiOkam Prop_Codec Prop_Bridge Prop_Shuffle Prop_Assign.
(** D has put six bridges on the shelf; its reputation is 5. *)
Definition toy_shelf : list (sys -> action) :=
  toy_mid2 ++ flat_map (fun b : bytes => do (ACommand adD (CPost b)) :: dls 1) [[x61]; [x62]; [x63]; [x64]; [x65]; [x66]]%byte.
Definition toy_shelf_facts (z : sys * ledger) :=
  let y := fst z in
  (snd z, co_status (y_coord y), y_msgs y, round_exp y, mkeys (co_ecomms (y_coord y)), client_at adD y,
   option_map (fun k => (cl_priv k, match cl_fb k with Some _ => true | None => false end)) (mget (y_clients y) adD), co_fb (y_coord y), free_bridges y,
   map fst (co_servers (y_coord y))).

Example C87_instance : exists y V k, reach toy_suite toy_oracle toy_gob y V /\ open_round y /\ in_table toy_suite y adD k /\
  fobase_ok (co_fb (y_coord y)) /\ fo_nonneg (co_fb (y_coord y)) /\ cl_fb k <> None /\ 0 <= cl_priv k /\
  (forall v r, In (cl_pub k, (v, r)) V -> fits v) /\ 0 <= rqInd toy_rn < sQ toy_suite /\
  cl_rep k = 5 /\ free_bridges y = 6 /\ co_servers (y_coord y) <> [].
Proof.
  destruct (toy_run toy_shelf toy_shelf_facts ([(2, (0, 7)); (3, (5, 12))], 3, [], 4, [16; 12],
      Some (3, 5, Some 1, Some 3, PBase 13 18, 12), Some (4, true), toy_fb, 6, [adA; adB])) as (y & V & _ & R & F);
    [vm_compute; reflexivity|]. unfold toy_shelf_facts in F. cbn [fst snd] in F.
  assert (F1 : snd (y, V) = [(2, (0, 7)); (3, (5, 12))]) by (cbn [snd]; congruence).
  assert (F2 : co_status (y_coord y) = 3) by congruence. assert (F3 : y_msgs y = []) by congruence.
  assert (F4 : round_exp y = 4) by congruence. assert (F5 : mkeys (co_ecomms (y_coord y)) = [16; 12]) by congruence.
  assert (F6 : client_at adD y = Some (3, 5, Some 1, Some 3, PBase 13 18, 12)) by congruence.
  assert (F7 : option_map (fun k => (cl_priv k, match cl_fb k with Some _ => true | None => false end)) (mget (y_clients y) adD) = Some (4, true)) by congruence.
  assert (F8 : co_fb (y_coord y) = toy_fb) by congruence. assert (F9 : free_bridges y = 6) by congruence.
  assert (F10 : map fst (co_servers (y_coord y)) = [adA; adB]) by congruence. clear F.
  destruct (client_at_some _ _ _ _ _ _ _ _ F6) as (k & Ek & E1 & E2 & _). rewrite Ek in F7. cbn [option_map] in F7.
  assert (KP : cl_priv k = 4) by congruence.
  exists y, V, k. split; [assumption|]. split.
  { split; [assumption|]. split; [apply has_end_no; unfold has_end; now rewrite F3|]. rewrite F3. intros m []. }
  split. { split; [assumption|]. rewrite F5, E1. unfold nym_of. rewrite F4. vm_compute. auto. }
  rewrite F8. split; [exact toy_fb_ok|]. split; [vm_compute; intuition discriminate|].
  split; [destruct (cl_fb k); [discriminate|congruence]|]. split; [lia|].
  split. { cbn [snd] in F1. rewrite F1. intros v r [I|[I|[]]]; injection I as I0 <- <-; unfold fits; lia. }
  split; [vm_compute; intuition discriminate|]. split; [assumption|].
  split; [assumption|]. intros N. rewrite N in F10. discriminate.
Qed.

(** C87 as stated is false: an unmodified client with reputation 5 is given six bridges in
    one round, and could ask on. *)
Theorem C87_rationed_refuted : exists y V k l y' V' bs,
  reach toy_suite toy_oracle toy_gob y V /\ open_round y /\ in_table toy_suite y adD k /\
  goes toy_suite toy_oracle toy_gob y V l y' V' /\ Forall (only_asks adD 5) l /\
  mget (y_clients y') adD = Some k /\ cl_rep k < Z.of_nat (length bs) /\ NoDup bs /\
  co_servers (y_coord y) <> [] /\
  forall b, In b bs -> given y y' b /\ asked_for toy_suite toy_gob y' (cl_nym k) b.
Proof.
  destruct C87_instance as (y & V & k & R & O & IT & F1 & F2 & F3 & F4 & F5 & F6 & F7 & F9 & F10).
  destruct (C87_repeated_requests toy_suite toy_ok toy_oracle toy_gob toy_gob_ok y V adD k 5 toy_rn R O IT F1 F2 F3 F4 F5 F6)
    with (n := 2%nat) as (l & y' & V' & GO & AL & _ & EK & _ & bs & ND & LB & GV); try assumption; try lia.
  exists y, V, k, l, y', V', bs. split; [assumption|]. split; [assumption|]. split; [assumption|]. split; [assumption|]. split; [assumption|].
  split; [assumption|]. split; [lia|]. split; [assumption|]. split; assumption.
Qed.

Print Assumptions C87_one_request_partial.
Print Assumptions C87_repeated_requests.
Print Assumptions C87_rationed_refuted.
