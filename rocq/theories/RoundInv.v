(** The invariant of Round.v is preserved by every step. *)
From Coq Require Import ZArith Znumtheory Lia List Bool Permutation.
From Coq Require Import Strings.Byte.
From Coq Require String.
From Verif Require Import ZMod Bytes Suite Pedersen ElGamal FujiOkam Equality Codec Maps Net Bridge Client
  Perm SimpleShuffle PairShuffle Server Coordinator History System Chain Prop_Topology Prop_Chain Round.
From Verif Require Prop_Coord.
Import ListNotations.
Import String.StringSyntax.
Open Scope Z_scope.
Delimit Scope string_scope with str.

Section Inv.
Context (S : suite) (OK : suite_ok S) (H : oracle) (G : gob) (GOK : gob_ok G).

(** ** The order of the messages does not matter *)
Lemma zsum_perm l l' : Permutation l l' -> zsum l = zsum l'.
Proof. unfold zsum. induction 1; cbn [fold_right]; lia. Qed.
Lemma rsum_perm M M' a n : Permutation M M' -> rsum S M a n = rsum S M' a n.
Proof. intros P. apply zsum_perm. now apply Permutation_map. Qed.
Lemma dsum_perm M M' a n : Permutation M M' -> dsum S G M a n = dsum S G M' a n.
Proof. intros P. apply zsum_perm. now apply Permutation_map. Qed.
Lemma sent_perm M M' ty a : Permutation M M' -> sent_to M ty a -> sent_to M' ty a.
Proof. intros P (m & I & E). exists m. split; [|assumption]. now apply (Permutation_in _ P). Qed.
Lemma filter_perm {A} (f : A -> bool) l l' : Permutation l l' -> Permutation (filter f l) (filter f l').
Proof.
  induction 1; cbn [filter]; try (destruct (f x)); try (destruct (f y)); auto using perm_swap.
  now apply Permutation_trans with (filter f l').
Qed.

Lemma clients_ok_perm c cl M M' T x : Permutation M M' -> clients_ok S G c cl M T x -> clients_ok S G c cl M' T x.
Proof.
  intros P C a k E. destruct (C a k E) as (A1 & v & r & R & A2 & A3 & A4 & A5). split; [assumption|].
  exists v, r, R. rewrite <- (rsum_perm M M'), <- (dsum_perm M M') by assumption. auto.
Qed.

Lemma phase_perm c sv cl M M' V : Permutation M M' -> phase S G c sv cl M V -> phase S G c sv cl M' V.
Proof.
  intros P [T [A1 A2 A3 A4 A5 A6 A7]|T i p keys vals GT HT [A1 A2 A3 A4 A5 A6 A7 A8 A9 A10 A11]|
    T0 T1 K [A1 A2 A3 A4 A5 A6 A7 A8 A9 A10 A11 A12 A13]|T n M1 p keys vals GT HT [A1 A2 A3 A4 A5 A6 A7 A8 A9 A10 A11]].
  - apply ph_ready with T. constructor; auto; [now apply clients_ok_perm with M|].
    now apply (Permutation_Forall P).
  - apply ph_ann with T i p keys vals GT HT. constructor; auto.
    destruct A5 as (src & ->). exists src. now apply Permutation_length_1_inv.
  - apply ph_mid with T0 T1 K. constructor; auto.
    + eapply Permutation_trans; [|exact A7]. apply Permutation_app_head, Permutation_map, filter_perm. now symmetry.
    + eapply Permutation_trans; [|exact A9]. apply Permutation_app_head, Permutation_map, filter_perm. now symmetry.
    + now apply (Permutation_Forall P).
    + intros a k E. destruct (A11 a k E) as [[B1 B2]|(B1 & v & r & B2 & B3 & B4)].
      * left. split; [|assumption]. now apply (Permutation_in _ P).
      * right. split; [assumption|]. exists v, r. repeat (split; [assumption|]).
        destruct B4 as [B4|(R & B5 & B6 & B7)]; [left; now apply sent_perm with M|right].
        exists R. repeat (split; [assumption|]). destruct B7 as [B7|B7]; [left; now apply sent_perm with M|now right].
    + intros a s E. destruct (A12 a s E) as [B|B]; [left; now apply sent_perm with M|now right].
    + intros a k E I. destruct (A13 a k E I) as [B|B]; [left; now apply sent_perm with M|now right].
  - apply ph_end with T n M1 p keys vals GT HT. constructor; auto; [|now apply clients_ok_perm with M].
    destruct A4 as (src & A4). exists src. apply Permutation_trans with M; [now symmetry|assumption].
Qed.

(** ** Changes that do not matter *)
Definition clmap_same (cl cl' : amap addr client) : Prop :=
  forall a, match mget cl a, mget cl' a with
            | Some k, Some k' => cl_same k k' | None, None => True | _, _ => False end.

Lemma cl_same_refl k : cl_same k k.
Proof. repeat split. Qed.
Lemma clmap_refl cl : clmap_same cl cl.
Proof. intros a. destruct (mget cl a); [apply cl_same_refl|exact I]. Qed.
Lemma clmap_mset cl a k k' : mget cl a = Some k -> cl_same k k' -> clmap_same cl (mset cl a k').
Proof.
  intros E C b. rewrite mget_mset. destruct (keq b a) as [->|N]; [now rewrite E|apply clmap_refl].
Qed.
Lemma clmap_back cl cl' a k' : clmap_same cl cl' -> mget cl' a = Some k' -> exists k, mget cl a = Some k /\ cl_same k k'.
Proof. intros C E. specialize (C a). rewrite E in C. destruct (mget cl a) as [k|]; [|destruct C]. now exists k. Qed.
Lemma clmap_some cl cl' a : clmap_same cl cl' -> mget cl a <> None -> mget cl' a <> None.
Proof. intros C N. specialize (C a). destruct (mget cl a), (mget cl' a); try congruence; contradiction. Qed.
Lemma clmap_fwd cl cl' a k : clmap_same cl cl' -> mget cl a = Some k -> exists k', mget cl' a = Some k' /\ cl_same k k'.
Proof. intros C E. specialize (C a). rewrite E in C. destruct (mget cl' a) as [k'|]; [|destruct C]. now exists k'. Qed.

Ltac same_fields C :=
  pose proof (C FStatic ltac:(cbn; tauto)) as SStatic; pose proof (C FServers ltac:(cbn; tauto)) as SServers;
  pose proof (C FStatus ltac:(cbn; tauto)) as SStatus; pose proof (C FFirst ltac:(cbn; tauto)) as SFirst;
  pose proof (C FG ltac:(cbn; tauto)) as SG; pose proof (C FClients ltac:(cbn; tauto)) as SClients;
  pose proof (C FBKeys ltac:(cbn; tauto)) as SBKeys; pose proof (C FBComms ltac:(cbn; tauto)) as SBComms;
  pose proof (C FBuffer ltac:(cbn; tauto)) as SBuffer; pose proof (C FEKeys ltac:(cbn; tauto)) as SEKeys;
  pose proof (C FEComms ltac:(cbn; tauto)) as SEComms; pose proof (C FPB ltac:(cbn; tauto)) as SPB;
  cbn [agree] in SStatic, SServers, SStatus, SFirst, SG, SClients, SBKeys, SBComms, SBuffer, SEKeys, SEComms, SPB.

Lemma same_addr c c' : co_static c' = co_static c -> co_addr c' = co_addr c.
Proof. unfold co_addr. now intros ->. Qed.
Lemma same_exps c c' sv : co_servers c' = co_servers c -> exps c' sv = exps c sv.
Proof. unfold exps. now intros ->. Qed.
Lemma same_register k k' : cl_same k k' -> cl_register S k' = cl_register S k.
Proof. intros (A1 & A2 & A3 & A4 & _). unfold cl_register. now rewrite A1, A2, A4. Qed.

Lemma base_same c c' sv cl cl' V : co_same c c' -> clmap_same cl cl' -> base S c sv cl V -> base S c' sv cl' V.
Proof.
  intros C CL [A1 A2 A3 A4 A5 A6 A7 A8 A9 A10 A11 A12]. same_fields C.
  pose proof (same_addr c c' SStatic) as SA.
  constructor; rewrite ?SServers, ?SA, ?SClients, ?SPB; try assumption.
  - intros a k' E. destruct (clmap_back _ _ _ _ CL E) as (k & Ek & Q1 & Q2 & Q3 & Q4 & Q5 & Q6 & Q7 & Q8 & Q9 & Q10).
    destruct (A6 a k Ek) as (B1 & B2 & B3 & B4 & B5 & B6 & B7).
    rewrite Q4, Q3, Q1, Q2, Q7. auto 10.
  - intros a a' k k' E E' EP.
    destruct (clmap_back _ _ _ _ CL E) as (k0 & Ek & _ & _ & _ & Q & _).
    destruct (clmap_back _ _ _ _ CL E') as (k1 & Ek' & _ & _ & _ & Q' & _).
    apply (A7 a a' k0 k1); congruence.
  - intros p a E. destruct (A9 p a E) as (k & Ek & Ep). destruct (clmap_fwd _ _ _ _ CL Ek) as (k' & E' & _ & _ & _ & Q & _).
    exists k'. split; [assumption|congruence].
Qed.

Lemma clients_ok_same c c' cl cl' M T x x' : co_clients c' = co_clients c -> clmap_same cl cl' ->
  (forall n, x' n = x n) -> clients_ok S G c cl M T x -> clients_ok S G c' cl' M T x'.
Proof.
  intros SC CL X CO a k' E.
  destruct (clmap_back _ _ _ _ CL E) as (k & Ek & Q1 & Q2 & Q3 & Q4 & Q5 & Q6 & Q7 & Q8 & Q9 & Q10).
  destruct (CO a k Ek) as (B1 & v & r & R & B2 & B3 & B4 & B5). rewrite SC, Q4. split; [assumption|].
  exists v, r, R. rewrite Q8, Q5, Q7, X. auto.
Qed.

Lemma to_client_same cl cl' ty m : clmap_same cl cl' -> to_client cl ty m -> to_client cl' ty m.
Proof. intros CL [A B]. split; [assumption|]. now apply (clmap_some cl). Qed.

Lemma fin_ok_same c c' p : co_same c c' -> fin_ok S c p -> fin_ok S c' p.
Proof.
  intros C (keys & vals & g & A1 & A2 & A3 & A4 & A5 & A6). same_fields C.
  exists keys, vals, g. rewrite SG, SPB, SEComms, SEKeys. auto 10.
Qed.

Lemma mid_msg_same c c' cl cl' T1 m : co_same c c' -> clmap_same cl cl' -> mid_msg S c cl T1 m -> mid_msg S c' cl' T1 m.
Proof.
  intros C CL D. same_fields C. pose proof (same_addr c c' SStatic) as SA.
  destruct D as [a p src D1 D2|a k D1|a b k pc src D1 D2 D3|a k r g src D1 D2 D3 D4].
  - apply mm_fin; [now apply fin_ok_same with c|]. rewrite SServers. destruct D2 as [D2|D2]; [now left|right].
    now apply (clmap_some cl).
  - destruct (clmap_fwd _ _ _ _ CL D1) as (k' & E' & Q). rewrite <- (same_register k k' Q). now apply mm_reg with a.
  - apply mm_regs; try assumption. now rewrite SServers, SA.
  - destruct (clmap_fwd _ _ _ _ CL D1) as (k' & E' & Q). apply mm_r with k'; try assumption; [|congruence].
    destruct Q as (_ & _ & _ & -> & _). assumption.
Qed.

Lemma norm_same c c' sv m : co_servers c' = co_servers c -> norm_reg S c' sv m = norm_reg S c sv m.
Proof. intros E. unfold norm_reg. now rewrite E. Qed.

Lemma phase_same c c' sv cl cl' M V : co_same c c' -> clmap_same cl cl' ->
  (co_diffs c' = co_diffs c \/ ~ (co_status c = CO_MESSAGE /\ exists m, In m M /\ mType m = Net.ROUND_END)) ->
  phase S G c sv cl M V -> phase S G c' sv cl' M V.
Proof.
  intros C CL D. pose proof C as C0. same_fields C. pose proof (same_addr c c' SStatic) as SA.
  pose proof (same_exps c c' sv SServers) as SE.
  intros [T [A1 A2 A3 A4 A5 A6 A7]|T i p keys vals GT HT [A1 A2 A3 A4 A5 A6 A7 A8 A9 A10 A11]|
    T0 T1 K [A1 A2 A3 A4 A5 A6 A7 A8 A9 A10 A11 A12 A13]|T n M1 p keys vals GT HT [A1 A2 A3 A4 A5 A6 A7 A8 A9 A10 A11]].
  - apply ph_ready with T. constructor; rewrite ?SStatus, ?SFirst, ?SBComms, ?SPB, ?SBKeys, ?SServers; try assumption.
    + now apply clients_ok_same with c cl (fun _ => 0).
    + eapply Forall_impl; [|exact A7]. intros m [B|[B|B]]; [now left|right; left|right; right]; now apply (to_client_same cl).
  - apply ph_ann with T i p keys vals GT HT.
    constructor; rewrite ?SStatus, ?SFirst, ?SBuffer, ?SServers, ?SA, ?SE; try assumption.
    now apply clients_ok_same with c cl (fun _ => 0).
  - apply ph_mid with T0 T1 K.
    constructor; rewrite ?SStatus, ?SFirst, ?SG, ?SEComms, ?SEKeys, ?SBuffer, ?SPB, ?SServers, ?SA, ?SE; try assumption.
    + erewrite map_ext; [exact A7|]. intros m. now apply norm_same.
    + eapply Forall_impl; [|exact A10]. intros m. now apply mid_msg_same.
    + intros a k' E.
      destruct (clmap_back _ _ _ _ CL E) as (k & Ek & Q). pose proof Q as (Q1 & Q2 & Q3 & Q4 & Q5 & Q6 & Q7 & Q8 & Q9 & Q10).
      unfold cl_mid. rewrite (same_register k k' Q), Q7, Q4, Q8, Q5, Q6, SClients, SG. exact (A11 a k Ek).
    + intros a k' E.
      destruct (clmap_back _ _ _ _ CL E) as (k & Ek & Q). pose proof Q as (Q1 & Q2 & Q3 & Q4 & Q5 & Q6 & Q7 & Q8 & Q9 & Q10).
      rewrite Q4, Q5, Q9, Q10, Q6. exact (A13 a k Ek).
  - destruct D as [D|D].
    + apply ph_end with T n M1 p keys vals GT HT.
      constructor; rewrite ?SStatus, ?SFirst, ?SServers, ?SA, ?SE, ?SEKeys; try assumption.
      * eapply Forall_impl; [|exact A5]. intros m. now apply to_client_same.
      * apply clients_ok_same with c cl (rep_diff c); try assumption. intros k. unfold rep_diff. now rewrite D.
    + exfalso. apply D. split; [assumption|]. destruct A4 as (src & A4). exists (Msg (before (map fst (co_servers c)) (co_addr c) n) Net.ROUND_END p src). split; [|reflexivity].
      eapply Permutation_in; [symmetry; exact A4|]. now left.
Qed.

(** ** Updates of one server or one client *)
Lemma rkey_mset sv a s s' b : mget sv a = Some s -> sv_roundkey s' = sv_roundkey s -> rkey (mset sv a s') b = rkey sv b.
Proof. intros E K. unfold rkey. rewrite mget_mset. destruct (keq b a) as [->|N]; [now rewrite E|reflexivity]. Qed.
Lemma exps_mset c sv a s s' : mget sv a = Some s -> sv_roundkey s' = sv_roundkey s -> exps c (mset sv a s') = exps c sv.
Proof. intros E K. unfold exps. apply map_ext. intros b. now apply rkey_mset with s. Qed.
Lemma norm_mset c sv a s s' m : mget sv a = Some s -> sv_roundkey s' = sv_roundkey s ->
  norm_reg S c (mset sv a s') m = norm_reg S c sv m.
Proof.
  intros E K. unfold norm_reg.
  replace (map (rkey (mset sv a s')) (drop_to (mDst m) (map fst (co_servers c))))
    with (map (rkey sv) (drop_to (mDst m) (map fst (co_servers c)))); [reflexivity|].
  apply map_ext. intros b. symmetry. now apply rkey_mset with s.
Qed.

Lemma base_sv c sv cl V a s s' : base S c sv cl V -> mget sv a = Some s ->
  sv_next s' = sv_next s -> sv_prev s' = sv_prev s -> (server_ok S s -> server_ok S s') -> base S c (mset sv a s') cl V.
Proof.
  intros [A1 A2 A3 A4 A5 A6 A7 A8 A9 A10 A11 A12] E N1 N2 SO. constructor; try assumption.
  - intros b. rewrite A3, mget_mset. destruct (keq b a) as [->|N]; [|reflexivity]. rewrite E. split; congruence.
  - intros i b sb Hi Hb. rewrite mget_mset in Hb. destruct (keq b a) as [->|N]; [|now apply (A4 i b)].
    injection Hb as <-. destruct (A4 i a s Hi E) as (B1 & B2 & B3). rewrite N1, N2. auto.
  - rewrite mget_mset_ne; [assumption|]. intros ->. congruence.
  - intros b k Hk. destruct (A6 b k Hk) as (B1 & B2 & B3 & B4 & B5 & B6 & B7). repeat (split; [assumption|]).
    split; [|auto]. rewrite mget_mset_ne; [assumption|]. intros ->. congruence.
Qed.

Definition same_id (k k' : client) : Prop :=
  cl_addr k' = cl_addr k /\ cl_coord k' = cl_coord k /\ cl_priv k' = cl_priv k /\ cl_pub k' = cl_pub k.

Lemma base_cl c sv cl V a k k' : base S c sv cl V -> mget cl a = Some k -> same_id k k' ->
  int64 (cl_rep k') = cl_rep k' -> base S c sv (mset cl a k') V.
Proof.
  intros [A1 A2 A3 A4 A5 A6 A7 A8 A9 A10 A11 A12] E (I1 & I2 & I3 & I4) IR. constructor; try assumption.
  - intros b kb Hb. rewrite mget_mset in Hb. destruct (keq b a) as [->|N]; [|now apply A6].
    injection Hb as <-. destruct (A6 a k E) as (B1 & B2 & B3 & B4 & B5 & B6 & B7). rewrite I1, I2, I3, I4. auto 10.
  - intros b b' kb kb' Hb Hb'. rewrite !mget_mset in Hb, Hb'.
    destruct (keq b a) as [->|N], (keq b' a) as [->|N']; try injection Hb as <-; try injection Hb' as <-; rewrite ?I4.
    + reflexivity.
    + now apply A7.
    + now apply A7.
    + now apply A7.
  - intros p b Hp. destruct (A9 p b Hp) as (kb & Hb & Eb). rewrite mget_mset. destruct (keq b a) as [->|N]; [|eauto].
    exists k'. split; [reflexivity|congruence].
Qed.

Lemma to_client_mset cl a k' ty m : to_client cl ty m -> to_client (mset cl a k') ty m.
Proof. intros [A B]. split; [assumption|]. now apply mset_some. Qed.

Lemma int64_idem z : int64 (int64 z) = int64 z.
Proof.
  unfold int64. change (2 ^ 63) with 9223372036854775808. change (2 ^ 64) with 18446744073709551616.
  rewrite Z.sub_add. rewrite Z.mod_mod by lia. reflexivity.
Qed.
Lemma int64_add a b c : int64 a = int64 b -> int64 (a + c) = int64 (b + c).
Proof. intros E. rewrite <- (Prop_Coord.int64_add_l a), <- (Prop_Coord.int64_add_l b). now rewrite E. Qed.

Lemma to_a_other m ty a b : mDst m = a -> b <> a -> to_a m ty b = false.
Proof. intros E N. unfold to_a. destruct (keq (mDst m) b) as [X|X]; [congruence|]. apply andb_false_r. Qed.
Lemma to_a_type m ty a : mType m <> ty -> to_a m ty a = false.
Proof. intros N. unfold to_a. now rewrite (proj2 (Z.eqb_neq _ _) N). Qed.
Lemma to_a_yes m ty a : mType m = ty -> mDst m = a -> to_a m ty a = true.
Proof. intros E1 E2. unfold to_a. rewrite E1, E2, Z.eqb_refl. destruct (keq a a); [reflexivity|congruence]. Qed.

Lemma rsum_cons m M a n : rsum S (m :: M) a n = rd_msg S a n m + rsum S M a n.
Proof. reflexivity. Qed.
Lemma dsum_cons m M a n : dsum S G (m :: M) a n = dd_msg S G a n m + dsum S G M a n.
Proof. reflexivity. Qed.
Lemma rsum_app M M' a n : rsum S (M ++ M') a n = rsum S M a n + rsum S M' a n.
Proof. unfold rsum, zsum. induction M as [|m M IH]; [reflexivity|]. cbn [app map fold_right]. rewrite IH. lia. Qed.
Lemma dsum_app M M' a n : dsum S G (M ++ M') a n = dsum S G M a n + dsum S G M' a n.
Proof. unfold dsum, zsum. induction M as [|m M IH]; [reflexivity|]. cbn [app map fold_right]. rewrite IH. lia. Qed.
Lemma rsum_zero M a n : Forall (fun m => to_a m BCAST_PEDERSEN_RDIFF a = false) M -> rsum S M a n = 0.
Proof. induction 1 as [|m M Hm _ IH]; [reflexivity|]. rewrite rsum_cons, IH. unfold rd_msg. now rewrite Hm. Qed.
Lemma dsum_zero M a n : Forall (fun m => to_a m Net.ROUND_END a = false) M -> dsum S G M a n = 0.
Proof. induction 1 as [|m M Hm _ IH]; [reflexivity|]. rewrite dsum_cons, IH. unfold dd_msg. now rewrite Hm. Qed.

(** BCAST_PEDERSEN_RDIFF at a client. *)
Lemma rdiff_step k p k' out : cl_rdiff S k p = Some (k', out) -> out = [] /\ same_id k k' /\
  cl_nym k' = cl_nym k /\ cl_rep k' = cl_rep k /\
  forall R, cl_R k = Some R -> exists R', cl_R k' = Some R' /\ R' mod sQ S = (R + or0 (rd_val S p (cl_nym k))) mod sQ S.
Proof.
  intros E. unfold cl_rdiff in E. unfold rd_val.
  destruct (get_bytes p "keys"%str) as [bk|]; [|discriminate]. destruct (dec_points S bk) as [keys|]; [|discriminate].
  destruct (get_bytes p "rDiffs"%str) as [br|]; [|discriminate]. destruct (dec_secrets S br) as [rs|]; [|discriminate].
  destruct (find_index keys (cl_nym k) <? 0).
  - injection E as <- <-. repeat (split; [repeat split|]). intros R ER. exists R. split; [assumption|].
    cbn [or0]. now rewrite Z.add_0_r.
  - destruct (nth_error rs _) as [rd|]; [|discriminate]. destruct (cl_R k) as [R|] eqn:ER; [|discriminate].
    injection E as <- <-. repeat (split; [repeat split|]). intros R0 [= <-]. eexists. split; [reflexivity|].
    cbn [or0]. unfold sec_add. apply Z.mod_mod. pose proof (sQ_gt1 S OK). lia.
Qed.

(** The round end broadcast at a client. *)
Lemma cre_step k p k' out : cl_round_end S G k p = Some (k', out) -> out = [] /\ same_id k k' /\
  cl_nym k' = cl_nym k /\ cl_R k' = cl_R k /\ cl_rep k' = int64 (cl_rep k + or0 (dd_val S G p (cl_nym k))).
Proof.
  intros E. unfold cl_round_end in E. unfold dd_val.
  destruct (get_bytes p "keys"%str) as [bk|]; [|discriminate]. destruct (dec_points S bk) as [keys|]; [|discriminate].
  destruct (get_bytes p "diffs"%str) as [br|]; [|discriminate]. destruct (gdec_ints G br) as [rs|]; [|discriminate].
  destruct (find_int keys rs (cl_nym k)) as [my|]; [|discriminate]. injection E as <- <-. repeat split.
Qed.

Lemma handle_rdiff k p chal : cl_handle S G k BCAST_PEDERSEN_RDIFF p chal = cl_rdiff S k p.
Proof. reflexivity. Qed.
Lemma handle_cre k p chal : cl_handle S G k Net.ROUND_END p chal = cl_round_end S G k p.
Proof. reflexivity. Qed.

Lemma clients_rdiff c cl M0 T x a k p src k' out : mget cl a = Some k -> cl_rdiff S k p = Some (k', out) ->
  clients_ok S G c cl (Msg a BCAST_PEDERSEN_RDIFF p src :: M0) T x -> clients_ok S G c (mset cl a k') M0 T x.
Proof.
  intros E ES C b kb Eb.
  destruct (rdiff_step k p k' out ES) as (_ & (_ & _ & _ & I4) & I5 & I6 & I7).
  rewrite mget_mset in Eb. destruct (keq b a) as [->|N].
  - injection Eb as <-. destruct (C a k E) as (B1 & v & r & R & B2 & B3 & B4 & B5). rewrite I4. split; [assumption|].
    destruct (I7 R B3) as (R' & ER & EM). exists v, r, R'. rewrite I5, I6. split; [assumption|]. split; [assumption|].
    rewrite rsum_cons in B4. rewrite dsum_cons in B5.
    unfold rd_msg in B4. unfold dd_msg in B5. rewrite to_a_yes in B4 by reflexivity. rewrite to_a_type in B5 by discriminate.
    cbn [mParams] in B4. split; [|now rewrite Z.add_0_l in B5].
    rewrite <- B4, Z.add_assoc. rewrite (Z.add_mod R'), EM by (pose proof (sQ_gt1 S OK); lia).
    now rewrite <- Z.add_mod by (pose proof (sQ_gt1 S OK); lia).
  - destruct (C b kb Eb) as (B1 & v & r & R & B2 & B3 & B4 & B5). split; [assumption|]. exists v, r, R.
    rewrite rsum_cons in B4. rewrite dsum_cons in B5. unfold rd_msg in B4. unfold dd_msg in B5.
    rewrite (to_a_other _ _ a b) in B4 by (auto; reflexivity). rewrite (to_a_other _ _ a b) in B5 by (auto; reflexivity).
    rewrite Z.add_0_l in B4, B5. auto.
Qed.

Lemma clients_cre c cl M0 T x a k p src k' out : mget cl a = Some k -> cl_round_end S G k p = Some (k', out) ->
  clients_ok S G c cl (Msg a Net.ROUND_END p src :: M0) T x -> clients_ok S G c (mset cl a k') M0 T x.
Proof.
  intros E ES C b kb Eb.
  destruct (cre_step k p k' out ES) as (_ & (_ & _ & _ & I4) & I5 & I6 & I7).
  rewrite mget_mset in Eb. destruct (keq b a) as [->|N].
  - injection Eb as <-. destruct (C a k E) as (B1 & v & r & R & B2 & B3 & B4 & B5). rewrite I4. split; [assumption|].
    exists v, r, R. rewrite I5, I6, I7. split; [assumption|]. split; [assumption|].
    rewrite rsum_cons in B4. rewrite dsum_cons in B5.
    unfold rd_msg in B4. unfold dd_msg in B5. rewrite to_a_yes in B5 by reflexivity. rewrite to_a_type in B4 by discriminate.
    cbn [mParams] in B5. split; [now rewrite Z.add_0_l in B4|].
    rewrite <- B5. rewrite <- !Z.add_assoc. rewrite Prop_Coord.int64_add_l. f_equal. lia.
  - destruct (C b kb Eb) as (B1 & v & r & R & B2 & B3 & B4 & B5). split; [assumption|]. exists v, r, R.
    rewrite rsum_cons in B4. rewrite dsum_cons in B5. unfold rd_msg in B4. unfold dd_msg in B5.
    rewrite (to_a_other _ _ a b) in B4 by (auto; reflexivity). rewrite (to_a_other _ _ a b) in B5 by (auto; reflexivity).
    rewrite Z.add_0_l in B4, B5. auto.
Qed.

(** ** Facts about the base *)
Lemma base_co c c' sv cl V : base S c sv cl V -> co_static c' = co_static c -> co_servers c' = co_servers c ->
  co_clients c' = co_clients c -> pbase_ok S (co_pb c') -> base S c' sv cl V.
Proof.
  intros [A1 A2 A3 A4 A5 A6 A7 A8 A9 A10 A11 A12] E1 E2 E3 PB. pose proof (same_addr c c' E1) as SA.
  constructor; rewrite ?E2, ?SA, ?E3; assumption.
Qed.

Lemma in_chain c sv cl V a : base S c sv cl V -> In a (map fst (co_servers c)) ->
  a <> co_addr c /\ mget cl a = None /\ exists s, mget sv a = Some s.
Proof.
  intros B I. pose proof (proj1 (b_srv S c sv cl V B a) I) as N. split; [|split].
  - intros ->. now apply N, (b_self S c sv cl V B).
  - destruct (mget cl a) as [k|] eqn:E; [|reflexivity]. destruct (b_cl S c sv cl V B a k E) as (_ & _ & _ & _ & X & _). congruence.
  - destruct (mget sv a) as [s|]; [now exists s|congruence].
Qed.
Lemma chain_not_cl c sv cl V a : base S c sv cl V -> In a (map fst (co_servers c)) -> mget cl a <> None -> False.
Proof. intros B I N. destruct (in_chain _ _ _ _ _ B I) as (_ & X & _). congruence. Qed.
Lemma self_not_cl c sv cl V : base S c sv cl V -> mget cl (co_addr c) = None.
Proof.
  intros B. destruct (mget cl (co_addr c)) as [k|] eqn:E; [|reflexivity].
  destruct (b_cl S c sv cl V B _ k E) as (_ & _ & _ & X & _). congruence.
Qed.
Lemma cl_not_sv c sv cl V a : base S c sv cl V -> mget cl a <> None -> mget sv a = None.
Proof.
  intros B N. destruct (mget cl a) as [k|] eqn:E; [|congruence].
  now destruct (b_cl S c sv cl V B a k E) as (_ & _ & _ & _ & X & _).
Qed.
Lemma nth_chain c sv cl V i : base S c sv cl V -> (i <= length (co_servers c))%nat ->
  (i = length (co_servers c) /\ nth i (map fst (co_servers c)) (co_addr c) = co_addr c) \/
  exists a s, nth i (map fst (co_servers c)) (co_addr c) = a /\ nth_error (map fst (co_servers c)) i = Some a /\
    mget sv a = Some s /\ a <> co_addr c /\ mget cl a = None.
Proof.
  intros B Hi. destruct (Nat.eq_dec i (length (co_servers c))) as [->|N].
  - left. split; [reflexivity|]. apply nth_overflow. rewrite map_length. lia.
  - right. set (L := map fst (co_servers c)) in *.
    assert (Hl : (i < length L)%nat) by (unfold L; rewrite map_length; lia).
    pose proof (nth_In L (co_addr c) Hl) as I. destruct (in_chain _ _ _ _ _ B I) as (X1 & X2 & s & X3).
    exists (nth i L (co_addr c)), s. split; [reflexivity|]. split; [now apply nth_error_nth'|]. auto.
Qed.

Lemma T_group (T V : list entry) : Permutation T V -> Forall (in_group S) (map fst V) -> Forall (in_group S) (map fst T).
Proof.
  intros P F. eapply Permutation_Forall; [|exact F]. symmetry. now apply Permutation_map.
Qed.
Lemma T_nodup (T V : list entry) : Permutation T V -> NoDup (map fst V) -> NoDup (map fst T).
Proof.
  intros P F. eapply Permutation_NoDup; [|exact F]. symmetry. now apply Permutation_map.
Qed.

Lemma prod_snoc l x : prod_of (l ++ [x]) = prod_of l * x.
Proof. unfold prod_of. induction l as [|a l IH]; cbn [app fold_right]; [lia|]. rewrite IH. lia. Qed.
Lemma prod_app l l' : prod_of (l ++ l') = prod_of l * prod_of l'.
Proof. unfold prod_of. induction l as [|a l IH]; cbn [app fold_right]; [lia|]. rewrite IH. lia. Qed.
Lemma firstn_snoc {A} (l : list A) i x : nth_error l i = Some x -> firstn (Datatypes.S i) l = firstn i l ++ [x].
Proof.
  revert i. induction l as [|a l IH]; intros [|i] E; try discriminate; cbn [nth_error firstn app] in *.
  - now injection E as ->.
  - f_equal. now apply IH.
Qed.
Lemma exps_nth c sv i a s : nth_error (map fst (co_servers c)) i = Some a -> mget sv a = Some s ->
  nth_error (exps c sv) i = Some (sv_roundkey s).
Proof.
  intros E Es. unfold exps. rewrite (map_nth_error (rkey sv) i _ E). unfold rkey. now rewrite Es.
Qed.
Lemma exps_length c sv : length (exps c sv) = length (co_servers c).
Proof. unfold exps. now rewrite !map_length. Qed.

Lemma ent_next HT GT e rk E t : in_group S (fst t) -> in_group S HT -> in_group S GT ->
  (pt_mul S (fst (ent S (PBase HT GT) e t)) rk, pt_mul S (snd (ent S (PBase HT GT) e t)) E) =
  ent S (PBase (pt_mul S HT E) (pt_mul S GT E)) (e * rk) t.
Proof.
  intros H1 H2 H3. unfold ent. cbn [fst snd]. rewrite (pt_mul_mul S OK) by assumption. f_equal.
  symmetry. apply (ped_rekey S OK (PBase HT GT)). split; assumption.
Qed.

Lemma clients_ok_T c cl M T T' x : (forall t, In t T -> In t T') -> clients_ok S G c cl M T x -> clients_ok S G c cl M T' x.
Proof.
  intros I C a k E. destruct (C a k E) as (A1 & v & r & R & A2 & A3). split; [assumption|].
  exists v, r, R. split; [now apply I|assumption].
Qed.

(** ** Announcement *)
Lemma ann_server c sv cl V T i p keys vals GT HT a s rn s' out src :
  base S c sv cl V -> ann_ph S G c sv cl [Msg a ANNOUNCEMENT p src] V T i p keys vals GT HT ->
  nth_error (map fst (co_servers c)) i = Some a -> mget sv a = Some s ->
  sv_announcement S H s p rn = Some (s', out) ->
  base S c (mset sv a s') cl V /\ phase S G c (mset sv a s') cl (core out) V.
Proof.
  intros B [A1 A2 A3 A4 A5 A6 A7 A8 A9 A10 A11] Hi Hs E.
  destruct (b_link S c sv cl V B i a s Hi Hs) as (L1 & L2 & L3).
  assert (Gg : in_group S (pt_mul_base S (prod_of (firstn i (exps c sv))))) by (unfold pt_mul_base, pt_mul; in_grp).
  destruct (ann_step S OK H s p rn _ keys vals GT HT s' out L3 A6 A7 Gg A8 E)
    as (fk & fv & extra & -> & P1 & T1 & X1 & (K1 & K2 & K3 & K4 & K5 & K6) & SO & RK & _ & _ & Z1 & Z2 & Z3 & Z4).
  split; [now apply base_sv with s|].
  assert (EF : firstn (Datatypes.S i) (exps c (mset sv a s')) = firstn i (exps c sv) ++ [sv_roundkey s]).
  { rewrite (exps_mset c sv a s s' Hs RK). apply firstn_snoc. now apply exps_nth with a. }
  destruct A8 as [B1 B2 B3 B4 B5 B6].
  rewrite A9, map_map in P1.
  pose proof (T_group T V A10 (b_Vg _ _ _ _ _ B)) as TG. rewrite Forall_forall in TG.
  assert (P2 : Permutation (combine fk fv) (map (ent S (PBase (pt_mul S HT (srE rn)) (pt_mul S GT (srE rn)))
    (prod_of (firstn i (exps c sv)) * sv_roundkey s)) T)).
  { erewrite map_ext_in; [exact P1|]. intros t Ht. symmetry. apply ent_next; try assumption. apply TG. now apply in_map. }
  apply Permutation_map_inv in P2. destruct P2 as (T2 & E2 & PT).
  destruct (carries_next S (pt_mul S (pt_mul_base S (prod_of (firstn i (exps c sv)))) (sv_roundkey s)) fk fv
    (pt_mul S GT (srE rn)) (pt_mul S HT (srE rn)) extra) as [C1 C2].
  apply ph_ann with T2 (Datatypes.S i) (("g"%str, VBytes (enc_point S (pt_mul S (pt_mul_base S (prod_of (firstn i (exps c sv)))) (sv_roundkey s)))) ::
             table_params S fk fv (pt_mul S GT (srE rn)) (pt_mul S HT (srE rn)) ++ extra)
    fk fv (pt_mul S GT (srE rn)) (pt_mul S HT (srE rn)).
  constructor; try assumption; try rewrite EF, prod_snoc.
  - apply nth_error_lt in Hi. rewrite map_length in Hi. lia.
  - exists (sv_addr s). rewrite L1. reflexivity.
  - unfold pt_mul_base. rewrite <- (pt_mul_mul S OK) by apply (in_group_G S OK). exact C2.
  - exact E2.
  - eapply Permutation_trans; [|exact A10]. now symmetry.
  - apply clients_ok_T with T; [|assumption]. intros t. now apply Permutation_in.
Qed.

Lemma mget_combine {A B} (ks : list Z) (l : list A) (l' : list B) k : length l = length ks -> length l' = length ks ->
  (mget (combine ks l) k = None <-> mget (combine ks l') k = None).
Proof.
  revert l l'. induction ks as [|a ks IH]; intros [|x l] [|x' l'] L L'; cbn in L, L'; try lia; [split; reflexivity|].
  cbn [combine mget]. destruct (keq k a); [split; discriminate|]. apply IH; lia.
Qed.
Lemma mget_combine_id (ks : list Z) k k' : mget (combine ks ks) k = Some k' -> k' = k.
Proof.
  induction ks as [|a ks IH]; cbn [combine mget]; [discriminate|]. destruct (keq k a); [intros [= ->]; congruence|exact IH].
Qed.
Lemma agree_combine ks vs : length vs = length ks -> agree_keys (combine ks ks) (combine ks vs).
Proof.
  intros L k. pose proof (mget_combine ks ks vs k eq_refl L) as Q.
  destruct (mget (combine ks ks) k) as [k'|] eqn:E, (mget (combine ks vs) k) as [v|] eqn:E'; cbn [option_map].
  - f_equal. now apply mget_combine_id with ks.
  - destruct Q as [_ Q]. specialize (Q eq_refl). discriminate.
  - destruct Q as [Q _]. specialize (Q eq_refl). discriminate.
  - reflexivity.
Qed.

Lemma core_clients c ty p : existsb (Z.eqb ty) inert_types = false -> core (to_clients c ty p) = to_clients c ty p.
Proof.
  intros E. apply core_all. apply Forall_forall. intros m Hm. unfold inert. now rewrite (to_clients_type c ty p m Hm).
Qed.
Lemma core_servers c ty p : existsb (Z.eqb ty) inert_types = false -> core (to_servers c ty p) = to_servers c ty p.
Proof.
  intros E. apply core_all. apply Forall_forall. intros m Hm. unfold inert. now rewrite (to_servers_type c ty p m Hm).
Qed.
Lemma to_clients_in c ty p k a : mget (co_clients c) k = Some a -> sent_to (to_clients c ty p) ty a.
Proof.
  intros E. apply mget_In in E. exists (Msg a ty p (co_addr c)). split; [|split; reflexivity].
  apply in_map_iff. now exists (k, a).
Qed.
Lemma to_servers_in c ty p a : In a (map fst (co_servers c)) -> sent_to (to_servers c ty p) ty a.
Proof.
  intros E. apply in_map_iff in E. destruct E as ([a' pk] & E & I). cbn in E. subst a'.
  exists (Msg a ty p (co_addr c)). split; [|split; reflexivity]. apply in_map_iff. now exists (a, pk).
Qed.
Lemma to_clients_inv c sv cl V ty p m : base S c sv cl V -> In m (to_clients c ty p) ->
  exists a k, m = Msg a ty p (co_addr c) /\ mget cl a = Some k /\ mget (co_clients c) (cl_pub k) = Some a.
Proof.
  intros B I. apply in_map_iff in I. destruct I as ([k a] & <- & I). cbn [fst snd].
  apply (mwf_In _ _ _ (b_wf _ _ _ _ _ B)) in I. destruct (b_reg _ _ _ _ _ B k a I) as (kc & E1 & <-). eauto.
Qed.
Lemma to_servers_inv c ty p m : In m (to_servers c ty p) -> exists a, m = Msg a ty p (co_addr c) /\ In a (map fst (co_servers c)).
Proof. intros I. apply in_map_iff in I. destruct I as ([a k] & <- & I). exists a. split; [reflexivity|]. apply in_map_iff. now exists (a, k). Qed.

Lemma sent_app_l M M' ty a : sent_to M ty a -> sent_to (M ++ M') ty a.
Proof. intros (m & I & E). exists m. split; [apply in_or_app; now left|assumption]. Qed.
Lemma sent_app_r M M' ty a : sent_to M' ty a -> sent_to (M ++ M') ty a.
Proof. intros (m & I & E). exists m. split; [apply in_or_app; now right|assumption]. Qed.
Lemma filter_none {A} (f : A -> bool) l : (forall x, In x l -> f x = false) -> filter f l = [].
Proof.
  induction l as [|a l IH]; intros E; [reflexivity|]. cbn [filter]. rewrite E by (now left). apply IH. intros x Hx. apply E. now right.
Qed.

Lemma ann_coord c sv cl V T p keys vals GT HT M c' out :
  base S c sv cl V -> ann_ph S G c sv cl M V T (length (co_servers c)) p keys vals GT HT ->
  co_announcement S c p = Some (c', out) -> base S c' sv cl V /\ phase S G c' sv cl (core out) V.
Proof.
  intros B [A1 A2 A3 A4 A5 A6 A7 A8 A9 A10 A11] E.
  destruct (carries_dec S OK p keys vals GT HT A6 A8) as (bk & bv & bG & bH & D1 & D2 & D3 & D4 & D5 & D6 & D7 & D8).
  assert (EK : firstn (length (co_servers c)) (exps c sv) = exps c sv) by (rewrite <- (exps_length c sv); apply firstn_all).
  rewrite EK in A7, A9. set (K := prod_of (exps c sv)) in *.
  assert (Gg : in_group S (pt_mul_base S K)) by (unfold pt_mul_base, pt_mul; in_grp).
  unfold co_announcement in E. rewrite D1, D2, D3, D4, D5, D6, D7, D8 in E.
  destruct A7 as [[A7 _]|[_ A7]].
  { exfalso. unfold has_key in A7. unfold get_bytes in E. destruct (lookup p "g"%str); [discriminate|discriminate]. }
  rewrite A7, (dec_enc_point S OK _ Gg) in E.
  pose proof A8 as A80. destruct A8 as [B1 B2 B3 B4 B5 B6].
  rewrite (ending_map_combine keys keys B3 eq_refl), (ending_map_combine keys vals B3 B4) in E.
  injection E as <- <-. set (pm := [("g"%str, _); _; _; _; _]). set (c3 := set_status _ CO_MESSAGE).
  assert (PB : pbase_ok S (PBase HT GT)) by (split; assumption).
  assert (FO : fin_ok S c3 pm).
  { exists keys, vals, (pt_mul_base S K). split; [reflexivity|]. split; [reflexivity|]. destruct A6 as (F1 & F2 & F3 & F4).
    split; [|split; [assumption|split; reflexivity]]. unfold pm. unfold carries, get_bytes.
    cbn [lookup String.eqb Ascii.eqb Bool.eqb].
    unfold c3. cbn [co_pb set_status set_G set_keys set_diffs set_ecomms set_ekeys set_pb pb_GT pb_HT].
    rewrite <- F1, <- F2, <- F3, <- F4, D1, D3, D5, D7. auto. }
  split; [now apply base_co with c|].
  rewrite core_app, core_clients, core_servers by reflexivity.
  apply ph_mid with T [] K. constructor; try reflexivity; try assumption.
  - now apply agree_combine.
  - unfold c3. cbn [co_buffer set_status set_G set_keys set_diffs set_ecomms set_ekeys set_pb]. rewrite A3.
    rewrite filter_none; [constructor|]. intros m Hm. unfold is_ty. apply in_app_or in Hm.
    destruct Hm as [Hm|Hm]; [rewrite (to_clients_type _ _ _ _ Hm)|rewrite (to_servers_type _ _ _ _ Hm)]; reflexivity.
  - constructor.
  - rewrite app_nil_r. rewrite filter_none; [rewrite app_nil_r; exact A10|]. intros m Hm. unfold is_ty. apply in_app_or in Hm.
    destruct Hm as [Hm|Hm]; [rewrite (to_clients_type _ _ _ _ Hm)|rewrite (to_servers_type _ _ _ _ Hm)]; reflexivity.
  - apply Forall_forall. intros m Hm. apply in_app_or in Hm. destruct Hm as [Hm|Hm].
    + destruct (to_clients_inv c sv cl V _ _ _ B Hm) as (a & k & -> & Ek & _). apply mm_fin; [assumption|]. right. congruence.
    + destruct (to_servers_inv _ _ _ _ Hm) as (a & -> & Ha). apply mm_fin; [assumption|now left].
  - intros a k Ek. right. destruct (A11 a k Ek) as (C1 & v & r & R & C2 & C3 & C4 & C5). split; [exact C1|].
    exists v, r. rewrite app_nil_r. split; [assumption|]. cbn in C4, C5. rewrite !Z.add_0_r in C5. rewrite Z.add_0_r in C4.
    split; [assumption|]. right. exists R. split; [assumption|]. split; [assumption|]. left. apply sent_app_l.
    now apply to_clients_in with (cl_pub k).
  - intros a s Hs. left. apply sent_app_r. apply to_servers_in. apply (b_srv _ _ _ _ _ B). congruence.
  - intros a k Ek _. left. apply sent_app_l. destruct (A11 a k Ek) as (C1 & _). now apply to_clients_in with (cl_pub k).
Qed.

(** ** Round end *)
Lemma clients_dead c cl m M T x : mget cl (mDst m) = None ->
  (clients_ok S G c cl (m :: M) T x <-> clients_ok S G c cl M T x).
Proof.
  intros N. assert (X : forall a k ty, mget cl a = Some k -> to_a m ty a = false).
  { intros a k ty E. apply to_a_other with (mDst m); [reflexivity|]. intros ->. congruence. }
  split; intros C a k E; destruct (C a k E) as (A1 & v & r & R & A2 & A3 & A4 & A5); (split; [assumption|]);
    exists v, r, R; repeat (split; [assumption|]).
  - rewrite rsum_cons in A4. rewrite dsum_cons in A5. unfold rd_msg in A4. unfold dd_msg in A5.
    rewrite (X a k _ E) in A4. rewrite (X a k _ E) in A5. auto.
  - rewrite rsum_cons, dsum_cons. unfold rd_msg, dd_msg. rewrite (X a k BCAST_PEDERSEN_RDIFF E), (X a k Net.ROUND_END E). auto.
Qed.

Lemma exps_firstn c sv a s' j : NoDup (map fst (co_servers c)) -> nth_error (map fst (co_servers c)) j = Some a ->
  firstn j (exps c (mset sv a s')) = firstn j (exps c sv).
Proof.
  unfold exps. generalize (map fst (co_servers c)). intros L ND E. revert j E ND.
  induction L as [|b L IH]; intros [|j] E ND; try reflexivity; cbn [nth_error] in E; cbn [map firstn].
  inversion ND as [|? ? NI ND']; subst. f_equal; [|now apply IH].
  unfold rkey. rewrite mget_mset_ne; [reflexivity|]. intros ->. apply NI. now apply nth_error_In in E.
Qed.

Lemma end_server c sv cl V T j M0 M1 p keys vals GT HT a s rn s' out src :
  base S c sv cl V -> end_ph S G c sv cl (Msg a Net.ROUND_END p src :: M0) V T (Datatypes.S j) M1 p keys vals GT HT ->
  Permutation M0 M1 -> nth_error (map fst (co_servers c)) j = Some a -> mget sv a = Some s ->
  rel_prime (srKey rn) (sQ S) -> sv_round_end S H s p rn = Some (s', out) ->
  base S c (mset sv a s') cl V /\ phase S G c (mset sv a s') cl (M0 ++ core out) V.
Proof.
  intros B [A1 A2 A3 A4 A5 A6 A7 A8 A9 A10 A11] PM Hj Hs RP E.
  destruct (b_link S c sv cl V B j a s Hj Hs) as (L1 & L2 & L3).
  pose proof (T_group T V A9 (b_Vg _ _ _ _ _ B)) as TG. rewrite Forall_forall in TG.
  assert (EF : firstn (Datatypes.S j) (exps c sv) = firstn j (exps c sv) ++ [sv_roundkey s]).
  { apply firstn_snoc. now apply exps_nth with a. }
  set (e := prod_of (firstn j (exps c sv))) in *.
  rewrite EF, prod_snoc in A8. fold e in A8.
  pose proof A7 as A70. destruct A7 as [B1 B2 B3 B4 B5 B6].
  set (okeys := map (fun t : entry => pt_mul S (fst t) e) T).
  assert (EO : keys = map (fun k => pt_mul S k (sv_roundkey s)) okeys).
  { rewrite <- (combine_keys keys vals B4), A8. unfold okeys. rewrite !map_map. apply map_ext_in. intros t Ht.
    unfold ent. cbn [fst]. now rewrite (pt_mul_mul S OK) by (apply TG; now apply in_map). }
  assert (EV : combine okeys vals = map (ent S (PBase HT GT) e) T).
  { assert (XV : vals = map (fun t : entry => snd (ent S (PBase HT GT) e t)) T).
    { transitivity (map snd (combine keys vals)).
      - clear - B4. revert vals B4. induction keys as [|k ks IH]; intros [|v vs] L; cbn in *; try lia; [reflexivity|].
        f_equal. apply IH. lia.
      - rewrite A8, map_map. reflexivity. }
    rewrite XV. unfold okeys. clear. induction T as [|t T IH]; [reflexivity|]. cbn [map combine]. f_equal. exact IH. }
  assert (FO : Forall (in_group S) okeys).
  { apply Forall_forall. intros k Hk. apply in_map_iff in Hk. destruct Hk as (t & <- & Ht).
    assert (in_group S (fst t)) by (apply TG; now apply in_map). unfold pt_mul. in_grp. }
  destruct (end_step S OK H s p rn keys vals GT HT okeys s' out L3 A6 A70 RP FO EO E)
    as (fk & fv & extra & -> & P1 & T1 & X1 & (K1 & K2 & K3 & K4 & K5 & K6) & SO & RK & _ & Z1 & Z2 & Z3 & Z4).
  split; [now apply base_sv with s|].
  rewrite EV, map_map in P1.
  assert (P2 : Permutation (combine fk fv) (map (ent S (PBase (pt_mul S HT (srE rn)) (pt_mul S GT (srE rn))) e) T)).
  { erewrite map_ext_in; [exact P1|]. intros t Ht. unfold ent. cbn [fst snd]. f_equal.
    apply (ped_rekey S OK (PBase HT GT)). split; assumption. }
  apply Permutation_map_inv in P2. destruct P2 as (T2 & E2 & PT).
  destruct (b_link S c sv cl V B j a s Hj Hs) as (_ & EP & _).
  assert (DA : mget cl a = None).
  { apply nth_error_In in Hj. now destruct (in_chain _ _ _ _ _ B Hj) as (_ & X & _). }
  assert (DP : mget cl (sv_prev s) = None).
  { rewrite EP. unfold before. destruct j as [|j']; [now apply self_not_cl with sv V|].
    apply nth_error_lt in Hj. assert (Hl : (j' < length (map fst (co_servers c)))%nat) by lia.
    pose proof (nth_In _ (co_addr c) Hl) as I. now destruct (in_chain _ _ _ _ _ B I) as (_ & X & _). }
  apply ph_end with T2 j M0 (table_params S fk fv (pt_mul S GT (srE rn)) (pt_mul S HT (srE rn)) ++ extra) fk fv
    (pt_mul S GT (srE rn)) (pt_mul S HT (srE rn)).
  constructor; try assumption.
  - lia.
  - exists (sv_addr s). rewrite EP. cbn [core filter inert existsb inert_types mType]. apply Permutation_sym, Permutation_cons_append.
  - now apply (Permutation_Forall (Permutation_sym PM)).
  - apply (lookup_table_params S fk fv _ _ extra []). reflexivity.
  - rewrite exps_firstn by (try assumption; apply (b_nd _ _ _ _ _ B)). exact E2.
  - eapply Permutation_trans; [|exact A9]. now symmetry.
  - apply clients_ok_T with T; [intros t; now apply Permutation_in|].
    eapply clients_ok_perm; [apply Permutation_cons_append|]. apply clients_dead; [exact DP|].
    apply clients_dead in A11; [assumption|exact DA].
Qed.

Lemma one_of (l : amap Z addr) p a X : NoDup (map fst l) -> In (p, a) l -> (forall p', In (p', a) l -> p' = p) ->
  zsum (map (fun e : Z * addr => if keq (snd e) a then X else 0) l) = X.
Proof.
  induction l as [|[q b] l IH]; intros ND I U; [destruct I|]. cbn [map] in ND. inversion ND as [|? ? NI ND']; subst.
  unfold zsum in *. cbn [map fold_right snd]. destruct (keq b a) as [->|N].
  - assert (q = p) by (apply U; now left). subst q.
    assert (Z0 : fold_right Z.add 0 (map (fun e : Z * addr => if keq (snd e) a then X else 0) l) = 0).
    { assert (NA : forall q b, In (q, b) l -> b <> a).
      { intros q b Hq ->. assert (q = p) by (apply U; now right). subst q. apply NI. apply in_map_iff. now exists (p, a). }
      clear - NA. induction l as [|[q b] l IH]; [reflexivity|]. cbn [map fold_right snd].
      destruct (keq b a) as [E|_]; [exfalso; apply (NA q b); [now left|assumption]|]. rewrite IH; [reflexivity|].
      intros q' b' Hq. apply (NA q'). now right. }
    lia.
  - rewrite IH; [lia|assumption| |].
    + destruct I as [E|I]; [congruence|assumption].
    + intros p' Hp. apply U. now right.
Qed.

Lemma sum_to_clients c sv cl V ty pm a k (f : msg -> Z) X : base S c sv cl V -> mget cl a = Some k ->
  mget (co_clients c) (cl_pub k) = Some a ->
  (forall b, f (Msg b ty pm (co_addr c)) = if keq b a then X else 0) ->
  zsum (map f (to_clients c ty pm)) = X.
Proof.
  intros B Ek ER Ef. unfold to_clients. rewrite map_map.
  erewrite map_ext; [apply (one_of _ (cl_pub k) a X)|].
  - apply (b_wf _ _ _ _ _ B).
  - now apply mget_In.
  - intros p' I. apply (mwf_In _ _ _ (b_wf _ _ _ _ _ B)) in I. destruct (b_reg _ _ _ _ _ B p' a I) as (k' & E1 & <-). congruence.
  - intros [q b]. cbn [snd]. apply Ef.
Qed.

Lemma find_int_from_map f ks nym : forall pre, find_int_from (length pre) ks (pre ++ map f ks) nym =
  Some (if in_dec Z.eq_dec nym ks then f nym else 0).
Proof.
  induction ks as [|k ks IH]; intros pre; cbn [find_int_from map].
  - destruct (in_dec Z.eq_dec nym []) as [[]|]; reflexivity.
  - destruct (Z.eqb_spec nym k) as [->|N].
    + rewrite nth_error_app2, Nat.sub_diag by lia. cbn [nth_error].
      destruct (in_dec Z.eq_dec k (k :: ks)) as [|N]; [reflexivity|]. exfalso. apply N. now left.
    + specialize (IH (pre ++ [f k])). rewrite app_length, <- app_assoc in IH. cbn [length app] in IH.
      rewrite Nat.add_1_r in IH. rewrite IH.
      destruct (in_dec Z.eq_dec nym ks) as [I|I], (in_dec Z.eq_dec nym (k :: ks)) as [I'|I']; try reflexivity.
      * exfalso. apply I'. now right.
      * destruct I' as [<-|I']; [now elim N|contradiction].
Qed.
Lemma find_int_map f ks nym : find_int ks (map f ks) nym = Some (if in_dec Z.eq_dec nym ks then f nym else 0).
Proof. exact (find_int_from_map f ks nym []). Qed.

Lemma non_nil_id (m : amap Z Z) l r : (forall k k', mget m k = Some k' -> k' = k /\ in_group S k) ->
  non_nil (map (fun k => mget m k) l) = Some r -> r = l /\ Forall (in_group S) l.
Proof.
  intros Hm E. unfold non_nil in E. apply dec_all_spec in E. revert r E.
  induction l as [|k l IH]; intros r E; cbn [map] in E; inversion E as [|? b ? r' E1 E2]; subst; [split; [reflexivity|constructor]|].
  destruct (Hm _ _ E1) as [-> Gk]. destruct (IH _ E2) as [-> F]. split; [reflexivity|now constructor].
Qed.

Lemma end_coord c sv cl V T M0 M1 p keys vals GT HT rn c' out src :
  base S c sv cl V -> end_ph S G c sv cl (Msg (co_addr c) Net.ROUND_END p src :: M0) V T 0 M1 p keys vals GT HT ->
  Permutation M0 M1 -> range_order (crDiffs rn) (co_diffs c) -> co_round_end S G c p rn = Some (c', out) ->
  base S c' sv cl V /\ phase S G c' sv cl (M0 ++ core out) V.
Proof.
  intros B [A1 A2 A3 A4 A5 A6 A7 A8 A9 A10 A11] PM RO E.
  destruct (carries_dec S OK p keys vals GT HT A6 A7) as (bk & bv & bG & bH & D1 & D2 & D3 & D4 & D5 & D6 & D7 & D8).
  unfold co_round_end in E. rewrite D1, D2, D3, D4, D5, D6, D7, D8 in E.
  destruct A7 as [B1 B2 B3 B4 B5 B6].
  rewrite (ending_map_combine keys keys B3 eq_refl), (ending_map_combine keys vals B3 B4) in E.
  destruct (non_nil (map (fun k => mget (co_ekeys c) k) (crDiffs rn))) as [dkeys|] eqn:EN; [|discriminate].
  destruct (non_nil_id _ _ _ A10 EN) as [-> GD]. injection E as <- <-.
  set (pm := [("keys"%str, _); _]). set (c1 := set_status _ _).
  assert (PB : pbase_ok S (PBase HT GT)) by (split; assumption).
  split; [now apply base_co with c|]. rewrite core_clients by reflexivity.
  apply ph_ready with T. constructor; try reflexivity; try assumption.
  - intros F. exfalso. change (co_first c1) with (co_first c) in F. congruence.
  - now apply agree_combine.
  - apply clients_dead in A11; [|exact (self_not_cl _ _ _ _ B)].
    intros a k Ek. destruct (A11 a k Ek) as (C1 & v & r & R & C2 & C3 & C4 & C5). split; [exact C1|].
    exists v, r, R. split; [assumption|]. split; [assumption|]. rewrite rsum_app, dsum_app.
    rewrite rsum_zero with (M := to_clients c Net.ROUND_END pm).
    + rewrite Z.add_0_r. split; [assumption|]. rewrite Z.add_0_r. rewrite <- C5. rewrite Z.add_assoc. do 2 f_equal.
      unfold dsum. apply (sum_to_clients c sv cl V) with a k; try assumption. intros b. unfold dd_msg, to_a.
      cbn [mType mDst mParams]. rewrite Z.eqb_refl. cbn [andb]. destruct (keq b a) as [->|]; [|reflexivity].
      unfold dd_val, pm, get_bytes. cbn [lookup String.eqb Ascii.eqb Bool.eqb].
      rewrite (dec_enc_points S OK _ GD), (g_ints G GOK), find_int_map. cbn [or0].
      destruct (in_dec Z.eq_dec (cl_nym k) (crDiffs rn)) as [|N]; [reflexivity|].
      unfold rep_diff. destruct (mget (co_diffs c) (cl_nym k)) eqn:EE; [|reflexivity].
      exfalso. apply N. apply mget_keys in EE. unfold range_order in RO. now apply (Permutation_in _ (Permutation_sym RO)).
    + apply Forall_forall. intros m Hm. apply to_a_type. rewrite (to_clients_type _ _ _ _ Hm). discriminate.
  - apply Forall_app. split.
    + apply (Permutation_Forall (Permutation_sym PM)). eapply Forall_impl; [|exact A5]. auto.
    + apply Forall_forall. intros m Hm. right. right. destruct (to_clients_inv c sv cl V _ _ _ B Hm) as (a & k & -> & Ek & _).
      split; [reflexivity|]. cbn [mDst]. congruence.
Qed.

(** ** The open round *)
Lemma sent_tail m M ty a : sent_to (m :: M) ty a -> (mType m = ty /\ mDst m = a) \/ sent_to M ty a.
Proof. intros (m' & [<-|I] & E); [now left|]. right. now exists m'. Qed.
Lemma sent_cons m M ty a : sent_to M ty a -> sent_to (m :: M) ty a.
Proof. intros (m' & I & E). exists m'. split; [now right|assumption]. Qed.

Lemma cl_mid_drop c m M T0 T1 K a k : cl_register S k <> m ->
  (mDst m = a -> mType m <> INIT_PEDERSEN_R /\ mType m <> ANNOUNCEMENT_FINALIZE) ->
  cl_mid S c (m :: M) T0 T1 K a k -> cl_mid S c M T0 T1 K a k.
Proof.
  intros NR ND [[[E|I] B2]|(B1 & v & r & B2 & B3 & B4)].
  - congruence.
  - now left.
  - right. split; [assumption|]. exists v, r. repeat (split; [assumption|]).
    destruct B4 as [B4|(R & B5 & B6 & B7)].
    + left. apply sent_tail in B4. destruct B4 as [[E1 E2]|]; [|assumption]. destruct (ND E2). congruence.
    + right. exists R. repeat (split; [assumption|]). destruct B7 as [B7|]; [|now right]. left.
      apply sent_tail in B7. destruct B7 as [[E1 E2]|]; [|assumption]. destruct (ND E2). congruence.
Qed.
Lemma cl_mid_app c M M' T0 T1 K a k : cl_mid S c M T0 T1 K a k -> cl_mid S c (M ++ M') T0 T1 K a k.
Proof.
  intros [[I B2]|(B1 & v & r & B2 & B3 & B4)].
  - left. split; [apply in_or_app; now left|assumption].
  - right. split; [assumption|]. exists v, r. repeat (split; [assumption|]).
    destruct B4 as [B4|(R & B5 & B6 & B7)]; [left; now apply sent_app_l|]. right. exists R. repeat (split; [assumption|]).
    destruct B7 as [B7|]; [left; now apply sent_app_l|now right].
Qed.
Lemma mid_msg_cl c cl T1 a k k' m : mget cl a = Some k -> same_id k k' ->
  mid_msg S c cl T1 m -> mid_msg S c (mset cl a k') T1 m.
Proof.
  intros E (I1 & I2 & I3 & I4) D. destruct D as [b p src D1 D2|b kb D1|b d kb pc src D1 D2 D3|b kb r g src D1 D2 D3 D4].
  - apply mm_fin; [assumption|]. destruct D2 as [D2|D2]; [now left|right]. now apply mset_some.
  - destruct (keq b a) as [->|N].
    + rewrite E in D1. injection D1 as <-. replace (cl_register S k) with (cl_register S k')
        by (unfold cl_register; now rewrite I1, I2, I4). apply mm_reg with a. apply mget_mset_eq.
    + apply mm_reg with b. now rewrite mget_mset_ne by congruence.
  - now apply mm_regs.
  - destruct (keq b a) as [->|N].
    + rewrite E in D1. injection D1 as <-. apply mm_r with k'; try assumption; [apply mget_mset_eq|congruence].
    + apply mm_r with kb; try assumption. now rewrite mget_mset_ne by congruence.
Qed.

Lemma mid_keys c sv cl M V T0 T1 K : base S c sv cl V -> mid_ph S c sv cl M V T0 T1 K ->
  NoDup (map fst T0 ++ map fst T1 ++ map (fun m => pget (mParams m) "public_key"%str) (filter (is_ty CLIENT_REGISTER_CONTROLLERSIDE) M)).
Proof.
  intros B D. pose proof (p3_V _ _ _ _ _ _ _ _ _ D) as P. apply (Permutation_map fst) in P.
  rewrite !map_app, map_map in P. cbn [fst] in P. rewrite <- app_assoc in P.
  eapply Permutation_NoDup; [symmetry; exact P|]. apply (b_V _ _ _ _ _ B).
Qed.

Lemma find_index_nth (keys vals : list Z) nym v : NoDup keys -> 0 <= find_index keys nym ->
  nth_error vals (Z.to_nat (find_index keys nym)) = Some v -> mget (combine keys vals) nym = Some v.
Proof.
  intros _. unfold find_index.
  assert (X : forall ks vs i, 0 <= i -> 0 <= find_index_from i ks nym ->
    i <= find_index_from i ks nym /\
    (nth_error vs (Z.to_nat (find_index_from i ks nym - i)) = Some v -> mget (combine ks vs) nym = Some v)).
  { induction ks as [|k ks IH]; intros vs i Hi; cbn [find_index_from]; [lia|]. destruct (Z.eqb_spec nym k) as [->|N].
    - intros _. split; [lia|]. rewrite Z.sub_diag. cbn [Z.to_nat]. destruct vs as [|x vs]; [discriminate|]. cbn [nth_error combine mget].
      intros [= ->]. destruct (keq k k); congruence.
    - intros Hf. destruct (IH (tl vs) (i + 1) ltac:(lia) Hf) as [L E]. split; [lia|]. destruct vs as [|x vs].
      + destruct (Z.to_nat (find_index_from (i + 1) ks nym - i)); discriminate.
      + cbn [combine mget tl] in *. destruct (keq nym k); [congruence|].
        replace (Z.to_nat (find_index_from (i + 1) ks nym - i)) with (Datatypes.S (Z.to_nat (find_index_from (i + 1) ks nym - (i + 1)))) by lia.
        cbn [nth_error]. exact E. }
  intros Hf E. destruct (X keys vals 0 ltac:(lia) Hf) as [_ F]. rewrite Z.sub_0_r in F. auto.
Qed.

Lemma nym_comm k K : cl_pub k = pt_mul_base S (cl_priv k) -> pt_mul S (pt_mul_base S K) (cl_priv k) = pt_mul S (cl_pub k) K.
Proof.
  intros ->. unfold pt_mul_base. rewrite !(pt_mul_mul S OK) by apply (in_group_G S OK). f_equal. lia.
Qed.

Lemma mid_drop_buf c sv m M T1 pb K : is_ty CLIENT_REGISTER_SERVERSIDE m = false ->
  Permutation (co_buffer c ++ map (norm_reg S c sv) (filter (is_ty CLIENT_REGISTER_SERVERSIDE) (m :: M))) (map (ent S pb K) T1) ->
  Permutation (co_buffer c ++ map (norm_reg S c sv) (filter (is_ty CLIENT_REGISTER_SERVERSIDE) M)) (map (ent S pb K) T1).
Proof. intros E. cbn [filter]. now rewrite E. Qed.

Lemma mid_fin_server c sv cl M V T0 T1 K a p src s s' out : base S c sv cl V ->
  mid_ph S c sv cl (Msg a ANNOUNCEMENT_FINALIZE p src :: M) V T0 T1 K -> fin_ok S c p ->
  mget sv a = Some s -> sv_finalize S s p = Some (s', out) ->
  base S c (mset sv a s') cl V /\ phase S G c (mset sv a s') cl (M ++ core out) V.
Proof.
  intros B [A1 A2 A3 A4 A5 A6 A7 A8 A9 A10 A11 A12 A13] (keys & vals & g & F1 & F2 & F3 & F4 & F5 & F6) Hs E.
  destruct (carries_dec S OK p keys vals _ _ F3 F4) as (bk & bv & bG & bH & D1 & D2 & D3 & D4 & D5 & D6 & D7 & D8).
  assert (Gg : in_group S g).
  { rewrite A4 in F1. injection F1 as <-. unfold pt_mul_base, pt_mul. in_grp. }
  unfold sv_finalize in E. rewrite D1, D2, D3, D4, D5, D6, D7, D8, F2, (dec_enc_point S OK g Gg) in E.
  destruct F4 as [B1 B2 B3 B4 B5 B6].
  rewrite (ending_map_combine keys keys B3 eq_refl), (ending_map_combine keys vals B3 B4) in E. injection E as <- <-.
  set (s' := Server _ _ _ _ _ _ _ _ _ _ _ _ _ _).
  assert (RK : sv_roundkey s' = sv_roundkey s) by reflexivity.
  assert (Na : mget cl a = None).
  { apply (in_chain _ _ _ _ _ B). apply (b_srv _ _ _ _ _ B). congruence. }
  split.
  { apply base_sv with s; try reflexivity; try assumption. intros [O1 O2 O3]. constructor; assumption. }
  cbn [core filter]. rewrite app_nil_r. apply ph_mid with T0 T1 K. constructor; try assumption.
  - now rewrite (exps_mset c sv a s s' Hs RK).
  - erewrite map_ext; [apply mid_drop_buf in A7; [exact A7|reflexivity]|]. intros m. now apply norm_mset with s.
  - now inversion A10.
  - intros b k Ek. apply (cl_mid_drop _ (Msg a ANNOUNCEMENT_FINALIZE p src)); [discriminate| |now apply A11].
    cbn [mDst]. intros ->. congruence.
  - intros b sb Hb. rewrite mget_mset in Hb. destruct (keq b a) as [->|N].
    + injection Hb as <-. right. cbn [s' sv_G sv_pb sv_ecomms sv_ekeys]. rewrite F1, F5, F6. destruct (co_pb c). auto.
    + destruct (A12 b sb Hb) as [X|X]; [|now right]. left. apply sent_tail in X. destruct X as [[_ X]|]; [|assumption].
      cbn in X. congruence.
  - intros b k Ek I. destruct (A13 b k Ek I) as [X|X]; [|now right]. left. apply sent_tail in X. destruct X as [[_ X]|]; [|assumption].
    cbn in X. congruence.
Qed.

Lemma mid_fin_client c sv cl M V T0 T1 K a p src k k' out : base S c sv cl V ->
  mid_ph S c sv cl (Msg a ANNOUNCEMENT_FINALIZE p src :: M) V T0 T1 K -> fin_ok S c p ->
  mget cl a = Some k -> cl_announce_final S k p = Some (k', out) ->
  base S c sv (mset cl a k') V /\ phase S G c sv (mset cl a k') (M ++ core out) V.
Proof.
  intros B [A1 A2 A3 A4 A5 A6 A7 A8 A9 A10 A11 A12 A13] (keys & vals & g & F1 & F2 & F3 & F4 & F5 & F6) Ek E.
  destruct (carries_dec S OK p keys vals _ _ F3 F4) as (bk & bv & bG & bH & D1 & D2 & D3 & D4 & D5 & D6 & D7 & D8).
  assert (Eg : g = pt_mul_base S K) by congruence.
  assert (Gg : in_group S g) by (subst g; unfold pt_mul_base, pt_mul; in_grp).
  unfold cl_announce_final in E. rewrite D1, D2, D3, D4, D5, D6, D7, D8, F2, (dec_enc_unchecked S g Gg) in E.
  destruct (b_cl _ _ _ _ _ B a k Ek) as (K1 & K2 & K3 & K4 & K5 & K6 & K7).
  assert (NY : pt_mul S g (cl_priv k) = pt_mul S (cl_pub k) K) by (rewrite Eg; now apply nym_comm).
  rewrite NY in E. set (nym := pt_mul S (cl_pub k) K) in *.
  destruct (Z.ltb_spec (find_index keys nym) 0) as [|Hf]; [discriminate|].
  destruct (nth_error vals _) as [pc|] eqn:EP; [|discriminate]. injection E as <- <-.
  apply find_index_nth in EP; [|apply F4|assumption].
  set (k' := Client _ _ _ _ _ _ _ _ _ _ _ _ _ _ _ _ _ _).
  assert (SI : same_id k k') by (repeat split).
  split; [now apply base_cl with k|].
  cbn [core filter]. rewrite app_nil_r. apply ph_mid with T0 T1 K. constructor; try assumption.
  - inversion A10 as [|? ? _ A10']; subst. eapply Forall_impl; [|exact A10']. intros m. now apply mid_msg_cl with k.
  - intros b kb Eb. rewrite mget_mset in Eb. destruct (keq b a) as [->|N].
    + injection Eb as <-. destruct (A11 a k Ek) as [[[E1|I1] B2]|(X1 & v & r & X2 & X3 & X4)].
      * discriminate.
      * left. split; [|exact B2]. exact I1.
      * right. split; [exact X1|]. exists v, r. split; [assumption|]. split; [assumption|].
        destruct X4 as [X4|(R & X5 & X6 & X7)].
        -- left. apply sent_tail in X4. destruct X4 as [[X4 _]|]; [discriminate|assumption].
        -- right. exists R. split; [assumption|]. split; [assumption|]. right. split; [reflexivity|]. cbn [cl_G k']. now symmetry.
    + apply (cl_mid_drop _ (Msg a ANNOUNCEMENT_FINALIZE p src)); [discriminate| |now apply A11].
      cbn [mDst]. congruence.
  - intros b sb Hb. destruct (A12 b sb Hb) as [X|X]; [|now right]. left. apply sent_tail in X. destruct X as [[_ X]|]; [|assumption].
    cbn in X. congruence.
  - intros b kb Eb I. rewrite mget_mset in Eb. destruct (keq b a) as [->|N].
    + injection Eb as <-. right. cbn [k' cl_pb cl_PCommr cl_nym cl_G]. rewrite F5, EP, F1. destruct (co_pb c). auto.
    + destruct (A13 b kb Eb I) as [X|X]; [|now right]. left. apply sent_tail in X. destruct X as [[_ X]|]; [|assumption].
      cbn in X. congruence.
Qed.

Lemma T_unique (T : list entry) k x y : NoDup (map fst T) -> In (k, x) T -> In (k, y) T -> x = y.
Proof.
  induction T as [|[k0 z] T IH]; cbn [map In]; intros ND I1 I2; [destruct I1|]. inversion ND as [|? ? NI ND']; subst.
  assert (forall w, In (k, w) T -> In k (map fst T)) as X by (intros w Hw; apply in_map_iff; now exists (k, w)).
  cbn [fst] in NI.
  destruct I1 as [E1|I1], I2 as [E2|I2]; [congruence| | |auto]; exfalso; apply NI.
  - replace k0 with k by congruence. eauto.
  - replace k0 with k by congruence. eauto.
Qed.

Lemma mid_init_r c sv cl M V T0 T1 K a k r g src k' out : base S c sv cl V ->
  mid_ph S c sv cl (Msg a INIT_PEDERSEN_R [("r"%str, VBytes (enc_secret S r)); ("g"%str, VBytes (enc_point S g))] src :: M) V T0 T1 K ->
  mget cl a = Some k -> is_secret S r -> In (cl_pub k, (starting_credit, r)) T1 -> co_G c = Some g ->
  cl_init_r S k [("r"%str, VBytes (enc_secret S r)); ("g"%str, VBytes (enc_point S g))] = Some (k', out) ->
  base S c sv (mset cl a k') V /\ phase S G c sv (mset cl a k') (M ++ core out) V.
Proof.
  intros B D Ek Sr IT EG E. pose proof (mid_keys _ _ _ _ _ _ _ _ B D) as NK.
  rewrite app_assoc, <- map_app in NK. apply NoDup_app_remove_r in NK.
  set (m0 := Msg a INIT_PEDERSEN_R _ src) in *.
  destruct D as [A1 A2 A3 A4 A5 A6 A7 A8 A9 A10 A11 A12 A13].
  assert (Eg : g = pt_mul_base S K) by congruence.
  assert (Gg : in_group S g) by (subst g; unfold pt_mul_base, pt_mul; in_grp).
  unfold cl_init_r, get_bytes in E. cbn [lookup String.eqb Ascii.eqb Bool.eqb] in E.
  rewrite (dec_enc_secret S r Sr), (dec_enc_point S OK g Gg) in E.
  destruct (b_cl _ _ _ _ _ B a k Ek) as (K1 & K2 & K3 & K4 & K5 & K6 & K7).
  assert (NY : pt_mul S g (cl_priv k) = pt_mul S (cl_pub k) K) by (rewrite Eg; now apply nym_comm).
  rewrite NY in E. injection E as <- <-.
  set (k' := Client _ _ _ _ _ _ _ _ _ _ _ _ _ _ _ _ _ _).
  assert (SI : same_id k k') by (repeat split).
  split; [now apply base_cl with k|].
  cbn [core filter]. rewrite app_nil_r. apply ph_mid with T0 T1 K. constructor; try assumption.
  - inversion A10 as [|? ? _ A10']; subst. eapply Forall_impl; [|exact A10']. intros m. now apply mid_msg_cl with k.
  - intros b kb Eb. rewrite mget_mset in Eb. destruct (keq b a) as [->|N].
    + injection Eb as <-. destruct (A11 a k Ek) as [[[E1|I1] B2]|(X1 & v & r' & X2 & X3 & X4)].
      * discriminate.
      * left. split; [|exact B2]. exact I1.
      * right. split; [exact X1|]. exists v, r'. split; [assumption|]. split; [assumption|]. right.
        exists r. split; [reflexivity|]. split.
        -- assert (XX : (starting_credit, r) = (v, r')) by (apply (T_unique (T0 ++ T1) (cl_pub k)); auto; apply in_or_app; now right).
           congruence.
        -- right. split; [reflexivity|]. cbn [cl_G k']. now symmetry.
    + apply (cl_mid_drop _ m0); [discriminate| |now apply A11]. cbn [mDst m0]. congruence.
  - intros b sb Hb. destruct (A12 b sb Hb) as [X|X]; [|now right]. left. apply sent_tail in X. destruct X as [[X _]|]; [discriminate|assumption].
  - intros b kb Eb I. rewrite mget_mset in Eb. destruct (keq b a) as [->|N].
    + injection Eb as <-. exfalso. rewrite map_app in NK. apply (NoDup_app_disjoint _ _ NK (cl_pub k) I).
      apply in_map_iff. eexists. split; [|exact IT]. reflexivity.
    + destruct (A13 b kb Eb I) as [X|X]; [|now right]. left. apply sent_tail in X. destruct X as [[X _]|]; [discriminate|assumption].
Qed.

Lemma add_client_get c sv cl V ord a k p : base S c sv cl V -> mget cl a = Some k ->
  mget (add_client ord (co_clients c) (cl_pub k) a) p = if Z.eq_dec p (cl_pub k) then Some a else mget (co_clients c) p.
Proof.
  intros B Ek. unfold add_client. rewrite mget_mset. destruct (keq p (cl_pub k)) as [->|N]; destruct (Z.eq_dec _ (cl_pub k)); try congruence.
  destruct (find _ ord) as [p0|] eqn:EF; [|reflexivity]. apply find_some in EF. destruct EF as [_ EF].
  destruct (mget (co_clients c) p0) as [b|] eqn:E0; [|discriminate]. destruct (keq b a) as [->|]; [|discriminate].
  destruct (b_reg _ _ _ _ _ B p0 a E0) as (k0 & E1 & E2). rewrite E1 in Ek. injection Ek as ->.
  rewrite mget_mdel. destruct (keq p p0); congruence.
Qed.
Lemma add_client_wf c ord pk a : mwf (co_clients c) -> mwf (add_client ord (co_clients c) pk a).
Proof. intros W. unfold add_client. apply mwf_mset. destruct (find _ ord); [now apply mwf_mdel|assumption]. Qed.

Lemma com_modQ pb x r : pbase_ok S pb -> ped_commit_r S pb (x mod sQ S) r = ped_commit_r S pb x r.
Proof. intros PB. unfold ped_commit_r, pt_mul. rewrite (zexp_modQ S OK); [reflexivity|apply PB]. Qed.

Lemma mid_msg_grow c c' cl T1 T1' m : co_static c' = co_static c -> co_servers c' = co_servers c -> co_G c' = co_G c ->
  co_pb c' = co_pb c -> co_ecomms c' = co_ecomms c -> co_ekeys c' = co_ekeys c -> (forall t, In t T1 -> In t T1') ->
  mid_msg S c cl T1 m -> mid_msg S c' cl T1' m.
Proof.
  intros E1 E2 E3 E4 E5 E6 IT D. destruct D as [b p src D1 D2|b kb D1|b d kb pc src D1 D2 D3|b kb r g src D1 D2 D3 D4].
  - apply mm_fin; [|now rewrite E2]. destruct D1 as (ks & vs & g & D). exists ks, vs, g. now rewrite E3, E4, E5, E6.
  - now apply mm_reg with b.
  - apply mm_regs; try assumption. now rewrite E2, (same_addr _ _ E1).
  - apply mm_r with kb; auto. congruence.
Qed.

Lemma drop_to_nth : forall (l : list addr) i a, NoDup l -> nth_error l i = Some a -> drop_to a l = a :: skipn (Datatypes.S i) l.
Proof.
  induction l as [|b l IH]; intros [|i] a ND E; try discriminate; cbn [nth_error drop_to skipn] in *.
  - injection E as ->. destruct (keq a a); congruence.
  - inversion ND as [|? ? NI ND']; subst. destruct (keq a b) as [->|N].
    + elim NI. eapply nth_error_In; eassumption.
    + now apply IH.
Qed.
Lemma drop_to_none : forall (l : list addr) a, ~ In a l -> drop_to a l = [].
Proof.
  induction l as [|b l IH]; intros a NI; cbn [drop_to]; [reflexivity|]. destruct (keq a b) as [->|N]; [elim NI; now left|].
  apply IH. intros I. apply NI. now right.
Qed.
Lemma skipn_nth {A} : forall (l : list A) i a, nth_error l i = Some a -> skipn i l = a :: skipn (Datatypes.S i) l.
Proof. induction l as [|b l IH]; intros [|i] a E; try discriminate; cbn [nth_error skipn] in *; [congruence|]. now apply IH. Qed.
Lemma drop_after c sv cl V i a : base S c sv cl V -> nth_error (map fst (co_servers c)) i = Some a ->
  drop_to (after (map fst (co_servers c)) (co_addr c) i) (map fst (co_servers c)) = skipn (Datatypes.S i) (map fst (co_servers c)).
Proof.
  intros B E. unfold after. set (L := map fst (co_servers c)) in *. destruct (nth_error L (Datatypes.S i)) as [b|] eqn:EN.
  - rewrite (nth_error_nth _ _ _ EN). rewrite (drop_to_nth L (Datatypes.S i) b); [|apply B|assumption]. symmetry. now apply skipn_nth.
  - apply nth_error_None in EN. rewrite nth_overflow by assumption. rewrite skipn_all2 by assumption. apply drop_to_none.
    intros I. apply (b_srv _ _ _ _ _ B) in I. apply I. apply B.
Qed.

Lemma filter_map_cons {A} (f : msg -> bool) (g : msg -> A) m M : f m = true -> map g (filter f (m :: M)) = g m :: map g (filter f M).
Proof. intros E. cbn [filter]. now rewrite E. Qed.

Lemma is_ty_no ty m : mType m <> ty -> is_ty ty m = false.
Proof. unfold is_ty. intros N. now apply Z.eqb_neq. Qed.

Lemma set_blind_fst V k r : map fst (set_blind V k r) = map fst V.
Proof. unfold set_blind. rewrite map_map. apply map_ext. intros t. now destruct (fst t =? k). Qed.
Lemma set_blind_id V k r : ~ In k (map fst V) -> set_blind V k r = V.
Proof.
  intros N. unfold set_blind. rewrite <- (map_id V) at 2. apply map_ext_in. intros t I.
  destruct (Z.eqb_spec (fst t) k) as [E|]; [|reflexivity]. elim N. rewrite <- E. now apply in_map.
Qed.
Lemma set_blind_app V W k r : set_blind (V ++ W) k r = set_blind V k r ++ set_blind W k r.
Proof. apply map_app. Qed.
Lemma base_fst c sv cl V V' : map fst V' = map fst V -> base S c sv cl V -> base S c sv cl V'.
Proof. intros E [A1 A2 A3 A4 A5 A6 A7 A8 A9 A10 A11 A12]. constructor; rewrite ?E; assumption. Qed.

Lemma mid_reg c sv cl M V T0 T1 K a k rn c' out : base S c sv cl V ->
  mid_ph S c sv cl (cl_register S k :: M) V T0 T1 K -> mget cl a = Some k -> is_secret S (crR rn) ->
  co_client_register S c (mParams (cl_register S k)) (mSrc (cl_register S k)) rn = Some (c', out) ->
  let V' := set_blind V (cl_pub k) (crR rn) in
  base S c' sv cl V' /\ phase S G c' sv cl (M ++ core out) V'.
Proof.
  intros B D Ek Sr E V'. pose proof (mid_keys _ _ _ _ _ _ _ _ B D) as NK.
  destruct D as [A1 A2 A3 A4 A5 A6 A7 A8 A9 A10 A11 A12 A13].
  destruct (b_cl _ _ _ _ _ B a k Ek) as (K1 & K2 & K3 & K4 & K5 & K6 & K7).
  assert (Gk : in_group S (cl_pub k)).
  { eapply (proj1 (Forall_forall _ _)); [apply (b_Vg _ _ _ _ _ B)|assumption]. }
  unfold co_client_register, cl_register, get_bytes in E. cbn [mParams mSrc lookup String.eqb Ascii.eqb Bool.eqb] in E.
  rewrite (dec_enc_unchecked S _ Gk), A4, K2 in E. cbn [ped_commit] in E.
  set (r := crR rn) in *. unfold ped_commit in E. set (pc := ped_commit_r S (co_pb c) (sec_of_int S starting_credit) r) in *.
  destruct (first_server c) as [fs|] eqn:EF; cbn [send] in E; [|discriminate]. injection E as <- <-.
  set (g := pt_mul_base S K) in *.
  set (c' := set_clients c _).
  assert (EPC : pc = ped_commit_r S (co_pb c) starting_credit r) by (apply com_modQ; apply B).
  assert (Gpc : in_group S pc).
  { rewrite EPC. apply (ped_commit_group S OK). apply B. }
  assert (N0 : nth_error (map fst (co_servers c)) 0 = Some fs).
  { unfold first_server in EF. destruct (co_servers c) as [|[b q] l]; [discriminate|]. injection EF as ->. reflexivity. }
  assert (GC : forall p, mget (co_clients c') p = if Z.eq_dec p (cl_pub k) then Some a else mget (co_clients c) p)
    by (intros p; apply (add_client_get _ _ _ _ _ _ _ _ B Ek)).
  assert (PB : co_pb c' = co_pb c) by reflexivity.
  assert (NT : ~ In (cl_pub k) (map fst (T0 ++ T1))).
  { intros I. rewrite app_assoc, <- map_app in NK. apply (NoDup_app_disjoint _ _ NK _ I).
    rewrite (filter_map_cons _ _ (cl_register S k)) by reflexivity. left. unfold pget, get_bytes.
    cbn [mParams cl_register lookup String.eqb Ascii.eqb Bool.eqb]. now rewrite (dec_enc_unchecked S _ Gk). }
  set (m1 := Msg fs CLIENT_REGISTER_SERVERSIDE _ _). set (m2 := Msg a INIT_PEDERSEN_R _ _).
  assert (RS : forall b kb, mget cl b = Some kb -> b <> a -> cl_register S kb <> cl_register S k).
  { intros b kb Eb Nb X. apply Nb. assert (cl_addr kb = cl_addr k) by (unfold cl_register in X; congruence).
    destruct (b_cl _ _ _ _ _ B b kb Eb) as (_ & Q2 & _). congruence. }
  assert (NM : ~ In (cl_pub k) (map (fun m => pget (mParams m) "public_key"%str) (filter (is_ty CLIENT_REGISTER_CONTROLLERSIDE) M))).
  { rewrite app_assoc, <- map_app in NK. rewrite (filter_map_cons _ _ (cl_register S k)) in NK by reflexivity.
    replace (pget (mParams (cl_register S k)) "public_key"%str) with (cl_pub k) in NK.
    - apply NoDup_remove_2 in NK. intros I. apply NK. apply in_or_app. now right.
    - unfold pget, get_bytes. cbn [mParams cl_register lookup String.eqb Ascii.eqb Bool.eqb]. now rewrite (dec_enc_unchecked S _ Gk). }
  split.
  { apply base_fst with V; [apply set_blind_fst|].
    destruct B as [P1 P2 P3 P4 P5 P6 P7 P8 P9 P10 P11 P12]. constructor; try assumption.
    - now apply add_client_wf.
    - intros p b. rewrite GC. destruct (Z.eq_dec p (cl_pub k)) as [->|N]; [|apply P9].
      intros [= <-]. now exists k. }
  change (core [m1; m2]) with [m1; m2].
  apply ph_mid with T0 (T1 ++ [(cl_pub k, (starting_credit, r))]) K. constructor; try assumption.
  - rewrite PB, filter_app, map_app, app_assoc. rewrite map_app. apply Permutation_app.
    + apply mid_drop_buf in A7; [|reflexivity]. exact A7.
    + cbn [filter is_ty mType m1 m2]. cbn [map]. apply Permutation_refl'. f_equal.
      unfold norm_reg, ent. cbn [mDst mParams m1 fst snd]. unfold pget, get_bytes.
      cbn [lookup String.eqb Ascii.eqb Bool.eqb]. rewrite (dec_enc_unchecked S _ Gk), (dec_enc_unchecked S _ Gpc), EPC. f_equal.
      rewrite A3. unfold exps. change (co_servers c') with (co_servers c).
      rewrite (drop_to_nth _ _ _ (b_nd _ _ _ _ _ B) N0). now rewrite <- (skipn_nth _ _ _ N0).
  - apply Forall_app. split; [assumption|]. constructor; [reflexivity|constructor].
  - rewrite filter_app. cbn [filter is_ty mType m1 m2]. change (CLIENT_REGISTER_SERVERSIDE =? CLIENT_REGISTER_CONTROLLERSIDE) with false.
    change (INIT_PEDERSEN_R =? CLIENT_REGISTER_CONTROLLERSIDE) with false. cbn iota. rewrite app_nil_r.
    apply (Permutation_map (fun t : entry => if fst t =? cl_pub k then (fst t, (fst (snd t), r)) else t)) in A9.
    fold (set_blind V (cl_pub k) r) in A9. fold V' in A9. rewrite <- A9.
    rewrite (filter_map_cons _ _ (cl_register S k)) by reflexivity.
    unfold pget at 2. unfold get_bytes. cbn [mParams cl_register lookup String.eqb Ascii.eqb Bool.eqb]. rewrite (dec_enc_unchecked S _ Gk).
    rewrite (map_app _ (T0 ++ T1)). cbn [map fst snd]. rewrite Z.eqb_refl.
    fold (set_blind (T0 ++ T1) (cl_pub k) r). rewrite set_blind_id by assumption.
    match goal with |- context [map (fun t : entry => if _ then _ else _) ?l] => fold (set_blind l (cl_pub k) r) end.
    rewrite set_blind_id by (now rewrite map_map). rewrite <- !app_assoc. reflexivity.
  - inversion A10 as [|? ? _ A10']; subst. apply Forall_app. split.
    + eapply Forall_impl; [|exact A10']. intros m. apply mid_msg_grow; try reflexivity. intros t I. apply in_or_app. now left.
    + constructor; [|constructor; [|constructor]].
      * apply mm_regs; [left; eapply nth_error_In; exact N0|assumption|assumption].
      * apply mm_r with k; [assumption|assumption|apply in_or_app; right; now left|exact A4].
  - intros b kb Eb. destruct (keq b a) as [->|N].
    + rewrite Ek in Eb. injection Eb as <-. right. rewrite GC. destruct (Z.eq_dec _ _); [|congruence]. split; [reflexivity|].
      exists starting_credit, r. split; [apply in_or_app; right; apply in_or_app; right; now left|]. split.
      * destruct (A11 a k Ek) as [[_ X]|(_ & v & r' & X & _)]; [now rewrite X|]. elim NT. apply in_map_iff. eexists. split; [|exact X]. reflexivity.
      * left. apply sent_app_r. exists m2. split; [right; now left|]. now split.
    + apply cl_mid_app. specialize (A11 b kb Eb). apply cl_mid_drop in A11; [|now apply (RS b)|cbn; split; discriminate].
      destruct A11 as [X|(X1 & v & r' & X2 & X3)]; [now left|right]. rewrite GC.
      destruct (Z.eq_dec (cl_pub kb) (cl_pub k)) as [EE|_]; [elim N; eapply (b_inj _ _ _ _ _ B); eassumption|].
      split; [assumption|]. exists v, r'. split; [|exact X3]. rewrite app_assoc. apply in_or_app. now left.
  - intros b sb Hb. destruct (A12 b sb Hb) as [X|X]; [|now right]. left. apply sent_tail in X. destruct X as [[X _]|]; [discriminate|].
    now apply sent_app_l.
  - intros b kb Eb I. destruct (A13 b kb Eb I) as [X|X]; [|now right]. left. apply sent_tail in X. destruct X as [[X _]|]; [discriminate|].
    now apply sent_app_l.
Qed.

Lemma mid_regs_server c sv cl M V T0 T1 K a b pk pc src s s' out : base S c sv cl V ->
  let p := [("public_key"%str, VBytes (enc_point S pk)); ("addr"%str, VStr b); ("pcomm"%str, VBytes (enc_point S pc))] in
  mid_ph S c sv cl (Msg a CLIENT_REGISTER_SERVERSIDE p src :: M) V T0 T1 K -> in_group S pk -> in_group S pc ->
  mget sv a = Some s -> sv_client_register S s p = Some (s', out) ->
  base S c (mset sv a s') cl V /\ phase S G c (mset sv a s') cl (M ++ core out) V.
Proof.
  intros B p [A1 A2 A3 A4 A5 A6 A7 A8 A9 A10 A11 A12 A13] Gk Gc Hs E.
  unfold sv_client_register, get_bytes, get_str in E. cbn [p lookup String.eqb Ascii.eqb Bool.eqb] in E.
  rewrite (dec_enc_point S OK _ Gk) in E. injection E as <- <-.
  set (s' := Server _ _ _ _ _ _ _ _ _ _ _ _ _ _). set (nk := pt_mul S pk (sv_roundkey s)) in *.
  assert (RK : sv_roundkey s' = sv_roundkey s) by reflexivity.
  assert (Na : mget cl a = None).
  { apply (in_chain _ _ _ _ _ B). apply (b_srv _ _ _ _ _ B). congruence. }
  assert (Ia : In a (map fst (co_servers c))) by (apply (b_srv _ _ _ _ _ B); congruence).
  destruct (In_nth_error _ _ Ia) as [i Hi].
  destruct (b_link _ _ _ _ _ B i a s Hi Hs) as (L1 & _ & SO).
  assert (Gn : in_group S nk) by (unfold nk, pt_mul; in_grp).
  split.
  { apply base_sv with s; try reflexivity; try assumption. intros [O1 O2 O3]. constructor; try assumption.
    cbn [sv_keymap s' sv_roundkey]. intros x y. rewrite mget_mset. destruct (keq x nk) as [->|]; [|apply O3].
    intros [= <-]. now split. }
  set (m1 := Msg (sv_next s) CLIENT_REGISTER_SERVERSIDE _ _). change (core [m1]) with [m1].
  set (m0 := Msg a CLIENT_REGISTER_SERVERSIDE p src) in *.
  assert (EN : norm_reg S c sv m1 = norm_reg S c sv m0).
  { unfold norm_reg. cbn [mDst mParams m0 m1]. unfold p, pget, get_bytes. cbn [lookup String.eqb Ascii.eqb Bool.eqb].
    rewrite (dec_enc_unchecked S _ Gn), (dec_enc_unchecked S _ Gk). f_equal. rewrite L1, (drop_after _ _ _ _ _ _ B Hi).
    rewrite (drop_to_nth _ _ _ (b_nd _ _ _ _ _ B) Hi). cbn [map prod_of fold_right]. unfold rkey at 2. rewrite Hs.
    unfold nk. rewrite (pt_mul_mul S OK) by assumption. reflexivity. }
  apply ph_mid with T0 T1 K. constructor; try assumption.
  - now rewrite (exps_mset c sv a s s' Hs RK).
  - erewrite map_ext; [|intros m; now apply norm_mset with s]. rewrite filter_app, map_app.
    rewrite (filter_map_cons _ _ m1) by reflexivity. cbn [filter map]. rewrite EN. rewrite <- A7. rewrite (filter_map_cons _ _ m0) by reflexivity.
    apply Permutation_app_head. symmetry. apply Permutation_cons_append.
  - rewrite filter_app. cbn [filter is_ty mType m1]. change (CLIENT_REGISTER_SERVERSIDE =? CLIENT_REGISTER_CONTROLLERSIDE) with false.
    cbn iota. rewrite app_nil_r. exact A9.
  - inversion A10 as [|? ? _ A10']; subst. apply Forall_app. split; [assumption|]. constructor; [|constructor].
    apply mm_regs; try assumption. rewrite L1. unfold after.
    destruct (nth_error (map fst (co_servers c)) (Datatypes.S i)) as [d|] eqn:ED.
    + left. rewrite (nth_error_nth _ _ _ ED). eapply nth_error_In; eassumption.
    + right. apply nth_error_None in ED. now apply nth_overflow.
  - intros d k Ek. apply cl_mid_app. apply (cl_mid_drop _ m0); [discriminate| |now apply A11].
    cbn [mDst m0]. intros ->. congruence.
  - intros d sd Hd. rewrite mget_mset in Hd. destruct (keq d a) as [->|N].
    + injection Hd as <-. destruct (A12 a s Hs) as [X|X]; [|now right]. left. apply sent_tail in X. destruct X as [[X _]|]; [discriminate|].
      now apply sent_app_l.
    + destruct (A12 d sd Hd) as [X|X]; [|now right]. left. apply sent_tail in X. destruct X as [[X _]|]; [discriminate|].
      now apply sent_app_l.
  - intros d k Ek I. destruct (A13 d k Ek I) as [X|X]; [|now right]. left. apply sent_tail in X. destruct X as [[X _]|]; [discriminate|].
    now apply sent_app_l.
Qed.

Lemma mid_regs_coord c sv cl M V T0 T1 K b pk pc src c' out : base S c sv cl V ->
  let p := [("public_key"%str, VBytes (enc_point S pk)); ("addr"%str, VStr b); ("pcomm"%str, VBytes (enc_point S pc))] in
  mid_ph S c sv cl (Msg (co_addr c) CLIENT_REGISTER_SERVERSIDE p src :: M) V T0 T1 K -> in_group S pk -> in_group S pc ->
  co_client_confirm S G c p = Some (c', out) ->
  base S c' sv cl V /\ phase S G c' sv cl (M ++ core out) V.
Proof.
  intros B p [A1 A2 A3 A4 A5 A6 A7 A8 A9 A10 A11 A12 A13] Gk Gc E.
  unfold co_client_confirm, get_bytes, get_str in E. cbn [p lookup String.eqb Ascii.eqb Bool.eqb] in E.
  rewrite (dec_enc_unchecked S _ Gk), (dec_enc_point S OK _ Gc) in E. injection E as <- <-.
  set (c' := add_buffer c pk pc).
  split; [now apply base_co with c; [| | | |apply B]|].
  change (core _) with (@nil msg). rewrite app_nil_r.
  set (m0 := Msg (co_addr c) CLIENT_REGISTER_SERVERSIDE p src) in *.
  assert (EN : norm_reg S c sv m0 = (pk, pc)).
  { unfold norm_reg. cbn [mDst mParams m0]. unfold p, pget, get_bytes. cbn [lookup String.eqb Ascii.eqb Bool.eqb].
    rewrite (dec_enc_unchecked S _ Gc), (dec_enc_unchecked S _ Gk). f_equal. rewrite drop_to_none.
    - cbn [map prod_of fold_right]. now apply (pt_mul_1 S OK).
    - intros I. apply (b_srv _ _ _ _ _ B) in I. apply I. apply B. }
  apply ph_mid with T0 T1 K. constructor; try assumption.
  - change (co_buffer c') with (co_buffer c ++ [(pk, pc)]). change (co_pb c') with (co_pb c).
    rewrite <- A7. rewrite (filter_map_cons _ _ m0) by reflexivity. rewrite EN, <- app_assoc. reflexivity.
  - inversion A10 as [|? ? _ A10']; subst. eapply Forall_impl; [|exact A10']. intros m. apply mid_msg_grow; auto.
  - intros d k Ek. specialize (A11 d k Ek). apply cl_mid_drop in A11; [exact A11|discriminate|].
    cbn. split; discriminate.
  - intros d sd Hd. destruct (A12 d sd Hd) as [X|X]; [|now right]. left. apply sent_tail in X. now destruct X as [[X _]|].
  - intros d k Ek I. destruct (A13 d k Ek I) as [X|X]; [|now right]. left. apply sent_tail in X. now destruct X as [[X _]|].
Qed.

(** ** Delivery of a message that takes part *)
Lemma before_chain c sv cl V n : base S c sv cl V -> (n <= length (co_servers c))%nat ->
  (n = 0%nat /\ before (map fst (co_servers c)) (co_addr c) n = co_addr c) \/
  exists j a s, n = Datatypes.S j /\ before (map fst (co_servers c)) (co_addr c) n = a /\
    nth_error (map fst (co_servers c)) j = Some a /\ mget sv a = Some s /\ a <> co_addr c /\ mget cl a = None.
Proof.
  intros B Hn. destruct n as [|j]; [now left|]. right.
  destruct (nth_chain c sv cl V j B ltac:(lia)) as [[E _]|(a & s & E1 & E2 & E3 & E4 & E5)]; [lia|].
  exists j, a, s. cbn [before]. auto 10.
Qed.

Lemma end_token c sv cl V T n M1 p keys vals GT HT m M0 : base S c sv cl V ->
  end_ph S G c sv cl (m :: M0) V T n M1 p keys vals GT HT -> mget cl (mDst m) = None ->
  exists src, m = Msg (before (map fst (co_servers c)) (co_addr c) n) Net.ROUND_END p src /\ Permutation M0 M1.
Proof.
  intros B [A1 A2 A3 A4 A5 A6 A7 A8 A9 A10 A11] N. destruct A4 as [src P]. exists src.
  assert (I : In m (Msg (before (map fst (co_servers c)) (co_addr c) n) Net.ROUND_END p src :: M1))
    by (eapply Permutation_in; [exact P|now left]).
  destruct I as [I|I].
  - split; [now symmetry|]. rewrite I in P. now apply Permutation_cons_inv in P.
  - exfalso. rewrite Forall_forall in A5. now destruct (A5 m I).
Qed.

Lemma core_coord c sv cl V m M0 cr c' out : base S c sv cl V -> phase S G c sv cl (m :: M0) V -> mDst m = co_addr c ->
  is_secret S (crR cr) -> range_order (crDiffs cr) (co_diffs c) ->
  co_handle S G c (mType m) (mParams m) (mSrc m) cr = Some (c', out) ->
  let V' := if mType m =? CLIENT_REGISTER_CONTROLLERSIDE then set_blind V (pget (mParams m) "public_key"%str) (crR cr) else V in
  base S c' sv cl V' /\ phase S G c' sv cl (M0 ++ core out) V'.
Proof.
  intros B P Hd SR RO E V'. pose proof (self_not_cl _ _ _ _ B) as NC.
  destruct P as [T A|T i p keys vals GT HT A|T0 T1 K A|T n M1 p keys vals GT HT A].
  - exfalso. pose proof (p1_msg _ _ _ _ _ _ _ A) as F. inversion F as [|? ? [[_ X]|[[_ X]|[_ X]]] _]; subst; rewrite Hd in X; [|congruence|congruence].
    apply (in_chain _ _ _ _ _ B) in X. destruct X. congruence.
  - pose proof (p2_M _ _ _ _ _ _ _ _ _ _ _ _ _ _ A) as [src EM]. injection EM as -> ->. cbn [mDst mType mParams] in *.
    destruct (nth_chain c sv cl V i B (p2_i _ _ _ _ _ _ _ _ _ _ _ _ _ _ A)) as [[-> E1]|(a & s & E1 & _ & _ & E2 & _)]; [|congruence].
    change (co_handle S G c ANNOUNCEMENT p src cr) with (co_announcement S c p) in E.
    now apply (ann_coord c sv cl V T p keys vals GT HT _ c' out B A).
  - pose proof (p3_msg _ _ _ _ _ _ _ _ _ A) as F. inversion F as [|? ? D _]; subst.
    destruct D as [b p src D1 D2|b kb D1|b d kb pc src D1 D2 D3|b kb r g src D1 D2 D3 D4]; cbn [mDst mType mParams mSrc cl_register] in *.
    + exfalso. subst b. destruct D2 as [D2|D2]; [|congruence]. apply (in_chain _ _ _ _ _ B) in D2. destruct D2. congruence.
    + change (co_client_register S c (mParams (cl_register S kb)) (mSrc (cl_register S kb)) cr = Some (c', out)) in E.
      destruct (b_cl _ _ _ _ _ B b kb D1) as (_ & _ & _ & _ & _ & _ & IV).
      assert (Gk : in_group S (cl_pub kb)).
      { eapply (proj1 (Forall_forall _ _)); [apply (b_Vg _ _ _ _ _ B)|assumption]. }
      assert (EP : pget [("public_key"%str, VBytes (enc_point S (cl_pub kb)))] "public_key"%str = cl_pub kb).
      { unfold pget, get_bytes. cbn [lookup String.eqb Ascii.eqb Bool.eqb]. now rewrite (dec_enc_unchecked S _ Gk). }
      unfold V'. rewrite Z.eqb_refl, EP. now apply (mid_reg c sv cl M0 V T0 T1 K b kb cr c' out).
    + subst b. now apply (mid_regs_coord c sv cl M0 V T0 T1 K d kb pc src c' out).
    + congruence.
  - destruct (end_token _ _ _ _ _ _ _ _ _ _ _ _ _ _ B A) as (src & -> & PM); [now rewrite Hd|]. cbn [mDst mType mParams mSrc] in *.
    destruct (before_chain c sv cl V n B (p4_n _ _ _ _ _ _ _ _ _ _ _ _ _ _ _ A)) as [[-> E1]|(j & a & s & -> & E1 & _ & _ & E2 & _)]; [|congruence].
    change (co_handle S G c Net.ROUND_END p src cr) with (co_round_end S G c p cr) in E. rewrite Hd in A.
    now apply (end_coord c sv cl V T M0 M1 p keys vals GT HT cr c' out src B A).
Qed.

Lemma sv_h_same s p s' out : sv_pedersen_h S s p = Some (s', out) -> out = [] /\ sv_next s' = sv_next s /\ sv_prev s' = sv_prev s /\
  sv_roundkey s' = sv_roundkey s /\ (server_ok S s -> server_ok S s').
Proof.
  unfold sv_pedersen_h. intros E. odestruct E. injection E as <- <-. repeat (split; [reflexivity|]). intros [O1 O2 O3]. now constructor.
Qed.

Lemma core_server c sv cl V m M0 s sr s' out : base S c sv cl V -> phase S G c sv cl (m :: M0) V -> mget sv (mDst m) = Some s ->
  rel_prime (srKey sr) (sQ S) -> sv_handle S H G s (mType m) (mParams m) (mSrc m) sr = Some (s', out) ->
  base S c (mset sv (mDst m) s') cl V /\ phase S G c (mset sv (mDst m) s') cl (M0 ++ core out) V.
Proof.
  intros B P Hs RP E.
  assert (Id : In (mDst m) (map fst (co_servers c))) by (apply (b_srv _ _ _ _ _ B); congruence).
  destruct (in_chain _ _ _ _ _ B Id) as (NS & NC & _).
  destruct P as [T A|T i p keys vals GT HT A|T0 T1 K A|T n M1 p keys vals GT HT A].
  - destruct A as [A1 A2 A3 A4 A5 A6 A7]. inversion A7 as [|? ? [[X _]|[[_ X]|[_ X]]] F']; subst; [|congruence|congruence].
    rewrite X in E. change (sv_handle S H G s BCAST_PEDERSEN_H (mParams m) (mSrc m) sr) with (sv_pedersen_h S s (mParams m)) in E.
    destruct (sv_h_same _ _ _ _ E) as (-> & E1 & E2 & E3 & E4). split; [now apply base_sv with s|].
    cbn [core filter]. rewrite app_nil_r. apply ph_ready with T. constructor; try assumption.
    now apply clients_dead in A6.
  - pose proof (p2_M _ _ _ _ _ _ _ _ _ _ _ _ _ _ A) as [src EM]. injection EM as -> ->. cbn [mDst mType mParams mSrc] in *.
    destruct (nth_chain c sv cl V i B (p2_i _ _ _ _ _ _ _ _ _ _ _ _ _ _ A)) as [[-> E1]|(a & s0 & E1 & E2 & _)]; [congruence|].
    change (sv_handle S H G s ANNOUNCEMENT p src sr) with (sv_announcement S H s p sr) in E. rewrite E1 in *.
    now apply (ann_server c sv cl V T i p keys vals GT HT a s sr s' out src).
  - pose proof (p3_msg _ _ _ _ _ _ _ _ _ A) as F. inversion F as [|? ? D _]; subst.
    destruct D as [b p src D1 D2|b kb D1|b d kb pc src D1 D2 D3|b kb r g src D1 D2 D3 D4]; cbn [mDst mType mParams mSrc cl_register] in *.
    + now apply (mid_fin_server c sv cl M0 V T0 T1 K b p src s s' out).
    + exfalso. destruct (b_cl _ _ _ _ _ B b kb D1) as (_ & _ & X & _). congruence.
    + now apply (mid_regs_server c sv cl M0 V T0 T1 K b d kb pc src s s' out).
    + congruence.
  - destruct (end_token _ _ _ _ _ _ _ _ _ _ _ _ _ _ B A NC) as (src & -> & PM). cbn [mDst mType mParams mSrc] in *.
    destruct (before_chain c sv cl V n B (p4_n _ _ _ _ _ _ _ _ _ _ _ _ _ _ _ A)) as [[-> E1]|(j & a & s0 & -> & E1 & E2 & _)]; [congruence|].
    change (sv_handle S H G s Net.ROUND_END p src sr) with (sv_round_end S H s p sr) in E. rewrite E1 in *.
    now apply (end_server c sv cl V T j M0 M1 p keys vals GT HT a s sr s' out src).
Qed.

Lemma core_client c sv cl V m M0 k chal k' out : base S c sv cl V -> phase S G c sv cl (m :: M0) V -> mget cl (mDst m) = Some k ->
  cl_handle S G k (mType m) (mParams m) chal = Some (k', out) ->
  base S c sv (mset cl (mDst m) k') V /\ phase S G c sv (mset cl (mDst m) k') (M0 ++ core out) V.
Proof.
  intros B P Ek E. assert (NN : mget cl (mDst m) <> None) by congruence.
  assert (NS : mDst m <> co_addr c) by (intros X; rewrite X, (self_not_cl _ _ _ _ B) in Ek; discriminate).
  assert (NV : ~ In (mDst m) (map fst (co_servers c))) by (intros X; now apply (chain_not_cl _ _ _ _ _ B X)).
  destruct (b_cl _ _ _ _ _ B _ k Ek) as (_ & _ & _ & _ & _ & KI & _).
  destruct P as [T A|T i p keys vals GT HT A|T0 T1 K A|T n M1 p keys vals GT HT A].
  - destruct A as [A1 A2 A3 A4 A5 A6 A7]. destruct m as [a ty p src]. cbn [mDst mType mParams mSrc] in *.
    inversion A7 as [|? ? F F']; subst. cbn [mDst mType] in F.
    assert (FF : Forall (fun m => (mType m = BCAST_PEDERSEN_H /\ In (mDst m) (map fst (co_servers c))) \/
      to_client (mset cl a k') BCAST_PEDERSEN_RDIFF m \/ to_client (mset cl a k') Net.ROUND_END m) M0).
    { eapply Forall_impl; [|exact F']. intros m [X|[X|X]]; [now left|right; left|right; right]; now apply to_client_mset. }
    destruct F as [[_ X]|[[X _]|[X _]]]; [contradiction| |]; cbn [mType] in X; subst ty.
    + rewrite handle_rdiff in E. destruct (rdiff_step _ _ _ _ E) as (-> & I & I5 & I6 & _).
      split; [apply base_cl with k; try assumption; now rewrite I6|]. cbn [core filter]. rewrite app_nil_r.
      apply ph_ready with T. constructor; try assumption. now apply (clients_rdiff c cl M0 T (fun _ => 0) a k p src k' []).
    + rewrite handle_cre in E. destruct (cre_step _ _ _ _ E) as (-> & I & I5 & I6 & I7).
      split; [apply base_cl with k; try assumption; rewrite I7; apply int64_idem|]. cbn [core filter]. rewrite app_nil_r.
      apply ph_ready with T. constructor; try assumption. now apply (clients_cre c cl M0 T (fun _ => 0) a k p src k' []).
  - pose proof (p2_M _ _ _ _ _ _ _ _ _ _ _ _ _ _ A) as [src EM]. injection EM as -> ->. cbn [mDst mType mParams mSrc] in *.
    destruct (nth_chain c sv cl V i B (p2_i _ _ _ _ _ _ _ _ _ _ _ _ _ _ A)) as [[-> E1]|(a & s0 & E1 & E2 & E3 & E4 & E5)]; congruence.
  - pose proof (p3_msg _ _ _ _ _ _ _ _ _ A) as F. inversion F as [|? ? D _]; subst.
    destruct D as [b p src D1 D2|b kb D1|b d kb pc src D1 D2 D3|b kb r g src D1 D2 D3 D4]; cbn [mDst mType mParams mSrc cl_register] in *.
    + now apply (mid_fin_client c sv cl M0 V T0 T1 K b p src k k' out).
    + exfalso. destruct (b_cl _ _ _ _ _ B b kb D1) as (_ & _ & X & _). congruence.
    + exfalso. destruct D1; contradiction.
    + assert (kb = k) by congruence. subst kb.
      now apply (mid_init_r c sv cl M0 V T0 T1 K b k r g src k' out).
  - destruct A as [A1 A2 A3 A4 A5 A6 A7 A8 A9 A10 A11]. destruct A4 as [src P].
    set (tok := Msg (before (map fst (co_servers c)) (co_addr c) n) Net.ROUND_END p src) in *.
    assert (NT : mDst m <> mDst tok).
    { cbn [tok mDst]. destruct (before_chain c sv cl V n B A3) as [[_ E1]|(j & a & s0 & _ & E1 & E2 & _ & _ & X)]; congruence. }
    assert (I : In m M1).
    { assert (I : In m (tok :: M1)) by (eapply Permutation_in; [exact P|now left]). destruct I as [<-|]; [congruence|assumption]. }
    destruct (in_split _ _ I) as (l1 & l2 & ->).
    assert (PM : Permutation M0 (tok :: l1 ++ l2)).
    { apply Permutation_cons_inv with m. rewrite P. rewrite <- Permutation_middle. apply perm_swap. }
    assert (TM : to_client cl BCAST_PEDERSEN_RDIFF m) by (rewrite Forall_forall in A5; now apply A5).
    destruct m as [a ty pm sm]. destruct TM as [X _]. cbn [mDst mType mParams mSrc] in *. subst ty.
    rewrite handle_rdiff in E. destruct (rdiff_step _ _ _ _ E) as (-> & I' & I5 & I6 & _).
    split; [apply base_cl with k; try assumption; now rewrite I6|]. cbn [core filter]. rewrite app_nil_r.
    apply ph_end with T n (l1 ++ l2) p keys vals GT HT. constructor; try assumption.
    + now exists src.
    + apply Forall_app in A5. destruct A5 as [X1 X2]. inversion X2; subst. apply Forall_app. split; (eapply Forall_impl; [|eassumption]); intros m'; apply to_client_mset.
    + now apply (clients_rdiff c cl M0 T (rep_diff c) a k pm sm k' []).
Qed.

Lemma sv_mset_same c sv cl V a s M : mget sv a = Some s -> base S c sv cl V -> phase S G c sv cl M V ->
  base S c (mset sv a s) cl V /\ phase S G c (mset sv a s) cl M V.
Proof.
  intros Hs B P. assert (GE : forall b, mget (mset sv a s) b = mget sv b).
  { intros b. rewrite mget_mset. destruct (keq b a); congruence. }
  split; [apply base_sv with s; auto|].
  assert (EE : exps c (mset sv a s) = exps c sv) by (now apply exps_mset with s).
  destruct P as [T A|T i p keys vals GT HT A|T0 T1 K A|T n M1 p keys vals GT HT A].
  - now apply ph_ready with T.
  - apply ph_ann with T i p keys vals GT HT. destruct A. constructor; rewrite ?EE; assumption.
  - apply ph_mid with T0 T1 K. destruct A as [A1 A2 A3 A4 A5 A6 A7 A8 A9 A10 A11 A12 A13]. constructor; rewrite ?EE; try assumption.
    + erewrite map_ext; [exact A7|]. intros m. now apply norm_mset with s.
    + intros b sb. rewrite GE. apply A12.
  - apply ph_end with T n M1 p keys vals GT HT. destruct A. constructor; rewrite ?EE; assumption.
Qed.

Lemma deliver_inv y V i cr sr chal y' : inv S G y V -> guard S y V (ADeliver i cr sr chal) ->
  sys_step S H G y (ADeliver i cr sr chal) = Some y' -> inv S G y' (ledger_step S y V (ADeliver i cr sr chal)).
Proof.
  intros [B P] (G1 & _ & G3 & G4 & G5) E. cbn [sys_step] in E.
  cbn [ledger_step].
  destruct (nth_error (y_msgs y) i) as [m|] eqn:EM; [|discriminate]. cbn zeta in E. specialize (G5) as G5'.
  destruct (pick_split i _ m EM) as (l1 & l2 & EL & ER). rewrite ER in E. rewrite EL in P.
  destruct (inert m) eqn:IM.
  - assert (EC : core (l1 ++ m :: l2) = core (l1 ++ l2)).
    { rewrite !core_app. unfold core at 2. cbn [filter]. rewrite IM. reflexivity. }
    rewrite EC in P. apply inert_in in IM.
    replace (ledger_msg y V m cr) with V.
    2:{ unfold ledger_msg. destruct (Z.eqb_spec (mType m) CLIENT_REGISTER_CONTROLLERSIDE) as [X|]; [|reflexivity].
        exfalso. rewrite X in IM. clear - IM. repeat (destruct IM as [IM|IM]; [discriminate IM|]). destruct IM. }
    destruct (keq (mDst m) (co_addr (y_coord y))) as [Ed|Nd].
    + destruct (co_handle _ _ _ _ _ _ _) as [[c' out]|] eqn:EH; [|discriminate]. injection E as <-.
      destruct (co_inert _ _ _ _ _ _ _ _ _ IM EH) as (CS & DV & IO).
      unfold inv. cbn [y_coord y_servers y_clients y_msgs]. rewrite core_app, (core_inert _ IO), app_nil_r. split.
      * apply base_same with (y_coord y) (y_clients y); auto. apply clmap_refl.
      * apply phase_same with (y_coord y) (y_clients y); auto; [apply clmap_refl|].
        destruct (Z.eq_dec (mType m) Net.VOTE) as [EV|NV]; [|left; auto]. right. intros [Hs (m' & I' & T')].
        refine (G5 _ m eq_refl EV Ed). split; [assumption|]. exists m'. split; [|assumption]. rewrite EL.
        apply core_in in I'. destruct I' as [I' _]. apply in_app_or in I'. apply in_or_app. destruct I'; [now left|right; now right].
    + destruct (mget (y_servers y) (mDst m)) as [s|] eqn:ES.
      * destruct (sv_handle _ _ _ _ _ _ _ _) as [[s' out]|] eqn:EH; [|discriminate]. injection E as <-.
        destruct (sv_inert _ _ _ _ _ _ _ _ _ _ IM EH) as (-> & IO).
        unfold inv. cbn [y_coord y_servers y_clients y_msgs]. rewrite core_app, (core_inert _ IO), app_nil_r.
        now apply sv_mset_same.
      * destruct (mget (y_clients y) (mDst m)) as [k|] eqn:EK; [|discriminate].
        destruct (cl_handle _ _ _ _ _ _) as [[k' out]|] eqn:EH; [|discriminate]. injection E as <-.
        destruct (cl_inert _ _ _ _ _ _ _ _ IM EH) as (CS & IO).
        assert (CM : clmap_same (y_clients y) (mset (y_clients y) (mDst m) k')) by (now apply clmap_mset with k).
        unfold inv. cbn [y_coord y_servers y_clients y_msgs]. rewrite core_app, (core_inert _ IO), app_nil_r. split.
        -- apply base_same with (y_coord y) (y_clients y); auto. intros f _. apply agree_refl.
        -- apply phase_same with (y_coord y) (y_clients y); auto. intros f _. apply agree_refl.
  - assert (P' : phase S G (y_coord y) (y_servers y) (y_clients y) (m :: core (l1 ++ l2)) V).
    { eapply phase_perm; [|exact P]. rewrite !core_app. unfold core at 2. cbn [filter]. rewrite IM. cbn [negb]. symmetry. apply Permutation_middle. }
    destruct (keq (mDst m) (co_addr (y_coord y))) as [Ed|Nd].
    + destruct (co_handle _ _ _ _ _ _ _) as [[c' out]|] eqn:EH; [|discriminate]. injection E as <-.
      unfold inv. cbn [y_coord y_servers y_clients y_msgs]. rewrite core_app.
      unfold ledger_msg. destruct (keq (mDst m) (co_addr (y_coord y))); [|congruence]. rewrite andb_true_r.
      now apply (core_coord (y_coord y) (y_servers y) (y_clients y) V m _ cr c' out B P').
    + replace (ledger_msg y V m cr) with V
        by (unfold ledger_msg; destruct (keq (mDst m) (co_addr (y_coord y))); [congruence|]; now rewrite andb_false_r).
      destruct (mget (y_servers y) (mDst m)) as [s|] eqn:ES.
      * destruct (sv_handle _ _ _ _ _ _ _ _) as [[s' out]|] eqn:EH; [|discriminate]. injection E as <-.
        unfold inv. cbn [y_coord y_servers y_clients y_msgs]. rewrite (core_app (l1 ++ l2)).
        now apply (core_server (y_coord y) (y_servers y) (y_clients y) V m _ s sr s' out B P').
      * destruct (mget (y_clients y) (mDst m)) as [k|] eqn:EK; [|discriminate].
        destruct (cl_handle _ _ _ _ _ _) as [[k' out]|] eqn:EH; [|discriminate]. injection E as <-.
        unfold inv. cbn [y_coord y_servers y_clients y_msgs]. rewrite (core_app (l1 ++ l2)).
        now apply (core_client (y_coord y) (y_servers y) (y_clients y) V m _ k chal k' out B P').
Qed.

(** ** Commands, joins and the loop *)
Lemma command_inv y V a cmd y' : inv S G y V -> sys_step S H G y (ACommand a cmd) = Some y' -> inv S G y' V.
Proof.
  intros [B P] E. cbn [sys_step] in E. destruct (mget (y_clients y) a) as [k|]; [|discriminate].
  destruct (cl_command S G k cmd) as [out|] eqn:EC; [|discriminate]. injection E as <-.
  apply command_inert in EC. unfold inv. cbn [y_coord y_servers y_clients y_msgs].
  rewrite core_app, (core_inert _ EC), app_nil_r. now split.
Qed.

Lemma group_base e : in_group S (pt_mul_base S e).
Proof. unfold pt_mul_base, pt_mul. in_grp. Qed.

Lemma base_grow c sv cl V W : base S c sv cl V -> NoDup (map fst (V ++ W)) -> Forall (in_group S) (map fst W) ->
  base S c sv cl (V ++ W).
Proof.
  intros [A1 A2 A3 A4 A5 A6 A7 A8 A9 A10 A11 A12] ND FG. constructor; try assumption.
  - intros a k E. destruct (A6 a k E) as (B1 & B2 & B3 & B4 & B5 & B6 & B7). repeat (split; [assumption|]).
    rewrite map_app. apply in_or_app. now left.
  - rewrite map_app. apply Forall_app. now split.
Qed.

Lemma join_inv y V a priv s y' : inv S G y V -> guard S y V (AJoin a priv s) ->
  sys_step S H G y (AJoin a priv s) = Some y' -> inv S G y' (ledger_step S y V (AJoin a priv s)).
Proof.
  intros [B P] (G1 & G2 & G3) E. cbn [sys_step] in E.
  destruct (keq a (co_addr (y_coord y))) as [|Na]; [discriminate|].
  destruct (mget (y_servers y) a) eqn:ES; [discriminate|]. destruct (mget (y_clients y) a) eqn:EC; [discriminate|].
  injection E as <-. cbn [ledger_step]. set (k := init_client S a (co_addr (y_coord y)) priv s).
  set (c := y_coord y) in *. set (sv := y_servers y) in *. set (cl := y_clients y) in *. set (M := core (y_msgs y)) in *.
  set (pub := pt_mul_base S priv) in *.
  assert (Gp : in_group S pub) by apply group_base.
  assert (ND : NoDup (map fst (V ++ [(pub, (starting_credit, 0))]))).
  { rewrite map_app. cbn [map fst]. apply NoDup_snoc; [apply (b_V _ _ _ _ _ B)|assumption]. }
  assert (B' : base S c sv cl (V ++ [(pub, (starting_credit, 0))])) by (apply base_grow; [assumption|assumption|constructor; [assumption|constructor]]).
  assert (NP : forall b kb, mget cl b = Some kb -> cl_pub kb <> pub).
  { intros b kb Eb X. apply G3. rewrite <- X. apply (b_cl _ _ _ _ _ B b kb Eb). }
  assert (BB : base S c sv (mset cl a k) (V ++ [(pub, (starting_credit, 0))])).
  { destruct B' as [A1 A2 A3 A4 A5 A6 A7 A8 A9 A10 A11 A12]. constructor; try assumption.
    - intros b kb. rewrite mget_mset. destruct (keq b a) as [->|N]; [|apply A6]. intros [= <-].
      repeat (split; [reflexivity || assumption|]). rewrite map_app. apply in_or_app. right. now left.
    - intros b b' kb kb'. rewrite !mget_mset. destruct (keq b a) as [->|N], (keq b' a) as [->|N']; intros E1 E2 E3.
      + reflexivity.
      + injection E1 as <-. elim (NP b' kb' E2). now symmetry.
      + injection E2 as <-. elim (NP b kb E1). assumption.
      + now apply (A7 b b' kb kb').
    - intros p b Hp. destruct (A9 p b Hp) as (kb & E1 & E2). rewrite mget_mset. destruct (keq b a) as [->|N]; [congruence|].
      now exists kb. }
  unfold inv. cbn [y_coord y_servers y_clients y_msgs]. fold c sv. rewrite core_app. fold M.
  change (core [cl_register S k]) with [cl_register S k]. split; [exact BB|].
  destruct P as [T A|T i p keys vals GT HT A|T0 T1 K A|T n M1 p keys vals GT HT A].
  - exfalso. pose proof (p1_status _ _ _ _ _ _ _ A). unfold c in *. rewrite G1 in *. discriminate.
  - exfalso. pose proof (p2_status _ _ _ _ _ _ _ _ _ _ _ _ _ _ A). unfold c in *. rewrite G1 in *. discriminate.
  - destruct A as [A1 A2 A3 A4 A5 A6 A7 A8 A9 A10 A11 A12 A13]. apply ph_mid with T0 T1 K. constructor; try assumption.
    + rewrite filter_app. cbn [filter is_ty mType cl_register]. change (CLIENT_REGISTER_CONTROLLERSIDE =? CLIENT_REGISTER_SERVERSIDE) with false.
      cbn iota. now rewrite app_nil_r.
    + rewrite filter_app, (map_app _ (filter _ M)), app_assoc. apply Permutation_app; [exact A9|]. rewrite (filter_map_cons _ _ (cl_register S k)) by reflexivity.
      cbn [filter map]. unfold pget, get_bytes. cbn [mParams cl_register lookup String.eqb Ascii.eqb Bool.eqb].
      change (cl_pub k) with pub. now rewrite (dec_enc_unchecked S _ Gp).
    + apply Forall_app. split.
      * eapply Forall_impl; [|exact A10]. intros m D.
        destruct D as [b p src D1 D2|b kb D1|b d kb pc src D1 D2 D3|b kb r g src D1 D2 D3 D4].
        -- apply mm_fin; [assumption|]. destruct D2 as [D2|D2]; [now left|right]. now apply mset_some.
        -- apply mm_reg with b. rewrite mget_mset_ne; [assumption|congruence].
        -- now apply mm_regs.
        -- apply mm_r with kb; try assumption. rewrite mget_mset_ne; [assumption|congruence].
      * constructor; [|constructor]. apply mm_reg with a. apply mget_mset_eq.
    + intros b kb Eb. rewrite mget_mset in Eb. destruct (keq b a) as [->|N].
      * injection Eb as <-. left. split; [apply in_or_app; right; now left|reflexivity].
      * apply cl_mid_app. now apply A11.
    + intros b sb Hb. destruct (A12 b sb Hb); [left; now apply sent_app_l|now right].
    + intros b kb Eb I. rewrite mget_mset in Eb. destruct (keq b a) as [->|N].
      * injection Eb as <-. exfalso. apply G3. eapply Permutation_in; [apply Permutation_map; exact A9|].
        rewrite !map_app. apply in_or_app. left. apply in_or_app. left. exact I.
      * destruct (A13 b kb Eb I); [left; now apply sent_app_l|now right].
  - exfalso. apply G2. split; [exact G1|]. destruct A as [A1 A2 A3 [src A4] A5 A6 A7 A8 A9 A10 A11].
    exists (Msg (before (map fst (co_servers c)) (co_addr c) n) Net.ROUND_END p src). split; [|reflexivity].
    apply (core_in (y_msgs y)). eapply Permutation_in; [symmetry; exact A4|]. now left.
Qed.

Lemma vote_phase_inv y V y' : inv S G y V -> sys_step S H G y (ALoop EVotePhase) = Some y' -> inv S G y' V.
Proof.
  intros [B P] E. cbn [sys_step is_loop co_step begin_vote] in E. injection E as <-.
  unfold inv. cbn [y_coord y_servers y_clients y_msgs].
  assert (CI : core (to_clients (y_coord y) Net.VOTE []) = []).
  { apply core_inert. apply Forall_forall. intros m Hm. apply inert_in. rewrite (to_clients_type _ _ _ _ Hm). cbn. tauto. }
  rewrite core_app, CI, app_nil_r.
  assert (CS : co_same (y_coord y) (clear_votes (y_coord y))).
  { intros f Hf. cbn in Hf. repeat (destruct Hf as [<-|Hf]; [reflexivity|]). destruct Hf. }
  split.
  - apply base_same with (y_coord y) (y_clients y); auto. apply clmap_refl.
  - apply phase_same with (y_coord y) (y_clients y); auto. apply clmap_refl.
Qed.

(** *** The start of a round *)
Definition fake_entry (f : Z * Z) : entry := (pt_mul_base S (fst f), (0, snd f)).

Definition beg_same (c c' : coord) : Prop :=
  co_static c' = co_static c /\ co_servers c' = co_servers c /\ co_clients c' = co_clients c /\ co_pb c' = co_pb c /\
  co_status c' = co_status c.

Lemma add_fakes_spec l : forall c T, pbase_ok S (co_pb c) -> co_bcomms c = map (ent S (co_pb c) 1) T ->
  agree_keys (co_bkeys c) (co_bcomms c) -> Forall (in_group S) (map fst T) ->
  NoDup (map fst T ++ map (fun f => pt_mul_base S (fst f)) l) ->
  beg_same c (add_fakes S c l) /\
  co_bcomms (add_fakes S c l) = map (ent S (co_pb c) 1) (T ++ map fake_entry l) /\
  agree_keys (co_bkeys (add_fakes S c l)) (co_bcomms (add_fakes S c l)).
Proof.
  induction l as [|[sk r] l IH]; intros c T PB ET AK FG ND.
  - cbn [map]. rewrite app_nil_r. repeat split; assumption.
  - unfold add_fakes in *. cbn [fold_left fst snd map] in *. set (k := pt_mul_base S sk) in *.
    set (c1 := add_rep c k (pt_mul S (pb_HT (co_pb c)) r)).
    assert (Gk : in_group S k) by apply group_base.
    assert (KS : mkeys (co_bcomms c) = map fst T).
    { rewrite ET. unfold mkeys. rewrite map_map. apply map_ext_in. intros t Ht. cbn [ent fst]. apply (pt_mul_1 S OK).
      rewrite Forall_forall in FG. apply FG. now apply in_map. }
    assert (NK : ~ In k (mkeys (co_bcomms c))).
    { rewrite KS. intros I. apply (NoDup_app_disjoint _ _ ND k I). now left. }
    assert (E1 : co_bcomms c1 = map (ent S (co_pb c) 1) (T ++ [fake_entry (sk, r)])).
    { cbn [c1 add_rep set_bcomms set_bkeys co_bcomms]. rewrite mkeys_mset_new by assumption. rewrite map_app, <- ET. f_equal.
      cbn [map]. unfold ent, fake_entry. cbn [fst snd]. fold k. rewrite (pt_mul_1 S OK) by assumption. unfold ped_commit_r.
      do 2 f_equal. destruct PB. unfold pt_mul. grpS S. }
    assert (A1 : agree_keys (co_bkeys c1) (co_bcomms c1)).
    { intros q. cbn [c1 add_rep set_bcomms set_bkeys co_bcomms co_bkeys]. rewrite !mget_mset. destruct (keq q k) as [->|]; [reflexivity|apply AK]. }
    destruct (IH c1 (T ++ [fake_entry (sk, r)]) PB E1 A1) as (I1 & I2 & I3).
    + rewrite map_app. apply Forall_app. split; [assumption|]. constructor; [assumption|constructor].
    + rewrite map_app. cbn [map fake_entry fst]. rewrite <- app_assoc. exact ND.
    + split; [exact I1|]. split; [|exact I3]. change (co_pb c1) with (co_pb c) in I2. rewrite I2. now rewrite <- app_assoc.
Qed.

Lemma ord_vals_perm (m : amap Z Z) ord vals : mwf m -> range_order ord m ->
  Forall2 (fun k v => mget m k = Some v) ord vals -> length vals = length ord /\ Permutation (combine ord vals) m.
Proof.
  intros W RO F2. assert (LV : length vals = length ord) by (clear - F2; induction F2; cbn; congruence).
  split; [exact LV|]. apply NoDup_Permutation_bis.
  - apply (NoDup_map_inv fst). rewrite combine_keys by assumption. eapply Permutation_NoDup; [symmetry; exact RO|exact W].
  - rewrite combine_length. pose proof (Permutation_length RO) as X. unfold mkeys in X. rewrite map_length in X. lia.
  - intros [k v] Hkv. apply mget_In. clear - F2 Hkv. revert Hkv.
    induction F2 as [|k0 v0 ks vs Ek F IH]; intros Hkv; [destruct Hkv|]. destruct Hkv as [Ekv|Hkv]; [|now apply IH].
    injection Ekv as <- <-. exact Ek.
Qed.

Lemma combine_vals : forall (k v : list Z), length v = length k -> map snd (combine k v) = v.
Proof. induction k as [|a k IH]; intros [|b v] L; cbn in *; try lia; [reflexivity|]. f_equal. apply IH. lia. Qed.

(** The table a set of entries makes under a unit exponent. *)
Lemma ent_keys_nodup pb e T : rel_prime e (sQ S) -> Forall (in_group S) (map fst T) -> NoDup (map fst T) ->
  NoDup (map fst (map (ent S pb e) T)).
Proof.
  intros RP FG ND. rewrite map_map. unfold ent; cbn [fst]. replace (map _ T) with (map (fun k => pt_mul S k e) (map fst T)) by apply map_map.
  apply Prop_Shuffle.NoDup_map_in; [|assumption]. intros a b Ha Hb. rewrite Forall_forall in FG.
  apply (pt_mul_inj S OK); auto.
Qed.

Lemma ent_table pb e T ord vals : pbase_ok S pb -> NoDup ord -> length vals = length ord ->
  Forall (in_group S) (map fst T) -> Permutation (combine ord vals) (map (ent S pb e) T) ->
  table_ok S ord vals (pb_GT pb) (pb_HT pb).
Proof.
  intros PB ND LV FG PT. constructor; try assumption; try apply PB.
  - rewrite <- (combine_keys ord vals LV). eapply Permutation_Forall; [symmetry; apply Permutation_map; exact PT|].
    rewrite map_map. unfold ent; cbn [fst]. apply Forall_forall. intros x Hx. apply in_map_iff in Hx. destruct Hx as (t & <- & Ht).
    assert (in_group S (fst t)) by (rewrite Forall_forall in FG; apply FG; now apply in_map). unfold pt_mul. in_grp.
  - rewrite <- (combine_vals ord vals LV). eapply Permutation_Forall; [symmetry; apply Permutation_map; exact PT|].
    rewrite map_map. unfold ent; cbn [snd]. apply Forall_forall. intros x Hx. apply in_map_iff in Hx. destruct Hx as (t & <- & Ht).
    now apply (ped_commit_group S OK).
Qed.

Lemma begin_core c sv cl V T ord fakes c' out : base S c sv cl V -> ready_ph S G c cl [] V T ->
  (co_first c = true -> NoDup (map (fun f => pt_mul_base S (fst f)) fakes)) ->
  range_order ord (co_bcomms (if co_first c then add_fakes S c fakes else c)) ->
  begin_round S c fakes ord = Some (c', out) ->
  let V' := if co_first c then V ++ map (fun f => (pt_mul_base S (fst f), (0, snd f))) fakes else V in
  base S c' sv cl V' /\ phase S G c' sv cl (core out) V'.
Proof.
  intros B [A1 A2 A3 A4 A5 A6 A7] NF RO E V'.
  unfold begin_round in E. rewrite A1 in E. cbn [CO_READY_FOR_NEW_ROUND Z.eqb Pos.eqb negb] in E.
  set (c1 := if co_first c then set_first (add_fakes S c fakes) false else c) in E.
  (* the table before the announcement *)
  assert (X : exists T', beg_same c c1 /\ co_bcomms c1 = map (ent S (co_pb c) 1) T' /\ agree_keys (co_bkeys c1) (co_bcomms c1) /\
    Permutation T' V' /\ NoDup (map fst V') /\ base S c sv cl V' /\ clients_ok S G c cl [] T' (fun _ => 0) /\
    co_first c1 = false /\ range_order ord (co_bcomms c1)).
  { unfold c1, V' in *. destruct (co_first c) eqn:EF.
    - specialize (A2 eq_refl). specialize (NF eq_refl). subst V. apply Permutation_sym, Permutation_nil in A5.
      destruct T as [|t T]; [|discriminate]. cbn [app].
      assert (MF : map fst (map fake_entry fakes) = map (fun f => pt_mul_base S (fst f)) fakes)
        by (rewrite map_map; reflexivity).
      destruct (add_fakes_spec fakes c [] (b_pb _ _ _ _ _ B) A3 A4 (Forall_nil _) NF) as (I1 & I2 & I3).
      exists (map fake_entry fakes). split; [exact I1|]. split; [exact I2|]. split; [exact I3|]. split; [|split; [|split; [|split; [|split]]]].
      + apply Permutation_refl.
      + change (NoDup (map fst (map fake_entry fakes))). now rewrite MF.
      + apply (base_grow c sv cl [] (map fake_entry fakes)); [assumption|change (NoDup (map fst (map fake_entry fakes))); now rewrite MF|]. rewrite MF. apply Forall_forall. intros x Hx.
        apply in_map_iff in Hx. destruct Hx as (f & <- & _). apply group_base.
      + intros a k Ek. destruct (b_cl _ _ _ _ _ B a k Ek) as (_ & _ & _ & _ & _ & _ & []).
      + reflexivity.
      + exact RO.
    - exists T. split; [repeat split|]. repeat (split; [assumption|]). split; [apply (b_V _ _ _ _ _ B)|]. auto. }
  destruct X as (T' & (S1 & S2 & S3 & S4 & S5) & I2 & I3 & I4 & I5 & B' & I6 & I7 & RO').
  set (c2 := set_status (clear_buffer c1) CO_ANNOUNCE) in *.
  assert (NE : co_servers c2 <> []) by (change (co_servers c2) with (co_servers c1); rewrite S2; apply B).
  destruct (announce_spec S c2 ord c' out I3 RO' E NE) as (-> & vals & a & -> & Ea & F2).
  pose proof (T_group T' V' I4 (b_Vg _ _ _ _ _ B')) as TG. pose proof (T_nodup T' V' I4 I5) as TN.
  assert (W : mwf (co_bcomms c1)).
  { rewrite I2. unfold mwf, mkeys. apply ent_keys_nodup; try assumption. apply rel_prime_1. }
  destruct (ord_vals_perm (co_bcomms c1) ord vals W RO' F2) as [LV PT]. rewrite I2 in PT.
  assert (NO : NoDup ord) by (eapply Permutation_NoDup; [symmetry; exact RO'|exact W]).
  assert (PB : pbase_ok S (co_pb c)) by apply B.
  pose proof (ent_table _ _ _ _ _ PB NO LV TG PT) as TO.
  apply Permutation_map_inv in PT. destruct PT as (T2 & E2 & PT).
  change (co_pb c2) with (co_pb c1). rewrite S4.
  split; [now apply base_co with c; [| | | |change (co_pb c2) with (co_pb c1); rewrite S4]|].
  change (core ?l) with l.
  apply ph_ann with T2 0%nat (table_params S ord vals (pb_GT (co_pb c)) (pb_HT (co_pb c))) ord vals (pb_GT (co_pb c)) (pb_HT (co_pb c)).
  constructor; try reflexivity; try assumption.
  - lia.
  - exists (co_addr c2). rewrite (nth_error_nth _ _ _ Ea). reflexivity.
  - repeat split.
  - left. split; [reflexivity|]. cbn [firstn prod_of fold_right]. apply (pt_mul_1 S OK). apply (in_group_G S OK).
  - eapply Permutation_trans; [|exact I4]. now symmetry.
  - apply clients_ok_same with c cl (fun _ => 0); auto; [apply clmap_refl|].
    apply clients_ok_T with T'; [|assumption]. intros t. now apply Permutation_in.
Qed.

Lemma begin_inv y V fakes ord y' : inv S G y V -> guard S y V (ALoop (EBegin fakes ord)) ->
  sys_step S H G y (ALoop (EBegin fakes ord)) = Some y' -> inv S G y' (ledger_step S y V (ALoop (EBegin fakes ord))).
Proof.
  intros [B P] (G1 & G2 & G3) E. cbn [sys_step is_loop co_step] in E.
  destruct (begin_round S (y_coord y) fakes ord) as [[c' out]|] eqn:EB; [|discriminate]. injection E as <-.
  unfold inv. cbn [y_coord y_servers y_clients y_msgs]. unfold settled in G1. rewrite core_app, G1. cbn [app].
  rewrite G1 in P.
  assert (ST : co_status (y_coord y) = CO_READY_FOR_NEW_ROUND).
  { unfold begin_round in EB. destruct (Z.eqb_spec (co_status (y_coord y)) CO_READY_FOR_NEW_ROUND); [assumption|discriminate]. }
  destruct P as [T A|T i p keys vals GT HT A|T0 T1 K A|T n M1 p keys vals GT HT A].
  - cbn [ledger_step]. now apply (begin_core _ _ _ V T ord fakes c' out).
  - exfalso. pose proof (p2_status _ _ _ _ _ _ _ _ _ _ _ _ _ _ A) as X. rewrite ST in X. discriminate.
  - exfalso. pose proof (p3_status _ _ _ _ _ _ _ _ _ A) as X. rewrite ST in X. discriminate.
  - exfalso. pose proof (p4_status _ _ _ _ _ _ _ _ _ _ _ _ _ _ _ A) as X. rewrite ST in X. discriminate.
Qed.

(** *** The end of a round *)
Lemma exps_unit c sv cl V : base S c sv cl V -> rel_prime (prod_of (exps c sv)) (sQ S).
Proof.
  intros B. assert (X : Forall (fun e => rel_prime e (sQ S)) (exps c sv)).
  { unfold exps. apply Forall_forall. intros e He. apply in_map_iff in He. destruct He as (a & <- & Ha).
    destruct (In_nth_error _ _ Ha) as [i Hi]. destruct (in_chain _ _ _ _ _ B Ha) as (_ & _ & s & Hs).
    destruct (b_link _ _ _ _ _ B i a s Hi Hs) as (_ & _ & [_ X _]). unfold rkey. now rewrite Hs. }
  induction X as [|e l He _ IH]; cbn [prod_of fold_right]; [apply rel_prime_1|].
  apply rel_prime_sym, rel_prime_mult; now apply rel_prime_sym.
Qed.

Lemma add_endings_spec : forall l c, NoDup (mkeys (co_ecomms c) ++ map fst l) -> agree_keys (co_ekeys c) (co_ecomms c) ->
  let c' := fold_left (fun c kv => add_ending c (fst kv) (snd kv)) l c in
  beg_same c c' /\ co_first c' = co_first c /\ co_diffs c' = co_diffs c /\ co_G c' = co_G c /\ co_ecomms c' = co_ecomms c ++ l /\ agree_keys (co_ekeys c') (co_ecomms c').
Proof.
  induction l as [|[k v] l IH]; intros c ND AK c'.
  - unfold c'. cbn [fold_left]. rewrite app_nil_r. repeat split; assumption.
  - unfold c'. cbn [fold_left fst snd map] in *. set (c1 := add_ending c k v).
    assert (NK : ~ In k (mkeys (co_ecomms c))).
    { intros I. apply (NoDup_app_disjoint _ _ ND k I). now left. }
    assert (E1 : co_ecomms c1 = co_ecomms c ++ [(k, v)]).
    { cbn [c1 add_ending set_ecomms co_ecomms set_ekeys]. now apply mkeys_mset_new. }
    assert (A1 : agree_keys (co_ekeys c1) (co_ecomms c1)).
    { intros q. cbn [c1 add_ending set_ecomms set_ekeys co_ecomms co_ekeys]. rewrite !mget_mset. destruct (keq q k) as [->|]; [reflexivity|apply AK]. }
    destruct (IH c1) as (I1 & I2 & I3 & I4 & I5 & I6); [|assumption|].
    + rewrite E1. unfold mkeys. rewrite map_app. cbn [map fst]. rewrite <- app_assoc. exact ND.
    + split; [exact I1|]. split; [exact I2|]. split; [exact I3|]. split; [exact I4|]. split; [|exact I6]. rewrite I5, E1, <- app_assoc. reflexivity.
Qed.

Lemma dec_keys (m : amap Z Z) (ks : amap Z Z) ord keys : agree_keys ks m ->
  non_nil (map (fun k => mget ks k) ord) = Some keys -> keys = ord /\ Forall (fun k => mget m k <> None) ord.
Proof.
  intros AK E. unfold non_nil in E. apply dec_all_spec in E. revert keys E.
  induction ord as [|k ord IH]; intros keys E; cbn [map] in E; inversion E as [|? b ? l' E1 E2]; subst; [split; [reflexivity|constructor]|].
  destruct (IH _ E2) as [-> F]. rewrite AK in E1. destruct (mget m k) eqn:Em; [|discriminate]. injection E1 as <-.
  split; [reflexivity|]. constructor; [congruence|assumption].
Qed.
Lemma dec_vals (m : amap Z Z) ord vs : non_nil (map (fun k => mget m k) ord) = Some vs -> Forall2 (fun k v => mget m k = Some v) ord vs.
Proof.
  unfold non_nil. intros E. apply dec_all_spec in E. revert vs E.
  induction ord as [|k ord IH]; intros vs E; cbn [map] in E; inversion E; subst; constructor; auto.
Qed.

(** The entry after the round. *)
Definition step_entry (d : Z -> Z) (K : Z) (tr : entry * Z) : entry :=
  (fst (fst tr), (fst (snd (fst tr)) + d (pt_mul S (fst (fst tr)) K), snd (snd (fst tr)) + snd tr)).

Lemma com_mod2 pb x r : pbase_ok S pb -> ped_commit_r S pb (x mod sQ S) (r mod sQ S) = ped_commit_r S pb x r.
Proof. intros PB. unfold ped_commit_r, pt_mul. rewrite !(zexp_modQ S OK); [reflexivity|apply PB|apply PB]. Qed.
Lemma com_add pb x r y r' : pbase_ok S pb ->
  ped_add S (ped_commit_r S pb x r) (ped_commit_r S pb (sec_of_int S y) r') = ped_commit_r S pb (x + y) (r + r').
Proof.
  intros PB. unfold sec_of_int. rewrite (com_modQ pb y) by assumption. rewrite (ped_add_commit S OK) by assumption.
  unfold sec_add. now apply com_mod2.
Qed.

Lemma end_table pb K d : pbase_ok S pb -> forall (T2 : list entry) (ord vs rs : list Z), length rs = length T2 ->
  length vs = length ord -> combine ord vs = map (ent S pb K) T2 ->
  combine ord (map (fun i => ped_add S (at_ vs i) (fst (ped_commit S pb (sec_of_int S (d (at_ ord i))) (at_ rs i)))) (seq 0 (length ord))) =
  map (ent S pb K) (map (step_entry d K) (combine T2 rs)).
Proof.
  intros PB. induction T2 as [|t T2 IH]; intros ord vs rs L LV E.
  - destruct ord; [reflexivity|]. destruct vs; [discriminate LV|discriminate E].
  - destruct ord as [|k ord], vs as [|v vs], rs as [|r rs]; try discriminate. cbn [combine map] in E.
    cbn [length] in *. cbn [seq map combine]. rewrite <- seq_shift, map_map.
    assert (E1 : (k, v) = ent S pb K t) by congruence. assert (E2 : combine ord vs = map (ent S pb K) T2) by congruence.
    cbn [combine map]. f_equal.
    + unfold at_. cbn [nth]. unfold ped_commit. cbn [fst]. unfold ent in E1 |- *. unfold step_entry. cbn [fst snd].
      assert (Ek : k = pt_mul S (fst t) K) by congruence.
      assert (Ev : v = ped_commit_r S pb (fst (snd t)) (snd (snd t))) by congruence.
      rewrite <- Ek, Ev. f_equal. now apply com_add.
    + rewrite <- (IH ord vs rs) by (assumption || lia). reflexivity.
Qed.

(** The ledger's step and the table's step agree. *)
Lemma drawn_cons k r ord rs nym : drawn (k :: ord) (r :: rs) nym = if k =? nym then r else drawn ord rs nym.
Proof. unfold drawn. cbn [combine find fst]. now destruct (k =? nym). Qed.
Lemma step_drawn d K : forall (T2 : list entry) rs, NoDup (map (fun t : entry => pt_mul S (fst t) K) T2) -> length rs = length T2 ->
  map (step_entry d K) (combine T2 rs) =
  map (fun t : entry => let nym := pt_mul S (fst t) K in
         (fst t, (fst (snd t) + d nym, snd (snd t) + drawn (map (fun t : entry => pt_mul S (fst t) K) T2) rs nym))) T2.
Proof.
  induction T2 as [|t T2 IH]; intros [|r rs] ND L; try discriminate; [reflexivity|]. cbn [combine map] in *.
  inversion ND as [|? ? N ND']; subst. f_equal.
  - unfold step_entry. cbn [fst snd]. now rewrite drawn_cons, Z.eqb_refl.
  - rewrite IH by (assumption || cbn in L; lia). apply map_ext_in. intros t' I. cbn zeta. rewrite drawn_cons.
    destruct (Z.eqb_spec (pt_mul S (fst t) K) (pt_mul S (fst t') K)) as [E|]; [|reflexivity]. elim N. rewrite E.
    now apply (in_map (fun t : entry => pt_mul S (fst t) K)).
Qed.
Lemma step_fst d K : forall (T2 : list entry) rs, length rs = length T2 ->
  map fst (map (step_entry d K) (combine T2 rs)) = map fst T2.
Proof.
  induction T2 as [|t T2 IH]; intros [|r rs] L; try discriminate; [reflexivity|]. cbn [combine map]. f_equal. apply IH. cbn in L. lia.
Qed.
Lemma step_in d K : forall (T2 : list entry) rs j t r, nth_error T2 j = Some t -> nth_error rs j = Some r ->
  In (step_entry d K (t, r)) (map (step_entry d K) (combine T2 rs)).
Proof.
  induction T2 as [|t0 T2 IH]; intros rs [|j] t r E1 E2; try discriminate; destruct rs as [|r0 rs]; try discriminate; cbn [nth_error combine map] in *.
  - left. congruence.
  - right. now apply (IH rs j).
Qed.

Lemma find_index_at (l : list Z) k j : NoDup l -> nth_error l j = Some k -> find_index l k = Z.of_nat j.
Proof.
  intros ND E. apply Prop_Codec.C30_find_index. split; [assumption|]. intros i Hi X.
  assert (i = j); [|lia]. apply (proj1 (NoDup_nth_error l) ND); [|congruence]. apply nth_error_Some. congruence.
Qed.

Lemma dec_enc_secs l : Forall (is_secret S) l -> dec_secrets S (enc_secrets S l) = Some l.
Proof.
  intros F. rewrite Forall_forall in F. apply (Prop_Codec.C23_lists S OK [] l []); [intros p []|]. intros x Hx. now apply F.
Qed.

Lemma last_chain c a : last_server c = Some a ->
  before (map fst (co_servers c)) (co_addr c) (length (co_servers c)) = a.
Proof.
  intros E. pose proof (last_before c) as X. rewrite E, app_nil_r, map_length in X. now symmetry.
Qed.

Lemma end_core c sv cl V T0 T1 K ord rs c' out : base S c sv cl V -> mid_ph S c sv cl [] V T0 T1 K ->
  Permutation ord (mkeys (co_ecomms c) ++ map fst (co_buffer c)) -> length rs = length ord -> Forall (is_secret S) rs ->
  round_end S c ord rs = Some (c', out) ->
  let V' := map (fun t : entry => let nym := pt_mul S (fst t) K in
             (fst t, (fst (snd t) + rep_diff c nym, snd (snd t) + drawn ord rs nym))) V in
  base S c' sv cl V' /\ phase S G c' sv cl (core out) V'.
Proof.
  intros B [A1 A2 A3 A4 A5 A6 A7 A8 A9 A10 A11 A12 A13] PO LR FR E V'.
  cbn [filter map] in A7, A9. rewrite !app_nil_r in *.
  set (T := T0 ++ T1) in *. set (pb := co_pb c) in *.
  assert (PB : pbase_ok S pb) by apply B.
  pose proof (T_group T V A9 (b_Vg _ _ _ _ _ B)) as TG. pose proof (T_nodup T V A9 (b_V _ _ _ _ _ B)) as TN.
  assert (RP : rel_prime K (sQ S)) by (rewrite A3; apply (exps_unit _ _ _ _ B)).
  assert (PE : Permutation (co_ecomms c ++ co_buffer c) (map (ent S pb K) T)).
  { unfold T. rewrite map_app, A5. now apply Permutation_app_head. }
  assert (NE : NoDup (map fst (co_ecomms c ++ co_buffer c))).
  { eapply Permutation_NoDup; [symmetry; apply Permutation_map; exact PE|]. now apply ent_keys_nodup. }
  unfold round_end in E. destruct (last_server c) as [la|] eqn:EL.
  2:{ exfalso. pose proof (b_ne _ _ _ _ _ B) as X. unfold last_server in EL. destruct (rev (co_servers c)) eqn:ER; [|discriminate].
      apply X. rewrite <- (rev_involutive (co_servers c)), ER. reflexivity. }
  destruct (add_endings_spec (co_buffer c) c) as ((S1 & S2 & S3 & S4 & S5) & S6 & S7 & S8 & S9 & S10); [now rewrite map_app in NE|assumption|].
  set (c1 := fold_left _ (co_buffer c) c) in *.
  destruct (non_nil (map (fun k => mget (co_ekeys c1) k) ord)) as [keys|] eqn:EK; [|discriminate].
  destruct (non_nil (map (fun k => mget (co_ecomms c1) k) ord)) as [vs|] eqn:EV; [|discriminate].
  destruct (dec_keys _ _ _ _ S10 EK) as [-> _]. clear EK.
  injection E as <- <-.
  apply dec_vals in EV.
  assert (W : mwf (co_ecomms c1)) by (rewrite S9; exact NE).
  assert (RO : range_order ord (co_ecomms c1)).
  { unfold range_order. rewrite S9. unfold mkeys. rewrite map_app. exact PO. }
  destruct (ord_vals_perm _ _ _ W RO EV) as [LV PT]. rewrite S9 in PT.
  pose proof (Permutation_trans PT PE) as PT2. apply Permutation_map_inv in PT2. destruct PT2 as (T2 & E2 & P2).
  assert (NO : NoDup ord) by (eapply Permutation_NoDup; [symmetry; exact RO|exact W]).
  assert (LT : length T2 = length ord).
  { pose proof (f_equal (@length _) E2) as X. rewrite combine_length, map_length in X. lia. }
  assert (DD : forall k, rep_diff c1 k = rep_diff c k) by (intros k; unfold rep_diff; now rewrite S7).
  set (d := rep_diff c) in *.
  set (T3 := map (step_entry d K) (combine T2 rs)).
  set (vals := tab (length ord) _).
  assert (E3 : combine ord vals = map (ent S pb K) T3).
  { unfold T3. rewrite <- (end_table pb K d PB T2 ord vs rs) by (assumption || lia). unfold vals, tab. f_equal.
    apply map_ext. intros i. rewrite DD, S4. reflexivity. }
  assert (LV3 : length vals = length ord) by (unfold vals, tab; now rewrite map_length, seq_length).
  assert (FT3 : map fst T3 = map fst T2).
  { apply step_fst. lia. }
  assert (P23 : Permutation (map fst T2) (map fst T)) by (apply Permutation_map; now symmetry).
  assert (TG3 : Forall (in_group S) (map fst T3)).
  { rewrite FT3. eapply Permutation_Forall; [symmetry; exact P23|assumption]. }
  assert (TO : table_ok S ord vals (pb_GT pb) (pb_HT pb)).
  { apply ent_table with K T3; try assumption. now rewrite E3. }
  assert (RS : tab (length ord) (at_ rs) = rs) by (unfold tab; rewrite <- LR; apply map_at_seq).
  rewrite RS.
  assert (VV : map fst V' = map fst V) by (unfold V'; now rewrite map_map).
  set (c' := clear_bridges c1).
  assert (B1 : base S c' sv cl V).
  { apply base_co with c; auto. change (co_pb c') with (co_pb c1). now rewrite S4. }
  assert (B' : base S c' sv cl V').
  { destruct B1. constructor; rewrite ?VV; assumption. }
  split; [exact B'|].
  set (tok := Msg la Net.ROUND_END _ _). set (pm := [("keys"%str, _); _]).
  assert (CC : core (tok :: to_clients c1 BCAST_PEDERSEN_RDIFF pm) = tok :: to_clients c1 BCAST_PEDERSEN_RDIFF pm).
  { change (tok :: core (to_clients c1 BCAST_PEDERSEN_RDIFF pm) = tok :: to_clients c1 BCAST_PEDERSEN_RDIFF pm).
    f_equal. now apply core_clients. }
  rewrite CC. clear CC.
  assert (NL : mget cl la = None).
  { destruct (before_chain c sv cl V (length (co_servers c)) B (le_n _)) as [[X _]|(j & a & s & _ & E1 & _ & _ & _ & X)].
    - exfalso. apply (b_ne _ _ _ _ _ B). destruct (co_servers c); [reflexivity|discriminate].
    - rewrite (last_chain c la EL) in E1. now subst a. }
  assert (XE : exps c' sv = exps c sv) by (apply same_exps; exact S2).
  assert (TI : forall m, In m (to_clients c1 BCAST_PEDERSEN_RDIFF pm) -> to_client cl BCAST_PEDERSEN_RDIFF m).
  { intros m Hm. destruct (to_clients_inv c' sv cl V _ _ _ B1 Hm) as (a & k & -> & Ek & _). split; [reflexivity|]. cbn [mDst]. congruence. }
  apply ph_end with T3 (length (co_servers c')) (to_clients c1 BCAST_PEDERSEN_RDIFF pm)
    (table_params S ord vals (pb_GT pb) (pb_HT pb) ++ [("is_start"%str, VBool true)]) ord vals (pb_GT pb) (pb_HT pb).
  constructor.
  - change (co_status c') with (co_status c1). congruence.
  - change (co_first c') with (co_first c1). congruence.
  - lia.
  - exists (co_addr c). change (co_servers c') with (co_servers c1). rewrite S2.
    change (co_addr c') with (co_addr c1). rewrite (same_addr _ _ S1), (last_chain c la EL).
    unfold tok. rewrite S4. reflexivity.
  - now apply Forall_forall.
  - repeat split.
  - exact TO.
  - rewrite XE, E3. replace (length (co_servers c')) with (length (exps c sv)) by (rewrite exps_length; change (co_servers c') with (co_servers c1); now rewrite S2).
    rewrite firstn_all, <- A3. reflexivity.
  - assert (EO : map (fun t : entry => pt_mul S (fst t) K) T2 = ord).
    { rewrite <- (combine_keys ord vs LV), E2, map_map. reflexivity. }
    unfold T3. rewrite step_drawn; [|now rewrite EO|lia]. rewrite EO. unfold V'. apply Permutation_map.
    rewrite <- A9. now symmetry.
  - intros k k' Ek. change (co_ekeys c') with (co_ekeys c1) in Ek. rewrite S10 in Ek. destruct (mget (co_ecomms c1) k) as [v|] eqn:EM; [|discriminate].
    injection Ek as <-. split; [reflexivity|]. apply mget_keys in EM. apply (Permutation_in _ (Permutation_sym RO)) in EM.
    pose proof (t_keys _ _ _ _ _ TO) as X. rewrite Forall_forall in X. now apply X.
  - intros a k Ek. destruct (A11 a k Ek) as [[[] _]|(C1 & v & r & C2 & C3 & C4)].
    destruct C4 as [(m & [] & _)|(R & C5 & C6 & C7)]. destruct C7 as [(m & [] & _)|[C7 C8]].
    split; [change (co_clients c') with (co_clients c1); now rewrite S3|].
    apply (Permutation_in _ P2) in C2. destruct (In_nth_error _ _ C2) as [j Hj].
    assert (Hjl : (j < length ord)%nat) by (rewrite <- LT; apply nth_error_Some; congruence).
    destruct (nth_error rs j) as [rj|] eqn:Er; [|apply nth_error_None in Er; lia].
    assert (Ho : nth_error ord j = Some (cl_nym k)).
    { rewrite <- (combine_keys ord vs LV), E2, map_map. rewrite C7.
      rewrite (map_nth_error (fun x => fst (ent S pb K x)) j T2 Hj). reflexivity. }
    exists (v + d (cl_nym k)), (r + rj), R. split; [|split; [assumption|split]].
    + pose proof (step_in d K T2 rs j _ _ Hj Er) as X. unfold step_entry in X. cbn [fst snd] in X. rewrite <- C7 in X. exact X.
    + rewrite rsum_cons. unfold rd_msg at 1. rewrite to_a_type by discriminate. rewrite Z.add_0_l.
      replace (rsum S (to_clients c1 BCAST_PEDERSEN_RDIFF pm) a (cl_nym k)) with rj.
      * rewrite Z.add_mod, C6, <- Z.add_mod by (pose proof (sQ_gt1 S OK); lia). reflexivity.
      * symmetry. unfold rsum. apply (sum_to_clients c1 sv cl V) with a k; try assumption; [|now rewrite S3|].
        -- apply base_co with c; auto. now rewrite S4.
        -- intros b. unfold rd_msg, to_a. cbn [mType mDst mParams]. rewrite Z.eqb_refl. cbn [andb]. destruct (keq b a) as [->|]; [|reflexivity].
           unfold rd_val, pm, get_bytes. cbn [lookup String.eqb Ascii.eqb Bool.eqb].
           rewrite (dec_enc_points S OK _ (t_keys _ _ _ _ _ TO)), (dec_enc_secs _ FR), (find_index_at _ _ _ NO Ho).
           destruct (Z.ltb_spec (Z.of_nat j) 0); [lia|]. rewrite Nat2Z.id, Er. reflexivity.
    + rewrite dsum_cons. unfold dd_msg at 1. rewrite (to_a_other tok _ la a) by (reflexivity || congruence).
      rewrite dsum_zero.
      * rewrite !Z.add_0_r. change (rep_diff c' (cl_nym k)) with (rep_diff c1 (cl_nym k)). rewrite DD. now apply int64_add.
      * apply Forall_forall. intros m Hm. apply to_a_type. destruct (TI m Hm) as [X _]. rewrite X. discriminate.
Qed.

Lemma end_inv y V ord rs y' : inv S G y V -> guard S y V (ALoop (EEnd ord rs)) ->
  sys_step S H G y (ALoop (EEnd ord rs)) = Some y' -> inv S G y' (ledger_step S y V (ALoop (EEnd ord rs))).
Proof.
  intros [B P] (G1 & G2 & G3 & G4 & G5) E. cbn [sys_step is_loop co_step] in E.
  destruct (round_end S (y_coord y) ord rs) as [[c' out]|] eqn:EB; [|discriminate]. injection E as <-.
  unfold inv. cbn [y_coord y_servers y_clients y_msgs]. unfold settled in G2. rewrite core_app, G2. cbn [app].
  rewrite G2 in P.
  destruct P as [T A|T i p keys vals GT HT A|T0 T1 K A|T n M1 p keys vals GT HT A].
  - exfalso. pose proof (p1_status _ _ _ _ _ _ _ A) as X. rewrite G1 in X. discriminate.
  - exfalso. pose proof (p2_status _ _ _ _ _ _ _ _ _ _ _ _ _ _ A) as X. rewrite G1 in X. discriminate.
  - cbn [ledger_step]. unfold nym_of, round_exp. rewrite <- (p3_K _ _ _ _ _ _ _ _ _ A).
    now apply (end_core _ _ _ V T0 T1 K ord rs c' out).
  - exfalso. destruct (p4_M _ _ _ _ _ _ _ _ _ _ _ _ _ _ _ A) as [src X]. now apply Permutation_nil_cons in X.
Qed.

Theorem step_inv y V a y' : inv S G y V -> guard S y V a -> sys_step S H G y a = Some y' -> inv S G y' (ledger_step S y V a).
Proof.
  intros I GU E. destruct a as [a priv rk|a priv s|i cr sr chal|e|a cmd].
  - destruct GU.
  - now apply join_inv.
  - now apply (deliver_inv y V i cr sr chal).
  - destruct e; try (destruct GU; fail).
    + now apply begin_inv.
    + cbn [ledger_step]. now apply (vote_phase_inv y).
    + now apply end_inv.
  - cbn [ledger_step]. now apply (command_inv y V a cmd).
Qed.

(** ** The start *)
Record xinv (y : sys) : Prop := {
  x_gt : in_group S (pb_GT (co_pb (y_coord y)));
  x_first : co_first (y_coord y) = true;
  x_bc : co_bcomms (y_coord y) = [];
  x_bk : co_bkeys (y_coord y) = [];
  x_cl : co_clients (y_coord y) = [];
  x_ycl : y_clients y = [];
  x_sv : forall a s, mget (y_servers y) a = Some s -> server_ok S s
}.

Lemma init_server_ok a self priv rk : rel_prime rk (sQ S) -> server_ok S (init_server S a self priv rk).
Proof. intros RP. constructor; [reflexivity|exact RP|]. cbn. discriminate. Qed.

Lemma conf_keeps s p src rn s' out ty : ty = SERVER_REGISTER_REPLY \/ ty = UPDATE_NEXT_HOP ->
  sv_handle S H G s ty p src rn = Some (s', out) -> server_ok S s -> server_ok S s'.
Proof.
  intros T E [O1 O2 O3]. destruct T as [->| ->].
  - change (sv_register_reply S s p src (srKey rn) = Some (s', out)) in E. unfold sv_register_reply in E. odestruct E; injection E as <- <-; now constructor.
  - change (sv_update_next s p = Some (s', out)) in E. unfold sv_update_next in E. odestruct E; injection E as <- <-; now constructor.
Qed.

Lemma conf_step st y a y' : cinv S st y -> xinv y -> conf_act S a -> sys_step S H G y a = Some y' -> xinv y'.
Proof.
  intros I [X1 X2 X3 X4 X5 X6 X7] C E. destruct a as [a priv rk|?|i cr sr ch|?|?]; try destruct C.
  - cbn [sys_step] in E. destruct (keq a _); [discriminate|]. destruct (mget (y_servers y) a); [discriminate|].
    destruct (mget (y_clients y) a); [discriminate|]. injection E as <-. constructor; cbn [y_coord y_servers y_clients]; try assumption.
    intros b s. rewrite mget_mset. destruct (keq b a) as [->|]; [|apply X7]. intros [= <-]. now apply init_server_ok.
  - cbn [sys_step] in E. destruct (nth_error (y_msgs y) i) as [m|] eqn:Em; [|discriminate]. cbn zeta in E.
    pose proof (i_msgs _ _ _ I) as F. rewrite Forall_forall in F. specialize (F m (nth_error_In _ _ Em)).
    set (c := y_coord y) in *.
    assert (SV : forall s s' out ty, mget (y_servers y) (mDst m) = Some s -> ty = SERVER_REGISTER_REPLY \/ ty = UPDATE_NEXT_HOP ->
      sv_handle S H G s ty (mParams m) (mSrc m) sr = Some (s', out) ->
      forall b sb, mget (mset (y_servers y) (mDst m) s') b = Some sb -> server_ok S sb).
    { intros s s' out ty Hs T EE b sb. rewrite mget_mset. destruct (keq b (mDst m)) as [->|]; [|apply X7]. intros [= <-].
      eapply conf_keeps; eauto. }
    destruct F as [a b sa Ha|j a h Hj Hh|j a b Hj Hj2|a h Hh].
    + cbn [reg_msg mDst mType mSrc] in E. destruct (keq (co_addr c) (co_addr c)) as [_|N]; [|congruence].
      rewrite (reg_step S G c a b cr) in E. injection E as <-. now constructor.
    + destruct (i_in _ _ _ I a ltac:(eapply nth_error_In; exact Hj)) as (s & Hs).
      unfold reply_msg at 1 in E. cbn [mDst] in E.
      destruct (keq a (co_addr c)) as [->|Na].
      { exfalso. pose proof (i_self _ _ _ I) as Z. pose proof (i_static _ _ _ I) as Z1. unfold co_addr, c in Hs. rewrite Z1 in Hs. congruence. }
      cbn [reply_msg mDst mType mSrc] in E. rewrite Hs in E.
      destruct (sv_handle _ _ _ _ _ _ _ _) as [[s' out]|] eqn:EH; [|discriminate]. injection E as <-.
      constructor; try assumption. cbn [y_servers]. eapply (SV s s' out); [exact Hs|left; reflexivity|exact EH].
    + destruct (i_in _ _ _ I a ltac:(eapply nth_error_In; exact Hj)) as (s & Hs).
      unfold hop_msg at 1 in E. cbn [mDst] in E.
      destruct (keq a (co_addr c)) as [->|Na].
      { exfalso. pose proof (i_self _ _ _ I) as Z. pose proof (i_static _ _ _ I) as Z1. unfold co_addr, c in Hs. rewrite Z1 in Hs. congruence. }
      cbn [hop_msg mDst mType mSrc] in E. rewrite Hs in E.
      destruct (sv_handle _ _ _ _ _ _ _ _) as [[s' out]|] eqn:EH; [|discriminate]. injection E as <-.
      constructor; try assumption. cbn [y_servers]. eapply (SV s s' out); [exact Hs|right; reflexivity|exact EH].
    + cbn [ped_msg mDst mType mSrc] in E. destruct (keq (co_addr c) (co_addr c)) as [_|N]; [|congruence].
      rewrite (ped_step S OK G c a h cr Hh) in E. injection E as <-. now constructor.
Qed.

Lemma start_inv self a fb trap gammas l y1 y2 : Forall (conf_act S) l ->
  sys_run S H G (init_sys S self a fb trap gammas) l = Some y1 -> y_msgs y1 = [] -> co_servers (y_coord y1) <> [] ->
  sys_step S H G y1 (ALoop EConfigure) = Some y2 -> inv S G y2 [].
Proof.
  intros F E M NE E2.
  assert (FC : Forall is_conf l) by (eapply Forall_impl; [|exact F]; intros [] X; try exact I; destruct X).
  destruct (C51_chain_linked S OK H G self a fb trap gammas l y1 FC E M) as (C1 & C2 & C3).
  pose proof (conf_run_inv S OK H G self a fb trap gammas l y1 FC E) as CI.
  assert (XI : xinv y1).
  { set (st := co_static (y_coord (init_sys S self a fb trap gammas))).
    assert (P : forall l y0 y, Forall (conf_act S) l -> cinv S st y0 -> xinv y0 -> sys_run S H G y0 l = Some y -> xinv y).
    { clear - OK. clearbody st. induction l as [|x l IH]; intros y0 y F I X E; cbn [sys_run] in E; [now injection E as <-|].
      inversion F as [|? ? Fx Fl]; subst. destruct (sys_step S H G y0 x) as [y1|] eqn:E1; [|discriminate].
      apply (IH y1 y Fl); [| |assumption].
      - destruct x as [b p r|?|i cr sr ch|?|?]; try destruct Fx.
        + eapply launch_inv; eauto.
        + destruct (nth_error (y_msgs y0) i) as [m|] eqn:Em; [|cbn [sys_step] in E1; rewrite Em in E1; discriminate].
          destruct (deliver_ok S OK H G st y0 i m cr sr ch I Em) as (y2 & E2 & I2). congruence.
      - eapply conf_step; eauto. }
    eapply P; [exact F|now apply init_cinv| |exact E].
    unfold init_sys, init_coord. destruct (gn_generate_all fb gammas). constructor; try reflexivity; cbn [y_coord y_servers co_pb].
    - apply (ped_minimal_ok S OK).
    - intros b s X. discriminate X. }
  destruct XI as [X1 X2 X3 X4 X5 X6 X7]. destruct CI as [I1 I2 I3 I4 I5 I6 I7].
  cbn [sys_step is_loop co_step co_configure] in E2. injection E2 as <-.
  rewrite init_addr in *. unfold inv. cbn [y_coord y_servers y_clients y_msgs]. rewrite M. cbn [app].
  set (c := y_coord y1) in *. set (c' := set_status c CO_READY_FOR_NEW_ROUND).
  assert (SA : co_addr c' = self).
  { change (co_addr c') with (cs_addr (co_static c)). rewrite I1. apply init_addr. }
  assert (CL : forall b, mget (y_clients y1) b = None) by (intros b; rewrite X6; reflexivity).
  split.
  - constructor; try rewrite SA; try assumption.
    + intros i b s Hi Hs. destruct (C3 i b Hi) as (s0 & E0 & L1 & L2). rewrite Hs in E0. injection E0 as <-.
      split; [exact L1|]. split; [exact L2|]. now apply (X7 b).
    + intros b k. rewrite CL. discriminate.
    + intros b b' k k'. rewrite CL. discriminate.
    + change (co_clients c') with (co_clients c). rewrite X5. apply mwf_nil.
    + intros p b. change (co_clients c') with (co_clients c). rewrite X5. discriminate.
    + split; assumption.
    + constructor.
    + constructor.
  - rewrite core_servers by reflexivity. apply ph_ready with (@nil entry). constructor.
    + reflexivity.
    + reflexivity.
    + exact X3.
    + intros k. change (co_bkeys c') with (co_bkeys c). change (co_bcomms c') with (co_bcomms c). rewrite X3, X4. reflexivity.
    + constructor.
    + intros b k. rewrite CL. discriminate.
    + apply Forall_forall. intros m Hm. left. destruct (to_servers_inv _ _ _ _ Hm) as (b & -> & Hb). split; [reflexivity|exact Hb].
Qed.

(** The invariant holds in every reachable state. *)
Theorem reach_inv y V : reach S H G y V -> inv S G y V.
Proof. induction 1; [eapply start_inv; eassumption|eapply step_inv; eassumption]. Qed.
End Inv.
