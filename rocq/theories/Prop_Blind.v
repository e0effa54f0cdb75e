(** C116: the order in which the table leaves the chain of servers. *)
From Coq Require Import ZArith Znumtheory Lia List Bool Permutation Arith.
From Coq Require Import Strings.Byte.
From Coq Require String.
From Verif Require Import ZMod Bytes Suite Spec Pedersen ElGamal FujiOkam Equality Codec Maps Net Bridge Client
  Perm SimpleShuffle PairShuffle Server Chain Prop_Assign Prop_Codec Prop_Shuffle Prop_Chain Prop_Fair.
Import ListNotations.
Import String.StringSyntax.
Open Scope Z_scope.
Delimit Scope string_scope with str.

(** ** Specification *)
(** An announcement passes through a chain of servers: each handles, with its random choices,
    the message that the one before it has sent.  [p] goes in, [p'] comes out. *)
Inductive passes (S : suite) (H : oracle) : list (server * sv_rand) -> params -> params -> Prop :=
| p_out p : passes S H [] p p
| p_next s rn l p s' m p' : sv_announcement S H s p rn = Some (s', [m]) -> passes S H l (mParams m) p' ->
    passes S H ((s, rn) :: l) p p'.
(** A key after all servers of the chain have raised it to their round keys. *)
Definition raised (S : suite) (l : list (server * sv_rand)) (x : Z) : Z :=
  fold_left (fun x sr => pt_mul S x (sv_roundkey (fst sr))) l x.
(** First [p], then [q]: the i-th entry is the one that was at place q[i] after [p]. *)
Definition compose (p q : list nat) : list nat := map (fun i => nth i p 0%nat) q.
(** The order of [k] entries after shuffles with the streams [us], one after the other. *)
Fixpoint order (k : nat) (us : list (nat -> Z)) : list nat :=
  match us with [] => seq 0 k | u :: us => compose (draw_perm u k) (order k us) end.
Definition streams (l : list (server * sv_rand)) : list (nat -> Z) := map (fun sr => srU (snd sr)) l.

(** ** Permutations *)
Lemma perm_list_ext (a b : list nat) k : length a = k -> length b = k -> (forall i, (i < k)%nat -> nth i a 0%nat = nth i b 0%nat) -> a = b.
Proof. intros La Lb E. apply (nth_ext a b 0%nat 0%nat); [congruence|]. intros i Hi. apply E. lia. Qed.
Lemma compose_length p q : length (compose p q) = length q.
Proof. apply map_length. Qed.
Lemma compose_nth p q i : (i < length q)%nat -> nth i (compose p q) 0%nat = nth (nth i q 0%nat) p 0%nat.
Proof.
  intros Hi. unfold compose. rewrite (nth_indep _ 0%nat (nth 0%nat p 0%nat)) by now rewrite map_length. now rewrite (map_nth (fun i => nth i p 0%nat)).
Qed.
Lemma perm_length p k : Permutation p (seq 0 k) -> length p = k.
Proof. intros H. rewrite (Permutation_length H). apply seq_length. Qed.
Lemma perm_of_inj p k : length p = k -> (forall i, (i < k)%nat -> (nth i p 0 < k)%nat) -> NoDup p -> Permutation p (seq 0 k).
Proof.
  intros L B ND. apply NoDup_Permutation_bis; [exact ND|rewrite seq_length; lia|]. intros x I.
  destruct (In_nth _ _ 0%nat I) as (i & Hi & <-). apply in_seq. specialize (B i ltac:(lia)). lia.
Qed.
Lemma compose_perm p q k : Permutation p (seq 0 k) -> Permutation q (seq 0 k) -> Permutation (compose p q) (seq 0 k).
Proof.
  intros Hp Hq. pose proof (perm_length _ _ Hp) as Lp. pose proof (perm_length _ _ Hq) as Lq.
  assert (NDp : NoDup p) by (eapply Permutation_NoDup; [symmetry; exact Hp|apply seq_NoDup]).
  assert (NDq : NoDup q) by (eapply Permutation_NoDup; [symmetry; exact Hq|apply seq_NoDup]).
  apply perm_of_inj.
  - now rewrite compose_length.
  - intros i Hi. rewrite compose_nth by lia. apply (perm_nth_lt _ _ _ Hp), (perm_nth_lt _ _ _ Hq). lia.
  - apply (NoDup_nth _ 0%nat). intros i j Hi Hj E. rewrite compose_length in Hi, Hj. rewrite !compose_nth in E by assumption.
    apply (proj1 (NoDup_nth q 0%nat) NDq); try lia. rewrite Lq in Hi, Hj.
    pose proof (perm_nth_lt _ _ _ Hq Hi). pose proof (perm_nth_lt _ _ _ Hq Hj).
    apply (proj1 (NoDup_nth p 0%nat) NDp); lia.
Qed.
Lemma order_perm k us : Permutation (order k us) (seq 0 k).
Proof. induction us as [|u us IH]; cbn [order]; [reflexivity|]. apply compose_perm; [apply draw_perm_perm|exact IH]. Qed.
Lemma compose_assoc p q r k : length q = k -> Permutation r (seq 0 k) -> compose p (compose q r) = compose (compose p q) r.
Proof.
  intros Lq Hr. pose proof (perm_length _ _ Hr) as Lr. apply (perm_list_ext _ _ k); [now rewrite !compose_length|now rewrite compose_length|].
  intros i Hi. pose proof (perm_nth_lt _ _ _ Hr Hi). rewrite (compose_nth p (compose q r)) by (rewrite compose_length; lia). rewrite (compose_nth q r), (compose_nth _ r), (compose_nth p q) by lia. reflexivity.
Qed.
Lemma compose_id_r p k : length p = k -> compose p (seq 0 k) = p.
Proof.
  intros L. apply (perm_list_ext _ _ k); [now rewrite compose_length, seq_length|exact L|]. intros i Hi. rewrite compose_nth by (rewrite seq_length; lia). now rewrite seq_nth by lia.
Qed.
Lemma compose_id_l p k : Permutation p (seq 0 k) -> compose (seq 0 k) p = p.
Proof.
  intros H. pose proof (perm_length _ _ H) as L. apply (perm_list_ext _ _ k); [now rewrite compose_length|exact L|]. intros i Hi. rewrite compose_nth by lia.
  pose proof (perm_nth_lt _ _ _ H Hi). now rewrite seq_nth by lia.
Qed.
Lemma order_app k us us' : order k (us ++ us') = compose (order k us) (order k us').
Proof.
  induction us as [|u us IH]; cbn [app order]; [symmetry; apply compose_id_l, order_perm|]. rewrite IH.
  apply (compose_assoc _ _ _ k); [apply perm_length, order_perm|apply order_perm].
Qed.
(** Inverses. *)
Lemma inverse p k : Permutation p (seq 0 k) -> exists q, Permutation q (seq 0 k) /\ compose q p = seq 0 k /\ compose p q = seq 0 k.
Proof.
  intros H. pose proof (perm_length _ _ H) as L.
  assert (ND : NoDup p) by (eapply Permutation_NoDup; [symmetry; exact H|apply seq_NoDup]).
  assert (X : forall m, (m < k)%nat -> exists i, (i < k)%nat /\ nth i p 0%nat = m).
  { intros m Hm. assert (I : In m p) by (apply (Permutation_in _ (Permutation_sym H)), in_seq; lia). destruct (In_nth _ _ 0%nat I) as (i & Hi & E). exists i. split; [lia|exact E]. }
  assert (Y : forall n, (n <= k)%nat -> exists q, length q = n /\ forall m, (m < n)%nat -> (nth m q 0 < k)%nat /\ nth (nth m q 0%nat) p 0%nat = m).
  { induction n as [|n IH]; intros Hn; [exists []; split; [reflexivity|intros m Hm; lia]|].
    destruct (IH ltac:(lia)) as (q & Lq & Hq). destruct (X n ltac:(lia)) as (i & Hi & E). exists (q ++ [i]). split; [rewrite app_length; cbn; lia|].
    intros m Hm. destruct (Nat.eq_dec m n) as [->|N].
    - rewrite app_nth2 by lia. rewrite Lq, Nat.sub_diag. cbn. now split.
    - rewrite app_nth1 by lia. apply Hq. lia. }
  destruct (Y k (le_n k)) as (q & Lq & Hq). exists q.
  assert (NDq : NoDup q).
  { apply (NoDup_nth _ 0%nat). intros i j Hi Hj E. rewrite Lq in Hi, Hj. destruct (Hq i Hi) as [_ A]. destruct (Hq j Hj) as [_ B]. congruence. }
  split; [|split].
  - apply perm_of_inj; [exact Lq|intros i Hi; apply (Hq i Hi)|exact NDq].
  - apply (perm_list_ext _ _ k); [now rewrite compose_length|apply seq_length|]. intros i Hi. rewrite compose_nth, seq_nth by lia. cbn [plus].
    pose proof (perm_nth_lt _ _ _ H Hi) as B. destruct (Hq _ B) as [A1 A2]. apply (proj1 (NoDup_nth p 0%nat) ND); lia.
  - apply (perm_list_ext _ _ k); [now rewrite compose_length|apply seq_length|]. intros i Hi. rewrite compose_nth, seq_nth by lia. apply (Hq i Hi).
Qed.

(** ** One server *)
Lemma mix_keys S H s nk nv rn fk fv extra : suite_ok S -> in_group S (sv_pub s) -> all_group S nk -> (2 <= length nk)%nat ->
  mix S H s nk nv rn = Some (fk, fv, extra) -> fk = map (at_ nk) (draw_perm (srU rn) (length nk)).
Proof.
  intros OK Hpub GK K E. unfold mix in E. destruct (Nat.leb_spec (length nk) 1) as [L1|L1]; [lia|].
  set (k := length nk) in *. set (Xori := tab k (fun _ => pt_mul_base S (sv_priv s))) in *.
  destruct (shuffle S (sG S) (sv_pub s) Xori nk (srU rn) (srBeta rn)) as [sh|] eqn:ES; [|discriminate].
  destruct (ps_prove S H k (shPi sh) (sG S) (sv_pub s) (srBeta rn) Xori nk (srPs rn)) as [pf|] eqn:EP; [|discriminate].
  assert (HG : in_group S (sG S)) by (now apply in_group_G).
  rewrite (convert_spec S OK _ _ _ _ _ _ _ HG Hpub GK ES) in E.
  destruct (shuffle_spec S _ _ _ _ _ _ _ HG Hpub ES) as (_ & _ & _ & Epi & _).
  assert (LX : length Xori = k) by apply tab_length. rewrite LX in Epi. rewrite Epi in E.
  destruct (non_nil _); [|discriminate]. now injection E.
Qed.
Lemma ann_keys S H s p rn g keys vals GT HT s' m : suite_ok S -> server_ok S s -> carries S p keys vals GT HT -> carries_g S p g -> in_group S g ->
  table_ok S keys vals GT HT -> (2 <= length keys)%nat -> sv_announcement S H s p rn = Some (s', [m]) ->
  get_bytes (mParams m) "keys"%str =
    Some (enc_points S (map (at_ (map (fun k => pt_mul S k (sv_roundkey s)) keys)) (draw_perm (srU rn) (length keys)))).
Proof.
  intros OK SO C Cg Hg T K E. pose proof T as T0. destruct T as [TA TB TC TD TE TF].
  destruct (carries_dec S OK p keys vals GT HT C T0) as (bk & bv & bG & bH & A1 & A2 & A3 & A4 & A5 & A6 & A7 & A8).
  unfold sv_announcement in E. rewrite A1, A2, A3, A4, A5, A6, A7, A8 in E.
  match type of E with (match ?t with _ => _ end) = _ => destruct t as [g'|] eqn:EG; [|discriminate] end.
  set (nk := map (fun k => pt_mul S k (sv_roundkey s)) keys) in *.
  rewrite (scale_vals_spec S) in E by assumption.
  destruct (mix S H s nk _ rn) as [[[fk fv] extra]|] eqn:EM; [|discriminate].
  injection E as _ <-. cbn [mParams].
  assert (Hpub : in_group S (sv_pub s)) by (rewrite (s_pub S s SO); unfold pt_mul_base, pt_mul; in_grp; apply (in_group_G S OK)).
  assert (GK : Forall (in_group S) nk) by (now apply Forall_pt_mul).
  assert (LN : length nk = length keys) by apply map_length.
  apply mix_keys in EM; [|assumption|assumption|now apply all_group_forall|lia]. rewrite LN in EM. subst fk. reflexivity.
Qed.

(** ** The chain *)
(** The keys leave the chain raised to all round keys, in the order that the shuffles of the
    servers compose to. *)
Theorem C116_order : forall S H, suite_ok S -> forall l p p', passes S H l p p' -> forall keys vals GT HT g,
  Forall (fun sr => server_ok S (fst sr)) l -> carries S p keys vals GT HT -> carries_g S p g -> in_group S g ->
  table_ok S keys vals GT HT -> (2 <= length keys)%nat ->
  get_bytes p' "keys"%str = Some (enc_points S (map (fun i => raised S l (at_ keys i)) (order (length keys) (streams l)))).
Proof.
  intros S H OK l p p' P. induction P as [p|s rn l p s' m p' E P IH]; intros keys vals GT HT g F C Cg Hg T K.
  - cbn [streams map order]. destruct C as (C1 & _). rewrite C1. unfold raised. cbn [fold_left]. do 2 f_equal. symmetry. apply map_at_seq.
  - inversion F as [|? ? SO F']; subst. cbn [fst] in SO.
    pose proof (ann_keys S H s p rn g keys vals GT HT s' m OK SO C Cg Hg T K E) as EK.
    destruct (ann_step S OK H s p rn g keys vals GT HT s' [m] SO C Cg Hg T E) as (fk & fv & extra & EO & PC & T' & _).
    injection EO as ->. cbn [mParams] in *.
    set (nk := map (fun k => pt_mul S k (sv_roundkey s)) keys) in *. set (pi := draw_perm (srU rn) (length keys)) in *.
    pose proof (draw_perm_perm (srU rn) (length keys)) as PP. fold pi in PP.
    assert (LN : length nk = length keys) by apply map_length.
    assert (GN : Forall (in_group S) nk) by (apply Forall_pt_mul; [assumption|apply T]).
    assert (PK : Permutation (map (at_ nk) pi) nk).
    { eapply Permutation_trans; [apply Permutation_map; exact PP|]. rewrite <- LN. now rewrite map_at_seq. }
    assert (Ef : fk = map (at_ nk) pi).
    { assert (X : Some (enc_points S fk) = Some (enc_points S (map (at_ nk) pi))) by exact EK. injection X as X.
      assert (Y : dec_points S (enc_points S fk) = dec_points S (enc_points S (map (at_ nk) pi))) by now rewrite X.
      rewrite !(dec_enc_points S OK) in Y; [now injection Y|eapply Permutation_Forall; [symmetry; exact PK|exact GN]|apply T']. }
    assert (Lf : length fk = length keys) by (rewrite Ef, map_length; apply (perm_length _ _ PP)).
    rewrite (IH fk fv (pt_mul S GT (srE rn)) (pt_mul S HT (srE rn)) (pt_mul S g (sv_roundkey s)) F').
    + f_equal. f_equal. rewrite Lf. cbn [streams map order snd]. fold (streams l). unfold compose. rewrite map_map. apply map_ext_in. intros i Hi.
      assert (Bi : (i < length keys)%nat).
      { apply (Permutation_in _ (order_perm (length keys) (streams l))), in_seq in Hi. lia. }
      unfold raised. cbn [fold_left fst]. f_equal. rewrite Ef. unfold at_.
      rewrite (nth_indep _ 0 (at_ nk 0%nat)) by (rewrite map_length, (perm_length _ _ PP); lia).
      rewrite map_nth. unfold at_.
      pose proof (perm_nth_lt _ _ _ PP Bi) as Bp. unfold nk.
      rewrite (nth_indep _ 0 (pt_mul S 0 (sv_roundkey s))) by (rewrite map_length; lia).
      now rewrite (map_nth (fun k => pt_mul S k (sv_roundkey s))).
    + repeat split; reflexivity.
    + right. split; reflexivity.
    + unfold pt_mul. in_grp.
    + exact T'.
    + lia.
Qed.

(** The values go with their keys, each raised to all the exponents that the servers drew. *)
Definition blinded (S : suite) (l : list (server * sv_rand)) (x : Z) : Z :=
  fold_left (fun x sr => pt_mul S x (srE (snd sr))) l x.
(** A round end passes through a chain of servers. *)
Inductive returns (S : suite) (H : oracle) : list (server * sv_rand) -> params -> params -> Prop :=
| r_out p : returns S H [] p p
| r_next s rn l p s' m p' : sv_round_end S H s p rn = Some (s', [m]) -> returns S H l (mParams m) p' ->
    returns S H ((s, rn) :: l) p p'.

Lemma at_map (l : list Z) pi i : (i < length pi)%nat -> at_ (map (at_ l) pi) i = at_ l (nth i pi 0%nat).
Proof. intros Hi. unfold at_ at 1. rewrite (nth_indep _ 0 (at_ l 0%nat)) by now rewrite map_length. now rewrite map_nth. Qed.
Lemma at_mapf (f : Z -> Z) (l : list Z) i : (i < length l)%nat -> at_ (map f l) i = f (at_ l i).
Proof. intros Hi. unfold at_. rewrite (nth_indep _ 0 (f 0)) by now rewrite map_length. now rewrite map_nth. Qed.
Lemma mix_order S H s nk nv a b rn fk fv extra : suite_ok S -> sv_pub s = pt_mul_base S (sv_priv s) -> table_ok S nk nv a b -> (2 <= length nk)%nat ->
  mix S H s nk nv rn = Some (fk, fv, extra) ->
  let pi := draw_perm (srU rn) (length nk) in fk = map (at_ nk) pi /\ fv = map (at_ nv) pi /\ table_ok S fk fv a b.
Proof.
  intros OK O1 T K E pi. pose proof T as T0. destruct T as [TA TB TC TD TE TF].
  assert (Hpub : in_group S (sv_pub s)) by (rewrite O1; unfold pt_mul_base, pt_mul; in_grp; apply (in_group_G S OK)).
  assert (AG : all_group S nk) by now apply all_group_forall.
  pose proof (mix_keys S H s nk nv rn fk fv extra OK Hpub AG K E) as EK. fold pi in EK.
  destruct (mix_spec S OK H s nk nv rn fk fv extra Hpub AG TC TD E) as (_ & pi' & PP & EK' & EV).
  destruct (mix_table S OK H s nk nv a b rn fk fv extra O1 T0 E) as (_ & T' & _).
  pose proof (draw_perm_perm (srU rn) (length nk)) as PD. fold pi in PD.
  assert (X : pi' = pi).
  { apply (perm_list_ext _ _ (length nk)); [now apply perm_length|now apply perm_length|]. intros i Hi.
    pose proof (perm_nth_lt _ _ _ PP Hi). pose proof (perm_nth_lt _ _ _ PD Hi).
    assert (Y : at_ (map (at_ nk) pi') i = at_ (map (at_ nk) pi) i) by congruence.
    rewrite !at_map in Y by (rewrite (perm_length _ (length nk)); [exact Hi|assumption]).
    now apply (proj1 (NoDup_nth nk 0) TC). }
  subst pi'. split; [exact EK|]. split; [exact EV|exact T'].
Qed.
Lemma ann_table S H s p rn g keys vals GT HT s' m : suite_ok S -> server_ok S s -> carries S p keys vals GT HT -> carries_g S p g -> in_group S g ->
  table_ok S keys vals GT HT -> (2 <= length keys)%nat -> sv_announcement S H s p rn = Some (s', [m]) ->
  let pi := draw_perm (srU rn) (length keys) in
  let fk := map (at_ (map (fun k => pt_mul S k (sv_roundkey s)) keys)) pi in let fv := map (at_ (map (fun v => pt_mul S v (srE rn)) vals)) pi in
  carries S (mParams m) fk fv (pt_mul S GT (srE rn)) (pt_mul S HT (srE rn)) /\ table_ok S fk fv (pt_mul S GT (srE rn)) (pt_mul S HT (srE rn)) /\
  exists g', carries_g S (mParams m) g' /\ in_group S g'.
Proof.
  intros OK SO C Cg Hg T K E pi fk0 fv0. pose proof T as T0. destruct T as [TA TB TC TD TE TF].
  destruct (ann_step S OK H s p rn g keys vals GT HT s' [m] SO C Cg Hg T0 E) as (ak & av & ax & EO & _). injection EO as EO.
  destruct (carries_dec S OK p keys vals GT HT C T0) as (bk & bv & bG & bH & A1 & A2 & A3 & A4 & A5 & A6 & A7 & A8).
  unfold sv_announcement in E. rewrite A1, A2, A3, A4, A5, A6, A7, A8 in E.
  match type of E with (match ?t with _ => _ end) = _ => destruct t as [g'|] eqn:EG; [|discriminate] end.
  rewrite (scale_vals_spec S) in E by assumption.
  set (nk := map (fun k => pt_mul S k (sv_roundkey s)) keys) in *. set (nv := map (fun v => pt_mul S v (srE rn)) vals) in *.
  destruct (mix S H s nk nv rn) as [[[fk fv] extra]|] eqn:EM; [|discriminate]. injection E as _ E.
  assert (LN : length nk = length keys) by apply map_length.
  assert (TN : table_ok S nk nv (pt_mul S GT (srE rn)) (pt_mul S HT (srE rn))).
  { constructor; [now apply Forall_pt_mul|now apply Forall_pt_mul|apply (NoDup_pt_mul S OK); [apply SO|assumption..]|unfold nk, nv; now rewrite !map_length|unfold pt_mul; in_grp|unfold pt_mul; in_grp]. }
  destruct (mix_order S H s nk nv _ _ rn fk fv extra OK (s_pub S s SO) TN ltac:(lia) EM) as (F1 & F2 & F3). rewrite LN in F1, F2. fold pi in F1, F2.
  fold fk0 in F1. fold fv0 in F2. subst fk fv. split; [subst m; repeat split; reflexivity|]. split; [exact F3|].
  exists (pt_mul S g (sv_roundkey s)). split; [right; rewrite EO; split; reflexivity|unfold pt_mul; in_grp].
Qed.
Theorem C116_values : forall S H, suite_ok S -> forall l p p', passes S H l p p' -> forall keys vals GT HT g,
  Forall (fun sr => server_ok S (fst sr)) l -> carries S p keys vals GT HT -> carries_g S p g -> in_group S g ->
  table_ok S keys vals GT HT -> (2 <= length keys)%nat ->
  get_bytes p' "vals"%str = Some (enc_points S (map (fun i => blinded S l (at_ vals i)) (order (length keys) (streams l)))).
Proof.
  intros S H OK l p p' P. induction P as [p|s rn l p s' m p' E P IH]; intros keys vals GT HT g F C Cg Hg T K.
  - cbn [streams map order]. destruct C as (_ & C1 & _). rewrite C1. unfold blinded. cbn [fold_left]. do 2 f_equal. symmetry.
    rewrite <- (t_len _ _ _ _ _ T). apply map_at_seq.
  - inversion F as [|? ? SO F']; subst. cbn [fst] in SO.
    destruct (ann_table S H s p rn g keys vals GT HT s' m OK SO C Cg Hg T K E) as (C' & T' & g' & Cg' & Hg').
    set (pi := draw_perm (srU rn) (length keys)) in *. pose proof (draw_perm_perm (srU rn) (length keys)) as PP. fold pi in PP.
    pose proof (perm_length _ _ PP) as LP. pose proof (t_len _ _ _ _ _ T) as TL.
    rewrite (IH _ _ _ _ g' F' C' Cg' Hg' T') by (rewrite map_length; lia).
    do 2 f_equal. rewrite map_length, LP. cbn [streams map order snd]. fold (streams l). unfold compose. rewrite map_map. apply map_ext_in. intros i Hi.
    apply (Permutation_in _ (order_perm (length keys) (streams l))), in_seq in Hi. pose proof (perm_nth_lt pi (length keys) i PP ltac:(lia)).
    unfold blinded. cbn [fold_left snd]. f_equal. rewrite at_map by lia. fold pi. apply at_mapf. lia.
Qed.
(** At the end of a round the keys come back as they were before the chain raised them, again
    in the order that the shuffles compose to, and the values with them. *)
Theorem C116_back : forall S H, suite_ok S -> forall l p p', returns S H l p p' -> forall keys vals GT HT,
  Forall (fun sr => server_ok S (fst sr)) l -> carries S p keys vals GT HT -> table_ok S keys vals GT HT -> (2 <= length keys)%nat ->
  exists okeys, Forall (in_group S) okeys /\ keys = map (raised S (rev l)) okeys /\
    get_bytes p' "keys"%str = Some (enc_points S (map (at_ okeys) (order (length keys) (streams l)))) /\
    get_bytes p' "vals"%str = Some (enc_points S (map (fun i => blinded S l (at_ vals i)) (order (length keys) (streams l)))).
Proof.
  intros S H OK l p p' P. induction P as [p|s rn l p s' m p' E P IH]; intros keys vals GT HT F C T K.
  - exists keys. split; [apply T|]. cbn [streams map order rev]. destruct C as (C0 & C1 & _). rewrite C0, C1. split; [symmetry; apply map_id|].
    split; do 2 f_equal; symmetry; [apply map_at_seq|]. rewrite <- (t_len _ _ _ _ _ T). apply map_at_seq.
  - inversion F as [|? ? SO F']; subst. cbn [fst] in SO. pose proof T as T0. destruct T as [TA TB TC TD TE TF].
    destruct (carries_dec S OK p keys vals GT HT C T0) as (bk & bv & bG & bH & A1 & A2 & A3 & A4 & A5 & A6 & A7 & A8).
    unfold sv_round_end in E. rewrite A1, A2, A3, A4, A5, A6, A7, A8 in E.
    destruct (if has_key p "is_start"%str then Some tt else verify_neff S H p); [|discriminate].
    rewrite (scale_vals_spec S) in E by assumption. set (nv := map (fun v => pt_mul S v (srE rn)) vals) in *.
    destruct (non_nil (map (fun k => mget (sv_keymap s) k) keys)) as [nk|] eqn:EN; [|discriminate].
    assert (NK : keys = map (fun k => pt_mul S k (sv_roundkey s)) nk /\ Forall (in_group S) nk).
    { unfold non_nil in EN. apply dec_all_spec in EN. clear - EN SO. revert nk EN.
      induction keys as [|k r IHk]; intros nk EN; cbn [map] in EN; inversion EN as [|? b ? nk' E1 E2]; subst; [split; [reflexivity|constructor]|].
      destruct (s_km S s SO _ _ E1) as [Gb ->]. destruct (IHk _ E2) as [-> Fr]. split; [reflexivity|now constructor]. }
    destruct NK as [NK GN].
    destruct (mix S H s nk nv rn) as [[[fk fv] extra]|] eqn:EM; [|discriminate]. injection E as _ <-. cbn [mParams] in *.
    assert (LN : length nk = length keys) by (rewrite NK; now rewrite map_length).
    assert (TN : table_ok S nk nv (pt_mul S GT (srE rn)) (pt_mul S HT (srE rn))).
    { constructor; [exact GN|now apply Forall_pt_mul|rewrite NK in TC; now apply NoDup_map_inv in TC|unfold nv; rewrite map_length; lia|unfold pt_mul; in_grp|unfold pt_mul; in_grp]. }
    destruct (mix_order S H s nk nv _ _ rn fk fv extra OK (s_pub S s SO) TN ltac:(lia) EM) as (F1 & F2 & F3). rewrite LN in F1, F2.
    set (pi := draw_perm (srU rn) (length keys)) in *. pose proof (draw_perm_perm (srU rn) (length keys)) as PP. fold pi in PP.
    pose proof (perm_length _ _ PP) as LP.
    assert (Lf : length fk = length keys) by (rewrite F1, map_length; exact LP).
    destruct (IH fk fv (pt_mul S GT (srE rn)) (pt_mul S HT (srE rn)) F') as (ok & GO & EO & EK & EV); [repeat split; reflexivity|exact F3|lia|].
    rewrite Lf in EK, EV.
    assert (LO : length ok = length keys) by (rewrite <- Lf, EO; now rewrite map_length).
    destruct (inverse pi (length keys) PP) as (q & PQ & Q1 & Q2). pose proof (perm_length _ _ PQ) as LQ.
    exists (map (at_ ok) q). split; [|split; [|split]].
    + eapply Permutation_Forall; [|exact GO]. apply Permutation_sym. eapply Permutation_trans; [apply Permutation_map; exact PQ|]. rewrite <- LO. now rewrite map_at_seq.
    + rewrite NK at 1. cbn [rev]. rewrite map_map.
      transitivity (map (fun j => pt_mul S (at_ nk j) (sv_roundkey s)) (seq 0 (length keys))).
      { rewrite <- (map_map (at_ nk) (fun k => pt_mul S k (sv_roundkey s))). rewrite <- LN. now rewrite map_at_seq. }
      rewrite <- Q2. unfold compose. rewrite map_map. apply map_ext_in. intros j Hj.
      apply (Permutation_in _ PQ), in_seq in Hj. unfold raised. rewrite fold_left_app. cbn [fold_left fst]. f_equal.
      transitivity (at_ fk j); [rewrite F1, at_map by lia; reflexivity|]. rewrite EO, at_mapf by lia. reflexivity.
    + rewrite EK. do 2 f_equal. cbn [streams map order snd]. fold (streams l). unfold compose. rewrite map_map. apply map_ext_in. intros i Hi.
      apply (Permutation_in _ (order_perm (length keys) (streams l))), in_seq in Hi. pose proof (perm_nth_lt pi (length keys) i PP ltac:(lia)) as Bp. fold pi.
      rewrite at_map by lia. f_equal. rewrite <- compose_nth by lia. rewrite Q1. now rewrite seq_nth by lia.
    + rewrite EV. do 2 f_equal. cbn [streams map order snd]. fold (streams l). unfold compose. rewrite map_map. apply map_ext_in. intros i Hi.
      apply (Permutation_in _ (order_perm (length keys) (streams l))), in_seq in Hi. pose proof (perm_nth_lt pi (length keys) i PP ltac:(lia)) as Bp. fold pi.
      unfold blinded. cbn [fold_left snd]. f_equal. rewrite F2, at_map by lia. apply at_mapf. lia.
Qed.

(** ** One server that draws suffices *)
(** The sequences of words of one server with which the chain as a whole gives the order [p],
    when the servers before it have drawn [us] and those after it [us']. *)
Definition ways_chain (k : nat) (us us' : list (nat -> Z)) (p : list nat) (L : list (list Z)) : Prop :=
  NoDup L /\ forall ws, In ws L <-> length ws = (k - 1)%nat /\ Forall is_word ws /\ order k (us ++ words ws :: us') = p.

Lemma sandwich a b p k : Permutation a (seq 0 k) -> Permutation b (seq 0 k) -> Permutation p (seq 0 k) ->
  exists q, Permutation q (seq 0 k) /\ forall x, Permutation x (seq 0 k) -> (compose a (compose x b) = p <-> x = q).
Proof.
  intros Ha Hb Hp. destruct (inverse a k Ha) as (a' & Pa & A1 & A2). destruct (inverse b k Hb) as (b' & Pb & B1 & B2).
  exists (compose a' (compose p b')). split; [now repeat apply compose_perm|]. intros x Hx.
  pose proof (perm_length _ _ Hx) as Lx. pose proof (perm_length _ _ Ha) as La. pose proof (perm_length _ _ Pa) as La'.
  pose proof (perm_length _ _ Hb) as Lb. pose proof (perm_length _ _ Hp) as Lp.
  split.
  - intros <-. rewrite (compose_assoc a' _ _ k); [|now rewrite !compose_length|exact Pb].
    rewrite (compose_assoc a' a _ k) by (try exact La; now apply compose_perm). rewrite A1.
    rewrite (compose_id_l _ k) by now apply compose_perm. rewrite <- (compose_assoc x b b' k) by assumption. rewrite B2. symmetry. now apply compose_id_r.
  - intros ->. rewrite (compose_assoc a _ b k); [|now rewrite !compose_length; apply (perm_length _ _ Pb)|exact Hb].
    rewrite (compose_assoc a a' _ k) by (try exact La'; now apply compose_perm). rewrite A2.
    rewrite (compose_id_l _ k) by now apply compose_perm. rewrite <- (compose_assoc p b' b k) by (try exact Hb; apply (perm_length _ _ Pb)). rewrite B1. now apply compose_id_r.
Qed.
Lemma ways_chain_lloop k us us' p : (2 <= k)%nat -> Permutation p (seq 0 k) -> exists q, Permutation q (seq 0 k) /\
  forall ws, length ws = (k - 1)%nat -> (order k (us ++ words ws :: us') = p <-> lloop ws (seq 0 k) = q).
Proof.
  intros K Hp. destruct (sandwich (order k us) (order k us') p k (order_perm _ _) (order_perm _ _) Hp) as (q & Hq & E).
  exists q. split; [exact Hq|]. intros ws LW. rewrite order_app. cbn [order]. rewrite E by apply draw_perm_perm.
  unfold draw_perm. rewrite <- LW, loop_words. reflexivity.
Qed.
(** Whatever the other servers draw, before and after, every order comes about in nearly the
    same number of ways. *)
Theorem C116_one_suffices : forall k us us' p L, (2 <= k)%nat -> Z.of_nat k < 2 ^ 64 -> Permutation p (seq 0 k) -> ways_chain k us us' p L ->
  product (fun i => 2 ^ 64 / (i + 1)) (k - 1) <= Z.of_nat (length L) <= product (fun i => 2 ^ 64 / (i + 1) + 1) (k - 1).
Proof.
  intros k us us' p L K B Hp [ND HL]. destruct (ways_chain_lloop k us us' p K Hp) as (q & Hq & E).
  assert (LR : length (repeat 0 k) = k) by apply repeat_length.
  pose proof (C115_nearly_equal toy_suite 0 0 (repeat 0 k) (repeat 0 k) [] q L) as X. rewrite LR in X. apply X; try assumption; [reflexivity|].
  split; [exact ND|]. intros ws. rewrite HL, LR. split; intros (L1 & F & Y); (split; [exact L1|split; [exact F|]]).
  - apply permutes_lloop; rewrite ?LR; try assumption; [reflexivity|]. now apply E.
  - apply permutes_lloop in Y; rewrite ?LR in *; try assumption; [|reflexivity]. now apply E.
Qed.
Theorem C116_ways_exist : forall k us us' p, (2 <= k)%nat -> Z.of_nat k < 2 ^ 64 -> Permutation p (seq 0 k) -> exists L, ways_chain k us us' p L.
Proof.
  intros k us us' p K B Hp. destruct (ways_chain_lloop k us us' p K Hp) as (q & Hq & E).
  assert (LR : length (repeat 0 k) = k) by apply repeat_length.
  destruct (C115_ways_exist toy_suite 0 0 (repeat 0 k) (repeat 0 k) [] q) as (L & ND & HL); rewrite ?LR; try assumption; [reflexivity|].
  exists L. split; [exact ND|]. intros ws. rewrite HL, LR. split; intros (L1 & F & Y); (split; [exact L1|split; [exact F|]]).
  - apply permutes_lloop in Y; rewrite ?LR in *; try assumption; [|reflexivity]. now apply E.
  - apply permutes_lloop; rewrite ?LR; try assumption; [reflexivity|]. now apply E.
Qed.

(** ** Instances *)
Definition blU (i : nat) : Z := match i with 2%nat => 1 | _ => 0 end.
Definition blA : sv_rand := SvRand 3 blU [7; 2; 5] toy_ps 7.
Definition blL : list (server * sv_rand) := [(toy_sA, blA); (toy_sB, toy_rn3)].
Definition blP : params := table_params toy_suite [2; 3; 8] [9; 12; 13] 4 8.
(** Two servers that shuffle three keys differently: the keys come out in the composed order,
    which is not the order they went in. *)
Example C116_instance : exists p', passes toy_suite toy_oracle blL blP p' /\
  Forall (fun sr => server_ok toy_suite (fst sr)) blL /\ carries toy_suite blP [2; 3; 8] [9; 12; 13] 4 8 /\ carries_g toy_suite blP 4 /\
  in_group toy_suite 4 /\ table_ok toy_suite [2; 3; 8] [9; 12; 13] 4 8 /\
  draw_perm blU 3 <> draw_perm toy_u 3 /\ order 3 (streams blL) <> seq 0 3 /\
  get_bytes p' "keys"%str = Some (enc_points toy_suite (map (fun i => raised toy_suite blL (at_ [2; 3; 8] i)) (order 3 (streams blL)))).
Proof.
  assert (G : forall x, In x [2; 3; 8; 9; 12; 13; 4] -> in_group toy_suite x).
  { intros x I. repeat (destruct I as [<-|I]; [split; [cbn; lia|reflexivity]|]). destruct I. }
  assert (F : Forall (fun sr => server_ok toy_suite (fst sr)) blL).
  { unfold blL. apply Forall_cons; [|apply Forall_cons; [|apply Forall_nil]]; cbn [fst];
      (constructor; [reflexivity| |intros a b X; discriminate X]; apply Zgcd_1_rel_prime; reflexivity). }
  assert (C : carries toy_suite blP [2; 3; 8] [9; 12; 13] 4 8) by (repeat split; reflexivity).
  assert (Cg : carries_g toy_suite blP 4) by (left; split; reflexivity).
  assert (T : table_ok toy_suite [2; 3; 8] [9; 12; 13] 4 8).
  { constructor; try reflexivity; try (apply G; cbn; tauto); try (repeat constructor; apply G; cbn; tauto).
    repeat constructor; cbn; intuition discriminate. }
  destruct (sv_announcement toy_suite toy_oracle toy_sA blP blA) as [[sA' [|m [|? ?]]]|] eqn:E1; try (vm_compute in E1; discriminate E1).
  destruct (sv_announcement toy_suite toy_oracle toy_sB (mParams m) toy_rn3) as [[sB' [|m' [|? ?]]]|] eqn:E2;
    try (exfalso; vm_compute in E1; injection E1 as _ <-; vm_compute in E2; discriminate E2).
  assert (P : passes toy_suite toy_oracle blL blP (mParams m')) by (eapply p_next; [exact E1|]; eapply p_next; [exact E2|]; constructor).
  exists (mParams m'). split; [exact P|]. do 3 (split; [assumption|]). split; [apply G; cbn; tauto|]. split; [exact T|].
  split; [vm_compute; discriminate|]. split; [vm_compute; discriminate|].
  apply (C116_order _ _ toy_ok _ _ _ P [2; 3; 8] [9; 12; 13] 4 8 4); try assumption; [apply G; cbn; tauto|cbn; lia].
Qed.
(** The same table goes there and back: the keys are those that went in, in a third order. *)
Example C116_instance_back : exists sA sB p1 p2 ks, passes toy_suite toy_oracle blL blP p1 /\
  returns toy_suite toy_oracle [(sB, blA); (sA, blA)] p1 p2 /\ Forall (fun sr => server_ok toy_suite (fst sr)) [(sB, blA); (sA, blA)] /\
  get_bytes p1 "keys"%str = Some (enc_points toy_suite ks) /\
  exists o, Permutation o [2; 3; 8] /\ o <> [2; 3; 8] /\ get_bytes p2 "keys"%str = Some (enc_points toy_suite o).
Proof.
  destruct (sv_announcement toy_suite toy_oracle toy_sA blP blA) as [[sA [|m [|? ?]]]|] eqn:E1; try (vm_compute in E1; discriminate E1).
  destruct (sv_announcement toy_suite toy_oracle toy_sB (mParams m) toy_rn3) as [[sB [|m' [|? ?]]]|] eqn:E2;
    try (exfalso; vm_compute in E1; injection E1 as _ <-; vm_compute in E2; discriminate E2).
  destruct (sv_round_end toy_suite toy_oracle sB (mParams m') blA) as [[sB' [|m2 [|? ?]]]|] eqn:E3;
    try (exfalso; vm_compute in E1; injection E1 as _ <-; vm_compute in E2; injection E2 as <- <-; vm_compute in E3; discriminate E3).
  destruct (sv_round_end toy_suite toy_oracle sA (mParams m2) blA) as [[sA' [|m3 [|? ?]]]|] eqn:E4;
    try (exfalso; vm_compute in E1; injection E1 as <- <-; vm_compute in E2; injection E2 as <- <-; vm_compute in E3; injection E3 as _ <-; vm_compute in E4; discriminate E4).
  destruct C116_instance as (p' & P & F & C & Cg & Hg & T & _ & _ & EK).
  assert (P' : passes toy_suite toy_oracle blL blP (mParams m')) by (eapply p_next; [exact E1|]; eapply p_next; [exact E2|]; constructor).
  exists sA, sB, (mParams m'), (mParams m3). eexists. split; [exact P'|].
  split; [eapply r_next; [exact E3|]; eapply r_next; [exact E4|]; constructor|]. split.
  { inversion F as [|? ? SA F1]; subst. inversion F1 as [|? ? SB F2]; subst. cbn [fst] in SA, SB.
    destruct (ann_table toy_suite toy_oracle toy_sA blP blA 4 _ _ _ _ sA m toy_ok SA C Cg Hg T ltac:(cbn; lia) E1) as (C1 & T1 & g1 & Cg1 & Hg1).
    destruct (ann_step toy_suite toy_ok toy_oracle toy_sA blP blA 4 _ _ _ _ sA [m] SA C Cg Hg T E1) as (? & ? & ? & _ & _ & _ & _ & _ & OA & _).
    destruct (ann_step toy_suite toy_ok toy_oracle toy_sB (mParams m) toy_rn3 g1 _ _ _ _ sB [m'] SB C1 Cg1 Hg1 T1 E2) as (? & ? & ? & _ & _ & _ & _ & _ & OB & _).
    apply Forall_cons; [exact OB|]. apply Forall_cons; [exact OA|apply Forall_nil]. }
  split; [apply (C116_order _ _ toy_ok _ _ _ P' [2; 3; 8] [9; 12; 13] 4 8 4); try assumption; cbn; lia|].
  vm_compute in E1; injection E1 as <- <-; vm_compute in E2; injection E2 as <- <-; vm_compute in E3; injection E3 as _ <-; vm_compute in E4; injection E4 as _ <-.
  match goal with |- exists o, _ /\ _ /\ get_bytes ?p _ = _ =>
    let d := eval vm_compute in (match get_bytes p "keys"%str with Some b => match dec_points toy_suite b with Some o => o | None => [] end | None => [] end) in exists d end.
  split; [|split; [discriminate|vm_compute; reflexivity]].
  apply NoDup_Permutation; [repeat constructor; cbn; intuition discriminate|repeat constructor; cbn; intuition discriminate|intros x; cbn; tauto].
Qed.
(** With two keys, and a server before and one after that do not draw: both orders. *)
Example C116_instance_ways : exists L L', ways_chain 2 [blU] [toy_u] [0; 1]%nat L /\ ways_chain 2 [blU] [toy_u] [1; 0]%nat L' /\
  Z.of_nat (length L) >= 2 ^ 63 /\ Z.of_nat (length L') >= 2 ^ 63.
Proof.
  assert (P : Permutation [1; 0]%nat (seq 0 2)) by apply perm_swap.
  destruct (C116_ways_exist 2 [blU] [toy_u] [0; 1]%nat) as (L & HL); [lia|reflexivity|reflexivity|].
  destruct (C116_ways_exist 2 [blU] [toy_u] [1; 0]%nat) as (L' & HL'); [lia|reflexivity|exact P|].
  exists L, L'. split; [exact HL|]. split; [exact HL'|].
  apply C116_one_suffices in HL; [|lia|reflexivity|reflexivity]. apply C116_one_suffices in HL'; [|lia|reflexivity|exact P].
  change (product _ (2 - 1)) with (2 ^ 63) in HL at 1. change (product _ (2 - 1)) with (2 ^ 63) in HL' at 1. lia.
Qed.

Print Assumptions C116_order.
Print Assumptions C116_values.
Print Assumptions C116_back.
Print Assumptions C116_one_suffices.
Print Assumptions C116_ways_exist.
