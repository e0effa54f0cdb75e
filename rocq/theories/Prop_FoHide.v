(** C102: what a Fujisaki-Okamoto commitment (FujiOkamCommitment.go:355-366) tells about the
    committed integer, and whom it binds. *)
From Coq Require Import ZArith Znumtheory Lia List Bool.
From Verif Require Import ZMod Bytes Suite Spec FujiOkam ThreeSquares Prop_FujiOkam.
Import ListNotations.
Open Scope Z_scope.

(** ** Specification *)
(** The draws of Commit: [l] lists, each once, the random integers u in [0, RandomDiameter)
    with which Commit(x) returns the commitment c. *)
Definition draws_for (fb : fobase) (x c : Z) (l : list Z) : Prop :=
  NoDup l /\ forall u, In u l <-> 0 <= u < 2 ^ 81 * fN fb /\ fst (fo_commit fb x u) = c.
(** [a] is a discrete logarithm of G1 to the base H1 (the coordinator's trapdoor). *)
Definition trapdoor (fb : fobase) (a : Z) : Prop := is_power (fN fb) (fH1 fb) a (fG1 fb).
(** [e] is a multiple of the order of H1. *)
Definition order_multiple (fb : fobase) (e : Z) : Prop := is_power (fN fb) (fH1 fb) e 1.

(** ** Orders *)
Lemma zexp_diff n h i j : 1 < n -> unit h n -> zexp n h i = zexp n h j -> zexp n h (j - i) = 1.
Proof.
  intros Hn U E. replace (j - i) with (j + - i) by ring. rewrite zexp_add by assumption. rewrite <- E. now apply zexp_opp.
Qed.

Lemma has_period n h : 1 < n -> unit h n -> exists e, 0 < e <= n /\ zexp n h e = 1.
Proof.
  intros Hn U. set (k := Z.to_nat n). set (f := fun i : nat => zexp n h (Z.of_nat i)).
  destruct (ListDec.NoDup_dec Z.eq_dec (map f (seq 0 (S k)))) as [D|D].
  - exfalso. assert (I : incl (map f (seq 0 (S k))) (map Z.of_nat (seq 0 k))).
    { intros y Iy. apply in_map_iff in Iy as (i & <- & _). apply in_map_iff. exists (Z.to_nat (f i)).
      pose proof (zexp_range n h (Z.of_nat i) ltac:(lia)) as R. fold (f i) in R. split; [lia|]. apply in_seq. subst k. lia. }
    apply NoDup_incl_length in I; [|exact D]. rewrite !map_length, !seq_length in I. lia.
  - assert (X : exists i j, (i < j < S k)%nat /\ f i = f j).
    { assert (G : forall m s, ~ NoDup (map f (seq s m)) -> exists i j, (i < j < s + m)%nat /\ f i = f j); [|now apply (G (S k) 0%nat)].
      clear D. intros m. induction m as [|m IH]; intros s D; [exfalso; apply D; constructor|].
      cbn [seq map] in D. destruct (in_dec Z.eq_dec (f s) (map f (seq (S s) m))) as [I|I].
      - apply in_map_iff in I as (j & E & Ij). apply in_seq in Ij. exists s, j. split; [lia|congruence].
      - destruct (IH (S s)) as (i & j & L & E); [intros D'; apply D; now constructor|]. exists i, j. split; [lia|assumption]. }
    destruct X as (i & j & L & E). exists (Z.of_nat j - Z.of_nat i). subst k. split; [lia|]. now apply zexp_diff.
Qed.

Lemma order_exists n h : 1 < n -> unit h n -> exists o, 0 < o <= n /\ forall e, zexp n h e = 1 <-> (o | e).
Proof.
  intros Hn U. destruct (has_period n h Hn U) as (e0 & P0 & E0).
  assert (M : exists o, 0 < o <= n /\ zexp n h o = 1 /\ forall d, 0 < d < o -> zexp n h d <> 1).
  { revert P0 E0. pattern e0. apply (well_founded_ind (Z.lt_wf 0)). clear e0. intros e IH P E.
    assert (DD : (exists d, 0 < d < e /\ zexp n h d = 1) \/ forall d, 0 < d < e -> zexp n h d <> 1).
    { destruct (existsb (fun i => (zexp n h (Z.of_nat i) =? 1) && (0 <? Z.of_nat i))%bool (seq 0 (Z.to_nat e))) eqn:B.
      - left. apply existsb_exists in B as (i & I & B). apply andb_true_iff in B as [B1 B2]. apply Z.eqb_eq in B1. apply Z.ltb_lt in B2.
        apply in_seq in I. exists (Z.of_nat i). split; [lia|assumption].
      - right. intros d Hd X. assert (existsb (fun i => (zexp n h (Z.of_nat i) =? 1) && (0 <? Z.of_nat i))%bool (seq 0 (Z.to_nat e)) = true); [|congruence].
        apply existsb_exists. exists (Z.to_nat d). split; [apply in_seq; lia|]. rewrite Z2Nat.id by lia. rewrite X, Z.eqb_refl. apply Z.ltb_lt. lia. }
    destruct DD as [(d & Hd & X)|N]; [apply (IH d); lia || assumption|]. now exists e. }
  destruct M as (o & Ro & Eo & Mo). pose proof (proj1 Ro) as Po. exists o. split; [assumption|]. intros e. split; intros H.
  - destruct (Z.eq_dec (e mod o) 0) as [R|R]; [now apply Z.mod_divide; [lia|]|]. exfalso.
    pose proof (Z.mod_pos_bound e o Po). apply (Mo (e mod o)); [lia|]. now rewrite zexp_mod_order.
  - rewrite <- (zexp_mod_order n h o) by (assumption || lia). apply Z.mod_divide in H; [|lia]. rewrite H. now apply zexp_0.
Qed.

(** ** Counting the members of a residue class in an interval *)
Lemma class_count o s L l : 0 < o -> 0 <= L -> NoDup l ->
  (forall u, In u l <-> 0 <= u < L /\ (o | u - s)) -> L / o <= Z.of_nat (length l) <= L / o + 1.
Proof.
  intros Po PL D Hl. pose proof (Z.div_pos L o PL Po) as Q0. pose proof (Z.div_mod L o ltac:(lia)) as DM. pose proof (Z.mod_pos_bound L o Po).
  pose proof (Z.div_mod s o ltac:(lia)) as DS. pose proof (Z.mod_pos_bound s o Po) as RS. split.
  - set (f := fun i : nat => s mod o + Z.of_nat i * o).
    assert (N : NoDup (map f (seq 0 (Z.to_nat (L / o))))).
    { apply FinFun.Injective_map_NoDup; [|apply seq_NoDup]. intros i j E. unfold f in E. nia. }
    apply NoDup_incl_length with (l' := l) in N.
    + rewrite map_length, seq_length in N. lia.
    + intros y Iy. apply in_map_iff in Iy as (i & <- & Ii). apply in_seq in Ii. apply Hl. unfold f. split; [nia|].
      exists (Z.of_nat i - s / o). lia.
  - set (g := fun u => u / o).
    assert (N : NoDup (map g l)).
    { clear -D Hl Po. assert (I : forall u v, In u l -> In v l -> g u = g v -> u = v).
      { intros u v Iu Iv E. apply Hl in Iu as [_ [a Ea]]. apply Hl in Iv as [_ [b Eb]]. unfold g in E.
        pose proof (Z.div_mod u o ltac:(lia)). pose proof (Z.div_mod v o ltac:(lia)).
        pose proof (Z.mod_pos_bound u o Po). pose proof (Z.mod_pos_bound v o Po).
        assert (u - v = (a - b) * o) by lia. assert (a - b = 0) by nia. nia. }
      clear Hl. induction D as [|u l Nu D IH]; cbn; constructor.
      - intros X. apply in_map_iff in X as (v & E & Iv). apply Nu. rewrite (I u v); [assumption|now left|now right|congruence].
      - apply IH. intros x y Ix Iy. apply I; now right. }
    apply NoDup_incl_length with (l' := map Z.of_nat (seq 0 (Z.to_nat (L / o + 1)))) in N.
    + rewrite !map_length, seq_length in N. lia.
    + intros y Iy. apply in_map_iff in Iy as (u & <- & Iu). apply Hl in Iu as [Hu _]. unfold g.
      pose proof (Z.div_pos u o ltac:(lia) Po). pose proof (Z.div_le_mono u L o Po ltac:(lia)).
      apply in_map_iff. exists (Z.to_nat (u / o)). split; [lia|]. apply in_seq. lia.
Qed.

Lemma trapdoor_zexp fb a : fobase_ok fb -> trapdoor fb a -> fG1 fb = zexp (fN fb) (fH1 fb) a.
Proof. intros B T. apply is_power_unique in T; [exact T|apply B|apply B]. Qed.

Lemma commit_power fb a x r : fobase_ok fb -> trapdoor fb a -> fo_commit_r fb x r = zexp (fN fb) (fH1 fb) (a * x + r).
Proof.
  intros B T. pose proof B as [HN UH U1 _ _ _ _ _]. rewrite fo_commit_zexp.
  rewrite zexp_add by assumption. rewrite (trapdoor_zexp fb a B T). now rewrite zexp_mul by assumption.
Qed.

(** ** C102 *)
(** Commitments hide: if G1 is a power of H1, then for every two integers and every
    commitment the numbers of draws with which Commit returns it are both zero, or both at
    least 2^81 and differ by at most one: what the commitment tells about the value is at
    most one part in 2^81. *)
Theorem C102_hides : forall fb a x x' c l l', fobase_ok fb -> trapdoor fb a ->
  draws_for fb x c l -> draws_for fb x' c l' ->
  (l = [] /\ l' = []) \/
  (2 ^ 81 <= Z.of_nat (length l) /\ 2 ^ 81 <= Z.of_nat (length l') /\
   Z.abs (Z.of_nat (length l) - Z.of_nat (length l')) <= 1).
Proof.
  intros fb a x x' c l l' B T [D Hl] [D' Hl']. pose proof B as [HN UH _ _ _ _ _ _].
  destruct (order_exists (fN fb) (fH1 fb) HN UH) as (o & [Po Lo] & Ho).
  assert (BL : 2 ^ 81 <= 2 ^ 81 * fN fb / o) by (apply Z.div_le_lower_bound; [exact Po|nia]).
  assert (K : forall x0 l0, NoDup l0 -> (forall u, In u l0 <-> 0 <= u < 2 ^ 81 * fN fb /\ fst (fo_commit fb x0 u) = c) ->
    forall k, zexp (fN fb) (fH1 fb) k = c -> 2 ^ 81 * fN fb / o <= Z.of_nat (length l0) <= 2 ^ 81 * fN fb / o + 1).
  { intros x0 l0 D0 H0 k Ek. apply (class_count o (k - a * x0 + fo_radius (fN fb)) (2 ^ 81 * fN fb) l0 Po ltac:(lia) D0).
    intros u. rewrite H0. unfold fo_commit, gen_random_secret. cbn [fst]. rewrite (commit_power fb a) by assumption.
    split; intros [R E]; (split; [exact R|]).
    - rewrite <- Ek in E. symmetry in E. apply zexp_diff in E; [|assumption|assumption]. apply Ho in E.
      replace (u - (k - a * x0 + fo_radius (fN fb))) with (a * x0 + (u - fo_radius (fN fb)) - k) by ring. exact E.
    - replace (u - (k - a * x0 + fo_radius (fN fb))) with (a * x0 + (u - fo_radius (fN fb)) - k) in E by ring.
      apply Ho in E. replace (a * x0 + (u - fo_radius (fN fb))) with (k + (a * x0 + (u - fo_radius (fN fb)) - k)) by ring.
      rewrite zexp_add, E by assumption. rewrite mulm_comm, mulm_1_l, Ek. apply Z.mod_small. rewrite <- Ek. apply zexp_range. lia. }
  destruct l as [|u l].
  - destruct l' as [|u' l']; [now left|]. right. destruct (proj1 (Hl' u') ltac:(now left)) as [_ E].
    unfold fo_commit in E. cbn [fst] in E. rewrite (commit_power fb a) in E by assumption.
    pose proof (K x [] D Hl _ E). pose proof (K x' (u' :: l') D' Hl' _ E). lia.
  - right. destruct (proj1 (Hl u) ltac:(now left)) as [_ E].
    unfold fo_commit in E. cbn [fst] in E. rewrite (commit_power fb a) in E by assumption.
    pose proof (K x (u :: l) D Hl _ E). pose proof (K x' l' D' Hl' _ E). lia.
Qed.

(** So it is for every base the coordinator creates from two odd primes. *)
Theorem C102_created_base_hides : forall dpa1 dqa1 draws u1 u2 u3 u4 u5 u6 fb t x x' c l l',
  prime dpa1 -> prime dqa1 -> 2 < dpa1 -> 2 < dqa1 ->
  fo_create_base dpa1 dqa1 draws u1 u2 u3 u4 u5 u6 = Some (fb, t) ->
  draws_for fb x c l -> draws_for fb x' c l' ->
  (l = [] /\ l' = []) \/
  (2 ^ 81 <= Z.of_nat (length l) /\ 2 ^ 81 <= Z.of_nat (length l') /\
   Z.abs (Z.of_nat (length l) - Z.of_nat (length l')) <= 1).
Proof.
  intros dpa1 dqa1 draws u1 u2 u3 u4 u5 u6 fb t x x' c l l' P1 P2 G1 G2 E.
  destruct (C06_create_base _ _ _ _ _ _ _ _ _ _ _ P1 P2 G1 G2 E) as (_ & _ & _ & T & _ & _ & _ & _ & _ & B).
  apply (C102_hides fb (fA1 t)); assumption.
Qed.

(** Without the trapdoor's existence, which is what a client's generator check (C10, C11) is
    about, a commitment may tell: if G1^(x-x') is not a power of H1, no commitment can be
    opened to both x and x'. *)
Theorem C102_needs_generator : forall fb x r x' r' c, fobase_ok fb ->
  commits_int (fN fb) (fG1 fb) (fH1 fb) x r c -> commits_int (fN fb) (fG1 fb) (fH1 fb) x' r' c ->
  exists e y, is_power (fN fb) (fG1 fb) (x - x') y /\ is_power (fN fb) (fH1 fb) e y.
Proof.
  intros fb x r x' r' c B H1 H2. pose proof B as [HN UH U1 _ _ _ _ _]. apply commits_int_iff in H1, H2; try assumption. rewrite H1, !fo_commit_zexp in H2.
  exists (r' - r), (zexp (fN fb) (fG1 fb) (x - x')). split; [now apply zexp_is_power|].
  replace (zexp (fN fb) (fG1 fb) (x - x')) with (zexp (fN fb) (fH1 fb) (r' - r)); [now apply zexp_is_power|].
  replace (zexp (fN fb) (fH1 fb) (r' - r)) with (mulm (fN fb) (mulm (fN fb) (zexp (fN fb) (fG1 fb) x') (zexp (fN fb) (fH1 fb) r'))
    (mulm (fN fb) (zexp (fN fb) (fG1 fb) (- x')) (zexp (fN fb) (fH1 fb) (- r)))) by grp (fN fb).
  rewrite <- H2. grp (fN fb).
Qed.

(** Commitments bind whoever does not know the trapdoor: two openings with different values
    give the trapdoor, or a nonzero multiple of the order of H1. *)
Theorem C102_binds_partial : forall fb a x r x' r' c, fobase_ok fb -> trapdoor fb a ->
  commits_int (fN fb) (fG1 fb) (fH1 fb) x r c -> commits_int (fN fb) (fG1 fb) (fH1 fb) x' r' c -> x <> x' ->
  a * (x - x') = r' - r \/
  (a * (x - x') - (r' - r) <> 0 /\ order_multiple fb (a * (x - x') - (r' - r))).
Proof.
  intros fb a x r x' r' c B T H1 H2 NE. pose proof B as [HN UH U1 _ _ _ _ _]. apply commits_int_iff in H1, H2; try assumption.
  rewrite (commit_power fb a) in H1, H2 by assumption.
  destruct (Z.eq_dec (a * (x - x')) (r' - r)) as [|NZ]; [now left|]. right. split; [lia|].
  unfold order_multiple. rewrite H1 in H2. symmetry in H2. apply zexp_diff in H2; [|assumption|assumption].
  replace (a * (x - x') - (r' - r)) with (a * x + r - (a * x' + r')) by ring. rewrite <- H2. now apply zexp_is_power.
Qed.

(** C102 as stated is false for the coordinator: with the trapdoor it computed when it made
    the base it opens every commitment to every integer. *)
Theorem C102_binds_refuted : forall dpa1 dqa1 draws u1 u2 u3 u4 u5 u6 fb t x r c x',
  prime dpa1 -> prime dqa1 -> 2 < dpa1 -> 2 < dqa1 ->
  fo_create_base dpa1 dqa1 draws u1 u2 u3 u4 u5 u6 = Some (fb, t) ->
  commits_int (fN fb) (fG1 fb) (fH1 fb) x r c ->
  commits_int (fN fb) (fG1 fb) (fH1 fb) x' (r + fA1 t * (x - x')) c.
Proof.
  intros dpa1 dqa1 draws u1 u2 u3 u4 u5 u6 fb t x r c x' P1 P2 G1 G2 E H.
  destruct (C06_create_base _ _ _ _ _ _ _ _ _ _ _ P1 P2 G1 G2 E) as (_ & _ & _ & T & _ & _ & _ & _ & _ & B).
  apply commits_int_iff in H; [|assumption]. apply commits_int_iff; [assumption|].
  rewrite (commit_power fb (fA1 t)) in H |- * by assumption. rewrite H. f_equal. ring.
Qed.

(** The range of the draws: RandomDiameter is 2^81 N, and the randomness is any number of
    [-2^80 N, 2^80 N), each from one draw. *)
Theorem C102_range : forall fb x u,
  (0 <= u < fo_diameter (fN fb) <-> 0 <= u < 2 ^ 81 * fN fb) /\
  (forall r, - (2 ^ 80 * fN fb) <= r < 2 ^ 80 * fN fb <->
     exists u', 0 <= u' < fo_diameter (fN fb) /\ snd (fo_commit fb x u') = r /\
       forall u'', snd (fo_commit fb x u'') = r -> u'' = u').
Proof.
  intros fb x u. unfold fo_commit, gen_random_secret, fo_diameter, fo_radius. cbn [snd]. split; [lia|]. intros r. split.
  - intros H. exists (r + 2 ^ 80 * fN fb). repeat split; lia.
  - intros (u' & H & <- & _). lia.
Qed.

(** ** Instances *)
(** A base made from the primes 7 and 11; the draws for a commitment are those of a residue
    class, so there are lists as [draws_for] wants them. *)
Definition toy_created := fo_create_base 7 11 [1; 14; 3] (2 ^ 80 * 77 + 2) (2 ^ 80 * 77 + 3) (2 ^ 80 * 77 + 4) (2 ^ 80 * 77 + 5) (2 ^ 80 * 77 + 7) (2 ^ 80 * 77 + 8).
Example C102_instance : exists fb t, toy_created = Some (fb, t) /\ prime 7 /\ prime 11 /\
  fN fb = 77 /\ fH1 fb = 9 /\ fG1 fb = 4 /\ fA1 t = 2 /\
  fst (fo_commit fb 3 (2 ^ 80 * 77 + 5)) = fst (fo_commit fb 1 (2 ^ 80 * 77 + 9)) /\
  fst (fo_commit fb 3 (2 ^ 80 * 77 + 5)) <> fst (fo_commit fb 1 (2 ^ 80 * 77 + 5)).
Proof.
  eexists. eexists. split; [vm_compute; reflexivity|]. split; [apply prime_small; vm_compute; reflexivity|]. split; [apply prime_small; vm_compute; reflexivity|].
  vm_compute. intuition congruence.
Qed.
Example C102_instance_draws : forall fb x c, exists l, draws_for fb x c l.
Proof.
  intros fb x c. exists (filter (fun u => fst (fo_commit fb x u) =? c) (map Z.of_nat (seq 0 (Z.to_nat (2 ^ 81 * fN fb))))). split.
  - apply NoDup_filter. apply FinFun.Injective_map_NoDup; [|apply seq_NoDup]. intros i j. lia.
  - intros u. rewrite filter_In, Z.eqb_eq, in_map_iff. split.
    + intros [(i & <- & I) E]. apply in_seq in I. split; [lia|assumption].
    + intros [R E]. split; [|assumption]. exists (Z.to_nat u). split; [lia|]. apply in_seq. lia.
Qed.
(** A base with a G1 that is no power of H1: 2 is not a square modulo 7*11, so no commitment
    to 0 is one to 1. *)
Example C102_instance_bad_base : forall r r' c, 
  commits_int 77 2 9 1 r c -> commits_int 77 2 9 0 r' c -> False.
Proof.
  intros r r' c H1 H2. set (fb := FoBase 77 9 2 2 2 2 2 2).
  assert (B : fobase_ok fb) by (constructor; cbn; [lia|..]; apply Zgcd_1_rel_prime; reflexivity).
  destruct (C102_needs_generator fb 1 r 0 r' c B H1 H2) as (e & y & P1 & P2).
  apply is_power_unique in P1; [|apply B|apply B]. apply is_power_unique in P2; [|apply B|apply B]. cbn [fN fG1 fH1 fb] in P1, P2.
  rewrite P1 in P2. change (zexp 77 2 (1 - 0)) with 2 in P2. clear - P2.
  assert (U : unit 9 77) by (apply Zgcd_1_rel_prime; reflexivity).
  rewrite <- (zexp_mod_order 77 9 15 e) in P2; [|lia|lia|assumption|vm_compute; reflexivity].
  pose proof (Z.mod_pos_bound e 15 ltac:(lia)) as R. set (k := e mod 15) in *. clearbody k.
  assert (k = 0 \/ k = 1 \/ k = 2 \/ k = 3 \/ k = 4 \/ k = 5 \/ k = 6 \/ k = 7 \/ k = 8 \/ k = 9 \/ k = 10 \/ k = 11 \/ k = 12 \/ k = 13 \/ k = 14) as C by lia.
  repeat (destruct C as [-> | C]; [vm_compute in P2; discriminate|]). subst k. vm_compute in P2. discriminate.
Qed.

Print Assumptions C102_hides.
Print Assumptions C102_created_base_hides.
Print Assumptions C102_needs_generator.
Print Assumptions C102_binds_partial.
Print Assumptions C102_binds_refuted.
Print Assumptions C102_range.
