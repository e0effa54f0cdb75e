(** Correctness and completeness of the three-square search (C07). *)
From Coq Require Import ZArith Znumtheory Lia List Bool.
From Verif Require Import ZMod Bytes Suite FujiOkam.
Import ListNotations.
Open Scope Z_scope.

Lemma int64_small z : - 2 ^ 63 <= z < 2 ^ 63 -> int64 z = z.
Proof. intros H. unfold int64. rewrite Z.mod_small; lia. Qed.

Lemma first_from_some {A} n : forall lo (body : Z -> option A) r,
  first_from n lo body = Some r -> exists v, lo <= v < lo + Z.of_nat n /\ body v = Some r.
Proof.
  induction n as [|n IH]; intros lo body r H; [discriminate|]. cbn [first_from] in H.
  destruct (body lo) as [x|] eqn:E.
  - inversion H; subst. exists lo. split; [lia|exact E].
  - apply IH in H. destruct H as (v & Hv & E'). exists v. split; [lia|exact E'].
Qed.

Lemma first_from_none {A} n : forall lo (body : Z -> option A),
  first_from n lo body = None -> forall v, lo <= v < lo + Z.of_nat n -> body v = None.
Proof.
  induction n as [|n IH]; intros lo body H v Hv; [lia|]. cbn [first_from] in H.
  destruct (body lo) as [x|] eqn:E; [discriminate|].
  assert (v = lo \/ lo + 1 <= v) as [->|?] by lia; [exact E|].
  apply (IH _ _ H). lia.
Qed.

(** float64(goal) has the same leading bit position and is within half a unit. *)
Lemma round53_spec n : 1 <= n < 2 ^ 63 ->
  let e := Z.log2 n in
  2 ^ e <= round53 n <= 2 ^ (e + 1) /\ 
  (e <= 52 -> round53 n = n) /\ (53 <= e -> 2 * Z.abs (n - round53 n) <= 2 ^ (e - 52)).
Proof.
  intros Hn e. pose proof (Z.log2_spec n ltac:(lia)) as L. fold e in L. rewrite <- Z.add_1_r in L.
  assert (He : 0 <= e) by apply Z.log2_nonneg.
  unfold round53. destruct (Z.leb_spec n 0); [lia|]. fold e.
  destruct (Z.leb_spec (e - 52) 0).
  - repeat split; lia.
  - set (u := 2 ^ (e - 52)).
    assert (Hu : 0 < u) by (apply Z.pow_pos_nonneg; lia).
    assert (E0 : 2 ^ e = 2 ^ 52 * u) by (unfold u; rewrite <- Z.pow_add_r by lia; f_equal; lia).
    assert (E1 : 2 ^ (e + 1) = 2 ^ 53 * u) by (unfold u; rewrite <- Z.pow_add_r by lia; f_equal; lia).
    pose proof (Z.div_mod n u ltac:(lia)) as DM.
    pose proof (Z.mod_pos_bound n u Hu) as MB.
    set (lo := n / u) in *. set (r := n mod u) in *.
    assert (2 ^ 52 <= lo < 2 ^ 53) by (rewrite E0, E1 in L; nia).
    rewrite E0, E1.
    destruct (Z.ltb_spec (2 * r) u); [repeat split; try nia; lia|].
    destruct (Z.ltb_spec u (2 * r)); [repeat split; try nia; lia|].
    destruct (Z.even lo); repeat split; try nia; lia.
Qed.

Lemma sqrt_log2 f e : 0 <= e -> 2 ^ e <= f <= 2 ^ (e + 1) ->
  e / 2 <= Z.log2 (Z.sqrt f) <= (e + 1) / 2.
Proof.
  intros He H. pose proof (Z.pow_pos_nonneg 2 e ltac:(lia) He).
  pose proof (Z.div_mod e 2 ltac:(lia)). pose proof (Z.mod_pos_bound e 2 ltac:(lia)).
  pose proof (Z.div_mod (e + 1) 2 ltac:(lia)). pose proof (Z.mod_pos_bound (e + 1) 2 ltac:(lia)).
  assert (0 <= e / 2) by (apply Z.div_pos; lia).
  assert (0 <= (e + 1) / 2) by (apply Z.div_pos; lia).
  assert (A : 2 ^ (e / 2) <= Z.sqrt f).
  { apply Z.sqrt_le_square; [lia|apply Z.pow_nonneg; lia|].
    rewrite <- Z.pow_add_r by lia.
    pose proof (Z.pow_le_mono_r 2 (e / 2 + e / 2) e ltac:(lia) ltac:(lia)). lia. }
  assert (B : Z.sqrt f < 2 ^ ((e + 1) / 2 + 1)).
  { apply Z.sqrt_lt_square; [lia|apply Z.pow_nonneg; lia|].
    rewrite <- Z.pow_add_r by lia.
    pose proof (Z.pow_lt_mono_r 2 (e + 1) ((e + 1) / 2 + 1 + ((e + 1) / 2 + 1)) ltac:(lia) ltac:(lia) ltac:(lia)). lia. }
  pose proof (Z.pow_pos_nonneg 2 (e / 2) ltac:(lia) ltac:(lia)).
  split; [apply Z.log2_le_pow2; lia|].
  assert (Z.log2 (Z.sqrt f) < (e + 1) / 2 + 1); [|lia]. apply Z.log2_lt_pow2; lia.
Qed.

Lemma aux_upper J k f goal : 2097152 <= J -> 0 <= k -> goal < (k + 1) * (k + 1) ->
  f <= goal + k + 1 -> ((k + 2) * (k + 2) - f) * J < k + 2 -> False.
Proof.
  intros HJ Hk HG Hf H.
  assert (k + 2 <= (k + 2) * (k + 2) - f) by lia.
  assert ((k + 2) * 2097152 <= ((k + 2) * (k + 2) - f) * J) by (apply Z.mul_le_mono_nonneg; lia).
  lia.
Qed.

Lemma aux_cap J t m : 2097152 <= J -> m <= 9223372036854775808 * (J * J) ->
  t * t - t < m -> t < 3037000500 * J.
Proof.
  intros HJ Hm Ht. destruct (Z.lt_ge_cases t (3037000500 * J)) as [|GE]; [assumption|]. exfalso.
  assert ((3037000500 * J) * (3037000500 * J - 1) <= t * (t - 1)) by (apply Z.mul_le_mono_nonneg; lia).
  assert (145474192 * (J * J) < 3037000500 * J) by lia.
  assert (145474192 * J < 3037000500) by (apply (Z.mul_lt_mono_pos_r J); lia).
  lia.
Qed.

Lemma sq_bound_range goal : 1 <= goal < 2 ^ 63 ->
  Z.sqrt goal <= sq_bound goal <= Z.sqrt goal + 1 /\ sq_bound goal <= 3037000499.
Proof.
  intros H. unfold sq_bound. destruct (Z.ltb_spec goal 0); [lia|].
  destruct (round53_spec goal H) as (R & Rlo & Rhi).
  set (e := Z.log2 goal) in *. set (f := round53 goal) in *.
  pose proof (Z.log2_spec goal ltac:(lia)) as L. fold e in L. rewrite <- Z.add_1_r in L.
  assert (He : 0 <= e) by apply Z.log2_nonneg.
  assert (He63 : e <= 62).
  { assert (e < 63); [|lia]. apply Z.log2_lt_pow2; lia. }
  assert (Hf : 1 <= f) by (pose proof (Z.pow_pos_nonneg 2 e ltac:(lia) He); lia).
  unfold trunc_sqrt. destruct (Z.leb_spec f 0); [lia|].
  set (g := Z.log2 (Z.sqrt f)).
  destruct (sqrt_log2 f e He R) as [G0 G1]. fold g in G0, G1.
  assert (g <= 31).
  { pose proof (Z.div_le_mono (e + 1) 63 2 ltac:(lia) ltac:(lia)) as Y.
    change (63 / 2) with 31 in Y. lia. }
  set (j := 52 - g). assert (Hj : 21 <= j) by lia.
  assert (P2 : 0 < 2 ^ j) by (apply Z.pow_pos_nonneg; lia).
  assert (P4 : 4 ^ j = 2 ^ j * 2 ^ j).
  { change 4 with (2 * 2). now rewrite Z.pow_mul_l. }
  assert (P21 : 2097152 <= 2 ^ j) by (apply (Z.pow_le_mono_r 2 21 j); lia).
  set (J := 2 ^ j) in *.
  set (m := f * 4 ^ j). assert (Em : m = f * (J * J)) by (unfold m; rewrite P4; reflexivity).
  assert (Hm : 0 < m) by nia.
  pose proof (Z.sqrt_spec m ltac:(lia)) as SM. cbv zeta in SM.
  pose proof (Z.sqrt_nonneg m) as SN.
  set (s := Z.sqrt m) in *.
  set (k := Z.sqrt goal).
  pose proof (Z.sqrt_spec goal ltac:(lia)) as SK. fold k in SK. cbv zeta in SK. unfold Z.succ in SK.
  pose proof (Z.sqrt_nonneg goal) as KN. fold k in KN.
  assert (F63 : f <= 9223372036854775808).
  { pose proof (Z.pow_le_mono_r 2 (e + 1) 63 ltac:(lia) ltac:(lia)). lia. }
  set (t := if s * s + s <? m then s + 1 else s).
  assert (T : t * t - t < m /\ (t <= s + 1) /\ (s <= t) /\ (forall v, 0 <= v -> v * v - v < m -> v <= t)).
  { unfold Z.succ in SM. clear -SM SN Hm. clearbody s m. unfold t. clear t. destruct (Z.ltb_spec (s * s + s) m).
    - repeat split; nia.
    - repeat split; nia. }
  destruct T as (T1 & T2 & T3 & T4).
  split; [split|].
  - apply Z.div_le_lower_bound; [lia|]. apply T4; [apply Z.mul_nonneg_nonneg; lia|].
    (* (J*k)^2 - J*k < f*J*J, i.e. (k^2 - f) * J < k *)
    assert (KF : (k * k - f) * J < k).
    { destruct (Z.le_gt_cases (k * k) f) as [LE|GT].
      - assert (K1 : 1 <= k); [|clear -K1 LE P2; nia]. clear -SK H KN. clearbody k. nia.
      - assert (53 <= e).
        { destruct (Z.le_gt_cases 53 e); [assumption|]. rewrite Rlo in GT by lia. lia. }
        specialize (Rhi ltac:(lia)).
        (* 2*(k*k - f) <= 2^(e-52) and 2^(e-52) * J <= 2^(e - e/2) *)
        assert (B1 : 2 * (k * k - f) <= 2 ^ (e - 52)) by lia.
        assert (B2 : 2 ^ (e - 52) * J <= 2 ^ (e - e / 2)).
        { unfold J. rewrite <- Z.pow_add_r by lia. apply Z.pow_le_mono_r; lia. }
        assert (B3 : 2 ^ (e - e / 2) < 2 * k).
        { pose proof (Z.div_mod e 2 ltac:(lia)) as DM.
          pose proof (Z.mod_pos_bound e 2 ltac:(lia)).
          set (h := e / 2) in *.
          assert (Hh : 26 <= h) by (apply Z.div_le_lower_bound; lia).
          assert (PH : 0 < 2 ^ h) by (apply Z.pow_pos_nonneg; lia).
          assert (PHB : 2 ^ 26 <= 2 ^ h) by (apply Z.pow_le_mono_r; lia).
          assert (e mod 2 = 0 \/ e mod 2 = 1) as [M|M] by lia.
          - replace (e - h) with h by lia.
            assert (2 ^ e = 2 ^ h * 2 ^ h) as E2 by (rewrite <- Z.pow_add_r by lia; f_equal; lia).
            assert (2 ^ h <= k); [|lia].
            apply Z.sqrt_le_square; lia.
          - replace (e - h) with (h + 1) by lia.
            assert (2 ^ e = 2 * (2 ^ h * 2 ^ h)) as E2.
            { rewrite <- Z.pow_add_r by lia. rewrite <- (Z.pow_succ_r 2) by lia. f_equal. lia. }
            rewrite Z.pow_add_r, Z.pow_1_r by lia.
            assert (2 ^ h + 1 <= k); [|lia].
            apply Z.sqrt_le_square; nia. }
        clear -B1 B2 B3 P2. set (U := 2 ^ (e - 52)) in *. set (V := 2 ^ (e - e / 2)) in *.
        clearbody U V J k f. set (w := k * k - f) in *. clearbody w.
        assert (2 * w * J <= U * J) by (apply Z.mul_le_mono_nonneg_r; lia). lia. }
    assert (X : ((k * k - f) * J) * J < k * J) by (apply Z.mul_lt_mono_pos_r; lia).
    rewrite Em. clear -X. lia.
  - assert (t < (k + 2) * J).
    { destruct (Z.le_gt_cases ((k + 2) * J) t) as [GE|]; [|assumption]. exfalso.
      assert (A1 : ((k + 2) * J) * ((k + 2) * J) - (k + 2) * J <= t * t - t).
      { clear -GE P2 KN. clearbody t J k. assert (1 <= (k + 2) * J) by nia. nia. }
      assert (A2 : (((k + 2) * (k + 2) - f) * J) * J < (k + 2) * J) by (rewrite Em in T1; clear -A1 T1; lia).
      assert (A3 : ((k + 2) * (k + 2) - f) * J < k + 2) by (clear -A2 P2; apply Z.mul_lt_mono_pos_r in A2; lia).
      assert (A4 : f <= goal + k + 1).
      { destruct (Z.le_gt_cases e 52) as [E52|E52]; [rewrite Rlo by lia; lia|].
        specialize (Rhi ltac:(lia)).
        pose proof (Z.pow_le_mono_r 2 (e - 52) 10 ltac:(lia) ltac:(lia)).
        assert (2 ^ 26 <= k); [|lia].
        apply Z.sqrt_le_square; [lia|lia|].
        pose proof (Z.pow_le_mono_r 2 53 e ltac:(lia) ltac:(lia)). lia. }
      apply (aux_upper J k f goal P21 KN); [apply SK|exact A4|exact A3]. }
    assert (t / J < k + 2); [|lia]. apply Z.div_lt_upper_bound; lia.
  - assert (t < 3037000500 * J).
    { apply (aux_cap J t m P21); [|exact T1].
      rewrite Em. apply Z.mul_le_mono_nonneg_r; [apply Z.square_nonneg|exact F63]. }
    assert (t / J < 3037000500); [|lia]. apply Z.div_lt_upper_bound; lia.
Qed.

(** The wrapped sum of three in-range squares equals the goal only if the exact
    sum does. *)
Lemma wrapped_sum goal k bound a b d : 1 <= goal < 2 ^ 63 -> k * k <= goal -> 0 <= k ->
  bound <= k + 1 -> bound <= 3037000499 ->
  0 <= a <= bound -> 0 <= b <= bound -> 0 <= d <= bound ->
  int64 (int64 (int64 (a * a) + int64 (b * b)) + int64 (d * d)) = goal <->
  a * a + b * b + d * d = goal.
Proof.
  intros G KK K0 BK BC Ha Hb Hd.
  assert (SQ : forall v, 0 <= v <= bound -> 0 <= v * v <= bound * bound /\ v * v <= 9223372030926249001).
  { intros v Hv. assert (v * v <= bound * bound) by (apply Z.mul_le_mono_nonneg; lia).
    assert (v * v <= 3037000499 * 3037000499) by (apply Z.mul_le_mono_nonneg; lia).
    pose proof (Z.square_nonneg v). lia. }
  destruct (SQ a Ha) as [A1 A2]. destruct (SQ b Hb) as [B1 B2]. destruct (SQ d Hd) as [D1 D2].
  rewrite !(int64_small (_ * _)) by lia.
  set (aa := a * a) in *. set (bb := b * b) in *. set (dd := d * d) in *.
  assert (I : int64 (int64 (aa + bb) + dd) = int64 (aa + bb + dd)).
  { unfold int64.
    replace ((aa + bb + 2 ^ 63) mod 2 ^ 64 - 2 ^ 63 + dd + 2 ^ 63) with (dd + (aa + bb + 2 ^ 63) mod 2 ^ 64) by ring.
    rewrite Z.add_mod_idemp_r by lia. do 2 f_equal. ring. }
  rewrite I.
  destruct (Z.lt_ge_cases (aa + bb + dd) (2 ^ 63)).
  - rewrite int64_small by lia. tauto.
  - assert (W : int64 (aa + bb + dd) = aa + bb + dd - 2 ^ 64).
    { unfold int64.
      enough ((aa + bb + dd + 2 ^ 63) mod 2 ^ 64 = aa + bb + dd + 2 ^ 63 - 2 ^ 64) by lia.
      symmetry. apply Z.mod_unique with (q := 1); lia. }
    rewrite W. split; [|lia]. intros E. exfalso.
    assert (BB : bound * bound <= goal + 2 * k + 1).
    { assert (bound * bound <= (k + 1) * (k + 1)) by (apply Z.mul_le_mono_nonneg; lia). lia. }
    assert (k <= 3037000500).
    { destruct (Z.le_gt_cases k 3037000500); [assumption|].
      assert (3037000501 * 3037000501 <= k * k) by (apply Z.mul_le_mono_nonneg; lia). lia. }
    lia.
Qed.

Section Decompose.
Context (x : Z) (Hx : 0 <= x < 2 ^ 61).
Let goal := 4 * x + 1.
Let bound := sq_bound goal.

Lemma goal_range : 1 <= goal < 2 ^ 63. Proof. unfold goal. lia. Qed.

Lemma int64_goal : int64 (4 * int64 x + 1) = goal.
Proof. rewrite (int64_small x) by lia. apply int64_small. pose proof goal_range. fold goal. lia. Qed.

Lemma bound_facts : Z.sqrt goal <= bound <= Z.sqrt goal + 1 /\ bound <= 3037000499 /\ 1 <= Z.sqrt goal
  /\ Z.sqrt goal * Z.sqrt goal <= goal < (Z.sqrt goal + 1) * (Z.sqrt goal + 1).
Proof.
  pose proof goal_range as G. destruct (sq_bound_range goal G) as [B C].
  pose proof (Z.sqrt_spec goal ltac:(lia)) as K. cbv zeta in K. unfold Z.succ in K.
  repeat split; try lia. apply Z.sqrt_le_square; lia.
Qed.

Lemma decompose_some a b d : decompose x = Some (a, b, d) ->
  a * a + b * b + d * d = goal /\ 0 <= a /\ 0 <= b /\ 0 <= d.
Proof.
  unfold decompose, decompose_helper. rewrite int64_goal. fold bound. intros H.
  destruct bound_facts as (B & C & K1 & K).
  apply first_from_some in H. destruct H as (a' & Ha & H).
  apply first_from_some in H. destruct H as (b' & Hb & H). cbv zeta in H.
  destruct (goal <? _); [discriminate|].
  apply first_from_some in H. destruct H as (d' & Hd & H).
  match type of H with (if ?t =? goal then _ else _) = _ => destruct (Z.eqb_spec t goal) as [E|]; [|discriminate] end.
  inversion H; subst a' b' d'. clear H.
  apply (wrapped_sum goal (Z.sqrt goal) bound a b d goal_range) in E; lia.
Qed.

Lemma decompose_none : decompose x = None ->
  forall a b d, 0 <= a <= bound -> 0 <= b <= bound -> 0 <= d < bound -> a * a + b * b + d * d <> goal.
Proof.
  unfold decompose, decompose_helper. rewrite int64_goal. fold bound. intros H a b d Ha Hb Hd E.
  destruct bound_facts as (B & C & K1 & K). pose proof goal_range as G.
  apply (first_from_none _ _ _ ) with (v := a) in H; [|lia].
  apply (first_from_none _ _ _ ) with (v := b) in H; [|lia]. cbv zeta in H.
  assert (W := wrapped_sum goal (Z.sqrt goal) bound a b d G).
  pose proof (Z.square_nonneg a). pose proof (Z.square_nonneg b). pose proof (Z.square_nonneg d).
  destruct (Z.ltb_spec goal (int64 (int64 (a * a) + int64 (b * b)))) as [L|].
  { rewrite (int64_small (a * a)), (int64_small (b * b)) in L by lia.
    rewrite int64_small in L by lia. lia. }
  apply (first_from_none _ _ _ ) with (v := d) in H; [|lia].
  rewrite (proj2 (W ltac:(lia) ltac:(lia) ltac:(lia) ltac:(lia) ltac:(lia) ltac:(lia) ltac:(lia)) E) in H.
  rewrite Z.eqb_refl in H. discriminate.
Qed.

Lemma decompose_complete a b d : a * a + b * b + d * d = goal -> decompose x <> None.
Proof.
  intros E N. pose proof (decompose_none N) as F.
  destruct bound_facts as (B & C & K1 & K). pose proof goal_range as G.
  set (k := Z.sqrt goal) in *.
  assert (R : forall v, v * v <= goal -> Z.abs v <= bound).
  { intros v Hv. destruct (Z.le_gt_cases (Z.abs v) k); [lia|].
    assert ((k + 1) * (k + 1) <= Z.abs v * Z.abs v) by (apply Z.mul_le_mono_nonneg; lia).
    rewrite <- Z.abs_mul, Z.abs_eq in H0 by apply Z.square_nonneg. lia. }
  pose proof (Z.square_nonneg a). pose proof (Z.square_nonneg b). pose proof (Z.square_nonneg d).
  assert (Ra := R a ltac:(lia)). assert (Rb := R b ltac:(lia)). assert (Rd := R d ltac:(lia)).
  assert (Sa : Z.abs a * Z.abs a = a * a) by (rewrite <- Z.abs_mul; apply Z.abs_eq; lia).
  assert (Sb : Z.abs b * Z.abs b = b * b) by (rewrite <- Z.abs_mul; apply Z.abs_eq; lia).
  assert (Sd : Z.abs d * Z.abs d = d * d) by (rewrite <- Z.abs_mul; apply Z.abs_eq; lia).
  destruct (Z.lt_ge_cases (Z.abs d) bound) as [|GD]; [apply (F (Z.abs a) (Z.abs b) (Z.abs d)); lia|].
  destruct (Z.lt_ge_cases (Z.abs a) bound) as [|GA]; [apply (F (Z.abs d) (Z.abs b) (Z.abs a)); lia|].
  assert (bound * bound <= Z.abs a * Z.abs a) by (apply Z.mul_le_mono_nonneg; lia).
  assert (bound * bound <= Z.abs d * Z.abs d) by (apply Z.mul_le_mono_nonneg; lia).
  (* 2 bound^2 <= goal < (bound+1)^2 gives bound <= 2; then goal is 1 or 5 *)
  assert (bound <= 2).
  { destruct (Z.le_gt_cases bound 2); [assumption|].
    assert (3 * bound <= bound * bound) by (apply Z.mul_le_mono_nonneg; lia).
    assert (goal < (bound + 1) * (bound + 1)); [|lia].
    assert ((k + 1) * (k + 1) <= (bound + 1) * (bound + 1)) by (apply Z.mul_le_mono_nonneg; lia). lia. }
  assert (bound = 1 \/ bound = 2) as [B1|B2] by lia.
  - rewrite B1 in *. assert (k = 1) as Ek by lia. rewrite Ek in K.
    assert (goal = 1) by (unfold goal in *; lia). lia.
  - rewrite B2 in *. destruct (Z.lt_ge_cases (Z.abs b) 2) as [|GB]; [apply (F (Z.abs a) (Z.abs d) (Z.abs b)); lia|].
    assert (2 * 2 <= Z.abs b * Z.abs b) by (apply Z.mul_le_mono_nonneg; lia).
    assert ((k + 1) * (k + 1) <= 3 * 3) by (apply Z.mul_le_mono_nonneg; lia). lia.
Qed.
End Decompose.
