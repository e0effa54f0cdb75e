(** Pure mathematics (see SquaresUnique.v): every sublattice of Z^2 of index m, m = 1 mod 4, has
    a reduced basis with odd diagonal, even off-diagonal and c = f mod 4. *)
From Coq Require Import ZArith Lia List.
From Verif Require Import SquaresUnique.
Open Scope Z_scope.

Definition evn (a c f b : Z) := a mod 2 = 1 /\ b mod 2 = 1 /\ c mod 2 = 0 /\ (c - f) mod 4 = 0.
Definition Red (x1 y1 x2 y2 : Z) := exists p q r s, (p * s - q * r = 1 \/ p * s - q * r = -1) /\
  evn (p * x1 + q * x2) (p * y1 + q * y2) (r * x1 + s * x2) (r * y1 + s * y2) /\
  red (p * x1 + q * x2) (p * y1 + q * y2) (r * x1 + s * x2) (r * y1 + s * y2).

Lemma Red_change P Q R S x1 y1 x2 y2 : P * S - Q * R = 1 \/ P * S - Q * R = -1 ->
  Red (P * x1 + Q * x2) (P * y1 + Q * y2) (R * x1 + S * x2) (R * y1 + S * y2) -> Red x1 y1 x2 y2.
Proof.
  intros D (p & q & r & s & D' & E & K).
  exists (p * P + q * R), (p * Q + q * S), (r * P + s * R), (r * Q + s * S).
  split.
  - assert (X : (p * P + q * R) * (r * Q + s * S) - (p * Q + q * S) * (r * P + s * R) = (p * s - q * r) * (P * S - Q * R)) by ring.
    rewrite X. destruct D as [-> | ->], D' as [-> | ->]; lia.
  - replace ((p * P + q * R) * x1 + (p * Q + q * S) * x2) with (p * (P * x1 + Q * x2) + q * (R * x1 + S * x2)) by ring.
    replace ((p * P + q * R) * y1 + (p * Q + q * S) * y2) with (p * (P * y1 + Q * y2) + q * (R * y1 + S * y2)) by ring.
    replace ((r * P + s * R) * x1 + (r * Q + s * S) * x2) with (r * (P * x1 + Q * x2) + s * (R * x1 + S * x2)) by ring.
    replace ((r * P + s * R) * y1 + (r * Q + s * S) * y2) with (r * (P * y1 + Q * y2) + s * (R * y1 + S * y2)) by ring.
    auto.
Qed.

Lemma Red_to P Q R S x1 y1 x2 y2 x1' y1' x2' y2' : P * S - Q * R = 1 \/ P * S - Q * R = -1 ->
  x1' = P * x1 + Q * x2 -> y1' = P * y1 + Q * y2 -> x2' = R * x1 + S * x2 -> y2' = R * y1 + S * y2 ->
  Red x1' y1' x2' y2' -> Red x1 y1 x2 y2.
Proof. intros D -> -> -> -> H. exact (Red_change P Q R S _ _ _ _ D H). Qed.

Lemma Red_mirror x1 y1 x2 y2 : Red (- x1) y1 (- x2) y2 -> Red x1 y1 x2 y2.
Proof.
  intros (p & q & r & s & D & (E1 & E2 & E3 & E4) & K1 & K2). exists (- p), (- q), r, s.
  assert (X1 : - p * x1 + - q * x2 = p * - x1 + q * - x2) by ring.
  assert (X2 : - p * y1 + - q * y2 = - (p * y1 + q * y2)) by ring.
  assert (X3 : r * x1 + s * x2 = - (r * - x1 + s * - x2)) by ring.
  unfold evn, red. rewrite X1, X2, X3.
  set (a := p * - x1 + q * - x2) in *. set (c := p * y1 + q * y2) in *. set (f := r * - x1 + s * - x2) in *. set (b := r * y1 + s * y2) in *.
  split; [lia|]. split; [|lia]. repeat split; auto; Z.div_mod_to_equations; lia.
Qed.

Lemma Red_swap x1 y1 x2 y2 : Red y1 x1 y2 x2 -> Red x1 y1 x2 y2.
Proof.
  intros (p & q & r & s & D & (E1 & E2 & E3 & E4) & K1 & K2). exists r, s, p, q.
  split; [lia|]. unfold evn, red. split; [|split; lia]. repeat split; auto; try lia.
  - clear - E3 E4. Z.div_mod_to_equations; lia.
  - clear - E3 E4. Z.div_mod_to_equations; lia.
Qed.

Lemma Red_here x1 y1 x2 y2 : evn x1 y1 x2 y2 -> red x1 y1 x2 y2 -> Red x1 y1 x2 y2.
Proof.
  intros E K. exists 1, 0, 0, 1. split; [lia|].
  replace (1 * x1 + 0 * x2) with x1 by ring. replace (1 * y1 + 0 * y2) with y1 by ring.
  replace (0 * x1 + 1 * x2) with x2 by ring. replace (0 * y1 + 1 * y2) with y2 by ring. auto.
Qed.

Lemma pos_help Y u d X w v : 0 < Y -> 0 <= u -> 0 < d -> 0 <= X -> 0 <= w ->
  2 * d * (d * v) = Y * (4 * u + 2 * (d * d)) + X * (4 * w) -> 0 < v.
Proof.
  intros HY Hu Hd HX Hw E.
  assert (0 < d * d) by (apply Z.mul_pos_pos; assumption).
  assert (0 < Y * (4 * u + 2 * (d * d))) by (apply Z.mul_pos_pos; lia).
  assert (0 <= X * (4 * w)) by (apply Z.mul_nonneg_nonneg; lia).
  assert (P : 0 < (2 * (d * d)) * v) by (replace ((2 * (d * d)) * v) with (2 * d * (d * v)) by ring; lia).
  apply Z.mul_pos_cancel_l in P; lia.
Qed.

(* --- a short vector with two odd coordinates *)
Lemma III_norm g h a c e m : h - g > 0 -> c = a + e -> a * h - c * g = m -> g * g <= m -> h * h <= m ->
  g - 2 * h < e -> e < - g -> red a c (a + g) (c + h).
Proof.
  intros Dp -> M Hg Hh L1 L2.
  assert (Aa : a * (h - g) = m + e * g) by (rewrite <- M; ring).
  assert (P1 : 0 < 4 * a + e + g).
  { apply (pos_help (- g - e) (m - h * h) (h - g) (e - (g - 2 * h)) (m - g * g)); [lia|lia|lia|lia|lia|].
    replace ((h - g) * (4 * a + e + g)) with (4 * (a * (h - g)) + (e + g) * (h - g)) by ring. rewrite Aa. ring. }
  assert (P2 : 0 < 4 * a + 3 * e + g + 2 * h).
  { apply (pos_help (e - (g - 2 * h)) (m - g * g) (h - g) (- g - e) (m - h * h)); [lia|lia|lia|lia|lia|].
    replace ((h - g) * (4 * a + 3 * e + g + 2 * h)) with (4 * (a * (h - g)) + (3 * e + g + 2 * h) * (h - g)) by ring. rewrite Aa. ring. }
  clear Aa M Hg Hh. split; lia.
Qed.

Lemma mul_mod4_odd x y : x mod 4 = y mod 4 -> y mod 2 = 1 -> (x * y) mod 4 = 1.
Proof.
  intros E O. rewrite Z.mul_mod, E by lia.
  assert (y mod 4 = 1 \/ y mod 4 = 3) as [-> | ->] by (Z.div_mod_to_equations; lia); reflexivity.
Qed.

Lemma III_core g h a0 c0 m : m mod 4 = 1 -> g mod 2 = 1 -> h mod 2 = 1 -> (h - g) mod 4 = 2 -> h - g > 0 ->
  a0 * h - c0 * g = m -> g * g <= m -> h * h <= m -> Red g h a0 c0.
Proof.
  intros Mm Go Ho D4 Dp M Hg Hh.
  assert (exists k, g - 2 * h < (c0 + k * h) - (a0 + k * g) < - g /\ ((c0 + k * h) - (a0 + k * g)) mod 4 = g mod 4) as (k & L & E4).
  { set (d := h - g) in *. set (e0 := c0 - a0).
    assert (Eo : e0 mod 2 = 1).
    { assert (e0 * g = a0 * d - m) by (subst e0 d; rewrite <- M; ring).
      destruct (Z.eq_dec (e0 mod 2) 1) as [|n]; [assumption|exfalso].
      assert (exists j, e0 = 2 * j) as (j & Ej) by (exists (e0 / 2); Z.div_mod_to_equations; lia).
      assert (exists i, d = 2 * i) as (i & Ei) by (exists (d / 2); Z.div_mod_to_equations; lia).
      rewrite Ej, Ei in H. assert (m = 2 * (a0 * i - j * g)) by lia.
      Z.div_mod_to_equations; lia. }
    set (k1 := - ((e0 - (g - 2 * h)) / d)).
    assert (V1 : 0 <= (e0 + k1 * d) - (g - 2 * h) < d).
    { pose proof (Z.mod_pos_bound (e0 - (g - 2 * h)) d ltac:(lia)).
      rewrite Z.mod_eq in H by lia. subst k1. lia. }
    assert (W : (e0 + k1 * d) mod 2 = 1).
    { assert (exists i, d = 2 * i) as (i & Ei) by (exists (d / 2); Z.div_mod_to_equations; lia).
      rewrite Ei. replace (e0 + k1 * (2 * i)) with (e0 + (k1 * i) * 2) by ring. now rewrite Z_mod_plus_full. }
    set (e1 := e0 + k1 * d) in *.
    destruct (Z.eq_dec (e1 mod 4) (g mod 4)) as [y|n].
    - exists k1. replace (c0 + k1 * h - (a0 + k1 * g)) with e1 by (subst e1 e0 d; ring).
      split; [|exact y]. Z.div_mod_to_equations; lia.
    - exists (k1 + 1). replace (c0 + (k1 + 1) * h - (a0 + (k1 + 1) * g)) with (e1 + d) by (subst e1 e0 d; ring).
      assert ((e1 + d) mod 4 = g mod 4) by (clearbody d e1; Z.div_mod_to_equations; lia).
      split; [|assumption]. clearbody e1. subst d. Z.div_mod_to_equations; lia. }
  set (a := a0 + k * g) in *. set (c := c0 + k * h) in *.
  assert (M' : a * h - c * g = m) by (rewrite <- M; subst a c; ring).
  assert (Ao : a mod 2 = 1).
  { pose proof (mul_mod4_odd _ _ E4 Go) as T.
    assert ((c - a) * g = a * (h - g) - m) by (rewrite <- M'; ring).
    destruct (Z.eq_dec (a mod 2) 1) as [|n]; [assumption|exfalso].
    assert (exists j, a = 2 * j) as (j & Ej) by (exists (a / 2); Z.div_mod_to_equations; lia).
    assert (exists i, h - g = 2 * i) as (i & Ei) by (exists ((h - g) / 2); Z.div_mod_to_equations; lia).
    rewrite H, Ej, Ei in T. replace (2 * j * (2 * i) - m) with (- m + (j * i) * 4) in T by ring.
    rewrite Z_mod_plus_full in T. Z.div_mod_to_equations; lia. }
  apply (Red_to k 1 (k + 1) 1 g h a0 c0 a c (a + g) (c + h)); try (subst a c; ring); [lia|].
  apply Red_here.
  - clearbody a c. repeat split; Z.div_mod_to_equations; lia.
  - apply (III_norm g h a c (c - a) m); auto; lia.
Qed.

Lemma Red_sign i j x1 y1 x2 y2 : i * i = 1 -> j * j = 1 -> Red (i * x1) (i * y1) (j * x2) (j * y2) -> Red x1 y1 x2 y2.
Proof.
  intros Hi Hj. apply (Red_to i 0 0 j); try ring.
  assert ((i * j) * (i * j) = 1) by (replace ((i * j) * (i * j)) with ((i * i) * (j * j)) by ring; rewrite Hi, Hj; reflexivity).
  apply Z.mul_eq_1 in H. lia.
Qed.

Lemma III g h x2 y2 m : m mod 4 = 1 -> g mod 2 = 1 -> h mod 2 = 1 -> g * y2 - h * x2 = m \/ g * y2 - h * x2 = - m ->
  g * g <= m -> h * h <= m -> Red g h x2 y2.
Proof.
  intros Mm.
  assert (A : forall g h x2 y2, g mod 2 = 1 -> h mod 2 = 1 -> g * y2 - h * x2 = m \/ g * y2 - h * x2 = - m ->
    g * g <= m -> h * h <= m -> (h - g) mod 4 = 2 -> Red g h x2 y2).
  { clear - Mm. intros g h x2 y2 Go Ho M Hg Hh D4.
    assert (B : forall j, j * j = 1 -> (j * x2) * h - (j * y2) * g = m -> Red g h x2 y2 ).
    { intros j Hj Hm. destruct (Z_lt_le_dec 0 (h - g)) as [P|P].
      - apply (Red_sign 1 j); [reflexivity|exact Hj|]. rewrite !Z.mul_1_l. apply (III_core g h (j * x2) (j * y2) m); auto; lia.
      - apply (Red_sign (-1) (- j)); [reflexivity|lia|]. apply (III_core _ _ _ _ m); auto; try lia.
        + clear - Go. Z.div_mod_to_equations; lia.
        + clear - Ho. Z.div_mod_to_equations; lia.
        + clear - D4. Z.div_mod_to_equations; lia.
        + clear - D4 P. Z.div_mod_to_equations; lia. }
    destruct M as [M|M]; [apply (B (-1)) | apply (B 1)]; lia. }
  intros Go Ho M Hg Hh.
  destruct (Z.eq_dec ((h - g) mod 4) 2) as [e|n]; [now apply A|].
  apply Red_mirror. apply A; auto; try lia.
  - clear - Go. Z.div_mod_to_equations; lia.
  - clear - Go Ho n. Z.div_mod_to_equations; lia.
Qed.

(* --- a short vector with one odd coordinate *)
Lemma II_good f b a B m : 0 <= f -> 0 <= B -> B < b -> a * b = m - f * f + 2 * B * f -> f * f < m -> b * b <= m -> B < a.
Proof.
  intros F0 B0 Bb M Hf Hb.
  assert (S : (f - b) * (f - b) <= m).
  { destruct (Z_le_gt_dec f b).
    - assert ((b - f) * (b - f) <= b * b) by (apply Z.square_le_mono_nonneg; lia). lia.
    - assert ((f - b) * (f - b) <= f * f) by (apply Z.square_le_mono_nonneg; lia). lia. }
  assert (E : b * (b * (a - B)) = (b - B) * (m - f * f) + B * (m - (f - b) * (f - b))).
  { replace (b * (b * (a - B))) with (b * (a * b - B * b)) by ring. rewrite M. ring. }
  assert (0 < (b - B) * (m - f * f)) by (apply Z.mul_pos_pos; lia).
  assert (0 <= B * (m - (f - b) * (f - b))) by (apply Z.mul_nonneg_nonneg; lia).
  assert (P : 0 < (b * b) * (a - B)) by lia.
  apply Z.mul_pos_cancel_l in P; [lia|]. apply Z.mul_pos_pos; lia.
Qed.

Lemma II_bad f b a w n m : 0 < f -> 0 < w -> 0 < n -> w + n = b -> a < w -> a * b + f * f + 2 * w * f = m ->
  f * f <= m -> b * b <= m -> m < (2 * w + f - b) * (2 * w + f - b) ->
  red (a + 2 * f) (- f + 2 * n) (f - 2 * (a + 2 * f)) (b + 2 * f - 4 * n).
Proof.
  intros F0 W0 N0 WN Aw M Hf Hb Hbig.
  assert (P0 : b < 2 * w + f - b).
  { destruct (Z_lt_le_dec 0 (2 * w + f - b)); [apply Z.square_lt_simpl_nonneg; lia|].
    exfalso. assert ((b - 2 * w - f) * (b - 2 * w - f) <= b * b) by (apply Z.square_le_mono_nonneg; lia). lia. }
  assert (fn : 2 * n < f) by lia.
  set (A := a + 2 * f).
  assert (MA : A * b = m - f * f + 2 * f * n) by (subst A; replace w with (b - n) in M by lia; lia).
  assert (C1 : A < b + 2 * f - 3 * n).
  { apply (Z.mul_lt_mono_pos_r b); [lia|].
    replace w with (b - n) in Hbig by lia.
    assert (H : (2 * (b - n) + f - b) * (2 * (b - n) + f - b) = b*b + 2*b*f - 4*(b*n) - 4*(f*n) + 4*(n*n) + f*f) by ring.
    rewrite H in Hbig. assert (4 * (n * n) <= 2 * (f * n)) by (clear - fn N0; nia). assert (0 < b * n) by (apply Z.mul_pos_pos; lia). lia. }
  assert (C2 : n < 2 * A).
  { apply (Z.mul_lt_mono_pos_r b); [lia|].
    replace (2 * A * b) with (2 * (A * b)) by ring. rewrite MA.
    destruct (Z_lt_le_dec b (4 * f)).
    - assert (b * n < 4 * f * n) by (apply Z.mul_lt_mono_pos_r; lia). lia.
    - assert (16 * (f * f) <= b * b) by (clear - l F0; nia). assert (0 < f * n) by (apply Z.mul_pos_pos; lia).
      assert (0 < b * b) by (apply Z.mul_pos_pos; lia).
      assert (8 * n < b) by lia. assert ((8 * n) * b <= b * b) by (apply Z.mul_le_mono_nonneg_r; lia). lia. }
  clearbody A. clear M MA Hf Hb Hbig. split; lia.
Qed.

Lemma II_core f b a0 c0 m : m mod 4 = 1 -> f mod 2 = 0 -> b mod 2 = 1 -> 0 <= f -> 0 < b ->
  a0 * b - c0 * f = m -> f * f <= m -> b * b <= m -> Red a0 c0 f b.
Proof.
  intros Mm Fe Bo F0 B0 M Hf Hb.
  assert (exists k, - (2 * b) < c0 + k * b + f < 2 * b /\ (c0 + k * b + f) mod 4 = 0) as (k & L & E4).
  { assert (exists k0, (c0 + k0 * b + f) mod 4 = 0) as (k0 & E0).
    { assert (b mod 4 = 1 \/ b mod 4 = 3) as [b1|b3] by (clear - Bo; Z.div_mod_to_equations; lia).
      - exists (- (c0 + f)). assert (exists i, b = 4 * i + 1) as (i & ->) by (exists (b / 4); Z.div_mod_to_equations; lia).
        replace (c0 + - (c0 + f) * (4 * i + 1) + f) with (0 + (- (c0 + f) * i) * 4) by ring. apply Z_mod_plus_full.
      - exists (c0 + f). assert (exists i, b = 4 * i - 1) as (i & ->) by (exists (b / 4 + 1); Z.div_mod_to_equations; lia).
        replace (c0 + (c0 + f) * (4 * i - 1) + f) with (0 + ((c0 + f) * i) * 4) by ring. apply Z_mod_plus_full. }
    set (v := c0 + k0 * b + f) in *. set (k1 := - ((v + 2 * b) / (4 * b))).
    assert (V : 0 <= v + k1 * (4 * b) + 2 * b < 4 * b).
    { pose proof (Z.mod_pos_bound (v + 2 * b) (4 * b) ltac:(lia)). rewrite Z.mod_eq in H by lia. subst k1. lia. }
    exists (k0 + 4 * k1). replace (c0 + (k0 + 4 * k1) * b + f) with (v + (k1 * b) * 4) by (subst v; ring).
    assert (W : (v + (k1 * b) * 4) mod 4 = 0) by (rewrite Z_mod_plus_full; exact E0).
    split; [|exact W].
    replace (k1 * (4 * b)) with (k1 * b * 4) in V by ring. set (z := v + k1 * b * 4) in *.
    clearbody z. clear - V W Bo. Z.div_mod_to_equations; lia. }
  set (a := a0 + k * f). set (c := c0 + k * b) in *.
  assert (M' : a * b - c * f = m) by (rewrite <- M; subst a c; ring).
  apply (Red_to 1 k 0 1 a0 c0 f b a c f b); try (subst a c; ring); [lia|].
  clearbody a c. clear k M a0 c0.
  assert (exists B, c = 2 * B - f /\ Z.abs B < b /\ B mod 2 = 0) as (B & -> & Bb & Be).
  { exists ((c + f) / 2). clear - L E4. Z.div_mod_to_equations; lia. }
  assert (Ce : (2 * B - f) mod 2 = 0) by (clear - Fe; Z.div_mod_to_equations; lia).
  assert (Ao : a mod 2 = 1).
  { destruct (Z.eq_dec (a mod 2) 1) as [|n]; [assumption|exfalso].
    assert (exists j, a = 2 * j) as (j & ->) by (exists (a / 2); clear - n; Z.div_mod_to_equations; lia).
    assert (exists i, f = 2 * i) as (i & ->) by (exists (f / 2); clear - Fe; Z.div_mod_to_equations; lia).
    assert (m = 2 * (j * b - (2 * B - 2 * i) * i)) by lia. clear - Mm H. Z.div_mod_to_equations; lia. }
  assert (Ev : evn a (2 * B - f) f b).
  { repeat split; auto. clear - Fe Be. Z.div_mod_to_equations; lia. }
  assert (Hf' : f * f < m).
  { assert (f * f <> m); [|lia]. intro e. assert (exists i, f = 2 * i) as (i & ->) by (exists (f / 2); clear - Fe; Z.div_mod_to_equations; lia).
    assert (m = 4 * (i * i)) by lia. clear - Mm H. Z.div_mod_to_equations; lia. }
  destruct (Z_lt_le_dec (Z.abs B) a) as [G|G].
  { apply Red_here; [exact Ev|]. split; lia. }
  assert (Bn : B < 0).
  { destruct (Z_lt_le_dec B 0); [assumption|exfalso].
    assert (B < a); [|lia]. apply (II_good f b a B m); auto; lia. }
  set (w := - B). assert (Bw : B = - w) by (subst w; lia). clearbody w. subst B.
  assert (Wn : w <= b - 1) by lia. assert (W0 : 0 < w) by lia.
  assert (Aw : a < w) by (clear - G Ao Be W0; Z.div_mod_to_equations; lia).
  assert (Fp : 0 < f).
  { destruct (Z.eq_dec f 0) as [->|]; [exfalso|lia]. assert (a * b = m) by lia.
    assert (a * b < b * b) by (apply Z.mul_lt_mono_pos_r; lia). lia. }
  assert (MM : a * b + f * f + 2 * w * f = m) by lia.
  destruct (Z_lt_le_dec m ((2 * w + f - b) * (2 * w + f - b))) as [Big|Sm].
  - apply (Red_to 1 2 (-2) (-3) a (2 * - w - f) f b (a + 2 * f) (- f + 2 * (b - w)) (f - 2 * (a + 2 * f)) (b + 2 * f - 4 * (b - w))); try ring; [lia|].
    apply Red_here.
    + clear - Ao Bo Fe Be. repeat split; Z.div_mod_to_equations; lia.
    + apply (II_bad f b a w (b - w) m); auto; lia.
  - apply (Red_to 1 1 0 1 a (2 * - w - f) f b (a + f) (b - 2 * w - f) f b); try ring; [lia|].
    apply (III _ _ _ _ m); auto; try lia.
    + clear - Ao Fe. Z.div_mod_to_equations; lia.
    + clear - Bo Fe. Z.div_mod_to_equations; lia.
    + destruct (Z_lt_le_dec a 0) as [An|Ap].
      * assert (- (2 * f) < a).
        { apply (Z.mul_lt_mono_pos_r b); [lia|]. assert (w * f < b * f) by (apply Z.mul_lt_mono_pos_r; lia). lia. }
        assert (Z.abs (a + f) <= Z.abs f) by lia. apply Z.square_le_mono_nonneg in H0; [|lia].
        rewrite !Z.abs_square in H0. lia.
      * assert (a * a <= a * b) by (apply Z.mul_le_mono_nonneg_l; lia).
        assert (a * f <= w * f) by (apply Z.mul_le_mono_nonneg_r; lia). lia.
Qed.

Lemma II f b x1 y1 m : m mod 4 = 1 -> f mod 2 = 0 -> b mod 2 = 1 -> x1 * b - y1 * f = m \/ x1 * b - y1 * f = - m ->
  f * f <= m -> b * b <= m -> Red x1 y1 f b.
Proof.
  intros Mm.
  assert (A : forall f b x1 y1, f mod 2 = 0 -> b mod 2 = 1 -> 0 < b -> x1 * b - y1 * f = m \/ x1 * b - y1 * f = - m ->
    f * f <= m -> b * b <= m -> Red x1 y1 f b).
  { clear - Mm. intros f b x1 y1 Fe Bo Bp M Hf Hb.
    assert (B : forall f x1 y1, f mod 2 = 0 -> 0 <= f -> x1 * b - y1 * f = m \/ x1 * b - y1 * f = - m -> f * f <= m -> Red x1 y1 f b).
    { clear f x1 y1 Fe M Hf. intros f x1 y1 Fe Fp M Hf. destruct M as [M|M].
      - now apply (II_core f b x1 y1 m).
      - apply (Red_sign (-1) 1); try reflexivity. rewrite !Z.mul_1_l. apply (II_core f b _ _ m); auto; lia. }
    destruct (Z_le_gt_dec 0 f); [now apply B|].
    apply Red_mirror. apply B; try lia. clear - Fe. Z.div_mod_to_equations; lia. }
  intros Fe Bo M Hf Hb. destruct (Z_lt_le_dec 0 b); [now apply A|].
  apply (Red_sign 1 (-1)); try reflexivity. rewrite !Z.mul_1_l. apply A; try lia.
  - clear - Fe. Z.div_mod_to_equations; lia.
  - clear - Bo. Z.div_mod_to_equations; lia.
  - clear - Bo l. Z.div_mod_to_equations; lia.
Qed.

(* --- a short vector *)
Lemma shorter x1 y1 x2 y2 m : x1 * y2 - y1 * x2 = m \/ x1 * y2 - y1 * x2 = - m -> 0 < x1 -> Z.abs y1 <= x1 -> m < x1 * x1 -> 0 < m ->
  exists k, Z.abs (x2 - k * x1) < x1 /\ Z.abs (y2 - k * y1) < x1.
Proof.
  intros M X Y B Mp. set (k := x2 / x1).
  assert (R : 0 <= x2 - k * x1 < x1).
  { pose proof (Z.mod_pos_bound x2 x1 X). rewrite Z.mod_eq in H by lia. subst k. lia. }
  set (x := x2 - k * x1) in *. set (y := y2 - k * y1).
  assert (M' : x1 * y - y1 * x = m \/ x1 * y - y1 * x = - m) by (replace (x1 * y - y1 * x) with (x1 * y2 - y1 * x2) by (subst x y; ring); exact M).
  destruct (Z_lt_le_dec (Z.abs y) x1) as [S|S]; [exists k; fold x y; lia|].
  destruct (Z_lt_le_dec (Z.abs (y - y1)) x1) as [S'|S'].
  { destruct (Z.eq_dec x 0) as [e|n].
    - exfalso. rewrite e in M'. assert (E : x1 * Z.abs y = m) by (rewrite <- (Z.abs_eq x1) at 1 by lia; rewrite <- Z.abs_mul; lia).
      assert (x1 * x1 <= x1 * Z.abs y) by (apply Z.mul_le_mono_nonneg_l; lia). lia.
    - exists (k + 1). replace (x2 - (k + 1) * x1) with (x - x1) by (subst x; ring). replace (y2 - (k + 1) * y1) with (y - y1) by (subst y; ring). lia. }
  exfalso. clearbody x y. clear k M.
  assert (forall y y1, y1 <= x1 -> - x1 <= y1 -> x1 <= y -> x1 <= Z.abs (y - y1) -> x1 * x1 <= x1 * y - y1 * x).
  { clear - X R. intros y y1 L1 L2 L3 L4. destruct (Z_le_gt_dec y1 0).
    - assert (x1 * x1 <= x1 * y) by (apply Z.mul_le_mono_nonneg_l; lia). assert (0 <= (- y1) * x) by (apply Z.mul_nonneg_nonneg; lia). lia.
    - assert (x1 * (x1 + y1) <= x1 * y) by (apply Z.mul_le_mono_nonneg_l; lia).
      assert (y1 * x <= y1 * x1) by (apply Z.mul_le_mono_nonneg_l; lia). lia. }
  destruct (Z_le_gt_dec x1 y).
  - specialize (H y y1 ltac:(lia) ltac:(lia) ltac:(lia) ltac:(lia)). lia.
  - specialize (H (- y) (- y1) ltac:(lia) ltac:(lia) ltac:(lia) ltac:(lia)). lia.
Qed.

Theorem reduced_basis m : m mod 4 = 1 -> 0 < m -> forall x1 y1 x2 y2,
  x1 * y2 - y1 * x2 = m \/ x1 * y2 - y1 * x2 = - m -> Red x1 y1 x2 y2.
Proof.
  intros Mm Mp.
  assert (A : forall n, forall x1 y1 x2 y2, Z.max (Z.abs x1) (Z.abs y1) < Z.of_nat n ->
    x1 * y2 - y1 * x2 = m \/ x1 * y2 - y1 * x2 = - m -> Red x1 y1 x2 y2).
  { induction n as [|n IH]; [intros; lia|].
    intros x1 y1 x2 y2 L M.
    destruct (Z_le_gt_dec (x1 * x1) m) as [S1|S1]; [destruct (Z_le_gt_dec (y1 * y1) m) as [S2|S2]|].
    - assert (x1 mod 2 = 0 \/ x1 mod 2 = 1) as [X|X] by (clear; Z.div_mod_to_equations; lia);
      assert (y1 mod 2 = 0 \/ y1 mod 2 = 1) as [Y|Y] by (clear; Z.div_mod_to_equations; lia).
      + exfalso. assert (exists i, x1 = 2 * i) as (i & ->) by (exists (x1 / 2); clear - X; Z.div_mod_to_equations; lia).
        assert (exists i, y1 = 2 * i) as (j & ->) by (exists (y1 / 2); clear - Y; Z.div_mod_to_equations; lia).
        assert (exists z, m = 2 * z) as (z & ->).
        { destruct M as [M|M]; [exists (i * y2 - j * x2) | exists (- (i * y2 - j * x2))]; lia. }
        clear - Mm. Z.div_mod_to_equations; lia.
      + apply (Red_to 0 1 1 0 x1 y1 x2 y2 x2 y2 x1 y1); try ring; [lia|]. apply (II x1 y1 x2 y2 m); auto; lia.
      + apply Red_swap. apply (Red_to 0 1 1 0 y1 x1 y2 x2 y2 x2 y1 x1); try ring; [lia|]. apply (II y1 x1 y2 x2 m); auto; lia.
      + apply (III x1 y1 x2 y2 m); auto; lia.
    - (* the second coordinate is long *)
      assert (B : Z.abs x1 <= Z.abs y1).
      { destruct (Z_le_gt_dec (Z.abs x1) (Z.abs y1)); [assumption|]. assert (Z.abs y1 * Z.abs y1 <= Z.abs x1 * Z.abs x1) by (apply Z.square_le_mono_nonneg; lia).
        rewrite !Z.abs_square in H. lia. }
      assert (exists i, i * i = 1 /\ i * y1 = Z.abs y1) as (i & I1 & I2) by (destruct (Z_le_gt_dec 0 y1); [exists 1|exists (-1)]; lia).
      assert (I3 : i * y1 * x2 - i * x1 * y2 = m \/ i * y1 * x2 - i * x1 * y2 = - m) by (apply Z.mul_eq_1 in I1 as [-> | ->]; lia).
      assert (Y0 : 0 < Z.abs y1) by lia.
      assert (Q : Z.abs y1 * Z.abs y1 = y1 * y1) by apply Z.abs_square.
      assert (I4 : Z.abs (i * x1) <= i * y1) by (apply Z.mul_eq_1 in I1 as [-> | ->]; lia).
        destruct (shorter (i * y1) (i * x1) y2 x2 m I3 ltac:(lia) I4 ltac:(rewrite I2; lia) Mp) as (k & K1 & K2).
      apply (Red_to (- k * i) 1 1 0 x1 y1 x2 y2 (x2 - k * (i * x1)) (y2 - k * (i * y1)) x1 y1); try ring; [lia|].
      apply IH; [lia|]. assert (E : (x2 - k * (i * x1)) * y1 - (y2 - k * (i * y1)) * x1 = - (x1 * y2 - y1 * x2)) by ring. rewrite E. lia.
    - destruct (Z_le_gt_dec (Z.abs y1) (Z.abs x1)) as [B|B].
      + assert (exists i, i * i = 1 /\ i * x1 = Z.abs x1) as (i & I1 & I2) by (destruct (Z_le_gt_dec 0 x1); [exists 1|exists (-1)]; lia).
      assert (I3 : i * x1 * y2 - i * y1 * x2 = m \/ i * x1 * y2 - i * y1 * x2 = - m) by (apply Z.mul_eq_1 in I1 as [-> | ->]; lia).
        assert (Q : Z.abs x1 * Z.abs x1 = x1 * x1) by apply Z.abs_square.
        assert (X0 : 0 < Z.abs x1) by lia.
        assert (I4 : Z.abs (i * y1) <= i * x1) by (apply Z.mul_eq_1 in I1 as [-> | ->]; lia).
        destruct (shorter (i * x1) (i * y1) x2 y2 m I3 ltac:(lia) I4 ltac:(rewrite I2; lia) Mp) as (k & K1 & K2).
        apply (Red_to (- k * i) 1 1 0 x1 y1 x2 y2 (x2 - k * (i * x1)) (y2 - k * (i * y1)) x1 y1); try ring; [lia|].
        apply IH; [lia|]. assert (E : (x2 - k * (i * x1)) * y1 - (y2 - k * (i * y1)) * x1 = - (x1 * y2 - y1 * x2)) by ring. rewrite E. lia.
      + assert (exists i, i * i = 1 /\ i * y1 = Z.abs y1) as (i & I1 & I2) by (destruct (Z_le_gt_dec 0 y1); [exists 1|exists (-1)]; lia).
      assert (I3 : i * y1 * x2 - i * x1 * y2 = m \/ i * y1 * x2 - i * x1 * y2 = - m) by (apply Z.mul_eq_1 in I1 as [-> | ->]; lia).
        assert (Q : Z.abs y1 * Z.abs y1 = y1 * y1) by apply Z.abs_square.
        assert (Q' : Z.abs x1 * Z.abs x1 = x1 * x1) by apply Z.abs_square.
        assert (Z.abs x1 * Z.abs x1 <= Z.abs y1 * Z.abs y1) by (apply Z.square_le_mono_nonneg; lia).
        assert (Y0 : 0 < Z.abs y1) by lia.
        assert (I4 : Z.abs (i * x1) <= i * y1) by (apply Z.mul_eq_1 in I1 as [-> | ->]; lia).
        destruct (shorter (i * y1) (i * x1) y2 x2 m I3 ltac:(lia) I4 ltac:(rewrite I2; lia) Mp) as (k & K1 & K2).
        apply (Red_to (- k * i) 1 1 0 x1 y1 x2 y2 (x2 - k * (i * x1)) (y2 - k * (i * y1)) x1 y1); try ring; [lia|].
        apply IH; [lia|]. assert (E : (x2 - k * (i * x1)) * y1 - (y2 - k * (i * y1)) * x1 = - (x1 * y2 - y1 * x2)) by ring. rewrite E. lia. }
  intros x1 y1 x2 y2 M. apply (A (Z.to_nat (Z.max (Z.abs x1) (Z.abs y1) + 1))); [lia|exact M].
Qed.
