(** Pure mathematics, no code of /repo is modelled here.  First of three files that prove what
    decomposeThreeSquare (FujiOkamCommitment.go:323-349) relies on: every 4x+1 is a sum of
    three squares (SumSquares.v).

    A 2x2 integer matrix with rows (a,c), (f,b) is a basis of a sublattice of Z^2.  It is
    [red]uced if |c+f| < 2a and |c+f| < 2b.  This file: two reduced bases of the same lattice,
    related by a matrix of determinant 1 that is the identity modulo 2 with even entries off
    the diagonal, are equal.  SquaresExist.v: every sublattice of index m = 1 mod 4 has one. *)
From Coq Require Import ZArith Lia List.
Open Scope Z_scope.

Definition red (a c f b : Z) := Z.abs (c + f) < 2 * a /\ Z.abs (c + f) < 2 * b.

Lemma cone a b B x y k : Z.abs B <= a -> Z.abs B <= b -> x <= 0 -> y <= 0 -> x + y + k <= 0 -> x + y - k <= 0 ->
  x * a + y * b + k * B <= 0.
Proof. intros. assert (Z.abs k <= - x - y) by lia.
  assert (k * B <= Z.abs k * Z.abs B) by (rewrite <- Z.abs_mul; lia).
  assert (Z.abs k * Z.abs B <= (- x - y) * Z.abs B) by nia.
  nia.
Qed.

Lemma comb u v X Y : 0 <= u -> 0 <= v -> 0 < u + v -> X > 0 -> Y > 0 -> u * X + v * Y > 0.
Proof. nia. Qed.

Lemma sq_ge x k : 0 <= k -> k <= Z.abs x -> k * k <= x * x.
Proof. intros. nia. Qed.

(* certificate 1: rows against columns *)
Lemma c13 p q r s a b B t : p * s - q * r = 1 ->
  p mod 2 = 1 -> s mod 2 = 1 -> q mod 2 = 0 -> (q - r) mod 4 = 0 -> Z.abs B < a -> Z.abs B < b ->
  (2*p-r)*a - q*b + (2*q-p-s)*B + (-2*q-p+s)*t > 0 ->
  - r*a + (2*s-q)*b + (2*r-p-s)*B + (2*r-p+s)*t > 0 ->
  - 2 * q <= p - s <= 2 * r -> 0 < 2 * q + 2 * r -> False.
Proof.
  intros D po so qe re Ka Kb I1 I3 [L1 L2] L3.
  pose proof (comb (2*r-(p-s)) (2*q+(p-s)) _ _ ltac:(lia) ltac:(lia) ltac:(lia) I1 I3) as C.
  assert (E : (2*r-(p-s)) * ((2*p-r)*a - q*b + (2*q-p-s)*B + (-2*q-p+s)*t)
     + (2*q+(p-s)) * (- r*a + (2*s-q)*b + (2*r-p-s)*B + (2*r-p+s)*t)
     = (2*(p*s-q*r) - 2*((p-r)*(p-r)))*a + (2*(p*s-q*r)-2*((s-q)*(s-q)))*b + (4*((p-r)*(s-q))-4*(p*s-q*r))*B) by ring.
  rewrite E, D in C. clear E I1 I3.
  set (X := p - r) in *. set (Y := s - q) in *.
  assert (HX : 1 * 1 <= X * X) by (apply sq_ge; subst X; Z.div_mod_to_equations; lia).
  assert (HY : 1 * 1 <= Y * Y) by (apply sq_ge; subst Y; Z.div_mod_to_equations; lia).
  assert (HXY : 2 * 2 <= (X + Y) * (X + Y)).
  { destruct (Z.eq_dec (X + Y) 0) as [e|n].
    - exfalso. assert (F : X * (q - r - X) = 1).
      { assert (Y = - X) by lia. assert (G : X * Y + q * X + r * Y = p * s - q * r) by (subst X Y; ring).
        rewrite D in G. rewrite H in G. lia. }
      assert (X = 1 /\ q - r - X = 1 \/ X = -1 /\ q - r - X = -1).
      { apply Z.mul_eq_1 in F as F'. destruct F' as [e1|e1]; rewrite e1 in *; lia. }
      Z.div_mod_to_equations; lia.
    - apply sq_ge; subst X Y; Z.div_mod_to_equations; lia. }
  assert (H := cone a b B (2 * 1 - 2 * (X * X)) (2 * 1 - 2 * (Y * Y)) (4 * (X * Y) - 4 * 1)).
  assert (0 <= (X - Y) * (X - Y)) by apply Z.square_nonneg.
  lapply H; [clear H; intro H | lia]. lapply H; [clear H; intro H | lia].
  lapply H; [clear H; intro H | lia]. lapply H; [clear H; intro H | lia].
  lapply H; [clear H; intro H | lia]. lapply H; [clear H; intro H | lia]. lia.
Qed.

(* certificate 2: two inequalities of one row *)
Lemma c34 p q r s a b B t : p * s - q * r = 1 ->
  s mod 2 = 1 -> r mod 2 = 0 -> Z.abs B < a -> Z.abs B < b ->
  - r*a + (2*s-q)*b + (2*r-p-s)*B + (2*r-p+s)*t > 0 ->
  r*a + (2*s+q)*b + (2*r+p+s)*B + (2*r+p-s)*t > 0 ->
  2 * Z.abs r <= p - s -> 0 < p - s -> False.
Proof.
  intros D so re Ka Kb I3 I4 L1 L3.
  pose proof (comb (2*r+(p-s)) ((p-s)-2*r) _ _ ltac:(lia) ltac:(lia) ltac:(lia) I3 I4) as C.
  assert (E : (2*r+(p-s)) * (- r*a + (2*s-q)*b + (2*r-p-s)*B + (2*r-p+s)*t)
     + ((p-s)-2*r) * (r*a + (2*s+q)*b + (2*r+p+s)*B + (2*r+p-s)*t)
     = (- 4 * (r * r)) * a + (4*(p*s-q*r) - 4 * (s * s)) * b + (- 8 * (r * s)) * B) by ring.
  rewrite E, D in C. clear E I3 I4.
  assert (0 <= r * r) by apply Z.square_nonneg.
  assert (1 * 1 <= s * s) by (apply sq_ge; Z.div_mod_to_equations; lia).
  assert (1 * 1 <= (r - s) * (r - s)) by (apply sq_ge; Z.div_mod_to_equations; lia).
  assert (1 * 1 <= (r + s) * (r + s)) by (apply sq_ge; Z.div_mod_to_equations; lia).
  assert (H3 := cone a b B (- 4 * (r * r)) (4 * 1 - 4 * (s * s)) (- 8 * (r * s))
    ltac:(lia) ltac:(lia) ltac:(lia) ltac:(lia) ltac:(lia) ltac:(lia)). lia.
Qed.


Lemma R13 a c f b p q r s : (c + f) mod 2 = 0 ->
  p * s - q * r = 1 -> p mod 2 = 1 -> s mod 2 = 1 -> q mod 2 = 0 -> (q - r) mod 4 = 0 ->
  red a c f b -> red (p * a + q * f) (p * c + q * b) (r * a + s * f) (r * c + s * b) ->
  - 2 * q <= p - s <= 2 * r -> 0 < 2 * q + 2 * r -> False.
Proof.
  intros cf D po so qe re [Ka Kb] [Ka' Kb'] L1 L2.
  assert (exists B t, c = B + t /\ f = B - t) as (B & t & -> & ->).
  { exists ((c + f) / 2), ((c - f) / 2). Z.div_mod_to_equations; lia. }
  replace (B + t + (B - t)) with (2 * B) in * by ring.
  set (w := p * (B + t) + q * b + (r * a + s * (B - t))) in *.
  apply (c13 p q r s a b B t D po so qe re); try (subst w; lia).
Qed.

Lemma R34 a c f b p q r s : (c + f) mod 2 = 0 ->
  p * s - q * r = 1 -> s mod 2 = 1 -> r mod 2 = 0 ->
  red a c f b -> red (p * a + q * f) (p * c + q * b) (r * a + s * f) (r * c + s * b) ->
  2 * Z.abs r <= p - s -> 0 < p - s -> False.
Proof.
  intros cf D so re [Ka Kb] [Ka' Kb'] L1 L2.
  assert (exists B t, c = B + t /\ f = B - t) as (B & t & -> & ->).
  { exists ((c + f) / 2), ((c - f) / 2). Z.div_mod_to_equations; lia. }
  replace (B + t + (B - t)) with (2 * B) in * by ring.
  set (w := p * (B + t) + q * b + (r * a + s * (B - t))) in *.
  apply (c34 p q r s a b B t D so re); try (subst w; lia).
Qed.

Lemma R34s a c f b p q r s : (c + f) mod 2 = 0 ->
  p * s - q * r = 1 -> p mod 2 = 1 -> q mod 2 = 0 ->
  red a c f b -> red (p * a + q * f) (p * c + q * b) (r * a + s * f) (r * c + s * b) ->
  2 * Z.abs q <= s - p -> 0 < s - p -> False.
Proof.
  intros cf D so re [Ka Kb] [Ka' Kb'] L1 L2.
  apply (R34 b f c a s r q p); try lia; try (split; lia).
  rewrite Z.add_comm; exact cf.
Qed.

Lemma inv1 p q r s a f : p * s - q * r = 1 -> s * (p * a + q * f) + - q * (r * a + s * f) = a.
Proof. intro D. transitivity ((p * s - q * r) * a); [ring | rewrite D; ring]. Qed.
Lemma inv2 p q r s a f : p * s - q * r = 1 -> - r * (p * a + q * f) + p * (r * a + s * f) = f.
Proof. intro D. transitivity ((p * s - q * r) * f); [ring | rewrite D; ring]. Qed.

Theorem reduced_unique a c f b p q r s :
  a mod 2 = 1 -> b mod 2 = 1 -> c mod 2 = 0 -> (c - f) mod 4 = 0 ->
  p * s - q * r = 1 ->
  p mod 2 = 1 -> s mod 2 = 1 -> q mod 2 = 0 -> (q - r) mod 4 = 0 ->
  red a c f b -> red (p * a + q * f) (p * c + q * b) (r * a + s * f) (r * c + s * b) ->
  p = 1 /\ q = 0 /\ r = 0 /\ s = 1.
Proof.
  intros ao bo ce cf D po so qe re K K'.
  assert (cf2 : (c + f) mod 2 = 0) by (Z.div_mod_to_equations; lia).
  assert (re2 : r mod 2 = 0) by (Z.div_mod_to_equations; lia).
  assert (Keven : exists k1 k2 k3 k4 k5 k6, p = 2 * k1 + 1 /\ s = 2 * k2 + 1 /\ q = 2 * k3 /\ r = 2 * k4 /\ c = 2 * k5 /\ f = 2 * k6).
  { exists (p / 2), (s / 2), (q / 2), (r / 2), (c / 2), (f / 2). Z.div_mod_to_equations; lia. }
  assert (cf2' : ((p * c + q * b) + (r * a + s * f)) mod 2 = 0).
  { destruct Keven as (k1 & k2 & k3 & k4 & k5 & k6 & -> & -> & -> & -> & -> & ->).
    replace ((2 * k1 + 1) * (2 * k5) + 2 * k3 * b + (2 * k4 * a + (2 * k2 + 1) * (2 * k6))) with
      (((2 * k1 + 1) * k5 + k3 * b + (k4 * a + (2 * k2 + 1) * k6)) * 2) by ring. apply Z_mod_mult. }
  assert (D' : s * p - - q * - r = 1) by lia.
  assert (qe' : - q mod 2 = 0) by (Z.div_mod_to_equations; lia).
  assert (re' : - r mod 2 = 0) by (Z.div_mod_to_equations; lia).
  assert (K'' : red (s * (p * a + q * f) + - q * (r * a + s * f)) (s * (p * c + q * b) + - q * (r * c + s * b))
    (- r * (p * a + q * f) + p * (r * a + s * f)) (- r * (p * c + q * b) + p * (r * c + s * b))).
  { rewrite !inv1, !inv2 by exact D. exact K. }
  destruct (Z.eq_dec q 0) as [q0|q0].
  { subst q. assert (E : p * s = 1) by lia. apply Z.mul_eq_1 in E as E'. destruct K, K'.
    destruct E' as [-> | ->]; assert (s = 1 \/ s = -1) as [-> | ->] by lia; try lia.
    assert (Z.abs (r * a) < 4 * a) by lia. assert (0 < a) by lia.
    assert (Z.abs r < 4) by nia. Z.div_mod_to_equations; lia. }
  destruct (Z.eq_dec r 0) as [r0|r0].
  { subst r. assert (E : p * s = 1) by lia. apply Z.mul_eq_1 in E as E'. destruct K, K'.
    destruct E' as [-> | ->]; assert (s = 1 \/ s = -1) as [-> | ->] by lia; try lia.
    assert (Z.abs (q * b) < 4 * b) by lia. assert (0 < b) by lia.
    assert (Z.abs q < 4) by nia. Z.div_mod_to_equations; lia. }
  exfalso.
  assert (N1 := R34 a c f b p q r s cf2 D so re2 K K').
  assert (N2 := R34s a c f b p q r s cf2 D po qe K K').
  assert (N3 := R34 _ _ _ _ s (-q) (-r) p cf2' D' po re' K' K'').
  assert (N4 := R34s _ _ _ _ s (-q) (-r) p cf2' D' so qe' K' K'').
  assert (Z.abs (p - s) < 2 * Z.abs q) by lia.
  assert (Z.abs (p - s) < 2 * Z.abs r) by lia.
  assert (S4 : 2 * 2 <= (p + s) * (p + s)).
  { apply sq_ge; [lia|]. 
    assert ((p + s) mod 4 = 2); [|Z.div_mod_to_equations; lia].
    destruct Keven as (k1 & k2 & k3 & k4 & k5 & k6 & -> & -> & -> & -> & _ & _).
    assert (E : 2 * k1 * k2 + k1 + k2 = 2 * (k3 * k4)) by lia.
    replace (2 * k1 + 1 + (2 * k2 + 1)) with (2 + (k3 * k4 - k1 * k2) * 4) by lia.
    rewrite Z_mod_plus_full. reflexivity. }
  assert (E : (p - s) * (p - s) = (p + s) * (p + s) - 4 - 4 * (q * r)) by lia.
  assert ((p - s) * (p - s) < (2 * Z.abs q) * (2 * Z.abs r)) by nia.
  destruct (Z.lt_trichotomy (q * r) 0) as [L|[L|L]].
  - assert (Z.abs q * Z.abs r = - (q * r)) by (rewrite <- Z.abs_mul; lia). lia.
  - apply Z.mul_eq_0 in L. lia.
  - assert (0 < q /\ 0 < r \/ q < 0 /\ r < 0) as [[]|[]] by nia.
    + apply (R13 a c f b p q r s); auto; lia.
    + apply (R13 a (-c) (-f) b p (-q) (-r) s); try lia; auto.
      * Z.div_mod_to_equations; lia.
      * Z.div_mod_to_equations; lia.
      * destruct K; split; lia.
      * destruct K'; split; lia.
Qed.
