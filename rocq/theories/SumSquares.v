(** Pure mathematics (see SquaresUnique.v), no code of /repo is modelled here: every m = 1 mod 4
    is a sum of three squares ([three_squares] at the end).

    The proof is elementary.  Let N(n) count the n = x^2+y^2+w^2 with x, y even and w odd, let
    R(n) count the reduced forms ab-B^2 = n with a, b odd and B even, and let sg be the sum of
    divisors.  Then
      sum over even s of N(m-s^2) = 2 sg(m)     (Liouville's involution and the symmetry of five
                                                 odd squares give sums of four squares: [A4_sg])
      sum over even s of R(m-s^2) = sg(m)       (each sublattice of index m has exactly one
                                                 reduced basis: [B4_H3], [H3_sg])
    so N(m) = 2 R(m) by induction on m, and R(m) >= 1 because of a = 1, b = m, B = 0.
    Everything is counted inside a box [-K, K], with K large enough for m. *)
From Coq Require Import ZArith Lia List Permutation Bool.
From Verif Require Import SquaresUnique SquaresExist.
Import ListNotations.
Open Scope Z_scope.

Local Open Scope bool_scope.

(* ---- finite sums over lists *)
Fixpoint zsum {T} (F : T -> Z) (l : list T) : Z := match l with nil => 0 | x :: l' => F x + zsum F l' end.

Lemma zsum_ext {T} (F G : T -> Z) l : (forall x, In x l -> F x = G x) -> zsum F l = zsum G l.
Proof. induction l as [|x l IH]; cbn; intro H; [reflexivity|]. rewrite H by now left. rewrite IH; auto. Qed.
Lemma zsum_zero {T} (F : T -> Z) l : (forall x, In x l -> F x = 0) -> zsum F l = 0.
Proof. induction l as [|x l IH]; cbn; intro H; [reflexivity|]. rewrite H by now left. rewrite IH; auto. Qed.
Lemma zsum_add {T} (F G : T -> Z) l : zsum (fun x => F x + G x) l = zsum F l + zsum G l.
Proof. induction l as [|x l IH]; cbn; [reflexivity|]. rewrite IH. ring. Qed.
Lemma zsum_scale {T} k (F : T -> Z) l : zsum (fun x => k * F x) l = k * zsum F l.
Proof. induction l as [|x l IH]; cbn; [ring|]. rewrite IH. ring. Qed.
Lemma zsum_const {T} k (l : list T) : zsum (fun _ => k) l = k * Z.of_nat (length l).
Proof. induction l as [|x l IH]; cbn -[Z.of_nat]; [ring|]. rewrite IH. rewrite Nat2Z.inj_succ. ring. Qed.
Lemma zsum_app {T} (F : T -> Z) l l' : zsum F (l ++ l') = zsum F l + zsum F l'.
Proof. induction l as [|x l IH]; cbn; [reflexivity|]. rewrite IH. ring. Qed.
Lemma zsum_map {S T} (f : S -> T) (F : T -> Z) l : zsum F (map f l) = zsum (fun x => F (f x)) l.
Proof. induction l as [|x l IH]; cbn; [reflexivity|]. now rewrite IH. Qed.
Lemma zsum_perm {T} (F : T -> Z) l l' : Permutation l l' -> zsum F l = zsum F l'.
Proof. induction 1; cbn; lia. Qed.

Lemma zsum_bij {S T} (f : S -> T) (g : T -> S) (F : S -> Z) (G : T -> Z) l1 l2 :
  NoDup l1 -> NoDup l2 ->
  (forall x, In x l1 -> In (f x) l2 /\ g (f x) = x /\ F x = G (f x)) ->
  (forall y, In y l2 -> In (g y) l1 /\ f (g y) = y) -> zsum F l1 = zsum G l2.
Proof.
  intros N1 N2 H1 H2.
  transitivity (zsum G (map f l1)).
  - rewrite zsum_map. apply zsum_ext. intros x Hx. now apply H1.
  - apply zsum_perm. apply NoDup_Permutation; [|exact N2|].
    + clear N2. assert (I : forall x y, In x l1 -> In y l1 -> f x = f y -> x = y).
      { intros x y Hx Hy E. destruct (H1 x Hx) as (_ & E1 & _), (H1 y Hy) as (_ & E2 & _). now rewrite <- E1, <- E2, E. }
      clear H1 H2. induction N1 as [|x l nx N1 IH]; cbn; constructor.
      * intro H. apply in_map_iff in H as (y & E & Hy). apply nx. rewrite (I x y); cbn; auto.
      * apply IH. intros; apply I; cbn; auto.
    + intro y. split.
      * intro H. apply in_map_iff in H as (x & <- & Hx). now apply H1.
      * intro H. apply in_map_iff. exists (g y). destruct (H2 y H). auto.
Qed.

Lemma zsum_split {T} (p : T -> bool) (F : T -> Z) l : zsum F l = zsum F (filter p l) + zsum F (filter (fun x => negb (p x)) l).
Proof. induction l as [|x l IH]; cbn; [reflexivity|]. destruct (p x); cbn; rewrite IH; ring. Qed.
Lemma zsum_filter {T} (p : T -> bool) (F : T -> Z) l : zsum F (filter p l) = zsum (fun x => if p x then F x else 0) l.
Proof. induction l as [|x l IH]; cbn; [reflexivity|]. destruct (p x); cbn; rewrite IH; ring. Qed.
Lemma zsum_prod {S T} (F : S * T -> Z) l1 l2 : zsum F (list_prod l1 l2) = zsum (fun x => zsum (fun y => F (x, y)) l2) l1.
Proof. induction l1 as [|x l IH]; cbn; [reflexivity|]. now rewrite zsum_app, zsum_map, IH. Qed.
Lemma zsum_one {T} (F : T -> Z) l x : NoDup l -> In x l -> (forall y, In y l -> y <> x -> F y = 0) -> zsum F l = F x.
Proof.
  intros N I H. destruct (in_split x l I) as (u & v & ->). rewrite zsum_app. cbn.
  apply NoDup_remove in N as [N1 N2].
  assert (A : forall y, In y (u ++ v) -> F y = 0).
  { intros y Hy. apply H; [apply in_app_iff in Hy; apply in_app_iff; cbn; tauto | intros ->; contradiction]. }
  rewrite !zsum_zero; [ring| |]; intros y Hy; apply A; apply in_app_iff; auto.
Qed.

Lemma NoDup_prod {S T} (l1 : list S) (l2 : list T) : NoDup l1 -> NoDup l2 -> NoDup (list_prod l1 l2).
Proof.
  intros N1 N2. induction N1 as [|x l nx N1 IH]; cbn; [constructor|].
  assert (A : forall (u v : list (S * T)), NoDup u -> NoDup v -> (forall z, In z u -> ~ In z v) -> NoDup (u ++ v)).
  { intros u v Nu Nv D. induction Nu as [|z u nz Nu IHu]; cbn; [exact Nv|]. constructor.
    - rewrite in_app_iff. intros [H|H]; [auto|]. now apply (D z (or_introl eq_refl)).
    - apply IHu. intros w Hw. apply D. now right. }
  apply A; auto.
  - clear - N2. induction N2 as [|y l ny N IH]; cbn; constructor; auto. intro H. apply in_map_iff in H as (w & E & Hw). congruence.
  - intros [z w] H H'. apply in_map_iff in H as (y & E & _). apply in_prod_iff in H' as [H' _]. congruence.
Qed.

Lemma rel_le {S T} (Rel : S -> T -> Prop) (l1 : list S) : NoDup l1 -> forall l2 : list T,
  (forall x, In x l1 -> exists y, In y l2 /\ Rel x y) ->
  (forall x x' y, In x l1 -> In x' l1 -> Rel x y -> Rel x' y -> x = x') -> (length l1 <= length l2)%nat.
Proof.
  induction 1 as [|x l nx N IH]; intros l2 H1 H2; cbn; [lia|].
  destruct (H1 x (or_introl eq_refl)) as (y & Iy & Ry). destruct (in_split y l2 Iy) as (u & v & ->).
  rewrite app_length. cbn.
  assert (length l <= length (u ++ v))%nat; [|rewrite app_length in *; lia].
  apply IH.
  - intros x' Hx'. destruct (H1 x' (or_intror Hx')) as (y' & Iy' & Ry').
    exists y'. split; [|exact Ry']. rewrite in_app_iff in *. cbn in Iy'. destruct Iy' as [|[<-|]]; auto.
    exfalso. apply nx. rewrite (H2 x x' y); cbn; auto.
  - intros a b c Ha Hb. apply H2; now right.
Qed.

(* ---- the box *)
Definition zs (K : nat) : list Z := map (fun n => Z.of_nat n - Z.of_nat K) (seq 0 (2 * K + 1)).
Lemma in_zs K x : In x (zs K) <-> - Z.of_nat K <= x <= Z.of_nat K.
Proof.
  unfold zs. rewrite in_map_iff. split.
  - intros (n & <- & H). apply in_seq in H. lia.
  - intro H. exists (Z.to_nat (x + Z.of_nat K)). rewrite in_seq. lia.
Qed.
Lemma zs_NoDup K : NoDup (zs K).
Proof.
  unfold zs. assert (H := seq_NoDup (2 * K + 1) 0). induction H as [|x l nx N IH]; cbn; constructor; auto.
  intro H. apply in_map_iff in H as (y & E & Hy). assert (x = y) by lia. now subst.
Qed.

Definition od (x : Z) : bool := x mod 2 =? 1.
Definition ev (x : Z) : bool := x mod 2 =? 0.

Section Box.
Variable K : nat.
Let z := zs K.
Let kz := Z.of_nat K.
Let b2 := list_prod z z.
Let b3 := list_prod z b2.
Let b4 := list_prod z b3.
Let b5 := list_prod z b4.

Lemma b2N : NoDup b2. Proof. apply NoDup_prod; apply zs_NoDup. Qed.
Lemma b3N : NoDup b3. Proof. apply NoDup_prod; [apply zs_NoDup | apply b2N]. Qed.
Lemma b4N : NoDup b4. Proof. apply NoDup_prod; [apply zs_NoDup | apply b3N]. Qed.
Lemma b5N : NoDup b5. Proof. apply NoDup_prod; [apply zs_NoDup | apply b4N]. Qed.

Lemma in_b2 x y : In (x, y) b2 <-> Z.abs x <= kz /\ Z.abs y <= kz.
Proof. unfold b2. rewrite in_prod_iff. unfold z. rewrite !in_zs. subst kz. lia. Qed.
Lemma in_b3 x y w : In (x, (y, w)) b3 <-> Z.abs x <= kz /\ Z.abs y <= kz /\ Z.abs w <= kz.
Proof. unfold b3. rewrite in_prod_iff, in_b2. unfold z. rewrite !in_zs. subst kz. lia. Qed.
Lemma in_b4 x y w v : In (x, (y, (w, v))) b4 <-> Z.abs x <= kz /\ Z.abs y <= kz /\ Z.abs w <= kz /\ Z.abs v <= kz.
Proof. unfold b4. rewrite in_prod_iff, in_b3. unfold z. rewrite !in_zs. subst kz. lia. Qed.
Lemma in_b5 x y w v u : In (x, (y, (w, (v, u)))) b5 <-> Z.abs x <= kz /\ Z.abs y <= kz /\ Z.abs w <= kz /\ Z.abs v <= kz /\ Z.abs u <= kz.
Proof. unfold b5. rewrite in_prod_iff, in_b4. unfold z. rewrite !in_zs. subst kz. lia. Qed.

Lemma sq_bound x n : x * x <= n -> n <= kz -> Z.abs x <= kz.
Proof. intros. assert (Z.abs x <= x * x); [|lia]. rewrite <- Z.abs_square. destruct (Z.eq_dec (Z.abs x) 0); [lia|]. nia. Qed.

(* four odd squares *)
Definition p4 (s : Z) (t : Z * (Z * (Z * Z))) : bool :=
  let '(i, (j, (k, l))) := t in od i && od j && od k && od l && (i * i + j * j + k * k + l * l =? s).
Definition O4 (s : Z) : Z := zsum (fun _ => 1) (filter (p4 s) b4).
Definition p5 (M : Z) (t : Z * (Z * (Z * (Z * Z)))) : bool := let '(i, w) := t in od i && p4 (M - i * i) w.
(* the divisors *)
Definition q2 (s : Z) (t : Z * Z) : bool := let '(d, e) := t in (0 <? d) && (0 <? e) && (4 * (d * e) =? s).
Definition sg (s : Z) : Z := zsum (fun t => snd t) (filter (q2 s) b2).

Ltac bb := repeat rewrite Bool.andb_true_iff in *; repeat rewrite Z.eqb_eq in *; repeat rewrite Z.ltb_lt in *.

Lemma p5_spec M i j k l m : p5 M (i, (j, (k, (l, m)))) = true <->
  od i = true /\ od j = true /\ od k = true /\ od l = true /\ od m = true /\ i*i + j*j + k*k + l*l + m*m = M.
Proof. unfold p5, p4. bb. intuition lia. Qed.

Lemma sym5 M (F : Z -> Z) : zsum (fun t => F (fst t)) (filter (p5 M) b5) = zsum (fun t => F (fst (snd t))) (filter (p5 M) b5)
  /\ zsum (fun t => F (fst t)) (filter (p5 M) b5) = zsum (fun t => F (fst (snd (snd t)))) (filter (p5 M) b5)
  /\ zsum (fun t => F (fst t)) (filter (p5 M) b5) = zsum (fun t => F (fst (snd (snd (snd t))))) (filter (p5 M) b5)
  /\ zsum (fun t => F (fst t)) (filter (p5 M) b5) = zsum (fun t => F (snd (snd (snd (snd t))))) (filter (p5 M) b5).
Proof.
  pose (s2 := fun t : Z * (Z * (Z * (Z * Z))) => let '(i, (j, (k, (l, m)))) := t in (j, (i, (k, (l, m))))).
  pose (s3 := fun t : Z * (Z * (Z * (Z * Z))) => let '(i, (j, (k, (l, m)))) := t in (k, (j, (i, (l, m))))).
  pose (s4 := fun t : Z * (Z * (Z * (Z * Z))) => let '(i, (j, (k, (l, m)))) := t in (l, (j, (k, (i, m))))).
  pose (s5 := fun t : Z * (Z * (Z * (Z * Z))) => let '(i, (j, (k, (l, m)))) := t in (m, (j, (k, (l, i))))).
  assert (Nd : NoDup (filter (p5 M) b5)) by apply NoDup_filter, b5N.
  repeat split.
  - apply (zsum_bij s2 s2); auto; intros (i & j & k & l & m); unfold s2; rewrite !filter_In, !in_b5, !p5_spec; cbn [fst snd]; intuition lia.
  - apply (zsum_bij s3 s3); auto; intros (i & j & k & l & m); unfold s3; rewrite !filter_In, !in_b5, !p5_spec; cbn [fst snd]; intuition lia.
  - apply (zsum_bij s4 s4); auto; intros (i & j & k & l & m); unfold s4; rewrite !filter_In, !in_b5, !p5_spec; cbn [fst snd]; intuition lia.
  - apply (zsum_bij s5 s5); auto; intros (i & j & k & l & m); unfold s5; rewrite !filter_In, !in_b5, !p5_spec; cbn [fst snd]; intuition lia.
Qed.

Definition conv (M : Z) (T : Z -> Z) : Z := zsum (fun i => if od i then (M - 5 * (i * i)) * T (M - i * i) else 0) z.

Lemma conv_O4 M : conv M O4 = 0.
Proof.
  transitivity (zsum (fun t => M - 5 * (fst t * fst t)) (filter (p5 M) b5)).
  - rewrite zsum_filter. unfold b5. rewrite zsum_prod. apply zsum_ext. intros i _.
    unfold O4. destruct (od i) eqn:E.
    + rewrite <- zsum_scale, zsum_filter. apply zsum_ext. intros w _. cbn [p5 fst]. rewrite E. cbn [andb].
      destruct (p4 (M - i * i) w); ring.
    + symmetry. apply zsum_zero. intros w _. cbn [p5]. now rewrite E.
  - destruct (sym5 M (fun i => i * i)) as (E2 & E3 & E4 & E5).
    set (L := filter (p5 M) b5) in *. set (S := zsum (fun t => fst t * fst t) L) in *.
    assert (T : S + S + S + S + S = zsum (fun _ => M) L).
    { transitivity (S + zsum (fun t => fst (snd t) * fst (snd t)) L + zsum (fun t => fst (snd (snd t)) * fst (snd (snd t))) L
        + zsum (fun t => fst (snd (snd (snd t))) * fst (snd (snd (snd t)))) L + zsum (fun t => snd (snd (snd (snd t))) * snd (snd (snd (snd t)))) L); [lia|].
      unfold S. rewrite <- !zsum_add.
      apply zsum_ext. intros (i & j & k & l & m) H. apply filter_In in H as [_ H]. apply p5_spec in H. cbn [fst snd]. lia. }
    transitivity (zsum (fun _ => M) L + (-5) * S).
    + unfold S. rewrite <- zsum_scale, <- zsum_add. apply zsum_ext. intros t _. ring.
    + lia.
Qed.

(* Liouville's involution *)
Definition p3 (M : Z) (t : Z * (Z * Z)) : bool := let '(i, (d, e)) := t in od i && q2 (M - i * i) (d, e).
Lemma p3_spec M i d e : p3 M (i, (d, e)) = true <-> od i = true /\ 0 < d /\ 0 < e /\ i * i + 4 * (d * e) = M.
Proof. unfold p3, q2. bb. intuition lia. Qed.

Lemma odd_de M i d e : M mod 8 = 5 -> od i = true -> i * i + 4 * (d * e) = M -> d mod 2 = 1 /\ e mod 2 = 1.
Proof.
  intros M5 Oi E. unfold od in Oi. apply Z.eqb_eq in Oi.
  assert (exists k, i = 2 * k + 1) as (k & ->) by (exists (i / 2); clear - Oi; Z.div_mod_to_equations; lia).
  assert (exists h, k * k + k = 2 * h) as (h & Hh).
  { destruct (Z.Even_or_Odd k) as [[x ->]|[x ->]]; [exists (2 * x * x + x) | exists (2 * x * x + 3 * x + 1)]; ring. }
  assert (P : (d * e) mod 2 = 1).
  { set (u := d * e) in *. clearbody u. clear - M5 E Hh. assert (8 * h + 1 + 4 * u = M) by lia. Z.div_mod_to_equations; lia. }
  rewrite Z.mul_mod in P by lia.
  assert (d mod 2 = 0 \/ d mod 2 = 1) as [D|D] by (clear; Z.div_mod_to_equations; lia); rewrite D in *;
  assert (e mod 2 = 0 \/ e mod 2 = 1) as [D'|D'] by (clear; Z.div_mod_to_equations; lia); rewrite D' in *; auto; discriminate.
Qed.

Lemma L3_bound M i d e : M <= kz -> 0 < d -> 0 < e -> i * i + 4 * (d * e) = M -> Z.abs i <= kz /\ Z.abs d <= kz /\ Z.abs e <= kz.
Proof.
  intros Hk Hd He E. assert (0 <= i * i) by apply Z.square_nonneg. assert (0 < d * e) by (apply Z.mul_pos_pos; lia).
  split; [apply (sq_bound i M); lia|]. assert (d <= d * e) by nia. assert (e <= d * e) by nia. lia.
Qed.

Lemma conv_sg M : M mod 8 = 5 -> M <= kz -> conv M sg = 0.
Proof.
  intros M5 Mk.
  set (L := filter (p3 M) b3).
  assert (Nd : NoDup L) by apply NoDup_filter, b3N.
  assert (InL : forall i d e, In (i, (d, e)) L <-> od i = true /\ 0 < d /\ 0 < e /\ i * i + 4 * (d * e) = M).
  { intros i d e. unfold L. rewrite filter_In, in_b3, p3_spec. split; [tauto|]. intro H. split; [|exact H].
    apply (L3_bound M); tauto. }
  assert (E1 : conv M sg = zsum (fun t => (M - 5 * (fst t * fst t)) * snd (snd t)) L).
  { unfold L. rewrite zsum_filter. unfold b3. rewrite zsum_prod. apply zsum_ext. intros i _.
    unfold sg. destruct (od i) eqn:E.
    - rewrite <- zsum_scale, zsum_filter. apply zsum_ext. intros [d e] _. cbn [p3 fst snd]. rewrite E. cbn [andb].
      destruct (q2 (M - i * i) (d, e)); ring.
    - symmetry. apply zsum_zero. intros [d e] _. cbn [p3]. now rewrite E. }
  pose (sw := fun t : Z * (Z * Z) => let '(i, (d, e)) := t in (i, (e, d))).
  pose (rh := fun t : Z * (Z * Z) => let '(i, (d, e)) := t in (- i, (e, d))).
  pose (th := fun t : Z * (Z * Z) => let '(i, (d, e)) := t in (2 * d - i, (d, e + i - d))).
  assert (Sw : forall F G, (forall i d e, F (i, (d, e)) = G (i, (e, d))) -> zsum F L = zsum G L).
  { intros F G HF. apply (zsum_bij sw sw); auto; intros (i & d & e); unfold sw; rewrite !InL.
    - intros H. rewrite HF. intuition lia.
    - intuition lia. }
  set (F := fun t : Z * (Z * Z) => (fst (snd t) + snd (snd t)) * (fst (snd t) - fst t) * (snd (snd t) + fst t)).
  assert (E2 : 2 * conv M sg = 4 * zsum F L).
  { assert (A : zsum (fun t => (M - 5 * (fst t * fst t)) * snd (snd t)) L = zsum (fun t => (M - 5 * (fst t * fst t)) * fst (snd t)) L).
    { apply Sw. intros; reflexivity. }
    assert (B : zsum (fun t => fst t * (fst (snd t) * fst (snd t))) L = zsum (fun t => fst t * (snd (snd t) * snd (snd t))) L).
    { apply Sw. intros; reflexivity. }
    transitivity (zsum (fun t => (M - 5 * (fst t * fst t)) * snd (snd t)) L + zsum (fun t => (M - 5 * (fst t * fst t)) * fst (snd t)) L); [lia|].
    rewrite <- zsum_scale.
    transitivity (zsum (fun t => (M - 5 * (fst t * fst t)) * snd (snd t)) L + zsum (fun t => (M - 5 * (fst t * fst t)) * fst (snd t)) L
      + 4 * zsum (fun t => fst t * (fst (snd t) * fst (snd t))) L + (-4) * zsum (fun t => fst t * (snd (snd t) * snd (snd t))) L); [lia|].
    rewrite <- !zsum_scale, <- !zsum_add. apply zsum_ext. intros (i & d & e) H. apply InL in H as (_ & _ & _ & <-). unfold F. cbn [fst snd]. ring. }
  assert (EF : zsum F L = 0); [|lia].
  rewrite (zsum_split (fun t => fst (snd t) <? snd (snd t) + fst t)).
  set (U := filter (fun t => fst (snd t) <? snd (snd t) + fst t) L). set (W := filter _ L).
  assert (InU : forall i d e, In (i, (d, e)) U <-> In (i, (d, e)) L /\ d < e + i) by (intros; unfold U; rewrite filter_In; cbn [fst snd]; rewrite Z.ltb_lt; tauto).
  assert (InW : forall i d e, In (i, (d, e)) W <-> In (i, (d, e)) L /\ e + i < d).
  { intros. unfold W. rewrite filter_In. cbn [fst snd]. rewrite Bool.negb_true_iff, Z.ltb_ge. split; [|intuition lia].
    intros [H1 H2]. split; [exact H1|]. apply InL in H1 as (Oi & Hd & He & E). destruct (odd_de M i d e M5 Oi E) as [D1 D2].
    apply Z.eqb_eq in Oi. clear - Oi D1 D2 H2. Z.div_mod_to_equations; lia. }
  assert (NU : NoDup U) by now apply NoDup_filter. assert (NW : NoDup W) by now apply NoDup_filter.
  assert (EU : zsum F U = zsum (fun t => - 1 * F t) U).
  { assert (T : forall i d e, In (i, (d, e)) U -> In (th (i, (d, e))) U /\ th (th (i, (d, e))) = (i, (d, e)) /\ F (i, (d, e)) = - 1 * F (th (i, (d, e)))).
    { intros i d e H. unfold th. rewrite InU, InL in *. destruct H as [(Oi & Hd & He & E) Hu].
      repeat split; try lia.
      - unfold od in *. rewrite Z.eqb_eq in *. clear - Oi. Z.div_mod_to_equations; lia.
      - f_equal; [ring|]. f_equal. ring.
      - unfold F. cbn [fst snd]. ring. }
    apply (zsum_bij th th); auto; intros (i & d & e) H; destruct (T i d e H) as (T1 & T2 & T3); auto. }
  assert (EW : zsum F W = zsum F U).
  { apply (zsum_bij rh rh); auto; intros (i & d & e) H; unfold rh.
    - rewrite InU, InL. rewrite InW, InL in H. destruct H as [(Oi & Hd & He & E) Hu]. repeat split; try lia.
      + unfold od in *. rewrite Z.eqb_eq in *. clear - Oi. Z.div_mod_to_equations; lia.
      + f_equal. lia.
      + unfold F. cbn [fst snd]. ring.
    - rewrite InW, InL. rewrite InU, InL in H. destruct H as [(Oi & Hd & He & E) Hu]. repeat split; try lia.
      + unfold od in *. rewrite Z.eqb_eq in *. clear - Oi. Z.div_mod_to_equations; lia.
      + f_equal. lia. }
  rewrite zsum_scale in EU. lia.
Qed.

Lemma O4_neg s : s <= 0 -> O4 s = 0.
Proof.
  intro H. apply zsum_zero. intros (i & j & k & l) I. apply filter_In in I as [_ I]. unfold p4 in I. bb.
  destruct I as [[[[I _] _] _] E]. exfalso. apply Z.eqb_eq in I.
  assert (0 < i * i) by (assert (i <> 0) by (intros ->; discriminate); nia).
  pose proof (Z.square_nonneg j). pose proof (Z.square_nonneg k). pose proof (Z.square_nonneg l). lia.
Qed.
Lemma sg_neg s : s <= 0 -> sg s = 0.
Proof.
  intro H. apply zsum_zero. intros (d & e) I. apply filter_In in I as [_ I]. unfold q2 in I. bb. nia.
Qed.

Lemma odd_sq_ge i : od i = true -> 1 <= i * i.
Proof. unfold od. rewrite Z.eqb_eq. intro H. assert (i <> 0) by (intros ->; discriminate). nia. Qed.

Lemma O4_4 : 4 <= kz -> O4 4 = 16.
Proof.
  intro Hk. unfold O4. 
  set (pm := [1; -1]). 
  transitivity (zsum (fun _ => 1) (list_prod pm (list_prod pm (list_prod pm pm)))); [|reflexivity].
  apply zsum_perm. apply NoDup_Permutation.
  - apply NoDup_filter, b4N.
  - repeat apply NoDup_prod; repeat constructor; cbn; intuition lia.
  - intros (i & j & k & l). rewrite filter_In, in_b4, !in_prod_iff. unfold p4. bb. split.
    + intros [_ [[[[Hi Hj] Hk'] Hl] E]].
      pose proof (odd_sq_ge i Hi). pose proof (odd_sq_ge j Hj). pose proof (odd_sq_ge k Hk'). pose proof (odd_sq_ge l Hl).
      assert (A : forall x, x * x = 1 -> In x pm) by (intros x Hx; apply Z.mul_eq_1 in Hx; cbn; intuition lia).
      repeat split; apply A; lia.
    + intros (Hi & Hj & Hk' & Hl). cbn in Hi, Hj, Hk', Hl.
      destruct Hi as [<-|[<-|[]]], Hj as [<-|[<-|[]]], Hk' as [<-|[<-|[]]], Hl as [<-|[<-|[]]]; cbn; intuition lia.
Qed.

Lemma sg_4 : 4 <= kz -> sg 4 = 1.
Proof.
  intro Hk. unfold sg. transitivity (zsum (fun t : Z * Z => snd t) [(1, 1)]); [|reflexivity].
  apply zsum_perm. apply NoDup_Permutation.
  - apply NoDup_filter, b2N.
  - repeat constructor; cbn; tauto.
  - intros (d & e). rewrite filter_In, in_b2. unfold q2. bb. split.
    + intros [_ [[Hd He] E]]. assert (E' : d * e = 1) by lia. apply Z.mul_eq_1 in E' as [->| ->]; [|lia]. cbn. left. f_equal. lia.
    + intros [E|[]]. injection E as <- <-. lia.
Qed.

Theorem four_odd s : s mod 8 = 4 -> s + 1 <= kz -> O4 s = 16 * sg s.
Proof.
  assert (A : forall n, forall s, s < Z.of_nat n -> s mod 8 = 4 -> s + 1 <= kz -> O4 s = 16 * sg s).
  { induction n as [|n IH]; intros s' L S4 Sk.
    - rewrite O4_neg, sg_neg by lia. reflexivity.
    - destruct (Z_le_gt_dec s' 0) as [S0|S0]; [rewrite O4_neg, sg_neg by lia; reflexivity|].
      destruct (Z.eq_dec s' 4) as [->|S4']; [rewrite O4_4, sg_4 by lia; reflexivity|].
      set (M := s' + 1).
      assert (M5 : M mod 8 = 5) by (subst M; clear - S4; Z.div_mod_to_equations; lia).
      pose proof (conv_O4 M) as C1. pose proof (conv_sg M M5 ltac:(subst M; lia)) as C2.
      set (T := fun x => O4 x - 16 * sg x).
      assert (C : conv M T = 0).
      { transitivity (conv M O4 + (-16) * conv M sg); [|lia]. unfold conv. rewrite <- zsum_scale, <- zsum_add.
        apply zsum_ext. intros i _. unfold T. destruct (od i); ring. }
      assert (Z0 : forall i, od i = true -> i <> 1 -> i <> -1 -> T (M - i * i) = 0).
      { intros i Oi n1 n2. unfold T. assert (Hi : 9 <= i * i).
        { apply Z.eqb_eq in Oi. assert (3 <= Z.abs i) by (clear - Oi n1 n2; Z.div_mod_to_equations; lia).
          apply (sq_ge i 3); lia. }
        destruct (Z_le_gt_dec (M - i * i) 0); [rewrite O4_neg, sg_neg by lia; reflexivity|].
        rewrite IH; [ring| subst M; lia | | subst M; lia].
        assert (exists k, i = 2 * k + 1) as (k & ->) by (apply Z.eqb_eq in Oi; exists (i / 2); clear - Oi; Z.div_mod_to_equations; lia).
        assert (exists h, k * k + k = 2 * h) as (h & Hh).
        { destruct (Z.Even_or_Odd k) as [[x ->]|[x ->]]; [exists (2 * x * x + x) | exists (2 * x * x + 3 * x + 1)]; ring. }
        replace (M - (2 * k + 1) * (2 * k + 1)) with ((M - 1) + (- h) * 8) by lia.
        rewrite Z_mod_plus_full. clear - M5. Z.div_mod_to_equations; lia. }
      assert (Cv : conv M T = 2 * ((M - 5) * T s')).
      { unfold conv.
        pose (G1 := fun i => if i =? 1 then (M - 5) * T s' else 0). pose (G2 := fun i => if i =? -1 then (M - 5) * T s' else 0).
        transitivity (zsum (fun i => G1 i + G2 i) z).
        - apply zsum_ext. intros i _. unfold G1, G2.
          destruct (Z.eqb_spec i 1) as [->|n1]; [cbn; replace (M - 1) with s' by (subst M; lia); ring|].
          destruct (Z.eqb_spec i (-1)) as [->|n2]; [cbn; replace (M - 1) with s' by (subst M; lia); ring|].
          destruct (od i) eqn:Oi; [rewrite Z0 by assumption|]; ring.
        - rewrite zsum_add. rewrite (zsum_one G1 z 1), (zsum_one G2 z (-1)).
          + change (G1 1) with ((M - 5) * T s'). change (G2 (-1)) with ((M - 5) * T s'). clearbody T M. ring.
          + apply zs_NoDup.
          + apply in_zs. subst kz. lia.
          + intros y _ n'. unfold G2. now destruct (Z.eqb_spec y (-1)).
          + apply zs_NoDup.
          + apply in_zs. subst kz. lia.
          + intros y _ n'. unfold G1. now destruct (Z.eqb_spec y 1). }
      rewrite C in Cv. assert (Tz : T s' = 0); [|unfold T in Tz; lia].
      symmetry in Cv. apply Z.mul_eq_0 in Cv as [Cv|Cv]; [lia|]. apply Z.mul_eq_0 in Cv as [Cv|Cv]; [subst M; lia|exact Cv]. }
  intros S4 Sk. apply (A (Z.to_nat (s + 1))); auto. lia.
Qed.

(* four squares, one of them odd *)
Definition r4 (m : Z) (t : Z * (Z * (Z * Z))) : bool := let '(s, (x, (y, w))) := t in s * s + x * x + y * y + w * w =? m.
Definition p1 (m : Z) (t : Z * (Z * (Z * Z))) : bool :=
  let '(s, (x, (y, w))) := t in ev s && (ev x && ev y && od w && (x * x + y * y + w * w =? m - s * s)).
Definition A4 (m : Z) : Z := zsum (fun _ => 1) (filter (p1 m) b4).

Lemma sq_mod4 x : (od x = true /\ ev x = false /\ (x * x) mod 4 = 1) \/ (od x = false /\ ev x = true /\ (x * x) mod 4 = 0).
Proof.
  unfold od, ev. destruct (Z.Even_or_Odd x) as [[k ->]|[k ->]].
  - right. replace (2 * k * (2 * k)) with (0 + (k * k) * 4) by ring. replace (2 * k) with (0 + k * 2) by ring.
    rewrite !Z_mod_plus_full. auto.
  - left. replace ((2 * k + 1) * (2 * k + 1)) with (1 + (k * k + k) * 4) by ring. replace (2 * k + 1) with (1 + k * 2) by ring.
    rewrite !Z_mod_plus_full. auto.
Qed.

Lemma bound4 m s x y w : m <= kz -> s * s + x * x + y * y + w * w = m -> Z.abs s <= kz /\ Z.abs x <= kz /\ Z.abs y <= kz /\ Z.abs w <= kz.
Proof.
  intros Hk E. pose proof (Z.square_nonneg s). pose proof (Z.square_nonneg x). pose proof (Z.square_nonneg y). pose proof (Z.square_nonneg w).
  repeat split; apply (sq_bound _ m); lia.
Qed.

Lemma r4_four m : m mod 4 = 1 -> m <= kz -> zsum (fun _ => 1) (filter (r4 m) b4) = 4 * A4 m.
Proof.
  intros M1 Mk. set (L := filter (r4 m) b4). set (L1 := filter (p1 m) b4).
  assert (NL : NoDup L) by apply NoDup_filter, b4N. assert (N1 : NoDup L1) by apply NoDup_filter, b4N.
  assert (InL : forall s x y w, In (s, (x, (y, w))) L <-> s * s + x * x + y * y + w * w = m).
  { intros. unfold L. rewrite filter_In, in_b4. unfold r4. rewrite Z.eqb_eq. split; [tauto|]. intro H. split; [now apply (bound4 m)|exact H]. }
  assert (In1 : forall s x y w, In (s, (x, (y, w))) L1 <-> od w = true /\ s * s + x * x + y * y + w * w = m).
  { intros. unfold L1. rewrite filter_In, in_b4. unfold p1. bb. split; [intuition lia|]. intros [Ow E].
    split; [now apply (bound4 m)|]. assert (E' : (s * s + x * x + y * y + w * w) mod 4 = 1) by (rewrite E; exact M1).
    assert (E2 : x * x + y * y + w * w = m - s * s) by lia.
    destruct (sq_mod4 w) as [(W1 & W2 & W3)|(W1 & _)]; [|congruence].
    destruct (sq_mod4 s) as [(S1 & S2 & S3)|(S1 & S2 & S3)], (sq_mod4 x) as [(X1 & X2 & X3)|(X1 & X2 & X3)], (sq_mod4 y) as [(Y1 & Y2 & Y3)|(Y1 & Y2 & Y3)];
      auto 10; exfalso; clear - E' W3 S3 X3 Y3;
      set (a := s * s) in *; set (b := x * x) in *; set (c := y * y) in *; set (d := w * w) in *; clearbody a b c d; Z.div_mod_to_equations; lia. }
  pose (i1 := fun t : Z * (Z * (Z * Z)) => let '(s, (x, (y, w))) := t in if od s then 1 else 0).
  pose (i2 := fun t : Z * (Z * (Z * Z)) => let '(s, (x, (y, w))) := t in if od x then 1 else 0).
  pose (i3 := fun t : Z * (Z * (Z * Z)) => let '(s, (x, (y, w))) := t in if od y then 1 else 0).
  pose (i4 := fun t : Z * (Z * (Z * Z)) => let '(s, (x, (y, w))) := t in if od w then 1 else 0).
  assert (S : zsum (fun _ => 1) L = zsum i1 L + zsum i2 L + zsum i3 L + zsum i4 L).
  { rewrite <- !zsum_add. apply zsum_ext. intros (s & x & y & w) H. apply InL in H. unfold i1, i2, i3, i4.
    assert (E' : (s * s + x * x + y * y + w * w) mod 4 = 1) by (rewrite H; exact M1). clear H.
    destruct (sq_mod4 w) as [(W1 & W2 & W3)|(W1 & W2 & W3)], (sq_mod4 s) as [(S1 & S2 & S3)|(S1 & S2 & S3)], (sq_mod4 x) as [(X1 & X2 & X3)|(X1 & X2 & X3)], (sq_mod4 y) as [(Y1 & Y2 & Y3)|(Y1 & Y2 & Y3)];
      rewrite S1, X1, Y1, W1; try reflexivity; exfalso; clear - E' W3 S3 X3 Y3;
      set (a := s * s) in *; set (b := x * x) in *; set (c := y * y) in *; set (d := w * w) in *; clearbody a b c d; Z.div_mod_to_equations; lia. }
  assert (F4 : zsum i4 L = A4 m).
  { transitivity (zsum (fun _ => 1) (filter (fun t => od (snd (snd (snd t)))) L)).
    - rewrite zsum_filter. apply zsum_ext. intros (s & x & y & w) _. reflexivity.
    - unfold A4. fold L1. apply zsum_perm, NoDup_Permutation; [now apply NoDup_filter|exact N1|].
      intros (s & x & y & w). rewrite filter_In, InL, In1. cbn [snd]. tauto. }
  assert (F3 : zsum i3 L = zsum i4 L).
  { apply (zsum_bij (fun t => let '(s, (x, (y, w))) := t in (s, (x, (w, y)))) (fun t => let '(s, (x, (y, w))) := t in (s, (x, (w, y))))); auto;
    intros (s & x & y & w); rewrite !InL; unfold i3, i4; intuition lia. }
  assert (F2 : zsum i2 L = zsum i4 L).
  { apply (zsum_bij (fun t => let '(s, (x, (y, w))) := t in (s, (w, (y, x)))) (fun t => let '(s, (x, (y, w))) := t in (s, (w, (y, x))))); auto;
    intros (s & x & y & w); rewrite !InL; unfold i2, i4; intuition lia. }
  assert (F1 : zsum i1 L = zsum i4 L).
  { apply (zsum_bij (fun t => let '(s, (x, (y, w))) := t in (w, (x, (y, s)))) (fun t => let '(s, (x, (y, w))) := t in (w, (x, (y, s))))); auto;
    intros (s & x & y & w); rewrite !InL; unfold i1, i4; intuition lia. }
  lia.
Qed.

Lemma O4_r4 m : m mod 2 = 1 -> 4 * m <= kz -> O4 (4 * m) = 2 * zsum (fun _ => 1) (filter (r4 m) b4).
Proof.
  intros M1 Mk. unfold O4. set (L := filter (p4 (4 * m)) b4). set (R := filter (r4 m) b4).
  destruct (Z_lt_le_dec m 0) as [Mn|Mp].
  { assert (A : forall t, In t L -> False).
    { intros (i & j & k & l) H. apply filter_In in H as [_ H]. unfold p4 in H. bb.
      pose proof (Z.square_nonneg i). pose proof (Z.square_nonneg j). pose proof (Z.square_nonneg k). pose proof (Z.square_nonneg l). lia. }
    assert (B : forall t, In t R -> False).
    { intros (i & j & k & l) H. apply filter_In in H as [_ H]. unfold r4 in H. bb.
      pose proof (Z.square_nonneg i). pose proof (Z.square_nonneg j). pose proof (Z.square_nonneg k). pose proof (Z.square_nonneg l). lia. }
    rewrite !zsum_zero; [reflexivity| |]; intros t Ht; exfalso; eauto. }
  assert (NL : NoDup L) by apply NoDup_filter, b4N. assert (NR : NoDup R) by apply NoDup_filter, b4N.
  assert (InL : forall i j k l, In (i, (j, (k, l))) L <-> od i = true /\ od j = true /\ od k = true /\ od l = true /\ i * i + j * j + k * k + l * l = 4 * m).
  { intros. unfold L. rewrite filter_In, in_b4. unfold p4. bb. split; [tauto|]. intro H. split; [|tauto]. apply (bound4 (4 * m)); [exact Mk|tauto]. }
  assert (InR : forall s x y w, In (s, (x, (y, w))) R <-> s * s + x * x + y * y + w * w = m).
  { intros. unfold R. rewrite filter_In, in_b4. unfold r4. rewrite Z.eqb_eq. split; [tauto|]. intro H. split; [|exact H]. apply (bound4 m); [lia|exact H]. }
  pose (su := fun t : Z * (Z * (Z * Z)) => let '(i, (j, (k, l))) := t in (i + j + k + l) mod 4 =? 0).
  rewrite (zsum_split su).
  set (L0 := filter su L). set (L2 := filter _ L).
  assert (N0 : NoDup L0) by now apply NoDup_filter. assert (N2 : NoDup L2) by now apply NoDup_filter.
  assert (E2 : zsum (fun _ => 1) L2 = zsum (fun _ => 1) L0).
  { apply (zsum_bij (fun t => let '(i, (j, (k, l))) := t in (- i, (j, (k, l)))) (fun t => let '(i, (j, (k, l))) := t in (- i, (j, (k, l))))); auto;
    intros (i & j & k & l) H; unfold L0, L2 in *; rewrite filter_In, InL in *; unfold su in *; rewrite ?Bool.negb_true_iff, ?Z.eqb_neq, ?Z.eqb_eq in *;
    unfold od in *; rewrite ?Z.eqb_eq in *; destruct H as [(H1 & H2 & H3 & H4 & H5) H6].
    - repeat split; auto; try lia; try (clear - H1 H2 H3 H4 H6; Z.div_mod_to_equations; lia). rewrite Z.opp_involutive. reflexivity.
    - repeat split; auto; try lia; try (clear - H1 H2 H3 H4 H6; Z.div_mod_to_equations; lia). rewrite Z.opp_involutive. reflexivity. }
  assert (E0 : zsum (fun _ => 1) L0 = zsum (fun _ => 1) R).
  { apply (zsum_bij (fun t => let '(i, (j, (k, l))) := t in ((i + j + k + l) / 4, ((i + j - k - l) / 4, ((i - j + k - l) / 4, (i - j - k + l) / 4))))
      (fun t => let '(s, (x, (y, w))) := t in (s + x + y + w, (s + x - y - w, (s - x + y - w, s - x - y + w))))); auto.
    - intros (i & j & k & l) H. unfold L0 in *; rewrite filter_In, InL in *; unfold su in *; rewrite ?Z.eqb_eq in *;
      unfold od in *; rewrite ?Z.eqb_eq in *; destruct H as [(H1 & H2 & H3 & H4 & H5) H6]. rewrite InR.
      assert (exists s x y w, i = s + x + y + w /\ j = s + x - y - w /\ k = s - x + y - w /\ l = s - x - y + w) as (s & x & y & w & -> & -> & -> & ->).
      { exists ((i + j + k + l) / 4), ((i + j - k - l) / 4), ((i - j + k - l) / 4), ((i - j - k + l) / 4).
        clear - H1 H2 H3 H4 H6. Z.div_mod_to_equations; lia. }
      replace (s + x + y + w + (s + x - y - w) + (s - x + y - w) + (s - x - y + w)) with (s * 4) by ring.
      replace (s + x + y + w + (s + x - y - w) - (s - x + y - w) - (s - x - y + w)) with (x * 4) by ring.
      replace (s + x + y + w - (s + x - y - w) + (s - x + y - w) - (s - x - y + w)) with (y * 4) by ring.
      replace (s + x + y + w - (s + x - y - w) - (s - x + y - w) + (s - x - y + w)) with (w * 4) by ring.
      rewrite !Z.div_mul by lia. repeat split. lia.
    - intros (s & x & y & w) H. rewrite InR in H. unfold L0. rewrite filter_In, InL.
      assert (P : (s + x + y + w) mod 2 = 1).
      { assert (Q : forall a, exists h, a * a = a + 2 * h).
        { intro a. destruct (Z.Even_or_Odd a) as [[v ->]|[v ->]]; [exists (2 * v * v - v) | exists (2 * v * v + v)]; ring. }
        destruct (Q s) as (h1 & e1), (Q x) as (h2 & e2), (Q y) as (h3 & e3), (Q w) as (h4 & e4).
        clear - H M1 e1 e2 e3 e4. assert (s + x + y + w + 2 * (h1 + h2 + h3 + h4) = m) by lia. Z.div_mod_to_equations; lia. }
      split.
      + unfold su, od. rewrite !Z.eqb_eq.
        replace (s + x + y + w + (s + x - y - w) + (s - x + y - w) + (s - x - y + w)) with (s * 4) by ring.
        rewrite Z_mod_mult. repeat split; try (clear - P; Z.div_mod_to_equations; lia). lia.
      + replace (s + x + y + w + (s + x - y - w) + (s - x + y - w) + (s - x - y + w)) with (s * 4) by ring.
        replace (s + x + y + w + (s + x - y - w) - (s - x + y - w) - (s - x - y + w)) with (x * 4) by ring.
        replace (s + x + y + w - (s + x - y - w) + (s - x + y - w) - (s - x - y + w)) with (y * 4) by ring.
        replace (s + x + y + w - (s + x - y - w) - (s - x + y - w) + (s - x - y + w)) with (w * 4) by ring.
        rewrite !Z.div_mul by lia. reflexivity. }
  lia.
Qed.

Theorem A4_sg m : m mod 4 = 1 -> 4 * m + 1 <= kz -> A4 m = 2 * sg (4 * m).
Proof.
  intros M1 Mk. destruct (Z_le_gt_dec m 0) as [M0|M0].
  - assert (A4 m = 0); [|rewrite sg_neg; lia]. apply zsum_zero. intros (s & x & y & w) H. exfalso.
    apply filter_In in H as [_ H]. unfold p1 in H. bb. destruct H as [_ [[_ H] E]].
    pose proof (odd_sq_ge w H). pose proof (Z.square_nonneg s). pose proof (Z.square_nonneg x). pose proof (Z.square_nonneg y). lia.
  - assert (E1 := r4_four m M1 ltac:(lia)).
    assert (M2 : m mod 2 = 1) by (clear - M1; Z.div_mod_to_equations; lia).
    assert (E2 := O4_r4 m M2 ltac:(lia)).
    assert (E3 : O4 (4 * m) = 16 * sg (4 * m)).
    { apply four_odd; [|lia]. clear - M1. Z.div_mod_to_equations; lia. }
    lia.
Qed.

(* reduced matrices *)
Definition pr (n : Z) (t : Z * (Z * Z)) : bool :=
  let '(a, (b, B)) := t in od a && od b && ev B && (Z.abs B <? a) && (Z.abs B <? b) && (a * b - B * B =? n).
Definition R3 (n : Z) : Z := zsum (fun _ => 1) (filter (pr n) b3).
Definition pB (m : Z) (t : Z * (Z * (Z * Z))) : bool := let '(s, w) := t in ev s && pr (m - s * s) w.
Definition B4 (m : Z) : Z := zsum (fun _ => 1) (filter (pB m) b4).
(* matrices in normal form *)
Definition ph (m : Z) (t : Z * (Z * Z)) : bool :=
  let '(d, (e, j)) := t in (0 <? d) && (0 <? e) && (d * e =? m) && ((0 <=? j) && (j <? e)).
Definition H3 (m : Z) : Z := zsum (fun _ => 1) (filter (ph m) b3).

Lemma pr_pos n a b B : Z.abs B < a -> Z.abs B < b -> a * b - B * B = n -> a <= n /\ b <= n.
Proof.
  intros Ha Hb E. rewrite <- (Z.abs_square B) in E. set (v := Z.abs B) in *. assert (0 <= v) by (subst v; lia). clearbody v.
  split; nia.
Qed.

Lemma interval e : 0 <= e <= kz -> zsum (fun j => if (0 <=? j) && (j <? e) then 1 else 0) z = e.
Proof.
  intro He. rewrite <- zsum_filter.
  transitivity (zsum (fun _ : Z => 1) (map Z.of_nat (seq 0 (Z.to_nat e)))).
  - apply zsum_perm, NoDup_Permutation.
    + apply NoDup_filter, zs_NoDup.
    + assert (H := seq_NoDup (Z.to_nat e) 0). induction H as [|x l nx N IH]; cbn; constructor; auto.
      intro H. apply in_map_iff in H as (y & E & Hy). assert (x = y) by lia. now subst.
    + intro j. rewrite filter_In. unfold z. rewrite in_zs, in_map_iff. rewrite Bool.andb_true_iff, Z.leb_le, Z.ltb_lt. split.
      * intros [_ H]. exists (Z.to_nat j). rewrite in_seq. lia.
      * intros (n & <- & H). apply in_seq in H. subst kz. lia.
  - rewrite zsum_map, zsum_const, seq_length. lia.
Qed.

Lemma H3_sg m : m <= kz -> H3 m = sg (4 * m).
Proof.
  intro Mk. unfold H3, sg. rewrite !zsum_filter. unfold b3, b2. rewrite !zsum_prod. apply zsum_ext. intros d _.
  rewrite !zsum_prod. apply zsum_ext. intros e _. unfold ph, q2. cbn [snd].
  destruct (0 <? d) eqn:Ed; cbn [andb]; [|apply zsum_zero; auto].
  destruct (0 <? e) eqn:Ee; cbn [andb]; [|apply zsum_zero; auto].
  destruct (d * e =? m) eqn:Em; cbn [andb].
  - bb. assert (4 * (d * e) =? 4 * m = true) as -> by (apply Z.eqb_eq; lia). apply interval. nia.
  - apply Z.eqb_neq in Em. assert (4 * (d * e) =? 4 * m = false) as -> by (apply Z.eqb_neq; lia). apply zsum_zero; auto.
Qed.

Definition Rel (t : Z * (Z * (Z * Z))) (h : Z * (Z * Z)) : Prop :=
  let '(s, (a, (b, B))) := t in let '(d, (e, j)) := h in
  exists p q r u, p * u - q * r = 1 /\ a = p * d /\ B + s = p * (4 * j) + q * e /\ B - s = r * d /\ b = r * (4 * j) + u * e.

Lemma gamma_par a c f b p q r s : evn a c f b ->
  evn (p * a + q * f) (p * c + q * b) (r * a + s * f) (r * c + s * b) ->
  p mod 2 = 1 /\ s mod 2 = 1 /\ q mod 2 = 0 /\ (q - r) mod 4 = 0.
Proof.
  intros (A1 & B1 & C1 & F1) (A2 & B2 & C2 & F2).
  assert (exists x, a = 2 * x + 1) as (a1 & ->) by (exists (a / 2); clear - A1; Z.div_mod_to_equations; lia).
  assert (exists x, b = 2 * x + 1) as (b1 & ->) by (exists (b / 2); clear - B1; Z.div_mod_to_equations; lia).
  assert (exists x k, f = 2 * x /\ c = 2 * x + 4 * k) as (f1 & k & -> & ->).
  { exists (f / 2), ((c - f) / 4). clear - C1 F1. Z.div_mod_to_equations; lia. }
  assert (P : p mod 2 = 1).
  { replace (p * (2 * a1 + 1) + q * (2 * f1)) with (p + (p * a1 + q * f1) * 2) in A2 by ring. now rewrite Z_mod_plus_full in A2. }
  assert (Q : q mod 2 = 0).
  { replace (p * (2 * f1 + 4 * k) + q * (2 * b1 + 1)) with (q + (p * (f1 + 2 * k) + q * b1) * 2) in C2 by ring. now rewrite Z_mod_plus_full in C2. }
  assert (S : s mod 2 = 1).
  { replace (r * (2 * f1 + 4 * k) + s * (2 * b1 + 1)) with (s + (r * (f1 + 2 * k) + s * b1) * 2) in B2 by ring. now rewrite Z_mod_plus_full in B2. }
  assert (exists x, p = 2 * x + 1) as (p1' & ->) by (exists (p / 2); clear - P; Z.div_mod_to_equations; lia).
  assert (exists x, q = 2 * x) as (q1 & ->) by (exists (q / 2); clear - Q; Z.div_mod_to_equations; lia).
  assert (exists x, s = 2 * x + 1) as (s1 & ->) by (exists (s / 2); clear - S; Z.div_mod_to_equations; lia).
  assert (R : r mod 2 = 0).
  { replace ((2 * p1' + 1) * (2 * f1 + 4 * k) + 2 * q1 * (2 * b1 + 1) - (r * (2 * a1 + 1) + (2 * s1 + 1) * (2 * f1)))
      with (- r + 2 * ((2 * p1' + 1) * (f1 + 2 * k) + q1 * (2 * b1 + 1) - r * a1 - (2 * s1 + 1) * f1)) in F2 by ring.
    set (v := (2 * p1' + 1) * (f1 + 2 * k) + q1 * (2 * b1 + 1) - r * a1 - (2 * s1 + 1) * f1) in F2. clearbody v. clear - F2. Z.div_mod_to_equations; lia. }
  assert (exists x, r = 2 * x) as (r1 & ->) by (exists (r / 2); clear - R; Z.div_mod_to_equations; lia).
  repeat split; auto.
  replace ((2 * p1' + 1) * (2 * f1 + 4 * k) + 2 * q1 * (2 * b1 + 1) - (2 * r1 * (2 * a1 + 1) + (2 * s1 + 1) * (2 * f1)))
    with (2 * q1 - 2 * r1 + (p1' * f1 + 2 * p1' * k + k + q1 * b1 - r1 * a1 - s1 * f1) * 4) in F2 by ring.
  now rewrite Z_mod_plus_full in F2.
Qed.

Lemma divide4 e c : e mod 2 = 1 -> 0 < e -> exists k j, c - k * e = 4 * j /\ 0 <= j < e.
Proof.
  intros Eo Ep.
  assert (exists k0 i, c - k0 * e = 4 * i) as (k0 & i & E0).
  { assert (e mod 4 = 1 \/ e mod 4 = 3) as [e1|e3] by (clear - Eo; Z.div_mod_to_equations; lia).
    - assert (exists x, e = 4 * x + 1) as (x & ->) by (exists (e / 4); clear - e1; Z.div_mod_to_equations; lia). exists c, (- c * x). ring.
    - assert (exists x, e = 4 * x - 1) as (x & ->) by (exists (e / 4 + 1); clear - e3; Z.div_mod_to_equations; lia). exists (- c), (c * x). ring. }
  exists (k0 + 4 * (i / e)), (i mod e). pose proof (Z.mod_pos_bound i e Ep). split; [|assumption].
  rewrite Z.mod_eq by lia. lia.
Qed.

Theorem B4_H3 m : m mod 4 = 1 -> m <= kz -> B4 m = H3 m.
Proof.
  intros M1 Mk. unfold B4, H3. rewrite !zsum_const, !Z.mul_1_l. f_equal.
  set (L := filter (pB m) b4). set (H := filter (ph m) b3).
  assert (NL : NoDup L) by apply NoDup_filter, b4N. assert (NH : NoDup H) by apply NoDup_filter, b3N.
  assert (InL : forall s a b B, In (s, (a, (b, B))) L <-> evn a (B + s) (B - s) b /\ red a (B + s) (B - s) b /\ ev s = true /\ a * b - (B + s) * (B - s) = m).
  { intros s a b B. unfold L. rewrite filter_In, in_b4. unfold pB, pr. bb. unfold od, ev. rewrite !Z.eqb_eq. split.
    - intros [_ (Hs & ((((A & B') & C) & D) & E) & F)]. repeat split; auto; try lia; clear - Hs C; Z.div_mod_to_equations; lia.
    - intros ((A & B' & C & D) & (E & F) & Hs & G).
      replace (B + s + (B - s)) with (2 * B) in E, F by ring.
      assert (G' : a * b - B * B = m - s * s) by lia.
      destruct (pr_pos (m - s * s) a b B ltac:(lia) ltac:(lia) G') as [P1 P2].
      pose proof (Z.square_nonneg s).
      assert (Z.abs s <= kz) by (apply (sq_bound s m); lia).
      split; [lia|]. repeat split; auto; try lia. clear - C Hs. Z.div_mod_to_equations; lia. }
  assert (InH : forall d e j, In (d, (e, j)) H <-> 0 < d /\ 0 < e /\ d * e = m /\ 0 <= j < e).
  { intros d e j. unfold H. rewrite filter_In, in_b3. unfold ph. bb. rewrite Z.leb_le. split; [tauto|].
    intros (A & B & C & D). assert (d <= m) by (clear - A B C; nia). assert (e <= m) by (clear - A B C; nia). split; [lia|tauto]. }
  assert (Hev : forall d e j, In (d, (e, j)) H -> evn d (4 * j) 0 e).
  { intros d e j I. apply InH in I as (A & B & C & D).
    assert (P : (d * e) mod 2 = 1) by (rewrite C; clear - M1; Z.div_mod_to_equations; lia).
    rewrite Z.mul_mod in P by lia.
    assert (d mod 2 = 1 /\ e mod 2 = 1) as [D1 E1].
    { assert (d mod 2 = 0 \/ d mod 2 = 1) as [X|X] by (clear; Z.div_mod_to_equations; lia); rewrite X in *;
      assert (e mod 2 = 0 \/ e mod 2 = 1) as [Y|Y] by (clear; Z.div_mod_to_equations; lia); rewrite Y in *; auto; discriminate. }
    repeat split; auto; clear; Z.div_mod_to_equations; lia. }
  apply Nat.le_antisymm.
  - apply (rel_le (fun t h => In h H /\ Rel t h)); auto.
    + intros (s & a & b & B) I. apply InL in I as ((A1 & B1 & C1 & F1) & (K1 & K2) & Es & Det).
      set (c := B + s) in *. set (f := B - s) in *.
      assert (Ap : 0 < a) by lia.
      pose (d := Z.gcd a f).
      assert (Dp : 0 < d).
      { pose proof (Z.gcd_nonneg a f). assert (d <> 0) by (unfold d; intro E; apply Z.gcd_eq_0_l in E; lia). unfold d in *. lia. }
      destruct (Z.gcd_divide_l a f) as (p & Ep). destruct (Z.gcd_divide_r a f) as (r & Er). fold d in Ep, Er.
      destruct (Z.gcd_bezout a f d eq_refl) as (u0 & v0 & Bz).
      assert (P1 : p * u0 - (- v0) * r = 1).
      { assert (Q : d * (p * u0 - (- v0) * r) = d * 1) by (rewrite Ep, Er in Bz; lia). apply Z.mul_reg_l in Q; lia. }
      set (q0 := - v0) in *. clearbody q0.
      set (e := p * b - r * c). set (c0 := u0 * c - q0 * b).
      assert (De : d * e = m) by (rewrite <- Det; rewrite Ep, Er; unfold e; ring).
      assert (Mp : 0 < m).
      { unfold c, f in *. replace (B + s + (B - s)) with (2 * B) in K1, K2 by ring.
        destruct (pr_pos (m - s * s) a b B ltac:(lia) ltac:(lia) ltac:(lia)). pose proof (Z.square_nonneg s). lia. }
      assert (Epos : 0 < e) by (apply (Z.mul_pos_cancel_l d e Dp); rewrite De; exact Mp).
      assert (Eo : e mod 2 = 1).
      { destruct (Z.Even_or_Odd e) as [[x Ex]|[x Ex]].
        - exfalso. rewrite Ex in De. assert (m = 2 * (d * x)) by lia. clear - H0 M1. Z.div_mod_to_equations; lia.
        - rewrite Ex. clear. Z.div_mod_to_equations; lia. }
      destruct (divide4 e c0 Eo Epos) as (k & j & Ej & Hj).
      exists (d, (e, j)). split; [|split].
      * apply InH; auto.
      * apply InH; auto.
      * unfold Rel. fold c f. exists p, (q0 + k * p), r, (u0 + k * r). repeat split.
        -- lia.
        -- rewrite Ep; ring.
        -- rewrite <- Ej. transitivity (c * (p * u0 - q0 * r)); [rewrite P1; ring | unfold c0, e; ring].
        -- rewrite Er; ring.
        -- rewrite <- Ej. transitivity (b * (p * u0 - q0 * r)); [rewrite P1; ring | unfold c0, e; ring].
    + intros (s & a & b & B) (s' & a' & b' & B') (d & e & j) I I' [Hh R1] [_ R2].
      apply InL in I as (Ev & K1 & _ & _). apply InL in I' as (Ev' & K1' & _ & _).
      destruct R1 as (p & q & r & u & D1 & E1 & E2 & E3 & E4), R2 as (p' & q' & r' & u' & D2 & E1' & E2' & E3' & E4').
      set (c := B + s) in *. set (f := B - s) in *. set (c' := B' + s') in *. set (f' := B' - s') in *.
      set (P := p' * u - q' * r). set (Q := q' * p - p' * q). set (R := r' * u - u' * r). set (U := u' * p - r' * q).
      assert (X1 : a' = P * a + Q * f).
      { rewrite E1', E1, E3. transitivity (p' * d * (p * u - q * r)); [rewrite D1; ring | unfold P, Q; ring]. }
      assert (X2 : c' = P * c + Q * b).
      { rewrite E2', E2, E4. transitivity ((p' * (4 * j) + q' * e) * (p * u - q * r)); [rewrite D1; ring | unfold P, Q; ring]. }
      assert (X3 : f' = R * a + U * f).
      { rewrite E3', E1, E3. transitivity (r' * d * (p * u - q * r)); [rewrite D1; ring | unfold R, U; ring]. }
      assert (X4 : b' = R * c + U * b).
      { rewrite E4', E2, E4. transitivity ((r' * (4 * j) + u' * e) * (p * u - q * r)); [rewrite D1; ring | unfold R, U; ring]. }
      assert (DD : P * U - Q * R = 1).
      { transitivity ((p' * u' - q' * r') * (p * u - q * r)); [unfold P, Q, R, U; ring | rewrite D1, D2; ring]. }
      clearbody P Q R U. rewrite X1, X2, X3, X4 in Ev', K1'.
      destruct (gamma_par _ _ _ _ _ _ _ _ Ev Ev') as (G1 & G2 & G3 & G4).
      destruct Ev as (V1 & V2 & V3 & V4).
      destruct (reduced_unique a c f b P Q R U V1 V2 V3 V4 DD G1 G2 G3 G4 K1 K1') as (-> & -> & -> & ->).
      assert (a' = a) by lia. assert (b' = b) by lia. assert (c' = c) by lia. assert (f' = f) by lia. unfold c, f, c', f' in *.
      repeat f_equal; lia.
  - apply (rel_le (fun h t => In t L /\ In h H /\ Rel t h)); auto.
    + intros (d & e & j) I. pose proof (Hev _ _ _ I) as Ev. pose proof I as I'. apply InH in I' as (Dp & Ep & De & Hj).
      assert (Mp : 0 < m) by (rewrite <- De; apply Z.mul_pos_pos; assumption).
      destruct (reduced_basis m M1 Mp d (4 * j) 0 e ltac:(left; lia)) as (p & q & r & u & DD & Ev' & K').
      set (a := p * d + q * 0) in *. set (c := p * (4 * j) + q * e) in *. set (f := r * d + u * 0) in *. set (b := r * (4 * j) + u * e) in *.
      assert (Det : a * b - c * f = (p * u - q * r) * m) by (rewrite <- De; unfold a, b, c, f; ring).
      assert (exists B s, c = B + s /\ f = B - s /\ ev s = true) as (B & s & Ec & Ef & Es).
      { exists ((c + f) / 2), ((c - f) / 2). destruct Ev' as (_ & _ & C1 & C2). unfold ev. rewrite Z.eqb_eq. clear - C1 C2. Z.div_mod_to_equations; lia. }
      assert (Dpos : 0 < a * b - c * f).
      { rewrite Ec, Ef in K' |- *. destruct K' as [K1 K2]. replace (B + s + (B - s)) with (2 * B) in K1, K2 by ring.
        destruct (pr_pos (a * b - B * B) a b B ltac:(lia) ltac:(lia) eq_refl). pose proof (Z.square_nonneg s). lia. }
      assert (D1 : p * u - q * r = 1) by (destruct DD as [|DD]; [assumption|]; rewrite DD in Det; lia).
      exists (s, (a, (b, B))). split; [|split; [|split; [exact I|]]].
      * apply InL. rewrite <- Ec, <- Ef. repeat split; auto; try apply Ev'; try apply K'. rewrite Det, D1. ring.
      * apply InL. rewrite <- Ec, <- Ef. repeat split; auto; try apply Ev'; try apply K'. rewrite Det, D1. ring.
      * exists p, q, r, u. split; [exact D1|]. split; [unfold a; ring|]. split; [rewrite <- Ec; reflexivity|].
        split; [rewrite <- Ef; unfold f; ring|reflexivity].
    + intros (d & e & j) (d' & e' & j') (s & a & b & B) I I' (_ & _ & R1) (_ & _ & R2).
      destruct (Hev _ _ _ I) as (_ & Eo & _). apply InH in I as (Dp & Ep & De & Hj). apply InH in I' as (Dp' & Ep' & De' & Hj').
      destruct R1 as (p & q & r & u & D1 & E1 & E2 & E3 & E4), R2 as (p' & q' & r' & u' & D2 & E1' & E2' & E3' & E4').
      assert (d = d').
      { assert (X : d = (u * p' - q * r') * d').
        { transitivity ((p * u - q * r) * d); [rewrite D1; ring|]. transitivity (u * (p * d) - q * (r * d)); [ring|]. rewrite <- E1, <- E3, E1', E3'. ring. }
        assert (Y : d' = (u' * p - q' * r) * d).
        { transitivity ((p' * u' - q' * r') * d'); [rewrite D2; ring|]. transitivity (u' * (p' * d') - q' * (r' * d')); [ring|]. rewrite <- E1', <- E3', E1, E3. ring. }
        set (x := u * p' - q * r') in *. set (y := u' * p - q' * r) in *. clearbody x y. clear - X Y Dp Dp'.
        assert (0 < x) by nia. assert (0 < y) by nia. nia. }
      subst d'. assert (e = e') by (apply (Z.mul_reg_l _ _ d); lia). subst e'.
      assert (p' = p) by (apply (Z.mul_reg_r _ _ d); lia). assert (r' = r) by (apply (Z.mul_reg_r _ _ d); lia). subst p' r'.
      assert (X : 4 * (j - j') = e * (u * (q' - q) - q * (u' - u))).
      { transitivity (4 * (j - j') * (p * u - q * r)); [rewrite D1; ring|].
        assert (Y1 : 4 * (j - j') * p = (q' - q) * e) by lia. assert (Y2 : 4 * (j - j') * r = (u' - u) * e) by lia.
        transitivity (u * (4 * (j - j') * p) - q * (4 * (j - j') * r)); [ring|]. rewrite Y1, Y2. ring. }
      set (x := u * (q' - q) - q * (u' - u)) in *. clearbody x. clear - X Eo Ep Hj Hj'.
      assert (-4 < x < 4) by nia.
      assert (x = 0).
      { assert (x = -3 \/ x = -2 \/ x = -1 \/ x = 0 \/ x = 1 \/ x = 2 \/ x = 3) as [X0|[X0|[X0|[X0|[X0|[X0|X0]]]]]] by lia; subst x; [| | |reflexivity| | |]; exfalso; Z.div_mod_to_equations; lia. }
      subst x. repeat f_equal; lia.
Qed.

(* three squares *)
Definition n3 (n : Z) (t : Z * (Z * Z)) : bool := let '(x, (y, w)) := t in ev x && ev y && od w && (x * x + y * y + w * w =? n).
Definition N3 (n : Z) : Z := zsum (fun _ => 1) (filter (n3 n) b3).

Lemma A4_conv m : A4 m = zsum (fun s => if ev s then N3 (m - s * s) else 0) z.
Proof.
  unfold A4. rewrite zsum_filter. unfold b4. rewrite zsum_prod. apply zsum_ext. intros s _. unfold N3.
  destruct (ev s) eqn:E.
  - rewrite zsum_filter. apply zsum_ext. intros (x & y & w) _. unfold p1, n3. rewrite E. reflexivity.
  - apply zsum_zero. intros (x & y & w) _. unfold p1. now rewrite E.
Qed.
Lemma B4_conv m : B4 m = zsum (fun s => if ev s then R3 (m - s * s) else 0) z.
Proof.
  unfold B4. rewrite zsum_filter. unfold b4. rewrite zsum_prod. apply zsum_ext. intros s _. unfold R3.
  destruct (ev s) eqn:E.
  - rewrite zsum_filter. apply zsum_ext. intros w _. unfold pB. rewrite E. reflexivity.
  - apply zsum_zero. intros w _. unfold pB. now rewrite E.
Qed.
Lemma N3_neg n : n <= 0 -> N3 n = 0.
Proof.
  intro H. apply zsum_zero. intros (x & y & w) I. exfalso. apply filter_In in I as [_ I]. unfold n3 in I. bb. destruct I as [[_ I] E].
  pose proof (odd_sq_ge w I). pose proof (Z.square_nonneg x). pose proof (Z.square_nonneg y). lia.
Qed.
Lemma R3_neg n : n <= 0 -> R3 n = 0.
Proof.
  intro H. apply zsum_zero. intros (a & b & B) I. exfalso. apply filter_In in I as [_ I]. unfold pr in I. bb. destruct I as [[[_ I1] I2] E].
  destruct (pr_pos n a b B I1 I2 E). lia.
Qed.

Theorem N3_R3 m : m mod 4 = 1 -> 4 * m + 1 <= kz -> N3 m = 2 * R3 m.
Proof.
  assert (A : forall n, forall m, m < Z.of_nat n -> m mod 4 = 1 -> 4 * m + 1 <= kz -> N3 m = 2 * R3 m).
  { induction n as [|n IH]; intros m' L M1 Mk; [rewrite N3_neg, R3_neg by lia; reflexivity|].
    destruct (Z_le_gt_dec m' 0) as [M0|M0]; [rewrite N3_neg, R3_neg by lia; reflexivity|].
    assert (E : A4 m' = 2 * B4 m').
    { rewrite A4_sg, B4_H3, H3_sg by (auto; lia). reflexivity. }
    rewrite A4_conv, B4_conv, <- zsum_scale in E.
    pose (D := fun s => if ev s then N3 (m' - s * s) - 2 * R3 (m' - s * s) else 0).
    assert (S : zsum D z = 0).
    { transitivity (zsum (fun s => if ev s then N3 (m' - s * s) else 0) z + (-1) * zsum (fun s => 2 * (if ev s then R3 (m' - s * s) else 0)) z); [|lia].
      rewrite <- (zsum_scale (-1)), <- zsum_add. apply zsum_ext. intros s _. unfold D. destruct (ev s); ring. }
    rewrite (zsum_one D z 0) in S.
    - unfold D in S. change (ev 0) with true in S. cbv iota in S. replace (m' - 0 * 0) with m' in S by ring. lia.
    - apply zs_NoDup.
    - apply in_zs. lia.
    - intros s _ Hs. unfold D. destruct (ev s) eqn:Es; [|reflexivity].
      assert (0 < s * s) by nia. rewrite IH; [ring|lia| |lia].
      destruct (sq_mod4 s) as [(_ & X & _)|(_ & _ & X)]; [congruence|]. set (v := s * s) in *. clearbody v. clear - X M1. Z.div_mod_to_equations; lia. }
  intros M1 Mk. apply (A (Z.to_nat (m + 1))); auto. lia.
Qed.

End Box.

Theorem three_squares m : 0 < m -> m mod 4 = 1 -> exists x y w, x * x + y * y + w * w = m.
Proof.
  intros Mp M1. set (K := Z.to_nat (4 * m + 1)).
  assert (E := N3_R3 K m M1 ltac:(subst K; lia)).
  unfold N3, R3 in E. rewrite !zsum_const in E.
  assert (I : In (1, (m, 0)) (filter (pr m) (list_prod (zs K) (list_prod (zs K) (zs K))))).
  { apply filter_In. split.
    - apply in_b3. subst K. lia.
    - unfold pr, od, ev. repeat rewrite andb_true_iff. rewrite !Z.eqb_eq, !Z.ltb_lt.
      repeat split; try reflexivity; try lia. clear - M1. Z.div_mod_to_equations; lia. }
  destruct (filter (n3 m) (list_prod (zs K) (list_prod (zs K) (zs K)))) as [|[x [y w]] l] eqn:F.
  - exfalso. destruct (filter (pr m) _) as [|t l']; [destruct I|]. cbn [length] in E. lia.
  - exists x, y, w. assert (J : In (x, (y, w)) (filter (n3 m) (list_prod (zs K) (list_prod (zs K) (zs K))))) by (rewrite F; now left).
    apply filter_In in J as [_ J]. unfold n3 in J. rewrite !andb_true_iff, Z.eqb_eq in J. tauto.
Qed.

Corollary four_x_plus_one : forall x, 0 <= x -> exists a b d, a ^ 2 + b ^ 2 + d ^ 2 = 4 * x + 1.
Proof.
  intros x Hx. destruct (three_squares (4 * x + 1)) as (a & b & d & E); [lia| |].
  - replace (4 * x + 1) with (1 + x * 4) by ring. now rewrite Z.mod_add by lia.
  - exists a, b, d. now rewrite !Z.pow_2_r.
Qed.
Print Assumptions four_x_plus_one.
