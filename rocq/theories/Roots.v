(** Polynomials over the residues modulo a prime: a polynomial has no more roots than its
    degree.  Used for the soundness of the simple k-shuffle (SimpleSound.v) and to see that
    every non-trivial element generates the group (Prop_Pedersen.v).  Nothing here models
    code of the repository. *)
From Coq Require Import ZArith Znumtheory Lia List Permutation.
From Verif Require Import ZMod Suite Spec Pedersen.
Import ListNotations.
Open Scope Z_scope.

(** c_0 + c_1 x + c_2 x^2 + ... *)
Fixpoint peval (c : list Z) (x : Z) : Z :=
  match c with [] => 0 | a :: c => a + x * peval c x end.

Lemma peval_div r : forall c, exists q, length q = (length c - 1)%nat /\
  forall x, peval c x = (x - r) * peval q x + peval c r.
Proof.
  induction c as [|a c (q & L & E)]; [exists []; split; [reflexivity|intros; cbn; ring]|].
  destruct c as [|b c].
  - exists []. split; [reflexivity|]. intros x. cbn. ring.
  - exists (peval (b :: c) r :: q). split; [cbn [length] in *; lia|].
    intros x. cbn [peval]. specialize (E x). cbn [peval] in E. rewrite E. ring.
Qed.

Lemma prime_factor p a b : prime p -> (a * b) mod p = 0 -> a mod p = 0 \/ b mod p = 0.
Proof.
  intros PP E. pose proof (prime_ge_2 p PP). apply Z.mod_divide in E; [|lia].
  apply prime_mult in E; [|exact PP]. destruct E as [E|E]; [left|right]; apply Z.mod_divide; lia || exact E.
Qed.

Lemma reduced_diff p a b : 0 <= a < p -> 0 <= b < p -> (a - b) mod p = 0 -> a = b.
Proof.
  intros Ha Hb E. apply Z.mod_divide in E; [|lia]. destruct E as (k & E).
  assert (k = 0) by nia. lia.
Qed.

(** A polynomial with as many roots as coefficients vanishes everywhere. *)
Lemma poly_zero p : prime p -> forall c l, NoDup l -> Forall (fun x => 0 <= x < p) l ->
  (length c <= length l)%nat -> (forall x, In x l -> peval c x mod p = 0) ->
  forall x, peval c x mod p = 0.
Proof.
  intros PP c. pose proof (prime_ge_2 p PP) as P2.
  remember (length c) as n eqn:En. revert c En.
  induction n as [|n IH]; intros c En l ND F L Z x.
  - destruct c; [apply Z.mod_0_l; lia|discriminate].
  - destruct l as [|r l]; [cbn in L; lia|].
    inversion ND as [|? ? NI ND']; subst. inversion F as [|? ? Hr F']; subst.
    destruct (peval_div r c) as (q & Lq & E).
    assert (Zr : peval c r mod p = 0) by (apply Z; now left).
    assert (Zq : forall y, peval q y mod p = 0).
    { apply IH with (l := l); [lia|assumption|assumption|cbn in L; lia|].
      intros y Hy. assert (Zy := Z y (or_intror Hy)). rewrite E in Zy.
      rewrite Z.add_mod, Zr, Z.add_0_r, Z.mod_mod in Zy by lia.
      apply prime_factor in Zy; [|exact PP]. destruct Zy as [Zy|Zy]; [|exact Zy].
      apply reduced_diff in Zy; [subst; contradiction| |assumption].
      rewrite Forall_forall in F'. now apply F'. }
    rewrite E, Z.add_mod, Zr, Z.add_0_r, Z.mod_mod, Z.mul_mod, Zq, Z.mul_0_r by lia. apply Z.mod_0_l. lia.
Qed.

(** ** Sums, multiples and products of linear factors *)
Fixpoint padd (a b : list Z) : list Z :=
  match a, b with [], b => b | a, [] => a | x :: a, y :: b => x + y :: padd a b end.
Lemma peval_padd x : forall a b, peval (padd a b) x = peval a x + peval b x.
Proof. induction a as [|u a IH]; intros [|v b]; cbn [padd peval]; try ring. rewrite IH. ring. Qed.
Lemma padd_length : forall a b, length (padd a b) = Nat.max (length a) (length b).
Proof. induction a as [|u a IH]; intros [|v b]; cbn [padd length]; auto. now rewrite IH. Qed.
Lemma peval_scale k x : forall a, peval (map (Z.mul k) a) x = k * peval a x.
Proof. induction a as [|u a IH]; cbn [map peval]; [ring|]. rewrite IH. ring. Qed.
Lemma peval_mono k x : forall n, peval (repeat 0 n ++ [k]) x = k * x ^ Z.of_nat n.
Proof.
  induction n as [|n IH]; [cbn; ring|]. change (repeat 0 (S n) ++ [k]) with (0 :: (repeat 0 n ++ [k])).
  cbn [peval]. rewrite IH, Nat2Z.inj_succ, Z.pow_succ_r by lia. ring.
Qed.

(** The product of the differences y_i - t. *)
Definition dprod (ys : list Z) (t : Z) : Z := fold_right (fun y r => (y - t) * r) 1 ys.

Lemma dprod_poly : forall ys, exists c, length c = length ys /\
  forall t, dprod ys t = peval c t + (- t) ^ Z.of_nat (length ys).
Proof.
  induction ys as [|y ys (c & L & E)]; [exists []; split; [reflexivity|intros; reflexivity]|].
  exists (padd (padd (map (Z.mul y) c) (0 :: map (Z.mul (-1)) c)) (repeat 0 (length ys) ++ [y * (-1) ^ Z.of_nat (length ys)])).
  split.
  - rewrite !padd_length, app_length, repeat_length. cbn [length]. rewrite !map_length. lia.
  - intros t. rewrite !peval_padd, peval_mono. cbn [peval]. rewrite !peval_scale.
    cbn [dprod fold_right]. fold (dprod ys t). rewrite E. cbn [length].
    rewrite Nat2Z.inj_succ, Z.pow_succ_r by lia.
    assert (X : (- t) ^ Z.of_nat (length ys) = (-1) ^ Z.of_nat (length ys) * t ^ Z.of_nat (length ys)).
    { replace (- t) with ((-1) * t) by ring. apply Z.pow_mul_l. }
    rewrite X. ring.
Qed.

Lemma dprod_agree p xs ys l : prime p -> length ys = length xs -> NoDup l -> Forall (fun x => 0 <= x < p) l ->
  (length xs <= length l)%nat -> (forall t, In t l -> dprod xs t mod p = dprod ys t mod p) ->
  forall t, dprod xs t mod p = dprod ys t mod p.
Proof.
  intros PP L ND F K A t. pose proof (prime_ge_2 p PP) as P2.
  destruct (dprod_poly xs) as (c & Lc & Ec). destruct (dprod_poly ys) as (d & Ld & Ed).
  assert (Z : forall t, peval (padd c (map (Z.mul (-1)) d)) t = dprod xs t - dprod ys t).
  { intros u. rewrite peval_padd, peval_scale, Ec, Ed, L. ring. }
  assert (Z0 := poly_zero p PP (padd c (map (Z.mul (-1)) d)) l ND F).
  rewrite padd_length, map_length, Lc, Ld, L, Nat.max_id in Z0. specialize (Z0 K).
  assert (Zt : (dprod xs t - dprod ys t) mod p = 0).
  { rewrite <- Z. apply Z0. intros x Hx. rewrite Z, Zminus_mod, (A x Hx), Z.sub_diag. apply Z.mod_0_l. lia. }
  apply Z.mod_divide in Zt; [|lia]. destruct Zt as (k & Zt).
  replace (dprod xs t) with (dprod ys t + k * p) by lia. now rewrite Z.mod_add by lia.
Qed.

Lemma dprod_root p : prime p -> forall ys t, dprod ys t mod p = 0 -> exists y, In y ys /\ y mod p = t mod p.
Proof.
  intros PP. pose proof (prime_ge_2 p PP) as P2.
  induction ys as [|y ys IH]; intros t E; [cbn in E; rewrite Z.mod_1_l in E by lia; lia|].
  cbn [dprod fold_right] in E. apply prime_factor in E; [|exact PP]. destruct E as [E|E].
  - exists y. split; [now left|]. apply Z.mod_divide in E; [|lia]. destruct E as (k & E).
    replace y with (t + k * p) by lia. now rewrite Z.mod_add by lia.
  - destruct (IH t E) as (z & I & Ez). exists z. split; [now right|exact Ez].
Qed.

Lemma dprod_app xs ys t : dprod (xs ++ ys) t = dprod xs t * dprod ys t.
Proof.
  induction xs as [|x xs IH]; cbn [app]; [change (dprod [] t) with 1; ring|].
  change ((x - t) * dprod (xs ++ ys) t = (x - t) * dprod xs t * dprod ys t). rewrite IH. ring.
Qed.

(** Two lists of the same length whose products of differences agree at as many points
    are the same up to order, modulo p. *)
Lemma dprod_perm p : prime p -> forall xs ys l, length ys = length xs -> NoDup l ->
  Forall (fun x => 0 <= x < p) l -> (length xs <= length l)%nat ->
  (forall t, In t l -> dprod xs t mod p = dprod ys t mod p) ->
  Permutation (map (fun x => x mod p) xs) (map (fun y => y mod p) ys).
Proof.
  intros PP. pose proof (prime_ge_2 p PP) as P2.
  induction xs as [|x xs IH]; intros ys l L ND F K A.
  - destruct ys; [constructor|discriminate].
  - assert (AA := dprod_agree p (x :: xs) ys l PP L ND F K A).
    destruct (dprod_root p PP ys x) as (y & Iy & Ey).
    { rewrite <- AA. cbn [dprod fold_right]. rewrite Z.sub_diag, Z.mul_0_l. apply Z.mod_0_l. lia. }
    apply in_split in Iy. destruct Iy as (y1 & y2 & ->).
    rewrite map_app. cbn [map]. rewrite Ey. apply Permutation_cons_app. rewrite <- map_app.
    set (x' := x mod p).
    apply IH with (l := remove Z.eq_dec x' l).
    + rewrite app_length in *. cbn [length] in L. lia.
    + clear - ND. induction l as [|a l I]; cbn [remove]; [constructor|].
      inversion ND as [|? ? NI ND']; subst. destruct (Z.eq_dec x' a); [now apply I|].
      constructor; [|now apply I]. intros Hin. apply in_remove in Hin. tauto.
    + rewrite Forall_forall in *. intros z Hz. apply in_remove in Hz. now apply F.
    + clear - ND K. cbn [length] in K.
      assert (length l <= Datatypes.S (length (remove Z.eq_dec x' l)))%nat.
      { clear K. induction l as [|a l I]; cbn [remove length]; [lia|]. inversion ND as [|? ? NI ND']; subst.
        destruct (Z.eq_dec x' a) as [->|]; [|cbn [length]; specialize (I ND'); lia].
        now rewrite notin_remove. }
      lia.
    + intros t Ht. apply in_remove in Ht. destruct Ht as [It Nt].
      assert (E := A t It). rewrite dprod_app in *.
      change ((x - t) * dprod xs t mod p = (dprod y1 t * ((y - t) * dprod y2 t)) mod p) in E.
      assert (Rt : 0 <= t < p) by (rewrite Forall_forall in F; now apply F).
      assert (D : ((x - t) * (dprod xs t - dprod y1 t * dprod y2 t)) mod p = 0).
      { assert (Y : exists k, y = x + k * p).
        { exists (y / p - x / p). pose proof (Z.div_mod y p ltac:(lia)). pose proof (Z.div_mod x p ltac:(lia)). lia. }
        destruct Y as (k & ->).
        replace ((x - t) * (dprod xs t - dprod y1 t * dprod y2 t)) with
          ((x - t) * dprod xs t - dprod y1 t * ((x + k * p - t) * dprod y2 t) + (k * dprod y1 t * dprod y2 t) * p) by ring.
        rewrite Z.mod_add, Zminus_mod, E, Z.sub_diag by lia. apply Z.mod_0_l. lia. }
      apply prime_factor in D; [|exact PP]. destruct D as [D|D].
      * exfalso. apply Nt. symmetry. unfold x'. apply reduced_diff with (p := p); [apply Z.mod_pos_bound; lia|exact Rt|].
        rewrite Zminus_mod_idemp_l. exact D.
      * apply Z.mod_divide in D; [|lia]. destruct D as (k & D).
        replace (dprod xs t) with (dprod y1 t * dprod y2 t + k * p) by lia. now rewrite Z.mod_add by lia.
Qed.

(** ** Generators *)
(** In a group of prime order every element but 1 generates. *)
Lemma prime_generates S : suite_ok S -> prime (sP S) -> prime (sQ S) -> forall h,
  member (sP S) (sQ S) h -> h <> 1 -> generates (sP S) (sQ S) h.
Proof.
  intros OK PP PQ h Hh N1 y Hy. pose proof (sP_gt1 S OK) as HP. pose proof (sQ_gt1 S OK) as HQ.
  set (f := fun i : nat => zexp (sP S) h (Z.of_nat i)).
  set (l := map f (seq 0 (Z.to_nat (sQ S)))).
  assert (ND : NoDup l).
  { unfold l.
    assert (J : forall a b, In a (seq 0 (Z.to_nat (sQ S))) -> In b (seq 0 (Z.to_nat (sQ S))) -> f a = f b -> a = b).
    { intros a b Ha Hb E. apply in_seq in Ha, Hb. apply (zexp_inj S OK) in E; try assumption.
      rewrite !Z.mod_small in E by lia. lia. }
    pose proof (seq_NoDup (Z.to_nat (sQ S)) 0) as NS. revert NS J. generalize (seq 0 (Z.to_nat (sQ S))).
    induction l0 as [|a l0 I]; intros NS J; cbn [map]; [constructor|]. inversion NS as [|? ? NI NS']; subst.
    constructor.
    - intros Hin. apply in_map_iff in Hin. destruct Hin as (b & E & Ib). apply NI.
      rewrite (J a b); [exact Ib|now left|now right|now symmetry].
    - apply I; [exact NS'|]. intros; apply J; try (now right); assumption. }
  destruct (in_dec Z.eq_dec y l) as [I|NI].
  - unfold l in I. apply in_map_iff in I. destruct I as (i & E & _). exists (Z.of_nat i). split; [lia|].
    rewrite <- E. unfold f. apply zexp_pos; lia.
  - exfalso.
    set (c := -1 :: (repeat 0 (Z.to_nat (sQ S) - 1) ++ [1])).
    assert (EV : forall x, peval c x = x ^ sQ S - 1).
    { intros x. unfold c. cbn [peval]. rewrite peval_mono.
      replace (Z.of_nat (Z.to_nat (sQ S) - 1)) with (sQ S - 1) by lia.
      replace (x ^ sQ S) with (x ^ Z.succ (sQ S - 1)) by (f_equal; lia). rewrite Z.pow_succ_r by lia. ring. }
    assert (RT : forall x, member (sP S) (sQ S) x -> peval c x mod sP S = 0).
    { intros x [_ Hx]. rewrite EV, Zminus_mod, Hx, Z.mod_1_l, Z.sub_diag by lia. apply Z.mod_0_l. lia. }
    assert (ML : forall x, In x (y :: l) -> member (sP S) (sQ S) x).
    { intros x [<-|Hx]; [exact Hy|]. unfold l in Hx. apply in_map_iff in Hx. destruct Hx as (i & <- & _).
      apply (in_group_zexp S OK). exact Hh. }
    assert (Z0 : peval c 0 mod sP S = 0).
    { apply poly_zero with (l := y :: l).
      - exact PP.
      - constructor; assumption.
      - apply Forall_forall. intros x Hx. destruct (ML x Hx) as [R _]. lia.
      - unfold c, l. cbn [length]. rewrite app_length, repeat_length, map_length, seq_length. cbn. lia.
      - intros x Hx. apply RT, ML, Hx. }
    rewrite EV, Z.pow_0_l in Z0 by lia. change (0 - 1) with (- (1)) in Z0.
    rewrite Z.mod_opp_l_nz in Z0; rewrite ?Z.mod_1_l in *; lia.
Qed.
