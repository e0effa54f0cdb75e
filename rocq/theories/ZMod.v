(** Modular arithmetic as done by Go's math/big, and the group laws it obeys.

    This file is support for the model: [mulm], [powm], [modinv] and [zexp]
    model big.Int's Mul+Mod, Exp and ModInverse.  Everything else is lemmas. *)
From Coq Require Import ZArith Znumtheory Zpow_facts Lia List Setoid Morphisms.
Import ListNotations.
Open Scope Z_scope.

(** Mul followed by Mod (Euclidean for a positive modulus). *)
Definition mulm (m a b : Z) : Z := (a * b) mod m.

(** big.Int.Exp for a non-negative exponent. Models math/big (external). *)
Definition powm (b e m : Z) : Z := Zpow_mod b e m.

(** Extended Euclid on [fuel] steps: returns (g, x) with a' * x = g mod b'. *)
Fixpoint egcd (fuel : nat) (r0 r1 s0 s1 : Z) : Z * Z :=
  match fuel with
  | O => (r0, s0)
  | S n => if r1 =? 0 then (r0, s0)
           else let q := r0 / r1 in egcd n r1 (r0 - q * r1) s1 (s0 - q * s1)
  end.

(** big.Int.ModInverse: [Some] of the inverse in [0,m), [None] when the Go
    function returns nil. Models math/big (external). *)
Definition modinv (a m : Z) : option Z :=
  let '(g, x) := egcd (Z.to_nat (2 * Z.log2 m + 3)) m (a mod m) 0 1 in
  if g =? 1 then Some (x mod m) else None.

(** big.Int.Exp with an exponent of either sign.  [None] models the nil result
    (and the unchanged receiver) for a non-invertible base and a negative
    exponent. *)
Definition bigexp (a e m : Z) : option Z :=
  if 0 <=? e then Some (powm a e m)
  else match modinv a m with
       | Some i => Some (powm i (- e) m)
       | None => None
       end.

(** Total exponentiation: what [z.Exp(a,e,m)] leaves in a fresh receiver z = 0. *)
Definition zexp (m a e : Z) : Z :=
  match bigexp a e m with Some v => v | None => 0 end.

Lemma powm_spec b e m : m <> 0 -> powm b e m = (b ^ e) mod m.
Proof. intros. unfold powm. now apply Zpow_mod_correct. Qed.

Lemma powm_range b e m : 0 < m -> 0 <= powm b e m < m.
Proof. intros. rewrite powm_spec by lia. apply Z.mod_pos_bound; lia. Qed.

Lemma mulm_range m a b : 0 < m -> 0 <= mulm m a b < m.
Proof. intros. apply Z.mod_pos_bound; lia. Qed.

(** ** Extended Euclid *)
Lemma egcd_inv fuel : forall r0 r1 s0 s1 a m,
  0 <= r1 -> 0 <= r0 -> r0 * r1 < 2 ^ Z.of_nat fuel -> r1 <= r0 ->
  (exists k, r0 = s0 * a + k * m) -> (exists k, r1 = s1 * a + k * m) ->
  let '(g, x) := egcd fuel r0 r1 s0 s1 in
  g = Z.gcd r0 r1 /\ exists k, g = x * a + k * m.
Proof.
  induction fuel as [|n IH]; intros r0 r1 s0 s1 a m H1 H0 Hb Hle K0 K1.
  - cbn [egcd]. change (2 ^ Z.of_nat 0) with 1 in Hb.
    assert (r1 = 0) by nia. subst. rewrite Z.gcd_0_r. split; [lia|exact K0].
  - cbn [egcd]. destruct (Z.eqb_spec r1 0) as [->|Hn].
    + rewrite Z.gcd_0_r. split; [lia|exact K0].
    + set (q := r0 / r1).
      assert (Er: r0 - q * r1 = r0 mod r1) by (rewrite Z.mod_eq by lia; unfold q; ring).
      pose proof (Z.mod_pos_bound r0 r1 ltac:(lia)) as Hm.
      specialize (IH r1 (r0 - q * r1) s1 (s0 - q * s1) a m).
      assert (Hq : 1 <= q) by (unfold q; apply Z.div_le_lower_bound; lia).
      pose proof (IH ltac:(lia) ltac:(lia)) as IH'. clear IH.
      assert (Hhalf : r1 * (r0 - q * r1) < 2 ^ Z.of_nat n).
      { rewrite Nat2Z.inj_succ, Z.pow_succ_r in Hb by lia.
        rewrite Er in *.
        assert (2 * (r0 mod r1) <= r0).
        { assert (r0 = q * r1 + r0 mod r1) by lia. nia. }
        nia. }
      specialize (IH' Hhalf ltac:(lia) K1).
      assert (KK : exists k, r0 - q * r1 = (s0 - q * s1) * a + k * m).
      { destruct K0 as [k0 K0], K1 as [k1 K1]. exists (k0 - q * k1).
        rewrite K0 at 1. rewrite K1 at 1. ring. }
      specialize (IH' KK).
      destruct (egcd n r1 (r0 - q * r1) s1 (s0 - q * s1)) as [g x].
      destruct IH' as [-> Hx]. split; [|exact Hx].
      rewrite (Z.gcd_comm r0 r1). rewrite Er.
      rewrite Z.gcd_comm. now rewrite Z.gcd_mod by lia.
Qed.

Lemma modinv_fuel m : 0 < m -> m * m < 2 ^ Z.of_nat (Z.to_nat (2 * Z.log2 m + 3)).
Proof.
  intros. pose proof (Z.log2_nonneg m).
  rewrite Z2Nat.id by lia.
  replace (2 * Z.log2 m + 3) with (Z.succ (Z.log2 m) + Z.succ (Z.log2 m) + 1) by lia.
  rewrite !Z.pow_add_r by lia.
  pose proof (Z.log2_spec m ltac:(lia)) as [_ Hs].
  change (2^1) with 2. nia.
Qed.

Definition unit (a m : Z) : Prop := rel_prime a m.

Lemma modinv_some a m : 1 < m -> unit a m ->
  exists i, modinv a m = Some i /\ 0 <= i < m /\ (a * i) mod m = 1.
Proof.
  intros Hm Hu. unfold modinv.
  pose proof (Z.mod_pos_bound a m ltac:(lia)) as Hr.
  pose proof (egcd_inv (Z.to_nat (2 * Z.log2 m + 3)) m (a mod m) 0 1 a m
    ltac:(lia) ltac:(lia)) as E.
  pose proof (modinv_fuel m ltac:(lia)) as F.
  specialize (E ltac:(nia) ltac:(lia)).
  assert (K0 : exists k, m = 0 * a + k * m) by (exists 1; ring).
  specialize (E K0).
  assert (K : exists k, a mod m = 1 * a + k * m).
  { exists (- (a / m)). rewrite Z.mod_eq by lia. ring. }
  specialize (E K).
  destruct (egcd _ m (a mod m) 0 1) as [g x].
  destruct E as [-> [k Hk]].
  assert (Hg : Z.gcd m (a mod m) = 1).
  { rewrite Z.gcd_comm, Z.gcd_mod by lia. rewrite Z.gcd_comm. apply Zgcd_1_rel_prime. exact Hu. }
  rewrite Hg in *. cbn.
  exists (x mod m). split; [reflexivity|]. split; [apply Z.mod_pos_bound; lia|].
  rewrite Z.mul_mod_idemp_r by lia.
  replace (a * x) with (1 + (- k) * m) by lia.
  rewrite Z.mod_add by lia. apply Z.mod_1_l; lia.
Qed.

Lemma modinv_sound a m i : 1 < m -> modinv a m = Some i -> 0 <= i < m /\ (a * i) mod m = 1.
Proof.
  intros Hm. unfold modinv.
  pose proof (Z.mod_pos_bound a m ltac:(lia)) as Hr.
  pose proof (egcd_inv (Z.to_nat (2 * Z.log2 m + 3)) m (a mod m) 0 1 a m
    ltac:(lia) ltac:(lia)) as E.
  pose proof (modinv_fuel m ltac:(lia)) as F.
  specialize (E ltac:(nia) ltac:(lia)).
  assert (K0 : exists k, m = 0 * a + k * m) by (exists 1; ring).
  specialize (E K0).
  assert (K : exists k, a mod m = 1 * a + k * m).
  { exists (- (a / m)). rewrite Z.mod_eq by lia. ring. }
  specialize (E K).
  destruct (egcd _ m (a mod m) 0 1) as [g x].
  destruct E as [Eg [k Hk]].
  destruct (Z.eqb_spec g 1) as [->|]; [|discriminate].
  intros [= <-]. split; [apply Z.mod_pos_bound; lia|].
  rewrite Z.mul_mod_idemp_r by lia.
  replace (a * x) with (1 + (- k) * m) by lia.
  rewrite Z.mod_add by lia. apply Z.mod_1_l; lia.
Qed.

Lemma inv_unit a i m : 1 < m -> (a * i) mod m = 1 -> unit a m.
Proof.
  intros Hm H. apply bezout_rel_prime.
  assert (a * i = m * (a * i / m) + 1) by (rewrite <- H; apply Z.div_mod; lia).
  apply Bezout_intro with (u := i) (v := - (a * i / m)). lia.
Qed.

Lemma modinv_none a m : 1 < m -> modinv a m = None -> ~ unit a m.
Proof. intros Hm H Hu. destruct (modinv_some a m Hm Hu) as (i & E & _). congruence. Qed.

(** ** Units *)
Lemma unit_1 m : unit 1 m.
Proof. apply rel_prime_1. Qed.

Lemma unit_mul a b m : unit a m -> unit b m -> unit (a * b) m.
Proof. intros. apply rel_prime_sym. apply rel_prime_mult; now apply rel_prime_sym. Qed.

Lemma unit_mod a m : 0 < m -> unit a m <-> unit (a mod m) m.
Proof.
  intros. unfold unit. split; intros.
  - apply rel_prime_mod; [lia|assumption].
  - apply rel_prime_mod_rev; [lia|assumption].
Qed.

Lemma unit_mulm m a b : 0 < m -> unit a m -> unit b m -> unit (mulm m a b) m.
Proof. intros. unfold mulm. apply (proj1 (unit_mod _ m ltac:(lia))). now apply unit_mul. Qed.

Lemma unit_pow a e m : 0 <= e -> unit a m -> unit (a ^ e) m.
Proof.
  intros He Hu. pattern e. apply natlike_ind; [apply unit_1| |exact He].
  intros x Hx IH. rewrite Z.pow_succ_r by lia. now apply unit_mul.
Qed.

Lemma modinv_unit a m i : 1 < m -> modinv a m = Some i -> unit i m.
Proof.
  intros Hm H. destruct (modinv_sound _ _ _ Hm H) as [_ E].
  apply inv_unit with (i := a); [lia|]. now rewrite Z.mul_comm.
Qed.

Lemma zexp_range m a e : 0 < m -> 0 <= zexp m a e < m.
Proof.
  intros. unfold zexp, bigexp.
  destruct (0 <=? e); [now apply powm_range|].
  destruct (modinv a m); [now apply powm_range|lia].
Qed.

Lemma zexp_pos m a e : 0 < m -> 0 <= e -> zexp m a e = (a ^ e) mod m.
Proof.
  intros. unfold zexp, bigexp. destruct (Z.leb_spec 0 e); [|lia].
  apply powm_spec; lia.
Qed.

Lemma bigexp_unit m a e : 1 < m -> unit a m -> bigexp a e m = Some (zexp m a e).
Proof.
  intros Hm Hu. unfold zexp, bigexp. destruct (0 <=? e); [reflexivity|].
  destruct (modinv_some a m Hm Hu) as (i & -> & _). reflexivity.
Qed.

Lemma bigexp_nonneg m a e : 0 <= e -> bigexp a e m = Some (zexp m a e).
Proof.
  intros H. unfold zexp, bigexp. destruct (Z.leb_spec 0 e); [reflexivity|lia].
Qed.

Lemma unit_zexp m a e : 1 < m -> unit a m -> unit (zexp m a e) m.
Proof.
  intros Hm Hu. unfold zexp, bigexp. destruct (Z.leb_spec 0 e).
  - rewrite powm_spec by lia. apply (proj1 (unit_mod _ m ltac:(lia))). now apply unit_pow.
  - destruct (modinv_some a m Hm Hu) as (i & E & _). rewrite E.
    rewrite powm_spec by lia. apply (proj1 (unit_mod _ m ltac:(lia))).
    apply unit_pow; [lia|]. now apply modinv_unit with (a := a).
Qed.

(** Characterisation of exponentiation on units: the only function with
    zexp 0 = 1 and zexp (e+1) = a * zexp e. *)
Lemma zexp_0 m a : 1 < m -> zexp m a 0 = 1.
Proof. intros. rewrite zexp_pos by lia. rewrite Z.pow_0_r. now apply Z.mod_1_l. Qed.

Lemma zexp_succ m a e : 1 < m -> unit a m -> zexp m a (e + 1) = mulm m a (zexp m a e).
Proof.
  intros Hm Hu. unfold mulm. destruct (Z.leb_spec 0 e) as [He|He].
  - rewrite !zexp_pos by lia. rewrite Z.mul_mod_idemp_r by lia.
    now rewrite <- Z.pow_succ_r, Z.add_1_r by lia.
  - destruct (modinv_some a m Hm Hu) as (i & Ei & Ri & Hi).
    assert (Eneg : forall n, n < 0 -> zexp m a n = (i ^ (- n)) mod m).
    { intros n Hn. unfold zexp, bigexp. destruct (Z.leb_spec 0 n); [lia|].
      rewrite Ei. apply powm_spec; lia. }
    rewrite (Eneg e He).
    replace (- e) with (Z.succ (- (e + 1))) by lia.
    rewrite Z.pow_succ_r by lia. rewrite Z.mul_mod_idemp_r by lia.
    rewrite Z.mul_assoc. rewrite <- Z.mul_mod_idemp_l by lia. rewrite Hi, Z.mul_1_l.
    destruct (Z.eq_dec e (-1)) as [->|].
    + change (-1 + 1) with 0. rewrite zexp_0 by lia. change (- 0) with 0.
      rewrite Z.pow_0_r. now rewrite Z.mod_1_l.
    + rewrite Eneg by lia. reflexivity.
Qed.

Lemma mulm_comm m a b : mulm m a b = mulm m b a.
Proof. unfold mulm. now rewrite Z.mul_comm. Qed.

Lemma mulm_assoc m a b c : 0 < m -> mulm m a (mulm m b c) = mulm m (mulm m a b) c.
Proof.
  intros. unfold mulm. rewrite Z.mul_mod_idemp_r, Z.mul_mod_idemp_l by lia.
  now rewrite Z.mul_assoc.
Qed.

Lemma mulm_1_l m a : mulm m 1 a = a mod m.
Proof. unfold mulm. now rewrite Z.mul_1_l. Qed.

Lemma mulm_mod_l m a b : 0 < m -> mulm m (a mod m) b = mulm m a b.
Proof. intros. unfold mulm. now rewrite Z.mul_mod_idemp_l by lia. Qed.

Lemma mulm_mod_r m a b : 0 < m -> mulm m a (b mod m) = mulm m a b.
Proof. intros. unfold mulm. now rewrite Z.mul_mod_idemp_r by lia. Qed.

Lemma mulm_cancel_l m a b c : 1 < m -> unit a m ->
  mulm m a b = mulm m a c -> b mod m = c mod m.
Proof.
  intros Hm Hu E. destruct (modinv_some a m Hm Hu) as (i & _ & _ & Hi).
  assert (X : mulm m i (mulm m a b) = mulm m i (mulm m a c)) by now rewrite E.
  rewrite !mulm_assoc in X by lia. rewrite (mulm_comm m i a) in X.
  unfold mulm at 2 4 in X. rewrite Hi in X. now rewrite !mulm_1_l in X.
Qed.

Lemma zexp_mod_base m a e : 1 < m -> zexp m (a mod m) e = zexp m a e.
Proof.
  intros Hm. unfold zexp, bigexp. destruct (0 <=? e) eqn:He.
  - apply Z.leb_le in He. rewrite !powm_spec by lia. now rewrite <- Zpower_mod by lia.
  - unfold modinv. now rewrite Z.mod_mod by lia.
Qed.

Lemma Z_bi_ind (P : Z -> Prop) :
  P 0 -> (forall x, P x <-> P (x + 1)) -> forall x, P x.
Proof.
  intros H0 HS x. apply Z.bi_induction; auto.
  intros ? ? ->. reflexivity.
Qed.

Lemma zexp_add m a x y : 1 < m -> unit a m ->
  zexp m a (x + y) = mulm m (zexp m a x) (zexp m a y).
Proof.
  intros Hm Hu. pattern x. apply Z_bi_ind; clear x.
  - rewrite Z.add_0_l, zexp_0, mulm_1_l by lia.
    rewrite Z.mod_small; [reflexivity|]. apply zexp_range; lia.
  - intros x. replace (x + 1 + y) with (x + y + 1) by ring.
    rewrite !zexp_succ by assumption. rewrite <- mulm_assoc by lia. split.
    + now intros ->.
    + intros E. apply mulm_cancel_l in E; [|lia|assumption].
      rewrite Z.mod_small in E by (apply zexp_range; lia).
      rewrite E. apply Z.mod_small. apply mulm_range; lia.
Qed.

Lemma zexp_1 m a : 1 < m -> zexp m a 1 = a mod m.
Proof. intros. rewrite zexp_pos by lia. now rewrite Z.pow_1_r. Qed.

Lemma zexp_1_base m e : 1 < m -> zexp m 1 e = 1.
Proof.
  intros Hm. pattern e. apply Z_bi_ind; clear e.
  - now apply zexp_0.
  - intros x. rewrite zexp_succ by (try lia; apply unit_1).
    rewrite mulm_1_l, Z.mod_small; [reflexivity|apply zexp_range; lia].
Qed.

Lemma zexp_mul m a x y : 1 < m -> unit a m ->
  zexp m (zexp m a x) y = zexp m a (x * y).
Proof.
  intros Hm Hu. pattern y. apply Z_bi_ind; clear y.
  - rewrite Z.mul_0_r. now rewrite !zexp_0 by lia.
  - intros y. rewrite zexp_succ by (try lia; now apply unit_zexp).
    replace (x * (y + 1)) with (x + x * y) by ring.
    rewrite zexp_add by assumption. split.
    + now intros ->.
    + intros E. apply mulm_cancel_l in E; [|lia|now apply unit_zexp].
      now rewrite !Z.mod_small in E by (apply zexp_range; lia).
Qed.

Lemma zexp_mulm m a b x : 1 < m -> unit a m -> unit b m ->
  zexp m (mulm m a b) x = mulm m (zexp m a x) (zexp m b x).
Proof.
  intros Hm Ha Hb. assert (Hab : unit (mulm m a b) m) by (apply unit_mulm; [lia|assumption..]).
  assert (C : forall y, mulm m (zexp m a (y+1)) (zexp m b (y+1))
              = mulm m (mulm m a b) (mulm m (zexp m a y) (zexp m b y))).
  { intros y. rewrite !zexp_succ by assumption. unfold mulm.
    rewrite !Z.mul_mod_idemp_l, !Z.mul_mod_idemp_r by lia.
    rewrite ?Z.mul_mod_idemp_l, ?Z.mul_mod_idemp_r by lia.
    f_equal. ring. }
  pattern x. apply Z_bi_ind; clear x.
  - rewrite !zexp_0 by lia. unfold mulm. now rewrite Z.mod_1_l.
  - intros x. rewrite C. rewrite zexp_succ by assumption. split.
    + now intros ->.
    + intros E. apply mulm_cancel_l in E; [|lia|assumption].
      rewrite Z.mod_small in E by (apply zexp_range; lia).
      rewrite E. apply Z.mod_small. apply mulm_range; lia.
Qed.

Lemma zexp_opp m a x : 1 < m -> unit a m -> mulm m (zexp m a x) (zexp m a (- x)) = 1.
Proof.
  intros. rewrite <- zexp_add by assumption. rewrite Z.add_opp_diag_r. now apply zexp_0.
Qed.

Lemma modinv_zexp a m : 1 < m -> unit a m -> modinv a m = Some (zexp m a (-1)).
Proof.
  intros Hm Hu. destruct (modinv_some a m Hm Hu) as (i & E & R & Hi).
  rewrite E. f_equal. unfold zexp, bigexp. cbn [Z.leb Z.compare]. rewrite E.
  rewrite powm_spec by lia. change (- -1) with 1. rewrite Z.pow_1_r.
  symmetry; now apply Z.mod_small.
Qed.

(** ** Reducing exponents by the order *)
Lemma zexp_mod_order m a q e : 1 < m -> 0 < q -> unit a m -> zexp m a q = 1 ->
  zexp m a (e mod q) = zexp m a e.
Proof.
  intros Hm Hq Hu Ho.
  rewrite (Z.div_mod e q) at 2 by lia.
  rewrite zexp_add by assumption. rewrite <- zexp_mul by assumption. rewrite Ho.
  rewrite zexp_1_base by lia. rewrite mulm_1_l.
  symmetry. apply Z.mod_small. apply zexp_range; lia.
Qed.

Lemma zexp_cong m a q x y : 1 < m -> 0 < q -> unit a m -> zexp m a q = 1 ->
  x mod q = y mod q -> zexp m a x = zexp m a y.
Proof.
  intros. rewrite <- (zexp_mod_order m a q x), <- (zexp_mod_order m a q y) by assumption.
  congruence.
Qed.

Lemma order_unit m a q : 1 < m -> 0 < q -> zexp m a q = 1 -> unit a m.
Proof.
  intros Hm Hq H. rewrite zexp_pos in H by lia.
  apply inv_unit with (i := a ^ (q - 1)); [lia|].
  rewrite <- Z.pow_succ_r by lia. now replace (Z.succ (q - 1)) with q by lia.
Qed.

(** ** A decision procedure for abelian-group identities.

    Terms are products of powers of atoms; two terms are equal if every atom
    has equal total exponents.  [grp_ok] generates one ring goal per atom. *)
Inductive gx : Type :=
| GV (n : nat)
| GO
| GM (a b : gx)
| GE (a : gx) (e : Z).

Fixpoint gden (m : Z) (env : list Z) (t : gx) : Z :=
  match t with
  | GV n => nth n env 1
  | GO => 1
  | GM a b => mulm m (gden m env a) (gden m env b)
  | GE a e => zexp m (gden m env a) e
  end.

Fixpoint gcoef (n : nat) (t : gx) : Z :=
  match t with
  | GV k => if Nat.eqb n k then 1 else 0
  | GO => 0
  | GM a b => gcoef n a + gcoef n b
  | GE a e => gcoef n a * e
  end.

Fixpoint gprod (m : Z) (i : nat) (env : list Z) (c : nat -> Z) : Z :=
  match env with
  | [] => 1
  | a :: r => mulm m (zexp m a (c i)) (gprod m (S i) r c)
  end.

Fixpoint all_units (m : Z) (env : list Z) : Prop :=
  match env with [] => True | a :: r => unit a m /\ all_units m r end.

Lemma all_units_nth m env n : all_units m env -> unit (nth n env 1) m.
Proof.
  revert n. induction env as [|a r IH]; intros [|n] H; cbn in *; try apply unit_1.
  - tauto.
  - apply IH; tauto.
Qed.

Lemma gden_unit m env t : 1 < m -> all_units m env -> unit (gden m env t) m.
Proof.
  intros Hm He. induction t; cbn.
  - now apply all_units_nth.
  - apply unit_1.
  - apply unit_mulm; [lia|assumption..].
  - apply unit_zexp; [lia|assumption].
Qed.

Lemma gprod_range m i env c : 1 < m -> 0 <= gprod m i env c < m.
Proof. intros. destruct env; cbn; [lia|apply mulm_range; lia]. Qed.

Lemma gprod_unit m i env c : 1 < m -> all_units m env -> unit (gprod m i env c) m.
Proof.
  intros Hm. revert i. induction env as [|a r IH]; intros i H; cbn in *; [apply unit_1|].
  apply unit_mulm; [lia|apply unit_zexp; tauto|apply IH; tauto].
Qed.

Lemma gprod_ext m env : forall i c d, (forall n, (i <= n < i + length env)%nat -> c n = d n) ->
  gprod m i env c = gprod m i env d.
Proof.
  induction env as [|a r IH]; intros i c d H; cbn; [reflexivity|].
  rewrite (H i) by (cbn; lia). f_equal. apply IH. intros n Hn. apply H. cbn; lia.
Qed.

Lemma mulm_swap4 m a b c d : 0 < m ->
  mulm m (mulm m a b) (mulm m c d) = mulm m (mulm m a c) (mulm m b d).
Proof.
  intros. unfold mulm. rewrite !Z.mul_mod_idemp_l, !Z.mul_mod_idemp_r by lia.
  rewrite ?Z.mul_mod_idemp_l, ?Z.mul_mod_idemp_r by lia. f_equal; ring.
Qed.

Lemma gprod_add m env : 1 < m -> forall i c d, all_units m env ->
  mulm m (gprod m i env c) (gprod m i env d) = gprod m i env (fun n => c n + d n).
Proof.
  intros Hm. induction env as [|a r IH]; intros i c d H; cbn in *.
  - unfold mulm. now rewrite Z.mod_1_l.
  - rewrite mulm_swap4 by lia. rewrite IH by tauto.
    now rewrite zexp_add by tauto.
Qed.

Lemma gprod_exp m env e : 1 < m -> forall i c, all_units m env ->
  zexp m (gprod m i env c) e = gprod m i env (fun n => c n * e).
Proof.
  intros Hm. induction env as [|a r IH]; intros i c H; cbn in *.
  - now rewrite zexp_1_base.
  - rewrite zexp_mulm; [|lia|apply unit_zexp; tauto|apply gprod_unit; tauto].
    rewrite IH by tauto. now rewrite zexp_mul by tauto.
Qed.

Lemma gprod_0 m env : 1 < m -> forall i c, (forall n, c n = 0) -> gprod m i env c = 1.
Proof.
  intros Hm. induction env as [|a r IH]; intros i c H; cbn; [reflexivity|].
  rewrite H, zexp_0, IH by (auto; lia). unfold mulm. now apply Z.mod_1_l.
Qed.

Lemma gprod_0' m env : 1 < m -> forall i c, (forall n, (i <= n)%nat -> c n = 0) -> gprod m i env c = 1.
Proof.
  intros Hm. induction env as [|a r IH]; intros i c H; cbn; [reflexivity|].
  rewrite H by lia. rewrite zexp_0, IH by (try lia; intros; apply H; lia). unfold mulm. now apply Z.mod_1_l.
Qed.

Lemma gprod_single m env k : 1 < m -> forall i,
  gprod m i env (fun n => if Nat.eqb n (i + k) then 1 else 0) = nth k env 1 mod m.
Proof.
  intros Hm. revert k. induction env as [|a r IH]; intros k i; cbn.
  - destruct k; now rewrite Z.mod_1_l.
  - destruct k as [|k].
    + rewrite Nat.add_0_r, Nat.eqb_refl, zexp_1 by lia.
      rewrite gprod_0'; [|lia|].
      * unfold mulm. rewrite Z.mul_1_r. now rewrite Z.mod_mod by lia.
      * intros n Hn. destruct (Nat.eqb_spec n i); [lia|reflexivity].
    + destruct (Nat.eqb_spec i (i + S k)) as [X|_]; [lia|].
      rewrite zexp_0 by lia. rewrite mulm_1_l.
      specialize (IH k (S i)). replace (S i + k)%nat with (i + S k)%nat in IH by lia.
      rewrite IH. now rewrite Z.mod_mod by lia.
Qed.

Lemma gden_norm m env t : 1 < m -> all_units m env ->
  (gden m env t) mod m = gprod m 0 env (fun n => gcoef n t).
Proof.
  intros Hm He. induction t as [k| |a IHa b IHb|a IHa e]; cbn [gden gcoef].
  - symmetry. apply (gprod_single m env k Hm 0).
  - rewrite gprod_0 by auto. now apply Z.mod_1_l.
  - rewrite <- gprod_add by assumption. rewrite <- IHa, <- IHb.
    rewrite mulm_mod_l, mulm_mod_r by lia.
    apply Z.mod_small, mulm_range; lia.
  - rewrite <- gprod_exp by assumption. rewrite <- IHa.
    rewrite zexp_mod_base by lia. apply Z.mod_small, zexp_range; lia.
Qed.

Fixpoint coefs_eq (n : nat) (s t : gx) : Prop :=
  match n with
  | O => True
  | S k => gcoef k s = gcoef k t /\ coefs_eq k s t
  end.

Lemma coefs_eq_spec n s t : coefs_eq n s t -> forall k, (k < n)%nat -> gcoef k s = gcoef k t.
Proof.
  induction n as [|n IH]; intros H k Hk; [lia|]. cbn in H.
  destruct (Nat.eq_dec k n) as [->|]; [tauto|]. apply IH; [tauto|lia].
Qed.

Theorem grp_ok m env s t : 1 < m -> all_units m env ->
  coefs_eq (length env) s t -> (gden m env s) mod m = (gden m env t) mod m.
Proof.
  intros Hm He Hc. rewrite !gden_norm by assumption. apply gprod_ext.
  intros n Hn. apply coefs_eq_spec with (n := length env); [assumption|lia].
Qed.

Definition reduced (m a : Z) : Prop := 0 <= a < m.

Theorem grp_ok' m env s t : 1 < m -> all_units m env ->
  reduced m (gden m env s) -> reduced m (gden m env t) ->
  coefs_eq (length env) s t -> gden m env s = gden m env t.
Proof.
  intros Hm He Hs Ht Hc. pose proof (grp_ok m env s t Hm He Hc) as E.
  unfold reduced in *. now rewrite !Z.mod_small in E by lia.
Qed.

(** The same with exponents modulo an order [q] common to all atoms. *)
Fixpoint all_order (m q : Z) (env : list Z) : Prop :=
  match env with [] => True | a :: r => zexp m a q = 1 /\ all_order m q r end.

Fixpoint coefs_eqm (q : Z) (n : nat) (s t : gx) : Prop :=
  match n with
  | O => True
  | S k => eqm q (gcoef k s) (gcoef k t) /\ coefs_eqm q k s t
  end.

Lemma coefs_eqm_spec q n s t : coefs_eqm q n s t -> forall k, (k < n)%nat -> eqm q (gcoef k s) (gcoef k t).
Proof.
  induction n as [|n IH]; intros H k Hk; [lia|]. cbn in H.
  destruct (Nat.eq_dec k n) as [->|]; [tauto|]. apply IH; [tauto|lia].
Qed.

Lemma all_order_units m q env : 1 < m -> 0 < q -> all_order m q env -> all_units m env.
Proof.
  intros Hm Hq. induction env as [|a r IH]; cbn; [tauto|].
  intros [H1 H2]. split; [|now apply IH]. now apply order_unit with (q := q).
Qed.

Lemma gprod_ext_q m q env : 1 < m -> 0 < q -> all_order m q env -> forall i c d,
  (forall n, (i <= n < i + length env)%nat -> eqm q (c n) (d n)) ->
  gprod m i env c = gprod m i env d.
Proof.
  intros Hm Hq. induction env as [|a r IH]; intros Ho i c d H; cbn in *; [reflexivity|].
  rewrite (zexp_cong m a q (c i) (d i)); [|lia|lia| |tauto|].
  - f_equal. apply IH; [tauto|]. intros n Hn. apply H. cbn; lia.
  - apply order_unit with (q := q); tauto.
  - apply (H i). cbn; lia.
Qed.

Theorem grp_ok_q m q env s t : 1 < m -> 0 < q -> all_order m q env ->
  coefs_eqm q (length env) s t -> (gden m env s) mod m = (gden m env t) mod m.
Proof.
  intros Hm Hq Ho Hc. pose proof (all_order_units m q env Hm Hq Ho) as He.
  rewrite !gden_norm by assumption. apply gprod_ext_q with (q := q); try assumption.
  intros n Hn. apply coefs_eqm_spec with (n := length env); [assumption|lia].
Qed.

Theorem grp_ok_q' m q env s t : 1 < m -> 0 < q -> all_order m q env ->
  reduced m (gden m env s) -> reduced m (gden m env t) ->
  coefs_eqm q (length env) s t -> gden m env s = gden m env t.
Proof.
  intros Hm Hq Ho Hs Ht Hc. pose proof (grp_ok_q m q env s t Hm Hq Ho Hc) as E.
  unfold reduced in *. now rewrite !Z.mod_small in E by lia.
Qed.

(** Reification. *)
Ltac gx_mem a l :=
  match l with
  | nil => constr:(false)
  | a :: _ => constr:(true)
  | _ :: ?r => gx_mem a r
  end.

Ltac gx_atoms m t l :=
  lazymatch t with
  | mulm m ?a ?b => let l1 := gx_atoms m a l in gx_atoms m b l1
  | zexp m ?a ?e => gx_atoms m a l
  | 1 => l
  | ?a => let b := gx_mem a l in
          lazymatch b with true => l | false => constr:(a :: l) end
  end.

Ltac gx_index a l :=
  lazymatch l with
  | a :: _ => constr:(O)
  | _ :: ?r => let n := gx_index a r in constr:(S n)
  end.

Ltac gx_reify m t l :=
  lazymatch t with
  | mulm m ?a ?b => let x := gx_reify m a l in let y := gx_reify m b l in constr:(GM x y)
  | zexp m ?a ?e => let x := gx_reify m a l in constr:(GE x e)
  | 1 => constr:(GO)
  | ?a => let n := gx_index a l in constr:(GV n)
  end.

Ltac conj_split := repeat match goal with |- _ /\ _ => split | |- True => exact I end.
Ltac gx_side := conj_split; try assumption; try lia; auto.

Ltac reduced_tac :=
  unfold reduced; cbn [gden];
  first [ apply mulm_range; lia | apply zexp_range; lia | lia | assumption | idtac ].

(** Goal [a = b] between products of powers modulo [m] whose atoms are units;
    leaves one arithmetic goal per atom (solved by [ring] where possible). *)
Ltac grp m :=
  lazymatch goal with
  | |- ?a = ?b =>
    let l0 := gx_atoms m a (@nil Z) in
    let l1 := eval cbn [app] in l0 in
    let l2 := gx_atoms m b l1 in
    let l := eval cbn [app] in l2 in
    let s := gx_reify m a l in
    let t := gx_reify m b l in
    change (gden m l s = gden m l t);
    apply grp_ok';
    [ try lia | cbn [all_units]; gx_side | reduced_tac | reduced_tac
    | cbn [coefs_eq gcoef length Nat.eqb]; conj_split; try ring ]
  end.

Global Instance eqm_equiv q : Equivalence (eqm q).
Proof. split; [exact (eqm_refl q)|exact (eqm_sym q)|exact (eqm_trans q)]. Qed.
Global Instance eqm_add q : Proper (eqm q ==> eqm q ==> eqm q) Z.add := Zplus_eqm q.
Global Instance eqm_sub q : Proper (eqm q ==> eqm q ==> eqm q) Z.sub := Zminus_eqm q.
Global Instance eqm_mul q : Proper (eqm q ==> eqm q ==> eqm q) Z.mul := Zmult_eqm q.
Global Instance eqm_opp q : Proper (eqm q ==> eqm q) Z.opp := Zopp_eqm q.

Ltac eqm_ring q :=
  repeat setoid_rewrite (Zmod_eqm q); unfold eqm; f_equal; ring.

(** Goals [a mod q = b mod q] by ring, ignoring inner reductions modulo [q]. *)
Ltac modring q :=
  lazymatch goal with
  | |- ?a mod _ = ?b mod _ => change (eqm q a b); eqm_ring q
  end.

(** The same modulo the order [q] of all atoms. *)
Ltac grpq m q :=
  lazymatch goal with
  | |- ?a = ?b =>
    let l0 := gx_atoms m a (@nil Z) in
    let l1 := eval cbn [app] in l0 in
    let l2 := gx_atoms m b l1 in
    let l := eval cbn [app] in l2 in
    let s := gx_reify m a l in
    let t := gx_reify m b l in
    change (gden m l s = gden m l t);
    apply (grp_ok_q' m q);
    [ try lia | try lia | cbn [all_order]; gx_side | reduced_tac | reduced_tac
    | cbn [coefs_eqm gcoef length Nat.eqb]; conj_split; try (eqm_ring q) ]
  end.

Lemma example_grp m g h : 1 < m -> unit g m -> unit h m ->
  forall a b x, mulm m (zexp m (mulm m (zexp m g a) (zexp m h b)) x) (zexp m g (- x))
              = mulm m (zexp m h (x * b)) (zexp m g (x * (a - 1))).
Proof. intros. grp m. Qed.

Lemma example_grpq m q g h : 1 < m -> 1 < q -> zexp m g q = 1 -> zexp m h q = 1 ->
  forall a b x, mulm m (zexp m (mulm m (zexp m g ((a * b) mod q)) (zexp m h b)) x) (zexp m g ((- x) mod q))
              = mulm m (zexp m h ((x * b) mod q)) (zexp m g ((x * ((a * b) mod q - 1)) mod q)).
Proof. intros. grpq m q. Qed.
