(** Pedersen commitments: /repo/primitive/pedersen/PedersenCommitment.go *)
From Coq Require Import ZArith Znumtheory Lia List.
From Verif Require Import ZMod Bytes Suite.
Open Scope Z_scope.

(** PedersenCommitment.go:8-12 (the Suite field is the [suite] argument). *)
Record pbase := PBase { pb_HT : Z; pb_GT : Z }.

(** PedersenCommitment.go:20-29 CreateMinimalBaseFromSuite: h = g = g^1 *)
Definition ped_minimal_base (S : suite) : pbase :=
  PBase (pt_mul_base S 1) (pt_mul_base S 1).

(** PedersenCommitment.go:32-42 CreateBaseFromSuite; [s] is the picked secret. *)
Definition ped_base_from_suite (S : suite) (s : Z) : pbase :=
  PBase (pt_mul_base S s) (pt_mul_base S 1).

(** PedersenCommitment.go:58-63 CommitWithR *)
Definition ped_commit_r (S : suite) (b : pbase) (x r : Z) : Z :=
  pt_add S (pt_mul S (pb_GT b) x) (pt_mul S (pb_HT b) r).

(** PedersenCommitment.go:48-55 Commit; [rnd] is the picked secret. *)
Definition ped_commit (S : suite) (b : pbase) (x rnd : Z) : Z * Z :=
  (ped_commit_r S b x rnd, rnd).

(** PedersenCommitment.go:66-71 Randomize; [E] is the picked secret. *)
Definition ped_randomize (S : suite) (c E : Z) : Z * Z := (pt_mul S c E, E).

(** PedersenCommitment.go:73-75 Add *)
Definition ped_add (S : suite) (x y : Z) : Z := pt_add S x y.

(** PedersenCommitment.go:77-79 Sub *)
Definition ped_sub (S : suite) (x y : Z) : option Z := pt_sub S x y.

(** PedersenCommitment.go:82-87 Verify *)
Definition ped_verify (S : suite) (b : pbase) (x r c : Z) : bool :=
  let t1 := pt_mul S (pb_GT b) x in
  let t2 := pt_mul S (pb_HT b) r in
  pt_add S t1 t2 =? c.

(** A base of group elements. *)
Definition pbase_ok (S : suite) (b : pbase) : Prop :=
  in_group S (pb_HT b) /\ in_group S (pb_GT b).

Section Lemmas.
Context (S : suite) (OK : suite_ok S).

Lemma ped_minimal_ok : pbase_ok S (ped_minimal_base S).
Proof. split; cbn [pb_HT pb_GT ped_minimal_base ped_base_from_suite]; unfold pt_mul_base, pt_mul; in_grp. Qed.

Lemma ped_base_from_suite_ok s : pbase_ok S (ped_base_from_suite S s).
Proof. split; cbn [pb_HT pb_GT ped_minimal_base ped_base_from_suite]; unfold pt_mul_base, pt_mul; in_grp. Qed.

Lemma ped_commit_plain b x r : 0 <= x -> 0 <= r ->
  ped_commit_r S b x r = (pb_GT b ^ x * pb_HT b ^ r) mod sP S.
Proof.
  intros. pose proof (sP_gt1 S OK). unfold ped_commit_r, pt_add, pt_mul.
  rewrite !zexp_pos by lia. unfold mulm.
  rewrite <- Z.mul_mod by lia. reflexivity.
Qed.

Lemma ped_commit_group b x r : pbase_ok S b -> in_group S (ped_commit_r S b x r).
Proof. intros [? ?]. unfold ped_commit_r, pt_add, pt_mul. in_grp. Qed.

Lemma ped_verify_iff b x r c : ped_verify S b x r c = true <-> c = ped_commit_r S b x r.
Proof. unfold ped_verify, ped_commit_r. rewrite Z.eqb_eq. split; congruence. Qed.

Lemma ped_add_commit b x r y s : pbase_ok S b ->
  ped_add S (ped_commit_r S b x r) (ped_commit_r S b y s) =
  ped_commit_r S b (sec_add S x y) (sec_add S r s).
Proof.
  intros [H1 H2]. unfold ped_add, ped_commit_r. grpS S.
Qed.

Lemma ped_sub_commit b x r y s : pbase_ok S b ->
  ped_sub S (ped_commit_r S b x r) (ped_commit_r S b y s) =
  Some (ped_commit_r S b (sec_sub S x y) (sec_sub S r s)).
Proof.
  intros B. pose proof (ped_commit_group b y s B) as G2. destruct B as [H1 H2].
  unfold ped_sub. rewrite pt_sub_group by assumption. f_equal.
  unfold ped_commit_r in *. grpS S.
Qed.

Lemma ped_rekey b x r E : pbase_ok S b ->
  ped_commit_r S (PBase (pt_mul S (pb_HT b) E) (pt_mul S (pb_GT b) E)) x r =
  pt_mul S (ped_commit_r S b x r) E.
Proof.
  intros [H1 H2]. unfold ped_commit_r. cbn [pb_HT pb_GT]. grpS S.
Qed.

(** Exponentiation by a unit modulo Q is injective on the group. *)
Lemma pt_mul_inj a b E : in_group S a -> in_group S b -> rel_prime E (sQ S) ->
  pt_mul S a E = pt_mul S b E -> a = b.
Proof.
  intros Ha Hb HE H. pose proof (sP_gt1 S OK). pose proof (sQ_gt1 S OK).
  destruct (rel_prime_bezout _ _ HE) as [u v BZ].
  assert (forall z, in_group S z -> z = pt_mul S (pt_mul S z E) u) as R.
  { intros z Hz. unfold pt_mul.
    rewrite zexp_mul by (try lia; now apply in_group_unit).
    rewrite <- (zexp_modQ S OK) by assumption.
    replace (E * u) with (1 + (- v) * sQ S) by lia.
    rewrite Z.mod_add by lia. rewrite Z.mod_1_l by lia.
    rewrite zexp_1 by lia. symmetry. apply Z.mod_small.
    destruct Hz as [? _]. lia. }
  rewrite (R a Ha), (R b Hb), H. reflexivity.
Qed.

(** A non-trivial element of a prime-order group has injective powers. *)
Lemma zexp_inj h a b : prime (sQ S) -> in_group S h -> h <> 1 ->
  zexp (sP S) h a = zexp (sP S) h b -> a mod sQ S = b mod sQ S.
Proof.
  intros PQ Hh N1 E. pose proof (sP_gt1 S OK). pose proof (sQ_gt1 S OK).
  assert (U := in_group_unit S OK h Hh).
  assert (D : zexp (sP S) h (a - b) = 1).
  { replace (a - b) with (a + - b) by lia. rewrite zexp_add by (lia||assumption).
    rewrite E. now apply zexp_opp. }
  destruct (Zdivide_dec (sQ S) (a - b)) as [[k Hk]|ND].
  - replace a with (b + k * sQ S) by lia. now rewrite Z.mod_add by lia.
  - exfalso. apply N1.
    assert (RP : rel_prime (a - b) (sQ S)) by (apply rel_prime_sym, prime_rel_prime; assumption).
    apply (pt_mul_inj h 1 (a - b)); try assumption.
    + now apply in_group_1.
    + unfold pt_mul. rewrite D. now rewrite zexp_1_base by lia.
Qed.

End Lemmas.
