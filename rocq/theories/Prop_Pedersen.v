(** C01-C04: Pedersen commitments. *)
From Coq Require Import ZArith Znumtheory Lia List.
From Verif Require Import ZMod Bytes Suite Spec Pedersen Roots.
Open Scope Z_scope.

Lemma member_in_group S x : member (sP S) (sQ S) x <-> in_group S x.
Proof. reflexivity. Qed.

(** C01: Verify accepts exactly the commitment GT^x HT^r mod p, for every base
    (even one outside the group) and all secrets; Commit's outputs verify. *)
Theorem C01_verify_iff : forall S, suite_ok S -> forall b x r c,
  0 <= x < sQ S -> 0 <= r < sQ S ->
  (ped_verify S b x r c = true <-> commits_to (sP S) (pb_GT b) (pb_HT b) x r c).
Proof.
  intros S OK b x r c Hx Hr. rewrite ped_verify_iff.
  unfold commits_to. rewrite (ped_commit_plain S OK) by lia. reflexivity.
Qed.

Theorem C01_commit_verifies : forall S, suite_ok S -> forall b x rnd c r,
  0 <= x < sQ S -> 0 <= rnd < sQ S ->
  ped_commit S b x rnd = (c, r) ->
  commits_to (sP S) (pb_GT b) (pb_HT b) x r c /\ ped_verify S b x r c = true.
Proof.
  intros S OK b x rnd c r Hx Hr E. unfold ped_commit in E. inversion E; subst.
  assert (V : ped_verify S b x r (ped_commit_r S b x r) = true) by now apply ped_verify_iff.
  split; [|exact V]. now apply (C01_verify_iff S OK) in V.
Qed.

(** C02: sums and differences of commitments, for integers of either sign mapped
    to secrets by SetInt64 (reduction modulo q). *)
Theorem C02_add_sub : forall S, suite_ok S -> forall b x r y s cx cy,
  member (sP S) (sQ S) (pb_GT b) -> member (sP S) (sQ S) (pb_HT b) ->
  commits_to (sP S) (pb_GT b) (pb_HT b) (x mod sQ S) (r mod sQ S) cx ->
  commits_to (sP S) (pb_GT b) (pb_HT b) (y mod sQ S) (s mod sQ S) cy ->
  commits_to (sP S) (pb_GT b) (pb_HT b) ((x + y) mod sQ S) ((r + s) mod sQ S) (ped_add S cx cy) /\
  exists cd, ped_sub S cx cy = Some cd /\
    commits_to (sP S) (pb_GT b) (pb_HT b) ((x - y) mod sQ S) ((r - s) mod sQ S) cd.
Proof.
  intros S OK b x r y s cx cy HG HH Cx Cy. unfold commits_to in *.
  pose proof (sQ_gt1 S OK) as HQ.
  assert (B : pbase_ok S b) by (split; assumption).
  rewrite <- (ped_commit_plain S OK) in Cx, Cy by (apply Z.mod_pos_bound; lia).
  subst cx cy. split.
  - rewrite (ped_add_commit S OK) by exact B.
    rewrite (ped_commit_plain S OK) by (apply Z.mod_pos_bound; lia).
    unfold sec_add. rewrite <- !Z.add_mod by lia. reflexivity.
  - eexists. split; [apply (ped_sub_commit S OK); exact B|].
    rewrite (ped_commit_plain S OK) by (apply Z.mod_pos_bound; lia).
    unfold sec_sub. rewrite <- !Zminus_mod. reflexivity.
Qed.

(** C03: re-keying. *)
Theorem C03_rekey_keeps_openings : forall S, suite_ok S -> forall b E x r c,
  member (sP S) (sQ S) (pb_GT b) -> member (sP S) (sQ S) (pb_HT b) ->
  0 <= x < sQ S -> 0 <= r < sQ S -> 0 <= E < sQ S ->
  commits_to (sP S) (pb_GT b) (pb_HT b) x r c ->
  commits_to (sP S) ((pb_GT b ^ E) mod sP S) ((pb_HT b ^ E) mod sP S) x r
             (fst (ped_randomize S c E)).
Proof.
  intros S OK b E x r c HG HH Hx Hr HE C. unfold commits_to in *. cbn.
  pose proof (sP_gt1 S OK).
  rewrite <- (ped_commit_plain S OK) in C by lia. subst c.
  rewrite <- (ped_rekey S OK) by (split; assumption).
  rewrite (ped_commit_plain S OK) by lia. cbn [pb_HT pb_GT].
  unfold pt_mul. rewrite !zexp_pos by lia. reflexivity.
Qed.

Theorem C03_rekey_adds_no_opening : forall S, suite_ok S -> forall b E x r c,
  member (sP S) (sQ S) (pb_GT b) -> member (sP S) (sQ S) (pb_HT b) ->
  member (sP S) (sQ S) c ->
  0 <= x < sQ S -> 0 <= r < sQ S -> 0 <= E < sQ S -> rel_prime E (sQ S) ->
  commits_to (sP S) ((pb_GT b ^ E) mod sP S) ((pb_HT b ^ E) mod sP S) x r
             (fst (ped_randomize S c E)) ->
  commits_to (sP S) (pb_GT b) (pb_HT b) x r c.
Proof.
  intros S OK b E x r c HG HH Hc Hx Hr HE RP C. unfold commits_to in *. cbn in C.
  pose proof (sP_gt1 S OK).
  rewrite <- (ped_commit_plain S OK) by lia.
  assert (B : pbase_ok S b) by (split; assumption).
  apply (pt_mul_inj S OK) with (E := E); try assumption.
  - now apply ped_commit_group.
  - rewrite C, <- (ped_rekey S OK) by exact B.
    rewrite (ped_commit_plain S OK) by lia. cbn [pb_HT pb_GT].
    unfold pt_mul. rewrite !zexp_pos by lia. reflexivity.
Qed.

(** C04: perfect hiding: every value is explained by exactly one randomness. *)
Theorem C04_hiding : forall S, suite_ok S -> forall b c x',
  prime (sP S) -> prime (sQ S) ->
  member (sP S) (sQ S) (pb_GT b) -> member (sP S) (sQ S) (pb_HT b) -> pb_HT b <> 1 ->
  member (sP S) (sQ S) c -> 0 <= x' < sQ S ->
  exists! r', 0 <= r' < sQ S /\ commits_to (sP S) (pb_GT b) (pb_HT b) x' r' c.
Proof.
  intros S OK b c x' PP PQ HG HH N1 Hc Hx. pose proof (prime_generates S OK PP PQ (pb_HT b) HH N1) as Gen.
  pose proof (sP_gt1 S OK) as HP. pose proof (sQ_gt1 S OK) as HQ.
  set (t := mulm (sP S) c (zexp (sP S) (pb_GT b) (- x'))).
  assert (Ht : in_group S t) by (unfold t; in_grp).
  destruct (Gen t Ht) as (k & Hk & E).
  assert (E' : t = zexp (sP S) (pb_HT b) (k mod sQ S)).
  { rewrite (zexp_modQ S OK) by assumption. rewrite zexp_pos by lia. exact E. }
  assert (Hr : 0 <= k mod sQ S < sQ S) by (apply Z.mod_pos_bound; lia).
  assert (C : c = ped_commit_r S b x' (k mod sQ S)).
  { unfold ped_commit_r, pt_mul. rewrite <- E'. unfold t. unfold pt_add.
    assert (HcG : in_group S c) by exact Hc.
    assert (HgG : in_group S (pb_GT b)) by exact HG.
    clear Hc HG. grpS S. }
  exists (k mod sQ S). split.
  - split; [exact Hr|]. unfold commits_to. rewrite <- (ped_commit_plain S OK) by lia. exact C.
  - intros r2 [Hr2 C2]. unfold commits_to in C2.
    rewrite <- (ped_commit_plain S OK) in C2 by lia.
    rewrite C in C2. unfold ped_commit_r, pt_add, pt_mul in C2.
    apply mulm_cancel_l in C2; [|lia|apply unit_zexp; [lia|now apply in_group_unit]].
    rewrite 2!(Z.mod_small (zexp _ _ _)) in C2 by (apply zexp_range; lia).
    apply (zexp_inj S OK) in C2; try assumption.
    rewrite Z.mod_mod in C2 by lia. rewrite C2. now apply Z.mod_small.
Qed.

(** C04: binding: two openings to different values give the discrete log of GT
    to the base HT. *)
Theorem C04_binding : forall S, suite_ok S -> forall b c x r x' r',
  prime (sQ S) ->
  member (sP S) (sQ S) (pb_GT b) -> member (sP S) (sQ S) (pb_HT b) ->
  0 <= x < sQ S -> 0 <= r < sQ S -> 0 <= x' < sQ S -> 0 <= r' < sQ S -> x <> x' ->
  commits_to (sP S) (pb_GT b) (pb_HT b) x r c ->
  commits_to (sP S) (pb_GT b) (pb_HT b) x' r' c ->
  exists i, sec_inv S (sec_sub S x x') = Some i /\
    pb_GT b = (pb_HT b ^ (((r' - r) * i) mod sQ S)) mod sP S.
Proof.
  intros S OK b c x r x' r' PQ HG HH Hx Hr Hx' Hr' N C C'.
  pose proof (sP_gt1 S OK) as HP. pose proof (sQ_gt1 S OK) as HQ.
  unfold commits_to in C, C'.
  rewrite <- (ped_commit_plain S OK) in C, C' by lia.
  assert (RP : rel_prime (sec_sub S x x') (sQ S)).
  { apply rel_prime_sym, prime_rel_prime; [exact PQ|]. unfold sec_sub. intros [k Hk].
    pose proof (Z.mod_pos_bound (x - x') (sQ S) ltac:(lia)) as B.
    assert (M0 : (x - x') mod sQ S = 0).
    { assert (k = 0 \/ 1 <= k \/ k <= -1) as [->|[?|?]] by lia; nia. }
    apply Z.mod_divide in M0; [|lia]. destruct M0 as [j Hj].
    assert (j = 0 \/ 1 <= j \/ j <= -1) as [->|[?|?]] by lia; nia. }
  destruct (modinv_some _ _ HQ RP) as (i & Hi & Ri & Pi).
  exists i. split; [exact Hi|].
  assert (HgG : in_group S (pb_GT b)) by exact HG.
  assert (HhG : in_group S (pb_HT b)) by exact HH.
  assert (D : zexp (sP S) (pb_GT b) (x - x') = zexp (sP S) (pb_HT b) (r' - r)).
  { rewrite C in C'. unfold ped_commit_r in C'. clear C HG HH.
    transitivity (mulm (sP S) (pt_add S (pt_mul S (pb_GT b) x) (pt_mul S (pb_HT b) r))
       (mulm (sP S) (zexp (sP S) (pb_GT b) (- x')) (zexp (sP S) (pb_HT b) (- r)))).
    - clear C'. grpS S.
    - rewrite C'. clear C'. grpS S. }
  rewrite <- zexp_pos by (try lia; apply Z.mod_pos_bound; lia).
  rewrite (zexp_modQ S OK) by assumption.
  rewrite <- zexp_mul by (try lia; now apply in_group_unit).
  rewrite <- D. rewrite zexp_mul by (try lia; now apply in_group_unit).
  rewrite <- (zexp_modQ S OK) by assumption.
  unfold sec_sub in Pi. rewrite Z.mul_mod_idemp_l in Pi by lia. rewrite Pi.
  rewrite zexp_1 by lia. symmetry. apply Z.mod_small. destruct HgG as [? _]. lia.
Qed.

(** ** Non-vacuity: the hypotheses hold for a concrete base and commitment. *)
Definition toy_base : pbase := ped_base_from_suite toy_suite 7.

Example toy_base_members : member 23 11 (pb_GT toy_base) /\ member 23 11 (pb_HT toy_base)
  /\ pb_HT toy_base <> 1 /\ pb_GT toy_base <> pb_HT toy_base.
Proof. repeat split; vm_compute; congruence. Qed.

Lemma prime_11 : prime 11.
Proof.
  constructor; [lia|]. intros n Hn. 
  assert (n = 1 \/ n = 2 \/ n = 3 \/ n = 4 \/ n = 5 \/ n = 6 \/ n = 7 \/ n = 8 \/ n = 9 \/ n = 10)
    as D by lia.
  apply Zgcd_1_rel_prime. repeat destruct D as [->|D]; try reflexivity. subst; reflexivity.
Qed.

Lemma prime_23' : prime 23.
Proof.
  constructor; [lia|]. intros n Hn. apply Zgcd_1_rel_prime.
  assert (K : forall m, (m < 23)%nat -> (0 < m)%nat -> Z.gcd (Z.of_nat m) 23 = 1).
  { intros m Hm. do 23 (destruct m as [|m]; [intros; lia || reflexivity|]). lia. }
  rewrite <- (Z2Nat.id n) by lia. apply K; lia.
Qed.

Example C01_instance : ped_verify toy_suite toy_base 3 5 (ped_commit_r toy_suite toy_base 3 5) = true
  /\ ped_verify toy_suite toy_base 4 5 (ped_commit_r toy_suite toy_base 3 5) = false.
Proof. split; reflexivity. Qed.

Example C04_instance : exists! r', 0 <= r' < 11 /\
  commits_to 23 (pb_GT toy_base) (pb_HT toy_base) 9 r' (ped_commit_r toy_suite toy_base 3 5).
Proof.
  destruct toy_base_members as (A & B & C & _).
  apply (C04_hiding toy_suite toy_ok toy_base); try assumption.
  - exact prime_23'.
  - exact prime_11.
  - repeat split; vm_compute; congruence.
Qed.

Print Assumptions C01_verify_iff.
Print Assumptions C01_commit_verifies.
Print Assumptions C02_add_sub.
Print Assumptions C03_rekey_keeps_openings.
Print Assumptions C03_rekey_adds_no_opening.
Print Assumptions C04_hiding.
Print Assumptions C04_binding.
