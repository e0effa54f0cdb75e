(** C13, C14: equality of a Pedersen and a Fujisaki-Okamoto commitment. *)
From Coq Require Import ZArith Znumtheory Lia List Bool.
From Coq Require Import Strings.Byte.
From Verif Require Import ZMod Bytes Suite Spec Pedersen FujiOkam Equality Prop_Pedersen Prop_FujiOkam.
Import ListNotations.
Open Scope Z_scope.

(** ** C13 *)
(** An argument made from openings of both commitments to the same value is
    accepted, for all randomness and every hash function. *)
Theorem C13_complete : forall S, suite_ok S -> forall pb fb x r s PComm FOComm t1 t2 t3,
  member (sP S) (sQ S) (pb_GT pb) -> member (sP S) (sQ S) (pb_HT pb) -> fobase_ok fb ->
  0 <= x < sQ S -> 0 <= r < sQ S ->
  commits_to (sP S) (pb_GT pb) (pb_HT pb) x r PComm ->
  commits_int (fN fb) (fG1 fb) (fH1 fb) x s FOComm ->
  verify_equal S pb fb PComm FOComm (prove_equal S pb fb x r s t1 t2 t3) = true.
Proof.
  intros S OK pb fb x r s PComm FOComm t1 t2 t3 HG HH FB Hx Hr HP HF.
  apply member_in_group in HG. apply member_in_group in HH.
  apply commits_int_iff in HF; [|assumption]. unfold commits_to in HP.
  rewrite <- (ped_commit_plain S OK) in HP by lia. subst.
  apply prove_equal_complete; [assumption|split; assumption|assumption].
Qed.
Print Assumptions C13_complete.

(** ** C14 *)
Lemma sigma_eq_zexp n g h u T c s t : 1 < n -> unit g n -> unit h n -> unit u n ->
  sigma_eq n g h u T c s t <->
  (T * zexp n u c) mod n = (zexp n g s * zexp n h t) mod n.
Proof.
  intros Hn Ug Uh Uu. split.
  - intros (A & B & D & HA & HB & HD & E).
    apply is_power_unique in HA, HB, HD; try assumption. subst. exact E.
  - intros E. exists (zexp n g s), (zexp n h t), (zexp n u c).
    repeat split; try (apply zexp_is_power; assumption); try exact E;
    apply zexp_range; lia.
Qed.

Lemma sigma_solve n T u c V : 1 < n -> unit u n -> 0 <= T < n ->
  (T * zexp n u c) mod n = V mod n <-> T = mulm n V (zexp n u (- c)).
Proof.
  intros Hn Uu HT. pose proof (zexp_opp n u c Hn Uu) as O. unfold mulm in *. split.
  - intros E. rewrite <- (Z.mul_mod_idemp_l V) by lia. rewrite <- E.
    rewrite Z.mul_mod_idemp_l by lia. rewrite <- Z.mul_assoc.
    rewrite <- Z.mul_mod_idemp_r, O, Z.mul_1_r by lia. symmetry. now apply Z.mod_small.
  - intros ->. rewrite Z.mul_mod_idemp_l by lia. rewrite <- Z.mul_assoc.
    rewrite (Z.mul_comm (zexp n u (- c))). rewrite <- Z.mul_mod_idemp_r, O, Z.mul_1_r by lia.
    reflexivity.
Qed.

(** VerifyEqual accepts exactly the arguments whose challenge is the hash of the
    (unique) first messages satisfying both verification equations; the same S1
    is used on both sides. *)
Theorem C14_accept_exact : forall S, suite_ok S -> forall pb fb PComm FOComm a,
  member (sP S) (sQ S) (pb_GT pb) -> member (sP S) (sQ S) (pb_HT pb) ->
  member (sP S) (sQ S) PComm -> fobase_ok fb -> rel_prime FOComm (fN fb) ->
  (verify_equal S pb fb PComm FOComm a = true <->
   exists T1 T2, 0 <= T1 < sP S /\ 0 <= T2 < fN fb /\
     sigma_eq (sP S) (pb_GT pb) (pb_HT pb) PComm T1 (aqC a) (aqS1 a) (aqS2 a) /\
     sigma_eq (fN fb) (fG1 fb) (fH1 fb) FOComm T2 (aqC a) (aqS1 a) (aqS3 a) /\
     aqC a = be_to_z (sHash S (enc_point S T1 ++ z_bytes T2))).
Proof.
  intros S OK pb fb PComm FOComm a HG HH HP FB UF.
  apply member_in_group in HG, HH, HP. pose proof FB as [HN UH1 UG1 _ _ _ _ _].
  pose proof (sP_gt1 S OK) as HP1. pose proof (sQ_gt1 S OK) as HQ1.
  assert (UG := in_group_unit S OK _ HG). assert (UH := in_group_unit S OK _ HH).
  assert (UP := in_group_unit S OK _ HP).
  assert (E1 : eq_T1 S pb PComm a = mulm (sP S) (zexp (sP S) (pb_GT pb) (aqS1 a) * zexp (sP S) (pb_HT pb) (aqS2 a))
     (zexp (sP S) PComm (- aqC a))).
  { rewrite <- mulm_mod_l by lia.
    change ((zexp (sP S) (pb_GT pb) (aqS1 a) * zexp (sP S) (pb_HT pb) (aqS2 a)) mod sP S) with
      (mulm (sP S) (zexp (sP S) (pb_GT pb) (aqS1 a)) (zexp (sP S) (pb_HT pb) (aqS2 a))).
    unfold eq_T1, ped_commit_r. grpS S. }
  assert (E2 : eq_T2 fb FOComm a = mulm (fN fb) (zexp (fN fb) (fG1 fb) (aqS1 a) * zexp (fN fb) (fH1 fb) (aqS3 a))
     (zexp (fN fb) FOComm (- aqC a))).
  { rewrite <- mulm_mod_l by lia. reflexivity. }
  unfold verify_equal, eq_challenge. rewrite Z.eqb_eq. split.
  - intros E. exists (eq_T1 S pb PComm a), (eq_T2 fb FOComm a).
    assert (R1 : 0 <= eq_T1 S pb PComm a < sP S) by (rewrite E1; apply mulm_range; lia).
    assert (R2 : 0 <= eq_T2 fb FOComm a < fN fb) by (rewrite E2; apply mulm_range; lia).
    split; [exact R1|]. split; [exact R2|]. split; [|split; [|exact E]].
    + apply sigma_eq_zexp; try assumption. apply sigma_solve; assumption.
    + apply sigma_eq_zexp; try assumption. apply sigma_solve; assumption.
  - intros (T1 & T2 & R1 & R2 & S1 & S2 & E).
    apply sigma_eq_zexp in S1; try assumption. apply sigma_solve in S1; try assumption.
    apply sigma_eq_zexp in S2; try assumption. apply sigma_solve in S2; try assumption.
    rewrite E1, E2, <- S1, <- S2. exact E.
Qed.
Print Assumptions C14_accept_exact.

Lemma sigma_eq_sub n g h u T c s t c' s' t' : 1 < n -> unit g n -> unit h n -> unit u n ->
  sigma_eq n g h u T c s t -> sigma_eq n g h u T c' s' t' ->
  sigma_eq n g h u 1 (c - c') (s - s') (t - t').
Proof.
  intros Hn Ug Uh Uu E E'. rewrite sigma_eq_zexp in * by assumption.
  rewrite Z.mul_1_l.
  assert (UT : unit T n).
  { assert (UV : unit (T * zexp n u c) n).
    { apply (proj2 (unit_mod _ n ltac:(lia))). rewrite E. apply (proj1 (unit_mod _ n ltac:(lia))).
      apply unit_mul; now apply unit_zexp. }
    apply rel_prime_sym in UV. apply rel_prime_sym. 
    destruct (rel_prime_bezout _ _ UV) as [a b BZ].
    apply bezout_rel_prime. apply (Bezout_intro _ _ _ a (b * zexp n u c)).
    rewrite <- BZ. ring. }
  set (v := mulm n (zexp n g (s - s')) (zexp n h (t - t'))).
  change ((zexp n g (s - s') * zexp n h (t - t')) mod n) with v.
  rewrite Z.mod_small by (apply zexp_range; lia).
  assert (X : mulm n T (zexp n u c) = mulm n (zexp n g s) (zexp n h t)) by exact E.
  assert (X' : mulm n T (zexp n u c') = mulm n (zexp n g s') (zexp n h t')) by exact E'.
  transitivity (mulm n (mulm n T (zexp n u c)) (zexp n (mulm n T (zexp n u c')) (-1))).
  - grp n.
  - rewrite X, X'. subst v. grp n.
Qed.

(** Special soundness: two transcripts with the same first messages explain
    PComm and FOComm with the same exponent difference. *)
Theorem C14_special_sound : forall S, suite_ok S -> forall pb fb PComm FOComm T1 T2 c s1 s2 s3 c' s1' s2' s3',
  member (sP S) (sQ S) (pb_GT pb) -> member (sP S) (sQ S) (pb_HT pb) ->
  member (sP S) (sQ S) PComm -> fobase_ok fb -> rel_prime FOComm (fN fb) ->
  sigma_eq (sP S) (pb_GT pb) (pb_HT pb) PComm T1 c s1 s2 ->
  sigma_eq (sP S) (pb_GT pb) (pb_HT pb) PComm T1 c' s1' s2' ->
  sigma_eq (fN fb) (fG1 fb) (fH1 fb) FOComm T2 c s1 s3 ->
  sigma_eq (fN fb) (fG1 fb) (fH1 fb) FOComm T2 c' s1' s3' ->
  sigma_eq (sP S) (pb_GT pb) (pb_HT pb) PComm 1 (c - c') (s1 - s1') (s2 - s2') /\
  sigma_eq (fN fb) (fG1 fb) (fH1 fb) FOComm 1 (c - c') (s1 - s1') (s3 - s3').
Proof.
  intros S OK pb fb PComm FOComm T1 T2 c s1 s2 s3 c' s1' s2' s3' HG HH HP FB UF A1 A2 B1 B2.
  apply member_in_group in HG, HH, HP. pose proof FB as [HN UH1 UG1 _ _ _ _ _].
  pose proof (sP_gt1 S OK) as HP1.
  assert (UG := in_group_unit S OK _ HG). assert (UH := in_group_unit S OK _ HH).
  assert (UP := in_group_unit S OK _ HP).
  split; eapply sigma_eq_sub; eassumption.
Qed.
Print Assumptions C14_special_sound.

(** In a group of prime order, challenges that differ modulo q open the Pedersen
    commitment: to the quotient of the differences. *)
Theorem C14_extract_pedersen : forall S, suite_ok S -> prime (sQ S) -> forall pb PComm c s1 s2,
  member (sP S) (sQ S) (pb_GT pb) -> member (sP S) (sQ S) (pb_HT pb) -> member (sP S) (sQ S) PComm ->
  c mod sQ S <> 0 ->
  sigma_eq (sP S) (pb_GT pb) (pb_HT pb) PComm 1 c s1 s2 ->
  exists x r, 0 <= x < sQ S /\ 0 <= r < sQ S /\ commits_to (sP S) (pb_GT pb) (pb_HT pb) x r PComm /\
    (x * c) mod sQ S = s1 mod sQ S /\ (r * c) mod sQ S = s2 mod sQ S.
Proof.
  intros S OK PQ pb PComm c s1 s2 HG HH HP Hc E.
  apply member_in_group in HG, HH, HP.
  pose proof (sP_gt1 S OK) as HP1. pose proof (sQ_gt1 S OK) as HQ1.
  assert (UG := in_group_unit S OK _ HG). assert (UH := in_group_unit S OK _ HH).
  assert (UP := in_group_unit S OK _ HP).
  apply sigma_eq_zexp in E; try assumption. rewrite Z.mul_1_l in E.
  rewrite Z.mod_small in E by (apply zexp_range; lia).
  assert (RP : rel_prime c (sQ S)).
  { apply rel_prime_sym, prime_rel_prime; [assumption|]. intros D. apply Hc.
    now apply Zdivide_mod. }
  destruct (rel_prime_bezout _ _ RP) as [u v BZ].
  exists ((s1 * u) mod sQ S), ((s2 * u) mod sQ S).
  assert (M : forall s, ((s * u) mod sQ S * c) mod sQ S = s mod sQ S).
  { intros s. rewrite Z.mul_mod_idemp_l by lia.
    replace (s * u * c) with (s + (- s * v) * sQ S) by (transitivity (s * (u * c + v * sQ S) + (- s * v) * sQ S); [rewrite BZ; ring|ring]).
    apply Z.mod_add. lia. }
  split; [apply Z.mod_pos_bound; lia|]. split; [apply Z.mod_pos_bound; lia|].
  split; [|split; apply M].
  unfold commits_to. pose proof (Z.mod_pos_bound (s1 * u) (sQ S) ltac:(lia)).
  pose proof (Z.mod_pos_bound (s2 * u) (sQ S) ltac:(lia)).
  rewrite <- (ped_commit_plain S OK pb) by lia.
  apply (pt_mul_inj S OK _ _ c); try assumption.
  - apply ped_commit_group; [assumption|split; assumption].
  - unfold pt_mul. rewrite E. unfold ped_commit_r.
    change ((zexp (sP S) (pb_GT pb) s1 * zexp (sP S) (pb_HT pb) s2) mod sP S) with
      (mulm (sP S) (zexp (sP S) (pb_GT pb) s1) (zexp (sP S) (pb_HT pb) s2)).
    pose proof (M s1) as M1. pose proof (M s2) as M2.
    unfold pt_add, pt_mul.
    rewrite zexp_mulm by (try apply unit_zexp; assumption).
    rewrite !zexp_mul by assumption.
    rewrite <- (zexp_modQ S OK (pb_GT pb) s1), <- M1, (zexp_modQ S OK) by assumption.
    rewrite <- (zexp_modQ S OK (pb_HT pb) s2), <- M2, (zexp_modQ S OK) by assumption.
    reflexivity.
Qed.
Print Assumptions C14_extract_pedersen.

(** ** Non-vacuity *)
Example C13_instance :
  verify_equal toy_suite toy_base toy_fb (ped_commit_r toy_suite toy_base 5 7) (fo_commit_r toy_fb 5 (-9))
     (prove_equal toy_suite toy_base toy_fb 5 7 (-9) 3 8 2) = true
  /\ verify_equal toy_suite toy_base toy_fb (ped_commit_r toy_suite toy_base 5 7) (fo_commit_r toy_fb 6 (-9))
     (prove_equal toy_suite toy_base toy_fb 5 7 (-9) 3 8 2) = false.
Proof. split; vm_compute; reflexivity. Qed.

(** Two transcripts with common first messages and different challenges. *)
Example C14_instance : let C := ped_commit_r toy_suite toy_base 5 7 in
  sigma_eq 23 (pb_GT toy_base) (pb_HT toy_base) C (ped_commit_r toy_suite toy_base 3 8) 2 13 22 /\
  sigma_eq 23 (pb_GT toy_base) (pb_HT toy_base) C (ped_commit_r toy_suite toy_base 3 8) 4 23 36.
Proof.
  pose proof toy_ok as OK. destruct toy_base_members as [MG [MH _]].
  apply (member_in_group toy_suite) in MG. apply (member_in_group toy_suite) in MH.
  assert (UG := in_group_unit _ OK _ MG). assert (UH := in_group_unit _ OK _ MH).
  assert (UC : unit (ped_commit_r toy_suite toy_base 5 7) 23).
  { apply (in_group_unit _ OK). apply ped_commit_group; [exact OK|split; assumption]. }
  cbn [sP toy_suite] in *.
  cbv zeta. split; apply sigma_eq_zexp; try assumption; try lia; vm_compute; reflexivity.
Qed.
