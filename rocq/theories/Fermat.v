(** Fermat's little theorem, by multiplication permuting the non-zero residues. *)
From Coq Require Import ZArith Znumtheory Lia List Permutation.
From Verif Require Import ZMod.
Import ListNotations.
Open Scope Z_scope.

Definition residues (p : Z) : list Z := map Z.of_nat (seq 1 (Z.to_nat (p - 1))).

Lemma residues_in p x : 1 < p -> In x (residues p) <-> 1 <= x < p.
Proof.
  intros Hp. unfold residues. rewrite in_map_iff. split.
  - intros (n & <- & H). apply in_seq in H. lia.
  - intros H. exists (Z.to_nat x). split; [lia|]. apply in_seq. lia.
Qed.

Lemma residues_nodup p : NoDup (residues p).
Proof.
  unfold residues. apply FinFun.Injective_map_NoDup; [|apply seq_NoDup].
  intros a b H. lia.
Qed.

Lemma residues_length p : 1 < p -> Z.of_nat (length (residues p)) = p - 1.
Proof. intros. unfold residues. rewrite map_length, seq_length. lia. Qed.

Definition prodm (p : Z) (l : list Z) : Z := fold_right (mulm p) 1 l.

Lemma prodm_perm p l l' : 1 < p -> Permutation l l' -> prodm p l = prodm p l'.
Proof.
  intros Hp. induction 1; cbn [prodm fold_right] in *; unfold prodm in *; try congruence.
  rewrite !mulm_assoc by lia. f_equal. apply mulm_comm.
Qed.

Lemma prodm_unit p l : 1 < p -> (forall x, In x l -> unit x p) -> unit (prodm p l) p.
Proof.
  intros Hp. induction l as [|x l IH]; intros H; cbn [prodm fold_right].
  - apply unit_1.
  - apply unit_mulm; [lia|apply H; now left|apply IH; intros; apply H; now right].
Qed.

Lemma prodm_scale p a l : 1 < p -> unit a p ->
  prodm p (map (mulm p a) l) = mulm p (zexp p a (Z.of_nat (length l))) (prodm p l).
Proof.
  intros Hp U. induction l as [|x l IH].
  - cbn [map length prodm fold_right]. rewrite zexp_0 by lia. unfold mulm. now rewrite Z.mod_1_l.
  - cbn [map prodm fold_right length]. unfold prodm in IH. rewrite IH.
    rewrite Nat2Z.inj_succ. unfold Z.succ. rewrite zexp_succ by assumption.
    set (t := fold_right (mulm p) 1 l). set (e := zexp p a (Z.of_nat (length l))).
    apply mulm_swap4. lia.
Qed.

Theorem fermat p a : prime p -> a mod p <> 0 -> zexp p a (p - 1) = 1.
Proof.
  intros Pp Ha. pose proof (prime_ge_2 p Pp) as Hp.
  assert (U : forall x, x mod p <> 0 -> unit x p).
  { intros x Hx. apply rel_prime_sym, prime_rel_prime; [assumption|].
    intros D. apply Hx. now apply Zdivide_mod. }
  assert (Ua := U a Ha).
  assert (PM : Permutation (map (mulm p a) (residues p)) (residues p)).
  { apply NoDup_Permutation_bis.
    - apply NoDup_nth with (d := 0). rewrite map_length. intros i j Hi Hj E.
      assert (D0 : mulm p a 0 = 0) by (unfold mulm; now rewrite Z.mul_0_r).
      rewrite <- D0, !map_nth in E. unfold mulm in E.
      apply (mulm_cancel_l p a) in E; [|lia|assumption].
      assert (R : forall k, (k < length (residues p))%nat -> 1 <= nth k (residues p) 0 < p).
      { intros k Hk. apply residues_in; [lia|]. now apply nth_In. }
      pose proof (R i Hi). pose proof (R j Hj). rewrite !Z.mod_small in E by lia.
      eapply (proj1 (NoDup_nth (residues p) 0) (residues_nodup p)); assumption.
    - now rewrite map_length.
    - intros y Hy. apply in_map_iff in Hy. destruct Hy as (x & <- & Hx).
      apply residues_in in Hx; [|lia]. apply residues_in; [lia|].
      pose proof (mulm_range p a x ltac:(lia)) as R.
      assert (mulm p a x <> 0); [|lia]. intros E.
      assert (Ux : unit (mulm p a x) p).
      { apply unit_mulm; [lia|assumption|]. apply U. rewrite Z.mod_small; lia. }
      rewrite E in Ux. unfold unit, rel_prime in Ux. destruct Ux as [_ _ G].
      specialize (G p (Z.divide_0_r p) (Z.divide_refl p)).
      apply Z.divide_pos_le in G; lia. }
  pose proof (prodm_perm p _ _ ltac:(lia) PM) as E.
  rewrite prodm_scale, residues_length in E by (lia || assumption).
  assert (UP : unit (prodm p (residues p)) p).
  { apply prodm_unit; [lia|]. intros x Hx. apply residues_in in Hx; [|lia].
    apply U. rewrite Z.mod_small; lia. }
  assert (R : 0 <= zexp p a (p - 1) < p) by (apply zexp_range; lia).
  rewrite mulm_comm in E. unfold mulm in E.
  assert (E2 : (prodm p (residues p) * zexp p a (p - 1)) mod p = (prodm p (residues p) * 1) mod p).
  { rewrite E, Z.mul_1_r. symmetry. apply Z.mod_small.
    destruct (residues p); cbn [prodm fold_right]; [lia|apply mulm_range; lia]. }
  apply (mulm_cancel_l p) in E2; [|lia|assumption].
  rewrite Z.mod_1_l, Z.mod_small in E2; lia.
Qed.
