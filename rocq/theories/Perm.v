(** The permutation drawn by shuffle.Shuffle (util/shuffle/pair.go). *)
From Coq Require Import ZArith Lia List Permutation Arith.
Import ListNotations.

(** Assignment to an element of a slice; an index out of range is not used. *)
Fixpoint set_nth {A} (l : list A) (i : nat) (v : A) : list A :=
  match l, i with
  | [], _ => []
  | _ :: r, O => v :: r
  | x :: r, S i => x :: set_nth r i v
  end.

(** pair.go:329-333: the swap inside the loop. *)
Definition swap (l : list nat) (i j : nat) : list nat :=
  let t := nth j l 0 in
  let l' := set_nth l j (nth i l 0) in
  set_nth l' i t.

(** pair.go:327-334: for i := k-1; i > 0; i--.  [u i] is the random.Uint64 drawn in
    the iteration of index i. *)
Fixpoint perm_loop (u : nat -> Z) (i : nat) (pi : list nat) : list nat :=
  match i with
  | O => pi
  | S i' =>
      let j := Z.to_nat (u i mod (Z.of_nat i + 1)) in
      let pi' := if Nat.eqb j i then pi else swap pi i j in
      perm_loop u i' pi'
  end.

(** pair.go:323-334 *)
Definition draw_perm (u : nat -> Z) (k : nat) : list nat := perm_loop u (k - 1) (seq 0 k).

(** pair.go:129-133: the inverse permutation, piinv[pi[i]] = i. *)
Fixpoint inv_loop (i : nat) (pi : list nat) (acc : list nat) : list nat :=
  match pi with
  | [] => acc
  | p :: r => inv_loop (S i) r (set_nth acc p i)
  end.
Definition perm_inv (pi : list nat) : list nat := inv_loop 0 pi (repeat 0 (length pi)).

(** ** Lemmas *)
Lemma set_nth_length {A} (l : list A) i v : length (set_nth l i v) = length l.
Proof. revert i. induction l as [|x l IH]; intros [|i]; cbn; auto. Qed.

Lemma nth_set_nth {A} (l : list A) i j v d : i < length l ->
  nth j (set_nth l i v) d = if Nat.eqb j i then v else nth j l d.
Proof.
  revert i j. induction l as [|x l IH]; intros [|i] [|j] H; cbn in *; try lia; try reflexivity.
  rewrite IH by lia. reflexivity.
Qed.

Lemma swap_length l i j : length (swap l i j) = length l.
Proof. unfold swap. now rewrite !set_nth_length. Qed.

Lemma nth_swap l i j m : i < length l -> j < length l ->
  nth m (swap l i j) 0 = if Nat.eqb m i then nth j l 0 else if Nat.eqb m j then nth i l 0 else nth m l 0.
Proof.
  intros Hi Hj. unfold swap. rewrite nth_set_nth by (rewrite set_nth_length; lia).
  destruct (Nat.eqb m i); [reflexivity|]. now rewrite nth_set_nth.
Qed.

(** Replacing the element at j by a, in two forms. *)
Lemma perm_set_nth {A} (l : list A) j a d : j < length l ->
  Permutation (nth j l d :: set_nth l j a) (a :: l).
Proof.
  revert j. induction l as [|x l IH]; intros [|j] H; cbn in *; try lia.
  - apply perm_swap.
  - etransitivity; [apply perm_swap|]. etransitivity; [apply perm_skip, (IH j); lia|]. apply perm_swap.
Qed.

Lemma swap_perm l i j : i < length l -> j < length l -> i <> j -> Permutation (swap l i j) l.
Proof.
  intros Hi Hj N. unfold swap. set (l' := set_nth l j (nth i l 0)).
  assert (H1 : Permutation (nth j l 0 :: l') (nth i l 0 :: l)) by (apply perm_set_nth; lia).
  assert (H2 : Permutation (nth i l' 0 :: set_nth l' i (nth j l 0)) (nth j l 0 :: l')).
  { apply perm_set_nth. unfold l'. rewrite set_nth_length. lia. }
  assert (E : nth i l' 0 = nth i l 0).
  { unfold l'. rewrite nth_set_nth by lia. destruct (Nat.eqb_spec i j); [lia|reflexivity]. }
  rewrite E in H2. rewrite H1 in H2. now apply Permutation_cons_inv in H2.
Qed.

Lemma loop_j u i : Z.to_nat (u i mod (Z.of_nat i + 1)) <= i.
Proof. pose proof (Z.mod_pos_bound (u i) (Z.of_nat i + 1) ltac:(lia)). lia. Qed.

Lemma perm_loop_perm u : forall i pi, i < length pi \/ i = 0 -> Permutation (perm_loop u i pi) pi.
Proof.
  induction i as [|i IH]; intros pi H; cbn [perm_loop]; [reflexivity|].
  pose proof (loop_j u (S i)) as J. set (j := Z.to_nat _) in *.
  destruct (Nat.eqb_spec j (S i)) as [E|N].
  - apply IH. lia.
  - rewrite IH by (rewrite swap_length; lia). apply swap_perm; lia.
Qed.

Lemma draw_perm_perm u k : Permutation (draw_perm u k) (seq 0 k).
Proof. unfold draw_perm. apply perm_loop_perm. rewrite seq_length. lia. Qed.

Lemma draw_perm_length u k : length (draw_perm u k) = k.
Proof. rewrite (Permutation_length (draw_perm_perm u k)). apply seq_length. Qed.

Lemma firstn_ext {A} (l l' : list A) n d : n <= length l -> n <= length l' ->
  (forall m, m < n -> nth m l d = nth m l' d) -> firstn n l = firstn n l'.
Proof.
  revert l l'. induction n as [|n IH]; intros [|a l] [|b l'] H1 H2 H; cbn in *; try lia; try reflexivity.
  f_equal; [apply (H 0); lia|]. apply IH; try lia. intros m L. apply (H (S m)). lia.
Qed.

Lemma firstn_snoc {A} (l : list A) n d : n < length l -> firstn (S n) l = firstn n l ++ [nth n l d].
Proof.
  revert l. induction n as [|n IH]; intros [|a l] H; cbn in *; try lia; [reflexivity|].
  f_equal. apply IH. lia.
Qed.

(** Every arrangement can be reached: the invariant is that the first i+1 elements
    are a rearrangement of the target's and the others are final. *)
Lemma perm_loop_onto p : forall i cur,
  length cur = length p -> i < length p ->
  Permutation (firstn (S i) cur) (firstn (S i) p) ->
  (forall m, i < m -> nth m cur 0 = nth m p 0) ->
  exists u, (forall n, (0 <= u n <= Z.of_nat n)%Z) /\ perm_loop u i cur = p.
Proof.
  induction i as [|i IH]; intros cur L Hi HP HE.
  - exists (fun n => 0%Z). split; [lia|]. cbn [perm_loop]. apply (nth_ext _ _ 0 0 L).
    intros [|n] Hn; [|apply HE; lia].
    destruct cur as [|a cur], p as [|b p]; cbn in *; try lia.
    apply Permutation_length_1 in HP. exact HP.
  - assert (HI : In (nth (S i) p 0) (firstn (S (S i)) cur)).
    { rewrite HP. rewrite (firstn_snoc p (S i) 0) by lia. apply in_or_app. right. now left. }
    apply (In_nth _ _ 0) in HI. destruct HI as (j & Hj & Ej).
    rewrite firstn_length in Hj. rewrite <- L in Hi.
    assert (Ej' : nth j cur 0 = nth (S i) p 0).
    { rewrite <- Ej. rewrite <- (firstn_skipn (S (S i)) cur) at 1. rewrite app_nth1; [reflexivity|].
      rewrite firstn_length. lia. }
    set (cur' := if Nat.eqb j (S i) then cur else swap cur (S i) j).
    assert (L' : length cur' = length cur) by (unfold cur'; destruct (Nat.eqb j (S i)); [reflexivity|apply swap_length]).
    assert (Last : nth (S i) cur' 0 = nth (S i) p 0).
    { unfold cur'. destruct (Nat.eqb_spec j (S i)) as [->|N]; [assumption|].
      rewrite nth_swap by lia. now rewrite Nat.eqb_refl. }
    assert (Rest : forall m, S i < m -> nth m cur' 0 = nth m p 0).
    { intros m Hm. rewrite <- HE by lia. unfold cur'. destruct (Nat.eqb_spec j (S i)) as [->|N]; [reflexivity|].
      rewrite nth_swap by lia. destruct (Nat.eqb_spec m (S i)); [lia|]. destruct (Nat.eqb_spec m j); [lia|reflexivity]. }
    assert (PC : Permutation (firstn (S (S i)) cur') (firstn (S (S i)) cur)).
    { unfold cur'. destruct (Nat.eqb_spec j (S i)) as [->|N]; [reflexivity|].
      assert (E : firstn (S (S i)) (swap cur (S i) j) = swap (firstn (S (S i)) cur) (S i) j).
      { assert (Lf : length (firstn (S (S i)) cur) = S (S i)) by (rewrite firstn_length; lia).
        apply (nth_ext _ _ 0 0).
        - rewrite swap_length, !firstn_length, swap_length. lia.
        - intros m Hm. rewrite firstn_length, swap_length in Hm.
          assert (F : forall l q, q < S (S i) -> nth q (firstn (S (S i)) l) 0 = nth q l 0).
          { intros l q Hq. revert l q Hq. generalize (S (S i)) as n. clear.
            induction n as [|n IHn]; intros [|x l] [|q] Hq; cbn; try reflexivity; try lia. apply IHn. lia. }
          rewrite F by lia. rewrite !nth_swap by lia. rewrite !F by lia. reflexivity. }
      rewrite E. apply swap_perm; try lia; rewrite firstn_length; lia. }
    rewrite <- PC in HP.
    rewrite (firstn_snoc cur' (S i) 0), (firstn_snoc p (S i) 0) in HP by lia. rewrite Last in HP.
    apply Permutation_app_inv_r in HP.
    destruct (IH cur') as (u & Hu & Eu); try lia; try assumption.
    { intros m Hm. destruct (Nat.eq_dec m (S i)) as [->|]; [assumption|]. apply Rest. lia. }
    exists (fun n => if Nat.eqb n (S i) then Z.of_nat j else u n). split.
    + intros n. destruct (Nat.eqb_spec n (S i)) as [->|]; [lia|apply Hu].
    + cbn [perm_loop]. rewrite Nat.eqb_refl. rewrite Z.mod_small by lia. rewrite Nat2Z.id. fold cur'.
      transitivity (perm_loop u i cur'); [|exact Eu].
      assert (G : forall n cur, n <= i -> perm_loop (fun n => if Nat.eqb n (S i) then Z.of_nat j else u n) n cur = perm_loop u n cur).
      { induction n as [|n IHn]; intros c Hn; [reflexivity|]. cbn [perm_loop].
        destruct (Nat.eqb_spec (S n) (S i)); [lia|]. now rewrite IHn by lia. }
      apply G. lia.
Qed.

Lemma draw_perm_onto k p : Permutation p (seq 0 k) ->
  exists u, (forall n, (0 <= u n <= Z.of_nat n)%Z) /\ draw_perm u k = p.
Proof.
  intros HP. pose proof (Permutation_length HP) as L. rewrite seq_length in L.
  unfold draw_perm. destruct k as [|k].
  - destruct p; [|discriminate]. exists (fun _ => 0%Z). split; [lia|reflexivity].
  - replace (S k - 1) with k by lia. apply perm_loop_onto.
    + rewrite seq_length. lia.
    + lia.
    + rewrite !firstn_all2; [now symmetry| |]; rewrite ?seq_length; lia.
    + intros m Hm. rewrite !nth_overflow; try reflexivity; rewrite ?seq_length; lia.
Qed.

(** The inverse permutation. *)
Lemma inv_loop_length : forall pi i acc, length (inv_loop i pi acc) = length acc.
Proof. induction pi as [|p r IH]; intros i acc; cbn; [reflexivity|]. now rewrite IH, set_nth_length. Qed.

Lemma inv_loop_other : forall pi i acc x, (forall p, In p pi -> p < length acc) -> ~ In x pi ->
  nth x (inv_loop i pi acc) 0 = nth x acc 0.
Proof.
  induction pi as [|p r IH]; intros i acc x B N; cbn; [reflexivity|].
  rewrite IH.
  - rewrite nth_set_nth by (apply B; now left). destruct (Nat.eqb_spec x p); [|reflexivity].
    subst. exfalso. apply N. now left.
  - intros q Hq. rewrite set_nth_length. apply B. now right.
  - intros H. apply N. now right.
Qed.

Lemma inv_loop_nth : forall pi i acc j, (forall p, In p pi -> p < length acc) -> NoDup pi -> j < length pi ->
  nth (nth j pi 0) (inv_loop i pi acc) 0 = i + j.
Proof.
  induction pi as [|p r IH]; intros i acc j B ND Hj; cbn in *; [lia|].
  inversion ND as [|? ? Np NDr]; subst. destruct j as [|j].
  - rewrite inv_loop_other; [|intros q Hq; rewrite set_nth_length; apply B; now right|assumption].
    rewrite nth_set_nth by (apply B; now left). rewrite Nat.eqb_refl. lia.
  - rewrite IH; try assumption; try lia. intros q Hq. rewrite set_nth_length. apply B. now right.
Qed.

Lemma perm_inv_nth pi j : Permutation pi (seq 0 (length pi)) -> j < length pi ->
  nth (nth j pi 0) (perm_inv pi) 0 = j.
Proof.
  intros HP Hj. unfold perm_inv. rewrite inv_loop_nth; [reflexivity| | |assumption].
  - intros p Hp. rewrite repeat_length. apply (Permutation_in _ HP) in Hp. apply in_seq in Hp. lia.
  - apply (Permutation_NoDup (Permutation_sym HP)). apply seq_NoDup.
Qed.

Lemma perm_nth_lt pi k i : Permutation pi (seq 0 k) -> i < k -> nth i pi 0 < k.
Proof.
  intros HP Hi. assert (In (nth i pi 0) (seq 0 k)).
  { apply (Permutation_in _ HP). apply nth_In. rewrite (Permutation_length HP), seq_length. lia. }
  apply in_seq in H. lia.
Qed.
