(** C115: how likely each order of a shuffled table is. *)
From Coq Require Import ZArith Lia List Bool Permutation Arith.
From Verif Require Import ZMod Bytes Suite Perm PairShuffle Prop_Shuffle.
Import ListNotations.
Open Scope Z_scope.

(** ** Specification *)
(** What random.Uint64 returns. *)
Definition is_word (w : Z) : Prop := 0 <= w < 2 ^ 64.
(** The words [ws] are drawn one after the other, the first one in the iteration with index
    [length ws]. *)
Definition words (ws : list Z) (i : nat) : Z := nth (length ws - i) ws 0.
(** With the words [ws], Shuffle permutes a table by [p]. *)
Definition permutes (S : suite) (g h : Z) (X Y beta : list Z) (ws : list Z) (p : list nat) : Prop :=
  exists sh, shuffle S g h X Y (words ws) beta = Some sh /\ shPi sh = p.
(** [L] lists all sequences of words with which that happens, each once: its length is the
    number of ways in which [p] comes about. *)
Definition ways (S : suite) (g h : Z) (X Y beta : list Z) (p : list nat) (L : list (list Z)) : Prop :=
  NoDup L /\ forall ws, In ws L <-> length ws = (length X - 1)%nat /\ Forall is_word ws /\ permutes S g h X Y beta ws p.
(** The product of [f i] for i = 1, ..., n. *)
Fixpoint product (f : Z -> Z) (n : nat) : Z :=
  match n with O => 1 | Datatypes.S n' => f (Z.of_nat n) * product f n' end.

(** ** The loop *)
Definition jth (w : Z) (i : nat) : nat := Z.to_nat (w mod (Z.of_nat i + 1)).
Definition step (w : Z) (i : nat) (pi : list nat) : list nat := if Nat.eqb (jth w i) i then pi else swap pi i (jth w i).
Fixpoint lloop (ws : list Z) (pi : list nat) : list nat :=
  match ws with [] => pi | w :: r => lloop r (step w (length ws) pi) end.

Lemma perm_loop_ext u u' : forall i pi, (forall m, (1 <= m <= i)%nat -> u m = u' m) -> perm_loop u i pi = perm_loop u' i pi.
Proof.
  induction i as [|i IH]; intros pi H; cbn [perm_loop]; [reflexivity|]. rewrite (H (Datatypes.S i)) by lia. apply IH. intros m Hm. apply H. lia.
Qed.
Lemma loop_words ws : forall pi, perm_loop (words ws) (length ws) pi = lloop ws pi.
Proof.
  induction ws as [|w r IH]; intros pi; [reflexivity|]. cbn [length perm_loop lloop].
  rewrite (perm_loop_ext _ (words r)).
  - rewrite IH. unfold step, jth, words. cbn [length]. now rewrite Nat.sub_diag.
  - intros m Hm. unfold words. cbn [length]. replace (Datatypes.S (length r) - m)%nat with (Datatypes.S (length r - m)) by lia. reflexivity.
Qed.
Lemma jth_le w i : (jth w i <= i)%nat.
Proof. unfold jth. pose proof (Z.mod_pos_bound w (Z.of_nat i + 1) ltac:(lia)). lia. Qed.
Lemma step_length w i pi : length (step w i pi) = length pi.
Proof. unfold step. destruct (_ =? _)%nat; [reflexivity|apply swap_length]. Qed.
Lemma step_at w i pi m : (i < length pi)%nat -> (i <= m)%nat -> nth m (step w i pi) 0%nat = if (m =? i)%nat then nth (jth w i) pi 0%nat else nth m pi 0%nat.
Proof.
  intros L Hm. pose proof (jth_le w i) as J. unfold step. destruct (Nat.eqb_spec (jth w i) i) as [E|N].
  - destruct (Nat.eqb_spec m i) as [->|]; [now rewrite E|reflexivity].
  - rewrite nth_swap by lia. destruct (m =? i)%nat eqn:Em; [reflexivity|]. apply Nat.eqb_neq in Em. destruct (Nat.eqb_spec m (jth w i)); [lia|reflexivity].
Qed.
Lemma step_perm w i pi : (i < length pi)%nat -> Permutation (step w i pi) pi.
Proof.
  intros L. pose proof (jth_le w i). unfold step. destruct (Nat.eqb_spec (jth w i) i); [reflexivity|]. apply swap_perm; lia.
Qed.
Lemma lloop_above ws : forall pi m, (length ws < length pi)%nat -> (length ws < m)%nat -> nth m (lloop ws pi) 0%nat = nth m pi 0%nat.
Proof.
  induction ws as [|w r IH]; intros pi m L Hm; [reflexivity|]. cbn [lloop]. cbn [length] in L, Hm.
  rewrite IH by (rewrite ?step_length; lia). rewrite step_at by (cbn [length]; lia). cbn [length].
  destruct (Nat.eqb_spec m (Datatypes.S (length r))); [lia|reflexivity].
Qed.

(** Same result exactly if the words agree modulo the number of choices. *)
Fixpoint agree (ws ws' : list Z) : Prop :=
  match ws, ws' with
  | [], [] => True
  | w :: r, w' :: r' => w mod (Z.of_nat (length ws) + 1) = w' mod (Z.of_nat (length ws) + 1) /\ agree r r'
  | _, _ => False
  end.
Lemma lloop_agree : forall ws ws' pi, length ws = length ws' -> NoDup pi -> (length ws < length pi)%nat ->
  (lloop ws pi = lloop ws' pi <-> agree ws ws').
Proof.
  induction ws as [|w r IH]; intros [|w' r'] pi L ND B; try discriminate; [split; reflexivity|].
  cbn [length] in L, B. injection L as L. cbn [lloop agree length]. rewrite <- L. set (i := Datatypes.S (length r)) in *.
  assert (ND' : forall v, NoDup (step v i pi)).
  { intros v. eapply Permutation_NoDup; [symmetry; apply step_perm; lia|exact ND]. }
  split.
  - intros E.
    assert (J : jth w i = jth w' i).
    { assert (N : nth (jth w i) pi 0%nat = nth (jth w' i) pi 0%nat).
      { pose proof (f_equal (fun l => nth i l 0%nat) E) as N. cbv beta in N.
        rewrite !lloop_above in N by (rewrite ?step_length; unfold i; lia). rewrite !step_at in N by lia. now rewrite Nat.eqb_refl in N. }
      pose proof (jth_le w i). pose proof (jth_le w' i). eapply (proj1 (NoDup_nth pi 0%nat)); [exact ND|lia|lia|exact N]. }
    split.
    + unfold jth in J. pose proof (Z.mod_pos_bound w (Z.of_nat i + 1) ltac:(lia)). pose proof (Z.mod_pos_bound w' (Z.of_nat i + 1) ltac:(lia)). lia.
    + apply (IH r' (step w i pi)); [exact L|apply ND'|rewrite step_length; unfold i in B; lia|]. rewrite E. unfold step. now rewrite J.
  - intros [M A]. assert (J : jth w i = jth w' i) by (unfold jth; now rewrite M).
    replace (step w' i pi) with (step w i pi) by (unfold step; now rewrite J).
    apply (IH r' (step w i pi)); [exact L|apply ND'|rewrite step_length; unfold i in B; lia|exact A].
Qed.

(** ** Counting *)
Definition class_size (o r : Z) : Z := 2 ^ 64 / o + (if r <? 2 ^ 64 mod o then 1 else 0).
Definition in_class (o r : Z) : list Z := map (fun t => r + Z.of_nat t * o) (seq 0 (Z.to_nat (class_size o r))).
Lemma class_size_nonneg o r : 0 < o -> 0 <= class_size o r.
Proof. intros H. unfold class_size. pose proof (Z.div_pos (2 ^ 64) o ltac:(lia) H). destruct (_ <? _); lia. Qed.
Lemma in_class_iff o r w : 0 <= r < o -> (In w (in_class o r) <-> is_word w /\ w mod o = r).
Proof.
  intros R. unfold in_class, is_word. pose proof (class_size_nonneg o r ltac:(lia)) as C0. rewrite in_map_iff.
  pose proof (Z.div_mod (2 ^ 64) o ltac:(lia)) as D. pose proof (Z.mod_pos_bound (2 ^ 64) o ltac:(lia)) as B. unfold class_size in *.
  set (M := 2 ^ 64) in *. set (Q := M / o) in *. set (s := M mod o) in *. clearbody M Q s. split.
  - intros (t & <- & I). apply in_seq in I. assert (T : Z.of_nat t < Q + (if r <? s then 1 else 0)) by lia.
    split; [|rewrite Z.mod_add by lia; now apply Z.mod_small].
    destruct (r <? s) eqn:E; [apply Z.ltb_lt in E|apply Z.ltb_ge in E]; nia.
  - intros [W E]. pose proof (Z.div_mod w o ltac:(lia)) as Dw. rewrite E in Dw.
    pose proof (Z.div_pos w o ltac:(lia) ltac:(lia)) as P. exists (Z.to_nat (w / o)). rewrite Z2Nat.id by exact P. split; [lia|].
    apply in_seq. set (t := w / o) in *. clearbody t.
    assert (t < Q + (if r <? s then 1 else 0)); [|lia].
    destruct (r <? s) eqn:F; [apply Z.ltb_lt in F|apply Z.ltb_ge in F]; nia.
Qed.
Lemma in_class_nodup o r : 0 < o -> NoDup (in_class o r).
Proof. intros H. apply FinFun.Injective_map_NoDup; [|apply seq_NoDup]. intros a b E. nia. Qed.
Lemma in_class_length o r : 0 < o -> Z.of_nat (length (in_class o r)) = class_size o r.
Proof. intros H. unfold in_class. rewrite map_length, seq_length, Z2Nat.id; [reflexivity|now apply class_size_nonneg]. Qed.

(** All sequences of words that agree with [ws], and their number. *)
Fixpoint agreeing (ws : list Z) : list (list Z) :=
  match ws with
  | [] => [[]]
  | w :: r => let o := Z.of_nat (length ws) + 1 in map (fun p => fst p :: snd p) (list_prod (in_class o (w mod o)) (agreeing r))
  end.
Fixpoint number (ws : list Z) : Z :=
  match ws with
  | [] => 1
  | w :: r => let o := Z.of_nat (length ws) + 1 in class_size o (w mod o) * number r
  end.
Lemma list_prod_nodup {A B} (l : list A) (l' : list B) : NoDup l -> NoDup l' -> NoDup (list_prod l l').
Proof.
  intros N N'. induction N as [|a l NI N IH]; cbn; [constructor|].
  assert (D : forall (l1 l2 : list (A * B)), NoDup l1 -> NoDup l2 -> (forall x, In x l1 -> ~ In x l2) -> NoDup (l1 ++ l2)).
  { induction l1 as [|x l1 IH1]; intros l2 H1 H2 H; cbn; [exact H2|]. inversion H1; subst. constructor.
    - rewrite in_app_iff. intros [I|I]; [contradiction|]. apply (H x); [now left|exact I].
    - apply IH1; [assumption|assumption|]. intros z Iz. apply H. now right. }
  apply D; [|exact IH|].
  - apply FinFun.Injective_map_NoDup; [|exact N']. intros x y E. now injection E.
  - intros [x y] I J. apply in_map_iff in I. destruct I as (z & [= <- <-] & _). apply in_prod_iff in J. tauto.
Qed.
Lemma agreeing_spec ws : NoDup (agreeing ws) /\ Z.of_nat (length (agreeing ws)) = number ws /\
  forall v, In v (agreeing ws) <-> length v = length ws /\ Forall is_word v /\ agree v ws.
Proof.
  induction ws as [|w r (ND & LN & IH)].
  - cbn. split; [repeat constructor; auto|]. split; [reflexivity|]. intros v. split.
    + intros [<-|[]]. repeat split. constructor.
    + intros (L & _). destruct v; [now left|discriminate].
  - cbn [agreeing number]. set (o := Z.of_nat (length (w :: r)) + 1). assert (O : 0 < o) by lia. split; [|split].
    + apply FinFun.Injective_map_NoDup; [intros [a b] [c d] E; now injection E as -> ->|]. apply list_prod_nodup; [now apply in_class_nodup|exact ND].
    + rewrite map_length, prod_length, Nat2Z.inj_mul, LN, in_class_length by exact O. reflexivity.
    + intros v. rewrite in_map_iff. pose proof (Z.mod_pos_bound w o O) as R. split.
      * intros ([a b] & <- & I). apply in_prod_iff in I. destruct I as [I J]. cbn [fst snd]. apply in_class_iff in I; [|exact R]. apply IH in J.
        destruct I as [W M]. destruct J as (L & F & A). split; [cbn [length]; lia|]. split; [now constructor|]. cbn [agree length]. rewrite L.
        split; [exact M|exact A].
      * intros (L & F & A). destruct v as [|a b]; [discriminate|]. cbn [length] in L. injection L as L. inversion F; subst. cbn [agree length] in A. rewrite L in A.
        destruct A as [M A]. exists (a, b). split; [reflexivity|]. apply in_prod_iff. split; [apply in_class_iff; [exact R|]; split; assumption|]. apply IH. repeat split; assumption.
Qed.
Lemma number_bounds ws : product (fun i => 2 ^ 64 / (i + 1)) (length ws) <= number ws <= product (fun i => 2 ^ 64 / (i + 1) + 1) (length ws) /\
  0 <= product (fun i => 2 ^ 64 / (i + 1)) (length ws).
Proof.
  induction ws as [|w r IH]; [cbn; lia|]. cbn [number]. cbn [length product]. set (o := Z.of_nat (Datatypes.S (length r)) + 1).
  pose proof (Z.div_pos (2 ^ 64) o ltac:(lia) ltac:(lia)) as P.
  assert (C : 2 ^ 64 / o <= class_size o (w mod o) <= 2 ^ 64 / o + 1) by (unfold class_size; destruct (_ <? _); lia).
  set (a := 2 ^ 64 / o) in *. set (c := class_size o (w mod o)) in *. set (x := product _ _) in *. set (y := product _ _) in *. clearbody a c x y. nia.
Qed.

(** ** C115 *)
Lemma permutes_lloop S g h X Y beta ws p : (2 <= length X)%nat -> length Y = length X -> length ws = (length X - 1)%nat ->
  (permutes S g h X Y beta ws p <-> lloop ws (seq 0 (length X)) = p).
Proof.
  intros K LY LW. unfold permutes, shuffle. rewrite LY, Nat.eqb_refl. cbn [negb]. destruct (Nat.leb_spec (length X) 1); [lia|].
  unfold draw_perm. rewrite <- LW, loop_words. split.
  - intros (sh & [= <-] & <-). reflexivity.
  - intros <-. eexists. split; reflexivity.
Qed.
Lemma word_lists p k : Permutation p (seq 0 k) -> (2 <= k)%nat -> Z.of_nat k < 2 ^ 64 ->
  exists ws, length ws = (k - 1)%nat /\ Forall is_word ws /\ lloop ws (seq 0 k) = p.
Proof.
  intros HP K B. destruct (draw_perm_onto k p HP) as (u & Hu & E).
  exists (map (fun t => u (k - 1 - t)%nat) (seq 0 (k - 1))).
  assert (L : length (map (fun t => u (k - 1 - t)%nat) (seq 0 (k - 1))) = (k - 1)%nat) by now rewrite map_length, seq_length.
  split; [exact L|]. split.
  - apply Forall_forall. intros w I. apply in_map_iff in I. destruct I as (t & <- & I). apply in_seq in I. specialize (Hu (k - 1 - t)%nat). unfold is_word. lia.
  - rewrite <- loop_words, L, <- E. unfold draw_perm. apply perm_loop_ext. intros m Hm. unfold words. rewrite L.
    rewrite (nth_indep _ 0 (u (k - 1 - 0)%nat)) by (rewrite L; lia). rewrite (map_nth (fun t => u (k - 1 - t)%nat)), seq_nth by lia. f_equal. lia.
Qed.

(** Two sequences of words give the same order exactly if they agree in each iteration modulo
    the number of choices there. *)
Theorem C115_choices : forall S g h X Y beta ws ws' p, (2 <= length X)%nat -> length Y = length X ->
  length ws = (length X - 1)%nat -> length ws' = (length X - 1)%nat -> permutes S g h X Y beta ws p ->
  (permutes S g h X Y beta ws' p <-> forall i, (1 <= i < length X)%nat -> words ws' i mod (Z.of_nat i + 1) = words ws i mod (Z.of_nat i + 1)).
Proof.
  intros S g h X Y beta ws ws' p K LY L L' E. apply permutes_lloop in E; [|assumption..]. rewrite permutes_lloop by assumption. rewrite <- E.
  rewrite lloop_agree by (rewrite ?seq_length; try apply seq_NoDup; lia).
  assert (G : forall n v v', length v = n -> length v' = n ->
    (agree v' v <-> forall i, (1 <= i <= n)%nat -> words v' i mod (Z.of_nat i + 1) = words v i mod (Z.of_nat i + 1))).
  { induction n as [|n IH]; intros [|a v] [|a' v'] LV LV'; try discriminate; [split; [intros _ i Hi; lia|reflexivity]|].
    cbn [length] in LV, LV'. injection LV as LV. injection LV' as LV'. cbn [agree length]. rewrite (IH v v' LV LV'), LV'.
    assert (W : forall b (r : list Z) i, length r = n -> (1 <= i <= n)%nat -> words (b :: r) i = words r i).
    { intros b r i Lr Hi. unfold words. cbn [length]. rewrite Lr. replace (Datatypes.S n - i)%nat with (Datatypes.S (n - i)) by lia. reflexivity. }
    assert (W0 : forall b (r : list Z), length r = n -> words (b :: r) (Datatypes.S n) = b).
    { intros b r Lr. unfold words. cbn [length]. rewrite Lr, Nat.sub_diag. reflexivity. }
    split.
    - intros [M A] i Hi. destruct (Nat.eq_dec i (Datatypes.S n)) as [->|N]; [rewrite !W0 by assumption; exact M|]. rewrite !W by (assumption || lia). apply A. lia.
    - intros A. split; [specialize (A (Datatypes.S n) ltac:(lia)); rewrite !W0 in A by assumption; exact A|].
      intros i Hi. specialize (A i ltac:(lia)). rewrite !W in A by (assumption || lia). exact A. }
  rewrite (G (length X - 1)%nat) by assumption. split; intros A i Hi; apply A; lia.
Qed.
Print Assumptions C115_choices.

Lemma ways_number S g h X Y beta p L ws : (2 <= length X)%nat -> length Y = length X -> length ws = (length X - 1)%nat ->
  permutes S g h X Y beta ws p -> ways S g h X Y beta p L -> Z.of_nat (length L) = number ws.
Proof.
  intros K LY LW E [ND HL]. destruct (agreeing_spec ws) as (ND' & LN & HA). rewrite <- LN. f_equal. apply Permutation_length, NoDup_Permutation; [assumption..|].
  intros v. rewrite HL, HA, LW. apply permutes_lloop in E; [|assumption..]. split.
  - intros (A & B & C). split; [exact A|]. split; [exact B|]. apply permutes_lloop in C; [|assumption..].
    apply (lloop_agree v ws (seq 0 (length X))); [lia|apply seq_NoDup|rewrite seq_length; lia|congruence].
  - intros (A & B & C). split; [exact A|]. split; [exact B|]. apply permutes_lloop; [assumption..|].
    rewrite <- E. apply (lloop_agree v ws (seq 0 (length X))); [lia|apply seq_NoDup|rewrite seq_length; lia|exact C].
Qed.

(** Every order comes about in nearly the same number of ways. *)
Theorem C115_nearly_equal : forall S g h X Y beta p L, (2 <= length X)%nat -> length Y = length X -> Z.of_nat (length X) < 2 ^ 64 ->
  Permutation p (seq 0 (length X)) -> ways S g h X Y beta p L ->
  product (fun i => 2 ^ 64 / (i + 1)) (length X - 1) <= Z.of_nat (length L) <= product (fun i => 2 ^ 64 / (i + 1) + 1) (length X - 1).
Proof.
  intros S g h X Y beta p L K LY B HP HW. destruct (word_lists p (length X) HP K B) as (ws & LW & F & E).
  rewrite (ways_number S g h X Y beta p L ws K LY LW); [|now apply permutes_lloop|exact HW]. rewrite <- LW. apply number_bounds.
Qed.
Print Assumptions C115_nearly_equal.

(** There are such lists. *)
Theorem C115_ways_exist : forall S g h X Y beta p, (2 <= length X)%nat -> length Y = length X -> Z.of_nat (length X) < 2 ^ 64 ->
  Permutation p (seq 0 (length X)) -> exists L, ways S g h X Y beta p L.
Proof.
  intros S g h X Y beta p K LY B HP. destruct (word_lists p (length X) HP K B) as (ws & LW & F & E). exists (agreeing ws).
  destruct (agreeing_spec ws) as (ND' & _ & HA). split; [exact ND'|]. intros v. rewrite HA, LW. split.
  - intros (A & C & D). split; [exact A|]. split; [exact C|]. apply permutes_lloop; [assumption..|].
    rewrite <- E. apply (lloop_agree v ws (seq 0 (length X))); [lia|apply seq_NoDup|rewrite seq_length; lia|exact D].
  - intros (A & C & D). split; [exact A|]. split; [exact C|]. apply permutes_lloop in D; [|assumption..].
    apply (lloop_agree v ws (seq 0 (length X))); [lia|apply seq_NoDup|rewrite seq_length; lia|congruence].
Qed.
Print Assumptions C115_ways_exist.

(** But not exactly the same: 2^64 is not a multiple of 3. *)
Theorem C115_equal_refuted :
  ~ (forall S g h X Y beta p p' L L', (2 <= length X)%nat -> length Y = length X -> Z.of_nat (length X) < 2 ^ 64 ->
     Permutation p (seq 0 (length X)) -> Permutation p' (seq 0 (length X)) ->
     ways S g h X Y beta p L -> ways S g h X Y beta p' L' -> length L = length L').
Proof.
  intros C. set (X := [4; 4; 4]).
  assert (A : forall ws, length ws = 2%nat -> exists L, ways toy_suite 4 4 X X [1; 2; 3] (lloop ws (seq 0 3)) L /\ Z.of_nat (length L) = number ws /\
    Permutation (lloop ws (seq 0 3)) (seq 0 (length X))).
  { intros ws LW.
    assert (E : permutes toy_suite 4 4 X X [1; 2; 3] ws (lloop ws (seq 0 3))) by (apply permutes_lloop; [cbn; lia|reflexivity|exact LW|reflexivity]).
    assert (HP : Permutation (lloop ws (seq 0 3)) (seq 0 (length X))).
    { rewrite <- loop_words. apply perm_loop_perm. rewrite LW. cbn. lia. }
    destruct (C115_ways_exist toy_suite 4 4 X X [1; 2; 3] (lloop ws (seq 0 3))) as (L & HL); [cbn; lia|reflexivity|reflexivity|exact HP|].
    exists L. split; [exact HL|]. split; [|exact HP]. eapply ways_number; [| | |exact E|exact HL]; [cbn; lia|reflexivity|exact LW]. }
  destruct (A [0; 0] eq_refl) as (L & H & N & P). destruct (A [1; 0] eq_refl) as (L' & H' & N' & P').
  pose proof (C toy_suite 4 4 X X [1; 2; 3] _ _ L L' ltac:(cbn; lia) eq_refl eq_refl P P' H H') as Q.
  rewrite Q, N' in N. vm_compute in N. discriminate.
Qed.
Print Assumptions C115_equal_refuted.

(** For a table of three, every order comes about in at least 2^63 * (2^64-1)/3 ways. *)
Example C115_instance : exists L, ways toy_suite 4 9 [3; 4; 9] [9; 3; 4] [1; 2; 3] [2; 0; 1]%nat L /\
  2 ^ 63 * ((2 ^ 64 - 1) / 3) <= Z.of_nat (length L) <= (2 ^ 63 + 1) * ((2 ^ 64 - 1) / 3 + 1).
Proof.
  assert (HP : Permutation [2; 0; 1]%nat (seq 0 (length [3; 4; 9]))).
  { cbn. apply NoDup_Permutation; [repeat constructor; cbn; intuition discriminate|repeat constructor; cbn; intuition discriminate|]. intros x. cbn. tauto. }
  destruct (C115_ways_exist toy_suite 4 9 [3; 4; 9] [9; 3; 4] [1; 2; 3] [2; 0; 1]%nat) as (L & HL); [cbn; lia|reflexivity|reflexivity|exact HP|].
  exists L. split; [exact HL|]. pose proof (C115_nearly_equal toy_suite 4 9 [3; 4; 9] [9; 3; 4] [1; 2; 3] [2; 0; 1]%nat L ltac:(cbn; lia) eq_refl eq_refl HP HL) as X.
  exact X.
Qed.
