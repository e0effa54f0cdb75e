(** C114: what a ring signature tells about its maker. *)
From Coq Require Import ZArith Znumtheory Zpow_facts Lia List Bool.
From Coq Require Import Strings.Byte.
From Verif Require Import ZMod Bytes Suite Spec Pedersen Lrs Prop_Lrs.
Import ListNotations.
Open Scope Z_scope.

(** ** Specification *)
(** What Sign draws: numbers below P - 1. *)
Definition drawn (S : suite) (rs rc : nat -> Z) (r : Z) : Prop :=
  (forall i, 0 <= rs i < sP S - 1) /\ (forall i, 0 <= rc i < sP S - 1) /\ 0 <= r < sP S - 1.
(** The holder of the [pi]-th key, with private key [x], can make [sig]. *)
Definition can_make (S : suite) (g : Z) (m : bytes) (n : nat) (y : list Z) (pi : nat) (x : Z) (sig : lsig) : Prop :=
  exists rs rc r, drawn S rs rc r /\ lrs_sign S g m n pi x y rs rc r = Some sig.
(** [x] is the private key of the [pi]-th of the [n] keys of the ring. *)
Definition member (S : suite) (g : Z) (n : nat) (y : list Z) (pi : nat) (x : Z) : Prop :=
  (pi < n)%nat /\ 0 <= x /\ nth pi y 0 = (g ^ x) mod sP S.
(** The digest of message and ring, and the tag that the private key [x] leaves on it. *)
Definition digest (S : suite) (m : bytes) (y : list Z) : Z :=
  be_to_z (sHash S (sHash S m ++ concat (map z_bytes y))).
Definition tag (S : suite) (m : bytes) (y : list Z) (x : Z) : Z := ((digest S m y ^ 2) ^ x) mod sP S.
(** [n] challenges and [n] responses, all reduced. *)
Definition well_formed (S : suite) (n : nat) (sig : lsig) : Prop :=
  length (lS sig) = n /\ length (lC sig) = n /\
  (forall v, In v (lS sig) -> 0 <= v < sP S - 1) /\ (forall v, In v (lC sig) -> 0 <= v < sP S - 1).

(** ** Lemmas *)
Lemma list_as_map (l : list Z) : l = map (fun i => nth i l 0) (seq 0 (length l)).
Proof.
  induction l as [|a l IH]; [reflexivity|]. cbn [length seq map nth]. f_equal. rewrite <- seq_shift, map_map. exact IH.
Qed.
Lemma in_nth_range (l : list Z) q i : 0 < q -> (forall v, In v l -> 0 <= v < q) -> 0 <= nth i l 0 < q.
Proof. intros Q H. destruct (nth_in_or_default i l 0) as [I|E]; [now apply H|rewrite E; lia]. Qed.
Lemma tag_h S m y x : 1 < sP S -> 0 <= x -> zexp (sP S) (lrs_h S m (lrs_L y)) x = tag S m y x.
Proof.
  intros H Hx. unfold lrs_h, lrs_H2, tag, digest, lrs_L. rewrite !zexp_pos by lia. symmetry. apply Zpow_facts.Zpower_mod. lia.
Qed.

Section Make.
Context (S : suite) (PP : prime (sP S)) (g : Z) (m : bytes) (n : nat) (y : list Z) (pi : nat) (x : Z).
Context (Hg : g mod sP S <> 0) (Hn : (n <= length y)%nat) (Hd : digest S m y mod sP S <> 0) (HM : member S g n y pi x).
Let q := sP S - 1.

Lemma remade sig : well_formed S n sig -> lrs_verify S g m n sig y = Some true -> lY0 sig = tag S m y x ->
  lrs_sign S g m n pi x y (fun i => nth i (lS sig) 0) (fun i => nth i (lC sig) 0) ((nth pi (lS sig) 0 + nth pi (lC sig) 0 * x) mod q) = Some sig.
Proof.
  destruct sig as [y0 s c]. unfold well_formed. cbn [lY0 lS lC]. intros (Ls & Lc & Rs & Rc) V ->.
  destruct HM as (Hpi & Hx & Hy). pose proof (prime_ge_2 _ PP) as P2.
  assert (P3 : 1 < sP S) by lia.
  assert (Q0 : 0 < q) by (unfold q; lia).
  assert (Rs' : forall i, 0 <= nth i s 0 < q) by (intros i; apply in_nth_range; assumption).
  assert (Rc' : forall i, 0 <= nth i c 0 < q) by (intros i; apply in_nth_range; assumption).
  rewrite lrs_sign_is_tag; [|assumption|assumption|intros i; apply Rs'|intros i; apply Rc'].
  rewrite tag_h by assumption.
  pose proof (h_nonzero S m (lrs_L y) PP Hd) as Hh.
  set (r := (nth pi s 0 + nth pi c 0 * x) mod q).
  unfold lrs_sign_tag.
  unfold lrs_verify, lrs_challenge in V. cbn [lY0 lS lC] in V.
  assert (Et : tag S m y x mod sP S = zexp (sP S) (lrs_h S m (lrs_L y)) x).
  { rewrite tag_h by assumption. unfold tag. now rewrite Z.mod_mod by lia. }
  set (h := lrs_h S m (lrs_L y)) in *.
  set (z1 := map (fun i => if (i =? pi)%nat then zexp (sP S) g r else _) (seq 0 n)).
  set (z2 := map (fun i => if (i =? pi)%nat then zexp (sP S) h r else _) (seq 0 n)).
  assert (Key : forall b yb, b mod sP S <> 0 -> yb mod sP S = zexp (sP S) b x ->
     mulm (sP S) (zexp (sP S) b (nth pi s 0)) (zexp (sP S) yb (nth pi c 0)) = zexp (sP S) b r).
  { intros b yb Hb Hyb. unfold r. change q with (lQ S). rewrite zexp_fermat by assumption.
    rewrite <- (zexp_mod_base (sP S) yb), Hyb by lia.
    assert (Ub : unit b (sP S)).
    { apply rel_prime_sym, prime_rel_prime; [assumption|]. intros D. apply Hb. now apply Zdivide_mod. }
    rewrite zexp_add, zexp_mul by assumption. f_equal. f_equal. ring. }
  rewrite (all_some_map _ (fun i => if (i =? pi)%nat then zexp (sP S) g r
              else mulm (sP S) (zexp (sP S) g (nth i s 0)) (zexp (sP S) (nth i y 0) (nth i c 0)))) in V.
  2:{ intros i Hi. apply in_seq in Hi. rewrite (nth_error_nth' s 0), (nth_error_nth' y 0), (nth_error_nth' c 0) by lia.
      rewrite lrs_z_nonneg by (apply Rs' || apply Rc'). f_equal. destruct (Nat.eqb_spec i pi) as [->|N]; [|reflexivity].
      apply Key; [assumption|]. rewrite Hy, zexp_pos, Z.mod_mod by lia. reflexivity. }
  rewrite (all_some_map _ (fun i => if (i =? pi)%nat then zexp (sP S) h r
              else mulm (sP S) (zexp (sP S) h (nth i s 0)) (zexp (sP S) (tag S m y x) (nth i c 0)))) in V.
  2:{ intros i Hi. apply in_seq in Hi. rewrite (nth_error_nth' s 0), (nth_error_nth' c 0) by lia.
      rewrite lrs_z_nonneg by (apply Rs' || apply Rc'). f_equal. destruct (Nat.eqb_spec i pi) as [->|N]; [|reflexivity].
      now apply Key. }
  fold z1 z2 in V. set (Rside := lrs_H1 S _) in *.
  injection V as V. apply Z.eqb_eq in V.
  destruct (close_sum (lQ S) pi (fun i => nth i c 0) Q0 n 0 Rside) as [RC EC].
  { apply Z.mod_pos_bound. exact Q0. }
  set (cpi := fold_left (fun acc i => if (i =? pi)%nat then acc else _) (seq 0 n) Rside) in *.
  assert (Epi : cpi = nth pi c 0).
  { change (lQ S) with q in *. rewrite fold_sum_eq in V by lia. rewrite Z.add_0_l in V.
    rewrite (list_as_map c), Lc in V.
    assert (EM : map (fun i => nth i c 0) (seq 0 n) = map (fun i => if (i =? pi)%nat then nth pi c 0 else nth i c 0) (seq 0 n)).
    { apply map_ext. intros i. destruct (Nat.eqb_spec i pi) as [->|]; reflexivity. }
    rewrite EM, sum_split in V by lia. rewrite <- V in EC.
    set (w := fold_right _ _ _) in *.
    assert (D : (cpi - nth pi c 0) mod q = 0).
    { replace (cpi - nth pi c 0) with ((cpi + w) - (nth pi c 0 + w)) by ring. rewrite Zminus_mod, EC, Z.sub_diag. apply Z.mod_0_l. lia. }
    apply Z.mod_divide in D; [|lia]. destruct D as [k Dk]. specialize (Rc' pi). assert (k = 0) by nia. lia. }
  rewrite Epi. f_equal. f_equal.
  - transitivity (map (fun i => nth i s 0) (seq 0 n)); [|rewrite <- Ls; symmetry; apply list_as_map]. apply map_ext. intros i. destruct (Nat.eqb_spec i pi) as [->|]; [|reflexivity].
    unfold r. change (lQ S) with q. rewrite Zminus_mod_idemp_l. replace (nth pi s 0 + nth pi c 0 * x - nth pi c 0 * x) with (nth pi s 0) by ring.
    apply Z.mod_small, Rs'.
  - transitivity (map (fun i => nth i c 0) (seq 0 n)); [|rewrite <- Lc; symmetry; apply list_as_map]. apply map_ext. intros i. destruct (Nat.eqb_spec i pi) as [->|]; reflexivity.
Qed.

Lemma made rs rc r sig : drawn S rs rc r -> lrs_sign S g m n pi x y rs rc r = Some sig ->
  lrs_verify S g m n sig y = Some true /\ well_formed S n sig /\ lY0 sig = tag S m y x /\
  r = (nth pi (lS sig) 0 + nth pi (lC sig) 0 * x) mod q /\
  (forall i, (i < n)%nat -> i <> pi -> rs i = nth i (lS sig) 0 /\ rc i = nth i (lC sig) 0).
Proof.
  destruct HM as (Hpi & Hx & Hy). pose proof (prime_ge_2 _ PP) as P2. intros (D1 & D2 & D3) E.
  assert (Q0 : 0 < q) by (unfold q; specialize (D1 O); lia).
  destruct (C15_sign_verifies S PP g m n pi x y rs rc r Hg Hx Hpi Hn Hy (fun i => proj1 (D1 i)) (fun i => proj1 (D2 i)) Hd) as (sig' & E' & V & L1 & L2).
  rewrite E in E'. injection E' as <-. split; [exact V|].
  rewrite lrs_sign_is_tag in E; [|assumption|assumption|intros i; apply D1|intros i; apply D2].
  injection E as <-. unfold lrs_sign_tag in *. cbn [lY0 lS lC] in *.
  set (Rside := lrs_H1 S _) in *. set (cpi := fold_left _ _ _) in *.
  destruct (close_sum (lQ S) pi rc Q0 n 0 Rside) as [RC _]; [apply Z.mod_pos_bound; exact Q0|]. fold cpi in RC.
  assert (NM : forall (f : nat -> Z) i, (i < n)%nat -> nth i (map f (seq 0 n)) 0 = f i).
  { intros f i Hi. apply nth_error_nth. now apply nth_error_map_seq. }
  split; [|split; [apply tag_h; lia|split]].
  - split; [exact L1|]. split; [exact L2|]. cbn [lS lC]. split; intros v I; apply in_map_iff in I; destruct I as (i & <- & _); destruct (i =? pi)%nat.
    + apply Z.mod_pos_bound. exact Q0.
    + apply D1.
    + exact RC.
    + apply D2.
  - rewrite !NM, Nat.eqb_refl by assumption. change (lQ S) with q. rewrite Zplus_mod_idemp_l. symmetry.
    replace (r - cpi * x + cpi * x) with r by ring. now apply Z.mod_small.
  - intros i Hi N. rewrite !NM by assumption. apply Nat.eqb_neq in N. rewrite N. now split.
Qed.
End Make.

(** ** C114 *)
(** A member can make exactly the accepted signatures with its tag: the position in the ring
    and the key play no other role. *)
Theorem C114_only_tag : forall S, prime (sP S) -> forall g m n y pi x, g mod sP S <> 0 -> (n <= length y)%nat -> digest S m y mod sP S <> 0 ->
  member S g n y pi x -> forall sig,
  (can_make S g m n y pi x sig <-> lrs_verify S g m n sig y = Some true /\ well_formed S n sig /\ lY0 sig = tag S m y x).
Proof.
  intros S PP g m n y pi x Hg Hn Hd HM sig. split.
  - intros (rs & rc & r & D & E). destruct (made S PP g m n y pi x Hg Hn Hd HM rs rc r sig D E) as (A & B & C & _). auto.
  - intros (V & W & T). pose proof (prime_ge_2 _ PP) as P2. eexists _, _, _. split; [|exact (remade S PP g m n y pi x Hg Hn Hd HM sig W V T)].
    destruct W as (_ & L & R1 & R2). destruct HM as (Hpi & _ & _).
    assert (Q0 : 0 < sP S - 1).
    { destruct (lC sig) as [|v l] eqn:El; [cbn in L; lia|]. specialize (R2 v (or_introl eq_refl)). lia. }
    split; [intros i; now apply in_nth_range|]. split; [intros i; now apply in_nth_range|]. apply Z.mod_pos_bound. exact Q0.
Qed.
Print Assumptions C114_only_tag.

(** And each of them from exactly one of its draws, so that all are equally likely. *)
Theorem C114_one_draw : forall S, prime (sP S) -> forall g m n y pi x, g mod sP S <> 0 -> (n <= length y)%nat -> digest S m y mod sP S <> 0 ->
  member S g n y pi x -> forall sig rs rc r rs' rc' r',
  drawn S rs rc r -> lrs_sign S g m n pi x y rs rc r = Some sig ->
  drawn S rs' rc' r' -> (lrs_sign S g m n pi x y rs' rc' r' = Some sig <->
     r' = r /\ forall i, (i < n)%nat -> i <> pi -> rs' i = rs i /\ rc' i = rc i).
Proof.
  intros S PP g m n y pi x Hg Hn Hd HM sig rs rc r rs' rc' r' D E D'.
  destruct (made S PP g m n y pi x Hg Hn Hd HM rs rc r sig D E) as (_ & _ & _ & A & B). split.
  - intros E'. destruct (made S PP g m n y pi x Hg Hn Hd HM rs' rc' r' sig D' E') as (_ & _ & _ & A' & B').
    split; [congruence|]. intros i Hi N. destruct (B i Hi N), (B' i Hi N). split; congruence.
  - intros [-> H]. rewrite <- E. destruct HM as (Hpi & _ & _). destruct D as (D1 & D2 & _). destruct D' as (D1' & D2' & _).
    rewrite !lrs_sign_is_tag; try assumption; try (intros i; apply D1 || apply D2 || apply D1' || apply D2').
    assert (E1 : forall (A : Type) (f f' : nat -> A) l, (forall i, In i l -> f i = f' i) -> map f l = map f' l) by (intros; now apply map_ext_in).
    assert (X : forall i, In i (seq 0 n) -> (i =? pi)%nat = false -> rs' i = rs i /\ rc' i = rc i).
    { intros i I N. apply H; [apply in_seq in I; lia|now apply Nat.eqb_neq]. }
    f_equal. unfold lrs_sign_tag. set (h := lrs_h S m (lrs_L y)).
    rewrite (E1 _ (fun i => if (i =? pi)%nat then zexp (sP S) g r else mulm (sP S) (zexp (sP S) g (rs' i)) (zexp (sP S) (nth i y 0) (rc' i)))
               (fun i => if (i =? pi)%nat then zexp (sP S) g r else mulm (sP S) (zexp (sP S) g (rs i)) (zexp (sP S) (nth i y 0) (rc i)))).
    2:{ intros i I. destruct (i =? pi)%nat eqn:N; [reflexivity|]. destruct (X i I N) as [-> ->]. reflexivity. }
    rewrite (E1 _ (fun i => if (i =? pi)%nat then zexp (sP S) h r else mulm (sP S) (zexp (sP S) h (rs' i)) (zexp (sP S) (zexp (sP S) h x) (rc' i)))
               (fun i => if (i =? pi)%nat then zexp (sP S) h r else mulm (sP S) (zexp (sP S) h (rs i)) (zexp (sP S) (zexp (sP S) h x) (rc i)))).
    2:{ intros i I. destruct (i =? pi)%nat eqn:N; [reflexivity|]. destruct (X i I N) as [-> ->]. reflexivity. }
    set (Rside := lrs_H1 S _).
    assert (F : forall l a, (forall i, In i l -> In i (seq 0 n)) ->
      fold_left (fun acc i => if (i =? pi)%nat then acc else (acc - rc' i) mod lQ S) l a =
      fold_left (fun acc i => if (i =? pi)%nat then acc else (acc - rc i) mod lQ S) l a).
    { induction l as [|i l IH]; intros a I; [reflexivity|]. cbn [fold_left]. rewrite IH by (intros j J; apply I; now right).
      destruct (i =? pi)%nat eqn:N; [reflexivity|]. destruct (X i (I i (or_introl eq_refl)) N) as [_ ->]. reflexivity. }
    rewrite F by auto. f_equal; apply E1; intros i I; destruct (i =? pi)%nat eqn:N; try reflexivity; destruct (X i I N); assumption.
Qed.
Print Assumptions C114_one_draw.

(** *** The toy ring *)
Lemma toy_members : member toy_suite 4 3 toy_ring 0 3 /\ member toy_suite 4 3 toy_ring 1 7.
Proof. split; (split; [lia|]; split; [lia|reflexivity]). Qed.
Definition toy_signed : option lsig := lrs_sign toy_suite 4 toy_msg 3 1 7 toy_ring (fun i => Z.of_nat (i mod 5) + 2) (fun i => Z.of_nat (i mod 4) * 5) 6.
Lemma toy_can_make : exists sig, toy_signed = Some sig /\ can_make toy_suite 4 toy_msg 3 toy_ring 1 7 sig.
Proof.
  eexists. split; [vm_compute; reflexivity|]. exists (fun i => Z.of_nat (i mod 5) + 2), (fun i => Z.of_nat (i mod 4) * 5), 6.
  split; [|vm_compute; reflexivity]. cbn [sP toy_suite].
  split; [intros i; pose proof (Nat.mod_upper_bound i 5 ltac:(discriminate)); cbn [sP toy_suite]; lia|]. split; [intros i; pose proof (Nat.mod_upper_bound i 4 ltac:(discriminate)); cbn [sP toy_suite]; lia|cbn [sP toy_suite]; lia].
Qed.
Example C114_instance : prime (sP toy_suite) /\ 4 mod sP toy_suite <> 0 /\ (3 <= length toy_ring)%nat /\ digest toy_suite toy_msg toy_ring mod sP toy_suite <> 0 /\
  member toy_suite 4 3 toy_ring 1 7 /\ exists sig, can_make toy_suite 4 toy_msg 3 toy_ring 1 7 sig.
Proof.
  split; [exact prime_23|]. split; [discriminate|]. split; [cbn; lia|]. split; [vm_compute; discriminate|]. split; [apply toy_members|].
  destruct toy_can_make as (sig & _ & M). now exists sig.
Qed.

(** But the tag is the maker's: what one member can make, another one in general cannot. *)
Theorem C114_tag_tells_refuted :
  ~ (forall S, suite_ok S -> prime (sP S) -> forall g m n y pi x pi' x', g mod sP S <> 0 -> (n <= length y)%nat -> digest S m y mod sP S <> 0 ->
     member S g n y pi x -> member S g n y pi' x' -> forall sig, can_make S g m n y pi x sig -> can_make S g m n y pi' x' sig).
Proof.
  intros C. destruct toy_can_make as (sig & E & M). destruct toy_members as [M0 M1].
  assert (D : digest toy_suite toy_msg toy_ring mod sP toy_suite <> 0) by (vm_compute; discriminate).
  assert (X : can_make toy_suite 4 toy_msg 3 toy_ring 0 3 sig).
  { apply (C toy_suite toy_ok prime_23 4 toy_msg 3%nat toy_ring 1%nat 7 0%nat 3); try assumption; try discriminate; cbn; lia. }
  apply (C114_only_tag toy_suite prime_23 4 toy_msg 3 toy_ring 0 3) in X; try assumption; try discriminate; try (cbn; lia).
  destruct X as (_ & _ & T). vm_compute in E. injection E as <-. vm_compute in T. discriminate.
Qed.
Print Assumptions C114_tag_tells_refuted.
