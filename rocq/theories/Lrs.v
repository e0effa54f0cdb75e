(** Linkable ring signatures: /repo/primitive/lrs/LinkableRingSignature.go *)
From Coq Require Import ZArith Znumtheory Lia List Bool.
From Verif Require Import ZMod Bytes Suite Fermat.
Import ListNotations.
Open Scope Z_scope.

(** LinkableRingSignature.go:14-32.  A base is its generator G; P is the modulus
    of the suite (the constant of line 23 is QR512's P) and Q = P - 1. *)
Definition lQ (S : suite) : Z := sP S - 1.

(** LinkableRingSignature.go:77-81 *)
Record lsig := LSig { lY0 : Z; lS : list Z; lC : list Z }.

(** LinkableRingSignature.go:40-47 H1 *)
Definition lrs_H1 (S : suite) (msg : bytes) : Z := be_to_z (sHash S msg) mod lQ S.
(** LinkableRingSignature.go:49-56 H2 *)
Definition lrs_H2 (S : suite) (msg : bytes) : Z := zexp (sP S) (be_to_z (sHash S msg)) 2.

(** LinkableRingSignature.go:58-63 zi1 and 65-70 zi2, with [b] = G or h.  Exp
    returns nil for a negative exponent of a non-invertible base and the
    following Mul panics: None. *)
Definition lrs_z (S : suite) (b s y c : Z) : option Z :=
  match bigexp b s (sP S), bigexp y c (sP S) with
  | Some u, Some v => Some (mulm (sP S) u v)
  | _, _ => None
  end.

(** LinkableRingSignature.go:83-90 computeL *)
Definition lrs_L (y : list Z) : bytes := concat (map z_bytes y).
(** LinkableRingSignature.go:92-101 computeh *)
Definition lrs_h (S : suite) (m L : bytes) : Z := lrs_H2 S (sHash S m ++ L).

(** A loop whose body may panic. *)
Fixpoint all_some {A} (l : list (option A)) : option (list A) :=
  match l with
  | [] => Some []
  | None :: _ => None
  | Some a :: rest => match all_some rest with Some r => Some (a :: r) | None => None end
  end.

(** LinkableRingSignature.go:112-181 SignHelper.  [rs], [rc] give the values drawn
    for each index other than pi (lines 121-134), [r] the one drawn in line 139.
    None = index out of range (or nil) panic. *)
Definition lrs_sign (S : suite) (g : Z) (m : bytes) (n pi : nat) (x : Z) (y : list Z)
    (rs rc : nat -> Z) (r : Z) : option lsig :=
  let L := lrs_L y in
  let h := lrs_h S m L in
  let y0 := zexp (sP S) h x in
  let zpi1 := zexp (sP S) g r in
  let zpi2 := zexp (sP S) h r in
  match all_some (map (fun i => if (i =? pi)%nat then Some zpi1
                                else match nth_error y i with
                                     | Some yi => lrs_z S g (rs i) yi (rc i)
                                     | None => None end) (seq 0 n)),
        all_some (map (fun i => if (i =? pi)%nat then Some zpi2
                                else lrs_z S h (rs i) y0 (rc i)) (seq 0 n)) with
  | Some z1, Some z2 =>
      let Rside := lrs_H1 S (L ++ z_bytes y0 ++ m ++ concat (map z_bytes z1) ++ concat (map z_bytes z2)) in
      let cpi := fold_left (fun acc i => if (i =? pi)%nat then acc else (acc - rc i) mod lQ S)
                   (seq 0 n) Rside in
      let spi := (r - cpi * x) mod lQ S in
      if (pi <? n)%nat then
        Some (LSig y0 (map (fun i => if (i =? pi)%nat then spi else rs i) (seq 0 n))
                      (map (fun i => if (i =? pi)%nat then cpi else rc i) (seq 0 n)))
      else None
  | _, _ => None
  end.

(** LinkableRingSignature.go:195-208: the challenge recomputed by the verifier. *)
Definition lrs_challenge (S : suite) (g : Z) (m : bytes) (n : nat) (y0 : Z) (s c y : list Z) : option Z :=
  let L := lrs_L y in
  let h := lrs_h S m L in
  match all_some (map (fun i => match nth_error s i, nth_error y i, nth_error c i with
                                | Some si, Some yi, Some ci => lrs_z S g si yi ci
                                | _, _, _ => None end) (seq 0 n)),
        all_some (map (fun i => match nth_error s i, nth_error c i with
                                | Some si, Some ci => lrs_z S h si y0 ci
                                | _, _ => None end) (seq 0 n)) with
  | Some z1, Some z2 =>
      Some (lrs_H1 S (L ++ z_bytes y0 ++ m ++ concat (map z_bytes z1) ++ concat (map z_bytes z2)))
  | _, _ => None
  end.

(** LinkableRingSignature.go:191-217 VerifyHelper (its parameter pi is unused);
    the sum of line 212 is over all of sig.C. *)
Definition lrs_verify (S : suite) (g : Z) (m : bytes) (n : nat) (sig : lsig) (y : list Z) : option bool :=
  match lrs_challenge S g m n (lY0 sig) (lS sig) (lC sig) y with
  | None => None
  | Some Rside =>
      let Lside := fold_left (fun acc ci => (acc + ci) mod lQ S) (lC sig) 0 in
      Some (Lside =? Rside)
  end.

(** LinkableRingSignature.go:103-110 Sign and 183-189 Verify on points. *)
Definition lrs_Sign (S : suite) (g : Z) (m : bytes) (n pi : nat) (x : Z) (y : list Z)
    (rs rc : nat -> Z) (r : Z) : option lsig :=
  lrs_sign S g m n pi (secret_to_bigint x) (map (point_to_bigint S) y) rs rc r.
Definition lrs_Verify (S : suite) (g : Z) (m : bytes) (n : nat) (sig : lsig) (y : list Z) : option bool :=
  lrs_verify S g m n sig (map (point_to_bigint S) y).

(** LinkableRingSignature.go:220-222 Linkable *)
Definition lrs_linkable (sig1 sig2 : lsig) : bool := lY0 sig1 =? lY0 sig2.

(** ** Lemmas *)
Lemma all_some_map {A B} (f : A -> option B) (g : A -> B) l :
  (forall x, In x l -> f x = Some (g x)) -> all_some (map f l) = Some (map g l).
Proof.
  induction l as [|a l IH]; intros H; cbn [map all_some]; [reflexivity|].
  rewrite (H a) by now left. rewrite IH; [reflexivity|]. intros x Hx. apply H. now right.
Qed.

Lemma all_some_ext {A B} (f g : A -> option B) l :
  (forall x, In x l -> f x = g x) -> all_some (map f l) = all_some (map g l).
Proof. intros H. f_equal. now apply map_ext_in. Qed.

Lemma all_some_inv {A B} (f : A -> option B) : forall l r, all_some (map f l) = Some r ->
  forall x, In x l -> exists y, f x = Some y.
Proof.
  induction l as [|a l IH]; intros r H x Hx; [destruct Hx|].
  cbn [map all_some] in H. destruct (f a) eqn:E; [|discriminate].
  destruct (all_some (map f l)) eqn:E2; [|discriminate].
  destruct Hx as [<-|Hx]; [eauto|]. eapply IH; eauto.
Qed.

Lemma fold_sum q : 0 < q -> forall l acc,
  fold_left (fun acc ci => (acc + ci) mod q) l acc mod q = (acc + fold_right Z.add 0 l) mod q.
Proof.
  intros Hq. induction l as [|c l IH]; intros acc; cbn [fold_left fold_right].
  - now rewrite Z.add_0_r.
  - rewrite IH. rewrite Z.add_mod_idemp_l by lia. f_equal. lia.
Qed.

Lemma fold_sum_range q : 0 < q -> forall l acc, 0 <= acc < q ->
  0 <= fold_left (fun acc ci => (acc + ci) mod q) l acc < q.
Proof.
  intros Hq. induction l as [|c l IH]; intros acc H; cbn [fold_left]; [assumption|].
  apply IH. apply Z.mod_pos_bound. lia.
Qed.

Lemma fold_sum_eq q l acc : 0 < q -> 0 <= acc < q ->
  fold_left (fun acc ci => (acc + ci) mod q) l acc = (acc + fold_right Z.add 0 l) mod q.
Proof.
  intros Hq H. rewrite <- fold_sum by assumption. symmetry. apply Z.mod_small.
  now apply fold_sum_range.
Qed.

(** The signer's challenge closes the sum. *)
Lemma close_sum q pi (rc : nat -> Z) : 0 < q -> forall n k acc, 0 <= acc < q ->
  let cpi := fold_left (fun acc i => if (i =? pi)%nat then acc else (acc - rc i) mod q) (seq k n) acc in
  0 <= cpi < q /\
  (cpi + fold_right Z.add 0 (map (fun i => if (i =? pi)%nat then 0 else rc i) (seq k n))) mod q = acc.
Proof.
  intros Hq. induction n as [|n IH]; intros k acc H; cbn [seq fold_left map fold_right].
  - cbv zeta. rewrite Z.add_0_r. split; [assumption|]. now apply Z.mod_small.
  - cbv zeta. destruct (k =? pi)%nat eqn:E.
    + apply IH. exact H.
    + set (acc' := (acc - rc k) mod q).
      destruct (IH (S k) acc') as [R IHs]; [apply Z.mod_pos_bound; lia|].
      split; [exact R|]. revert IHs.
      set (cpi := fold_left _ _ _). set (sm := fold_right _ _ _). intros IHs.
      replace (cpi + (rc k + sm)) with ((cpi + sm) + rc k) by lia.
      rewrite <- Z.add_mod_idemp_l, IHs by lia. unfold acc'.
      rewrite Z.add_mod_idemp_l by lia. replace (acc - rc k + rc k) with acc by lia.
      now apply Z.mod_small.
Qed.

Lemma sum_split pi cpi (rc : nat -> Z) : forall n k, (k <= pi < k + n)%nat ->
  fold_right Z.add 0 (map (fun i => if (i =? pi)%nat then cpi else rc i) (seq k n)) =
  cpi + fold_right Z.add 0 (map (fun i => if (i =? pi)%nat then 0 else rc i) (seq k n)).
Proof.
  induction n as [|n IH]; intros k H; [lia|]. cbn [seq map fold_right].
  destruct (Nat.eqb_spec k pi) as [->|N].
  - assert (E : map (fun i => if (i =? pi)%nat then cpi else rc i) (seq (S pi) n) =
                map (fun i => if (i =? pi)%nat then 0 else rc i) (seq (S pi) n)).
    { apply map_ext_in. intros i Hi. apply in_seq in Hi.
      destruct (Nat.eqb_spec i pi); [lia|reflexivity]. }
    rewrite E. lia.
  - rewrite IH by lia. lia.
Qed.

Lemma nth_error_map_seq {A} (f : nat -> A) n i : (i < n)%nat -> nth_error (map f (seq 0 n)) i = Some (f i).
Proof.
  intros H. rewrite nth_error_map.
  rewrite (nth_error_nth' (seq 0 n) O) by now rewrite seq_length.
  rewrite seq_nth by assumption. reflexivity.
Qed.

Section Lemmas.
Context (S : suite) (OK : suite_ok S).
Let P := sP S.

Lemma lrs_z_nonneg b s y c : 0 <= s -> 0 <= c -> lrs_z S b s y c = Some (mulm P (zexp P b s) (zexp P y c)).
Proof. intros. unfold lrs_z. now rewrite !bigexp_nonneg. Qed.

(** Signing with a tag [y0'] that is any integer congruent to h^x: the honest
    signer is the case y0' = h^x mod P. *)
Definition lrs_sign_tag (g : Z) (m : bytes) (n pi : nat) (x : Z) (y : list Z)
    (rs rc : nat -> Z) (r y0 : Z) : lsig :=
  let L := lrs_L y in
  let h := lrs_h S m L in
  let z1 := map (fun i => if (i =? pi)%nat then zexp P g r
                     else mulm P (zexp P g (rs i)) (zexp P (nth i y 0) (rc i))) (seq 0 n) in
  let z2 := map (fun i => if (i =? pi)%nat then zexp P h r
                     else mulm P (zexp P h (rs i)) (zexp P y0 (rc i))) (seq 0 n) in
  let Rside := lrs_H1 S (L ++ z_bytes y0 ++ m ++ concat (map z_bytes z1) ++ concat (map z_bytes z2)) in
  let cpi := fold_left (fun acc i => if (i =? pi)%nat then acc else (acc - rc i) mod lQ S)
               (seq 0 n) Rside in
  let spi := (r - cpi * x) mod lQ S in
  LSig y0 (map (fun i => if (i =? pi)%nat then spi else rs i) (seq 0 n))
          (map (fun i => if (i =? pi)%nat then cpi else rc i) (seq 0 n)).

Lemma lrs_sign_is_tag g m n pi x y rs rc r : (pi < n)%nat -> (n <= length y)%nat ->
  (forall i, 0 <= rs i) -> (forall i, 0 <= rc i) ->
  lrs_sign S g m n pi x y rs rc r =
  Some (lrs_sign_tag g m n pi x y rs rc r (zexp P (lrs_h S m (lrs_L y)) x)).
Proof.
  intros Hpi Hn Hs Hc. unfold lrs_sign.
  rewrite (all_some_map _ (fun i => if (i =? pi)%nat then zexp P g r
              else mulm P (zexp P g (rs i)) (zexp P (nth i y 0) (rc i)))).
  2:{ intros i Hi. apply in_seq in Hi. destruct (i =? pi)%nat; [reflexivity|].
      rewrite (nth_error_nth' y 0) by lia. now apply lrs_z_nonneg. }
  rewrite (all_some_map _ (fun i => if (i =? pi)%nat then zexp P (lrs_h S m (lrs_L y)) r
              else mulm P (zexp P (lrs_h S m (lrs_L y)) (rs i)) (zexp P (zexp P (lrs_h S m (lrs_L y)) x) (rc i)))).
  2:{ intros i Hi. destruct (i =? pi)%nat; [reflexivity|]. now apply lrs_z_nonneg. }
  destruct (Nat.ltb_spec pi n); [|lia]. reflexivity.
Qed.

(** Exponents may be reduced modulo P - 1. *)
Lemma zexp_fermat a e : prime P -> a mod P <> 0 -> zexp P a (e mod lQ S) = zexp P a e.
Proof.
  intros PP Ha. pose proof (prime_ge_2 P PP) as H2. unfold lQ. fold P.
  assert (U : unit a P).
  { apply rel_prime_sym, prime_rel_prime; [assumption|]. intros D. apply Ha. now apply Zdivide_mod. }
  destruct (Z.eq_dec P 2) as [E2|N2].
  - rewrite E2 in *. assert (a mod 2 = 1) by (pose proof (Z.mod_pos_bound a 2); lia).
    rewrite <- (zexp_mod_base 2 a), <- (zexp_mod_base 2 a e), H by lia.
    now rewrite !zexp_1_base by lia.
  - apply zexp_mod_order; [lia|lia|assumption|]. now apply fermat.
Qed.

Lemma lrs_tag_verifies g m n pi x y rs rc r y0 : prime P -> g mod P <> 0 ->
  lrs_h S m (lrs_L y) mod P <> 0 -> 0 <= x ->
  (pi < n)%nat -> (n <= length y)%nat -> (forall i, 0 <= rs i) -> (forall i, 0 <= rc i) ->
  nth pi y 0 mod P = zexp P g x -> y0 mod P = zexp P (lrs_h S m (lrs_L y)) x ->
  lrs_verify S g m n (lrs_sign_tag g m n pi x y rs rc r y0) y = Some true.
Proof.
  intros PP Hg Hh Hx Hpi Hn Hs Hc Hy H0. pose proof (prime_ge_2 P PP) as H2.
  assert (H1 : 1 < P) by lia.
  assert (Q0 : 0 < lQ S) by (unfold lQ; fold P; lia).
  unfold lrs_verify, lrs_sign_tag, lrs_challenge. cbn [lY0 lS lC].
  set (h := lrs_h S m (lrs_L y)) in *.
  set (z1 := map (fun i => if (i =? pi)%nat then zexp P g r else _) (seq 0 n)). set (z2 := map (fun i => if (i =? pi)%nat then zexp P h r else _) (seq 0 n)).
  set (Rside := lrs_H1 S _).
  set (cpi := fold_left (fun acc i => if (i =? pi)%nat then acc else _) (seq 0 n) Rside).
  set (spi := (r - cpi * x) mod lQ S).
  destruct (close_sum (lQ S) pi rc Q0 n 0 Rside) as [Rc Ec].
  { apply Z.mod_pos_bound. exact Q0. }
  fold cpi in Rc, Ec.
  assert (Rs : 0 <= spi < lQ S) by (apply Z.mod_pos_bound; exact Q0).
  assert (Key : forall b yb, b mod P <> 0 -> yb mod P = zexp P b x ->
     mulm P (zexp P b spi) (zexp P yb cpi) = zexp P b r).
  { intros b yb Hb Hyb. unfold spi. rewrite zexp_fermat by assumption.
    rewrite <- (zexp_mod_base P yb), Hyb by lia.
    assert (Ub : unit b P).
    { apply rel_prime_sym, prime_rel_prime; [assumption|]. intros D. apply Hb. now apply Zdivide_mod. }
    clear - H1 Ub. clearbody cpi. grp P. }
  assert (E1 : all_some (map (fun i : nat =>
       match nth_error (map (fun i0 : nat => if (i0 =? pi)%nat then spi else rs i0) (seq 0 n)) i,
             nth_error y i,
             nth_error (map (fun i0 : nat => if (i0 =? pi)%nat then cpi else rc i0) (seq 0 n)) i with
       | Some si, Some yi, Some ci => lrs_z S g si yi ci
       | _, _, _ => None end) (seq 0 n)) = Some z1).
  { apply all_some_map. intros i Hi. apply in_seq in Hi.
    rewrite !nth_error_map_seq by lia. rewrite (nth_error_nth' y 0) by lia.
    destruct (Nat.eqb_spec i pi) as [->|N].
    - rewrite lrs_z_nonneg by lia. f_equal. now apply Key.
    - now apply lrs_z_nonneg. }
  assert (E2 : all_some (map (fun i : nat =>
       match nth_error (map (fun i0 : nat => if (i0 =? pi)%nat then spi else rs i0) (seq 0 n)) i,
             nth_error (map (fun i0 : nat => if (i0 =? pi)%nat then cpi else rc i0) (seq 0 n)) i with
       | Some si, Some ci => lrs_z S h si y0 ci
       | _, _ => None end) (seq 0 n)) = Some z2).
  { apply all_some_map. intros i Hi. apply in_seq in Hi.
    rewrite !nth_error_map_seq by lia.
    destruct (Nat.eqb_spec i pi) as [->|N].
    - rewrite lrs_z_nonneg by lia. f_equal. now apply Key.
    - now apply lrs_z_nonneg. }
  rewrite E1, E2. f_equal. apply Z.eqb_eq. fold Rside.
  rewrite fold_sum_eq by lia. rewrite Z.add_0_l, sum_split by lia. exact Ec.
Qed.

End Lemmas.
