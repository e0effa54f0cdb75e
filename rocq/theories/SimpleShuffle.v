(** Neff's simple k-shuffle argument: /repo/util/shuffle/simple.go.

    The proof context (dedis/crypto/proof, external): ctx.Put appends the encoding
    of a message to the transcript, ctx.Get reads it back, ctx.PubRand derives the
    challenge from the transcript so far, the same way on both sides.  Here the
    challenges are given by an arbitrary function [H] of the transcript (and of the
    position of the secret in the struct that PubRand fills). *)
From Coq Require Import ZArith Znumtheory Zpow_facts Lia List Bool Permutation.
From Verif Require Import ZMod Bytes Suite Perm.
Import ListNotations.
Open Scope Z_scope.

Notation oracle := (bytes -> nat -> Z).

(** Element of a slice. *)
Definition at_ (l : list Z) (i : nat) : Z := nth i l 0.
(** make + for loop filling every element. *)
Definition tab {A} (n : nat) (f : nat -> A) : list A := map f (seq 0 n).
(** Encoding of slices of points and secrets (dedis abstract.Write: one after the other). *)
Definition enc_pts (S : suite) (l : list Z) : bytes := concat (map (enc_point S) l).
Definition enc_secs (S : suite) (l : list Z) : bytes := concat (map (enc_secret S) l).

(** simple.go:14-37: the prover's messages p0, p2, p4. *)
Record ss_proof := SsProof { ssX : list Z; ssY : list Z; ssTheta : list Z; ssAlpha : list Z }.

(** simple.go:49-68 thenc: G^(ab-cd), nil operands as None ([b] is nil only with [a]). *)
Definition thenc (S : suite) (G : Z) (ab : option (Z * Z)) (c d : option Z) : Z :=
  let vab := match ab with Some (a, b) => sec_mul S a b | None => 0 end in
  let vcd := match c with
             | Some c => match d with Some d => sec_mul S c d | None => c end
             | None => 0 end in
  pt_mul S G (sec_sub S vab vcd).

(** simple.go:156-161: runprod after every iteration; None = division by a
    non-invertible secret. *)
Fixpoint runprods (S : suite) (r : Z) (xhat yhat : list Z) : option (list Z) :=
  match xhat, yhat with
  | a :: xr, b :: yr =>
      match sec_div S (sec_mul S r a) b with
      | Some r' => match runprods S r' xr yr with Some l => Some (r' :: l) | None => None end
      | None => None
      end
  | _, _ => Some []
  end.
(** simple.go:162-167: rungamma in iteration i (i multiplications). *)
Fixpoint rungamma (S : suite) (c gi : Z) (i : nat) : Z :=
  match i with O => c | Datatypes.S i => sec_mul S (rungamma S c gi i) gi end.

(** simple.go:125-128 (5) and (6) *)
Definition xhats (S : suite) (x : list Z) (t : Z) : list Z := map (fun a => sec_sub S a t) x.
(** simple.go:129-143 (7); [theta] is the private randomness of line 131. *)
Definition theta_points (S : suite) (G gamma : Z) (k : nat) (xhat yhat theta : list Z) : list Z :=
  let th i := at_ theta i in
  tab (2 * k) (fun i =>
    if Nat.eqb i 0 then thenc S G None (Some (th 0%nat)) (Some (at_ yhat 0))
    else if Nat.ltb i k then
      thenc S G (Some (th (i - 1)%nat, at_ xhat i)) (Some (th i)) (Some (at_ yhat i))
    else if Nat.ltb i (2 * k - 1) then
      thenc S G (Some (th (i - 1)%nat, gamma)) (Some (th i)) None
    else thenc S G (Some (th (2 * k - 2)%nat, gamma)) None None).

(** simple.go:108-116: the challenge t of the first round. *)
Definition ss_challenge (S : suite) (H : oracle) (G : Z) (x y : list Z) (tr : bytes) : Z :=
  H (tr ++ enc_pts S (map (pt_mul S G) x) ++ enc_pts S (map (pt_mul S G) y)) 0%nat.

(** simple.go:84-174 Prove; [tr] is the transcript before it; None = panic. *)
Definition ss_prove (S : suite) (H : oracle) (G gamma : Z) (x y theta : list Z) (tr : bytes)
  : option ss_proof :=
  let k := length x in
  if (k <=? 1)%nat then None
  else if negb (Nat.eqb k (length y)) then None
  else
    let X := map (pt_mul S G) x in
    let Y := map (pt_mul S G) y in
    let tr0 := tr ++ enc_pts S X ++ enc_pts S Y in
    let t := H tr0 0%nat in
    let gt := sec_mul S gamma t in
    let xhat := xhats S x t in
    let yhat := xhats S y gt in
    let Theta := theta_points S G gamma k xhat yhat theta in
    let tr2 := tr0 ++ enc_pts S Theta in
    let c := H tr2 0%nat in
    match runprods S c xhat yhat, sec_inv S gamma with
    | Some rs, Some gi =>
        let alpha := tab (2 * k - 1) (fun i =>
          if Nat.ltb i k then sec_add S (at_ theta i) (at_ rs i)
          else sec_add S (at_ theta i) (rungamma S c gi (2 * k - 1 - i))) in
        Some (SsProof X Y Theta alpha)
    | _, _ => None
    end.

(** simple.go:179-184 thver *)
Definition thver (S : suite) (A B T a b : Z) : bool :=
  pt_add S (pt_mul S A a) (pt_mul S B (sec_neg S b)) =? T.

(** simple.go:187-255 Verify; true = nil error. *)
Definition ss_verify (S : suite) (H : oracle) (G Gamma : Z) (pf : ss_proof) (tr : bytes) : bool :=
  let X := ssX pf in let Y := ssY pf in
  let Theta := ssTheta pf in let alpha := ssAlpha pf in
  let k := length Y in
  if ((k <=? 1)%nat || negb (Nat.eqb (length Theta) (2 * k)) || negb (Nat.eqb (length alpha) (2 * k - 1)))
  then false
  else
    let tr0 := tr ++ enc_pts S X ++ enc_pts S Y in
    let t := H tr0 0%nat in
    let tr2 := tr0 ++ enc_pts S Theta in
    let c := H tr2 0%nat in
    let negt := sec_neg S t in
    let U := pt_mul S G negt in
    let W := pt_mul S Gamma negt in
    let Xhat := tab k (fun i => pt_add S (at_ X i) U) in
    let Yhat := tab k (fun i => pt_add S (at_ Y i) W) in
    thver S (at_ Xhat 0) (at_ Yhat 0) (at_ Theta 0) c (at_ alpha 0) &&
    forallb (fun i => thver S (at_ Xhat i) (at_ Yhat i) (at_ Theta i) (at_ alpha (i - 1)) (at_ alpha i))
      (seq 1 (k - 1)) &&
    forallb (fun i => thver S Gamma G (at_ Theta i) (at_ alpha (i - 1)) (at_ alpha i)) (seq k (k - 1)) &&
    thver S Gamma G (at_ Theta (2 * k - 1)) (at_ alpha (2 * k - 2)) c.

(** ** Lemmas *)
Lemma tab_length {A} n (f : nat -> A) : length (tab n f) = n.
Proof. unfold tab. now rewrite map_length, seq_length. Qed.

Lemma at_tab n f i : (i < n)%nat -> at_ (tab n f) i = f i.
Proof.
  intros Hi. unfold at_, tab. rewrite nth_indep with (d' := f 0%nat) by (rewrite map_length, seq_length; lia).
  rewrite map_nth. now rewrite seq_nth by lia.
Qed.

Lemma at_map (l : list Z) f i : (i < length l)%nat -> at_ (map f l) i = f (at_ l i).
Proof.
  intros Hi. unfold at_. rewrite nth_indep with (d' := f 0) by (rewrite map_length; lia). apply map_nth.
Qed.

(** Product of a list, over the integers. *)
Definition zprod (l : list Z) : Z := fold_right Z.mul 1 l.
Lemma zprod_perm l l' : Permutation l l' -> zprod l = zprod l'.
Proof. induction 1; cbn; try reflexivity; try (unfold zprod in *; congruence). ring. Qed.
Lemma zprod_app l l' : zprod (l ++ l') = zprod l * zprod l'.
Proof. 
  induction l as [|a l IH]; cbn [app]; [change (zprod []) with 1; ring|].
  change (a * zprod (l ++ l') = a * zprod l * zprod l'). rewrite IH. ring.
Qed.

Section SS.
Context (S : suite) (OK : suite_ok S).
Let Q := sQ S.

Lemma sec_div_spec a b r : sec_div S a b = Some r -> is_secret S r /\ eqm (sQ S) (r * b) a.
Proof.
  pose proof (sQ_gt1 S OK). unfold sec_div, sec_inv. destruct (modinv b (sQ S)) as [i|] eqn:E; [|discriminate].
  intros [= <-]. apply modinv_sound in E; [|lia]. destruct E as [R E]. split; [now apply sec_range_mul|].
  unfold eqm, sec_mul. rewrite Z.mul_mod_idemp_l by lia.
  replace (a * i * b) with (a * (b * i)) by ring. rewrite <- Z.mul_mod_idemp_r, E by lia. now rewrite Z.mul_1_r.
Qed.

Lemma runprods_spec : forall xh yh r rs, length xh = length yh -> runprods S r xh yh = Some rs ->
  length rs = length xh /\
  (forall i, (i < length xh)%nat ->
     is_secret S (at_ rs i) /\
     eqm (sQ S) (at_ rs i * at_ yh i) ((if Nat.eqb i 0 then r else at_ rs (i - 1)) * at_ xh i)) /\
  eqm (sQ S) (last rs r * zprod yh) (r * zprod xh).
Proof.
  pose proof (sQ_gt1 S OK) as HQ.
  induction xh as [|a xh IH]; intros [|b yh] r rs L E; cbn in L; try discriminate; cbn [runprods] in E.
  - injection E as <-. split; [reflexivity|]. split; [cbn; lia|]. reflexivity.
  - destruct (sec_div S (sec_mul S r a) b) as [r'|] eqn:ED; [|discriminate].
    destruct (runprods S r' xh yh) as [l|] eqn:ER; [|discriminate]. injection E as <-.
    apply sec_div_spec in ED. destruct ED as [Rr ED].
    assert (ED' : eqm (sQ S) (r' * b) (r * a)).
    { unfold eqm in *. rewrite ED. unfold sec_mul. apply Z.mod_mod. lia. }
    destruct (IH yh r' l) as (Ll & Hi & HL); [lia|assumption|].
    split; [cbn; lia|]. split.
    + intros [|i] Hl; cbn [Nat.eqb].
      * split; [exact Rr|]. exact ED'.
      * cbn [length] in Hl. destruct (Hi i ltac:(lia)) as [Ri Ei]. split; [exact Ri|].
        replace (Datatypes.S i - 1)%nat with i by lia. unfold at_ in *. cbn [nth].
        destruct i as [|i]; [exact Ei|]. cbn [Nat.eqb] in Ei. replace (Datatypes.S i - 1)%nat with i in Ei by lia.
        exact Ei.
    + assert (E1 : last (r' :: l) r = last l r').
      { destruct l as [|z l]; [reflexivity|]. cbn [last]. clear. revert z. induction l as [|y l IHl]; intros z; [reflexivity|].
        cbn [last]. apply IHl. }
      rewrite E1. cbn [zprod fold_right]. fold (zprod yh) (zprod xh).
      transitivity (b * (r' * zprod xh)).
      * replace (last l r' * (b * zprod yh)) with (b * (last l r' * zprod yh)) by ring.
        unfold eqm in *. rewrite <- Z.mul_mod_idemp_r, HL, Z.mul_mod_idemp_r by lia. reflexivity.
      * replace (b * (r' * zprod xh)) with ((r' * b) * zprod xh) by ring.
        replace (r * (a * zprod xh)) with ((r * a) * zprod xh) by ring.
        unfold eqm in *. rewrite <- Z.mul_mod_idemp_l, ED', Z.mul_mod_idemp_l by lia. reflexivity.
Qed.

(** runprods succeeds when all divisors are invertible. *)
Lemma runprods_some : forall xh yh r, Forall (fun b => unit b (sQ S)) yh ->
  exists rs, runprods S r xh yh = Some rs.
Proof.
  pose proof (sQ_gt1 S OK) as HQ.
  induction xh as [|a xh IH]; intros [|b yh] r F; cbn [runprods]; try (eexists; reflexivity).
  inversion F as [|? ? U F']; subst. unfold sec_div, sec_inv.
  destruct (modinv_some b (sQ S) HQ U) as (i & E & _). rewrite E.
  destruct (IH yh (sec_mul S (sec_mul S r a) i) F') as (rs & ->). eexists; reflexivity.
Qed.

Lemma rungamma_spec c gi i : eqm (sQ S) (rungamma S c gi i) (c * gi ^ Z.of_nat i).
Proof.
  pose proof (sQ_gt1 S OK) as HQ. induction i as [|i IH].
  - cbn. now rewrite Z.mul_1_r.
  - cbn [rungamma]. unfold eqm, sec_mul in *. rewrite Z.mod_mod by lia.
    rewrite <- Z.mul_mod_idemp_l, IH, Z.mul_mod_idemp_l by lia.
    rewrite Nat2Z.inj_succ, Z.pow_succ_r by lia. f_equal. ring.
Qed.

(** One check: the exponents agree. *)
Lemma thver_exp G A B T a b eA eB eT : in_group S G ->
  A = zexp (sP S) G eA -> B = zexp (sP S) G eB -> T = zexp (sP S) G eT ->
  eqm (sQ S) (eA * a - eB * b) eT -> thver S A B T a b = true.
Proof.
  intros HG -> -> -> E. unfold thver. apply Z.eqb_eq.
  transitivity (zexp (sP S) G (eA * a - eB * b)); [grpS S|].
  pose proof (sP_gt1 S OK). pose proof (sQ_gt1 S OK).
  apply zexp_cong with (q := sQ S); try lia; try exact E.
  - now apply in_group_unit.
  - now apply in_group_q.
Qed.

Lemma zprod_eqm q : forall l l', q <> 0 -> length l = length l' ->
  (forall i, (i < length l)%nat -> eqm q (at_ l i) (at_ l' i)) -> eqm q (zprod l) (zprod l').
Proof.
  intros l l' Hq. revert l'. induction l as [|a l IH]; intros [|b l'] L E; cbn in L; try discriminate; [reflexivity|].
  change (eqm q (a * zprod l) (b * zprod l')).
  assert (E0 : eqm q a b) by (apply (E 0%nat); cbn; lia).
  assert (E1 : eqm q (zprod l) (zprod l')) by (apply IH; [lia|intros i Hi; apply (E (Datatypes.S i)); cbn; lia]).
  unfold eqm in *. rewrite Z.mul_mod, E0, E1, <- Z.mul_mod by assumption. reflexivity.
Qed.

Lemma zprod_scale g l : zprod (map (Z.mul g) l) = g ^ Z.of_nat (length l) * zprod l.
Proof.
  induction l as [|a l IH]; [reflexivity|]. change (g * a * zprod (map (Z.mul g) l) = g ^ Z.of_nat (length (a :: l)) * (a * zprod l)).
  rewrite IH. cbn [length]. rewrite Nat2Z.inj_succ, Z.pow_succ_r by lia. ring.
Qed.

Lemma tab_at l : tab (length l) (at_ l) = l.
Proof.
  apply (nth_ext _ _ 0 0); rewrite tab_length; [reflexivity|]. intros n Hn. apply (at_tab (length l)). exact Hn.
Qed.

Lemma perm_zprod l pi : Permutation pi (seq 0 (length l)) -> zprod (map (at_ l) pi) = zprod l.
Proof.
  intros P. rewrite <- (tab_at l) at 2. apply zprod_perm. unfold tab. now apply Permutation_map.
Qed.

Lemma runprods_units : forall xh yh r rs, length xh = length yh -> runprods S r xh yh = Some rs ->
  unit (zprod yh) (sQ S).
Proof.
  pose proof (sQ_gt1 S OK) as HQ.
  induction xh as [|a xh IH]; intros [|b yh] r rs L E; cbn in L; try discriminate; cbn [runprods] in E.
  - apply unit_1.
  - unfold sec_div, sec_inv in E. destruct (modinv b (sQ S)) as [i|] eqn:EI; [|discriminate].
    match type of E with context [runprods S ?r' xh yh] => destruct (runprods S r' xh yh) as [l|] eqn:ER; [|discriminate] end.
    change (unit (b * zprod yh) (sQ S)). apply unit_mul.
    + apply modinv_sound in EI; [|lia]. now apply inv_unit with (i := i).
    + eapply IH; [|exact ER]. lia.
Qed.

Lemma unit_mul_r a b m : unit (a * b) m -> unit b m.
Proof.
  unfold unit. intros R. apply rel_prime_div with (p := a * b).
  - exact R.
  - exists a. ring.
Qed.

Lemma eqm_unit q a b : 0 < q -> eqm q a b -> unit a q -> unit b q.
Proof. intros Hq E U. apply (proj2 (unit_mod b q Hq)). rewrite <- E. now apply (proj1 (unit_mod a q Hq)). Qed.

Lemma eqm_mulr q a b c : q <> 0 -> eqm q b c -> eqm q (a * b) (a * c).
Proof. intros Hq E. unfold eqm in *. now rewrite Z.mul_mod, E, <- Z.mul_mod by assumption. Qed.
Lemma eqm_mull q a b c : q <> 0 -> eqm q b c -> eqm q (b * a) (c * a).
Proof. intros Hq E. unfold eqm in *. now rewrite Z.mul_mod, E, <- Z.mul_mod by assumption. Qed.

Lemma eqm_cancel q a b c : 1 < q -> unit a q -> eqm q (a * b) (a * c) -> eqm q b c.
Proof. intros Hq U E. apply (mulm_cancel_l q a b c Hq U). exact E. Qed.

(** The telescoping product. *)
Lemma run_last x y gamma c t pi rs :
  length x = length y -> Permutation pi (seq 0 (length x)) ->
  (forall i, (i < length x)%nat -> eqm (sQ S) (at_ y i) (gamma * at_ x (nth i pi 0%nat))) ->
  runprods S c (xhats S x t) (xhats S y (sec_mul S gamma t)) = Some rs ->
  eqm (sQ S) (last rs c * gamma ^ Z.of_nat (length x)) c.
Proof.
  intros L HP HY E. pose proof (sQ_gt1 S OK) as HQ.
  set (xh := xhats S x t) in *. set (yh := xhats S y (sec_mul S gamma t)) in *.
  assert (Lx : length xh = length x) by (unfold xh, xhats; apply map_length).
  assert (Ly : length yh = length y) by (unfold yh, xhats; apply map_length).
  pose proof (runprods_units xh yh c rs ltac:(lia) E) as U.
  destruct (runprods_spec xh yh c rs ltac:(lia) E) as (_ & _ & HL).
  assert (HZ : eqm (sQ S) (zprod yh) (gamma ^ Z.of_nat (length x) * zprod xh)).
  { rewrite <- (perm_zprod xh pi) by (now rewrite Lx).
    replace (length x) with (length (map (at_ xh) pi)).
    2:{ rewrite map_length. rewrite (Permutation_length HP). apply seq_length. }
    rewrite <- zprod_scale. apply zprod_eqm; [lia| |].
    - rewrite !map_length, (Permutation_length HP), seq_length. lia.
    - intros i Hi. rewrite at_map by (rewrite map_length, (Permutation_length HP), seq_length; lia).
      assert (Ei : at_ (map (at_ xh) pi) i = at_ xh (nth i pi 0%nat)).
      { unfold at_ at 1. rewrite nth_indep with (d' := at_ xh 0%nat) by (rewrite map_length, (Permutation_length HP), seq_length; lia).
        apply map_nth. }
      rewrite Ei. pose proof (perm_nth_lt pi (length x) i HP ltac:(lia)) as B.
      unfold xh, yh, xhats. rewrite !at_map by lia.
      specialize (HY i ltac:(lia)). unfold eqm, sec_sub, sec_mul in *.
      rewrite Z.mod_mod by lia. rewrite Zminus_mod_idemp_r. rewrite Zminus_mod, HY, <- Zminus_mod.
      rewrite Z.mul_mod_idemp_r by lia. f_equal. ring. }
  assert (Ux : unit (zprod xh) (sQ S)).
  { apply unit_mul_r with (a := gamma ^ Z.of_nat (length x)). now apply eqm_unit with (a := zprod yh); [lia| |]. }
  apply eqm_cancel with (a := zprod xh); [assumption|assumption|].
  transitivity (last rs c * zprod yh).
  - replace (zprod xh * (last rs c * gamma ^ Z.of_nat (length x)))
      with (last rs c * (gamma ^ Z.of_nat (length x) * zprod xh)) by ring.
    unfold eqm in *. rewrite <- Z.mul_mod_idemp_r, <- HZ, Z.mul_mod_idemp_r by lia. reflexivity.
  - rewrite HL. now rewrite Z.mul_comm.
Qed.

Lemma thenc_exp G ab c d : thenc S G ab c d =
  zexp (sP S) G (sec_sub S (match ab with Some (a, b) => sec_mul S a b | None => 0 end)
    (match c with Some c => match d with Some d => sec_mul S c d | None => c end | None => 0 end)).
Proof. reflexivity. Qed.

Lemma pow_gi gamma gi n : eqm (sQ S) (gamma * gi) 1 -> eqm (sQ S) (gamma ^ Z.of_nat n * gi ^ Z.of_nat n) 1.
Proof.
  intros E. pose proof (sQ_gt1 S OK). rewrite <- Z.pow_mul_l. unfold eqm in *.
  rewrite Zpower_mod by lia. rewrite E, Z.mod_1_l by lia. rewrite Z.pow_1_l by lia. now apply Z.mod_1_l.
Qed.

Theorem ss_complete H G gamma x y theta tr pi pf :
  in_group S G -> Permutation pi (seq 0 (length x)) ->
  (forall i, (i < length x)%nat -> eqm (sQ S) (at_ y i) (gamma * at_ x (nth i pi 0%nat))) ->
  ss_prove S H G gamma x y theta tr = Some pf ->
  ss_verify S H G (pt_mul S G gamma) pf tr = true.
Proof.
  intros HG HP HY E. pose proof (sP_gt1 S OK) as HP1. pose proof (sQ_gt1 S OK) as HQ.
  unfold ss_prove in E. destruct (Nat.leb_spec (length x) 1) as [|K]; [discriminate|].
  destruct (Nat.eqb_spec (length x) (length y)) as [L|]; [|discriminate]. cbn [negb] in E.
  set (k := length x) in *.
  set (X := map (pt_mul S G) x) in *. set (Y := map (pt_mul S G) y) in *.
  set (tr0 := tr ++ enc_pts S X ++ enc_pts S Y) in *. set (t := H tr0 0%nat) in *.
  set (xh := xhats S x t) in *. set (yh := xhats S y (sec_mul S gamma t)) in *.
  set (Theta := theta_points S G gamma k xh yh theta) in *.
  set (tr2 := tr0 ++ enc_pts S Theta) in *. set (c := H tr2 0%nat) in *.
  destruct (runprods S c xh yh) as [rs|] eqn:ER; [|discriminate].
  destruct (sec_inv S gamma) as [gi|] eqn:EG; [|discriminate]. injection E as <-.
  assert (Lx : length xh = k) by (unfold xh, xhats; apply map_length).
  assert (Ly : length yh = k) by (unfold yh, xhats; rewrite map_length; now symmetry).
  destruct (runprods_spec xh yh c rs ltac:(lia) ER) as (Lr & HR & _).
  pose proof (run_last x y gamma c t pi rs L HP HY ER) as HLast. fold k in HLast.
  assert (Elast : last rs c = at_ rs (k - 1)).
  { assert (NE : rs <> []) by (intros ->; cbn in Lr; lia).
    destruct (exists_last NE) as (r0 & a & Er). rewrite Er. rewrite last_last. unfold at_.
    rewrite Er in Lr. rewrite app_length in Lr. cbn in Lr. rewrite app_nth2 by lia.
    now replace (k - 1 - length r0)%nat with 0%nat by lia. }
  rewrite Elast in HLast. clear Elast.
  unfold sec_inv in EG. apply modinv_sound in EG; [|lia]. destruct EG as [_ EG].
  assert (EG' : eqm (sQ S) (gamma * gi) 1) by (unfold eqm; rewrite EG; symmetry; now apply Z.mod_1_l).
  match goal with |- context [SsProof _ _ _ ?a] => set (alpha := a) end.
  unfold ss_verify. cbn [ssX ssY ssTheta ssAlpha].
  assert (LY : length Y = k) by (unfold Y; rewrite map_length; now symmetry).
  rewrite LY. destruct (Nat.leb_spec k 1) as [|_]; [lia|]. cbn [orb].
  assert (LT : length Theta = (2 * k)%nat) by (unfold Theta, theta_points; apply tab_length).
  rewrite LT, Nat.eqb_refl. cbn [negb orb]. unfold alpha at 1. rewrite tab_length, Nat.eqb_refl. cbn [negb].
  fold tr0 t tr2 c.
  assert (XH : forall i, (i < k)%nat -> at_ (tab k (fun i => pt_add S (at_ X i) (pt_mul S G (sec_neg S t)))) i
                = zexp (sP S) G (at_ xh i)).
  { intros i Hi. rewrite at_tab by assumption. unfold X, xh, xhats. rewrite !at_map by lia. grpS S. }
  assert (YH : forall i, (i < k)%nat -> at_ (tab k (fun i => pt_add S (at_ Y i) (pt_mul S (pt_mul S G gamma) (sec_neg S t)))) i
                = zexp (sP S) G (at_ yh i)).
  { intros i Hi. rewrite at_tab by assumption. unfold Y, yh, xhats. rewrite !at_map by lia. grpS S. }
  assert (AL : forall i, (i < 2 * k - 1)%nat -> at_ alpha i =
     if Nat.ltb i k then sec_add S (at_ theta i) (at_ rs i)
     else sec_add S (at_ theta i) (rungamma S c gi (2 * k - 1 - i))).
  { intros i Hi. unfold alpha. now rewrite at_tab by assumption. }
  assert (G0 : zexp (sP S) G 1 = G) by (rewrite zexp_1 by lia; apply Z.mod_small; apply in_group_reduced in HG; exact HG).
  rewrite !andb_true_iff, !forallb_forall. repeat split.
  - (* i = 0 *)
    eapply thver_exp; [exact HG|apply XH; lia|apply YH; lia| |].
    + unfold Theta, theta_points. rewrite at_tab by lia. cbn [Nat.eqb]. rewrite thenc_exp. reflexivity.
    + rewrite AL by lia. destruct (Nat.ltb_spec 0 k); [|lia].
      destruct (HR 0%nat ltac:(lia)) as [_ E]. cbn [Nat.eqb] in E.
      unfold eqm, sec_sub, sec_mul, sec_add in *. rewrite Z.mod_mod by lia.
      rewrite Zminus_mod_idemp_r, <- Zminus_mod_idemp_r, Z.mul_mod_idemp_r, Zminus_mod_idemp_r by lia.
      replace (at_ xh 0 * c - at_ yh 0 * (at_ theta 0 + at_ rs 0)) with
        (c * at_ xh 0 - (at_ yh 0 * at_ theta 0 + at_ rs 0 * at_ yh 0)) by ring.
      rewrite Zminus_mod, <- E, <- Zminus_mod. f_equal. ring.
  - (* 1 <= i < k *)
    intros i Hi. apply in_seq in Hi.
    eapply thver_exp; [exact HG|apply XH; lia|apply YH; lia| |].
    + unfold Theta, theta_points. rewrite at_tab by lia. destruct (Nat.eqb_spec i 0); [lia|].
      destruct (Nat.ltb_spec i k); [|lia]. rewrite thenc_exp. reflexivity.
    + rewrite !AL by lia. destruct (Nat.ltb_spec i k); [|lia]. destruct (Nat.ltb_spec (i - 1) k); [|lia].
      destruct (HR i ltac:(lia)) as [_ E]. destruct (Nat.eqb_spec i 0); [lia|].
      unfold eqm, sec_sub, sec_mul, sec_add in *. rewrite Z.mod_mod by lia.
      rewrite Zminus_mod_idemp_l, Zminus_mod_idemp_r.
      rewrite Zminus_mod, !Z.mul_mod_idemp_r, <- Zminus_mod by lia.
      replace (at_ xh i * (at_ theta (i - 1) + at_ rs (i - 1)) - at_ yh i * (at_ theta i + at_ rs i)) with
        (at_ rs (i - 1) * at_ xh i + (at_ xh i * at_ theta (i - 1) - at_ yh i * at_ theta i - at_ rs i * at_ yh i)) by ring.
      rewrite Z.add_mod, <- E, <- Z.add_mod by lia. f_equal. ring.
  - (* k <= i < 2k - 1 *)
    intros i Hi. apply in_seq in Hi.
    eapply thver_exp with (G := G) (eB := 1); [exact HG|reflexivity|now symmetry| |].
    + unfold Theta, theta_points. rewrite at_tab by lia. destruct (Nat.eqb_spec i 0); [lia|].
      destruct (Nat.ltb_spec i k); [lia|]. destruct (Nat.ltb_spec i (2 * k - 1)); [|lia]. rewrite thenc_exp. reflexivity.
    + rewrite !AL by lia. destruct (Nat.ltb_spec i k); [lia|].
      pose proof (rungamma_spec c gi (2 * k - 1 - i)) as R1.
      assert (R2 : eqm (sQ S) (gamma * (if Nat.ltb (i - 1) k then at_ rs (i - 1) else rungamma S c gi (2 * k - 1 - (i - 1))))
                     (rungamma S c gi (2 * k - 1 - i))).
      { destruct (Nat.ltb_spec (i - 1) k).
        - assert (i = k) by lia. subst i. replace (2 * k - 1 - k)%nat with (k - 1)%nat in * by lia. rewrite R1.
          pose proof (pow_gi gamma gi (k - 1) EG') as PG.
          unfold eqm in *.
          transitivity ((gamma * at_ rs (k - 1) * (gamma ^ Z.of_nat (k - 1) * gi ^ Z.of_nat (k - 1))) mod sQ S).
          { symmetry. rewrite <- (Z.mul_1_r (gamma * at_ rs (k - 1))) at 2. apply eqm_mulr; [lia|exact PG]. }
          replace (gamma * at_ rs (k - 1) * (gamma ^ Z.of_nat (k - 1) * gi ^ Z.of_nat (k - 1))) with
            (at_ rs (k - 1) * (gamma * gamma ^ Z.of_nat (k - 1)) * gi ^ Z.of_nat (k - 1)) by ring.
          rewrite <- Z.pow_succ_r by lia. rewrite <- Nat2Z.inj_succ. replace (Datatypes.S (k - 1)) with k by lia.
          apply eqm_mull; [lia|exact HLast].
        - replace (2 * k - 1 - (i - 1))%nat with (Datatypes.S (2 * k - 1 - i)) by lia. cbn [rungamma].
          unfold eqm, sec_mul in *. rewrite Z.mul_mod_idemp_r by lia.
          replace (gamma * (rungamma S c gi (2 * k - 1 - i) * gi)) with (rungamma S c gi (2 * k - 1 - i) * (gamma * gi)) by ring.
          rewrite <- (Z.mul_1_r (rungamma S c gi (2 * k - 1 - i))) at 2. apply eqm_mulr; [lia|exact EG']. }
      destruct (Nat.ltb_spec (i - 1) k) in R2 |- *;
        unfold eqm, sec_sub, sec_mul, sec_add in *; rewrite Z.mod_mod by lia;
        rewrite Zminus_mod_idemp_l, Zminus_mod, !Z.mul_mod_idemp_r, <- Zminus_mod by lia.
      * replace (gamma * (at_ theta (i - 1) + at_ rs (i - 1)) - 1 * (at_ theta i + rungamma S c gi (2 * k - 1 - i)))
          with (gamma * at_ rs (i - 1) + (gamma * at_ theta (i - 1) - at_ theta i - rungamma S c gi (2 * k - 1 - i))) by ring.
        rewrite Z.add_mod, R2, <- Z.add_mod by lia. f_equal. ring.
      * match type of R2 with (gamma * ?r) mod _ = _ =>
        replace (gamma * (at_ theta (i - 1) + r) - 1 * (at_ theta i + rungamma S c gi (2 * k - 1 - i)))
          with (gamma * r + (gamma * at_ theta (i - 1) - at_ theta i - rungamma S c gi (2 * k - 1 - i))) by ring end.
        rewrite Z.add_mod, R2, <- Z.add_mod by lia. f_equal. ring.
  - (* the last one *)
    eapply thver_exp with (G := G) (eB := 1); [exact HG|reflexivity|now symmetry| |].
    + unfold Theta, theta_points. rewrite at_tab by lia. destruct (Nat.eqb_spec (2 * k - 1) 0); [lia|].
      destruct (Nat.ltb_spec (2 * k - 1) k); [lia|]. destruct (Nat.ltb_spec (2 * k - 1) (2 * k - 1)); [lia|].
      rewrite thenc_exp. reflexivity.
    + rewrite AL by lia. destruct (Nat.ltb_spec (2 * k - 2) k); [lia|].
      replace (2 * k - 1 - (2 * k - 2))%nat with 1%nat by lia. cbn [rungamma].
      unfold eqm, sec_sub, sec_mul, sec_add in *. rewrite Z.mod_mod by lia. rewrite Z.sub_0_r, Z.mod_mod by lia.
      rewrite Zminus_mod, Z.mul_mod_idemp_r by lia. rewrite Z.mul_add_distr_l, Z.add_mod, Z.mul_mod_idemp_r by lia.
      rewrite <- Z.add_mod, <- Zminus_mod by lia.
      replace (gamma * at_ theta (2 * k - 2) + gamma * (c * gi) - 1 * c) with
        (c * (gamma * gi) + (gamma * at_ theta (2 * k - 2) - c)) by ring.
      rewrite Z.add_mod, (eqm_mulr (sQ S) c _ _ ltac:(lia) EG'), <- Z.add_mod by lia. f_equal. ring.
Qed.

(** The prover divides only by the y_i - gamma t and by gamma. *)
Lemma ss_prove_some H G gamma x y theta tr pi :
  (2 <= length x)%nat -> length x = length y -> Permutation pi (seq 0 (length x)) ->
  (forall i, (i < length x)%nat -> eqm (sQ S) (at_ y i) (gamma * at_ x (nth i pi 0%nat))) ->
  unit gamma (sQ S) ->
  (forall i, (i < length x)%nat -> unit (at_ x i - ss_challenge S H G x y tr) (sQ S)) ->
  exists pf, ss_prove S H G gamma x y theta tr = Some pf.
Proof.
  intros K L HP HY UG UX. pose proof (sQ_gt1 S OK) as HQ. unfold ss_prove, ss_challenge in *.
  destruct (Nat.leb_spec (length x) 1); [lia|]. rewrite <- L, Nat.eqb_refl. cbn [negb].
  cbv zeta. match type of UX with context [H ?a 0%nat] => set (t := H a 0%nat) in * end.
  match goal with |- context [runprods S ?a _ _] => set (c := a) end. clearbody c t.
  destruct (runprods_some (xhats S x t) (xhats S y (sec_mul S gamma t)) c) as (rs & ->).
  - apply Forall_forall. intros b Hb. unfold xhats in Hb. apply in_map_iff in Hb. destruct Hb as (v & <- & Hv).
    destruct (In_nth _ _ 0 Hv) as (i & Hi & <-). change (nth i y 0) with (at_ y i).
    rewrite <- L in Hi. apply eqm_unit with (a := gamma * (at_ x (nth i pi 0%nat) - t)); [lia| |].
    + unfold eqm, sec_sub, sec_mul. rewrite Z.mod_mod, Zminus_mod_idemp_r by lia.
      specialize (HY i Hi). unfold eqm in HY. rewrite Zminus_mod, HY, <- Zminus_mod. f_equal. ring.
    + apply unit_mul; [assumption|]. apply UX. now apply perm_nth_lt.
  - destruct (modinv_some gamma (sQ S) HQ UG) as (gi & E & _). unfold sec_inv. rewrite E. eexists. reflexivity.
Qed.

End SS.
