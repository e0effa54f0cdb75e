(** Soundness of the simple k-shuffle of /repo/util/shuffle/simple.go (the model is in
    SimpleShuffle.v): two answers to different challenges c for the same first messages
    give the product relation at the point t; as many points as elements give the
    permutation. *)
From Coq Require Import ZArith Znumtheory Lia List Bool Permutation.
From Verif Require Import ZMod Bytes Suite Spec Pedersen SimpleShuffle Roots.
Import ListNotations.
Open Scope Z_scope.

(** f 0 * f 1 * ... * f (n-1) *)
Fixpoint prodn (f : nat -> Z) (n : nat) : Z :=
  match n with O => 1 | Datatypes.S n => f n * prodn f n end.

Lemma prodn_ext f g : forall n, (forall i, (i < n)%nat -> f i = g i) -> prodn f n = prodn g n.
Proof.
  induction n as [|n IH]; intros E; cbn [prodn]; [reflexivity|]. rewrite IH, (E n) by (intros; try apply E; lia).
  reflexivity.
Qed.

Lemma dprod_prodn t : forall l, dprod l t = prodn (fun i => at_ l i - t) (length l).
Proof.
  intros l. induction l as [|x l IH] using rev_ind; [reflexivity|].
  rewrite dprod_app, IH, app_length, Nat.add_comm. cbn [length Nat.add prodn].
  assert (E : at_ (l ++ [x]) (length l) = x) by (unfold at_; now rewrite nth_middle).
  rewrite E. change (dprod [x] t) with ((x - t) * 1).
  rewrite (prodn_ext (fun i => at_ (l ++ [x]) i - t) (fun i => at_ l i - t)).
  - ring.
  - intros i Hi. unfold at_. now rewrite app_nth1.
Qed.

Lemma dprod_mod p l t : 0 < p -> dprod l (t mod p) mod p = dprod l t mod p.
Proof.
  intros HP. induction l as [|x l IH]; [reflexivity|]. change (dprod (x :: l) ?u) with ((x - u) * dprod l u).
  rewrite Z.mul_mod, IH, Zminus_mod, Z.mod_mod, <- Zminus_mod, <- Z.mul_mod by lia. reflexivity.
Qed.

Lemma dprod_scale g t : forall l, dprod (map (Z.mul g) l) (g * t) = g ^ Z.of_nat (length l) * dprod l t.
Proof.
  induction l as [|x l IH]; [reflexivity|]. cbn [map length].
  change (dprod (?a :: ?b) ?u) with ((a - u) * dprod b u). rewrite IH, Nat2Z.inj_succ, Z.pow_succ_r by lia. ring.
Qed.

(** The chain of the checks, in the exponents. *)
Lemma chain_prod q (xh yh a : nat -> Z) d k : (1 <= k)%nat ->
  eqm q (xh 0%nat * d) (yh 0%nat * a 0%nat) ->
  (forall i, (1 <= i < k)%nat -> eqm q (xh i * a (i - 1)%nat) (yh i * a i)) ->
  eqm q (d * prodn xh k) (a (k - 1)%nat * prodn yh k).
Proof.
  intros K E0 E. induction k as [|k IH]; [lia|].
  destruct k as [|k].
  - cbn [prodn Nat.sub]. unfold eqm in *. rewrite !Z.mul_1_r. rewrite (Z.mul_comm d), (Z.mul_comm (a 0%nat)). exact E0.
  - assert (IH' : eqm q (d * prodn xh (Datatypes.S k)) (a k * prodn yh (Datatypes.S k))).
    { replace k with (Datatypes.S k - 1)%nat at 2 by lia. apply IH; [lia|]. intros i Hi. apply E. lia. }
    specialize (E (Datatypes.S k) ltac:(lia)). replace (Datatypes.S k - 1)%nat with k in E by lia.
    replace (Datatypes.S (Datatypes.S k) - 1)%nat with (Datatypes.S k) by lia.
    change (prodn ?f (Datatypes.S (Datatypes.S k))) with (f (Datatypes.S k) * prodn f (Datatypes.S k)).
    set (A := prodn xh (Datatypes.S k)) in *. set (B := prodn yh (Datatypes.S k)) in *.
    unfold eqm in *.
    replace (d * (xh (Datatypes.S k) * A)) with (xh (Datatypes.S k) * (d * A)) by ring.
    rewrite Zmult_mod, IH', <- Zmult_mod.
    replace (xh (Datatypes.S k) * (a k * B)) with ((xh (Datatypes.S k) * a k) * B) by ring.
    rewrite Zmult_mod, E, <- Zmult_mod. f_equal. ring.
Qed.

Lemma chain_pow q g (a : nat -> Z) k : forall n,
  (forall i, (k <= i < k + n)%nat -> eqm q (g * a (i - 1)%nat) (a i)) -> (1 <= k)%nat ->
  eqm q (a (k + n - 1)%nat) (g ^ Z.of_nat n * a (k - 1)%nat).
Proof.
  induction n as [|n IH]; intros E K.
  - rewrite Nat.add_0_r. change (g ^ Z.of_nat 0) with 1. now rewrite Z.mul_1_l.
  - specialize (IH (fun i Hi => E i ltac:(lia)) K).
    specialize (E (k + n)%nat ltac:(lia)). replace (k + Datatypes.S n - 1)%nat with (k + n)%nat by lia.
    rewrite Nat2Z.inj_succ, Z.pow_succ_r by lia. unfold eqm in *. rewrite <- E, Zmult_mod, IH, <- Zmult_mod.
    f_equal. ring.
Qed.

Section Sound.
Context (S : suite) (OK : suite_ok S) (PP : prime (sP S)) (PQ : prime (sQ S)).
Context (G : Z) (HG : in_group S G) (G1 : G <> 1).
Local Notation ex := (zexp (sP S) G).

Lemma ex_cong a b : eqm (sQ S) a b -> ex a = ex b.
Proof.
  intros E. pose proof (sP_gt1 S OK). pose proof (sQ_gt1 S OK).
  rewrite <- (zexp_modQ S OK G a), <- (zexp_modQ S OK G b) by exact HG. now rewrite E.
Qed.

Lemma ex_mul x a : pt_mul S (ex x) a = ex (x * a).
Proof. pose proof (sP_gt1 S OK). unfold pt_mul. apply zexp_mul; [lia|now apply in_group_unit]. Qed.
Lemma ex_add x y : pt_add S (ex x) (ex y) = ex (x + y).
Proof. pose proof (sP_gt1 S OK). unfold pt_add. symmetry. apply zexp_add; [lia|now apply in_group_unit]. Qed.

Lemma thver_ex xa xb T a b : thver S (ex xa) (ex xb) T a b = true -> T = ex (xa * a - xb * b).
Proof.
  unfold thver. rewrite Z.eqb_eq, !ex_mul, ex_add. intros <-. apply ex_cong. unfold eqm, sec_neg.
  rewrite Zplus_mod, (Zmult_mod xb), Z.mod_mod, <- Zmult_mod, <- Zplus_mod by (pose proof (sQ_gt1 S OK); lia).
  f_equal. ring.
Qed.

Lemma thver_two xa xb T a b a' b' : thver S (ex xa) (ex xb) T a b = true -> thver S (ex xa) (ex xb) T a' b' = true ->
  eqm (sQ S) (xa * (a - a')) (xb * (b - b')).
Proof.
  intros E E'. apply thver_ex in E, E'. rewrite E in E'. apply (zexp_inj S OK) in E'; try assumption.
  pose proof (sQ_gt1 S OK) as HQ. unfold eqm.
  assert (D : (xa * (a - a') - xb * (b - b')) mod sQ S = 0).
  { replace (xa * (a - a') - xb * (b - b')) with ((xa * a - xb * b) - (xa * a' - xb * b')) by ring.
    rewrite Zminus_mod, E', Z.sub_diag. apply Z.mod_0_l. lia. }
  apply Z.mod_divide in D; [|lia]. destruct D as (k & D).
  replace (xa * (a - a')) with (xb * (b - b') + k * sQ S) by lia. now rewrite Z.mod_add by lia.
Qed.

(** Two accepted answers to different challenges. *)
Lemma two_answers gamma xs ys H H' pf pf' tr tr' :
  length xs = length ys ->
  ssX pf = map ex xs -> ssY pf = map ex ys -> ssX pf' = map ex xs -> ssY pf' = map ex ys ->
  ssTheta pf' = ssTheta pf ->
  let t := H (tr ++ enc_pts S (ssX pf) ++ enc_pts S (ssY pf)) 0%nat in
  let t' := H' (tr' ++ enc_pts S (ssX pf') ++ enc_pts S (ssY pf')) 0%nat in
  let c := H ((tr ++ enc_pts S (ssX pf) ++ enc_pts S (ssY pf)) ++ enc_pts S (ssTheta pf)) 0%nat in
  let c' := H' ((tr' ++ enc_pts S (ssX pf') ++ enc_pts S (ssY pf')) ++ enc_pts S (ssTheta pf')) 0%nat in
  eqm (sQ S) t t' -> ~ eqm (sQ S) c c' ->
  ss_verify S H G (ex gamma) pf tr = true -> ss_verify S H' G (ex gamma) pf' tr' = true ->
  eqm (sQ S) (dprod (map (Z.mul gamma) xs) (gamma * t)) (dprod ys (gamma * t)).
Proof.
  intros LL EX EY EX' EY' ET t t' c c' Et Ec V V'. pose proof (sQ_gt1 S OK) as HQ.
  unfold ss_verify in V, V'. fold t c in V. fold t' c' in V'. rewrite EX, EY in V. rewrite EX', EY', ET in V'.
  rewrite map_length in V, V'. set (k := length ys) in *.
  destruct (Nat.leb_spec k 1) as [|K]; [discriminate|].
  destruct (negb (length (ssTheta pf) =? 2 * k)%nat) eqn:L1; [discriminate|].
  destruct (negb (length (ssAlpha pf) =? 2 * k - 1)%nat) eqn:L2; [discriminate|].
  destruct (negb (length (ssAlpha pf') =? 2 * k - 1)%nat) eqn:L3; [discriminate|]. cbn [orb] in V, V'.
  apply andb_prop in V. destruct V as [V V3]. apply andb_prop in V. destruct V as [V V2].
  apply andb_prop in V. destruct V as [V0 V1].
  apply andb_prop in V'. destruct V' as [V' V3']. apply andb_prop in V'. destruct V' as [V' V2'].
  apply andb_prop in V'. destruct V' as [V0' V1'].
  assert (Nt : eqm (sQ S) (sec_neg S t) (- t)) by (unfold eqm, sec_neg; rewrite Z.mod_mod; [reflexivity|lia]).
  assert (Nt' : eqm (sQ S) (sec_neg S t') (- t)).
  { unfold eqm, sec_neg in *. rewrite Z.mod_mod by lia. rewrite <- (Z.sub_0_l t'), <- (Z.sub_0_l t).
    now rewrite Zminus_mod, <- Et, <- Zminus_mod. }
  assert (LK : length xs = k) by exact LL.
  assert (GX : forall u, eqm (sQ S) u (- t) -> forall i, (i < k)%nat ->
    at_ (tab k (fun i => pt_add S (at_ (map ex xs) i) (pt_mul S G u))) i = ex (at_ xs i - t)).
  { intros u Eu i Hi. rewrite at_tab, at_map by lia. unfold pt_mul. rewrite ex_add. apply ex_cong. unfold eqm in *.
    rewrite Zplus_mod, Eu, <- Zplus_mod. f_equal. }
  assert (GY : forall u, eqm (sQ S) u (- t) -> forall i, (i < k)%nat ->
    at_ (tab k (fun i => pt_add S (at_ (map ex ys) i) (pt_mul S (ex gamma) u))) i = ex (at_ ys i - gamma * t)).
  { intros u Eu i Hi. rewrite at_tab, at_map by (fold k; lia). rewrite ex_mul, ex_add. apply ex_cong. unfold eqm in *.
    rewrite Zplus_mod, (Zmult_mod gamma), Eu, <- Zmult_mod, <- Zplus_mod. f_equal. ring. }
  rewrite (GX _ Nt), (GY _ Nt) in V0 by lia. rewrite (GX _ Nt'), (GY _ Nt') in V0' by lia.
  set (a := fun i => at_ (ssAlpha pf) i - at_ (ssAlpha pf') i).
  assert (E0 := thver_two _ _ _ _ _ _ _ V0 V0'). fold (a 0%nat) in E0.
  assert (E1 : forall i, (1 <= i < k)%nat ->
    eqm (sQ S) ((at_ xs i - t) * a (i - 1)%nat) ((at_ ys i - gamma * t) * a i)).
  { intros i Hi. rewrite forallb_forall in V1, V1'. specialize (V1 i). specialize (V1' i). cbv beta in V1, V1'.
    rewrite (GX _ Nt), (GY _ Nt) in V1 by lia. rewrite (GX _ Nt'), (GY _ Nt') in V1' by lia.
    apply (thver_two _ _ _ _ _ _ _ (V1 ltac:(apply in_seq; lia)) (V1' ltac:(apply in_seq; lia))). }
  assert (EG : G = ex 1).
  { rewrite zexp_1 by (pose proof (sP_gt1 S OK); lia). symmetry. apply Z.mod_small. destruct HG as [R _]. lia. }
  assert (TG : forall T a b, thver S (ex gamma) G T a b = thver S (ex gamma) (ex 1) T a b) by (intros; now rewrite <- EG).
  assert (E2 : forall i, (k <= i < k + (k - 1))%nat -> eqm (sQ S) (gamma * a (i - 1)%nat) (a i)).
  { intros i Hi. rewrite forallb_forall in V2, V2'. specialize (V2 i). specialize (V2' i). cbv beta in V2, V2'.
    rewrite TG in V2, V2'.
    assert (X := thver_two _ _ _ _ _ _ _ (V2 ltac:(apply in_seq; lia)) (V2' ltac:(apply in_seq; lia))).
    unfold a. unfold eqm in *. rewrite X. f_equal. ring. }
  rewrite TG in V3, V3'. assert (E3 := thver_two _ _ _ _ _ _ _ V3 V3').
  assert (CP := chain_prod (sQ S) (fun i => at_ xs i - t) (fun i => at_ ys i - gamma * t) a (c - c') k ltac:(lia) E0 E1).
  assert (CW := chain_pow (sQ S) gamma a k (k - 1) E2 ltac:(lia)).
  replace (k + (k - 1) - 1)%nat with (2 * k - 2)%nat in CW by lia.
  assert (D : eqm (sQ S) (c - c') (gamma ^ Z.of_nat k * a (k - 1)%nat)).
  { fold (a (2 * k - 2)%nat) in E3. unfold eqm in *. rewrite Z.mul_1_l in E3.
    rewrite <- E3, Zmult_mod, CW, <- Zmult_mod. f_equal.
    replace (Z.of_nat k) with (Z.succ (Z.of_nat (k - 1))) by lia. rewrite Z.pow_succ_r by lia. ring. }
  rewrite dprod_scale, dprod_prodn, dprod_prodn, LK. fold k.
  set (A := prodn (fun i => at_ xs i - t) k) in *. set (B := prodn (fun i => at_ ys i - gamma * t) k) in *.
  set (w := a (k - 1)%nat) in *. set (gk := gamma ^ Z.of_nat k) in *.
  assert (F : (w * (gk * A - B)) mod sQ S = 0).
  { replace (w * (gk * A - B)) with ((gk * w) * A - w * B) by ring. unfold eqm in *.
    rewrite Zminus_mod, <- CP, (Zmult_mod (gk * w)), <- D, <- Zmult_mod, Z.sub_diag. apply Z.mod_0_l. lia. }
  apply prime_factor in F; [|exact PQ]. destruct F as [F|F].
  - exfalso. apply Ec. unfold eqm in *. rewrite Zmult_mod, F, Z.mul_0_r, Z.mod_0_l in D by lia.
    apply Z.mod_divide in D; [|lia]. destruct D as (j & D). replace c with (c' + j * sQ S) by lia.
    now rewrite Z.mod_add by lia.
  - unfold eqm. apply Z.mod_divide in F; [|lia]. destruct F as (j & F).
    replace (gk * A) with (B + j * sQ S) by lia. now rewrite Z.mod_add by lia.
Qed.

Lemma logs l : Forall (in_group S) l -> exists xs, l = map ex xs.
Proof.
  induction 1 as [|x l Hx _ (xs & IH)]; [exists []; reflexivity|].
  destruct (prime_generates S OK PP PQ G HG G1 x Hx) as (k & Hk & E). exists (k :: xs). cbn [map]. f_equal; [|exact IH].
  rewrite zexp_pos; [exact E|pose proof (sP_gt1 S OK); lia|exact Hk].
Qed.

(** Either the output is a shuffle, or fewer challenges than elements can be answered twice. *)
Lemma ss_sound Gamma X Y : in_group S Gamma -> Gamma <> 1 -> Forall (in_group S) X -> Forall (in_group S) Y ->
  length X = length Y ->
  (exists gamma, 0 <= gamma < sQ S /\ Gamma = (G ^ gamma) mod sP S /\
     Permutation Y (map (fun x => (x ^ gamma) mod sP S) X)) \/
  exists bad, (length bad < length Y)%nat /\
    forall H H' pf pf' tr tr', ssX pf = X -> ssY pf = Y -> ssX pf' = X -> ssY pf' = Y -> ssTheta pf' = ssTheta pf ->
    let t := H (tr ++ enc_pts S X ++ enc_pts S Y) 0%nat in
    let t' := H' (tr' ++ enc_pts S X ++ enc_pts S Y) 0%nat in
    let c := H ((tr ++ enc_pts S X ++ enc_pts S Y) ++ enc_pts S (ssTheta pf)) 0%nat in
    let c' := H' ((tr' ++ enc_pts S X ++ enc_pts S Y) ++ enc_pts S (ssTheta pf)) 0%nat in
    ss_verify S H G Gamma pf tr = true -> ss_verify S H' G Gamma pf' tr' = true ->
    t mod sQ S = t' mod sQ S -> In (t mod sQ S) bad \/ c mod sQ S = c' mod sQ S.
Proof.
  intros HGa Ga1 HX HY LL. pose proof (sQ_gt1 S OK) as HQ. pose proof (sP_gt1 S OK) as HP.
  destruct (logs X HX) as (xs & EX). destruct (logs Y HY) as (ys & EY).
  destruct (logs [Gamma] (Forall_cons _ HGa (Forall_nil _))) as ([|g0 [|]] & EG); try discriminate.
  injection EG as EG.
  set (gamma := g0 mod sQ S). assert (Rg : 0 <= gamma < sQ S) by (apply Z.mod_pos_bound; lia).
  assert (EG' : Gamma = ex gamma) by (unfold gamma; now rewrite (zexp_modQ S OK) by exact HG).
  assert (Ng : gamma <> 0) by (intros Z0; apply Ga1; rewrite EG', Z0; apply zexp_0; lia).
  assert (Lxy : length xs = length ys) by (rewrite EX, EY, !map_length in LL; exact LL).
  set (bad := filter (fun t => (dprod (map (Z.mul gamma) xs) (gamma * t) mod sQ S =? dprod ys (gamma * t) mod sQ S))
                (map Z.of_nat (seq 0 (Z.to_nat (sQ S))))).
  destruct (le_lt_dec (length ys) (length bad)) as [LB|LB].
  - left. exists gamma. split; [exact Rg|]. split; [rewrite EG'; apply zexp_pos; lia|].
    assert (PM := dprod_perm (sQ S) PQ (map (Z.mul gamma) xs) ys (map (fun t => (gamma * t) mod sQ S) bad)).
    assert (BR : forall t, In t bad -> 0 <= t < sQ S).
    { intros t Ht. apply filter_In in Ht. destruct Ht as [Ht _]. apply in_map_iff in Ht. destruct Ht as (n & <- & Hn).
      apply in_seq in Hn. lia. }
    assert (PM' : Permutation (map (fun x => x mod sQ S) (map (Z.mul gamma) xs)) (map (fun y => y mod sQ S) ys)).
    { apply PM.
      - rewrite map_length. lia.
      - assert (NB : NoDup bad).
        { apply NoDup_filter. apply FinFun.Injective_map_NoDup; [|apply seq_NoDup]. intros a b. lia. }
        clear - NB BR Ng Rg PQ HQ. revert NB BR. generalize bad. intros b. induction b as [|t b IH]; intros NB BR; cbn [map]; [constructor|].
        inversion NB as [|? ? NI NB']; subst. constructor.
        + intros I. apply in_map_iff in I. destruct I as (u & E & Iu). apply NI.
          assert (D : (gamma * (u - t)) mod sQ S = 0).
          { rewrite Z.mul_sub_distr_l, Zminus_mod, E, Z.sub_diag. apply Z.mod_0_l. lia. }
          apply prime_factor in D; [|exact PQ]. destruct D as [D|D]; [rewrite Z.mod_small in D by lia; lia|].
          apply reduced_diff in D; [subst; exact Iu|apply BR; now right|apply BR; now left].
        + apply IH; [exact NB'|]. intros; apply BR; now right.
      - apply Forall_forall. intros z Hz. apply in_map_iff in Hz. destruct Hz as (u & <- & _). apply Z.mod_pos_bound. lia.
      - rewrite !map_length. lia.
      - intros z Hz. apply in_map_iff in Hz. destruct Hz as (u & <- & Hu). rewrite !dprod_mod by lia.
        apply filter_In in Hu. destruct Hu as [_ Hu]. now apply Z.eqb_eq in Hu. }
    apply (Permutation_map ex) in PM'. symmetry. rewrite !map_map in PM'. rewrite EX, EY, map_map.
    rewrite (map_ext (fun y => ex (y mod sQ S)) ex) in PM' by (intros y; now apply (zexp_modQ S OK)).
    rewrite (map_ext (fun x => ex x ^ gamma mod sP S) (fun x => ex ((gamma * x) mod sQ S))); [exact PM'|].
    intros x. rewrite <- zexp_pos by lia. fold (pt_mul S (ex x) gamma). rewrite ex_mul.
    rewrite (zexp_modQ S OK) by exact HG. f_equal. ring.
  - right. exists bad. split; [rewrite EY, map_length; exact LB|].
    intros H H' pf pf' tr tr' X1 Y1 X2 Y2 T2 t t' c c' V V' Et.
    destruct (Z.eq_dec (c mod sQ S) (c' mod sQ S)) as [Ec|Ec]; [now right|left].
    assert (TW := two_answers gamma xs ys H H' pf pf' tr tr' Lxy).
    rewrite X1, Y1, X2, Y2, T2 in TW. specialize (TW EX EY EX EY eq_refl). cbv zeta in TW. fold t t' c c' in TW.
    rewrite <- EG' in TW. specialize (TW Et Ec V V').
    unfold bad. apply filter_In. split.
    + apply in_map_iff. exists (Z.to_nat (t mod sQ S)). pose proof (Z.mod_pos_bound t (sQ S) ltac:(lia)).
      split; [lia|]. apply in_seq. lia.
    + apply Z.eqb_eq. unfold eqm in TW. 
      assert (M : forall l, dprod l (gamma * (t mod sQ S)) mod sQ S = dprod l (gamma * t) mod sQ S).
      { intros l. rewrite <- (dprod_mod _ l (gamma * (t mod sQ S))), Z.mul_mod_idemp_r, dprod_mod by lia. reflexivity. }
      rewrite !M. exact TW.
Qed.

End Sound.
