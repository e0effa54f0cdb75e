(** C06-C12: Fujisaki-Okamoto commitments, three squares, non-negativity
    arguments, generator honesty proofs. *)
From Coq Require Import ZArith Znumtheory Lia List Bool.
From Verif Require Import ZMod Bytes Suite Spec FujiOkam ThreeSquares.
From Verif Require SumSquares.
Import ListNotations.
Open Scope Z_scope.

(** ** C06 *)
Lemma zexp_is_power n a e : 1 < n -> unit a n -> is_power n a e (zexp n a e).
Proof.
  intros Hn U. unfold is_power, zpos, zneg. split; [apply zexp_range; lia|].
  destruct (Z.le_gt_cases 0 e).
  - rewrite Z.max_r, Z.max_l by lia. rewrite zexp_pos by lia.
    rewrite Z.pow_0_r, Z.mul_1_r. now rewrite Z.mod_mod by lia.
  - rewrite Z.max_l, Z.max_r by lia.
    pose proof (zexp_opp n a (- e) Hn U) as O. rewrite Z.opp_involutive in O.
    rewrite (zexp_pos n a (- e)) in O by lia. unfold mulm in O.
    rewrite Z.mul_mod_idemp_l in O by lia. rewrite Z.mul_comm, O.
    cbn. now rewrite Z.mod_1_l.
Qed.

Lemma is_power_unique n a e y : 1 < n -> unit a n -> is_power n a e y -> y = zexp n a e.
Proof.
  intros Hn U [Ry Ey]. destruct (zexp_is_power n a e Hn U) as [Rz Ez].
  rewrite <- Ez in Ey.
  assert (Uk : unit (a ^ zneg e) n) by (apply unit_pow; [unfold zneg; lia|exact U]).
  rewrite !(Z.mul_comm _ (a ^ zneg e)) in Ey.
  apply (mulm_cancel_l n (a ^ zneg e)) in Ey; try assumption.
  rewrite !Z.mod_small in Ey; lia.
Qed.

Lemma commits_int_iff fb x r c : fobase_ok fb ->
  commits_int (fN fb) (fG1 fb) (fH1 fb) x r c <-> c = fo_commit_r fb x r.
Proof.
  intros B. pose proof B as [HN UH U1 _ _ _ _ _].
  destruct (zexp_is_power (fN fb) (fG1 fb) x HN U1) as [Rx Ex].
  destruct (zexp_is_power (fN fb) (fH1 fb) r HN UH) as [Rr Er].
  assert (U : unit (fG1 fb ^ zneg x * fH1 fb ^ zneg r) (fN fb)).
  { apply unit_mul; apply unit_pow; try assumption; unfold zneg; lia. }
  assert (V : (fo_commit_r fb x r * (fG1 fb ^ zneg x * fH1 fb ^ zneg r)) mod fN fb =
              (fG1 fb ^ zpos x * fH1 fb ^ zpos r) mod fN fb).
  { rewrite fo_commit_zexp. unfold mulm. rewrite Z.mul_mod_idemp_l by lia.
    replace (zexp (fN fb) (fG1 fb) x * zexp (fN fb) (fH1 fb) r * (fG1 fb ^ zneg x * fH1 fb ^ zneg r))
      with ((zexp (fN fb) (fG1 fb) x * fG1 fb ^ zneg x) * (zexp (fN fb) (fH1 fb) r * fH1 fb ^ zneg r)) by ring.
    rewrite Z.mul_mod, Ex, Er, <- Z.mul_mod by lia. reflexivity. }
  split.
  - intros [Rc Ec]. rewrite <- V in Ec.
    rewrite (Z.mul_comm c), (Z.mul_comm (fo_commit_r fb x r)) in Ec.
    apply (mulm_cancel_l (fN fb) (fG1 fb ^ zneg x * fH1 fb ^ zneg r)) in Ec; try assumption.
    assert (0 <= fo_commit_r fb x r < fN fb) by (rewrite fo_commit_zexp; apply mulm_range; lia).
    rewrite !Z.mod_small in Ec; lia.
  - intros ->. split; [|exact V]. rewrite fo_commit_zexp; apply mulm_range; lia.
Qed.

(** CommitWithR(x, r) is exactly the commitment G1^x H1^r mod N, for integers of
    either sign. *)
Theorem C06_commit_exact : forall fb x r c, fobase_ok fb ->
  (commits_int (fN fb) (fG1 fb) (fH1 fb) x r c <-> c = fo_commit_r fb x r).
Proof. exact commits_int_iff. Qed.

(** Commit's output (for any drawn random integer) is a commitment to x. *)
Theorem C06_commit_random : forall fb x u c r, fobase_ok fb -> fo_commit fb x u = (c, r) ->
  commits_int (fN fb) (fG1 fb) (fH1 fb) x r c.
Proof.
  intros fb x u c r B E. unfold fo_commit in E. inversion E; subst. now apply C06_commit_exact.
Qed.

(** Products of commitments commit to the sum, over the integers. *)
Theorem C06_homomorphic : forall fb x r y s c d, fobase_ok fb ->
  commits_int (fN fb) (fG1 fb) (fH1 fb) x r c ->
  commits_int (fN fb) (fG1 fb) (fH1 fb) y s d ->
  commits_int (fN fb) (fG1 fb) (fH1 fb) (x + y) (r + s) (fo_mul (fN fb) c d).
Proof.
  intros fb x r y s c d B Hc Hd. apply commits_int_iff in Hc, Hd; try assumption. subst.
  apply commits_int_iff; [assumption|]. rewrite !fo_commit_zexp. unfold fo_mul.
  destruct B. grp (fN fb).
Qed.

Lemma prime_unit p h : prime p -> h mod p <> 0 -> unit h p.
Proof.
  intros PP H. apply rel_prime_sym, prime_rel_prime; [exact PP|]. intros D. apply H.
  apply Z.mod_divide; [|exact D]. destruct PP. lia.
Qed.

Lemma gen_h_spec p q N draws h : gen_h p q N draws = Some h ->
  exists h1, In h1 draws /\ h1 <> 1 /\ h1 mod (p + p + 1) <> 0 /\ h1 mod (q + q + 1) <> 0
    /\ h = (h1 * h1) mod N.
Proof.
  induction draws as [|d l IH]; cbn; [discriminate|].
  assert (gen_h p q N l = Some h -> exists h1, (d = h1 \/ In h1 l) /\ h1 <> 1 /\ h1 mod (p + p + 1) <> 0
     /\ h1 mod (q + q + 1) <> 0 /\ h = (h1 * h1) mod N) as R.
  { intros H. destruct (IH H) as (h1 & ? & ? & ? & ? & ?). exists h1. tauto. }
  destruct (Z.eqb_spec d 1); [exact R|].
  destruct (Z.eqb_spec (d mod (p + p + 1)) 0); [exact R|].
  destruct (Z.eqb_spec (d mod (q + q + 1)) 0); [exact R|].
  intros E. inversion E. exists d. unfold fo_mul, mulm. tauto.
Qed.

(** Base creation, for every pair of odd primes from openssl and all random
    draws: H1 is the square of a unit, hence a unit, and every generator is H1
    raised to the corresponding trapdoor exponent. *)
Theorem C06_create_base : forall dpa1 dqa1 draws u1 u2 u3 u4 u5 u6 fb t,
  prime dpa1 -> prime dqa1 -> 2 < dpa1 -> 2 < dqa1 ->
  fo_create_base dpa1 dqa1 draws u1 u2 u3 u4 u5 u6 = Some (fb, t) ->
  fN fb = dpa1 * dqa1
  /\ (exists h, rel_prime h (fN fb) /\ fH1 fb = (h ^ 2) mod fN fb)
  /\ rel_prime (fH1 fb) (fN fb)
  /\ is_power (fN fb) (fH1 fb) (fA1 t) (fG1 fb) /\ is_power (fN fb) (fH1 fb) (fA2 t) (fG2 fb)
  /\ is_power (fN fb) (fH1 fb) (fA3 t) (fG3 fb) /\ is_power (fN fb) (fH1 fb) (fA4 t) (fG4 fb)
  /\ is_power (fN fb) (fH1 fb) (fA5 t) (fG5 fb) /\ is_power (fN fb) (fH1 fb) (fA6 t) (fG6 fb)
  /\ fobase_ok fb.
Proof.
  intros dp dq draws u1 u2 u3 u4 u5 u6 fb t Pp Pq Gp Gq H. unfold fo_create_base in H.
  destruct (gen_h (dp / 2) (dq / 2) (dp * dq) draws) as [h|] eqn:E; [|discriminate].
  apply gen_h_spec in E. destruct E as (h1 & _ & _ & Mp & Mq & ->).
  assert (odd : forall d, prime d -> 2 < d -> d / 2 + d / 2 + 1 = d).
  { intros d Pd Gd. assert (d mod 2 = 1).
    { pose proof (Z.mod_pos_bound d 2 ltac:(lia)). assert (d mod 2 <> 0); [|lia]. intros M.
      apply Z.mod_divide in M; [|lia]. apply prime_divisors in M; [|exact Pd]. lia. }
    pose proof (Z.div_mod d 2 ltac:(lia)). lia. }
  rewrite (odd dp), (odd dq) in * by assumption. clear odd.
  set (N := dp * dq) in *. assert (HN : 1 < N) by nia.
  assert (U1 : unit h1 N).
  { apply rel_prime_mult; now apply prime_unit. }
  assert (UH : unit ((h1 * h1) mod N) N).
  { apply (proj1 (unit_mod _ N ltac:(lia))). now apply unit_mul. }
  set (h := (h1 * h1) mod N) in *.
  unfold gen_gn in H. rewrite !fo_exp_zexp in H. inversion H; subst; clear H.
  cbn [fN fH1 fG1 fG2 fG3 fG4 fG5 fG6 fA1 fA2 fA3 fA4 fA5 fA6].
  split; [reflexivity|]. split; [exists h1; split; [exact U1|unfold h; now rewrite Z.pow_2_r]|].
  split; [exact UH|].
  do 6 (split; [now apply zexp_is_power|]).
  constructor; cbn [fN fH1 fG1 fG2 fG3 fG4 fG5 fG6]; try assumption; now apply unit_zexp.
Qed.

(** ** C07 *)
Theorem C07_sound : forall x a b d, 0 <= x < 2 ^ 61 ->
  decompose x = Some (a, b, d) -> a ^ 2 + b ^ 2 + d ^ 2 = 4 * x + 1.
Proof.
  intros x a b d Hx H. rewrite !Z.pow_2_r. now apply (decompose_some x Hx) in H.
Qed.

Theorem C07_complete : forall x, 0 <= x < 2 ^ 61 ->
  (exists a b d, a ^ 2 + b ^ 2 + d ^ 2 = 4 * x + 1) -> exists a b d, decompose x = Some (a, b, d).
Proof.
  intros x Hx (a & b & d & E). rewrite !Z.pow_2_r in E.
  destruct (decompose x) as [[[a' b'] d']|] eqn:D; [eauto|].
  exfalso. now apply (decompose_complete x Hx a b d E).
Qed.

(** Panic exactly when 4x+1 is not a sum of three squares. *)
Theorem C07_panics_iff : forall x, 0 <= x < 2 ^ 61 ->
  (decompose x = None <-> ~ exists a b d, a ^ 2 + b ^ 2 + d ^ 2 = 4 * x + 1).
Proof.
  intros x Hx. split.
  - intros H E. destruct (C07_complete x Hx E) as (a & b & d & E'). congruence.
  - intros H. destruct (decompose x) as [[[a b] d]|] eqn:D; [|reflexivity].
    exfalso. apply H. exists a, b, d. now apply C07_sound.
Qed.

(** Which never happens: every 4x+1 is a sum of three squares (SumSquares.v), so the search
    finds one for every x in the range. *)
Theorem C07_total : forall x, 0 <= x < 2 ^ 61 ->
  exists a b d, decompose x = Some (a, b, d) /\ a ^ 2 + b ^ 2 + d ^ 2 = 4 * x + 1.
Proof.
  intros x Hx. destruct (C07_complete x Hx) as (a & b & d & D).
  - apply SumSquares.four_x_plus_one. lia.
  - exists a, b, d. split; [exact D|]. now apply C07_sound.
Qed.

(** Beyond int64 the function silently decomposes another number. *)
Theorem C07_beyond_int64_refuted : exists x a b d, 0 <= x /\
  decompose x = Some (a, b, d) /\ a ^ 2 + b ^ 2 + d ^ 2 <> 4 * x + 1.
Proof. exists (2 ^ 64), 0, 1, 0. repeat split; vm_compute; congruence. Qed.

Example C07_instance : decompose 42 = Some (0, 5, 12) /\ decompose 0 = Some (0, 1, 0)
  /\ decompose 25 = Some (0, 10, 1) /\ decompose 5 = Some (1, 4, 2).
Proof. vm_compute. repeat split. Qed.

(** ** C08 *)
Theorem C08_complete : forall S fb x rc commitx rn, fobase_ok fb ->
  0 <= x < 2 ^ 61 ->
  commits_int (fN fb) (fG1 fb) (fH1 fb) x rc commitx ->
  exists arg, prove_nonneg S fb x commitx rc rn = Some arg /\ verify_nonneg S fb commitx arg = true.
Proof.
  intros S fb x rc commitx rn B Hx C. apply commits_int_iff in C; [|exact B]. subst commitx.
  unfold prove_nonneg. destruct (Z.ltb_spec x 0); [lia|].
  destruct (C07_total x Hx) as (a & b & d & D & _). rewrite D.
  eexists. split; [reflexivity|]. apply prove_nonneg_complete; [exact B|].
  now apply (decompose_some x Hx) in D.
Qed.

(** Whatever the prover returns is accepted. *)
Theorem C08_returned_verifies : forall S fb x rc commitx rn arg, fobase_ok fb ->
  x < 2 ^ 61 ->
  commits_int (fN fb) (fG1 fb) (fH1 fb) x rc commitx ->
  prove_nonneg S fb x commitx rc rn = Some arg -> verify_nonneg S fb commitx arg = true.
Proof.
  intros S fb x rc commitx rn arg B Hx C E. apply commits_int_iff in C; [|exact B]. subst commitx.
  unfold prove_nonneg in E. destruct (Z.ltb_spec x 0); [discriminate|].
  destruct (decompose x) as [[[a b] d]|] eqn:D; [|discriminate]. inversion E; subst.
  apply prove_nonneg_complete; [exact B|]. apply (decompose_some x ltac:(lia)) in D. tauto.
Qed.

(** ** C09 refuted: the challenge does not cover commitrx, so it can be solved for
    after the challenge is known. *)
Definition forge_nonneg (S : suite) (fb : fobase) (commitx : Z) (rn : nn_rand) : arg_nonneg :=
  let h := prove_nonneg_with S fb 0 commitx 0 0 1 0 rn in
  let e := nonneg_challenge S commitx (nnC h) (nnCr h) in
  let N := fN fb in
  ArgNonneg (fo_mul N (fo_exp N (fG1 fb) (nnX h)) (fo_exp N commitx (- e)))
    (nnC h) (nnCr h) 0 (nnX h) (nnA h) (nnB h) (nnD h) (nnR_ h).

Lemma forge_nonneg_verifies S fb commitx rn : fobase_ok fb -> unit commitx (fN fb) ->
  verify_nonneg S fb commitx (forge_nonneg S fb commitx rn) = true.
Proof.
  intros B U. pose proof B as [HN U1 U2 U3 U4 U5 U6 U7].
  destruct rn as [rx ra rb rd r rr rrx]. unfold forge_nonneg, prove_nonneg_with.
  cbn [nnC nnCr nnX nnA nnB nnD nnR_]. exp_units fb. rewrite !fo_exp_zexp.
  apply verify_nonneg_eqs; [assumption|].
  match goal with |- context [nonneg_challenge S ?cx ?c ?cr] =>
    set (CC := c); set (CR := cr); set (e := nonneg_challenge S cx CC CR) end.
  clearbody e. subst CC CR. unfold fo_mul. split; change (fo_exp (fN fb) commitx (- e)) with (zexp (fN fb) commitx (- e)); grp (fN fb).
Qed.

(** For every base and every commitment there is an accepted argument computed
    from public data only; in particular for commitments to negative numbers. *)
Theorem C09_sound_refuted : forall S fb x r commitx rn, fobase_ok fb ->
  commits_int (fN fb) (fG1 fb) (fH1 fb) x r commitx ->
  verify_nonneg S fb commitx (forge_nonneg S fb commitx rn) = true.
Proof.
  intros S fb x r commitx rn B C. apply commits_int_iff in C; [|exact B]. subst commitx.
  apply forge_nonneg_verifies; [exact B|]. now apply fo_commit_unit.
Qed.

(** ** C10 *)
(** One announced value [pub], challenge bit and answer are consistent with
    generator [gn]: H1^ans = pub * gn^bit mod N. *)
Definition gn_right (fb : fobase) (gn : Z) (ans : Z) (bit : bool) (pub : Z) : Prop :=
  is_power (fN fb) (fH1 fb) ans (if bit then (pub * gn) mod fN fb else pub).

(** Block [i] (0..5) of the three vectors is right for generator [fo_gen fb i]. *)
Definition gn_block_right (fb : fobase) (answers : list Z) (bits : list bool) (publics : list Z) (i : nat) : Prop :=
  forall j, (j < 80)%nat ->
    gn_right fb (fo_gen fb i) (nth (i * 80 + j) answers 0) (nth (i * 80 + j) bits false) (nth (i * 80 + j) publics 0).

Lemma gn_check1_iff fb gn ans bit pub : fobase_ok fb ->
  gn_check1 fb gn ans bit pub = true <-> gn_right fb gn ans bit pub.
Proof.
  intros [HN UH]. unfold gn_check1, gn_right, fo_mul, mulm. rewrite fo_exp_zexp, Z.eqb_eq.
  split; intros H.
  - rewrite <- H. now apply zexp_is_power.
  - symmetry. now apply is_power_unique.
Qed.

Lemma nth_block {A} i (l : list A) j d : (j < gn_size)%nat ->
  nth j (block i l) d = nth (i * gn_size + j) l d.
Proof.
  intros H. unfold block. 
  assert (forall (l : list A) n, (j < n)%nat -> nth j (firstn n l) d = nth j l d) as F.
  { clear. intros l. revert j. induction l as [|a l IH]; intros j n Hj; [now rewrite firstn_nil|].
    destruct n; [lia|]. destruct j; cbn; [reflexivity|]. apply IH. lia. }
  rewrite F by assumption. clear F.
  generalize (i * gn_size)%nat as n. intros n. revert l. induction n; intros l; [reflexivity|].
  destruct l; cbn; [now destruct j|]. apply IHn.
Qed.

Lemma block_length {A} i (l : list A) : (i < 6)%nat -> length l = (6 * gn_size)%nat -> length (block i l) = gn_size.
Proof.
  intros Hi L. unfold block. rewrite firstn_length, skipn_length, L. unfold gn_size. lia.
Qed.

Lemma forallb_combine3 (f : Z -> bool -> Z -> bool) : forall (l1 : list Z) (l2 : list bool) (l3 : list Z) n,
  length l1 = n -> length l2 = n -> length l3 = n ->
  forallb (fun abp : Z * (bool * Z) => f (fst abp) (fst (snd abp)) (snd (snd abp))) (combine l1 (combine l2 l3)) = true
  <-> forall j, (j < n)%nat -> f (nth j l1 0) (nth j l2 false) (nth j l3 0) = true.
Proof.
  induction l1 as [|a l1 IH]; intros [|b l2] [|c l3] n L1 L2 L3; cbn in *; try lia.
  - split; [intros; lia|reflexivity].
  - destruct n as [|n]; [lia|]. rewrite andb_true_iff. rewrite (IH l2 l3 n) by lia. split.
    + intros [H0 H] [|j] Hj; [exact H0|]. apply H. lia.
    + intros H. split; [apply (H O); lia|]. intros j Hj. apply (H (S j)). lia.
Qed.

Lemma gn_check_block fb i answers bits publics : fobase_ok fb -> (i < 6)%nat ->
  length answers = (6 * gn_size)%nat -> length bits = (6 * gn_size)%nat -> length publics = (6 * gn_size)%nat ->
  exists ok, gn_check fb (fo_gen fb i) (block i answers) (block i bits) (block i publics) = Some ok
   /\ (ok = true <-> gn_block_right fb answers bits publics i).
Proof.
  intros B Hi L1 L2 L3. unfold gn_check. rewrite !block_length by assumption.
  rewrite Nat.eqb_refl. cbn [andb]. eexists. split; [reflexivity|].
  rewrite (forallb_combine3 (gn_check1 fb (fo_gen fb i)) _ _ _ gn_size) by now apply block_length.
  unfold gn_block_right. change 80%nat with gn_size. split; intros H j Hj; specialize (H j Hj).
  - rewrite !nth_block in H by assumption. now apply gn_check1_iff.
  - rewrite !nth_block by assumption. now apply gn_check1_iff.
Qed.

Ltac gn_case :=
  eexists; split; [reflexivity|]; split; [lia|];
  match goal with |- context [Z.to_nat ?z] => let v := eval vm_compute in (Z.to_nat z) in change (Z.to_nat z) with v end;
  split;
  [split; [intros Q; discriminate Q|intros H; exfalso;
     match goal with R : ~ gn_block_right _ _ _ _ ?i |- _ => apply R, H; lia end]
  |intros _; split; [assumption|intros i Hi; do 5 (destruct i as [|i]; [first [assumption|exfalso; lia]|]); lia]].

(** CheckAllGnHonesty returns 0 exactly when all six blocks are right, and
    otherwise the number of the first wrong one. *)
Theorem C10_check_exact : forall fb answers bits publics, fobase_ok fb ->
  length answers = 480%nat -> length bits = 480%nat -> length publics = 480%nat ->
  exists n, gn_check_all fb answers bits publics = Some n /\ 0 <= n <= 6 /\
   (n = 0 <-> forall i, (i < 6)%nat -> gn_block_right fb answers bits publics i) /\
   (n <> 0 -> ~ gn_block_right fb answers bits publics (Z.to_nat (n - 1)) /\
              forall i, (i < Z.to_nat (n - 1))%nat -> gn_block_right fb answers bits publics i).
Proof.
  intros fb answers bits publics B L1 L2 L3. unfold gn_check_all.
  change 480%nat with (6 * gn_size)%nat in *.
  assert (K := fun i Hi => gn_check_block fb i answers bits publics B Hi L1 L2 L3).
  destruct (K 0%nat ltac:(lia)) as (o0 & E0 & R0). destruct (K 1%nat ltac:(lia)) as (o1 & E1 & R1).
  destruct (K 2%nat ltac:(lia)) as (o2 & E2 & R2). destruct (K 3%nat ltac:(lia)) as (o3 & E3 & R3).
  destruct (K 4%nat ltac:(lia)) as (o4 & E4 & R4). destruct (K 5%nat ltac:(lia)) as (o5 & E5 & R5).
  cbn [fo_gen nth] in *. clear K.
  assert (step : forall (o : bool) P, (o = true <-> P) -> if o then P else ~ P).
  { intros [|] P H; [now apply H|]. intros HP. apply H in HP. discriminate. }
  apply step in R0, R1, R2, R3, R4, R5. clear step.
  rewrite E0. destruct o0; [|gn_case]. rewrite E1. destruct o1; [|gn_case].
  rewrite E2. destruct o2; [|gn_case]. rewrite E3. destruct o3; [|gn_case].
  rewrite E4. destruct o4; [|gn_case]. rewrite E5. destruct o5; [|gn_case].
  exists 0. split; [reflexivity|]. split; [lia|]. split; [|intros NZ; now elim NZ].
  split; [|reflexivity]. intros _ i Hi. do 6 (destruct i as [|i]; [assumption|]). lia.
Qed.

(** Honest answers pass, for every challenge. *)
Theorem C10_honest : forall fb t gammas bits, fobase_ok fb ->
  (forall i, (i < 6)%nat -> is_power (fN fb) (fH1 fb) (fo_alpha t i) (fo_gen fb i)) ->
  length gammas = 480%nat -> length bits = 480%nat ->
  exists answers,
    gn_answer_all t bits (fst (gn_generate_all fb gammas)) = Some answers /\
    gn_check_all fb answers bits (snd (gn_generate_all fb gammas)) = Some 0.
Proof.
  intros fb t gammas bits B HA LG LB. cbn [gn_generate_all fst snd].
  change 480%nat with (6 * gn_size)%nat in *.
  set (ans := fun i => map (fun bs : bool * Z => if fst bs then snd bs + fo_alpha t i else snd bs)
                 (combine (block i bits) (block i gammas))).
  assert (Lans : forall i, (i < 6)%nat -> length (ans i) = gn_size).
  { intros i Hi. unfold ans. rewrite map_length, combine_length, !block_length by assumption. lia. }
  set (answers := ans 0%nat ++ ans 1%nat ++ ans 2%nat ++ ans 3%nat ++ ans 4%nat ++ ans 5%nat).
  assert (E : gn_answer_all t bits gammas = Some answers).
  { unfold gn_answer_all, gn_answer. rewrite !block_length by (assumption || lia).
    rewrite Nat.eqb_refl. reflexivity. }
  assert (LA : length answers = (6 * gn_size)%nat).
  { unfold answers. rewrite !app_length, !Lans by lia. lia. }
  exists answers. split; [exact E|].
  destruct (C10_check_exact fb answers bits (map (fun g => fo_exp (fN fb) (fH1 fb) g) gammas) B)
    as (n & En & _ & Hz & _); try assumption.
  { now rewrite map_length. }
  rewrite En. f_equal. apply Hz. clear n En Hz. intros i Hi j Hj.
  change 80%nat with gn_size in *.
  assert (Na : nth (i * gn_size + j) answers 0 = nth j (ans i) 0).
  { unfold answers. 
    assert (AP : forall (k : nat) (l1 l2 : list Z), length l1 = gn_size -> nth (gn_size + k) (l1 ++ l2) 0 = nth k l2 0).
    { intros k l1 l2 L. rewrite app_nth2 by lia. f_equal. lia. }
    do 5 (destruct i as [|i]; [cbn [Nat.mul Nat.add]; rewrite app_nth1 by (rewrite Lans; lia); reflexivity
      | change (S i * gn_size)%nat with (gn_size + i * gn_size)%nat; rewrite <- Nat.add_assoc;
        rewrite AP by (apply Lans; lia)]).
    destruct i; [reflexivity|lia]. }
  rewrite Na. unfold ans.
  assert (Nc : nth j (map (fun bs : bool * Z => if fst bs then snd bs + fo_alpha t i else snd bs)
                 (combine (block i bits) (block i gammas))) 0 =
    if nth (i * gn_size + j) bits false then nth (i * gn_size + j) gammas 0 + fo_alpha t i else nth (i * gn_size + j) gammas 0).
  { rewrite (nth_indep _ 0 ((fun bs : bool * Z => if fst bs then snd bs + fo_alpha t i else snd bs) (false, 0))).
    2: { rewrite map_length, combine_length, !block_length by assumption. lia. }
    rewrite (map_nth (fun bs : bool * Z => if fst bs then snd bs + fo_alpha t i else snd bs)).
    rewrite combine_nth by (rewrite !block_length; auto). cbn [fst snd].
    now rewrite !nth_block. }
  rewrite Nc. clear Nc Na.
  assert (Np : nth (i * gn_size + j) (map (fun g => fo_exp (fN fb) (fH1 fb) g) gammas) 0 =
     zexp (fN fb) (fH1 fb) (nth (i * gn_size + j) gammas 0)).
  { rewrite (nth_indep _ 0 ((fun g => fo_exp (fN fb) (fH1 fb) g) 0)).
    2: { rewrite map_length. unfold gn_size in *. lia. }
    now rewrite (map_nth (fun g => fo_exp (fN fb) (fH1 fb) g)). }
  rewrite Np. destruct B as [HN UH _ _ _ _ _ _].
  unfold gn_right. destruct (nth (i * gn_size + j) bits false).
  - specialize (HA i Hi). apply is_power_unique in HA; try assumption. rewrite HA.
    fold (mulm (fN fb) (zexp (fN fb) (fH1 fb) (nth (i * gn_size + j) gammas 0)) (zexp (fN fb) (fH1 fb) (fo_alpha t i))).
    rewrite <- zexp_add by assumption. now apply zexp_is_power.
  - now apply zexp_is_power.
Qed.

(** ** C11: two accepted answers for one announced value, one per challenge bit,
    exhibit the generator as a power of H1. *)
Theorem C11_extract : forall fb gn pub ans0 ans1, fobase_ok fb -> 0 <= gn < fN fb ->
  gn_check1 fb gn ans0 false pub = true -> gn_check1 fb gn ans1 true pub = true ->
  is_power (fN fb) (fH1 fb) (ans1 - ans0) gn.
Proof.
  intros fb gn pub a0 a1 B Hg H0 H1. destruct B as [HN UH _ _ _ _ _ _].
  unfold gn_check1, fo_mul in *. rewrite fo_exp_zexp in *. apply Z.eqb_eq in H0, H1. subst pub.
  assert (gn = zexp (fN fb) (fH1 fb) (a1 - a0)) as ->; [|now apply zexp_is_power].
  assert (E : mulm (fN fb) (zexp (fN fb) (fH1 fb) a0) gn =
              mulm (fN fb) (zexp (fN fb) (fH1 fb) a0) (zexp (fN fb) (fH1 fb) (a1 - a0))).
  { rewrite <- H1. rewrite <- zexp_add by assumption. f_equal. lia. }
  apply mulm_cancel_l in E; [|assumption|now apply unit_zexp].
  rewrite Z.mod_small in E by assumption. rewrite E.
  rewrite Z.mod_small; [reflexivity|]. apply zexp_range. lia.
Qed.

(** ** C12 refuted: the secrets are generated once; a client that sends the
    all-zero and the all-one challenge obtains every alpha by subtraction. *)
Theorem C12_trapdoor_leaks_refuted : forall t secrets ans0 ans1,
  length secrets = 480%nat ->
  gn_answer_all t (repeat false 480) secrets = Some ans0 ->
  gn_answer_all t (repeat true 480) secrets = Some ans1 ->
  forall i, (i < 6)%nat -> nth (i * 80) ans1 0 - nth (i * 80) ans0 0 = fo_alpha t i.
Proof.
  intros t secrets ans0 ans1 L H0 H1 i Hi.
  change 480%nat with (6 * gn_size)%nat in L.
  assert (G : forall bit ans, gn_answer_all t (repeat bit 480) secrets = Some ans ->
     nth (i * 80) ans 0 = nth (i * 80) secrets 0 + if bit then fo_alpha t i else 0).
  { clear H0 H1. intros bit ans H.
    unfold gn_answer_all, gn_answer in H.
    assert (LR : length (repeat bit 480) = (6 * gn_size)%nat) by now rewrite repeat_length.
    rewrite !block_length in H by (assumption || lia).
    rewrite Nat.eqb_refl in H. cbn [andb] in H. 
    set (an := fun k al => map (fun bs : bool * Z => if fst bs then snd bs + al else snd bs)
                 (combine (block k (repeat bit 480)) (block k secrets))).
    change (Some (an 0%nat (fA1 t) ++ an 1%nat (fA2 t) ++ an 2%nat (fA3 t) ++ an 3%nat (fA4 t) ++ an 4%nat (fA5 t) ++ an 5%nat (fA6 t)) = Some ans) in H.
    assert (Lan : forall k al, (k < 6)%nat -> length (an k al) = gn_size).
    { intros k al Hk. unfold an. rewrite map_length, combine_length, !block_length by assumption. lia. }
    assert (N0 : forall k al, (k < 6)%nat -> nth 0 (an k al) 0 = nth (k * 80) secrets 0 + if bit then al else 0).
    { intros k al Hk. unfold an.
      rewrite (nth_indep _ 0 ((fun bs : bool * Z => if fst bs then snd bs + al else snd bs) (bit, 0))).
      2: { rewrite map_length, combine_length, !block_length by assumption. unfold gn_size; lia. }
      rewrite (map_nth (fun bs : bool * Z => if fst bs then snd bs + al else snd bs)).
      rewrite combine_nth by (rewrite !block_length; auto). cbn [fst snd].
      rewrite !nth_block by (unfold gn_size; lia). change gn_size with 80%nat.
      rewrite Nat.add_0_r. rewrite nth_repeat. destruct bit; lia. }
    assert (AP : forall (k : nat) (l1 l2 : list Z), length l1 = gn_size -> nth (80 + k) (l1 ++ l2) 0 = nth k l2 0).
    { intros k l1 l2 Lq. change 80%nat with gn_size. rewrite app_nth2 by lia. f_equal. lia. }
    inversion H; subst ans; clear H.
    destruct i as [|i]; [cbn [Nat.mul]; rewrite app_nth1 by (rewrite Lan; unfold gn_size; lia); now rewrite N0 by lia|].
    change (S i * 80)%nat with (80 + i * 80)%nat. rewrite AP by (apply Lan; lia).
    destruct i as [|i]; [cbn [Nat.mul]; rewrite app_nth1 by (rewrite Lan; unfold gn_size; lia); now rewrite N0 by lia|].
    change (S i * 80)%nat with (80 + i * 80)%nat. rewrite AP by (apply Lan; lia).
    destruct i as [|i]; [cbn [Nat.mul]; rewrite app_nth1 by (rewrite Lan; unfold gn_size; lia); now rewrite N0 by lia|].
    change (S i * 80)%nat with (80 + i * 80)%nat. rewrite AP by (apply Lan; lia).
    destruct i as [|i]; [cbn [Nat.mul]; rewrite app_nth1 by (rewrite Lan; unfold gn_size; lia); now rewrite N0 by lia|].
    change (S i * 80)%nat with (80 + i * 80)%nat. rewrite AP by (apply Lan; lia).
    destruct i as [|i]; [cbn [Nat.mul]; rewrite app_nth1 by (rewrite Lan; unfold gn_size; lia); now rewrite N0 by lia|].
    change (S i * 80)%nat with (80 + i * 80)%nat. rewrite AP by (apply Lan; lia).
    destruct i as [|i]; [|lia]. cbn [Nat.mul]. now rewrite N0 by lia. }
  rewrite (G true ans1 H1), (G false ans0 H0). lia.
Qed.

(** ** Non-vacuity: a base over N = 7 * 11 made by the model's own creation. *)
Definition toy_fo := fo_create_base 7 11 [1; 14; 5] (fo_radius 77 + 2) (fo_radius 77 - 3) (fo_radius 77 + 4)
   (fo_radius 77 + 5) (fo_radius 77 - 6) (fo_radius 77 + 7).
Definition toy_fb : fobase := match toy_fo with Some (b, _) => b | None => FoBase 0 0 0 0 0 0 0 0 end.
Definition toy_trap : fotrap := match toy_fo with Some (_, t) => t | None => FoTrap 0 0 0 0 0 0 0 0 end.

Lemma prime_small n : 1 < n -> forallb (fun k => Z.gcd (Z.of_nat k) n =? 1) (seq 1 (Z.to_nat (n - 1))) = true -> prime n.
Proof.
  intros Hn H. constructor; [exact Hn|]. intros k Hk. apply Zgcd_1_rel_prime.
  rewrite forallb_forall in H. specialize (H (Z.to_nat k)).
  rewrite Z2Nat.id in H by lia. apply Z.eqb_eq, H, in_seq. lia.
Qed.

Lemma toy_fo_created : toy_fo = Some (toy_fb, toy_trap).
Proof. reflexivity. Qed.

Lemma toy_fb_ok : fobase_ok toy_fb.
Proof.
  eapply C06_create_base; [| | | |exact toy_fo_created]; try lia; apply prime_small; reflexivity || lia.
Qed.

Example toy_fb_value : (fN toy_fb, fH1 toy_fb, fG1 toy_fb, fG2 toy_fb) = (77, 25, 9, 64).
Proof. reflexivity. Qed.

Example C08_instance : match prove_nonneg toy_suite toy_fb 5 (fo_commit_r toy_fb 5 (-9)) (-9) (NnRand (-3) 4 5 (-6) 7 8 9) with
  | Some arg => verify_nonneg toy_suite toy_fb (fo_commit_r toy_fb 5 (-9)) arg = true
             /\ verify_nonneg toy_suite toy_fb (fo_commit_r toy_fb 6 (-9)) arg = false
  | None => False end.
Proof. vm_compute. split; reflexivity. Qed.

Example C09_instance : verify_nonneg toy_suite toy_fb (fo_commit_r toy_fb (-4) 3)
    (forge_nonneg toy_suite toy_fb (fo_commit_r toy_fb (-4) 3) (NnRand 1 2 3 4 5 6 7)) = true.
Proof. vm_compute. reflexivity. Qed.

Example C10_instance : (forall i, (i < 6)%nat -> is_power (fN toy_fb) (fH1 toy_fb) (fo_alpha toy_trap i) (fo_gen toy_fb i))
  /\ match gn_answer_all toy_trap (repeat true 480) (map Z.of_nat (seq 0 480)) with
     | Some ans => gn_check_all toy_fb (firstn 90 ans ++ [0] ++ skipn 91 ans) (repeat true 480)
                     (snd (gn_generate_all toy_fb (map Z.of_nat (seq 0 480)))) = Some 2
     | None => False end.
Proof.
  split.
  - intros i Hi. do 6 (destruct i as [|i]; [vm_compute; split; [split; congruence|reflexivity]|]). lia.
  - vm_compute. reflexivity.
Qed.

Print Assumptions C06_commit_exact.
Print Assumptions C06_commit_random.
Print Assumptions C06_homomorphic.
Print Assumptions C06_create_base.
Print Assumptions C07_sound.
Print Assumptions C07_complete.
Print Assumptions C07_panics_iff.
Print Assumptions C07_total.
Print Assumptions C07_beyond_int64_refuted.
Print Assumptions C08_complete.
Print Assumptions C08_returned_verifies.
Print Assumptions C09_sound_refuted.
Print Assumptions C10_check_exact.
Print Assumptions C10_honest.
Print Assumptions C11_extract.
Print Assumptions C12_trapdoor_leaks_refuted.
