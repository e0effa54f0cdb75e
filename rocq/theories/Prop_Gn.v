(** More about the generator proofs: C10 for a single generator, C11 for a coordinator that
    cheats, and the range of the blindings (C06). *)
From Coq Require Import ZArith Znumtheory Lia List Bool.
From Verif Require Import ZMod Bytes Suite Spec FujiOkam ThreeSquares Prop_FujiOkam.
Import ListNotations.
Open Scope Z_scope.

(** The secrets drawn lie between -2^80 N and 2^80 N. *)
Theorem C06_secret_range : forall N u, 0 < N -> 0 <= u < fo_diameter N -> - (2 ^ 80 * N) <= gen_random_secret N u < 2 ^ 80 * N.
Proof. intros N u HN Hu. unfold fo_diameter, gen_random_secret, fo_radius in *. lia. Qed.

(** C10 for one generator: the announced values, the answers and the check fit. *)
Theorem C10_one_generator : forall fb gn alpha gammas bits, fobase_ok fb ->
  is_power (fN fb) (fH1 fb) alpha gn -> length gammas = 80%nat -> length bits = 80%nat ->
  exists publics answers, gn_generate fb gammas = Some publics /\ gn_answer bits gammas alpha = Some answers /\
    gn_check fb gn answers bits publics = Some true.
Proof.
  intros fb gn alpha gammas bits B HA LG LB. destruct B as [HN UH _ _ _ _ _ _].
  unfold gn_generate, gn_answer. change 80%nat with gn_size in *. rewrite LG, LB, Nat.eqb_refl. cbn [andb].
  do 2 eexists. split; [reflexivity|]. split; [reflexivity|]. unfold gn_check.
  rewrite !map_length, combine_length, LG, LB, Nat.min_id, Nat.eqb_refl. cbn [andb]. f_equal.
  apply is_power_unique in HA; try assumption. clear LG LB. revert bits. induction gammas as [|g l IH]; intros [|b bits]; try reflexivity.
  cbn [combine map forallb fst snd]. rewrite IH, andb_true_r. unfold gn_check1. rewrite !fo_exp_zexp. apply Z.eqb_eq.
  destruct b; [|reflexivity]. unfold fo_mul. rewrite HA. now apply zexp_add.
Qed.

Lemma block_full {A} i (l : list A) : length (block i l) = gn_size <-> ((i + 1) * 80 <= length l)%nat.
Proof. unfold block. rewrite firstn_length, skipn_length. unfold gn_size. lia. Qed.

Lemma gn_check_true fb i answers bits publics : fobase_ok fb ->
  gn_check fb (fo_gen fb i) (block i answers) (block i bits) (block i publics) = Some true <->
  ((i + 1) * 80 <= length answers /\ (i + 1) * 80 <= length bits /\ (i + 1) * 80 <= length publics)%nat /\
  gn_block_right fb answers bits publics i.
Proof.
  intros B. rewrite <- !block_full. unfold gn_check.
  destruct (Nat.eqb_spec (length (block i answers)) gn_size) as [L1|N1]; cbn [andb];
    [|split; [discriminate|intros [(L & _) _]; contradiction]].
  destruct (Nat.eqb_spec (length (block i bits)) gn_size) as [L2|N2]; cbn [andb];
    [|split; [discriminate|intros [(_ & L & _) _]; contradiction]].
  destruct (Nat.eqb_spec (length (block i publics)) gn_size) as [L3|N3];
    [|split; [discriminate|intros [(_ & _ & L) _]; contradiction]].
  assert (O : forall b, Some b = Some true <-> b = true) by (intros b; split; congruence).
  rewrite O, (forallb_combine3 (gn_check1 fb (fo_gen fb i)) _ _ _ gn_size L1 L2 L3).
  unfold gn_block_right. change 80%nat with gn_size. split.
  - intros H. split; [repeat split; assumption|]. intros j Hj. specialize (H j Hj). rewrite !nth_block in H by assumption.
    now apply gn_check1_iff.
  - intros [_ H] j Hj. specialize (H j Hj). rewrite !nth_block by assumption. now apply gn_check1_iff.
Qed.

(** Whatever the lengths of the three vectors, the check accepts exactly when each has an entry
    for all 480 repetitions and every repetition is right: too short an answer is never accepted. *)
Theorem C10_accepted_exactly : forall fb answers bits publics, fobase_ok fb ->
  gn_check_all fb answers bits publics = Some 0 <->
  (480 <= length answers /\ 480 <= length bits /\ 480 <= length publics)%nat /\
  forall i, (i < 6)%nat -> gn_block_right fb answers bits publics i.
Proof.
  intros fb answers bits publics B.
  pose proof (fun i => gn_check_true fb i answers bits publics B) as K. unfold gn_check_all.
  assert (Q : forall (o : option bool) (n : Z) (r : option Z), n <> 0 ->
    (match o with None => None | Some false => Some n | Some true => r end = Some 0 <-> o = Some true /\ r = Some 0)).
  { intros [[|]|] n r Hn; split; try discriminate; try tauto; try (intros [X _]; discriminate X); intros X; congruence. }
  rewrite !Q by lia. clear Q.
  change (fG1 fb) with (fo_gen fb 0). change (fG2 fb) with (fo_gen fb 1). change (fG3 fb) with (fo_gen fb 2).
  change (fG4 fb) with (fo_gen fb 3). change (fG5 fb) with (fo_gen fb 4). change (fG6 fb) with (fo_gen fb 5).
  rewrite !K. split.
  - intros (R0 & R1 & R2 & R3 & R4 & R5 & _). split; [lia|].
    intros i Hi. do 6 (destruct i as [|i]; [tauto|]). lia.
  - intros [L R]. repeat split; try lia; apply R; lia.
Qed.

(** The generator is a power of H1. *)
Definition generated (fb : fobase) (gn : Z) : Prop := exists e, is_power (fN fb) (fH1 fb) e gn.

(** C11 against a coordinator that cheats: if some generator is no power of H1, then after the
    announcement there is only one way to choose its 80 challenge bits that can be answered. *)
Theorem C11_one_challenge : forall fb i publics bits bits' answers answers', fobase_ok fb -> (i < 6)%nat ->
  0 <= fo_gen fb i < fN fb -> ~ generated fb (fo_gen fb i) ->
  length publics = 480%nat -> length bits = 480%nat -> length bits' = 480%nat -> length answers = 480%nat -> length answers' = 480%nat ->
  gn_check_all fb answers bits publics = Some 0 -> gn_check_all fb answers' bits' publics = Some 0 ->
  forall j, (j < 80)%nat -> nth (i * 80 + j) bits false = nth (i * 80 + j) bits' false.
Proof.
  intros fb i publics bits bits' answers answers' B Hi R NG LP LB LB' LA LA' C C' j Hj.
  destruct (C10_check_exact fb answers bits publics B LA LB LP) as (n & E & _ & Z0 & _). rewrite C in E. injection E as <-.
  destruct (C10_check_exact fb answers' bits' publics B LA' LB' LP) as (n & E & _ & Z0' & _). rewrite C' in E. injection E as <-.
  pose proof (proj1 Z0 eq_refl i Hi j Hj) as K. pose proof (proj1 Z0' eq_refl i Hi j Hj) as K'.
  apply gn_check1_iff in K, K'; try assumption.
  destruct (nth (i * 80 + j) bits false), (nth (i * 80 + j) bits' false); try reflexivity; exfalso; apply NG.
  - eexists. exact (C11_extract fb _ _ _ _ B R K' K).
  - eexists. exact (C11_extract fb _ _ _ _ B R K K').
Qed.

(** The bound is sharp: whoever guesses the bits before announcing passes, whatever the
    generators are. *)
Theorem C11_guessed_challenge : forall fb bits answers, fobase_ok fb ->
  length bits = 480%nat -> length answers = 480%nat ->
  exists publics, length publics = 480%nat /\ gn_check_all fb answers bits publics = Some 0.
Proof.
  intros fb bits answers B LB LA.
  set (gen := fun k => fo_gen fb (k / 80)).
  set (pub := fun k => if nth k bits false then mulm (fN fb) (zexp (fN fb) (fH1 fb) (nth k answers 0)) (zexp (fN fb) (gen k) (-1))
                       else zexp (fN fb) (fH1 fb) (nth k answers 0)).
  exists (map pub (seq 0 480)). assert (LP : length (map pub (seq 0 480)) = 480%nat) by (now rewrite map_length, seq_length).
  split; [assumption|].
  destruct (C10_check_exact fb answers bits _ B LA LB LP) as (n & -> & _ & Z0 & _). f_equal. apply Z0. clear n Z0.
  intros i Hi j Hj.
  assert (NP : nth (i * 80 + j) (map pub (seq 0 480)) 0 = pub (i * 80 + j)%nat).
  { rewrite (nth_indep _ 0 (pub 0%nat)) by (rewrite LP; lia). rewrite map_nth. f_equal. rewrite seq_nth by lia. lia. }
  rewrite NP. unfold gn_right, pub.
  assert (GE : gen (i * 80 + j)%nat = fo_gen fb i).
  { unfold gen. f_equal. rewrite Nat.div_add_l by lia. rewrite Nat.div_small by lia. lia. }
  assert (UG : unit (fo_gen fb i) (fN fb)).
  { destruct B. do 6 (destruct i as [|i]; [assumption|]). lia. }
  destruct B as [HN UH _ _ _ _ _ _]. rewrite GE.
  destruct (nth (i * 80 + j) bits false); [|now apply zexp_is_power].
  fold (mulm (fN fb) (mulm (fN fb) (zexp (fN fb) (fH1 fb) (nth (i * 80 + j) answers 0)) (zexp (fN fb) (fo_gen fb i) (-1))) (fo_gen fb i)).
  rewrite <- mulm_assoc by lia.
  assert (X : mulm (fN fb) (zexp (fN fb) (fo_gen fb i) (-1)) (fo_gen fb i) = 1).
  { pose proof (zexp_opp (fN fb) (fo_gen fb i) 1 HN UG) as O. rewrite (zexp_pos _ _ 1) in O by lia. rewrite Z.pow_1_r in O.
    unfold mulm in *. rewrite Z.mul_mod_idemp_l in O by lia. rewrite Z.mul_comm. exact O. }
  rewrite X. unfold mulm. rewrite Z.mul_1_r. rewrite Z.mod_small by (apply zexp_range; lia). now apply zexp_is_power.
Qed.

(** ** Instances *)
(** 2 is no power of 4 modulo 15; a coordinator that announces it as G1 passes exactly with the
    challenge it has guessed. *)
Definition bad_fb : fobase := FoBase 15 4 2 4 4 4 4 4.
Lemma bad_fb_ok : fobase_ok bad_fb.
Proof.
  split; cbn [bad_fb fN fH1 fG1 fG2 fG3 fG4 fG5 fG6]; try lia; unfold unit; apply Zgcd_1_rel_prime; reflexivity.
Qed.
Lemma bad_not_generated : ~ generated bad_fb (fo_gen bad_fb 0).
Proof.
  intros (e & P). cbn [fo_gen nth bad_fb fG1 fN fH1] in P.
  assert (E : forall k, 0 <= k -> (4 ^ k) mod 15 = 1 \/ (4 ^ k) mod 15 = 4).
  { apply natlike_ind; [now left|]. intros x Hx IH. rewrite Z.pow_succ_r by assumption. rewrite <- Zmult_mod_idemp_r.
    destruct IH as [-> | ->]; [now right|now left]. }
  destruct P as [_ P]. rewrite <- Zmult_mod_idemp_r in P. unfold zneg, zpos in P. replace (Z.max (- e) 0) with (Z.max 0 (- e)) in P by lia. replace (Z.max e 0) with (Z.max 0 e) in P by lia.
  destruct (E (Z.max 0 (- e)) ltac:(lia)) as [X|X]; destruct (E (Z.max 0 e) ltac:(lia)) as [Y|Y]; rewrite X, Y in P; discriminate P.
Qed.
Example C11_instance : exists publics bits answers, 0 <= fo_gen bad_fb 0 < fN bad_fb /\ ~ generated bad_fb (fo_gen bad_fb 0) /\
  length publics = 480%nat /\ length bits = 480%nat /\ length answers = 480%nat /\ In true bits /\ In false bits /\
  gn_check_all bad_fb answers bits publics = Some 0.
Proof.
  destruct (C11_guessed_challenge bad_fb (true :: repeat false 479) (repeat 3 480) bad_fb_ok) as (publics & LP & C); [reflexivity|reflexivity|].
  exists publics, (true :: repeat false 479), (repeat 3 480). split; [cbn; lia|]. split; [exact bad_not_generated|]. split; [assumption|].
  split; [reflexivity|]. split; [reflexivity|]. split; [now left|]. split; [right; now left|]. exact C.
Qed.
Example C10_one_instance : exists publics answers, gn_generate toy_fb (repeat 7 80) = Some publics /\
  gn_answer (false :: repeat true 79) (repeat 7 80) (fA1 toy_trap) = Some answers /\
  gn_check toy_fb (fG1 toy_fb) answers (false :: repeat true 79) publics = Some true.
Proof. vm_compute. eauto. Qed.

Print Assumptions C06_secret_range.
Print Assumptions C10_one_generator.
Print Assumptions C11_one_challenge.
Print Assumptions C11_guessed_challenge.
Print Assumptions C10_accepted_exactly.

(** One answer short is a refusal even where all that is there is right. *)
Example C10_short_instance :
  match gn_answer_all toy_trap (repeat true 480) (fst (gn_generate_all toy_fb (repeat 7 480))) with
  | Some answers => gn_check_all toy_fb answers (repeat true 480) (snd (gn_generate_all toy_fb (repeat 7 480))) = Some 0 /\
      gn_check_all toy_fb (firstn 479 answers) (repeat true 480) (snd (gn_generate_all toy_fb (repeat 7 480))) <> Some 0
  | None => False
  end.
Proof. vm_compute. split; [reflexivity|discriminate]. Qed.
