(** C83: what the arguments in a request tell about the openings behind them. *)
From Coq Require Import ZArith Znumtheory Lia List Bool.
From Coq Require Import Strings.Byte.
From Coq Require String.
From Verif Require Import ZMod Bytes Suite Pedersen ElGamal FujiOkam Equality Codec Maps Net Bridge Client
  Prop_Codec Prop_Pedersen Prop_ElGamal Prop_FujiOkam Prop_Bridge.
Import ListNotations.
Import String.StringSyntax.
Open Scope Z_scope.
Delimit Scope string_scope with str.

(** The draws of requestBridges are in the ranges the code draws them from. *)
Definition picks_ok (S : suite) (rn : req_rand) : Prop :=
  0 <= rqT1 rn < sQ S /\ 0 <= rqT2 rn < sQ S /\ 0 <= rqT3 rn < sQ S.

(** What an observer reads off an equality argument: an interval for the blinding of the
    Pedersen commitment to the difference, one for the blinding of the Fujisaki-Okamoto
    commitment to it, and the length of both. *)
Definition interval (S : suite) (c s : Z) : Z * Z := ((s - sQ S) / c + 1, s / c).
Definition leak (S : suite) (G : gob) (p : params) : option ((Z * Z) * (Z * Z)) :=
  olet b := get_bytes p "arg_equal"%str in
  olet a := gdec_equal G b in
  if aqC a <=? 0 then None else Some (interval S (aqC a) (aqS2 a), interval S (aqC a) (aqS3 a)).
(** The challenge in a message. *)
Definition challenge_of (G : gob) (p : params) : Z :=
  match get_bytes p "arg_equal"%str with
  | Some b => match gdec_equal G b with Some a => aqC a | None => 0 end
  | None => 0
  end.

Lemma interval_holds S c r t : 0 < c -> 0 <= t < sQ S ->
  fst (interval S c (r * c + t)) <= r <= snd (interval S c (r * c + t)).
Proof.
  intros Hc Ht. unfold interval. cbn [fst snd]. split.
  - enough ((r * c + t - sQ S) / c < r) by lia. apply Z.div_lt_upper_bound; [assumption|]. nia.
  - apply Z.div_le_lower_bound; [assumption|]. nia.
Qed.
Lemma interval_length S c s : 0 < c -> 0 < sQ S -> snd (interval S c s) - fst (interval S c s) <= sQ S / c.
Proof.
  intros Hc HQ. unfold interval. cbn [fst snd].
  pose proof (Z.div_mod s c). pose proof (Z.div_mod (s - sQ S) c). pose proof (Z.div_mod (sQ S) c).
  pose proof (Z.mod_pos_bound s c Hc). pose proof (Z.mod_pos_bound (s - sQ S) c Hc). pose proof (Z.mod_pos_bound (sQ S) c Hc).
  nia.
Qed.

(** What a request consists of. *)
Lemma request_shape S G c ind rn m : gob_ok G -> cl_request S G c ind rn = Some (Some m) ->
  exists R fb, cl_R c = Some R /\ cl_fb c = Some fb /\
    get_bytes (mParams m) "arg_equal"%str = Some (genc_equal G
      (prove_equal S (cl_pb c) fb (sec_of_int S (int64 (cl_rep c - ind))) (sec_sub S R (rqInd rn))
         (gen_random_secret (fN fb) (rqFO rn)) (rqT1 rn) (rqT2 rn) (rqT3 rn))) /\
    get_bytes (mParams m) "FOCommd"%str =
      Some (z_bytes (fo_commit_r fb (int64 (cl_rep c - ind)) (gen_random_secret (fN fb) (rqFO rn)))) /\
    get_bytes (mParams m) "rind"%str = Some (enc_secret S (rqInd rn)) /\
    get_int (mParams m) "ind"%str = Some ind.
Proof.
  intros GOK E. unfold cl_request in E. cbv zeta in E. destruct (cl_rep c <? ind); [discriminate|].
  destruct (cl_PCommr c) as [PCr|]; [|discriminate]. unfold ped_commit in E.
  destruct (ped_sub S PCr _) as [PCd|]; [|discriminate].
  destruct (cl_fb c) as [fb|]; [|discriminate]. unfold fo_commit in E. cbv zeta in E.
  destruct (prove_nonneg S fb _ _ _ _) as [nn|]; [|discriminate]. destruct (cl_R c) as [R|]; [|discriminate].
  match type of E with context [msg_request ?x] => destruct (msg_request x); [|discriminate] end. injection E as <-.
  exists R, fb. repeat split; reflexivity.
Qed.

(** C83, what a request tells: for every client and every request it can send, everybody who
    sees the message has an interval of length Q/c that contains the blinding of the client's
    commitment less the one that is sent along in clear, and an interval of that length that
    contains the blinding of the Fujisaki-Okamoto commitment. *)
Theorem C83_request_reveals_blindings : forall S G, suite_ok S -> gob_ok G -> forall c ind rn m,
  picks_ok S rn -> cl_request S G c ind rn = Some (Some m) -> 0 < challenge_of G (mParams m) ->
  exists R fb lo hi lo' hi', cl_R c = Some R /\ cl_fb c = Some fb /\
    leak S G (mParams m) = Some ((lo, hi), (lo', hi')) /\
    lo <= (R - rqInd rn) mod sQ S <= hi /\ hi - lo <= sQ S / challenge_of G (mParams m) /\
    lo' <= gen_random_secret (fN fb) (rqFO rn) <= hi' /\ hi' - lo' <= sQ S / challenge_of G (mParams m).
Proof.
  intros S G OK GOK c ind rn m (T1 & T2 & T3) E Hc. pose proof (sQ_gt1 S OK) as HQ.
  destruct (request_shape S G c ind rn m GOK E) as (R & fb & ER & EF & EA & _).
  unfold challenge_of in *. rewrite EA, (g_equal G GOK) in *.
  set (a := prove_equal S _ _ _ _ _ _ _ _) in *.
  exists R, fb, (fst (interval S (aqC a) (aqS2 a))), (snd (interval S (aqC a) (aqS2 a))),
    (fst (interval S (aqC a) (aqS3 a))), (snd (interval S (aqC a) (aqS3 a))).
  split; [assumption|]. split; [assumption|]. split.
  { unfold leak. rewrite EA, (g_equal G GOK). destruct (Z.leb_spec (aqC a) 0); [lia|]. now rewrite <- !surjective_pairing. }
  split; [|split; [|split]].
  - apply (interval_holds S (aqC a) (sec_sub S R (rqInd rn)) (rqT2 rn)); assumption.
  - apply interval_length; lia.
  - apply (interval_holds S (aqC a) (gen_random_secret (fN fb) (rqFO rn)) (rqT3 rn)); assumption.
  - apply interval_length; lia.
Qed.

(** With the sizes of the program (a group order of at most 512 bits and a 256-bit challenge
    whose first bit is set) at most 2^257 blindings remain, of 2^511 and of more than 2^1100. *)
Theorem C83_half_the_bits : forall S G, suite_ok S -> gob_ok G -> forall c ind rn m,
  picks_ok S rn -> cl_request S G c ind rn = Some (Some m) ->
  sQ S < 2 ^ 512 -> 2 ^ 255 <= challenge_of G (mParams m) ->
  exists R fb lo hi lo' hi', cl_R c = Some R /\ cl_fb c = Some fb /\
    leak S G (mParams m) = Some ((lo, hi), (lo', hi')) /\
    lo <= (R - rqInd rn) mod sQ S <= hi /\ hi - lo <= 2 ^ 257 /\
    lo' <= gen_random_secret (fN fb) (rqFO rn) <= hi' /\ hi' - lo' <= 2 ^ 257.
Proof.
  intros S G OK GOK c ind rn m PO E HQ Hc. pose proof (sQ_gt1 S OK) as HQ1.
  assert (P255 : 0 < 2 ^ 255) by reflexivity.
  destruct (C83_request_reveals_blindings S G OK GOK c ind rn m PO E) as (R & fb & lo & hi & lo' & hi' & E1 & E2 & E3 & E4 & E5 & E6 & E7); [lia|].
  assert (B : sQ S / challenge_of G (mParams m) <= 2 ^ 257).
  { transitivity (2 ^ 512 / 2 ^ 255); [|reflexivity]. transitivity (sQ S / 2 ^ 255).
    - apply Z.div_le_compat_l; lia.
    - apply Z.div_le_mono; lia. }
  exists R, fb, lo, hi, lo', hi'. repeat (split; [assumption || lia|]). lia.
Qed.

(** The reputation itself: every other difference that is consistent with the message
    (it opens the commitment with a blinding in the interval) is a relation between the two
    generators with an exponent that is shorter by the length of the challenge. *)
Theorem C83_other_values_need_short_relations : forall S G, suite_ok S -> gob_ok G -> forall c ind rn m,
  picks_ok S rn -> cl_request S G c ind rn = Some (Some m) -> 0 < challenge_of G (mParams m) ->
  forall fb, cl_fb c = Some fb -> fobase_ok fb ->
  forall lo hi lo' hi' d r, leak S G (mParams m) = Some ((lo, hi), (lo', hi')) -> lo' <= r <= hi' ->
  get_bytes (mParams m) "FOCommd"%str = Some (z_bytes (fo_commit_r fb d r)) ->
  exists k, - (sQ S / challenge_of G (mParams m)) <= k <= sQ S / challenge_of G (mParams m) /\
    fo_exp (fN fb) (fG1 fb) (d - int64 (cl_rep c - ind)) = fo_exp (fN fb) (fH1 fb) k.
Proof.
  intros S G OK GOK c ind rn m PO E Hc fb EF FB lo hi lo' hi' d r EL HR ED.
  destruct (C83_request_reveals_blindings S G OK GOK c ind rn m PO E Hc) as (R & fb2 & a1 & a2 & b1 & b2 & _ & EF2 & EL2 & _ & _ & E6 & E7).
  rewrite EF in EF2. injection EF2 as <-. rewrite EL in EL2. injection EL2 as <- <- <- <-.
  destruct (request_shape S G c ind rn m GOK E) as (R2 & fb3 & _ & EF3 & _ & EB & _). rewrite EF in EF3. injection EF3 as <-.
  set (r0 := gen_random_secret (fN fb) (rqFO rn)) in *. set (d0 := int64 (cl_rep c - ind)) in *.
  exists (r0 - r). split; [lia|]. rewrite EB in ED. injection ED as ED.
  pose proof FB as [HN UH UG _ _ _ _ _].
  assert (EC : fo_commit_r fb d0 r0 = fo_commit_r fb d r).
  { apply z_bytes_inj in ED. unfold fo_commit_r, fo_mul in *. cbv zeta in *. rewrite !Z.abs_eq in ED by (apply Z.mod_pos_bound; lia). exact ED. }
  clear - EC UH UG HN. unfold fo_commit_r, fo_mul in EC. cbv zeta in EC. change fo_exp with zexp in *.
  set (N := fN fb) in *. set (g := fG1 fb) in *. set (h := fH1 fb) in *.
  replace d with (d0 + (d - d0)) in EC by lia. replace r0 with (r + (r0 - r)) in EC by lia.
  rewrite (zexp_add N g), (zexp_add N h) in EC by assumption. unfold mulm in EC.
  rewrite Z.mul_mod_idemp_l, Z.mul_mod_idemp_r in EC by lia.
  assert (X : mulm N (zexp N g d0 * zexp N h r) (zexp N g (d - d0)) = mulm N (zexp N g d0 * zexp N h r) (zexp N h (r0 - r))).
  { unfold mulm. transitivity ((zexp N g d0 * zexp N g (d - d0) * zexp N h r) mod N); [f_equal; ring|]. rewrite <- EC. f_equal. ring. }
  apply mulm_cancel_l in X; [|lia|apply unit_mul; now apply unit_zexp].
  rewrite !Z.mod_small in X by (apply zexp_range; lia). exact X.
Qed.

(** The property: nothing in a request narrows down the blinding of the client's commitment. *)
Definition blindings_hidden (S : suite) (G : gob) : Prop := ~ exists f : params -> option (Z * Z),
  forall c ind rn m R, picks_ok S rn -> cl_request S G c ind rn = Some (Some m) -> 0 < challenge_of G (mParams m) ->
    cl_R c = Some R -> exists lo hi, f (mParams m) = Some (lo, hi) /\
      lo <= (R - rqInd rn) mod sQ S <= hi /\ hi - lo <= sQ S / challenge_of G (mParams m).
Theorem C83_blindings_hidden_refuted : forall S G, suite_ok S -> gob_ok G -> ~ blindings_hidden S G.
Proof.
  intros S G OK GOK HH. apply HH. exists (fun p => option_map fst (leak S G p)). intros c ind rn m R PO E Hc ER.
  destruct (C83_request_reveals_blindings S G OK GOK c ind rn m PO E Hc) as (R2 & fb & lo & hi & lo' & hi' & E1 & _ & E3 & E4 & E5 & _).
  rewrite ER in E1. injection E1 as <-. exists lo, hi. rewrite E3. auto.
Qed.

(** *** What stays hidden
    The response for the value itself: for two values whose difference times the challenge is
    [k], all draws but [k] of the Q give a response that the other value gives too. *)
Theorem C83_value_masked_partial : forall S x x' c t, 0 <= t < sQ S ->
  0 <= t + (x - x') * c < sQ S ->
  exists t', 0 <= t' < sQ S /\ x' * c + t' = x * c + t.
Proof. intros S x x' c t Ht Hk. exists (t + (x - x') * c). split; [assumption|]. ring. Qed.
Theorem C83_few_draws_tell_partial : forall S x x' c t, 0 <= t < sQ S ->
  (forall t', 0 <= t' < sQ S -> x' * c + t' <> x * c + t) ->
  0 <= t < Z.abs ((x - x') * c) \/ sQ S - Z.abs ((x - x') * c) <= t < sQ S.
Proof.
  intros S x x' c t Ht NE. destruct (Z_lt_le_dec (t + (x - x') * c) 0) as [L|L]; [left; lia|].
  destruct (Z_lt_le_dec (t + (x - x') * c) (sQ S)) as [L2|L2]; [|right; lia].
  exfalso. apply (NE (t + (x - x') * c)); [lia|ring].
Qed.

(** ** An instance *)
Example C83_instance : exists m, cl_request toy_suite toy_gob toy_client 2 toy_rn = Some (Some m) /\ picks_ok toy_suite toy_rn /\
  0 < challenge_of toy_gob (mParams m) /\ fobase_ok toy_fb /\ cl_fb toy_client = Some toy_fb /\ cl_R toy_client = Some 6.
Proof.
  destruct (cl_request toy_suite toy_gob toy_client 2 toy_rn) as [[m|]|] eqn:E; [|vm_compute in E; discriminate E|vm_compute in E; discriminate E].
  exists m. split; [reflexivity|]. split; [unfold picks_ok; cbn; lia|]. split.
  - vm_compute in E. injection E as <-. vm_compute. reflexivity.
  - split; [exact toy_fb_ok|]. split; reflexivity.
Qed.

Print Assumptions C83_request_reveals_blindings.
Print Assumptions C83_half_the_bits.
Print Assumptions C83_other_values_need_short_relations.
Print Assumptions C83_blindings_hidden_refuted.
Print Assumptions C83_value_masked_partial.
Print Assumptions C83_few_draws_tell_partial.
