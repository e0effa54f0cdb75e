(** Soundness of the simple k-shuffle: C73. *)
From Coq Require Import ZArith Znumtheory Lia List Bool Permutation.
From Verif Require Import ZMod Bytes Suite Spec Pedersen SimpleShuffle Roots SimpleSound Prop_Pedersen Prop_Shuffle.
Import ListNotations.
Open Scope Z_scope.

(** [Y] is the list of the powers x^gamma of the elements of [X], in some order, where
    gamma is the exponent of [Gamma] to the base [G]. *)
Definition power_shuffle (p q G Gamma : Z) (X Y : list Z) : Prop :=
  exists gamma, 0 <= gamma < q /\ Gamma = (G ^ gamma) mod p /\
    Permutation Y (map (fun x => (x ^ gamma) mod p) X).

(** The challenges that the verifier derives, after the transcript [tr], from the lists and
    from the prover's second message: simple.go:108-116, 144-150, 204-216. *)
Definition challenge_t (S : suite) (H : oracle) (tr : bytes) (pf : ss_proof) : Z :=
  H (tr ++ enc_pts S (ssX pf) ++ enc_pts S (ssY pf)) 0%nat.
Definition challenge_c (S : suite) (H : oracle) (tr : bytes) (pf : ss_proof) : Z :=
  H ((tr ++ enc_pts S (ssX pf) ++ enc_pts S (ssY pf)) ++ enc_pts S (ssTheta pf)) 0%nat.

(** For lists that are not such a shuffle there are fewer than k values t for which any
    prover whatever has a second message with accepted answers to two different
    challenges c. *)
Theorem C73_not_a_shuffle : forall S, suite_ok S -> prime (sP S) -> prime (sQ S) -> forall G Gamma X Y,
  member (sP S) (sQ S) G -> G <> 1 -> member (sP S) (sQ S) Gamma -> Gamma <> 1 ->
  Forall (member (sP S) (sQ S)) X -> Forall (member (sP S) (sQ S)) Y -> length X = length Y ->
  ~ power_shuffle (sP S) (sQ S) G Gamma X Y ->
  exists bad, (length bad < length Y)%nat /\
  forall H1 H2 tr1 tr2 pf1 pf2,
  ssX pf1 = X -> ssY pf1 = Y -> ssX pf2 = X -> ssY pf2 = Y -> ssTheta pf1 = ssTheta pf2 ->
  ss_verify S H1 G Gamma pf1 tr1 = true -> ss_verify S H2 G Gamma pf2 tr2 = true ->
  challenge_t S H1 tr1 pf1 mod sQ S = challenge_t S H2 tr2 pf2 mod sQ S ->
  In (challenge_t S H1 tr1 pf1 mod sQ S) bad \/
  challenge_c S H1 tr1 pf1 mod sQ S = challenge_c S H2 tr2 pf2 mod sQ S.
Proof.
  intros S OK PP PQ G Gamma X Y HG G1 HGa Ga1 HX HY LL N.
  destruct (ss_sound S OK PP PQ G HG G1 Gamma X Y HGa Ga1 HX HY LL) as [Y1|(bad & LB & B)].
  - contradiction.
  - exists bad. split; [exact LB|]. intros H1 H2 tr1 tr2 pf1 pf2 X1 Y1 X2 Y2 T V1 V2 ET.
    assert (B' := B H1 H2 pf1 pf2 tr1 tr2 X1 Y1 X2 Y2 (eq_sym T) V1 V2). cbv zeta in B'.
    unfold challenge_t, challenge_c in *. rewrite X1, Y1, X2, Y2 in *. rewrite <- T. apply B'. exact ET.
Qed.

(** A prover that answers twice at k different values of t has proved a shuffle. *)
Theorem C73_extract : forall S, suite_ok S -> prime (sP S) -> prime (sQ S) -> forall G Gamma X Y,
  member (sP S) (sQ S) G -> G <> 1 -> member (sP S) (sQ S) Gamma -> Gamma <> 1 ->
  Forall (member (sP S) (sQ S)) X -> Forall (member (sP S) (sQ S)) Y -> length X = length Y ->
  forall ts, NoDup ts -> (length Y <= length ts)%nat ->
  (forall t, In t ts -> exists H1 H2 tr1 tr2 pf1 pf2,
     ssX pf1 = X /\ ssY pf1 = Y /\ ssX pf2 = X /\ ssY pf2 = Y /\ ssTheta pf1 = ssTheta pf2 /\
     ss_verify S H1 G Gamma pf1 tr1 = true /\ ss_verify S H2 G Gamma pf2 tr2 = true /\
     challenge_t S H1 tr1 pf1 mod sQ S = t /\ challenge_t S H2 tr2 pf2 mod sQ S = t /\
     challenge_c S H1 tr1 pf1 mod sQ S <> challenge_c S H2 tr2 pf2 mod sQ S) ->
  power_shuffle (sP S) (sQ S) G Gamma X Y.
Proof.
  intros S OK PP PQ G Gamma X Y HG G1 HGa Ga1 HX HY LL ts ND K A.
  destruct (ss_sound S OK PP PQ G HG G1 Gamma X Y HGa Ga1 HX HY LL) as [Y1|(bad & LB & B)]; [exact Y1|].
  exfalso. assert (I : incl ts bad).
  { intros t Ht. destruct (A t Ht) as (H1 & H2 & tr1 & tr2 & pf1 & pf2 & X1 & Y1 & X2 & Y2 & T & V1 & V2 & T1 & T2 & C).
    assert (B' := B H1 H2 pf1 pf2 tr1 tr2 X1 Y1 X2 Y2 (eq_sym T) V1 V2). cbv zeta in B'.
    unfold challenge_t, challenge_c in *. rewrite X1, Y1, X2, Y2 in *. rewrite <- T in C. rewrite T1, T2 in B'.
    destruct (B' eq_refl) as [I|E]; [exact I|contradiction]. }
  apply NoDup_incl_length in I; [lia|exact ND].
Qed.

(** Conversely such lists are accepted for all challenges that the prover can divide by:
    C34_accepted. *)

(** ** Instances *)
(** An honest prover answers two challenges c at the same t. *)
Example C73_instance : exists pf1 pf2,
  ss_prove toy_suite (fun l _ => if (length l <=? 6)%nat then 3 else 5) 4 5 [1; 2; 7] [5; 2; 10] [3; 1; 4; 1; 5] [] = Some pf1 /\
  ss_prove toy_suite (fun l _ => if (length l <=? 6)%nat then 3 else 8) 4 5 [1; 2; 7] [5; 2; 10] [3; 1; 4; 1; 5] [] = Some pf2 /\
  ssTheta pf1 = ssTheta pf2 /\ ssX pf1 = ssX pf2 /\ ssY pf1 = ssY pf2 /\ ssAlpha pf1 <> ssAlpha pf2 /\
  ss_verify toy_suite (fun l _ => if (length l <=? 6)%nat then 3 else 5) 4 (pt_mul toy_suite 4 5) pf1 [] = true /\
  ss_verify toy_suite (fun l _ => if (length l <=? 6)%nat then 3 else 8) 4 (pt_mul toy_suite 4 5) pf2 [] = true /\
  power_shuffle 23 11 4 (pt_mul toy_suite 4 5) (ssX pf1) (ssY pf1).
Proof.
  do 2 eexists. split; [vm_compute; reflexivity|]. split; [vm_compute; reflexivity|].
  do 3 (split; [vm_compute; reflexivity|]). split; [vm_compute; discriminate|].
  split; [vm_compute; reflexivity|]. split; [vm_compute; reflexivity|].
  exists 5. split; [lia|]. split; [reflexivity|]. cbn [ssX ssY]. vm_compute.
  apply perm_skip. apply perm_swap.
Qed.

(** "Fewer than k" cannot be improved to none: the exponents 3, 4 are no shuffle of 2, 6,
    but the products agree at t = 0, where a prover answers two challenges. *)
Example C73_instance_bad : exists pf1 pf2,
  ss_prove toy_suite (fun l _ => if (length l <=? 4)%nat then 0 else 5) 4 1 [2; 6] [3; 4] [3; 1; 4] [] = Some pf1 /\
  ss_prove toy_suite (fun l _ => if (length l <=? 4)%nat then 0 else 8) 4 1 [2; 6] [3; 4] [3; 1; 4] [] = Some pf2 /\
  ssTheta pf1 = ssTheta pf2 /\ ssX pf1 = ssX pf2 /\ ssY pf1 = ssY pf2 /\
  ss_verify toy_suite (fun l _ => if (length l <=? 4)%nat then 0 else 5) 4 4 pf1 [] = true /\
  ss_verify toy_suite (fun l _ => if (length l <=? 4)%nat then 0 else 8) 4 4 pf2 [] = true /\
  ~ power_shuffle 23 11 4 4 (ssX pf1) (ssY pf1).
Proof.
  do 2 eexists. split; [vm_compute; reflexivity|]. split; [vm_compute; reflexivity|].
  do 3 (split; [vm_compute; reflexivity|]). do 2 (split; [vm_compute; reflexivity|]).
  intros (g & Hg & E & PM). assert (g = 1).
  { assert (D : g = 0 \/ g = 1 \/ g = 2 \/ g = 3 \/ g = 4 \/ g = 5 \/ g = 6 \/ g = 7 \/ g = 8 \/ g = 9 \/ g = 10) by lia.
    repeat destruct D as [->|D]; try reflexivity; try (vm_compute in E; discriminate E). subst; vm_compute in E; discriminate E. }
  subst g. vm_compute in PM. apply (Permutation_in (18)) in PM; [|now left].
  cbn in PM. intuition discriminate.
Qed.

Print Assumptions C73_not_a_shuffle.
Print Assumptions C73_extract.
