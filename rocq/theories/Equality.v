(** Equality of a Pedersen and a Fujisaki-Okamoto commitment:
    /repo/primitive/pedersen_fujiokam/equality.go *)
From Coq Require Import ZArith Znumtheory Lia List Bool.
From Verif Require Import ZMod Bytes Suite Pedersen FujiOkam.
Import ListNotations.
Open Scope Z_scope.

(** equality.go:15-20 *)
Record arg_equal := ArgEqual { aqC : Z; aqS1 : Z; aqS2 : Z; aqS3 : Z }.

(** equality.go:54-60 and 102-108: hash(T1 || T2) as an integer (not reduced).
    T1 is marshalled with fixed length, T2 is V.Bytes() (point.go ToBinary). *)
Definition eq_challenge (S : suite) (T1 T2 : Z) : Z :=
  be_to_z (sHash S (enc_point S T1 ++ z_bytes T2)).

(** equality.go:35-80 ProveEqual; [t1], [t2], [t3] are the picked secrets.  The
    parameters PComm and FOComm are not used by the code. *)
Definition prove_equal (S : suite) (pb : pbase) (fb : fobase) (x rP rFO t1 t2 t3 : Z)
  : arg_equal :=
  let T1 := ped_commit_r S pb t1 t2 in
  let T2 := fo_commit_r fb t1 t3 in
  let c := eq_challenge S T1 T2 in
  ArgEqual c (x * c + t1) (rP * c + t2) (rFO * c + t3).

(** equality.go:84-99: the first messages the verifier recomputes. *)
Definition eq_T1 (S : suite) (pb : pbase) (PComm : Z) (a : arg_equal) : Z :=
  let s1 := bigint_to_secret S (aqS1 a) in
  let s2 := bigint_to_secret S (aqS2 a) in
  let c := bigint_to_secret S (aqC a) in
  let negC := sec_neg S c in
  pt_add S (ped_commit_r S pb s1 s2) (pt_mul S PComm negC).
Definition eq_T2 (fb : fobase) (FOComm : Z) (a : arg_equal) : Z :=
  fo_mul (fN fb) (fo_commit_r fb (aqS1 a) (aqS3 a)) (fo_exp (fN fb) FOComm (- aqC a)).

(** equality.go:82-111 VerifyEqual *)
Definition verify_equal (S : suite) (pb : pbase) (fb : fobase) (PComm FOComm : Z) (a : arg_equal)
  : bool :=
  aqC a =? eq_challenge S (eq_T1 S pb PComm a) (eq_T2 fb FOComm a).

Section Lemmas.
Context (S : suite) (OK : suite_ok S).

Lemma prove_equal_T1 pb fb x rP rFO t1 t2 t3 : pbase_ok S pb ->
  eq_T1 S pb (ped_commit_r S pb x rP) (prove_equal S pb fb x rP rFO t1 t2 t3) =
  ped_commit_r S pb t1 t2.
Proof.
  intros [H1 H2]. unfold eq_T1, prove_equal. cbn [aqC aqS1 aqS2].
  set (c := eq_challenge _ _ _). clearbody c. unfold ped_commit_r. grpS S.
Qed.

Lemma prove_equal_T2 pb fb x rP rFO t1 t2 t3 : fobase_ok fb ->
  eq_T2 fb (fo_commit_r fb x rFO) (prove_equal S pb fb x rP rFO t1 t2 t3) =
  fo_commit_r fb t1 t3.
Proof.
  intros [HN U1 U2 U3 U4 U5 U6 U7]. unfold eq_T2, prove_equal. cbn [aqC aqS1 aqS3].
  set (c := eq_challenge _ _ _). clearbody c. rewrite fo_exp_zexp, !fo_commit_zexp.
  unfold fo_mul. grp (fN fb).
Qed.

Lemma prove_equal_complete pb fb x rP rFO t1 t2 t3 : pbase_ok S pb -> fobase_ok fb ->
  verify_equal S pb fb (ped_commit_r S pb x rP) (fo_commit_r fb x rFO)
    (prove_equal S pb fb x rP rFO t1 t2 t3) = true.
Proof.
  intros PB FB. unfold verify_equal. rewrite prove_equal_T1, prove_equal_T2 by assumption.
  apply Z.eqb_refl.
Qed.

End Lemmas.
