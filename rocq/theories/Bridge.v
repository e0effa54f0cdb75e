(** Bridge requests: /repo/cmd/bridge/bridge.go. *)
From Coq Require Import ZArith Znumtheory Lia List Bool.
From Coq Require Import Strings.Byte.
From Coq Require String.
From Verif Require Import ZMod Bytes Suite Pedersen FujiOkam Equality Codec.
Import ListNotations.
Import String.StringSyntax.
Open Scope Z_scope.
Delimit Scope string_scope with str.

(** bridge.go:19 *)
Definition starting_credit : Z := 5.

(** bridge.go:32-84 VerifyInd.  None = panic: missing or mistyped parameter,
    invalid point or secret, undecodable argument, nil [PCommr]. *)
Definition verify_ind (S : suite) (G : gob) (pb : pbase) (fb : fobase)
    (p : params) (PCommr : option Z) : option bool :=
  olet ind := get_int p "ind"%str in
  olet bNym := get_bytes p "nym"%str in
  olet _ := dec_point S bNym in
  olet bInd := get_bytes p "PCommind"%str in
  olet PCommind := dec_point S bInd in
  olet bD := get_bytes p "PCommd"%str in
  olet PCommd := dec_point S bD in
  let xind := sec_of_int S ind in
  olet bR := get_bytes p "rind"%str in
  olet rind := dec_secret S bR in
  if negb (ped_commit_r S pb xind rind =? PCommind) then Some false else
  olet cr := PCommr in
  olet myPCommd := ped_sub S cr PCommind in
  if negb (PCommd =? myPCommd) then Some false else
  olet bFO := get_bytes p "FOCommd"%str in
  let FOCommd := be_to_z bFO in
  olet bNN := get_bytes p "arg_nonneg"%str in
  olet argNN := gdec_nonneg G bNN in
  if negb (verify_nonneg S fb FOCommd argNN) then Some false else
  olet bEQ := get_bytes p "arg_equal"%str in
  olet argEQ := gdec_equal G bEQ in
  Some (verify_equal S pb fb PCommd FOCommd argEQ).

(** bridge.go:90-102 MessageOfRequestBridges *)
Definition msg_request (p : params) : option bytes :=
  olet ind := get_int p "ind"%str in
  olet nym := get_bytes p "nym"%str in
  olet fo := get_bytes p "FOCommd"%str in
  olet pd := get_bytes p "PCommd"%str in
  olet pi := get_bytes p "PCommind"%str in
  olet ri := get_bytes p "rind"%str in
  olet nn := get_bytes p "arg_nonneg"%str in
  olet eq := get_bytes p "arg_equal"%str in
  Some (int_to_byte ind ++ nym ++ fo ++ pd ++ pi ++ ri ++ nn ++ eq).

(** bridge.go:104-109 MessageOfPostBridge *)
Definition msg_post (p : params) : option bytes :=
  olet a := get_str p "bridge_addr"%str in
  olet nym := get_bytes p "nym"%str in Some (a ++ nym).

(** bridge.go:111-115 MessageOfGotSignatures *)
Definition msg_got (p : params) : option bytes :=
  olet a := get_bytes p "assignment"%str in
  olet s := get_bytes p "signatures"%str in Some (a ++ s).

(** bridge.go:117-125 MessageOfVote: the feedback is written with big.Int.Bytes,
    which drops the sign. *)
Definition msg_vote (p : params) : option bytes :=
  olet nym := get_bytes p "nym"%str in
  olet a := get_bytes p "assignment"%str in
  olet s := get_bytes p "signatures"%str in
  olet f := get_int p "feedback"%str in
  Some (nym ++ a ++ s ++ z_bytes f).
