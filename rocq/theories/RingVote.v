(** The ring-signed vote of /repo/cmd/client/ClientLauncher.go, which nothing calls. *)
From Coq Require Import ZArith Lia List Bool.
From Coq Require Import Strings.Byte.
From Coq Require String.
From Verif Require Import ZMod Bytes Suite Pedersen ElGamal FujiOkam Equality Codec Bridge Net Lrs Client.
Import ListNotations.
Import String.StringSyntax.
Open Scope Z_scope.
Delimit Scope string_scope with str.

(** strconv.Itoa (ClientLauncher.go:243-244): the decimal digits of n >= 0, least
    significant last; [fuel] is one more than its number of bits. *)
Fixpoint digits (fuel : nat) (n : Z) : bytes :=
  match fuel with
  | O => []
  | Datatypes.S f => (if n <? 10 then [] else digits f (n / 10)) ++ [z_byte (48 + n mod 10)]
  end.
Definition itoa (n : Z) : bytes :=
  let ds := digits (Datatypes.S (Z.to_nat (Z.log2 (Z.abs n)))) (Z.abs n) in
  if n <? 0 then x2d%byte :: ds else ds.

(** ClientLauncher.go:236-263 sendVote2.  [enc] is lrs.ProtobufEncodeSignature
    (Encoding.go:9-17, gob); [rs], [rc] and [r] are what Sign draws.  A nil G makes
    PointToBigInt panic. *)
Definition cl_vote2 (S : suite) (enc : lsig -> bytes) (c : client) (msgID vote : Z)
    (rs rc : nat -> Z) (r : Z) : option msg :=
  let vote := if 0 <? vote then 1 else -1 in
  let text := itoa msgID ++ [x3b]%byte ++ itoa vote in
  olet g := cl_G c in
  olet sig := (if cl_index c <? 0 then None
               else lrs_Sign S (point_to_bigint S g) (int_to_byte msgID) (length (cl_keys c))
                      (Z.to_nat (cl_index c)) (cl_priv c) (cl_keys c) rs rc r) in
  Some (Msg (cl_coord c) Net.VOTE
          [("text"%str, VStr text); ("nym"%str, VBytes (enc_point S (cl_nym c)));
           ("signature"%str, VBytes (enc sig))] (cl_addr c)).
