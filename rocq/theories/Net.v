(** Events: /repo/proto/Event.go, /repo/proto/EventType.go, util.SendEvent and
    util.DecodeEvent (Util.go:61-79).

    An address is its textual form (net.TCPAddr.String()); resolving it gives it
    back.  Sending always succeeds unless the destination is nil (a failed dial
    panics in the code; unreachable peers are not modelled).  The gob envelope of
    an event is transparent: a handler gets the sent parameters. *)
From Coq Require Import ZArith List.
From Coq Require String.
From Verif Require Import Bytes Codec.
Import ListNotations.
Open Scope Z_scope.

Definition addr := bytes.
Record msg := Msg { mDst : addr; mType : Z; mParams : params; mSrc : addr }.

(** util.SendEvent with a possibly nil destination *)
Definition send (src : addr) (dst : option addr) (ty : Z) (p : params) : option msg :=
  olet d := dst in Some (Msg d ty p src).

(** EventType.go *)
Definition SERVER_REGISTER := 1.
Definition SERVER_REGISTER_REPLY := 2.
Definition UPDATE_NEXT_HOP := 3.
Definition CLIENT_REGISTER_CONTROLLERSIDE := 4.
Definition CLIENT_REGISTER_SERVERSIDE := 5.
Definition CLIENT_REGISTER_CONFIRMATION := 6.
Definition ANNOUNCEMENT := 8.
Definition VOTE := 11.
Definition ROUND_END := 12.
Definition VOTE_REPLY := 13.
Definition BCAST_PEDERSEN_H := 15.
Definition GN_HONESTY_CHALLENGE := 16.
Definition GN_HONESTY_ANSWER := 17.
Definition UPDATE_PEDERSEN_H := 18.
Definition BCAST_PEDERSEN_RDIFF := 19.
Definition INIT_PEDERSEN_R := 20.
Definition POST_BRIDGE := 21.
Definition REQUEST_BRIDGES := 22.
Definition SIGN_ASSIGNMENTS := 23.
Definition GOT_SIGNS := 24.
Definition ANNOUNCEMENT_FINALIZE := 25.
