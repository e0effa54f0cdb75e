(** Starting the program, the client's console and the server's port: /repo/cmd/main.go,
    /repo/cmd/client/ClientLauncher.go:294-348, /repo/cmd/server/ServerLauncher.go:90-103. *)
From Coq Require Import ZArith Lia List Bool.
From Coq Require Import Strings.Byte.
From Verif Require Import Bytes Suite Codec Maps Net Config Client System.
Import ListNotations.
Open Scope Z_scope.

Fixpoint bytes_eqb (a b : bytes) : bool :=
  match a, b with
  | [], [] => true
  | x :: a', y :: b' => Byte.eqb x y && bytes_eqb a' b'
  | _, _ => false
  end.

(** ** main *)
Inductive role := RCoordinator | RServer | RClient.
Definition w_0 : bytes := [x30]%byte.
Definition w_1 : bytes := [x31]%byte.
Definition w_2 : bytes := [x32]%byte.
Definition w_coordinator : bytes := [x63; x6f; x6f; x72; x64; x69; x6e; x61; x74; x6f; x72]%byte.
Definition w_server : bytes := [x73; x65; x72; x76; x65; x72]%byte.
Definition w_client : bytes := [x63; x6c; x69; x65; x6e; x74]%byte.
(** main.go:11-28; [args] are the arguments after the program's name, None = nothing is
    started.  A Go switch does not fall through: the case of "0" is empty. *)
Definition main_role (args : list bytes) : option role :=
  match args with
  | [a] => if bytes_eqb a w_0 then None
           else if bytes_eqb a w_coordinator then Some RCoordinator
           else if bytes_eqb a w_1 then None
           else if bytes_eqb a w_server then Some RServer
           else if bytes_eqb a w_2 then None
           else if bytes_eqb a w_client then Some RClient
           else Some RCoordinator
  | _ => None
  end.

(** ** strconv.Atoi (external) *)
Definition digit (b : byte) : option Z :=
  let n := Z.of_N (Byte.to_N b) in if (48 <=? n) && (n <=? 57) then Some (n - 48) else None.
Definition max_uint : Z := 2 ^ 64 - 1.
(** The loop of strconv.ParseUint in base 10: None = syntax error; the largest value is
    given (with an error) as soon as the number exceeds it. *)
Fixpoint parse_uint (acc : Z) (l : bytes) : option Z :=
  match l with
  | [] => Some acc
  | b :: r =>
      match digit b with
      | None => None
      | Some d =>
          if max_uint / 10 + 1 <=? acc then Some max_uint
          else if max_uint <? acc * 10 + d then Some max_uint
          else parse_uint (acc * 10 + d) r
      end
  end.
Definition unsigned (neg : bool) (l : bytes) : Z * bool :=
  match l with
  | [] => (0, false)
  | _ => match parse_uint 0 l with
         | None => (0, false)
         | Some u =>
             if neg then (if 2 ^ 63 <? u then (- 2 ^ 63, false) else (- u, true))
             else (if 2 ^ 63 <=? u then (2 ^ 63 - 1, false) else (u, true))
         end
  end.
(** strconv.ParseInt with base 10 and 64 bits, which Atoi is: the value and whether there
    was no error. *)
Definition atoi (l : bytes) : Z * bool :=
  match l with
  | [] => (0, false)
  | b :: r => if Byte.eqb b x2b%byte then unsigned false r
              else if Byte.eqb b x2d%byte then unsigned true r
              else unsigned false l
  end.

(** ** The console *)
Definition sp : byte := x20.
Definition w_vote : bytes := [x76; x6f; x74; x65]%byte.
Definition w_post : bytes := [x70; x6f; x73; x74]%byte.
Definition w_get : bytes := [x67; x65; x74]%byte.
Definition w_exit : bytes := [x65; x78; x69; x74]%byte.
Inductive console_act := KVote (id feedback : Z) | KPost (a : bytes) | KGet (ind : Z) | KExit | KNothing.
(** ClientLauncher.go:320-343: one line; None = index out of range.  The errors of Atoi are
    ignored. *)
Definition do_line (line : bytes) : option console_act :=
  let ws := split sp line in
  match ws with
  | [] => None
  | w :: args =>
      if bytes_eqb w w_vote then
        olet a := nth_error args 0 in olet b := nth_error args 1 in Some (KVote (fst (atoi a)) (fst (atoi b)))
      else if bytes_eqb w w_post then olet a := nth_error args 0 in Some (KPost a)
      else if bytes_eqb w w_get then olet a := nth_error args 0 in Some (KGet (fst (atoi a)))
      else if bytes_eqb w w_exit then Some KExit
      else Some KNothing
  end.
(** The function it calls, as a command of System.v. *)
Definition act_command (rn : req_rand) (k : console_act) : option command :=
  match k with
  | KVote i f => Some (CVote i f)
  | KPost a => Some (CPost a)
  | KGet i => Some (CRequest i rn)
  | KExit | KNothing => None
  end.

(** ClientLauncher.go:320-343: what a client sends for one line; None = it stops.  [rn] are
    the draws of requestBridges. *)
Definition line_msgs (S : suite) (G : gob) (c : client) (rn : req_rand) (line : bytes) : option (list msg) :=
  olet k := do_line line in
  match act_command rn k with Some cmd => cl_command S G c cmd | None => Some [] end.

(** bufio.Reader.ReadLine (external) with its 4096-byte buffer, on the bytes still to be
    read: the line and the rest.  The code ignores isPrefix: a longer line is read in
    pieces. *)
Definition buf_size : nat := Z.to_nat 4096.
Fixpoint find_nl (l : bytes) : option nat :=
  match l with
  | [] => None
  | b :: r => if Byte.eqb b nl then Some 0%nat else option_map S (find_nl r)
  end.
Definition read_line (inp : bytes) : bytes * bytes :=
  match find_nl (firstn buf_size inp) with
  | Some i => (drop_cr (firstn i inp), skipn (S i) inp)
  | None =>
      if (length inp <? buf_size)%nat then (inp, [])
      else if Byte.eqb (nth (buf_size - 1) inp x00%byte) cr then (firstn (buf_size - 1) inp, skipn (buf_size - 1) inp)
      else (firstn buf_size inp, skipn buf_size inp)
  end.

(** ClientLauncher.go:319-345: the loop, on all the bytes of the standard input; at its end
    ReadLine keeps giving the empty line, which does nothing. *)
Inductive ending_of := Stops | Exits | Waits.
Fixpoint console (fuel : nat) (inp : bytes) : list console_act * ending_of :=
  match fuel, inp with
  | S f, _ :: _ =>
      let (line, rest) := read_line inp in
      match do_line line with
      | None => ([], Stops)
      | Some KExit => ([], Exits)
      | Some k => let (ks, e) := console f rest in (k :: ks, e)
      end
  | _, _ => ([], Waits)
  end.
(** Every call of [read_line] consumes input. *)
Definition run_console (inp : bytes) : list console_act * ending_of := console (length inp) inp.

(** ** The server's port *)
(** ServerLauncher.go:94-104 Launch: the first of eleven ports that can be listened on; None =
    the process stops: the configured port is no number, or none is free (the listener is nil
    and the first Accept fails, ServerLauncher.go:45-47). *)
Definition server_port (cfg : amap bytes bytes) (name : bytes) (free : Z -> bool) : option Z :=
  let (p, ok) := atoi (match mget cfg name with Some v => v | None => [] end) in
  if ok then find free (map (fun i => p + Z.of_nat i) (seq 0 11)) else None.
