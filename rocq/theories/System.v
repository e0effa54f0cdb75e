(** The whole system: one coordinator, any number of servers and clients, and the messages
    in flight between them, delivered in any order (each handler runs to its end). *)
From Coq Require Import ZArith Znumtheory Lia List Bool Permutation.
From Coq Require Import Strings.Byte.
From Coq Require String.
From Verif Require Import ZMod Bytes Suite Pedersen ElGamal FujiOkam Equality Codec Maps Net Bridge Client
  Perm SimpleShuffle PairShuffle Server Coordinator History.
Import ListNotations.
Import String.StringSyntax.
Open Scope Z_scope.
Delimit Scope string_scope with str.

(** [y_log] is not part of the system: it records, in order, the server and the secret with
    which each SERVER_REGISTER_REPLY was handled. *)
Record sys := Sys {
  y_coord : coord;
  y_servers : amap addr server;
  y_clients : amap addr client;
  y_msgs : list msg;
  y_log : list (addr * Z)
}.

(** Commands a user types at a client: ClientLauncher.go:65-86, 91-146, 206-234. *)
Inductive command := CPost (a : bytes) | CRequest (ind : Z) (rn : req_rand) | CVote (id feedback : Z).

Inductive action :=
| ALaunch (a : addr) (priv rk : Z)   (* start a server: ServerLauncher.go:58-88, 27-36 *)
| AJoin (a : addr) (priv s : Z)      (* start a client: ClientLauncher.go:268-291, 35-44 *)
| ADeliver (i : nat) (cr : co_rand) (sr : sv_rand) (chal : list bool)  (* deliver the i-th message in flight *)
| ALoop (e : event)                  (* the coordinator's main loop: CoordinatorLauncher.go:233-291 *)
| ACommand (a : addr) (cmd : command).

(** The events of the main loop are the History.v events that are not messages. *)
Definition is_loop (e : event) : bool := match e with EMsg _ _ _ _ => false | _ => true end.

Definition cl_command (S : suite) (G : gob) (c : client) (cmd : command) : option (list msg) :=
  match cmd with
  | CPost a => Some [cl_post S c a]
  | CRequest ind rn =>
      olet r := cl_request S G c ind rn in Some (match r with Some m => [m] | None => [] end)
  | CVote id f => olet m := cl_vote S c id f in Some [m]
  end.

(** One step; None = the action is not possible or a process stops. *)
Definition sys_step (S : suite) (H : oracle) (G : gob) (y : sys) (a : action) : option sys :=
  match a with
  | ALaunch a priv rk =>
      if keq a (co_addr (y_coord y)) then None
      else match mget (y_servers y) a, mget (y_clients y) a with
      | None, None =>
          let s := init_server S a (co_addr (y_coord y)) priv rk in
          Some (Sys (y_coord y) (mset (y_servers y) a s) (y_clients y) (y_msgs y ++ [sv_register S s]) (y_log y))
      | _, _ => None
      end
  | AJoin a priv s =>
      if keq a (co_addr (y_coord y)) then None
      else match mget (y_servers y) a, mget (y_clients y) a with
      | None, None =>
          let c := init_client S a (co_addr (y_coord y)) priv s in
          Some (Sys (y_coord y) (y_servers y) (mset (y_clients y) a c) (y_msgs y ++ [cl_register S c]) (y_log y))
      | _, _ => None
      end
  | ADeliver i cr sr chal =>
      olet m := nth_error (y_msgs y) i in
      let rest := firstn i (y_msgs y) ++ skipn (Datatypes.S i) (y_msgs y) in
      if keq (mDst m) (co_addr (y_coord y)) then
        olet (c', out) := co_handle S G (y_coord y) (mType m) (mParams m) (mSrc m) cr in
        Some (Sys c' (y_servers y) (y_clients y) (rest ++ out) (y_log y))
      else match mget (y_servers y) (mDst m) with
      | Some s =>
          olet (s', out) := sv_handle S H G s (mType m) (mParams m) (mSrc m) sr in
          Some (Sys (y_coord y) (mset (y_servers y) (mDst m) s') (y_clients y) (rest ++ out)
                  (y_log y ++ if mType m =? SERVER_REGISTER_REPLY then [(mDst m, srKey sr)] else []))
      | None =>
          olet c := mget (y_clients y) (mDst m) in
          olet (c', out) := cl_handle S G c (mType m) (mParams m) chal in
          Some (Sys (y_coord y) (y_servers y) (mset (y_clients y) (mDst m) c') (rest ++ out) (y_log y))
      end
  | ALoop e =>
      if is_loop e then
        olet (c', out) := co_step S G (y_coord y) e in
        Some (Sys c' (y_servers y) (y_clients y) (y_msgs y ++ out) (y_log y))
      else None
  | ACommand a cmd =>
      olet c := mget (y_clients y) a in
      olet out := cl_command S G c cmd in
      Some (Sys (y_coord y) (y_servers y) (y_clients y) (y_msgs y ++ out) (y_log y))
  end.

Fixpoint sys_run (S : suite) (H : oracle) (G : gob) (y : sys) (l : list action) : option sys :=
  match l with
  | [] => Some y
  | a :: r => olet y' := sys_step S H G y a in sys_run S H G y' r
  end.

(** The system before anything has been started but the coordinator. *)
Definition init_sys (S : suite) (self : addr) (a : Z) (fb : fobase) (trap : fotrap) (gammas : list Z) : sys :=
  Sys (init_coord S self a fb trap gammas) [] [] [] [].

Lemma sys_run_app S H G l1 : forall l2 y, sys_run S H G y (l1 ++ l2) =
  match sys_run S H G y l1 with Some y' => sys_run S H G y' l2 | None => None end.
Proof.
  induction l1 as [|a l1 IH]; intros l2 y; cbn [app sys_run]; [reflexivity|].
  destruct (sys_step S H G y a); [apply IH|reflexivity].
Qed.
(** Induction on runs, from the end. *)
Lemma sys_run_ind S H G (P : list action -> sys -> Prop) y0 : P [] y0 ->
  (forall l y a y', sys_run S H G y0 l = Some y -> P l y -> sys_step S H G y a = Some y' -> P (l ++ [a]) y') ->
  forall l y, sys_run S H G y0 l = Some y -> P l y.
Proof.
  intros P0 PS l. induction l as [|a l IH] using rev_ind; intros y E.
  - cbn in E. injection E as <-. exact P0.
  - rewrite sys_run_app in E. destruct (sys_run S H G y0 l) as [y1|] eqn:E1; [|discriminate].
    cbn [sys_run] in E. destruct (sys_step S H G y1 a) as [y2|] eqn:E2; [|discriminate]. injection E as <-.
    eapply PS; [exact E1|now apply IH|exact E2].
Qed.
