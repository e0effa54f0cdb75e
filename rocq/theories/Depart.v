(** Sending can fail: /repo/util/Util.go:61-71 SendEvent dials the receiver for every message
    and CheckErr (87-92) panics if nobody listens there.  The coordinator with addresses at
    which nobody listens. *)
From Coq Require Import ZArith Lia List Bool.
From Coq Require Import Strings.Byte.
From Coq Require String.
From Verif Require Import ZMod Bytes Suite Pedersen ElGamal FujiOkam Equality Codec Maps Net Bridge Client
  Perm SimpleShuffle PairShuffle Server Coordinator History System.
Import ListNotations.
Import String.StringSyntax.
Open Scope Z_scope.
Delimit Scope string_scope with str.

(** Util.go:65-66: every message finds its receiver.  [down] are the addresses at which nobody
    listens.  A message that was dialled and written counts as received. *)
Definition is_down (down : list addr) (a : addr) : bool := existsb (fun b => if keq b a then true else false) down.
Definition sent_all (down : list addr) (out : list msg) : bool := forallb (fun m => negb (is_down down (mDst m))) out.

(** What happens to the coordinator: its own steps and messages (History.v), and processes that
    end or start at an address. *)
Inductive happening := Ev (e : event) | Leave (a : addr) | Return (a : addr).

(** None = the coordinator stops; the messages it may have sent before are not followed. *)
Definition d_step (S : suite) (G : gob) (cd : coord * list addr) (h : happening) : option (coord * list addr) :=
  match h with
  | Ev e => olet (c', out) := co_step S G (fst cd) e in
            if sent_all (snd cd) out then Some (c', snd cd) else None
  | Leave a => Some (fst cd, a :: snd cd)
  | Return a => Some (fst cd, filter (fun b => if keq b a then false else true) (snd cd))
  end.
Fixpoint d_run (S : suite) (G : gob) (cd : coord * list addr) (l : list happening) : option (coord * list addr) :=
  match l with
  | [] => Some cd
  | h :: r => olet cd' := d_step S G cd h in d_run S G cd' r
  end.

Lemma is_down_In down a : is_down down a = true <-> In a down.
Proof.
  unfold is_down. rewrite existsb_exists. split.
  - intros (b & I & E). destruct (keq b a) as [<- |]; [exact I|discriminate].
  - intros I. exists a. split; [exact I|]. destruct (keq a a); congruence.
Qed.
Lemma sent_all_iff down out : sent_all down out = true <-> (forall m, In m out -> ~ In (mDst m) down).
Proof.
  unfold sent_all. rewrite forallb_forall. split; intros X m I; specialize (X m I).
  - rewrite <- is_down_In. destruct (is_down down (mDst m)); [discriminate|congruence].
  - destruct (is_down down (mDst m)) eqn:E; [|reflexivity]. apply is_down_In in E. contradiction.
Qed.

(** A client registered at address [a]. *)
Definition listed_at (c : coord) (a : addr) : Prop := exists k, mget (co_clients c) k = Some a.

Lemma add_client_key ord m k a : mget (add_client ord m k a) k = Some a.
Proof. apply mget_mset_eq. Qed.
Lemma add_client_other ord m k b k' a : mget m k' = Some a -> a <> b -> k' <> k -> mget (add_client ord m k b) k' = Some a.
Proof.
  intros M N K. unfold add_client. cbv zeta. rewrite mget_mset_ne by congruence.
  destruct (find _ ord) as [x|] eqn:EF; [|exact M]. rewrite mget_mdel. destruct (keq k' x) as [<- |]; [|exact M].
  apply find_some in EF. destruct EF as [_ EF]. rewrite M in EF. destruct (keq a b); [contradiction|discriminate].
Qed.
Lemma add_client_keys ord m k b x : In x (mkeys (add_client ord m k b)) -> x = k \/ In x (mkeys m).
Proof.
  unfold add_client. cbv zeta. rewrite in_mkeys_mset. intros [-> |I]; [now left|right].
  destruct (find _ ord); [|exact I]. now apply in_mkeys_mdel in I.
Qed.

(** Where the coordinator sends to. *)
Lemma to_clients_dst c ty p k a : In (k, a) (co_clients c) -> In (Msg a ty p (co_addr c)) (to_clients c ty p).
Proof. intros I. unfold to_clients. apply in_map_iff. exists (k, a). split; [reflexivity|exact I]. Qed.

Lemma open_assignments_frame S l : forall c c', open_assignments S c l = Some c' ->
  co_clients c' = co_clients c /\ co_servers c' = co_servers c /\ co_reqs c' = co_reqs c /\ co_static c' = co_static c.
Proof.
  induction l as [|a l IH]; intros c c' E; cbn [open_assignments] in E; [injection E as <-; auto|].
  cbv zeta in E. destruct (add_asig _ _ _ _) as [c2|] eqn:E2; [|discriminate]. apply IH in E.
  unfold add_asig in E2. destruct (mget _ _) as [[sl n]|]; [|discriminate]. destruct (set_nth _ _ _); [|discriminate].
  injection E2 as <-. exact E.
Qed.
