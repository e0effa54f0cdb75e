(** The listeners: how bytes on connections become handled messages.
    /repo/cmd/client/ClientLauncher.go:49-60, /repo/cmd/server/ServerLauncher.go:41-52,
    /repo/cmd/coordinator/CoordinatorLauncher.go:29-40 (the same loop three times), and
    /repo/util/Util.go:61-79 SendEvent and DecodeEvent.

    TCP is modelled as what the code sees of it: connections are accepted in the order in
    which they were established, the bytes of a connection arrive in order and in pieces of any
    size, at any time, and a connection ends in an orderly way, by a reset, or never. *)
From Coq Require Import ZArith Lia List Bool.
From Coq Require Import Strings.Byte.
From Verif Require Import Bytes Codec Net.
Import ListNotations.
Open Scope nat_scope.

(** What happens at a listening process. *)
Inductive tcp_event :=
| Dial (c : nat)               (* a peer establishes connection c *)
| Seg (c : nat) (b : bytes)    (* bytes arrive on it *)
| Fin (c : nat)                (* the peer closes it *)
| Rst (c : nat)                (* the peer resets it *)
| Run.                         (* the listener goes on as far as it can: one step of its loop *)

Section Listener.
Context {P : Type} (handle : P -> bytes -> option P).  (* Handle; None = panic *)

(** [l_queue]: established and not yet accepted; [l_cur]: the connection io.Copy reads from;
    [l_buf]: what has arrived on a connection; [l_end]: whether it has ended, and if so whether
    in an orderly way; [l_log]: the contents handed to Handle, in order; [l_proc]: the state of
    the process. *)
Record lst := Lst {
  l_queue : list nat; l_cur : option nat; l_buf : nat -> bytes; l_end : nat -> option bool;
  l_log : list bytes; l_proc : P }.

Definition upd {A} (f : nat -> A) (c : nat) (v : A) : nat -> A := fun d => if Nat.eqb d c then v else f d.

(** ClientLauncher.go:52-59: AcceptTCP, io.Copy until the end of the connection (a reset is an
    error, CheckErr panics), Handle.  None = the process stops. *)
Definition l_step (s : lst) (w : tcp_event) : option lst :=
  match w with
  | Dial c => Some (Lst (l_queue s ++ [c]) (l_cur s) (l_buf s) (l_end s) (l_log s) (l_proc s))
  | Seg c b => Some (Lst (l_queue s) (l_cur s) (upd (l_buf s) c (l_buf s c ++ b)) (l_end s) (l_log s) (l_proc s))
  | Fin c => Some (Lst (l_queue s) (l_cur s) (l_buf s) (upd (l_end s) c (Some true)) (l_log s) (l_proc s))
  | Rst c => Some (Lst (l_queue s) (l_cur s) (l_buf s) (upd (l_end s) c (Some false)) (l_log s) (l_proc s))
  | Run =>
      match l_cur s with
      | None =>
          match l_queue s with
          | [] => Some s
          | c :: q => Some (Lst q (Some c) (l_buf s) (l_end s) (l_log s) (l_proc s))
          end
      | Some c =>
          match l_end s c with
          | None => Some s
          | Some false => None
          | Some true =>
              olet p := handle (l_proc s) (l_buf s c) in
              Some (Lst (l_queue s) None (l_buf s) (l_end s) (l_log s ++ [l_buf s c]) p)
          end
      end
  end.
Fixpoint l_run (s : lst) (l : list tcp_event) : option lst :=
  match l with
  | [] => Some s
  | w :: r => olet s' := l_step s w in l_run s' r
  end.
Definition l_init (p : P) : lst := Lst [] None (fun _ => []) (fun _ => None) [] p.

(** ** What the peers did *)
(** Connections in the order in which they were established. *)
Definition dialled (l : list tcp_event) : list nat := flat_map (fun w => match w with Dial c => [c] | _ => [] end) l.
(** Everything sent on a connection. *)
Definition sent (l : list tcp_event) (c : nat) : bytes :=
  flat_map (fun w => match w with Seg d b => if Nat.eqb d c then b else [] | _ => [] end) l.
Definition mentions (c : nat) (w : tcp_event) : bool :=
  match w with Dial d | Seg d _ | Fin d | Rst d => Nat.eqb d c | Run => false end.
(** Every connection is established once, and nothing happens on it after its end. *)
Inductive proper : list tcp_event -> Prop :=
| p_nil : proper []
| p_snoc l w : proper l ->
    (forall c, w = Dial c -> ~ In c (dialled l)) ->
    (forall c, mentions c w = true -> ~ In (Fin c) l /\ ~ In (Rst c) l) -> proper (l ++ [w]).

(** The process handles some messages one after the other. *)
Fixpoint handles (p : P) (l : list bytes) : option P :=
  match l with [] => Some p | b :: r => olet p' := handle p b in handles p' r end.

Lemma l_run_app s l1 l2 : l_run s (l1 ++ l2) = match l_run s l1 with Some s' => l_run s' l2 | None => None end.
Proof. revert s. induction l1 as [|w l1 IH]; intros s; cbn [app l_run]; [reflexivity|]. destruct (l_step s w); [apply IH|reflexivity]. Qed.
Lemma dialled_app l1 l2 : dialled (l1 ++ l2) = dialled l1 ++ dialled l2.
Proof. apply flat_map_app. Qed.
Lemma sent_app l1 l2 c : sent (l1 ++ l2) c = sent l1 c ++ sent l2 c.
Proof. apply flat_map_app. Qed.
Lemma handles_app p l1 l2 : handles p (l1 ++ l2) = match handles p l1 with Some p' => handles p' l2 | None => None end.
Proof. revert p. induction l1 as [|b l1 IH]; intros p; cbn [app handles]; [reflexivity|]. destruct (handle p b); [apply IH|reflexivity]. Qed.
Lemma upd_eq {A} (f : nat -> A) c v : upd f c v c = v.
Proof. unfold upd. now rewrite Nat.eqb_refl. Qed.
Lemma upd_ne {A} (f : nat -> A) c v d : d <> c -> upd f c v d = f d.
Proof. unfold upd. intros N. destruct (Nat.eqb_spec d c); [contradiction|reflexivity]. Qed.

(** [done]: connections handled, in order; then the current one and the queue. *)
Record linv (p0 : P) (l : list tcp_event) (s : lst) (done : list nat) : Prop := {
  i_order : dialled l = done ++ (match l_cur s with Some c => [c] | None => [] end) ++ l_queue s;
  i_buf : forall c, l_buf s c = sent l c;
  i_fin : forall c, l_end s c = Some true <-> In (Fin c) l;
  i_rst : forall c, l_end s c = Some false <-> In (Rst c) l;
  i_done : forall c, In c done -> In (Fin c) l;
  i_log : l_log s = map (sent l) done;
  i_proc : handles p0 (l_log s) = Some (l_proc s)
}.

Lemma linv_keep p0 l s done w : proper (l ++ [w]) -> linv p0 l s done ->
  (forall c, In c done -> sent (l ++ [w]) c = sent l c).
Proof.
  intros PR [I1 I2 I3 I4 I5 I6 I7] c Ic. rewrite sent_app. unfold sent at 2. cbn [flat_map]. rewrite app_nil_r.
  inversion PR as [|l' w' PR' D M EQ]; [destruct l; discriminate|]. apply app_inj_tail in EQ. destruct EQ as [-> ->].
  destruct w as [d|d b|d|d|]; try apply app_nil_r. destruct (Nat.eqb_spec d c) as [-> |N]; [|apply app_nil_r].
  destruct (M c) as [NF _]; [cbn; apply Nat.eqb_refl|]. destruct (NF (I5 c Ic)).
Qed.

Lemma linv_step p0 l s done w s' : proper (l ++ [w]) -> linv p0 l s done -> l_step s w = Some s' ->
  exists done', linv p0 (l ++ [w]) s' done'.
Proof.
  intros PR I E. pose proof (linv_keep p0 l s done w PR I) as KEEP.
  assert (LOG : map (sent (l ++ [w])) done = map (sent l) done).
  { apply map_ext_in. exact KEEP. }
  inversion PR as [|l' w' PR' D M EQ]; [destruct l; discriminate|]. apply app_inj_tail in EQ. destruct EQ as [-> ->].
  destruct I as [I1 I2 I3 I4 I5 I6 I7].
  assert (DN : forall c, In c done -> In (Fin c) (l ++ [w])) by (intros c Ic; apply in_or_app; left; apply I5; exact Ic).
  destruct w as [d|d b|d|d|]; cbn [l_step] in E.
  - injection E as <-. exists done. constructor; cbn [l_cur l_queue l_buf l_end l_log l_proc]; auto.
    + rewrite dialled_app, I1. cbn [dialled flat_map]. rewrite app_nil_r. now rewrite <- !app_assoc.
    + intros c. rewrite sent_app, I2. cbn. now rewrite app_nil_r.
    + intros c. rewrite I3, in_app_iff. cbn. intuition discriminate.
    + intros c. rewrite I4, in_app_iff. cbn. intuition discriminate.
    + now rewrite LOG.
  - injection E as <-. exists done. constructor; cbn [l_cur l_queue l_buf l_end l_log l_proc]; auto.
    + rewrite dialled_app, I1. cbn. now rewrite app_nil_r.
    + intros c. rewrite sent_app. cbn [sent flat_map]. rewrite app_nil_r. destruct (Nat.eqb_spec d c) as [-> |N].
      * rewrite upd_eq, I2. reflexivity.
      * rewrite upd_ne by congruence. rewrite I2, app_nil_r. reflexivity.
    + intros c. rewrite I3, in_app_iff. cbn. intuition discriminate.
    + intros c. rewrite I4, in_app_iff. cbn. intuition discriminate.
    + now rewrite LOG.
  - injection E as <-. exists done. constructor; cbn [l_cur l_queue l_buf l_end l_log l_proc]; auto.
    + rewrite dialled_app, I1. cbn. now rewrite app_nil_r.
    + intros c. rewrite sent_app, I2. cbn. now rewrite app_nil_r.
    + intros c. rewrite in_app_iff. cbn [In]. destruct (Nat.eq_dec c d) as [-> |N].
      * rewrite upd_eq. intuition.
      * rewrite upd_ne by assumption. rewrite I3. split; [auto|]. intros [A|[A|[]]]; [exact A|]. injection A as ->. contradiction.
    + intros c. rewrite in_app_iff. cbn [In]. destruct (Nat.eq_dec c d) as [-> |N].
      * rewrite upd_eq. split; [discriminate|]. intros [A|[A|[]]]; [|discriminate].
        destruct (M d) as [_ NR]; [cbn; apply Nat.eqb_refl|]. contradiction.
      * rewrite upd_ne by assumption. rewrite I4. intuition discriminate.
    + now rewrite LOG.
  - injection E as <-. exists done. constructor; cbn [l_cur l_queue l_buf l_end l_log l_proc]; auto.
    + rewrite dialled_app, I1. cbn. now rewrite app_nil_r.
    + intros c. rewrite sent_app, I2. cbn. now rewrite app_nil_r.
    + intros c. rewrite in_app_iff. cbn [In]. destruct (Nat.eq_dec c d) as [-> |N].
      * rewrite upd_eq. split; [discriminate|]. intros [A|[A|[]]]; [|discriminate].
        destruct (M d) as [NF _]; [cbn; apply Nat.eqb_refl|]. contradiction.
      * rewrite upd_ne by assumption. rewrite I3. intuition discriminate.
    + intros c. rewrite in_app_iff. cbn [In]. destruct (Nat.eq_dec c d) as [-> |N].
      * rewrite upd_eq. intuition.
      * rewrite upd_ne by assumption. rewrite I4. split; [auto|]. intros [A|[A|[]]]; [exact A|]. injection A as ->. contradiction.
    + now rewrite LOG.
  - assert (SL : forall c, sent (l ++ [Run]) c = sent l c) by (intros c; rewrite sent_app; cbn; apply app_nil_r).
    assert (DL : dialled (l ++ [Run]) = dialled l) by (rewrite dialled_app; cbn; apply app_nil_r).
    assert (FL : forall c, In (Fin c) (l ++ [Run]) <-> In (Fin c) l) by (intros c; rewrite in_app_iff; cbn; intuition discriminate).
    assert (RL : forall c, In (Rst c) (l ++ [Run]) <-> In (Rst c) l) by (intros c; rewrite in_app_iff; cbn; intuition discriminate).
    assert (SAME : forall s1, l_queue s1 = l_queue s -> l_cur s1 = l_cur s -> l_buf s1 = l_buf s -> l_end s1 = l_end s -> l_log s1 = l_log s ->
      l_proc s1 = l_proc s -> linv p0 (l ++ [Run]) s1 done).
    { intros s1 Q1 Q2 Q3 Q4 Q5 Q6. constructor; rewrite ?Q1, ?Q2, ?Q3, ?Q4, ?Q5, ?Q6; auto.
      - now rewrite DL. - intros c. now rewrite SL. - intros c. now rewrite FL. - intros c. now rewrite RL. - now rewrite LOG. }
    destruct (l_cur s) as [c0|] eqn:EC.
    + destruct (l_end s c0) as [[|]|] eqn:EE; [|discriminate|injection E as <-; exists done; apply SAME; auto].
      destruct (handle (l_proc s) (l_buf s c0)) as [p|] eqn:EH; [|discriminate]. injection E as <-.
      exists (done ++ [c0]). constructor; cbn [l_cur l_queue l_buf l_end l_log l_proc].
      * rewrite DL, I1. now rewrite <- !app_assoc.
      * intros c. now rewrite SL.
      * intros c. now rewrite FL.
      * intros c. now rewrite RL.
      * intros c Ic. apply in_app_or in Ic. destruct Ic as [Ic|[<-|[]]]; [auto|]. apply FL. now apply I3.
      * rewrite map_app, LOG, I6. cbn [map]. now rewrite SL, I2.
      * rewrite handles_app, I7. cbn [handles]. now rewrite EH.
    + destruct (l_queue s) as [|c q] eqn:EQ.
      * injection E as <-. exists done. apply SAME; auto.
      * injection E as <-. exists done. constructor; cbn [l_cur l_queue l_buf l_end l_log l_proc]; auto.
        -- rewrite DL, I1. reflexivity.
        -- intros c'. now rewrite SL.
        -- intros c'. now rewrite FL.
        -- intros c'. now rewrite RL.
        -- now rewrite LOG.
Qed.

Lemma proper_app l1 l2 : proper (l1 ++ l2) -> proper l1.
Proof.
  induction l2 as [|w l2 IH] using rev_ind; intros PR; [now rewrite app_nil_r in PR|].
  rewrite app_assoc in PR. inversion PR as [|l' w' PR' D M EQ]; [destruct (l1 ++ l2); discriminate|].
  apply app_inj_tail in EQ. destruct EQ as [-> ->]. auto.
Qed.

Lemma linv_run p0 l : proper l -> forall s, l_run (l_init p0) l = Some s -> exists done, linv p0 l s done.
Proof.
  induction l as [|w l IH] using rev_ind; intros PR s E.
  - injection E as <-. exists []. constructor; cbn; auto; try tauto; try (intros; split; [discriminate|intros []]).
  - rewrite l_run_app in E. destruct (l_run (l_init p0) l) as [s1|] eqn:E1; [|discriminate]. cbn [l_run] in E.
    destruct (l_step s1 w) as [s2|] eqn:E2; [|discriminate]. injection E as <-.
    destruct (IH (proper_app _ _ PR) s1 eq_refl) as (done & I). exact (linv_step p0 l s1 done w s2 PR I E2).
Qed.

(** Left alone, the listener takes everything that has been sent and closed. *)
Lemma drains p0 l : proper l -> forall n s done, linv p0 l s done ->
  (forall c, In c (dialled l) -> In (Fin c) l) ->
  length (dialled l) - length done <= n ->
  (exists p, handles p0 (map (sent l) (dialled l)) = Some p) ->
  exists k s', l_run s (repeat Run k) = Some s' /\ l_log s' = map (sent l) (dialled l) /\
    handles p0 (map (sent l) (dialled l)) = Some (l_proc s').
Proof.
  intros PR n. induction n as [n IH] using lt_wf_ind. intros s done I FA LE (pf & HF).
  destruct (l_cur s) as [c|] eqn:EC.
  - pose proof (i_order _ _ _ _ I) as O. rewrite EC in O.
    assert (FC : In (Fin c) l) by (apply FA; rewrite O; apply in_or_app; right; left; reflexivity).
    assert (EE : l_end s c = Some true) by now apply (i_fin _ _ _ _ I).
    pose proof (i_proc _ _ _ _ I) as HP. rewrite (i_log _ _ _ _ I) in HP.
    rewrite O in HF. rewrite map_app, handles_app, HP in HF. cbn [app map handles] in HF.
    destruct (handle (l_proc s) (sent l c)) as [p|] eqn:EH; [|discriminate].
    set (s1 := Lst (l_queue s) None (l_buf s) (l_end s) (l_log s ++ [l_buf s c]) p).
    assert (E1 : l_step s Run = Some s1) by (cbn [l_step]; rewrite EC, EE, (i_buf _ _ _ _ I), EH; unfold s1; now rewrite (i_buf _ _ _ _ I)).
    assert (I1 : linv p0 l s1 (done ++ [c])).
    { constructor; cbn [s1 l_cur l_queue l_buf l_end l_log l_proc].
      - rewrite O. now rewrite <- !app_assoc.
      - apply (i_buf _ _ _ _ I). - apply (i_fin _ _ _ _ I). - apply (i_rst _ _ _ _ I).
      - intros d Id. apply in_app_or in Id. destruct Id as [Id|[<-|[]]]; [now apply (i_done _ _ _ _ I)|exact FC].
      - rewrite map_app, (i_log _ _ _ _ I), (i_buf _ _ _ _ I). reflexivity.
      - rewrite handles_app, (i_log _ _ _ _ I), HP, (i_buf _ _ _ _ I). cbn [handles]. now rewrite EH. }
    assert (LD : length (dialled l) = (length done + 1 + length (l_queue s))%nat) by (rewrite O, !app_length; cbn; lia).
    destruct (IH (n - 1)%nat) with (s := s1) (done := done ++ [c]) as (k & s' & K1 & K2 & K3); [lia|exact I1|exact FA|rewrite app_length; cbn; lia| |].
    { exists pf. rewrite O, map_app, handles_app, HP. cbn [app map handles]. rewrite EH. exact HF. }
    exists (S k), s'. cbn [repeat l_run]. rewrite E1. auto.
  - pose proof (i_order _ _ _ _ I) as O. rewrite EC in O. cbn [app] in O.
    destruct (l_queue s) as [|c q] eqn:EQ.
    + rewrite app_nil_r in O. exists 0%nat, s. split; [reflexivity|]. rewrite O. split; [apply (i_log _ _ _ _ I)|].
      rewrite <- (i_log _ _ _ _ I). apply (i_proc _ _ _ _ I).
    + assert (FC : In (Fin c) l) by (apply FA; rewrite O; apply in_or_app; right; left; reflexivity).
      assert (EE : l_end s c = Some true) by now apply (i_fin _ _ _ _ I).
      pose proof (i_proc _ _ _ _ I) as HP. rewrite (i_log _ _ _ _ I) in HP.
      pose proof HF as HF'. rewrite O in HF'. rewrite map_app, handles_app, HP in HF'. cbn [app map handles] in HF'.
      destruct (handle (l_proc s) (sent l c)) as [p|] eqn:EH; [|discriminate].
      set (s1 := Lst q (Some c) (l_buf s) (l_end s) (l_log s) (l_proc s)).
      set (s2 := Lst q None (l_buf s) (l_end s) (l_log s ++ [l_buf s c]) p).
      assert (E1 : l_step s Run = Some s1) by (cbn [l_step]; now rewrite EC, EQ).
      assert (E2 : l_step s1 Run = Some s2) by (cbn [l_step s1 l_cur l_end l_proc l_buf]; rewrite EE, (i_buf _ _ _ _ I), EH; unfold s2; now rewrite (i_buf _ _ _ _ I)).
      assert (I2 : linv p0 l s2 (done ++ [c])).
      { constructor; cbn [s2 l_cur l_queue l_buf l_end l_log l_proc].
        - rewrite O. now rewrite <- !app_assoc.
        - apply (i_buf _ _ _ _ I). - apply (i_fin _ _ _ _ I). - apply (i_rst _ _ _ _ I).
        - intros d Id. apply in_app_or in Id. destruct Id as [Id|[<-|[]]]; [now apply (i_done _ _ _ _ I)|exact FC].
        - rewrite map_app, (i_log _ _ _ _ I), (i_buf _ _ _ _ I). reflexivity.
        - rewrite handles_app, (i_log _ _ _ _ I), HP, (i_buf _ _ _ _ I). cbn [handles]. now rewrite EH. }
      assert (LD : length (dialled l) = (length done + 1 + length q)%nat) by (rewrite O, app_length; cbn; lia).
      destruct (IH (n - 1)%nat) with (s := s2) (done := done ++ [c]) as (k & s' & K1 & K2 & K3); [lia|exact I2|exact FA|rewrite app_length; cbn; lia|eauto|].
      exists (S (S k)), s'. cbn [repeat l_run]. rewrite E1. cbn [l_run]. rewrite E2. auto.
Qed.

(** A connection at which the listener waits and that never ends. *)
Lemma waits c : forall l s, l_cur s = Some c -> l_end s c = None -> (forall w, In w l -> w <> Fin c /\ w <> Rst c) ->
  exists s', l_run s l = Some s' /\ l_log s' = l_log s /\ l_proc s' = l_proc s.
Proof.
  induction l as [|w l IH]; intros s EC EE NW; [exists s; auto|].
  assert (NW' : forall w, In w l -> w <> Fin c /\ w <> Rst c) by (intros x Ix; apply NW; right; exact Ix).
  destruct (NW w (or_introl eq_refl)) as [N1 N2].
  destruct w as [d|d b|d|d|]; cbn [l_run l_step].
  - destruct (IH (Lst (l_queue s ++ [d]) (l_cur s) (l_buf s) (l_end s) (l_log s) (l_proc s)) EC EE NW') as (s' & H); eauto.
  - destruct (IH (Lst (l_queue s) (l_cur s) (upd (l_buf s) d (l_buf s d ++ b)) (l_end s) (l_log s) (l_proc s)) EC EE NW') as (s' & H); eauto.
  - destruct (IH (Lst (l_queue s) (l_cur s) (l_buf s) (upd (l_end s) d (Some true)) (l_log s) (l_proc s)) EC) as (s' & H); [|exact NW'|eauto].
    cbn [l_end]. rewrite upd_ne by congruence. exact EE.
  - destruct (IH (Lst (l_queue s) (l_cur s) (l_buf s) (upd (l_end s) d (Some false)) (l_log s) (l_proc s)) EC) as (s' & H); [|exact NW'|eauto].
    cbn [l_end]. rewrite upd_ne by congruence. exact EE.
  - rewrite EC, EE. apply IH; auto.
Qed.
End Listener.

(** ** Events as bytes *)
(** gob as SendEvent and DecodeEvent use it (Util.go:63, 73-76): the bytes of an event, and the
    event in some bytes, with the address in it resolved. *)
Record event_format := EventFormat {
  ef_enc : Z -> params -> addr -> bytes;
  ef_dec : bytes -> option (Z * params * addr) }.
(** gob decodes what it encoded, and reports the end of an empty input as an error. *)
Record format_ok (F : event_format) : Prop := {
  f_round : forall t p a, ef_dec F (ef_enc F t p a) = Some (t, p, a);
  f_empty : ef_dec F [] = None }.
(** Handle: DecodeEvent (CheckErr panics), then the switch. *)
Definition handle_bytes {P : Type} (F : event_format) (handler : P -> Z -> params -> addr -> option P) (q : P) (b : bytes) : option P :=
  olet (t, p, a) := ef_dec F b in handler q t p a.
