(** C77, C78: the listeners. *)
From Coq Require Import ZArith Lia List Bool.
From Coq Require Import Strings.Byte.
From Coq Require String.
From Verif Require Import ZMod Bytes Suite Codec Net Prop_Codec Listener.
Import ListNotations.
Open Scope nat_scope.

Section Whole.
Context {P : Type} (handle : P -> bytes -> option P).

(** C77: whatever the order in which bytes of different connections arrive, in whatever pieces,
    and whenever the listener runs: what has been handed to the handler is the whole content of
    the first connections, in the order in which they were established, each once and each
    only after its sender had closed it. *)
Theorem C77_whole_and_in_order : forall p0 l s, proper l -> l_run handle (l_init p0) l = Some s ->
  exists n, l_log s = map (sent l) (firstn n (dialled l)) /\
    (forall c, In c (firstn n (dialled l)) -> In (Fin c) l) /\
    handles handle p0 (l_log s) = Some (l_proc s).
Proof.
  intros p0 l s PR E. destruct (linv_run handle p0 l PR s E) as (done & [I1 I2 I3 I4 I5 I6 I7]).
  exists (length done). rewrite I1, firstn_app, Nat.sub_diag, firstn_all, app_nil_r. auto.
Qed.

(** When every peer closes what it opens, and the handler copes with what they sent, everything
    is handled. *)
Theorem C77_all_handled : forall p0 l s p, proper l -> l_run handle (l_init p0) l = Some s ->
  (forall c, In c (dialled l) -> In (Fin c) l) ->
  handles handle p0 (map (sent l) (dialled l)) = Some p ->
  exists k s', l_run handle (l_init p0) (l ++ repeat Run k) = Some s' /\
    l_log s' = map (sent l) (dialled l) /\ l_proc s' = p.
Proof.
  intros p0 l s p PR E FA HF. destruct (linv_run handle p0 l PR s E) as (done & I).
  destruct (drains handle p0 l PR _ s done I FA (le_n _) (ex_intro _ p HF)) as (k & s' & K1 & K2 & K3).
  exists k, s'. split; [now rewrite l_run_app, E|]. split; [exact K2|]. rewrite HF in K3. now injection K3.
Qed.
End Whole.

Section Events.
Context {P : Type} (F : event_format) (FOK : format_ok F) (handler : P -> Z -> params -> addr -> option P).

(** One event after the other. *)
Fixpoint process (q : P) (l : list (Z * params * addr)) : option P :=
  match l with [] => Some q | (t, p, a) :: r => olet q' := handler q t p a in process q' r end.

Lemma process_handles (ev : nat -> Z * params * addr) : forall q cs, handles (handle_bytes F handler) q (map (fun c => let '(t, p, a) := ev c in ef_enc F t p a) cs) = process q (map ev cs).
Proof.
  intros q cs. revert q. induction cs as [|c cs IH]; intros q; [reflexivity|]. cbn [map handles process]. destruct (ev c) as [[t p] a].
  unfold handle_bytes at 1. rewrite (f_round F FOK). destruct (handler q t p a); [apply IH|reflexivity].
Qed.

(** C77: if connection [c] carries the event [ev c], sent in any pieces, the process is in the
    state in which the events of the first connections leave it, one after the other: neither
    the pieces nor the other connections matter. *)
Theorem C77_events_as_sent : forall q0 l s (ev : nat -> Z * params * addr), proper l ->
  (forall c, In (Fin c) l -> let '(t, p, a) := ev c in sent l c = ef_enc F t p a) ->
  l_run (handle_bytes F handler) (l_init q0) l = Some s ->
  exists n, process q0 (map ev (firstn n (dialled l))) = Some (l_proc s).
Proof.
  intros q0 l s ev PR CV E. destruct (C77_whole_and_in_order (handle_bytes F handler) q0 l s PR E) as (n & L & FI & HA).
  exists n. rewrite <- process_handles. rewrite <- HA, L. f_equal. apply map_ext_in. intros c Ic.
  pose proof (CV c (FI c Ic)) as X. destruct (ev c) as [[t p] a]. symmetry. exact X.
Qed.

(** ... and if all connections are closed and the handlers do not fail, of all of them. *)
Theorem C77_all_events : forall q0 l s q (ev : nat -> Z * params * addr), proper l ->
  (forall c, In c (dialled l) -> In (Fin c) l) ->
  (forall c, In (Fin c) l -> let '(t, p, a) := ev c in sent l c = ef_enc F t p a) ->
  l_run (handle_bytes F handler) (l_init q0) l = Some s ->
  process q0 (map ev (dialled l)) = Some q ->
  exists k s', l_run (handle_bytes F handler) (l_init q0) (l ++ repeat Run k) = Some s' /\ l_proc s' = q.
Proof.
  intros q0 l s q ev PR FA CV E HP.
  destruct (C77_all_handled (handle_bytes F handler) q0 l s q PR E FA) as (k & s' & K1 & K2 & K3); [|eauto].
  rewrite <- HP, <- process_handles. f_equal. apply map_ext_in. intros c Ic.
  pose proof (CV c (FA c Ic)) as X. destruct (ev c) as [[t p] a]. exact X.
Qed.

(** ** C78: one connection is enough to keep a process from all other messages *)
Definition idle (s : @lst P) : Prop := l_cur s = None /\ l_queue s = [].

(** A peer that connects and never closes: from then on nothing is handled, whatever else
    arrives and however long the listener runs. *)
Theorem C78_silent_peer_blocks : forall s c l, idle s -> l_end s c = None -> (forall w, In w l -> w <> Fin c /\ w <> Rst c) ->
  exists s', l_run (handle_bytes F handler) s ([Dial c; Run] ++ l) = Some s' /\ l_log s' = l_log s /\ l_proc s' = l_proc s.
Proof.
  intros s c l [ID1 ID2] EE NW. cbn [app l_run l_step l_cur l_queue]. rewrite ID1, ID2. cbn [app l_buf l_end l_log l_proc].
  apply (waits (handle_bytes F handler) c l (Lst [] (Some c) (l_buf s) (l_end s) (l_log s) (l_proc s))); [reflexivity|exact EE|exact NW].
Qed.
(** A peer that resets its connection stops the process. *)
Theorem C78_reset_stops : forall s c, idle s -> l_run (handle_bytes F handler) s [Dial c; Run; Rst c; Run] = None.
Proof.
  intros s c [ID1 ID2]. cbn [app l_run l_step l_cur l_queue]. rewrite ID1, ID2. cbn [app l_buf l_end l_log l_proc].
  cbn [l_step l_cur l_end]. now rewrite upd_eq.
Qed.
(** So does a peer that closes its connection without having sent anything, and any content
    that is no event. *)
Theorem C78_no_event_stops : forall s c b, idle s -> l_buf s c = [] -> ef_dec F b = None ->
  l_run (handle_bytes F handler) s [Dial c; Seg c b; Fin c; Run; Run] = None.
Proof.
  intros s c b [ID1 ID2] EB ED. cbn [app l_run l_step l_cur l_queue]. rewrite ID1, ID2. cbn [app l_buf l_end l_log l_proc].
  cbn [l_step l_cur l_end l_proc l_buf]. rewrite !upd_eq, EB. cbn [app]. unfold handle_bytes. now rewrite ED.
Qed.
Theorem C78_empty_connection_stops : forall s c, idle s -> l_buf s c = [] ->
  l_run (handle_bytes F handler) s [Dial c; Fin c; Run; Run] = None.
Proof.
  intros s c [ID1 ID2] EB. cbn [app l_run l_step l_cur l_queue]. rewrite ID1, ID2. cbn [app l_buf l_end l_log l_proc].
  cbn [l_step l_cur l_end l_proc l_buf]. rewrite !upd_eq, EB. unfold handle_bytes. now rewrite (f_empty F FOK).
Qed.
End Events.

(** The property as stated: a message that has been sent completely is handled at some time, if
    the listener keeps running. *)
Definition closed_means_handled : Prop := forall (P : Type) (F : event_format) (handler : P -> Z -> params -> addr -> option P) p0 l s c,
  format_ok F -> proper l -> (forall q t p a, handler q t p a <> None) ->
  l_run (handle_bytes F handler) (l_init p0) l = Some s -> In c (dialled l) -> In (Fin c) l -> (exists t p a, sent l c = ef_enc F t p a) ->
  exists k s', l_run (handle_bytes F handler) (l_init p0) (l ++ repeat Run k) = Some s' /\ In (sent l c) (l_log s').

(** ** A format that meets the assumptions *)
Definition toy_value (v : value) : list bytes :=
  match v with
  | VInt z => [[x00]; toy_zs [z]]
  | VBytes b => [[x01]; b]
  | VStr b => [[x02]; b]
  | VArr l => [[x03]; genc_2d toy_gob l]
  | VBool b => [[x04]; if b then [x01] else []]
  end%byte.
Definition toy_unvalue (t b : bytes) : option value :=
  match t with
  | [x00] => match toy_unzs b with Some [z] => Some (VInt z) | _ => None end
  | [x01] => Some (VBytes b)
  | [x02] => Some (VStr b)
  | [x03] => olet l := gdec_2d toy_gob b in Some (VArr l)
  | [x04] => Some (VBool (match b with [] => false | _ => true end))
  | _ => None
  end%byte.
Definition toy_fields (p : params) : list bytes :=
  flat_map (fun kv : String.string * value => String.list_byte_of_string (fst kv) :: toy_value (snd kv)) p.
Fixpoint toy_unfields (n : nat) (l : list bytes) : option params :=
  match n, l with
  | _, [] => Some []
  | S n, k :: t :: b :: r => olet v := toy_unvalue t b in olet p := toy_unfields n r in Some ((String.string_of_list_byte k, v) :: p)
  | _, _ => None
  end.
Definition toy_format : event_format := EventFormat
  (fun t p a => genc_2d toy_gob (toy_zs [t] :: a :: toy_fields p))
  (fun b => match gdec_2d toy_gob b with
            | Some (bt :: a :: r) => match toy_unzs bt, toy_unfields (length r) r with Some [t], Some p => Some (t, p, a) | _, _ => None end
            | _ => None end).
Lemma toy_fields_ok p : forall n, (length (toy_fields p) <= n)%nat -> toy_unfields n (toy_fields p) = Some p.
Proof.
  induction p as [|[k v] p IH]; intros n L; [destruct n; reflexivity|].
  unfold toy_fields in *. cbn [flat_map fst snd app] in *. destruct n as [|n]; [cbn in L; lia|].
  assert (V : exists t b, toy_value v = [t; b] /\ toy_unvalue t b = Some v).
  { destruct v as [z|b|b|l|b]; cbn [toy_value]; do 2 eexists; (split; [reflexivity|]); cbn [toy_unvalue]; auto.
    - now rewrite toy_zs_ok. - now rewrite (g_2d _ toy_gob_ok). - destruct b; reflexivity. }
  destruct V as (t & b & EV & V). rewrite EV in L |- *. cbn [app length toy_unfields] in L |- *. rewrite V, IH by lia.
  now rewrite String.string_of_list_byte_of_string.
Qed.
Lemma toy_format_ok : format_ok toy_format.
Proof.
  constructor.
  - intros t p a. cbn [toy_format ef_enc ef_dec]. rewrite (g_2d _ toy_gob_ok), toy_zs_ok, toy_fields_ok by lia. reflexivity.
  - vm_compute. reflexivity.
Qed.

(** A process that counts; connection 0 stays silent, connection 1 sends an event in two pieces. *)
Definition count (q : Z) (_ : Z) (_ : params) (_ : addr) : option Z := Some (q + 1)%Z.
Definition toy_bytes : bytes := ef_enc toy_format 11 [] [x41]%byte.
Definition toy_traffic : list tcp_event :=
  [Dial 0; Dial 1; Run; Seg 1 (firstn 3 toy_bytes); Run; Seg 1 (skipn 3 toy_bytes); Fin 1; Run].
Ltac proper_trace := repeat match goal with
  | |- proper [] => constructor
  | |- proper ?l => let l' := eval cbv in (removelast l) in let w := eval cbv in (last l Run) in
      change l with (l' ++ [w]); constructor; [|intros c E; try discriminate E; injection E as <-; cbn; intuition discriminate
        |intros c E; cbn [mentions] in E; try discriminate E; try (apply Nat.eqb_eq in E; subst c); cbn; intuition discriminate]
  end.
Lemma toy_mixed_proper a b d : proper [Dial 0; Dial 1; Seg 1 a; Run; Seg 0 b; Fin 1; Run; Seg 0 d; Fin 0].
Proof. proper_trace. Qed.
Lemma toy_traffic_proper a b : proper [Dial 0; Dial 1; Run; Seg 1 a; Run; Seg 1 b; Fin 1; Run].
Proof. proper_trace. Qed.

Theorem C78_closed_means_handled_refuted : ~ closed_means_handled.
Proof.
  intros X. destruct (l_run (handle_bytes toy_format count) (l_init 0%Z) toy_traffic) as [s|] eqn:E0; [|vm_compute in E0; discriminate E0].
  assert (FA : l_cur s = Some 0 /\ l_end s 0 = None /\ l_log s = []).
  { cbn in E0. injection E0 as <-. repeat split. }
  destruct FA as (F1 & F2 & F3).
  destruct (X Z toy_format count 0%Z toy_traffic s 1) as (k & s' & E & I); auto.
  - exact toy_format_ok.
  - apply toy_traffic_proper.
  - discriminate.
  - cbn. auto.
  - cbn. auto 10.
  - exists 11%Z, [], [x41]%byte. vm_compute. reflexivity.
  - rewrite l_run_app, E0 in E.
    destruct (waits (handle_bytes toy_format count) 0 (repeat Run k) s F1 F2) as (s2 & E2 & L & _).
    + intros w Iw. apply repeat_spec in Iw. subst w. split; discriminate.
    + rewrite E2 in E. injection E as <-. rewrite L, F3 in I. destruct I.
Qed.

(** Two events, interleaved piece by piece; the second sender is done first. *)
Definition toy_bytes2 : bytes := ef_enc toy_format 12 [] [x42]%byte.
Definition toy_mixed : list tcp_event :=
  [Dial 0; Dial 1; Seg 1 toy_bytes2; Run; Seg 0 (firstn 2 toy_bytes); Fin 1; Run; Seg 0 (skipn 2 toy_bytes); Fin 0].
Example C77_instance : exists l s, proper l /\ (forall c, In c (dialled l) -> In (Fin c) l) /\
  sent l 0 = toy_bytes /\ sent l 1 = toy_bytes2 /\
  l_run (handle_bytes toy_format count) (l_init 0%Z) l = Some s /\ l_log s = [] /\
  exists s', l_run (handle_bytes toy_format count) (l_init 0%Z) (l ++ repeat Run 3) = Some s' /\ l_log s' = [toy_bytes; toy_bytes2] /\ l_proc s' = 2%Z.
Proof.
  destruct (l_run (handle_bytes toy_format count) (l_init 0%Z) toy_mixed) as [s|] eqn:E; [|vm_compute in E; discriminate E].
  exists toy_mixed, s. split; [apply toy_mixed_proper|].
  split; [intros c Ic; cbn in Ic |- *; intuition subst; auto 12|]. split; [vm_compute; reflexivity|]. split; [vm_compute; reflexivity|]. split; [exact E|].
  split; [vm_compute in E; injection E as <-; reflexivity|].
  destruct (l_run (handle_bytes toy_format count) (l_init 0%Z) (toy_mixed ++ repeat Run 3)) as [s'|] eqn:E'; [|vm_compute in E'; discriminate E'].
  exists s'. split; [reflexivity|]. vm_compute in E'. injection E' as <-. split; vm_compute; reflexivity.
Qed.
(** The hypotheses of C78 hold of a process that has just started. *)
Example C78_instance : idle (l_init 0%Z) /\ l_end (l_init 0%Z) 7 = None /\ l_buf (l_init 0%Z) 7 = [].
Proof. repeat split. Qed.

Print Assumptions C77_whole_and_in_order.
Print Assumptions C77_all_handled.
Print Assumptions C77_events_as_sent.
Print Assumptions C77_all_events.
Print Assumptions C78_silent_peer_blocks.
Print Assumptions C78_reset_stops.
Print Assumptions C78_no_event_stops.
Print Assumptions C78_empty_connection_stops.
Print Assumptions C78_closed_means_handled_refuted.
