(** Which fields of the coordinator its two goroutines read and write, and schedules in which
    they use one field at the same time.

    The goroutines are those of Launcher.v: the main loop (CoordinatorLauncher.go:230-290) and
    the listener (CoordinatorLauncher.go:29-40).  The code has no lock and no channel.  Go gives
    no meaning to a program in which one goroutine writes a variable while another uses it, and
    its runtime stops the process ("concurrent map ...") when the variable is a map.

    Here an action of the main loop and the handling of a message are paired with the fields
    they use (fields as in History.v).  That these lists leave nothing out is proved below from
    the model of the code ([covers]).  PedersenBase counts as one field, an addition to a slice
    or a map as a read and a write of it. *)
From Coq Require Import ZArith Lia List Bool.
From Coq Require Import Strings.Byte.
From Coq Require String.
From Verif Require Import ZMod Bytes Suite Pedersen ElGamal FujiOkam Equality Codec Maps Net Bridge Client
  Perm SimpleShuffle PairShuffle Server Coordinator History Launcher.
Import ListNotations.
Import String.StringSyntax.
Open Scope Z_scope.
Delimit Scope string_scope with str.

(** ** What is used *)

(** CoordinatorHandler.go: what the handler of a message of type [ty] reads; what it writes is
    [writes ty].  130-172; 174-177; 181-210 and Coordinator.go:102-111; 213-252; 267-290;
    293-362 and Coordinator.go:146-208; 364-410; 495-544; 603-643; 76-127. *)
Definition msg_reads (ty : Z) : list field :=
  if ty =? SERVER_REGISTER then [FServers; FPB]
  else if ty =? UPDATE_PEDERSEN_H then [FPB]
  else if ty =? CLIENT_REGISTER_CONTROLLERSIDE then [FClients; FPB; FServers; FG]
  else if ty =? CLIENT_REGISTER_SERVERSIDE then [FBuffer]
  else if ty =? POST_BRIDGE then [FG; FBridges]
  else if ty =? REQUEST_BRIDGES then [FEComms; FG; FPB; FReqs; FBridges; FServers; FASigs]
  else if ty =? GOT_SIGNS then [FServers; FReqs; FASigs; FBridges]
  else if ty =? Net.VOTE then [FKeys; FG; FServers; FDiffs]
  else if ty =? Net.ROUND_END then [FEKeys; FDiffs; FClients]
  else if ty =? ANNOUNCEMENT then [FClients; FServers]
  else [].

(** An action of the main loop with what it reads and writes; this can depend on the place. *)
Record piece := Piece { pc_act : action; pc_reads : place -> list field; pc_writes : place -> list field }.
(** Nothing is used after the return at CoordinatorLauncher.go:116 or 148. *)
Definition sent_to (l : list field) (s : place) : list field :=
  match lo_srv (snd s) with None => [] | Some _ => l end.
Definition always (l : list field) (_ : place) : list field := l.
(** CoordinatorLauncher.go:113-117 and 145-149: Status is written when there is no server. *)
Definition when_none (s : place) : list field :=
  match co_servers (fst s) with [] => [FStatus] | _ => [] end.
(** CoordinatorLauncher.go:260-263 *)
Definition when_first (l : list field) (s : place) : list field := if co_first (fst s) then l else [].

(** CoordinatorLauncher.go:82-95 and 251; 253-274 with 100-138; 203-210; 144-196. *)
Definition pieces (S : suite) (e : event) : list piece :=
  match e with
  | EMsg _ _ _ _ => []
  | EConfigure =>
      [Piece (op_read_h S) (always [FPB]) (always []);
       Piece (op_to_servers BCAST_PEDERSEN_H) (always [FServers]) (always []);
       Piece (op_write (fun c => set_status c CO_READY_FOR_NEW_ROUND)) (always []) (always [FStatus])]
  | EBegin fakes ord =>
      [Piece op_ready (always [FStatus]) (always []);
       Piece (op_fakes S fakes) (fun s => FFirst :: when_first [FPB; FBKeys; FBComms] s) (when_first [FBKeys; FBComms; FFirst]);
       Piece (op_write (fun c => set_buffer c [])) (always []) (always [FBuffer]);
       Piece (op_write (fun c => set_msglog c [])) (always []) (always [FMsgLog]);
       Piece (op_write (fun c => set_reqs c (Some []))) (always []) (always [FReqs]);
       Piece op_ready (always [FStatus]) (always []);
       Piece (op_write (fun c => set_status c CO_ANNOUNCE)) (always []) (always [FStatus]);
       Piece op_first_server (always [FServers]) when_none;
       Piece (op_announce S ord) (sent_to [FBComms; FBKeys; FPB]) (always [])]
  | EVotePhase =>
      [Piece (op_write clear_votes) (always []) (always [FVotes]);
       Piece (op_to_clients Net.VOTE) (always [FClients]) (always [])]
  | EEnd ord rs =>
      [Piece op_last_server (always [FServers]) when_none;
       Piece op_new_clients (sent_to [FBuffer; FEKeys; FEComms]) (sent_to [FEKeys; FEComms])] ++
      tab (length ord) (fun i => Piece (op_row S (at_ ord i) (at_ rs i)) (sent_to [FEComms; FEKeys; FDiffs; FPB]) (always [])) ++
      [Piece (op_table S rs) (sent_to [FPB]) (always []);
       Piece (if_server (fun _ => op_to_clients BCAST_PEDERSEN_RDIFF)) (sent_to [FClients]) (always []);
       Piece (if_server (fun _ => op_write clear_bridges)) (always []) (sent_to [FBridges])]
  end.

Lemma pieces_actions S e : map pc_act (pieces S e) = actions S e.
Proof.
  destruct e; try reflexivity. cbn [pieces actions]. rewrite !map_app, map_tab. reflexivity.
Qed.

(** ** The lists leave nothing out *)

(** An action of either goroutine leaves the fields outside [wr] alone; whether it stops, what
    it sends, the local variables and the new contents of the fields of [wr] depend on the
    fields of [rd] only. *)
Definition covers (a : action) (rd wr : place -> list field) : Prop :=
  forall c l,
  (forall c' l' out, a (c, l) = Some ((c', l'), out) -> forall f, ~ In f (wr (c, l)) -> agree f c c') /\
  (forall d, co_static d = co_static c -> (forall f, In f (rd (c, l)) -> agree f c d) ->
    match a (c, l), a (d, l) with
    | None, None => True
    | Some ((c', lc), oc), Some ((d', ld), od) => lc = ld /\ oc = od /\ forall f, In f (wr (c, l)) -> agree f c' d'
    | _, _ => False
    end).

(** ** Schedules *)

(** The main goroutine and the listener as in Launcher.v, as far as the schedule goes: what the
    main goroutine has still to do, and the place. *)
Fixpoint run_to (S : suite) (G : gob) (ps : list piece) (s : schedule) (at_pl : place) : option (list piece * place) :=
  match s with
  | [] => Some (ps, at_pl)
  | Some n :: s' => olet r := hear S G n at_pl in run_to S G ps s' (fst r)
  | None :: s' =>
      match ps with
      | [] => run_to S G [] s' at_pl
      | p :: ps' => olet r := pc_act p at_pl in run_to S G ps' s' (fst r)
      end
  end.

(** After the schedule [s] the main goroutine is about to take an action and the listener to
    handle [n]; both use the field [f] and one of them writes it. *)
Definition meet (S : suite) (G : gob) (c : coord) (e : event) (s : schedule) (n : heard) (f : field) : Prop :=
  exists p ps pl, run_to S G (pieces S e) s (c, no_locals) = Some (p :: ps, pl) /\
    ((In f (pc_writes p pl) /\ In f (msg_reads (he_ty n) ++ writes (he_ty n))) \/
     (In f (pc_reads p pl) /\ In f (writes (he_ty n)))).

(** The fields that are Go maps (Coordinator.go:53-76). *)
Definition is_map (f : field) : bool :=
  match f with
  | FClients | FBKeys | FBComms | FASigs | FReqs | FBridges | FEKeys | FEComms | FDiffs => true
  | _ => false
  end.

(** ** Lemmas *)

(** Two states with the same static part that agree on some fields, as records. *)
Ltac records c d :=
  destruct c as [cS cSv cSt cF cG cC cBK cBC cBu cM cA cR cV cB cEK cEC cD cK cP],
           d as [dS dSv dSt dF dG dC dBK dBC dBu dM dA dR dV dB dEK dEC dD dK dP].
(** Use every agreement there is. *)
Ltac use_agreements A :=
  let go f := (try (let E := fresh "E" in assert (E := A f ltac:(cbn; tauto)); cbn in E; subst)) in
  go FServers; go FStatus; go FFirst; go FG; go FClients; go FBKeys; go FBComms; go FBuffer; go FMsgLog; go FASigs;
  go FReqs; go FVotes; go FBridges; go FEKeys; go FEComms; go FDiffs; go FKeys; go FPB.
Ltac same_fields := let f := fresh in intros f; destruct f; cbn; intuition (try discriminate; congruence).

(** [h] as a function of the coordinator alone. *)
Definition depends (h : coord -> option (coord * list msg)) (rd wr : list field) : Prop :=
  forall c d, co_static d = co_static c -> (forall f, In f rd -> agree f c d) ->
    match h c, h d with
    | None, None => True
    | Some (c', oc), Some (d', od) => oc = od /\ forall f, In f wr -> agree f c' d'
    | _, _ => False
    end.

Lemma dep_server_register S p src : depends (fun c => co_server_register S c p src) [FServers; FPB] [FServers].
Proof.
  intros c d Es A. records c d. cbn in Es. subst dS. use_agreements A. clear A.
  unfold co_server_register. cbn. destruct (get_bytes p _); [|exact I]. split; [reflexivity|same_fields].
Qed.

Ltac dep_start A Es c d := intros c d Es A; records c d; cbn in Es; subst; use_agreements A; clear A.
(** Both sides branch on the same thing. *)
Ltac dep_cases :=
  repeat match goal with
  | |- True => exact I
  | |- match (match ?x with _ => _ end) with _ => _ end => destruct x
  | |- match (if ?x then _ else _) with _ => _ end => destruct x
  end; try exact I.
Ltac dep_end := split; [reflexivity|same_fields].

Lemma dep_pedersen_h S p : depends (fun c => co_pedersen_h S c p) [FPB] [FPB].
Proof. dep_start A Es c d. unfold co_pedersen_h. cbn. dep_cases; dep_end. Qed.

Lemma dep_client_register S p src rn :
  depends (fun c => co_client_register S c p src rn) [FClients; FPB; FServers; FG] [FClients].
Proof. dep_start A Es c d. unfold co_client_register, send, first_server, co_addr. cbn -[nth_error]. dep_cases; dep_end. Qed.

Lemma dep_client_confirm S G p : depends (fun c => co_client_confirm S G c p) [FBuffer] [FBuffer].
Proof. dep_start A Es c d. unfold co_client_confirm, co_fb, co_pub, co_addr. cbn -[fobase_params]. dep_cases; dep_end. Qed.

Lemma dep_honesty G p src : depends (fun c => co_honesty G c p src) [] [].
Proof. dep_start A Es c d. unfold co_honesty, co_addr. cbn -[gn_answer_all]. dep_cases; dep_end. Qed.

Lemma dep_post S p : depends (fun c => co_post S c p) [FG; FBridges] [FBridges].
Proof. dep_start A Es c d. unfold co_post. cbn -[eg_verify]. dep_cases; dep_end. Qed.

Lemma dep_vote S G p : depends (fun c => co_vote S G c p) [FKeys; FG; FServers; FDiffs] [FDiffs].
Proof.
  dep_start A Es c d. unfold co_vote, co_pub, rep_diff. cbn -[eg_verify check_sigs find_index nth_error]. dep_cases; dep_end.
Qed.

Lemma dep_announcement S p :
  depends (fun c => co_announcement S c p) [FClients; FServers] [FPB; FEKeys; FEComms; FDiffs; FKeys; FG; FStatus].
Proof.
  dep_start A Es c d. unfold co_announcement, to_clients, to_servers, co_addr. cbn -[dec_points ending_map]. dep_cases; dep_end.
Qed.

Lemma dep_round_end S G p rn :
  depends (fun c => co_round_end S G c p rn) [FEKeys; FDiffs; FClients] [FBKeys; FBComms; FPB; FStatus].
Proof.
  dep_start A Es c d. unfold co_round_end, to_clients, rep_diff, co_addr. cbn -[dec_points ending_map non_nil]. dep_cases; dep_end.
Qed.

(** The entries of AssignmentSignaturesLog made for a request. *)
Lemma dep_open S l : forall c d, co_static d = co_static c -> (forall f, In f [FServers; FASigs] -> agree f c d) ->
  match open_assignments S c l, open_assignments S d l with
  | None, None => True
  | Some c', Some d' => agree FASigs c' d' /\ agree FServers c' d' /\
      c' = set_asigs c (co_asigs c') /\ d' = set_asigs d (co_asigs d')
  | _, _ => False
  end.
Proof.
  induction l as [|x l IH]; intros c d Es A; cbn [open_assignments].
  - split; [apply A; cbn; tauto|]. split; [apply A; cbn; tauto|]. split; [now destruct c|now destruct d].
  - pose proof (A FServers (or_introl eq_refl)) as ES. pose proof (A FASigs (or_intror (or_introl eq_refl))) as EA. cbn in ES, EA.
    unfold init_asigs, add_asig. cbn [co_asigs set_asigs co_servers]. rewrite ES, EA. unfold co_sign, co_priv. rewrite Es.
    destruct (mget _ _) as [[sl n]|]; [|exact I]. destruct (set_nth _ _ _) as [sl'|]; [|exact I].
    match goal with |- match open_assignments S ?c1 l with _ => _ end => specialize (IH c1) end.
    match goal with |- context [open_assignments S ?d1 l] =>
      match d1 with context [co_static d] => specialize (IH d1) | context [set_asigs d] => specialize (IH d1) end end.
    match type of IH with ?P -> ?Q -> _ => assert (X : P) by exact Es; assert (Y : Q) end.
    { intros f [<-|[<-|[]]]; cbn; congruence. }
    specialize (IH X Y). destruct (open_assignments _ _ l), (open_assignments _ _ l); try exact IH.
Qed.

Lemma dep_request S G p src rn : depends (fun c => co_request S G c p src rn)
  [FEComms; FG; FPB; FReqs; FBridges; FServers; FASigs] [FReqs; FBridges; FASigs].
Proof.
  intros c d Es A.
  assert (E1 := A FEComms ltac:(cbn; tauto)). assert (E2 := A FG ltac:(cbn; tauto)). assert (E3 := A FPB ltac:(cbn; tauto)).
  assert (E4 := A FReqs ltac:(cbn; tauto)). assert (E5 := A FBridges ltac:(cbn; tauto)).
  assert (E6 := A FServers ltac:(cbn; tauto)). assert (E7 := A FASigs ltac:(cbn; tauto)). cbn [agree] in *.
  unfold co_request, co_fb. rewrite E1, E2, E3, E4, Es.
  destruct (get_int p _) as [ind|]; [|exact I]. destruct (get_bytes p _) as [sig|]; [|exact I].
  destruct (get_bytes p _) as [bn|]; [|exact I]. destruct (dec_point S bn) as [nymR|]; [|exact I].
  destruct (msg_request p) as [m|]; [|exact I].
  destruct (negb (eg_verify _ _ _ _ _)); [split; [reflexivity|]; intros f [<-|[<-|[<-|[]]]]; assumption|].
  destruct (verify_ind _ _ _ _ _ _) as [ok|]; [|exact I].
  destruct (negb ok); [split; [reflexivity|]; intros f [<-|[<-|[<-|[]]]]; assumption|].
  destruct (co_reqs c) as [reqs|]; [|exact I]. unfold assign_bridges. cbn [co_bridges set_reqs]. rewrite E5.
  destruct (get_bridges _ _ _) as [brs mm].
  destruct (map _ brs) as [|a0 l0].
  { split; [reflexivity|]. intros f [<-|[<-|[<-|[]]]]; cbn; congruence. }
  match goal with |- match (olet c3 := open_assignments S ?x ?l in _) with _ => _ end =>
    pose proof (dep_open S l x (set_bridges (set_reqs d (Some (mset reqs nymR src))) mm) Es) as O end.
  match type of O with ?Q -> _ => assert (Y : Q) by (intros f [<-|[<-|[]]]; cbn; congruence) end. specialize (O Y).
  destruct (open_assignments S _ _) as [c3|], (open_assignments S _ _) as [d3|]; try exact O; try (now destruct O).
  destruct O as (O1 & O2 & O3 & O4). cbn in O1, O2.
  dep_cases. split.
  - unfold to_servers, co_addr. rewrite O2. rewrite O3, O4. cbn. now rewrite Es.
  - intros f [<-|[<-|[<-|[]]]]; cbn [agree]; [rewrite O3, O4; reflexivity|rewrite O3, O4; reflexivity|exact O1].
Qed.

Lemma dep_got_loop S G j rq : forall l sigs out c d, co_static d = co_static c ->
  (forall f, In f [FServers; FASigs; FBridges] -> agree f c d) ->
  match got_loop S G c j rq sigs l out, got_loop S G d j rq sigs l out with
  | None, None => True
  | Some (c', oc), Some (d', od) => oc = od /\ forall f, In f [FASigs; FBridges] -> agree f c' d'
  | _, _ => False
  end.
Proof.
  induction l as [|x l IH]; intros sigs out c d Es A; cbn [got_loop].
  - split; [reflexivity|]. intros f [<-|[<-|[]]]; apply A; cbn; tauto.
  - assert (E1 := A FServers ltac:(cbn; tauto)). assert (E2 := A FASigs ltac:(cbn; tauto)).
    assert (E3 := A FBridges ltac:(cbn; tauto)). cbn [agree] in *.
    destruct (nth_error sigs 0) as [sig|]; [|exact I]. unfold add_asig. rewrite E2.
    destruct (mget (co_asigs c) (asAddr x)) as [[sl n]|]; [|exact I]. destruct (set_nth _ _ _) as [sl'|]; [|exact I].
    unfold asigs_done. cbn [co_asigs set_asigs co_servers]. rewrite E1.
    destruct (match mget _ _ with Some _ => _ | None => _ end).
    + cbn [co_bridges set_asigs]. rewrite E3. unfold get_asigs. cbn [co_asigs set_bridges set_asigs].
      destruct (msg_got _) as [m|]; [|exact I]. unfold co_sign, co_priv, co_addr. cbn [co_static set_bridges set_asigs]. rewrite Es.
      destruct (send _ rq _ _) as [m1|]; [|exact I]. apply IH; [exact Es|].
      intros f [<-|[<-|[<-|[]]]]; cbn; congruence.
    + apply IH; [exact Es|]. intros f [<-|[<-|[<-|[]]]]; cbn; congruence.
Qed.

Lemma dep_got S G p src : depends (fun c => co_got S G c p src) [FServers; FReqs; FASigs; FBridges] [FASigs; FBridges].
Proof.
  intros c d Es A.
  assert (E1 := A FServers ltac:(cbn; tauto)). assert (E2 := A FReqs ltac:(cbn; tauto)).
  assert (E3 := A FASigs ltac:(cbn; tauto)). assert (E4 := A FBridges ltac:(cbn; tauto)). cbn [agree] in *.
  unfold co_got, server_index. rewrite E1, E2.
  destruct (get_bool p _) as [ok|]; [|exact I].
  destruct (negb ok); [split; [reflexivity|]; intros f [<-|[<-|[]]]; assumption|].
  destruct (server_index_from 0 _ src) as [j|]; [|split; [reflexivity|]; intros f [<-|[<-|[]]]; assumption].
  dep_cases. apply dep_got_loop; [exact Es|]. intros f [<-|[<-|[<-|[]]]]; cbn; congruence.
Qed.

Lemma dep_handle S G ty p src rn : depends (fun c => co_handle S G c ty p src rn) (msg_reads ty) (writes ty).
Proof.
  unfold co_handle, msg_reads, writes.
  destruct (ty =? SERVER_REGISTER); [apply dep_server_register|].
  destruct (ty =? UPDATE_PEDERSEN_H); [apply dep_pedersen_h|].
  destruct (ty =? CLIENT_REGISTER_CONTROLLERSIDE); [apply dep_client_register|].
  destruct (ty =? CLIENT_REGISTER_SERVERSIDE); [apply dep_client_confirm|].
  destruct (Z.eqb_spec ty GN_HONESTY_CHALLENGE) as [->|]; [apply dep_honesty|].
  destruct (ty =? POST_BRIDGE); [apply dep_post|].
  destruct (ty =? REQUEST_BRIDGES); [apply dep_request|].
  destruct (ty =? GOT_SIGNS); [apply dep_got|].
  destruct (ty =? Net.VOTE); [apply dep_vote|].
  destruct (ty =? Net.ROUND_END); [apply dep_round_end|].
  destruct (ty =? ANNOUNCEMENT); [apply dep_announcement|].
  intros c d Es A. split; [reflexivity|intros f []].
Qed.

Lemma covers_hear S G n : covers (hear S G n) (always (msg_reads (he_ty n))) (always (writes (he_ty n))).
Proof.
  intros c l. unfold hear, always. split.
  - intros c' l' out E f Hf. destruct (co_handle S G c _ _ _ _) as [[c1 o1]|] eqn:E1; [|discriminate].
    injection E as <- <- <-. apply (co_step_frame S G c (hear_event n) c1 o1 E1). exact Hf.
  - intros d Es A. pose proof (dep_handle S G (he_ty n) (he_par n) (he_src n) (he_rn n) c d Es A) as D. cbn beta in D.
    destruct (co_handle S G c _ _ _ _) as [[c1 o1]|], (co_handle S G d _ _ _ _) as [[d1 e1]|]; try exact D.
    cbn [fst snd]. split; [reflexivity|exact D].
Qed.

Ltac cov_keep := let f := fresh in intros ? ? ? E; injection E as <- <- <-; intros f; destruct f; cbn; (reflexivity || tauto).

Lemma cov_read_h S : covers (op_read_h S) (always [FPB]) (always []).
Proof.
  intros c l. split; [cov_keep|]. intros d Es A. assert (E := A FPB ltac:(cbn; tauto)). cbn in E. cbn. rewrite E.
  repeat split. intros f [].
Qed.
Lemma cov_to_servers ty : covers (op_to_servers ty) (always [FServers]) (always []).
Proof.
  intros c l. split; [cov_keep|]. intros d Es A. assert (E := A FServers ltac:(cbn; tauto)). cbn in E. cbn.
  unfold to_servers, co_addr. rewrite E, Es. repeat split. intros f [].
Qed.
Lemma cov_to_clients ty : covers (op_to_clients ty) (always [FClients]) (always []).
Proof.
  intros c l. split; [cov_keep|]. intros d Es A. assert (E := A FClients ltac:(cbn; tauto)). cbn in E. cbn.
  unfold to_clients, co_addr. rewrite E, Es. repeat split. intros f [].
Qed.
Lemma cov_write w f0 : (forall c f, f <> f0 -> agree f c (w c)) -> (forall c d, agree f0 (w c) (w d)) ->
  covers (op_write w) (always []) (always [f0]).
Proof.
  intros K D c l. split.
  - intros c' l' out E f Hf. injection E as <- <- <-. apply K. intros ->. apply Hf. now left.
  - intros d Es A. cbn. repeat split. intros f [<-|[]]. apply D.
Qed.
Lemma cov_ready : covers op_ready (always [FStatus]) (always []).
Proof.
  intros c l. unfold op_ready. split.
  - intros c' l' out E. destruct (co_status c =? _); [|discriminate]. injection E as <- <- <-. intros; apply agree_refl.
  - intros d Es A. assert (E := A FStatus ltac:(cbn; tauto)). cbn in E. rewrite E.
    destruct (co_status c =? _); [|exact I]. repeat split. intros f [].
Qed.
Lemma dep_fakes S l : forall c d, (forall f, In f [FPB; FBKeys; FBComms] -> agree f c d) ->
  forall f, In f [FBKeys; FBComms] -> agree f (add_fakes S c l) (add_fakes S d l).
Proof.
  induction l as [|x l IH]; intros c d A f Hf; cbn [add_fakes fold_left].
  - apply A. cbn in *. tauto.
  - assert (E1 := A FPB ltac:(cbn; tauto)). assert (E2 := A FBKeys ltac:(cbn; tauto)). assert (E3 := A FBComms ltac:(cbn; tauto)).
    cbn in E1, E2, E3. apply (IH _ _); [|exact Hf]. intros g [<-|[<-|[<-|[]]]]; cbn; congruence.
Qed.
Lemma cov_fakes S fakes :
  covers (op_fakes S fakes) (fun s => FFirst :: when_first [FPB; FBKeys; FBComms] s) (when_first [FBKeys; FBComms; FFirst]).
Proof.
  intros c l. unfold op_fakes, op_write, when_first. cbn [fst snd]. split.
  - intros c' l' out E f Hf. injection E as <- <- <-. destruct (co_first c); [|apply agree_refl].
    eapply agree_trans; [apply (add_fakes_frame S fakes c f)|]; revert Hf; destruct f; cbn; tauto.
  - intros d Es A. assert (E := A FFirst ltac:(cbn; tauto)). cbn in E. rewrite E. split; [reflexivity|]. split; [reflexivity|].
    destruct (co_first c); [|intros f []]. pose proof (dep_fakes S fakes c d) as D.
    assert (X : forall f, In f [FPB; FBKeys; FBComms] -> agree f c d) by (intros f Hf; apply A; right; exact Hf). specialize (D X).
    intros f [<-|[<-|[<-|[]]]]; [exact (D FBKeys ltac:(cbn; tauto))|exact (D FBComms ltac:(cbn; tauto))|reflexivity].
Qed.
Lemma servers_none c : first_server c = None -> co_servers c = [].
Proof. unfold first_server. now destruct (co_servers c). Qed.
Lemma last_none c : last_server c = None <-> co_servers c = [].
Proof.
  unfold last_server. split; [|intros ->; reflexivity]. destruct (co_servers c) as [|x l]; [reflexivity|].
  intros E. exfalso. destruct (rev (x :: l)) as [|y r] eqn:R; [|discriminate]. apply (f_equal (@length _)) in R.
  rewrite rev_length in R. discriminate.
Qed.
Lemma cov_first_server : covers op_first_server (always [FServers]) when_none.
Proof.
  intros c l. unfold op_first_server, when_none, first_server. cbn [fst]. split.
  - intros c' l' out E f. destruct (co_servers c) as [|x r]; cbn in E; injection E as <- <- <-.
    + destruct f; cbn; tauto.
    + intros _. apply agree_refl.
  - intros d Es A. assert (E := A FServers ltac:(cbn; tauto)). cbn in E. rewrite E.
    destruct (co_servers c) as [|x r]; cbn; repeat split; try (intros f []); intros; subst; [reflexivity|contradiction].
Qed.
Lemma cov_last_server : covers op_last_server (always [FServers]) when_none.
Proof.
  intros c l. unfold op_last_server, when_none. cbn [fst]. split.
  - intros c' l' out E f Hf. destruct (last_server c) as [a|] eqn:L.
    + injection E as <- <- <-. apply agree_refl.
    + apply last_none in L. rewrite L in Hf. injection E as <- <- <-. revert Hf. destruct f; cbn; tauto.
  - intros d Es A. assert (E := A FServers ltac:(cbn; tauto)). cbn in E.
    assert (L : last_server d = last_server c) by (unfold last_server; now rewrite E). rewrite L.
    destruct (last_server c) as [a|] eqn:La.
    + repeat split. intros f Hf. destruct (co_servers c) eqn:Q; [|destruct Hf].
      rewrite (proj2 (last_none c) Q) in La. discriminate.
    + apply last_none in La. rewrite La. repeat split. intros f [<-|[]]. reflexivity.
Qed.
Lemma cov_announce S ord : covers (op_announce S ord) (sent_to [FBComms; FBKeys; FPB]) (always []).
Proof.
  intros c l. unfold op_announce, sent_to. cbn [snd]. split.
  - intros c' l' out E f _. destruct (lo_srv l).
    + destruct (non_nil _); [|discriminate]. destruct (non_nil _); [|discriminate]. injection E as <- <- <-. apply agree_refl.
    + injection E as <- <- <-. apply agree_refl.
  - intros d Es A. destruct (lo_srv l) as [a|]; [|repeat split; intros f []].
    assert (E1 := A FPB ltac:(cbn; tauto)). assert (E2 := A FBKeys ltac:(cbn; tauto)). assert (E3 := A FBComms ltac:(cbn; tauto)).
    cbn in E1, E2, E3. rewrite E1, E2, E3. unfold co_addr. rewrite Es.
    destruct (non_nil _); [|exact I]. destruct (non_nil _); [|exact I]. repeat split. intros f [].
Qed.
Lemma cov_if_server f rd wr : (forall a, covers (f a) (always rd) (always wr)) ->
  covers (if_server f) (sent_to rd) (sent_to wr).
Proof.
  intros K c l. unfold if_server, sent_to. cbn [snd]. destruct (lo_srv l) as [a|]; [exact (K a c l)|].
  split; [|intros d Es A; repeat split; intros g []]. intros c' l' out E g _. injection E as <- <- <-. apply agree_refl.
Qed.
Lemma covers_sent a rd : covers a (sent_to rd) (sent_to []) -> covers a (sent_to rd) (always []).
Proof.
  intros K c l. destruct (K c l) as [K1 K2]. unfold sent_to in K1, K2 at 2. split.
  - intros c' l' out E f _. apply (K1 c' l' out E f). unfold sent_to. destruct (lo_srv _); intros [].
  - intros d Es A. specialize (K2 d Es A). destruct (a (c, l)) as [[[c' lc] oc]|], (a (d, l)) as [[[d' ld] od]|]; try exact K2.
    destruct K2 as (-> & -> & _). repeat split. intros f [].
Qed.
Lemma covers_writes a wr : covers a (sent_to []) (sent_to wr) -> covers a (always []) (sent_to wr).
Proof.
  intros K c l. destruct (K c l) as [K1 K2]. split; [exact K1|]. intros d Es A. apply (K2 d Es). unfold sent_to. cbn.
  destruct (lo_srv l); intros f [].
Qed.
Lemma cov_row S k r : covers (op_row S k r) (sent_to [FEComms; FEKeys; FDiffs; FPB]) (always []).
Proof.
  apply covers_sent, cov_if_server. intros _ c l. split; [cov_keep|]. intros d Es A.
  assert (E1 := A FPB ltac:(cbn; tauto)). assert (E2 := A FEKeys ltac:(cbn; tauto)). assert (E3 := A FEComms ltac:(cbn; tauto)).
  assert (E4 := A FDiffs ltac:(cbn; tauto)). cbn in E1, E2, E3, E4. unfold rep_diff. rewrite E1, E2, E3, E4.
  repeat split. intros f [].
Qed.
Lemma dep_endings l : forall c d, (forall f, In f [FEKeys; FEComms] -> agree f c d) ->
  forall f, In f [FEKeys; FEComms] -> agree f (fold_left (fun c (kv : Z * Z) => add_ending c (fst kv) (snd kv)) l c)
                                             (fold_left (fun c (kv : Z * Z) => add_ending c (fst kv) (snd kv)) l d).
Proof.
  induction l as [|x l IH]; intros c d A f Hf; cbn [fold_left]; [now apply A|].
  assert (E2 := A FEKeys ltac:(cbn; tauto)). assert (E3 := A FEComms ltac:(cbn; tauto)). cbn in E2, E3.
  apply (IH _ _); [|exact Hf]. intros g [<-|[<-|[]]]; cbn; congruence.
Qed.
Lemma cov_new_clients : covers op_new_clients (sent_to [FBuffer; FEKeys; FEComms]) (sent_to [FEKeys; FEComms]).
Proof.
  apply cov_if_server. intros _ c l. split.
  - intros c' l' out E f Hf. injection E as <- <- <-. now apply fold_ending_frame.
  - intros d Es A. assert (E := A FBuffer ltac:(cbn; tauto)). cbn in E. cbn. split; [reflexivity|]. split; [reflexivity|].
    rewrite E. apply dep_endings. intros f Hf. apply A. right. exact Hf.
Qed.
Lemma cov_table S rs : covers (op_table S rs) (sent_to [FPB]) (always []).
Proof.
  apply covers_sent, cov_if_server. intros a c l. split.
  - intros c' l' out E f _. destruct (non_nil _); [|discriminate]. destruct (non_nil _); [|discriminate].
    injection E as <- <- <-. apply agree_refl.
  - intros d Es A. assert (E := A FPB ltac:(cbn; tauto)). cbn in E. rewrite E. unfold co_addr. rewrite Es.
    destruct (non_nil _); [|exact I]. destruct (non_nil _); [|exact I]. repeat split. intros f [].
Qed.

Lemma pieces_cover S e p : In p (pieces S e) -> covers (pc_act p) (pc_reads p) (pc_writes p).
Proof.
  assert (W : forall w f0, (forall c f, f <> f0 -> agree f c (w c)) -> (forall c d, agree f0 (w c) (w d)) ->
    covers (op_write w) (always []) (always [f0])) by apply cov_write.
  destruct e as [ty par src rn| |fakes ord| |ord rs]; cbn [pieces]; intros H.
  - destruct H.
  - repeat (destruct H as [<-|H]; [cbn [pc_act pc_reads pc_writes];
      first [apply cov_read_h|apply cov_to_servers|apply W; [intros c f; destruct f; cbn; congruence|reflexivity]]|]). destruct H.
  - repeat (destruct H as [<-|H]; [cbn [pc_act pc_reads pc_writes];
      first [apply cov_ready|apply cov_fakes|apply cov_first_server|apply cov_announce
            |apply W; [intros c f; destruct f; cbn; congruence|reflexivity]]|]). destruct H.
  - repeat (destruct H as [<-|H]; [cbn [pc_act pc_reads pc_writes];
      first [apply cov_to_clients|apply W; [intros c f; destruct f; cbn; congruence|reflexivity]]|]). destruct H.
  - apply in_app_iff in H. destruct H as [H|H]; [|apply in_app_iff in H; destruct H as [H|H]].
    + destruct H as [<-|[<-|[]]]; [apply cov_last_server|apply cov_new_clients].
    + unfold tab in H. apply in_map_iff in H. destruct H as (i & <- & _). apply cov_row.
    + destruct H as [<-|[<-|[<-|[]]]]; cbn [pc_act pc_reads pc_writes].
      * apply cov_table.
      * apply covers_sent, cov_if_server. intros _. apply cov_to_clients.
      * apply covers_writes, cov_if_server. intros _. apply W; [intros c f; destruct f; cbn; congruence|reflexivity].
Qed.

(** The main goroutine never takes an action that is not one of the step's. *)
Lemma run_to_incl S G : forall s ps pl ps' pl', run_to S G ps s pl = Some (ps', pl') -> incl ps' ps.
Proof.
  induction s as [|[n|] s IH]; intros ps pl ps' pl' E; cbn [run_to] in E.
  - injection E as <- <-. apply incl_refl.
  - destruct (hear S G n pl) as [r|]; [|discriminate]. exact (IH _ _ _ _ E).
  - destruct ps as [|p ps]; [exact (IH _ _ _ _ E)|]. destruct (pc_act p pl) as [r|]; [|discriminate].
    intros x Hx. right. exact (IH _ _ _ _ E x Hx).
Qed.
