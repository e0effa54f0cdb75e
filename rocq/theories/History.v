(** Histories of the coordinator: any sequence of incoming messages (from anyone, with
    any parameters) and of actions of the launcher's loop (CoordinatorLauncher.go:233-291),
    each executed atomically. *)
From Coq Require Import ZArith Znumtheory Lia List Bool Permutation.
From Coq Require Import Strings.Byte.
From Coq Require String.
From Verif Require Import ZMod Bytes Suite Pedersen ElGamal FujiOkam Equality Codec Maps Net Bridge Client
  Perm SimpleShuffle PairShuffle Server Coordinator.
Import ListNotations.
Import String.StringSyntax.
Open Scope Z_scope.
Delimit Scope string_scope with str.

Inductive event :=
| EMsg (ty : Z) (p : params) (src : addr) (rn : co_rand)  (* Handle, CoordinatorHandler.go:25-71 *)
| EConfigure                                              (* CoordinatorLauncher.go:250-251 *)
| EBegin (fakes : list (Z * Z)) (ord : list Z)            (* 253-274 *)
| EVotePhase                                              (* 284 *)
| EEnd (ord rs : list Z).                                 (* 288 *)

Definition co_step (S : suite) (G : gob) (c : coord) (e : event) : option (coord * list msg) :=
  match e with
  | EMsg ty p src rn => co_handle S G c ty p src rn
  | EConfigure => Some (co_configure S c)
  | EBegin fakes ord => begin_round S c fakes ord
  | EVotePhase => Some (begin_vote c)
  | EEnd ord rs => round_end S c ord rs
  end.

(** One step: state before, event, state after, messages sent. *)
Record step := Step { stBefore : coord; stEvent : event; stAfter : coord; stOut : list msg }.

Inductive run (S : suite) (G : gob) (c0 : coord) : list step -> coord -> Prop :=
| run_nil : run S G c0 [] c0
| run_snoc t c e c' out : run S G c0 t c -> co_step S G c e = Some (c', out) ->
    run S G c0 (t ++ [Step c e c' out]) c'.

(** Executing a list of events; None = the coordinator stopped. *)
Fixpoint exec (S : suite) (G : gob) (c : coord) (l : list event) : option (list step * coord) :=
  match l with
  | [] => Some ([], c)
  | e :: r =>
      olet (c', out) := co_step S G c e in
      olet (t, c'') := exec S G c' r in Some (Step c e c' out :: t, c'')
  end.

Lemma exec_run_from S G l : forall c0 t c t' c', run S G c0 t c -> exec S G c l = Some (t', c') ->
  run S G c0 (t ++ t') c'.
Proof.
  induction l as [|e l IH]; intros c0 t c t' c' R E; cbn [exec] in E.
  - injection E as <- <-. now rewrite app_nil_r.
  - destruct (co_step S G c e) as [[c1 out]|] eqn:E1; [|discriminate].
    destruct (exec S G c1 l) as [[t1 c2]|] eqn:E2; [|discriminate]. injection E as <- <-.
    rewrite (app_assoc t [_] t1 : t ++ (Step c e c1 out :: t1) = (t ++ [Step c e c1 out]) ++ t1).
    eapply IH; [|exact E2]. now apply run_snoc.
Qed.

Lemma exec_run S G l c t c' : exec S G c l = Some (t, c') -> run S G c t c'.
Proof. intros E. apply (exec_run_from S G l c [] c t c' (run_nil _ _ _) E). Qed.

(** ** Lemmas about the coordinator's tables *)
Lemma set_nth_length {A} (l : list A) : forall i x l', set_nth l i x = Some l' -> length l' = length l.
Proof.
  induction l as [|y r IH]; intros [|i] x l' E; cbn in E; try discriminate.
  - injection E as <-. reflexivity.
  - destruct (set_nth r i x) eqn:E1; [|discriminate]. injection E as <-. cbn. f_equal. eapply IH; eassumption.
Qed.

Lemma set_nth_spec {A} (l : list A) : forall i x l', set_nth l i x = Some l' ->
  (i < length l)%nat /\ forall j, nth_error l' j = if Nat.eqb j i then Some x else nth_error l j.
Proof.
  induction l as [|y r IH]; intros [|i] x l' E; cbn in E; try discriminate.
  - injection E as <-. cbn. split; [lia|]. now intros [|j].
  - destruct (set_nth r i x) eqn:E1; [|discriminate]. injection E as <-. destruct (IH _ _ _ E1) as [L N].
    cbn. split; [lia|]. intros [|j]; cbn; [reflexivity|]. apply N.
Qed.

Lemma set_nth_total {A} (l : list A) : forall i x, (i < length l)%nat -> exists l', set_nth l i x = Some l'.
Proof.
  induction l as [|y r IH]; intros [|i] x L; cbn in *; try lia; [eauto|].
  destruct (IH i x ltac:(lia)) as (l' & ->). eauto.
Qed.

Lemma set_nth_repeat {A} (a x : A) n : set_nth (repeat a (n + 1)) n x = Some (repeat a n ++ [x]).
Proof. induction n as [|n IH]; cbn; [reflexivity|]. cbn in IH. now rewrite IH. Qed.

Lemma add_asig_frame c a i s c' : add_asig c a i s = Some c' -> exists x, c' = set_asigs c x.
Proof.
  unfold add_asig. destruct (mget (co_asigs c) a) as [[sl n]|]; [|discriminate].
  destruct (set_nth sl i (Some s)); [|discriminate]. intros [= <-]. eauto.
Qed.

Lemma open_one S c a : add_asig (init_asigs c (asAddr a)) (asAddr a) (length (co_servers c))
    (co_sign S c (enc_assignment S a)) =
  Some (set_asigs c (mset (mset (co_asigs c) (asAddr a) (repeat None (length (co_servers c) + 1), 0)) (asAddr a)
    (repeat None (length (co_servers c)) ++ [Some (co_sign S c (enc_assignment S a))], 1))).
Proof.
  unfold add_asig, init_asigs. cbn [co_asigs set_asigs]. rewrite mget_mset_eq. rewrite set_nth_repeat. reflexivity.
Qed.

Lemma open_total S l : forall c, exists x, open_assignments S c l = Some (set_asigs c x).
Proof.
  induction l as [|a l IH]; intros c; cbn [open_assignments].
  - exists (co_asigs c). now destruct c.
  - rewrite open_one. match goal with |- context [open_assignments S ?c1 l] => destruct (IH c1) as (x & ->) end.
    now exists x.
Qed.

(** What [get_bridges] returns and leaves, whatever the orders. *)
Lemma get_bridge_spec ord m a nym m' : get_bridge ord m = Some (a, nym, m') ->
  In a ord /\ mget m a = Some (nym, false) /\ m' = mset m a (nym, true).
Proof.
  unfold get_bridge. destruct (find (bridge_free m) ord) as [b|] eqn:F; [|discriminate].
  apply find_some in F. destruct F as [I F]. unfold bridge_free in F.
  destruct (mget m b) as [[n u]|] eqn:M; [|discriminate]. destruct u; [discriminate|]. intros [= <- <- <-]. auto.
Qed.

Lemma get_bridges_spec n : forall ords m l m', get_bridges n ords m = (l, m') ->
  NoDup (map fst l) /\ (length l <= n)%nat /\
  (forall a nym, In (a, nym) l -> mget m a = Some (nym, false) /\ mget m' a = Some (nym, true)) /\
  (forall a, ~ In a (map fst l) -> mget m' a = mget m a) /\
  mkeys m' = mkeys m.
Proof.
  induction n as [|n IH]; intros ords m l m' E; cbn [get_bridges] in E.
  - injection E as <- <-. cbn. repeat split; try constructor; tauto.
  - destruct (get_bridge (ords O) m) as [[[a nym] m1]|] eqn:E1.
    2:{ injection E as <- <-. cbn. repeat split; try constructor; (lia || tauto). }
    destruct (get_bridges n (fun i => ords (Datatypes.S i)) m1) as [l1 m2] eqn:E2. injection E as <- <-.
    destruct (get_bridge_spec _ _ _ _ _ E1) as (_ & M & ->).
    destruct (IH _ _ _ _ E2) as (ND & L & I1 & O1 & K).
    assert (NA : ~ In a (map fst l1)).
    { intros I. apply in_map_iff in I. destruct I as ((b & nb) & <- & I). destruct (I1 _ _ I) as [Mb _].
      cbn [fst] in Mb. rewrite mget_mset_eq in Mb. discriminate. }
    cbn [map fst length]. split; [now constructor|]. split; [lia|]. split; [|split].
    + intros b nb [[= <- <-]|I].
      * split; [assumption|]. rewrite O1 by assumption. apply mget_mset_eq.
      * destruct (I1 _ _ I) as [Mb Mb']. split; [|assumption]. rewrite mget_mset in Mb.
        destruct (keq b a); [discriminate|assumption].
    + intros b NI. rewrite O1 by (intros ?; apply NI; now right). apply mget_mset_ne. intros ->. apply NI. now left.
    + rewrite K. apply mkeys_mset. eapply mget_keys. eassumption.
Qed.

Definition free_list (m : amap bytes (option Z * bool)) : list bytes := filter (bridge_free m) (mkeys m).

Lemma find_none_iff {A} (f : A -> bool) l : find f l = None <-> forall x, In x l -> f x = false.
Proof.
  split; [apply find_none|]. induction l as [|a l IH]; cbn; [reflexivity|]. intros Hf.
  rewrite (Hf a) by (now left). apply IH. intros x Hx. apply Hf. now right.
Qed.

Lemma filter_remove_length {A} (f g : A -> bool) (l : list A) a : NoDup l -> In a l -> f a = true -> g a = false ->
  (forall b, b <> a -> g b = f b) -> length (filter f l) = Datatypes.S (length (filter g l)).
Proof.
  intros ND I Fa Ga E. induction l as [|b l IH]; [destruct I|]. inversion ND as [|? ? NI ND']; subst.
  cbn [filter]. destruct I as [<-|I].
  - rewrite Fa, Ga. cbn [length]. do 2 f_equal. apply filter_ext_in. intros z Hz. symmetry. apply E. intros ->. contradiction.
  - assert (b <> a) by (intros ->; contradiction). rewrite E by assumption.
    destruct (f b); cbn [length]; rewrite IH by assumption; reflexivity.
Qed.

(** With real iteration orders exactly min(n, free) bridges are taken. *)
Lemma get_bridges_count n : forall ords m, mwf m -> (forall i, Permutation (ords i) (mkeys m)) ->
  length (fst (get_bridges n ords m)) = Nat.min n (length (free_list m)).
Proof.
  induction n as [|n IH]; intros ords m W HO; cbn [get_bridges]; [reflexivity|].
  destruct (get_bridge (ords O) m) as [[[a nym] m1]|] eqn:E1.
  - destruct (get_bridge_spec _ _ _ _ _ E1) as (Ia & M & ->).
    destruct (get_bridges n (fun i => ords (Datatypes.S i)) (mset m a (nym, true))) as [l1 m2] eqn:E2.
    cbn [fst length].
    assert (K : mkeys (mset m a (nym, true)) = mkeys m) by (apply mkeys_mset; eapply mget_keys; eassumption).
    assert (L : length (free_list m) = Datatypes.S (length (free_list (mset m a (nym, true))))).
    { unfold free_list. rewrite K. apply filter_remove_length with (a := a); [exact W| | | |].
      - eapply mget_keys; eassumption.
      - unfold bridge_free. now rewrite M.
      - unfold bridge_free. now rewrite mget_mset_eq.
      - intros b Nb. unfold bridge_free. now rewrite mget_mset_ne by congruence. }
    rewrite L. cbn [Nat.min]. f_equal. rewrite <- (IH (fun i => ords (Datatypes.S i))).
    + now rewrite E2.
    + now apply mwf_mset.
    + intros i. rewrite K. apply HO.
  - cbn [fst length]. unfold get_bridge in E1. destruct (find (bridge_free m) (ords O)) as [b|] eqn:F.
    + apply find_some in F. destruct F as [_ F]. unfold bridge_free in F. destruct (mget m b) as [[? ?]|]; discriminate.
    + assert (free_list m = []) as ->; [|reflexivity]. unfold free_list.
      pose proof (proj1 (find_none_iff _ _) F) as Hn.
      assert (forall x, In x (mkeys m) -> bridge_free m x = false) as Hk.
      { intros x Hx. apply Hn. eapply Permutation_in; [symmetry; apply HO|exact Hx]. }
      clear -Hk. induction (mkeys m) as [|k l IHl]; cbn; [reflexivity|].
      rewrite Hk by (now left). apply IHl. intros x Hx. apply Hk. now right.
Qed.

(** ** What each event may change and send *)
Inductive field :=
| FStatic | FServers | FStatus | FFirst | FG | FClients | FBKeys | FBComms | FBuffer | FMsgLog | FASigs | FReqs
| FVotes | FBridges | FEKeys | FEComms | FDiffs | FKeys | FPB.

Definition agree (f : field) (c c' : coord) : Prop :=
  match f with
  | FStatic => co_static c' = co_static c
  | FServers => co_servers c' = co_servers c
  | FStatus => co_status c' = co_status c
  | FFirst => co_first c' = co_first c
  | FG => co_G c' = co_G c
  | FClients => co_clients c' = co_clients c
  | FBKeys => co_bkeys c' = co_bkeys c
  | FBComms => co_bcomms c' = co_bcomms c
  | FBuffer => co_buffer c' = co_buffer c
  | FMsgLog => co_msglog c' = co_msglog c
  | FASigs => co_asigs c' = co_asigs c
  | FReqs => co_reqs c' = co_reqs c
  | FVotes => co_votes c' = co_votes c
  | FBridges => co_bridges c' = co_bridges c
  | FEKeys => co_ekeys c' = co_ekeys c
  | FEComms => co_ecomms c' = co_ecomms c
  | FDiffs => co_diffs c' = co_diffs c
  | FKeys => co_keys c' = co_keys c
  | FPB => co_pb c' = co_pb c
  end.

(** The fields an event of type [ty] may write, and the types of the messages it may
    send. *)
Definition writes (ty : Z) : list field :=
  if ty =? SERVER_REGISTER then [FServers]
  else if ty =? UPDATE_PEDERSEN_H then [FPB]
  else if ty =? CLIENT_REGISTER_CONTROLLERSIDE then [FClients]
  else if ty =? CLIENT_REGISTER_SERVERSIDE then [FBuffer]
  else if ty =? POST_BRIDGE then [FBridges]
  else if ty =? REQUEST_BRIDGES then [FReqs; FBridges; FASigs]
  else if ty =? GOT_SIGNS then [FASigs; FBridges]
  else if ty =? Net.VOTE then [FDiffs]
  else if ty =? Net.ROUND_END then [FBKeys; FBComms; FPB; FStatus]
  else if ty =? ANNOUNCEMENT then [FPB; FEKeys; FEComms; FDiffs; FKeys; FG; FStatus]
  else [].
Definition emits (ty : Z) : list Z :=
  if ty =? SERVER_REGISTER then [UPDATE_NEXT_HOP; SERVER_REGISTER_REPLY]
  else if ty =? CLIENT_REGISTER_CONTROLLERSIDE then [CLIENT_REGISTER_SERVERSIDE; INIT_PEDERSEN_R]
  else if ty =? CLIENT_REGISTER_SERVERSIDE then [CLIENT_REGISTER_CONFIRMATION]
  else if ty =? GN_HONESTY_CHALLENGE then [GN_HONESTY_ANSWER]
  else if ty =? REQUEST_BRIDGES then [SIGN_ASSIGNMENTS]
  else if ty =? GOT_SIGNS then [GOT_SIGNS]
  else if ty =? Net.ROUND_END then [Net.ROUND_END]
  else if ty =? ANNOUNCEMENT then [ANNOUNCEMENT_FINALIZE]
  else [].

Definition writes_ev (e : event) : list field :=
  match e with
  | EMsg ty _ _ _ => writes ty
  | EConfigure => [FStatus]
  | EBegin _ _ => [FFirst; FBKeys; FBComms; FBuffer; FMsgLog; FReqs; FStatus]
  | EVotePhase => [FVotes]
  | EEnd _ _ => [FStatus; FEKeys; FEComms; FBridges]
  end.
Definition emits_ev (e : event) : list Z :=
  match e with
  | EMsg ty _ _ _ => emits ty
  | EConfigure => [BCAST_PEDERSEN_H]
  | EBegin _ _ => [ANNOUNCEMENT]
  | EVotePhase => [Net.VOTE]
  | EEnd _ _ => [Net.ROUND_END; BCAST_PEDERSEN_RDIFF]
  end.

Definition frame (fs : list field) (ts : list Z) (c : coord) (r : option (coord * list msg)) : Prop :=
  forall c' out, r = Some (c', out) ->
    (forall f, ~ In f fs -> agree f c c') /\ (forall m, In m out -> In (mType m) ts).

Ltac odestruct H :=
  repeat match type of H with
  | match ?x with _ => _ end = Some _ => destruct x eqn:?; try discriminate H
  end.
Ltac fld := let f := fresh in intros f; destruct f; cbn;
  first [reflexivity | intros ?Hf; exfalso; apply Hf; tauto | (intros _; reflexivity)].
Ltac emit := let m := fresh in intros m; cbn; intuition (subst; cbn; tauto).

Lemma to_clients_type c ty p m : In m (to_clients c ty p) -> mType m = ty.
Proof. intros I. apply in_map_iff in I. now destruct I as (? & <- & _). Qed.
Lemma to_servers_type c ty p m : In m (to_servers c ty p) -> mType m = ty.
Proof. intros I. apply in_map_iff in I. now destruct I as (? & <- & _). Qed.

Lemma agree_trans f c1 c2 c3 : agree f c1 c2 -> agree f c2 c3 -> agree f c1 c3.
Proof. destruct f; cbn; congruence. Qed.
Lemma agree_refl f c : agree f c c.
Proof. destruct f; reflexivity. Qed.

Lemma got_loop_frame S G j rq : forall l sigs c out0 c' out, got_loop S G c j rq sigs l out0 = Some (c', out) ->
  (forall f, ~ In f [FASigs; FBridges] -> agree f c c') /\
  (forall m, In m out -> In m out0 \/ mType m = GOT_SIGNS).
Proof.
  induction l as [|a l IH]; intros sigs c out0 c' out E; cbn [got_loop] in E.
  - injection E as <- <-. split; [intros; apply agree_refl|]. tauto.
  - odestruct E.
    + match goal with H : add_asig _ _ _ _ = Some _ |- _ => apply add_asig_frame in H; destruct H as (x & ->) end.
      apply IH in E. destruct E as [F O]. split.
      * intros f Hf. eapply agree_trans; [|apply F; assumption]. revert Hf. destruct f; cbn; tauto.
      * intros m' Hm. destruct (O m' Hm) as [I|]; [|tauto]. apply in_app_iff in I. destruct I as [|[<-|[]]]; [tauto|].
        right. match goal with H : send _ _ _ _ = Some _ |- _ => unfold send in H; odestruct H; injection H as <- end.
        reflexivity.
    + match goal with H : add_asig _ _ _ _ = Some _ |- _ => apply add_asig_frame in H; destruct H as (x & ->) end.
      apply IH in E. destruct E as [F O]. split; [|assumption].
      intros f Hf. eapply agree_trans; [|apply F; assumption]. revert Hf. destruct f; cbn; tauto.
Qed.

Lemma add_fakes_frame S l : forall c f, ~ In f [FBKeys; FBComms] -> agree f c (add_fakes S c l).
Proof.
  induction l as [|a l IH]; intros c f Hf; [apply agree_refl|]. cbn [add_fakes fold_left].
  eapply agree_trans; [|apply (IH _ f Hf)]. revert Hf. destruct f; cbn; tauto.
Qed.

Lemma fold_ending_frame l : forall c f, ~ In f [FEKeys; FEComms] ->
  agree f c (fold_left (fun c (kv : Z * Z) => add_ending c (fst kv) (snd kv)) l c).
Proof.
  induction l as [|a l IH]; intros c f Hf; [apply agree_refl|]. cbn [fold_left].
  eapply agree_trans; [|apply (IH _ f Hf)]. revert Hf. destruct f; cbn; tauto.
Qed.

Lemma co_request_frame S G c p src rn :
  frame [FReqs; FBridges; FASigs] [SIGN_ASSIGNMENTS] c (co_request S G c p src rn).
Proof.
  intros c' out E. unfold co_request in E. odestruct E; try (injection E as <- <-); subst; try (split; [fld|emit]; fail).
  - match goal with H : assign_bridges _ _ _ _ = _ |- _ => unfold assign_bridges in H;
      destruct (get_bridges _ _ _) as [brs mm]; injection H as Hl <- end.
    split; [fld|emit].
  - match goal with H : assign_bridges _ _ _ _ = _ |- _ => unfold assign_bridges in H;
      destruct (get_bridges _ _ _) as [brs mm]; injection H as Hl <- end.
    match goal with H : open_assignments S ?c1 ?l = Some _ |- _ => destruct (open_total S l c1) as (x & Hx); rewrite Hx in H;
      injection H as <- end.
    split; [fld|]. intros m I. apply to_servers_type in I. rewrite I. now left.
Qed.

Lemma co_step_frame S G c e : frame (writes_ev e) (emits_ev e) c (co_step S G c e).
Proof.
  destruct e as [ty p src rn| |fakes ord| |ord rs]; cbn [co_step writes_ev emits_ev].
  - unfold co_handle, writes, emits.
    destruct (Z.eqb_spec ty SERVER_REGISTER) as [->|N1];
      [|destruct (Z.eqb_spec ty UPDATE_PEDERSEN_H) as [->|N2];
      [|destruct (Z.eqb_spec ty CLIENT_REGISTER_CONTROLLERSIDE) as [->|N3];
      [|destruct (Z.eqb_spec ty CLIENT_REGISTER_SERVERSIDE) as [->|N4];
      [|destruct (Z.eqb_spec ty GN_HONESTY_CHALLENGE) as [->|N5];
      [|destruct (Z.eqb_spec ty POST_BRIDGE) as [->|N6];
      [|destruct (Z.eqb_spec ty REQUEST_BRIDGES) as [->|N7];
      [|destruct (Z.eqb_spec ty GOT_SIGNS) as [->|N8];
      [|destruct (Z.eqb_spec ty Net.VOTE) as [->|N9];
      [|destruct (Z.eqb_spec ty Net.ROUND_END) as [->|N10];
      [|destruct (Z.eqb_spec ty ANNOUNCEMENT) as [->|N11]]]]]]]]]]];
      cbv [Z.eqb Pos.eqb SERVER_REGISTER UPDATE_PEDERSEN_H CLIENT_REGISTER_CONTROLLERSIDE CLIENT_REGISTER_SERVERSIDE
           GN_HONESTY_CHALLENGE POST_BRIDGE REQUEST_BRIDGES GOT_SIGNS Net.VOTE Net.ROUND_END ANNOUNCEMENT]; cbn iota.
    + intros c' out E. unfold co_server_register in E. odestruct E. injection E as <- <-. split; [fld|].
      intros m I. apply in_app_iff in I. destruct I as [I|[<-|[]]]; [|cbn; tauto].
      destruct (last_server c); [|destruct I]. destruct I as [<-|[]]. cbn; tauto.
    + intros c' out E. unfold co_pedersen_h in E. odestruct E. injection E as <- <-. split; [fld|emit].
    + intros c' out E. unfold co_client_register in E. cbn [ped_commit] in E. odestruct E. injection E as <- <-.
      split; [fld|]. intros m' I. match goal with H : send _ _ _ _ = Some _ |- _ => unfold send in H; odestruct H; injection H as <- end.
      destruct I as [<-|[<-|[]]]; cbn; tauto.
    + intros c' out E. unfold co_client_confirm in E. odestruct E. injection E as <- <-. split; [fld|emit].
    + intros c' out E. unfold co_honesty in E. odestruct E. injection E as <- <-. split; [fld|emit].
    + intros c' out E. unfold co_post in E. odestruct E; injection E as <- <-; (split; [fld|emit]).
    + apply co_request_frame.
    + intros c' out E. unfold co_got in E. odestruct E; try (injection E as <- <-; split; [fld|emit]).
      apply got_loop_frame in E. destruct E as [F O]. split; [exact F|]. intros m' I. destruct (O m' I) as [[]| ->]. now left.
    + intros c' out E. unfold co_vote in E. odestruct E; injection E as <- <-; (split; [fld|emit]).
    + intros c' out E. unfold co_round_end in E. odestruct E. injection E as <- <-. split; [fld|].
      intros m I. apply to_clients_type in I. rewrite I. now left.
    + intros c' out E. unfold co_announcement in E. odestruct E. injection E as <- <-. split; [fld|].
      intros m I. apply in_app_iff in I. destruct I as [I|I]; [apply to_clients_type in I|apply to_servers_type in I]; rewrite I; now left.
    + intros c' out E. injection E as <- <-. split; [fld|emit].
  - intros c' out E. injection E as <- <-. split; [fld|]. intros m I. apply to_servers_type in I. rewrite I. now left.
  - intros c' out E. unfold begin_round, announce in E. destruct (negb _); [discriminate|].
    set (c1 := if co_first c then _ else c) in *.
    assert (F1 : forall f, ~ In f [FFirst; FBKeys; FBComms] -> agree f c c1).
    { intros f Hf. unfold c1. destruct (co_first c); [|apply agree_refl].
      eapply agree_trans; [apply (add_fakes_frame S fakes c f)|]; revert Hf; destruct f; cbn; tauto. }
    clearbody c1. odestruct E; injection E as <- <-; (split; [|emit]);
      intros f Hf; (eapply agree_trans; [apply F1|]; revert Hf; destruct f; cbn; tauto).
  - intros c' out E. injection E as <- <-. split; [fld|]. intros m I. apply to_clients_type in I. rewrite I. now left.
  - intros c' out E. unfold round_end in E. destruct (last_server c); [|injection E as <- <-; split; [fld|emit]].
    set (c1 := fold_left _ _ c) in *.
    assert (F1 : forall f, ~ In f [FEKeys; FEComms] -> agree f c c1) by apply fold_ending_frame.
    clearbody c1. odestruct E; injection E as <- <-. split.
    + intros f Hf; (eapply agree_trans; [apply F1|]; revert Hf; destruct f; cbn; tauto).
    + intros m [<-|I]; [cbn; tauto|]. apply to_clients_type in I. rewrite I. cbn; tauto.
Qed.
