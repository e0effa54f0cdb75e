(** C91: the coordinator's two goroutines use its fields without a lock. *)
From Coq Require Import ZArith Lia List Bool.
From Coq Require Import Strings.Byte.
From Coq Require String.
From Verif Require Import ZMod Bytes Suite Pedersen ElGamal FujiOkam Equality Codec Maps Net Bridge Client
  Perm SimpleShuffle PairShuffle Server Coordinator History System Round RoundInv
  Prop_FujiOkam Prop_Codec Prop_Bridge Prop_Shuffle Prop_Assign Prop_Topology Prop_Round Launcher Race Prop_Launcher.
Import ListNotations.
Import String.StringSyntax.
Open Scope Z_scope.
Delimit Scope string_scope with str.

(** ** Specification *)

(** C91: in a session of honest processes, whatever the main goroutine is doing and whatever
    message is handled meanwhile, they never use the same field at once with one of them
    writing it. *)
Definition race_free : Prop :=
  forall S H G, suite_ok S -> gob_ok G -> forall y V, reach S H G y V ->
  forall e s m rn f, is_main_step e -> co_step S G (y_coord y) e <> None -> heard_in s = [] ->
  In m (y_msgs y) -> mDst m = co_addr (y_coord y) ->
  ~ meet S G (y_coord y) e s (heard_of rn m) f.

(** The types of messages that are not safe while the main loop takes the step [e]. *)
Definition unsafe (e : event) : list Z :=
  match e with
  | EConfigure => [SERVER_REGISTER; UPDATE_PEDERSEN_H; Net.ROUND_END; ANNOUNCEMENT]
  | EBegin _ _ => [SERVER_REGISTER; UPDATE_PEDERSEN_H; CLIENT_REGISTER_SERVERSIDE; REQUEST_BRIDGES; GOT_SIGNS;
                   Net.ROUND_END; ANNOUNCEMENT]
  | EVotePhase => [CLIENT_REGISTER_CONTROLLERSIDE]
  | EEnd _ _ => [SERVER_REGISTER; UPDATE_PEDERSEN_H; CLIENT_REGISTER_CONTROLLERSIDE; CLIENT_REGISTER_SERVERSIDE;
                 POST_BRIDGE; REQUEST_BRIDGES; GOT_SIGNS; Net.VOTE; Net.ROUND_END; ANNOUNCEMENT]
  | EMsg _ _ _ _ => []
  end.

(** ** Theorems *)

(** The lists of fields leave nothing out: for the actions of the main loop... *)
Theorem C91_main_covered S e : map pc_act (pieces S e) = actions S e /\
  Forall (fun p => covers (pc_act p) (pc_reads p) (pc_writes p)) (pieces S e).
Proof. split; [apply pieces_actions|]. apply Forall_forall. apply pieces_cover. Qed.
(** ... and for the handling of messages. *)
Theorem C91_messages_covered S G n :
  covers (hear S G n) (fun _ => msg_reads (he_ty n)) (fun _ => writes (he_ty n)).
Proof. apply covers_hear. Qed.

(** The fields a step can write and read. *)
Definition step_writes (e : event) : list field :=
  match e with
  | EConfigure => [FStatus]
  | EBegin _ _ => [FBKeys; FBComms; FFirst; FBuffer; FMsgLog; FReqs; FStatus]
  | EVotePhase => [FVotes]
  | EEnd _ _ => [FStatus; FEKeys; FEComms; FBridges]
  | EMsg _ _ _ _ => []
  end.
Definition step_reads (e : event) : list field :=
  match e with
  | EConfigure => [FPB; FServers]
  | EBegin _ _ => [FStatus; FFirst; FPB; FBKeys; FBComms; FServers]
  | EVotePhase => [FClients]
  | EEnd _ _ => [FServers; FBuffer; FEKeys; FEComms; FDiffs; FPB; FClients]
  | EMsg _ _ _ _ => []
  end.
Lemma sent_to_incl l s f : In f (sent_to l s) -> In f l.
Proof. unfold sent_to. destruct (lo_srv _); [auto|intros []]. Qed.
Lemma when_none_incl s f : In f (when_none s) -> f = FStatus.
Proof. unfold when_none. destruct (co_servers _); [intros [<-|[]]; reflexivity|intros []]. Qed.
Lemma when_first_incl l s f : In f (when_first l s) -> In f l.
Proof. unfold when_first. destruct (co_first _); [auto|intros []]. Qed.
Lemma piece_incl S e p pl f : In p (pieces S e) ->
  (In f (pc_writes p pl) -> In f (step_writes e)) /\ (In f (pc_reads p pl) -> In f (step_reads e)).
Proof.
  assert (Q : forall p' : piece, p' = p ->
    (In f (pc_writes p' pl) -> In f (step_writes e)) /\ (In f (pc_reads p' pl) -> In f (step_reads e)) ->
    (In f (pc_writes p pl) -> In f (step_writes e)) /\ (In f (pc_reads p pl) -> In f (step_reads e))) by (intros ? <-; auto).
  destruct e as [ty par src rn| |fakes ord| |ord rs]; cbn [pieces]; intros H; try apply in_app_iff in H;
    [destruct H| | | |destruct H as [H|H]; [|apply in_app_iff in H; destruct H as [H|H]]].
  5:{ unfold tab in H. apply in_map_iff in H. destruct H as (i & <- & _). cbn [pc_writes pc_reads]. split; [intros []|].
      intros I. apply sent_to_incl in I. cbn in *. tauto. }
  all: cbn [In] in H; repeat match goal with H : _ \/ _ |- _ => destruct H as [H|H] end; try contradiction;
    (eapply Q; [exact H|]); cbn [pc_writes pc_reads]; unfold always; split; intros I;
    repeat match goal with
    | I : In _ (_ :: when_first _ _) |- _ => destruct I as [<-|I]
    | I : In _ (sent_to _ _) |- _ => apply sent_to_incl in I
    | I : In _ (when_none _) |- _ => apply when_none_incl in I; subst f
    | I : In _ (when_first _ _) |- _ => apply when_first_incl in I
    end; cbn in *; tauto.
Qed.

(** Every other message is safe during the step, whatever else is handled before. *)
Theorem C91_safe_messages_partial S G c e s n f : ~ In (he_ty n) (unsafe e) -> ~ meet S G c e s n f.
Proof.
  intros N (p & ps & pl & R & M).
  assert (I : In p (pieces S e)) by (apply (run_to_incl S G _ _ _ _ _ R); now left).
  destruct (piece_incl S e p pl f I) as [IW IR].
  assert (D : (In f (step_writes e) /\ In f (msg_reads (he_ty n) ++ writes (he_ty n))) \/
              (In f (step_reads e) /\ In f (writes (he_ty n)))) by tauto.
  clear - N D. revert N D. generalize (he_ty n) as ty. intros ty. unfold msg_reads, writes.
  repeat match goal with
  | |- context [ty =? ?k] => destruct (Z.eqb_spec ty k) as [->|]
  end; destruct e; cbn; intros N D; repeat match goal with D : _ \/ _ |- _ => destruct D | D : _ /\ _ |- _ => destruct D end;
    try contradiction; try congruence; try (apply N; tauto).
Qed.

(** The main goroutine alone gets as far as it likes in a step that does not stop. *)
Lemma run_alone S G : forall k ps pl r, perform (map pc_act ps) pl = Some r -> (k < length ps)%nat ->
  exists p pl', run_to S G ps (repeat None k) pl = Some (p :: skipn (Datatypes.S k) ps, pl') /\ nth_error ps k = Some p.
Proof.
  induction k as [|k IH]; intros ps pl r E L; (destruct ps as [|p ps]; [cbn in L; lia|]); cbn [repeat run_to].
  - exists p, pl. split; reflexivity.
  - cbn [map perform] in E. destruct (pc_act p pl) as [[pl1 o1]|]; [|discriminate]. cbn [fst] in *.
    destruct (perform (map pc_act ps) pl1) as [r'|] eqn:E1; [|discriminate].
    apply (IH ps pl1 r' E1). cbn in L. lia.
Qed.
(** The server to send to stays what it is. *)
Definition keeps_srv (p : piece) : Prop := forall s s' o, pc_act p s = Some (s', o) -> lo_srv (snd s') = lo_srv (snd s).
Lemma run_srv S G : forall k ps pl ps' pl', Forall keeps_srv ps -> run_to S G ps (repeat None k) pl = Some (ps', pl') ->
  lo_srv (snd pl') = lo_srv (snd pl).
Proof.
  induction k as [|k IH]; intros ps pl ps' pl' F E; cbn [repeat run_to] in E; [injection E as <- <-; reflexivity|].
  destruct ps as [|p ps]; [exact (IH _ _ _ _ F E)|]. inversion F as [|? ? Fp Fs]; subst.
  destruct (pc_act p pl) as [[pl1 o1]|] eqn:Ep; [|discriminate]. cbn [fst] in E. rewrite (IH _ _ _ _ Fs E). exact (Fp _ _ _ Ep).
Qed.
Lemma end_keeps S ord rs : Forall keeps_srv (tl (pieces S (EEnd ord rs))).
Proof.
  cbn [pieces app tl]. constructor; [|apply Forall_app; split; [|repeat constructor]]; try apply Forall_forall.
  - intros [c l] [c' l'] o E. cbn in *. unfold op_new_clients, if_server, op_write in E. cbn in E. destruct (lo_srv l) eqn:L; injection E as <- <- <-; now rewrite L.
  - intros p I. unfold tab in I. apply in_map_iff in I. destruct I as (i & <- & _). intros [c l] [c' l'] o E. cbn in *.
    unfold op_row, if_server in E. cbn in E. destruct (lo_srv l) eqn:L; injection E as <- <- <-; cbn; now rewrite ?L.
  - intros [c l] [c' l'] o E. cbn in *. unfold op_table, if_server in E. cbn in E. destruct (lo_srv l) eqn:L; [|injection E as <- <- <-; now rewrite L].
    destruct (non_nil _); [|discriminate]. destruct (non_nil _); [|discriminate]. injection E as <- <- <-. cbn. reflexivity.
  - intros [c l] [c' l'] o E. cbn in *. unfold if_server in E. cbn in E. destruct (lo_srv l) eqn:L; injection E as <- <- <-; now rewrite L.
  - intros [c l] [c' l'] o E. cbn in *. unfold if_server, op_write in E. cbn in E. destruct (lo_srv l) eqn:L; injection E as <- <- <-; now rewrite L.
Qed.

Lemma first_srv S G c fakes ord ps pl : co_step S G c (EBegin fakes ord) <> None -> co_servers c <> [] ->
  run_to S G (pieces S (EBegin fakes ord)) (repeat None 8) (c, no_locals) = Some (ps, pl) -> lo_srv (snd pl) <> None.
Proof.
  intros W T R. cbn [co_step] in W. unfold begin_round in W.
  destruct (co_status c =? CO_READY_FOR_NEW_ROUND) eqn:St; [|now elim W]. clear W.
  cbn [pieces repeat run_to pc_act] in R. unfold op_ready at 1 in R. rewrite St in R. cbn [fst] in R.
  unfold op_fakes, op_write in R. cbn [fst snd] in R.
  set (c1 := if co_first c then set_first (add_fakes S c fakes) false else c) in *.
  assert (S1 : co_status c1 = co_status c /\ co_servers c1 = co_servers c).
  { unfold c1. destruct (co_first c); [|split; reflexivity].
    split; [exact (add_fakes_frame S fakes c FStatus ltac:(cbn; intuition discriminate))
           |exact (add_fakes_frame S fakes c FServers ltac:(cbn; intuition discriminate))]. }
  destruct S1 as [S1 S2]. clearbody c1. unfold op_ready in R. cbn [co_status set_reqs set_msglog set_buffer] in R. rewrite S1, St in R.
  cbn [fst] in R. unfold op_first_server, first_server in R. cbn [co_servers set_status set_reqs set_msglog set_buffer] in R. rewrite S2 in R.
  destruct (co_servers c) as [|x l]; [contradiction|]. cbn in R. injection R as _ <-. cbn. discriminate.
Qed.

(** A step of the main loop that does not stop, with something to do. *)
Definition at_work (S : suite) (G : gob) (c : coord) (e : event) : Prop :=
  co_step S G c e <> None /\
  match e with
  | EMsg _ _ _ _ => False
  | EBegin _ _ => co_servers c <> []
  | EEnd ord _ => co_servers c <> [] /\ ord <> []
  | _ => True
  end.

(** The messages named are not safe: any message of one of these types can be handled at a
    moment when the main goroutine uses a field that its handler uses, and one writes it. *)
Theorem C91_unsafe_messages S G c e n : at_work S G c e -> In (he_ty n) (unsafe e) ->
  exists k f, meet S G c e (repeat None k) n f.
Proof.
  intros [W T] U.
  assert (P : exists r, perform (map pc_act (pieces S e)) (c, no_locals) = Some r).
  { rewrite pieces_actions. pose proof (alone S G c e) as A. destruct (perform (actions S e) (c, no_locals)) as [r|]; [now exists r|].
    exfalso. apply W. rewrite <- A; [reflexivity|]. destruct e; [contradiction|exact I..]. }
  destruct P as [r P].
  assert (K : forall k f, (k < length (pieces S e))%nat ->
    (forall p pl, nth_error (pieces S e) k = Some p -> run_to S G (pieces S e) (repeat None k) (c, no_locals) = Some (p :: skipn (Datatypes.S k) (pieces S e), pl) ->
      (In f (pc_writes p pl) /\ In f (msg_reads (he_ty n) ++ writes (he_ty n))) \/ (In f (pc_reads p pl) /\ In f (writes (he_ty n)))) ->
    exists k f, meet S G c e (repeat None k) n f).
  { intros k f Lk H. destruct (run_alone S G k _ _ _ P Lk) as (p & pl & R & N). exists k, f, p, (skipn (Datatypes.S k) (pieces S e)), pl.
    split; [exact R|]. now apply H. }
  destruct e as [ty par src rn| |fakes ord| |ord rs]; cbn [unsafe] in U.
  - contradiction.
  - destruct U as [U|[U|[U|[U|[]]]]]; rewrite <- U in K.
    + apply (K 1%nat FServers); [cbn; lia|]. intros p pl N _. injection N as <-. right. cbn. tauto.
    + apply (K 0%nat FPB); [cbn; lia|]. intros p pl N _. injection N as <-. right. cbn. tauto.
    + apply (K 0%nat FPB); [cbn; lia|]. intros p pl N _. injection N as <-. right. cbn. tauto.
    + apply (K 0%nat FPB); [cbn; lia|]. intros p pl N _. injection N as <-. right. cbn. tauto.
  - destruct U as [U|[U|[U|[U|[U|[U|[U|[]]]]]]]]; rewrite <- U in K.
    + apply (K 7%nat FServers); [cbn; lia|]. intros p pl N _. injection N as <-. right. cbn. tauto.
    + apply (K 8%nat FPB); [cbn; lia|]. intros p pl N R. injection N as <-. right. split; [|cbn; tauto]. cbn [pc_reads].
      assert (Q : lo_srv (snd pl) <> None).
      { apply (first_srv S G c fakes ord) in R; [exact R|exact W|exact T]. }
      unfold sent_to. destruct (lo_srv (snd pl)); [cbn; tauto|congruence].
    + apply (K 2%nat FBuffer); [cbn; lia|]. intros p pl N _. injection N as <-. left. cbn. tauto.
    + apply (K 4%nat FReqs); [cbn; lia|]. intros p pl N _. injection N as <-. left. cbn. tauto.
    + apply (K 4%nat FReqs); [cbn; lia|]. intros p pl N _. injection N as <-. left. cbn. tauto.
    + apply (K 0%nat FStatus); [cbn; lia|]. intros p pl N _. injection N as <-. right. cbn. tauto.
    + apply (K 0%nat FStatus); [cbn; lia|]. intros p pl N _. injection N as <-. right. cbn. tauto.
  - destruct U as [U|[]]. rewrite <- U in K. apply (K 1%nat FClients); [cbn; lia|]. intros p pl N _. injection N as <-. right. cbn. tauto.
  - destruct T as [NS NO].
    assert (Q : forall k ps' pl, (0 < k)%nat -> run_to S G (pieces S (EEnd ord rs)) (repeat None k) (c, no_locals) = Some (ps', pl) ->
      forall l, sent_to l pl = l).
    { intros [|k] ps' pl Hk R l; [lia|]. pose proof (end_keeps S ord rs) as F. cbn [pieces app tl] in F.
      cbn [pieces app repeat run_to pc_act] in R. unfold op_last_server at 1 in R.
      destruct (last_server c) as [a|] eqn:L; [|apply last_none in L; contradiction]. cbn [fst] in R.
      apply (run_srv S G k _ _ _ _ F) in R. unfold sent_to. rewrite R. reflexivity. }
    assert (LP : length (pieces S (EEnd ord rs)) = (length ord + 5)%nat).
    { cbn [pieces]. rewrite !app_length. unfold tab. rewrite map_length, seq_length. cbn. lia. }
    assert (N3 : forall i, (i < 3)%nat -> nth_error (pieces S (EEnd ord rs)) (2 + length ord + i) = nth_error
      [Piece (op_table S rs) (sent_to [FPB]) (always []);
       Piece (if_server (fun _ => op_to_clients BCAST_PEDERSEN_RDIFF)) (sent_to [FClients]) (always []);
       Piece (if_server (fun _ => op_write clear_bridges)) (always []) (sent_to [FBridges])] i).
    { intros i Hi. cbn [pieces app]. cbn [Nat.add nth_error]. rewrite nth_error_app2; unfold tab; rewrite map_length, seq_length; [|lia].
      f_equal. lia. }
    assert (KP : forall i f, (i < 3)%nat -> (i = 0%nat /\ f = FPB \/ i = 1%nat /\ f = FClients) -> In f (writes (he_ty n)) ->
      exists k f, meet S G c (EEnd ord rs) (repeat None k) n f).
    { intros i f Hi C Hw. apply (K (2 + length ord + i)%nat f); [lia|]. intros p pl N R. apply Q with (l := [f]) in R; [|lia].
      rewrite N3 in N by lia. right. split; [|exact Hw].
      destruct C as [[-> ->]|[-> ->]]; injection N as <-; cbn [pc_reads]; rewrite R; now left. }
    assert (KB : In FBridges (msg_reads (he_ty n) ++ writes (he_ty n)) -> exists k f, meet S G c (EEnd ord rs) (repeat None k) n f).
    { intros Hw. apply (K (2 + length ord + 2)%nat FBridges); [lia|]. intros p pl N R. apply Q with (l := [FBridges]) in R; [|lia].
      rewrite N3 in N by lia. injection N as <-. left. split; [|exact Hw]. cbn [pc_writes]. rewrite R. now left. }
    destruct U as [U|[U|[U|[U|[U|[U|[U|[U|[U|[U|[]]]]]]]]]]]; rewrite <- U in K, KP, KB.
    + apply (K 0%nat FServers); [lia|]. intros p pl N _. injection N as <-. right. cbn. tauto.
    + apply (KP 0%nat FPB); cbn; try lia; tauto.
    + apply (KP 1%nat FClients); cbn; try lia; tauto.
    + apply (K 1%nat FBuffer); [lia|]. intros p pl N R. apply Q with (l := [FBuffer; FEKeys; FEComms]) in R; [|lia].
      injection N as <-. right. split; [|cbn; tauto]. cbn [pc_reads]. rewrite R. now left.
    + apply KB. cbn. tauto.
    + apply KB. cbn. tauto.
    + apply KB. cbn. tauto.
    + apply (K 2%nat FDiffs); [lia|]. intros p pl N R. apply Q with (l := [FEComms; FEKeys; FDiffs; FPB]) in R; [|lia].
      destruct ord as [|o ord]; [contradiction|]. cbn in N. injection N as <-. right. split; [|cbn; tauto]. cbn [pc_reads]. rewrite R. cbn. tauto.
    + apply (KP 0%nat FPB); cbn; try lia; tauto.
    + apply (KP 0%nat FPB); cbn; try lia; tauto.
Qed.

(** A client that registers while the start of the vote is being sent: the loop over the map of
    clients and the addition to it happen at the same time.  The addition is one (the map is
    changed), and it matters to the loop (the client is sent the message only if it is there). *)
Theorem C91_register_during_vote S G c p src rn bk : get_bytes p "public_key"%str = Some bk ->
  co_servers c <> [] -> co_G c <> None -> (forall kv, In kv (co_clients c) -> snd kv <> src) ->
  let n := Heard CLIENT_REGISTER_CONTROLLERSIDE p src rn in
  meet S G c EVotePhase [None] n FClients /\ is_map FClients = true /\
  exists c' out, co_handle S G c (he_ty n) (he_par n) (he_src n) (he_rn n) = Some (c', out) /\
    co_clients c' <> co_clients c /\
    In src (map mDst (snd (begin_vote c'))) /\ ~ In src (map mDst (snd (begin_vote c))).
Proof.
  intros B NS NG NC n. split; [|split; [reflexivity|]].
  - eexists _, _, _. split; [reflexivity|]. right. cbn. tauto.
  - unfold n. cbn [he_ty he_par he_src he_rn]. change (co_handle S G c CLIENT_REGISTER_CONTROLLERSIDE p src rn) with (co_client_register S c p src rn).
    unfold co_client_register. rewrite B. cbn [ped_commit]. unfold send, first_server.
    destruct (co_servers c) as [|sv l]; [contradiction|]. destruct (co_G c) as [g|]; [|congruence]. cbn [nth_error option_map].
    assert (N : ~ In src (map mDst (snd (begin_vote c)))).
    { unfold begin_vote, to_clients. cbn [snd]. rewrite map_map. cbn. intros I. apply in_map_iff in I. destruct I as (kv & E & I).
      exact (NC kv I E). }
    eexists _, _. split; [reflexivity|]. cbn [co_clients set_clients].
    assert (I : In src (map snd (add_client (crClients rn) (co_clients c) (dec_point_unchecked bk) src))).
    { unfold add_client. match goal with |- In src (map snd (mset ?m ?k _)) => pose proof (mget_mset_eq m k src) as X end.
      apply mget_In in X. apply in_map_iff. eexists (_, _). split; [|exact X]. reflexivity. }
    split; [|split].
    + intros E. rewrite E in I. apply in_map_iff in I. destruct I as (kv & E' & I). exact (NC kv I E').
    + unfold begin_vote, to_clients. cbn [snd]. rewrite map_map. cbn. apply in_map_iff in I. apply in_map_iff. exact I.
    + exact N.
Qed.

(** C91 does not hold: a client joins in the second round, and its registration arrives while
    the coordinator starts the vote. *)
Definition joining : list (sys -> System.action) := toy_mid2 ++ [do (AJoin adE 5 3)].
Lemma joining_facts : exists y V m, reach toy_suite toy_oracle toy_gob y V /\ In m (y_msgs y) /\ mDst m = co_addr (y_coord y) /\
  mType m = CLIENT_REGISTER_CONTROLLERSIDE /\ mSrc m = adE /\ (exists bk, get_bytes (mParams m) "public_key"%str = Some bk) /\
  co_servers (y_coord y) <> [] /\ co_G (y_coord y) <> None /\ (forall kv, In kv (co_clients (y_coord y)) -> snd kv <> adE).
Proof.
  destruct (toy_run joining (fun yv => let y := fst yv in
     (co_addr (y_coord y), map (fun m => (mType m, mDst m, mSrc m, match get_bytes (mParams m) "public_key"%str with Some _ => true | None => false end)) (y_msgs y),
      length (co_servers (y_coord y)), match co_G (y_coord y) with Some _ => true | None => false end, map snd (co_clients (y_coord y))))
    (adC, [(CLIENT_REGISTER_CONTROLLERSIDE, adC, adE, true)], 2%nat, true, [adD])) as (y & V & _ & R & F); [vm_compute; reflexivity|].
  cbn [fst] in F. injection F as F1 F2 F3 F4 F5.
  destruct (y_msgs y) as [|m [|]] eqn:EM; try discriminate F2. injection F2 as G1 G2 G3 G4.
  exists y, V, m. split; [exact R|]. rewrite EM. split; [now left|]. split; [congruence|]. split; [exact G1|]. split; [exact G3|].
  split; [destruct (get_bytes _ _) as [bk|]; [now exists bk|discriminate G4]|].
  split; [intros Q; rewrite Q in F3; discriminate F3|]. split; [intros Q; rewrite Q in F4; discriminate F4|].
  intros kv I Q. apply (in_map snd) in I. rewrite F5, Q in I. destruct I as [I|[]]. vm_compute in I. discriminate I.
Qed.
Theorem C91_race_free_refuted : ~ race_free.
Proof.
  intros X. destruct joining_facts as (y & V & m & R & I & D & T & Sr & (bk & B) & NS & NG & NC).
  refine (X toy_suite toy_oracle toy_gob toy_ok toy_gob_ok y V R EVotePhase [None] m no_draws FClients Logic.I _ eq_refl I D _); [discriminate|].
  destruct (C91_register_during_vote toy_suite toy_gob (y_coord y) (mParams m) (mSrc m) no_draws bk B NS NG) as [M _].
  { rewrite Sr. exact NC. }
  unfold heard_of. rewrite T. exact M.
Qed.

(** ** Instances *)

(** The vote of C86_instance arrives while the round ends; a challenge of the generators could
    be handled at any moment of it. *)
Example C91_instance : exists y V m, reach toy_suite toy_oracle toy_gob y V /\ y_msgs y = [m] /\ mType m = Net.VOTE /\
  at_work toy_suite toy_gob (y_coord y) (EEnd [16; 12] [5; 9]) /\
  In (mType m) (unsafe (EEnd [16; 12] [5; 9])) /\ ~ In (mType m) (unsafe EVotePhase) /\
  (exists k f, meet toy_suite toy_gob (y_coord y) (EEnd [16; 12] [5; 9]) (repeat None k) (heard_of no_draws m) f) /\
  ~ In GN_HONESTY_CHALLENGE (unsafe (EEnd [16; 12] [5; 9])).
Proof.
  destruct (toy_run toy_upto_vote (fun yv => let y := fst yv in (map mType (y_msgs y), length (co_servers (y_coord y)),
      match co_step toy_suite toy_gob (y_coord y) (EEnd [16; 12] [5; 9]) with Some _ => true | None => false end))
    ([Net.VOTE], 2%nat, true)) as (y & V & _ & R & F); [vm_compute; reflexivity|].
  cbn [fst] in F. injection F as F1 F2 F3.
  destruct (y_msgs y) as [|m [|]] eqn:EM; try discriminate F1. injection F1 as F1.
  exists y, V, m. rewrite EM, F1. split; [exact R|]. split; [reflexivity|]. split; [reflexivity|].
  assert (W : at_work toy_suite toy_gob (y_coord y) (EEnd [16; 12] [5; 9])).
  { split; [intros Q; cbn [co_step] in Q; rewrite Q in F3; discriminate F3|]. split; [intros Q; rewrite Q in F2; discriminate F2|discriminate]. }
  split; [exact W|]. split; [cbn; tauto|]. split; [cbn; intuition discriminate|]. split; [|cbn; intuition discriminate].
  apply (C91_unsafe_messages _ _ _ _ (heard_of no_draws m) W). cbn [heard_of he_ty]. rewrite F1. cbn. tauto.
Qed.

Print Assumptions C91_main_covered.
Print Assumptions C91_messages_covered.
Print Assumptions C91_safe_messages_partial.
Print Assumptions C91_unsafe_messages.
Print Assumptions C91_register_during_vote.
Print Assumptions C91_race_free_refuted.
