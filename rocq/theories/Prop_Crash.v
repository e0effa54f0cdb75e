(** C100: the service outlives the end of one of its servers, or of the coordinator.
    Refuted: after the end of any server no round is ever opened or closed again, and
    nobody is taken in; after the end of the coordinator nothing changes at all, and every
    process that sends ends as well. *)
From Coq Require Import ZArith Znumtheory Lia List Bool Permutation.
From Coq Require Import Strings.Byte.
From Coq Require String.
From Verif Require Import ZMod Bytes Suite Spec Pedersen ElGamal FujiOkam Equality Codec Maps Net Bridge Client
  Perm SimpleShuffle PairShuffle Server Coordinator History System Chain Prop_Topology Prop_Chain Round RoundInv
  Prop_Pedersen Prop_ElGamal Prop_FujiOkam Prop_Shuffle Prop_Codec Prop_Bridge Prop_Assign Prop_Coord Prop_Round Depart Restart
  Prop_Depart Prop_Restart Crash.
Import ListNotations.
Import String.StringSyntax.
Open Scope Z_scope.
Delimit Scope string_scope with str.

(** ** Specification *)
(** Everything but starting further servers and the configuration step, which comes before
    the first round: in particular any process may end at any time, clients may join, and
    the loop may try any of its steps. *)
Definition ordinary_deed (d : deed) : Prop := match d with Do a _ => ordinary a | Die _ => True end.
(** [x] is a server at or in front of [d] in the list [L], or at or behind it. *)
Definition up_to (L : list addr) (d x : addr) : Prop :=
  exists i j, nth_error L i = Some d /\ nth_error L j = Some x /\ (j <= i)%nat.
(** No table in flight has passed the server [d], no round is just being opened or closed
    at the clients and no client or server just being taken in.  With nothing in flight
    this holds. *)
Definition none_past (y : sys) (d : addr) : Prop := forall m, In m (y_msgs y) ->
  (mType m = ANNOUNCEMENT \/ mType m = CLIENT_REGISTER_SERVERSIDE -> up_to (chain_addrs y) d (mDst m)) /\
  (mType m = Net.ROUND_END -> behind (chain_addrs y) d (mDst m)) /\
  ~ In (mType m) [ANNOUNCEMENT_FINALIZE; CLIENT_REGISTER_CONFIRMATION; SERVER_REGISTER; SERVER_REGISTER_REPLY; UPDATE_NEXT_HOP].

(** The property: a service at rest whose server [d] ends can still open another round, or
    close one. *)
Definition outlives (S : suite) (H : oracle) (G : gob) : Prop := forall y V d, reach S H G y V -> y_msgs y = [] -> In d (chain_addrs y) ->
  exists l w', Forall ordinary_deed l /\ w_run S H G (World y [d]) l = Some w' /\
    (co_G (y_coord (w_sys w')) <> co_G (y_coord y) \/
     co_status (y_coord y) <> CO_READY_FOR_NEW_ROUND /\ co_status (y_coord (w_sys w')) = CO_READY_FOR_NEW_ROUND).

Section Crash.
Context (S : suite) (OK : suite_ok S) (H : oracle) (G : gob) (GOK : gob_ok G).

(** ** The end of a server *)
Record cut_off (d : addr) (Qf Qb : addr -> Prop) (w : world) : Prop := {
  co_gone : In d (w_dead w);
  co_view : exists z, graved d (w_sys w) z /\ flow false Qf (fun _ => False) z /\ flow true Qb (fun _ => False) z /\ none_opened z
}.

Lemma cut_off_step d Qf Qb w e w' : ordinary_deed e -> cut_off d Qf Qb w -> w_step S H G w e = Some w' ->
  cut_off d Qf Qb w' /\ co_G (y_coord (w_sys w')) = co_G (y_coord (w_sys w)) /\
  (co_status (y_coord (w_sys w')) = CO_READY_FOR_NEW_ROUND -> co_status (y_coord (w_sys w)) = CO_READY_FOR_NEW_ROUND) /\
  (forall x k, mget (y_clients (w_sys w)) x = Some k -> exists k', mget (y_clients (w_sys w')) x = Some k' /\ cl_rep k' = cl_rep k).
Proof.
  intros O [D (z & GR & FF & FB & NO)] E. destruct e as [a cut|b]; cbn [w_step ordinary_deed] in *.
  2:{ injection E as <-. split; [|cbn [w_sys]; split; [reflexivity|]; split; [tauto|eauto]]. constructor; [now right|]. now exists z. }
  set (y := w_sys w) in *. destruct (acting y a) as [x|] eqn:EA; [|discriminate].
  assert (FEW : forall M, (forall m, In m M -> In m (y_msgs y)) -> cut_off d Qf Qb (World (with_msgs y M) (w_dead w))).
  { intros M IM. constructor; [exact D|]. exists (with_msgs z M). cbn [w_sys]. split; [now apply graved_msgs|]. rewrite <- (gr_msgs _ _ _ GR) in IM.
    split; [|split; [|intros m I; apply NO; now apply IM]].
    - apply flow_fewer; [exact FF|]. intros m I. split; [apply (fl_msgs _ _ _ _ FF)|apply (fl_still _ _ _ _ FF)]; auto.
    - apply flow_fewer; [exact FB|]. intros m I. split; [apply (fl_msgs _ _ _ _ FB)|apply (fl_still _ _ _ _ FB)]; auto. }
  destruct (is_down (w_dead w) x) eqn:DN.
  { destruct a as [| |i cr sr chal| |]; try discriminate. injection E as <-. split; [apply FEW; intros m I; exact (rest_in (y_msgs y) i m I)|].
    split; [reflexivity|]. split; [tauto|eauto]. }
  assert (NX : acting y a <> Some d).
  { rewrite EA. intros [= ->]. apply is_down_In in D. congruence. }
  destruct (sys_step S H G y a) as [y'|] eqn:ES; [|discriminate].
  destruct (graved_step S H G d y z a y' GR NX ES) as (z' & EZ & GR').
  pose proof (flow_step S H G false Qf (fun _ => False) z a z' ltac:(discriminate) O FF EZ) as FF'.
  pose proof (flow_step S H G true Qb (fun _ => False) z a z' ltac:(auto) O FB EZ) as FB'.
  destruct (forth_step S H G Qf z a z' O FF NO EZ) as [EG NO'].
  destruct (flow_back_step S H G Qb z a z' O FB EZ) as [ST RP].
  destruct cut as [keep|].
  - destruct (sent_all _ _); [|discriminate]. injection E as <-. cbn [w_sys]. split; [|split; [reflexivity|]; split; [tauto|eauto]].
    destruct (step_msgs S H G y a y' ES) as (out & EO). rewrite EO, skip_out.
    assert (IO : forall m, In m (some_of keep out) -> In m (y_msgs z')).
    { intros m I. rewrite (gr_msgs _ _ _ GR'), EO. apply in_or_app. right. now apply some_of_in in I. }
    assert (IR : forall m, In m (remaining y a) -> In m (y_msgs z)).
    { intros m I. rewrite (gr_msgs _ _ _ GR). now apply remaining_in in I. }
    constructor; [now right|]. exists (with_msgs z (remaining y a ++ some_of keep out)). cbn [w_sys]. split; [now apply graved_msgs|].
    split; [|split].
    + apply flow_fewer; [exact FF|]. intros m I. apply in_app_iff in I.
      destruct I as [I|I]; [apply IR in I; split; [apply (fl_msgs _ _ _ _ FF)|apply (fl_still _ _ _ _ FF)]|apply IO in I; split; [apply (fl_msgs _ _ _ _ FF')|apply (fl_still _ _ _ _ FF')]]; assumption.
    + apply flow_fewer; [exact FB|]. intros m I. apply in_app_iff in I.
      destruct I as [I|I]; [apply IR in I; split; [apply (fl_msgs _ _ _ _ FB)|apply (fl_still _ _ _ _ FB)]|apply IO in I; split; [apply (fl_msgs _ _ _ _ FB')|apply (fl_still _ _ _ _ FB')]]; assumption.
    + intros m I. cbn [with_msgs y_msgs] in I. apply in_app_iff in I. destruct I as [I|I]; [apply NO; now apply IR|apply NO'; now apply IO].
  - destruct (sent_all _ _); [|discriminate]. injection E as <-. cbn [w_sys]. split; [constructor; [exact D|now exists z']|].
    rewrite (gr_coord _ _ _ GR'), (gr_clients _ _ _ GR'), (gr_coord _ _ _ GR), (gr_clients _ _ _ GR) in *. auto.
Qed.

Lemma cut_off_run d Qf Qb : forall l w w', Forall ordinary_deed l -> cut_off d Qf Qb w -> w_run S H G w l = Some w' ->
  cut_off d Qf Qb w' /\ co_G (y_coord (w_sys w')) = co_G (y_coord (w_sys w)) /\
  (co_status (y_coord (w_sys w')) = CO_READY_FOR_NEW_ROUND -> co_status (y_coord (w_sys w)) = CO_READY_FOR_NEW_ROUND) /\
  (forall x k, mget (y_clients (w_sys w)) x = Some k -> exists k', mget (y_clients (w_sys w')) x = Some k' /\ cl_rep k' = cl_rep k).
Proof.
  induction l as [|e l IH]; intros w w' O C E; cbn [w_run] in E; [injection E as <-; split; [assumption|]; split; [reflexivity|]; split; [tauto|eauto]|].
  inversion O; subst. destruct (w_step S H G w e) as [w1|] eqn:E1; [|discriminate].
  destruct (cut_off_step d Qf Qb w e w1) as (C1 & G1 & S1 & R1); auto. destruct (IH w1 w') as (C2 & G2 & S2 & R2); auto.
  split; [assumption|]. split; [congruence|]. split; [auto|]. intros x k K. destruct (R1 x k K) as (k1 & K1 & X1). destruct (R2 x k1 K1) as (k2 & K2 & X2).
  exists k2. split; [assumption|congruence].
Qed.

Lemma server_gone y V d : reach S H G y V -> In d (chain_addrs y) -> none_past y d ->
  cut_off d (up_to (chain_addrs y) d) (behind (chain_addrs y) d) (World y [d]).
Proof.
  intros R I NP. destruct (chain_facts S OK H G GOK y V R) as (ND & NE & NS & LK). set (L := chain_addrs y) in *.
  destruct (In_nth_error _ _ I) as (i & Ei). destruct (LK i d Ei) as (s & Es & _).
  assert (IL : (i < length L)%nat) by (apply nth_error_Some; congruence).
  set (t := Server (sv_addr s) (sv_coord s) (sv_priv s) (sv_pub s) (sv_G s) (sv_ekeys s) (sv_ecomms s)
          (sv_connected s) d d (sv_keymap s) (sv_roundkey s) (sv_pb s) (sv_fb s)).
  set (z := Sys (y_coord y) (mset (y_servers y) d t) (y_clients y) (y_msgs y) (y_log y)).
  constructor; [now left|]. exists z. cbn [w_sys]. split; [|split; [|split]].
  - constructor; cbn [z y_coord y_servers y_clients y_msgs]; try reflexivity.
    + intros x N. now apply mget_mset_ne; congruence.
    + exists t. split; [apply mget_mset_eq|]. split; reflexivity.
    + congruence.
  - constructor; cbn [z y_coord y_servers y_clients y_msgs].
    + exists (nth 0 L d). split; [|exists i, 0%nat; split; [assumption|]; split; [apply nth_error_nth'; lia|lia]].
      unfold enter, first_server. unfold L, chain_addrs. unfold L, chain_addrs in NE. destruct (co_servers (y_coord y)); [contradiction|reflexivity].
    + intros (? & j & _ & X & _). apply NS. eapply nth_error_In; eassumption.
    + intros x [].
    + intros x (i' & j & Ei' & Ej & LE). rewrite (nodup_index L i' i d ND Ei' Ei) in LE. clear i' Ei'. rewrite mget_mset. destruct (keq x d) as [->|N].
      * exists t. split; [reflexivity|]. left. cbn. exists i, i. auto.
      * destruct (LK j x Ej) as (sx & Ex & Nx & _). exists sx. split; [assumption|]. left. cbn [link]. rewrite Nx. unfold after.
        assert (j <> i) by (intros ->; congruence). exists i, (Datatypes.S j). split; [assumption|]. split; [apply nth_error_nth'; lia|lia].
    + intros m Im A. left. apply (NP m Im). cbn [along] in A. apply orb_true_iff in A. rewrite !Z.eqb_eq in A. exact A.
    + intros m Im. destruct (NP m Im) as (_ & _ & X). unfold linking. intros [U|[U|U]]; apply X; rewrite U; cbn; tauto.
  - constructor; cbn [z y_coord y_servers y_clients y_msgs].
    + exists (last L d). split; [|exists i, (length L - 1)%nat; split; [assumption|]; split; [now apply last_nth|lia]].
      cbn [enter]. apply last_server_last. intros X. apply NE. unfold L, chain_addrs. now rewrite X.
    + intros (? & j & _ & X & _). apply NS. eapply nth_error_In; eassumption.
    + intros x [].
    + intros x (i' & j & Ei' & Ej & LE). rewrite (nodup_index L i' i d ND Ei' Ei) in LE. clear i' Ei'. rewrite mget_mset. destruct (keq x d) as [->|N].
      * exists t. split; [reflexivity|]. left. cbn. exists i, i. auto.
      * destruct (LK j x Ej) as (sx & Ex & _ & Px). exists sx. split; [assumption|]. left. cbn [link]. rewrite Px.
        assert (j <> i) by (intros ->; congruence). destruct j as [|j]; [lia|]. cbn [before].
        assert (JL : (Datatypes.S j < length L)%nat) by (apply nth_error_Some; congruence).
        exists i, j. split; [assumption|]. split; [apply nth_error_nth'; lia|lia].
    + intros m Im A. left. apply (NP m Im). cbn [along] in A. now apply Z.eqb_eq in A.
    + intros m Im. destruct (NP m Im) as (_ & _ & X). unfold linking. intros [U|[U|U]]; apply X; rewrite U; cbn; tauto.
  - intros m Im. destruct (NP m Im) as (_ & _ & X). split; intros U; apply X; rewrite U; cbn; tauto.
Qed.

(** Whatever happens after the end of a server: the coordinator never again gets a new
    generator, so no round is opened, nor does it take a round to be over; no client's
    reputation changes, no client is told a table, no registration is confirmed. *)
Theorem C100_server_ends : forall y V d l w', reach S H G y V -> In d (chain_addrs y) -> none_past y d ->
  Forall ordinary_deed l -> w_run S H G (World y [d]) l = Some w' ->
  co_G (y_coord (w_sys w')) = co_G (y_coord y) /\
  (co_status (y_coord (w_sys w')) = CO_READY_FOR_NEW_ROUND -> co_status (y_coord y) = CO_READY_FOR_NEW_ROUND) /\
  (forall x k, mget (y_clients y) x = Some k -> exists k', mget (y_clients (w_sys w')) x = Some k' /\ cl_rep k' = cl_rep k) /\
  forall m, In m (y_msgs (w_sys w')) -> mType m <> ANNOUNCEMENT_FINALIZE /\ mType m <> CLIENT_REGISTER_CONFIRMATION.
Proof.
  intros y V d l w' R I NP O E.
  destruct (cut_off_run d _ _ l (World y [d]) w' O (server_gone y V d R I NP) E) as ([_ (z & GR & _ & _ & NO)] & A1 & A2 & A3).
  split; [exact A1|]. split; [exact A2|]. split; [exact A3|]. intros m Im. apply NO. now rewrite (gr_msgs _ _ _ GR).
Qed.

(** *** Who ends with it *)
(** A step that sends to an ended process cannot be completed. *)
Lemma cannot w a y' m : sys_step S H G (w_sys w) a = Some y' -> acting (w_sys w) a <> None ->
  In m (skipn (length (remaining (w_sys w) a)) (y_msgs y')) -> In (mDst m) (w_dead w) ->
  (forall x, acting (w_sys w) a = Some x -> ~ In x (w_dead w)) -> w_step S H G w (Do a None) = None.
Proof.
  intros ES NA Im D AL. cbn [w_step]. destruct (acting (w_sys w) a) as [x|]; [|contradiction].
  destruct (is_down (w_dead w) x) eqn:DN; [apply is_down_In in DN; now destruct (AL x eq_refl)|]. rewrite ES.
  destruct (sent_all _ _) eqn:SA; [|reflexivity]. rewrite sent_all_iff in SA. now destruct (SA m Im).
Qed.

(** The server that passes a table on to an ended one ends: an announcement or a
    registration in one direction, the end of a round in the other. *)
Theorem C100_neighbour_ends : forall w i cr sr chal m s, nth_error (y_msgs (w_sys w)) i = Some m -> mDst m <> co_addr (y_coord (w_sys w)) ->
  mget (y_servers (w_sys w)) (mDst m) = Some s -> ~ In (mDst m) (w_dead w) ->
  (mType m = ANNOUNCEMENT \/ mType m = CLIENT_REGISTER_SERVERSIDE) /\ In (sv_next s) (w_dead w) \/ mType m = Net.ROUND_END /\ In (sv_prev s) (w_dead w) ->
  w_step S H G w (Do (ADeliver i cr sr chal) None) = None.
Proof.
  intros w i cr sr chal m s Em NC Es AL X.
  destruct (sys_step S H G (w_sys w) (ADeliver i cr sr chal)) as [y'|] eqn:ES.
  2:{ cbn [w_step acting]. rewrite Em. cbn [option_map]. destruct (is_down (w_dead w) (mDst m)) eqn:DN; [apply is_down_In in DN; contradiction|]. now rewrite ES. }
  pose proof ES as ES0. cbn [sys_step] in ES. rewrite Em in ES. destruct (keq (mDst m) (co_addr (y_coord (w_sys w)))); [contradiction|]. rewrite Es in ES.
  destruct (sv_handle S H G s (mType m) (mParams m) (mSrc m) sr) as [[s' out]|] eqn:EC; [|discriminate]. injection ES as <-.
  assert (Y : exists z, In z out /\ In (mDst z) (w_dead w)).
  { unfold sv_handle in EC. destruct X as [[[T|T] D]|[T D]]; rewrite T in EC; cbn in EC; unfold sv_announcement, sv_client_register, sv_round_end in EC; cbv zeta in EC;
      odestruct EC; injection EC as <- <-; eexists; (split; [now left|exact D]). }
  destruct Y as (z & Iz & Dz). eapply (cannot w _ _ z ES0); [cbn [acting]; rewrite Em; discriminate| |exact Dz|].
  - cbn [remaining y_msgs]. rewrite skip_out. exact Iz.
  - cbn [acting]. rewrite Em. now intros x [= <-].
Qed.

(** The coordinator ends when a listed server has ended and it grants a request or an
    announcement comes back. *)
Theorem C100_coordinator_ends_too : forall c down d ty p src rn c' out, In d (map fst (co_servers c)) -> In d down ->
  ty = ANNOUNCEMENT \/ ty = REQUEST_BRIDGES -> co_handle S G c ty p src rn = Some (c', out) -> out <> [] -> sent_all down out = false.
Proof.
  intros c down d ty p src rn c' out ID D T E NE. destruct (sent_all down out) eqn:SA; [|reflexivity]. exfalso. rewrite sent_all_iff in SA.
  assert (Y : exists m, In m out /\ mDst m = d).
  { apply in_map_iff in ID. destruct ID as ([d' q] & X & ID). cbn in X. subst d'. unfold co_handle in E. destruct T as [-> | ->]; cbn in E.
    - unfold co_announcement in E. odestruct E. injection E as <- <-. eexists. split; [apply in_or_app; right; apply in_map_iff; exists (d, q); split; [reflexivity|exact ID]|reflexivity].
    - unfold co_request in E. cbv zeta in E. odestruct E; injection E as <- <-; try now destruct NE. 
      all: match goal with X : open_assignments S ?c2 _ = Some ?c3 |- _ => assert (ES : co_servers c3 = co_servers c)
        by (apply open_assignments_frame in X; destruct X as (_ & X & _); rewrite X;
            match goal with Y : assign_bridges _ _ _ _ = (_, c2) |- _ => apply assign_frame in Y; destruct Y as (_ & Y & _); rewrite Y; reflexivity end) end.
      all: eexists; (split; [apply in_map_iff; exists (d, q); split; [reflexivity|now rewrite ES]|reflexivity]). }
  destruct Y as (m & Im & <-). exact (SA m Im D).
Qed.

(** ** The end of the coordinator *)
(** With nothing in flight nothing ever changes again at any server or client. *)
Theorem C100_coordinator_ends : forall y V, reach S H G y V -> y_msgs y = [] ->
  forall l w', w_run S H G (World y [co_addr (y_coord y)]) l = Some w' -> w_sys w' = y.
Proof.
  intros y V R M. destruct (reach_inv S OK H G GOK y V R) as [B _]. destruct y as [c SV CL M0 lg]. cbn [y_msgs y_coord] in M. subst M0.
  assert (X : forall l w w', w_sys w = Sys c SV CL [] lg -> In (co_addr c) (w_dead w) -> w_run S H G w l = Some w' -> w_sys w' = Sys c SV CL [] lg).
  2:{ intros l w' E. cbn [y_coord] in E. eapply X; [| |exact E]; [reflexivity|now left]. }
  induction l as [|e l IH]; intros w w' EW D E; cbn [w_run] in E; [now injection E as <-|].
  destruct (w_step S H G w e) as [w1|] eqn:E1; [|discriminate]. cut (w_sys w1 = Sys c SV CL [] lg /\ In (co_addr c) (w_dead w1)); [intros [? ?]; now apply (IH w1)|].
  clear E IH. destruct e as [a cut|b]; cbn [w_step] in E1; [|injection E1 as <-; split; [exact EW|now right]]. rewrite EW in E1.
  destruct (acting (Sys c SV CL [] lg) a) as [x|] eqn:EA; [|discriminate]. destruct (is_down (w_dead w) x) eqn:DN.
  { destruct a as [| |i cr sr chal| |]; try discriminate. exfalso. cbn in EA. now destruct i. }
  destruct (sys_step S H G (Sys c SV CL [] lg) a) as [y'|] eqn:ES; [|discriminate].
  destruct (step_msgs S H G _ a y' ES) as (out & EO).
  assert (RM : remaining (Sys c SV CL [] lg) a = []) by (destruct a as [| |i ? ? ?| |]; cbn [remaining y_msgs]; [reflexivity|reflexivity|now destruct i|reflexivity|reflexivity]).
  rewrite RM in *. cbn [app length skipn] in *. rewrite EO in E1.
  assert (DST : forall m, In m out -> mDst m = co_addr c).
  { intros m Im. destruct a as [u pv rk|u pv s0|i cr sr chal|e|u cmd]; cbn [sys_step y_coord y_servers y_clients y_msgs y_log acting] in ES, EA.
    - odestruct ES. injection ES as <-. cbn [y_msgs app] in EO. subst out. destruct Im as [<-|[]]. reflexivity.
    - odestruct ES. injection ES as <-. cbn [y_msgs app] in EO. subst out. destruct Im as [<-|[]]. reflexivity.
    - destruct i; discriminate.
    - injection EA as <-. apply is_down_In in D. congruence.
    - destruct (mget CL u) as [k|] eqn:Ek; [|discriminate]. destruct (cl_command S G k cmd) as [o|] eqn:EC; [|discriminate]. injection ES as <-. cbn [y_msgs app] in EO. subst o.
      destruct (b_cl _ _ _ _ _ B u k Ek) as (_ & _ & CC & _). cbn [y_coord] in CC. rewrite <- CC. eapply (proj2 (C85_clients_dial_coordinator S G k)); eauto. }
  destruct cut as [keep|].
  - destruct (sent_all (w_dead w) (some_of keep out)) eqn:SA; [|discriminate]. injection E1 as <-. split; [|now right].
    destruct (some_of keep out) as [|m r] eqn:SO; [reflexivity|]. exfalso. rewrite sent_all_iff in SA. apply (SA m (or_introl eq_refl)).
    rewrite DST; [exact D|]. apply (some_of_in keep). rewrite SO. now left.
  - destruct (sent_all (w_dead w) out) eqn:SA; [|discriminate]. injection E1 as <-. split; [|exact D]. cbn [w_sys].
    destruct out as [|m r]; [|exfalso; rewrite sent_all_iff in SA; apply (SA m (or_introl eq_refl)); rewrite DST; [exact D|now left]].
    destruct a as [u pv rk|u pv s0|i cr sr chal|e|u cmd]; cbn [sys_step y_coord y_servers y_clients y_msgs y_log acting] in ES, EA.
    + odestruct ES. injection ES as <-. discriminate EO.
    + odestruct ES. injection ES as <-. discriminate EO.
    + destruct i; discriminate.
    + injection EA as <-. apply is_down_In in D. congruence.
    + odestruct ES. injection ES as <-. cbn [y_msgs app] in EO. subst. reflexivity.
Qed.
(** A client whose user enters a command that sends something ends. *)
Theorem C100_command_ends_client : forall w x k cmd out, mget (y_clients (w_sys w)) x = Some k -> cl_command S G k cmd = Some out -> out <> [] ->
  In (cl_coord k) (w_dead w) -> w_step S H G w (Do (ACommand x cmd) None) = None.
Proof.
  intros w x k cmd out Ek EC NE D. cbn [w_step acting]. destruct (is_down (w_dead w) x); [reflexivity|]. cbn [sys_step]. rewrite Ek, EC.
  cbn [remaining y_msgs]. rewrite skip_out. destruct out as [|m r]; [contradiction|]. destruct (sent_all (w_dead w) (m :: r)) eqn:SA; [|reflexivity].
  exfalso. rewrite sent_all_iff in SA. apply (SA m (or_introl eq_refl)). rewrite (proj2 (C85_clients_dial_coordinator S G k) cmd (m :: r) m EC (or_introl eq_refl)). exact D.
Qed.

(** ** What goes on *)
(** Posts and votes make the coordinator send nothing, so they are handled as before,
    whoever has ended. *)
Theorem C100_posts_and_votes_go_on : forall c down ty p src rn, ty = POST_BRIDGE \/ ty = Net.VOTE ->
  d_step S G (c, down) (Ev (EMsg ty p src rn)) = option_map (fun x => (fst x, down)) (co_handle S G c ty p src rn).
Proof.
  intros c down ty p src rn T. cbn [d_step fst snd co_step]. destruct (co_handle S G c ty p src rn) as [[c' out]|] eqn:E; [|reflexivity].
  assert (out = []) as ->; [|reflexivity].
  unfold co_handle in E. destruct T as [-> | ->]; cbn in E; unfold co_post, co_vote in E; odestruct E; injection E as <- <-; reflexivity.
Qed.
End Crash.

(** ** The property is refuted *)
Lemma toy_alive : exists y V, reach toy_suite toy_oracle toy_gob y V /\ y_msgs y = [] /\ co_status (y_coord y) = CO_MESSAGE /\ chain_addrs y = [adA; adB].
Proof.
  destruct (toy_run toy_mid2 (fun yv => (y_msgs (fst yv), co_status (y_coord (fst yv)), chain_addrs (fst yv))) ([], CO_MESSAGE, [adA; adB])) as (y & V & _ & R & F); [vm_compute; reflexivity|].
  injection F as F1 F2 F3. now exists y, V.
Qed.
Theorem C100_outlives_refuted : ~ (forall S H G, suite_ok S -> gob_ok G -> outlives S H G).
Proof.
  intros X. destruct toy_alive as (y & V & R & M & ST & CH).
  assert (I : In adA (chain_addrs y)) by (rewrite CH; now left).
  destruct (X toy_suite toy_oracle toy_gob toy_ok toy_gob_ok y V adA R M I) as (l & w' & O & E & C).
  destruct (C100_server_ends toy_suite toy_ok toy_oracle toy_gob toy_gob_ok y V adA l w' R I ltac:(intros m Im; rewrite M in Im; destruct Im) O E) as (A1 & A2 & _).
  destruct C as [C|[C1 C2]]; auto.
Qed.

(** B ends while the service waits for its next round: the coordinator can begin the round;
    its announcement to A is in front of B ([none_past]); A cannot pass it on, it ends. *)
Definition toy_dying (y : sys) : option (world * option world * option world) :=
  olet w1 := w_step toy_suite toy_oracle toy_gob (World y [adB]) (Do (tbegin [] y) None) in
  Some (w1, w_step toy_suite toy_oracle toy_gob w1 (Do (tdl 0 (w_sys w1)) None),
        w_step toy_suite toy_oracle toy_gob w1 (Do (tdl 0 (w_sys w1)) (Some [false]))).
Example C100_instance : exists y V w1 w2, reach toy_suite toy_oracle toy_gob y V /\ y_msgs y = [] /\ co_status (y_coord y) = CO_READY_FOR_NEW_ROUND /\
  In adB (chain_addrs y) /\ toy_dying y = Some (w1, None, Some w2) /\
  map (fun m => (mDst m, mType m)) (y_msgs (w_sys w1)) = [(adA, ANNOUNCEMENT)] /\ w_dead w2 = [adA; adB] /\ y_msgs (w_sys w2) = [].
Proof.
  destruct (toy_run toy_ready1 (fun yv => (y_msgs (fst yv), co_status (y_coord (fst yv)), chain_addrs (fst yv),
     option_map (fun r : world * option world * option world => (map (fun m => (mDst m, mType m)) (y_msgs (w_sys (fst (fst r)))), match snd (fst r) with Some _ => true | None => false end,
       option_map (fun w => (w_dead w, y_msgs (w_sys w))) (snd r))) (toy_dying (fst yv))))
    ([], CO_READY_FOR_NEW_ROUND, [adA; adB], Some ([(adA, ANNOUNCEMENT)], false, Some ([adA; adB], [])))) as (y & V & _ & R & F); [vm_compute; reflexivity|].
  cbn [fst] in F. injection F as F1 F2 F3 F4. destruct (toy_dying y) as [[[w1 o] [w2|]]|] eqn:E; try discriminate F4.
  cbn [option_map fst snd] in F4. injection F4 as G1 G2 G3 G4. destruct o; [discriminate|].
  exists y, V, w1, w2. rewrite F3. repeat (split; [first [assumption | reflexivity | (right; now left)]|]). assumption.
Qed.
(** The announcement in flight in front of B: [none_past] with a message. *)
Example C100_instance_in_flight : exists y V, reach toy_suite toy_oracle toy_gob y V /\ y_msgs y <> [] /\ In adB (chain_addrs y) /\ none_past y adB.
Proof.
  destruct (toy_run (toy_ready1 ++ [tbegin []]) (fun yv => (map (fun m => (mDst m, mType m)) (y_msgs (fst yv)), chain_addrs (fst yv)))
    ([(adA, ANNOUNCEMENT)], [adA; adB])) as (y & V & _ & R & F); [vm_compute; reflexivity|].
  cbn [fst] in F. injection F as F1 F2. exists y, V. split; [exact R|]. split; [intros X; rewrite X in F1; discriminate|].
  rewrite F2. split; [right; now left|]. intros m I. destruct (y_msgs y) as [|m0 [|]]; try discriminate. cbn in F1. injection F1 as D T.
  destruct I as [<-|[]]. rewrite D, T, F2. split; [intros _; exists 1%nat, 0%nat; repeat split; lia|]. split; [discriminate|]. cbn. intuition discriminate.
Qed.
(** The client D posts after the end of B: its post is handled.  After the end of the
    coordinator its command ends the client. *)
Definition toy_posting (dead : list addr) (y : sys) : option world :=
  olet w1 := w_step toy_suite toy_oracle toy_gob (World y dead) (Do (ACommand adD (CPost [x62]%byte)) None) in
  w_step toy_suite toy_oracle toy_gob w1 (Do (tdl 0 (w_sys w1)) None).
Example C100_instance_post : exists y V k w, reach toy_suite toy_oracle toy_gob y V /\ y_msgs y = [] /\ mget (y_clients y) adD = Some k /\ cl_coord k = co_addr (y_coord y) /\
  toy_posting [adB] y = Some w /\ mkeys (co_bridges (y_coord (w_sys w))) = [[x62]%byte] /\ toy_posting [co_addr (y_coord y)] y = None.
Proof.
  destruct (toy_run toy_mid2 (fun yv => (y_msgs (fst yv), option_map cl_coord (mget (y_clients (fst yv)) adD), co_addr (y_coord (fst yv)),
     option_map (fun w => mkeys (co_bridges (y_coord (w_sys w)))) (toy_posting [adB] (fst yv)), match toy_posting [adC] (fst yv) with Some _ => true | None => false end))
    ([], Some adC, adC, Some [[x62]%byte], false)) as (y & V & _ & R & F); [vm_compute; reflexivity|].
  cbn [fst] in F. injection F as F1 F2 F3 F4 F5. destruct (mget (y_clients y) adD) as [k|] eqn:Ek; [|discriminate]. cbn in F2. injection F2 as F2.
  destruct (toy_posting [adB] y) as [w|] eqn:EW; [|discriminate]. cbn [option_map] in F4. injection F4 as F4. destruct (toy_posting [adC] y) eqn:EC; [discriminate|].
  exists y, V, k, w. rewrite F3. repeat (split; [assumption || reflexivity|]). exact EC.
Qed.

Print Assumptions C100_server_ends.
Print Assumptions C100_neighbour_ends.
Print Assumptions C100_coordinator_ends_too.
Print Assumptions C100_coordinator_ends.
Print Assumptions C100_command_ends_client.
Print Assumptions C100_posts_and_votes_go_on.
Print Assumptions C100_outlives_refuted.
