(** A server that is stopped and started again, on top of System.v: what its second
    registration does to the links between the servers (used for C92). *)
From Coq Require Import ZArith Znumtheory Lia List Bool Permutation.
From Coq Require Import Strings.Byte.
From Coq Require String.
From Verif Require Import ZMod Bytes Suite Pedersen ElGamal FujiOkam Equality Codec Maps Net Bridge Client
  Perm SimpleShuffle PairShuffle Server Coordinator History System.
Import ListNotations.
Import String.StringSyntax.
Open Scope Z_scope.
Delimit Scope string_scope with str.

(** The process listening at [a] ends and a new one is started with the same
    configuration: ServerLauncher.go:58-88 initAnonServer forgets everything and picks a
    new key [priv] and a new round key [rk], 94-103 takes the same port (the first that is
    free from local_port on), 106-108 and 27-36 register at the coordinator.  The
    coordinator and the others do not notice.  Simplification: nobody sends to the
    server while it is down (a failed dial is in Depart.v). *)
Definition restart (S : suite) (y : sys) (a : addr) (priv rk : Z) : sys :=
  let s := init_server S a (co_addr (y_coord y)) priv rk in
  Sys (y_coord y) (mset (y_servers y) a s) (y_clients y) (y_msgs y ++ [sv_register S s]) (y_log y).

(** ** What the handlers do to the links, and which messages they send *)
(** Handlers of a server: the links are changed by two messages only, a table or a
    registration goes on along a link, nothing else travels between the servers. *)
Lemma sv_links S H G s ty p src rn s' out : sv_handle S H G s ty p src rn = Some (s', out) ->
  (ty <> SERVER_REGISTER_REPLY -> sv_prev s' = sv_prev s) /\
  (ty <> UPDATE_NEXT_HOP -> sv_next s' = sv_next s) /\
  (ty = SERVER_REGISTER_REPLY -> forall a, get_str p "prev_server"%str = Some a -> sv_prev s' = a) /\
  (ty = UPDATE_NEXT_HOP -> get_str p "next_hop"%str = Some (sv_next s')) /\
  forall m, In m out ->
    mType m = ROUND_END /\ ty = ROUND_END /\ mDst m = sv_prev s \/
    mType m = ANNOUNCEMENT /\ ty = ANNOUNCEMENT /\ mDst m = sv_next s \/
    mType m = CLIENT_REGISTER_SERVERSIDE /\ ty = CLIENT_REGISTER_SERVERSIDE /\ mDst m = sv_next s \/
    mType m = GOT_SIGNS /\ ty = SIGN_ASSIGNMENTS \/
    mType m = UPDATE_PEDERSEN_H /\ ty = SERVER_REGISTER_REPLY /\ mDst m = src.
Proof.
  unfold sv_handle. intros E.
  destruct (Z.eqb_spec ty SERVER_REGISTER_REPLY) as [->|N1].
  { unfold sv_register_reply in E. odestruct E. injection E as <- <-. cbn [sv_prev sv_next].
    split; [congruence|]. split; [reflexivity|]. split; [|split; [discriminate|]].
    - intros _ x Hx. unfold has_key, get_str in *.
      destruct (lookup p "prev_server"%str) as [[]|] eqn:L; congruence.
    - intros m [<-|[]]. cbn. do 4 right. auto. }
  destruct (Z.eqb_spec ty ANNOUNCEMENT) as [->|N2].
  { unfold sv_announcement in E. odestruct E; injection E as <- <-; cbn [sv_prev sv_next];
      (split; [reflexivity|]; split; [reflexivity|]; split; [discriminate|]; split; [discriminate|]);
      intros m [<-|[]]; cbn; auto. }
  destruct (Z.eqb_spec ty ANNOUNCEMENT_FINALIZE) as [->|N3].
  { unfold sv_finalize in E. odestruct E; injection E as <- <-; cbn [sv_prev sv_next];
      (split; [reflexivity|]; split; [reflexivity|]; split; [discriminate|]; split; [discriminate|]); intros m []. }
  destruct (Z.eqb_spec ty SIGN_ASSIGNMENTS) as [->|N4].
  { unfold sv_sign in E. odestruct E; injection E as <- <-;
      (split; [reflexivity|]; split; [reflexivity|]; split; [discriminate|]; split; [discriminate|]);
      intros m [<-|[]]; cbn; auto 10. }
  destruct (Z.eqb_spec ty UPDATE_NEXT_HOP) as [->|N5].
  { unfold sv_update_next in E. odestruct E; injection E as <- <-; cbn [sv_prev sv_next].
    split; [reflexivity|]. split; [congruence|]. split; [discriminate|]. split; [reflexivity|]. intros m []. }
  destruct (Z.eqb_spec ty CLIENT_REGISTER_SERVERSIDE) as [->|N6].
  { unfold sv_client_register in E. odestruct E; injection E as <- <-; cbn [sv_prev sv_next];
      (split; [reflexivity|]; split; [reflexivity|]; split; [discriminate|]; split; [discriminate|]);
      intros m [<-|[]]; cbn; auto 10. }
  destruct (Z.eqb_spec ty ROUND_END) as [->|N7].
  { unfold sv_round_end in E. odestruct E; injection E as <- <-; cbn [sv_prev sv_next];
      (split; [reflexivity|]; split; [reflexivity|]; split; [discriminate|]; split; [discriminate|]);
      intros m [<-|[]]; cbn; auto. }
  destruct (Z.eqb_spec ty BCAST_PEDERSEN_H) as [->|N8].
  { unfold sv_pedersen_h in E. odestruct E; injection E as <- <-; cbn [sv_prev sv_next];
      (split; [reflexivity|]; split; [reflexivity|]; split; [discriminate|]; split; [discriminate|]); intros m []. }
  injection E as <- <-. split; [reflexivity|]. split; [reflexivity|]. split; [congruence|]. split; [congruence|]. intros m [].
Qed.

(** The messages that travel between the coordinator and the servers because of the
    links. *)
Definition chain_types : list Z :=
  [SERVER_REGISTER; SERVER_REGISTER_REPLY; UPDATE_NEXT_HOP; ANNOUNCEMENT; CLIENT_REGISTER_SERVERSIDE; ROUND_END].

Lemma cl_sends S G c ty p chal c' out : cl_handle S G c ty p chal = Some (c', out) ->
  (ty <> ROUND_END -> cl_rep c' = cl_rep c) /\ forall m, In m out -> mType m = GN_HONESTY_CHALLENGE.
Proof.
  unfold cl_handle, cl_register_confirmation, cl_init_r, cl_honesty_answer, cl_announce_final, cl_got_signatures,
    cl_vote_start, cl_round_end, cl_rdiff, cl_vote_reply. intros E.
  destruct (ty =? CLIENT_REGISTER_CONFIRMATION).
  { odestruct E. injection E as <- <-. split; [reflexivity|]. now intros m [<-|[]]. }
  destruct (ty =? INIT_PEDERSEN_R); [odestruct E; injection E as <- <-; split; [reflexivity|]; intros m []|].
  destruct (ty =? GN_HONESTY_ANSWER); [odestruct E; injection E as <- <-; split; [reflexivity|]; intros m []|].
  destruct (ty =? ANNOUNCEMENT_FINALIZE); [odestruct E; injection E as <- <-; split; [reflexivity|]; intros m []|].
  destruct (ty =? GOT_SIGNS); [odestruct E; injection E as <- <-; (split; [reflexivity|]; intros m [])|].
  destruct (ty =? VOTE); [odestruct E; injection E as <- <-; split; [reflexivity|]; intros m []|].
  destruct (Z.eqb_spec ty ROUND_END); [odestruct E; injection E as <- <-; split; [congruence|]; intros m []|].
  destruct (ty =? BCAST_PEDERSEN_RDIFF); [odestruct E; injection E as <- <-; (split; [reflexivity|]; intros m [])|].
  destruct (ty =? VOTE_REPLY); [odestruct E; injection E as <- <-; split; [reflexivity|]; intros m []|].
  injection E as <- <-. split; [reflexivity|]. intros m [].
Qed.

Lemma cmd_sends S G c cmd out : cl_command S G c cmd = Some out ->
  forall m, In m out -> mType m = POST_BRIDGE \/ mType m = REQUEST_BRIDGES \/ mType m = VOTE.
Proof.
  destruct cmd as [b|ind rn|id f]; cbn [cl_command]; intros E m I.
  - injection E as <-. destruct I as [<-|[]]. now left.
  - destruct (cl_request S G c ind rn) as [[x|]|] eqn:R; [|injection E as <-; destruct I|discriminate].
    injection E as <-. destruct I as [I|[]]. subst x. unfold cl_request in R. odestruct R; injection R as <-; cbn; auto.
  - destruct (cl_vote S c id f) as [x|] eqn:R; [|discriminate]. injection E as <-. destruct I as [I|[]]. subst x.
    unfold cl_vote in R. odestruct R; injection R as <-; cbn; auto.
Qed.

(** ** Messages that follow the links *)
(** Everything but starting servers and the one configuration step: any delivery, any
    joining client, any command, any step of the coordinator's loop. *)
Definition ordinary (a : action) : Prop :=
  match a with ALaunch _ _ _ => False | ALoop EConfigure => False | _ => True end.

Definition along (back : bool) (ty : Z) : bool :=
  if back then ty =? ROUND_END else (ty =? ANNOUNCEMENT) || (ty =? CLIENT_REGISTER_SERVERSIDE).
Definition link (back : bool) (s : server) : addr := if back then sv_prev s else sv_next s.
Definition enter (back : bool) (c : coord) : option addr := if back then last_server c else first_server c.

Definition linking (ty : Z) : Prop := ty = SERVER_REGISTER \/ ty = SERVER_REGISTER_REPLY \/ ty = UPDATE_NEXT_HOP.

(** The messages that follow the links in one direction are sent to the servers in [Q]
    and, from there, to [Q] or to [R]. *)
Record flow (back : bool) (Q R : addr -> Prop) (y : sys) : Prop := {
  fl_enter : exists l, enter back (y_coord y) = Some l /\ Q l;
  fl_self : ~ Q (co_addr (y_coord y));
  fl_end : forall x, R x -> x = co_addr (y_coord y);
  fl_link : forall x, Q x -> exists s, mget (y_servers y) x = Some s /\ (Q (link back s) \/ R (link back s));
  fl_msgs : forall m, In m (y_msgs y) -> along back (mType m) = true -> Q (mDst m) \/ R (mDst m);
  fl_still : forall m, In m (y_msgs y) -> ~ linking (mType m)
}.

Lemma rest_in {A} (l : list A) i m : In m (firstn i l ++ skipn (Datatypes.S i) l) -> In m l.
Proof.
  intros I. apply in_app_iff in I. destruct I as [I|I].
  - rewrite <- (firstn_skipn i l). apply in_app_iff. now left.
  - rewrite <- (firstn_skipn (Datatypes.S i) l). apply in_app_iff. now right.
Qed.

(** The coordinator: the list of servers changes by a registration only. *)
Lemma co_still S G c e c' out : co_step S G c e = Some (c', out) ->
  (forall ty p src rn, e = EMsg ty p src rn -> ty <> SERVER_REGISTER) ->
  co_servers c' = co_servers c /\ co_addr c' = co_addr c.
Proof.
  intros E N. destruct (co_step_frame S G c e c' out E) as [F _].
  assert (A : ~ In FServers (writes_ev e)).
  { destruct e as [ty p src rn| |fakes ord| |ord rs]; cbn [writes_ev]; try (cbn; intuition discriminate).
    specialize (N ty p src rn eq_refl). unfold writes. destruct (Z.eqb_spec ty SERVER_REGISTER); [contradiction|].
    repeat (destruct (_ =? _); [cbn; intuition discriminate|]). cbn. tauto. }
  assert (B : ~ In FStatic (writes_ev e)).
  { destruct e as [ty p src rn| |fakes ord| |ord rs]; cbn [writes_ev]; try (cbn; intuition discriminate).
    unfold writes. repeat (destruct (_ =? _); [cbn; intuition discriminate|]). cbn. tauto. }
  pose proof (F FServers A) as F1. pose proof (F FStatic B) as F2. cbn in F1, F2. unfold co_addr. split; congruence.
Qed.

(** What the coordinator sends along the links goes to the first or the last server. *)
Lemma co_along S G c e c' out back : co_step S G c e = Some (c', out) ->
  (forall ty p src rn, e = EMsg ty p src rn -> ty <> SERVER_REGISTER /\ (back = true -> ty <> ROUND_END)) ->
  forall m, In m out -> ~ linking (mType m) /\ (along back (mType m) = true -> enter back c = Some (mDst m)).
Proof.
  intros E N m I. destruct (co_step_frame S G c e c' out E) as [_ F]. specialize (F m I).
  destruct e as [ty p src rn| |fakes ord| |ord rs]; cbn [emits_ev] in F.
  - destruct (N ty p src rn eq_refl) as [N1 N2]. unfold emits in F.
    destruct (Z.eqb_spec ty SERVER_REGISTER); [contradiction|].
    destruct (Z.eqb_spec ty CLIENT_REGISTER_CONTROLLERSIDE) as [->|_].
    { cbn [co_step] in E. unfold co_handle in E. cbn in E. unfold co_client_register in E. cbn [ped_commit] in E. odestruct E.
      match goal with H : send _ _ _ _ = Some _ |- _ => unfold send in H; odestruct H; injection H as <- end.
      injection E as <- <-. destruct I as [<-|[<-|[]]]; (split; [unfold linking; cbn; intuition discriminate|]).
      - destruct back; [discriminate|]. intros _. cbn [enter mDst]. assumption.
      - destruct back; discriminate. }
    repeat (match type of F with In _ (if ?x =? ?y then _ else _) => destruct (Z.eqb_spec x y); [
      destruct F as [F|F]; [|destruct F]; rewrite <- F;
      (split; [unfold linking; intuition discriminate|]; destruct back; try discriminate; intros; exfalso; apply N2; congruence)|] end).
    destruct F.
  - destruct F as [F|[]]. rewrite <- F. split; [unfold linking; intuition discriminate|]. destruct back; discriminate.
  - destruct F as [F|[]]. rewrite <- F. split; [unfold linking; intuition discriminate|].
    destruct back; [discriminate|]. intros _. cbn [co_step] in E. unfold begin_round, announce in E.
    destruct (negb _); [discriminate|].
    set (c1 := set_status _ CO_ANNOUNCE) in *.
    assert (EF : first_server c1 = first_server c).
    { unfold c1. destruct (co_first c); [|reflexivity].
      pose proof (add_fakes_frame S fakes c FServers ltac:(cbn; intuition discriminate)) as A. cbn in A.
      unfold first_server. cbn. now rewrite A. }
    cbn [enter]. rewrite <- EF. destruct (first_server c1); [|injection E as _ <-; destruct I].
    odestruct E. injection E as _ <-. destruct I as [<-|[]]. reflexivity.
  - destruct F as [F|[]]. rewrite <- F. split; [unfold linking; intuition discriminate|]. destruct back; discriminate.
  - cbn [co_step] in E. unfold round_end in E. destruct (last_server c) as [l|] eqn:L; [|injection E as _ <-; destruct I].
    odestruct E. injection E as _ <-. destruct I as [<-|I].
    + split; [unfold linking; cbn; intuition discriminate|]. destruct back; [intros _|discriminate]. exact L.
    + apply to_clients_type in I. rewrite I. split; [unfold linking; intuition discriminate|]. destruct back; discriminate.
Qed.

Lemma enter_same back c c' : co_servers c' = co_servers c -> enter back c' = enter back c.
Proof. intros E. unfold enter, last_server, first_server. now rewrite E. Qed.

Section Flow.
Context (S : suite) (H : oracle) (G : gob).

Lemma flow_step back Q R y a y' : (back = true -> forall x, ~ R x) -> ordinary a -> flow back Q R y ->
  sys_step S H G y a = Some y' -> flow back Q R y'.
Proof.
  intros B O [F1 F2 F3 F4 F5 F6] E. destruct a as [x pv rk|x pv s|i cr sr chal|e|x cmd]; [destruct O| | | |]; cbn [sys_step] in E.
  - destruct (keq x (co_addr (y_coord y))); [discriminate|].
    destruct (mget (y_servers y) x); [discriminate|]. destruct (mget (y_clients y) x); [discriminate|].
    injection E as <-. constructor; cbn [y_coord y_servers y_msgs]; try assumption.
    + intros m I. apply in_app_iff in I. destruct I as [I|[<-|[]]]; [now apply F5|]. destruct back; discriminate.
    + intros m I. apply in_app_iff in I. destruct I as [I|[<-|[]]]; [now apply F6|]. unfold linking; cbn; intuition discriminate.
  - destruct (nth_error (y_msgs y) i) as [m|] eqn:Em; [|discriminate]. pose proof (nth_error_In _ _ Em) as Im.
    set (rest := firstn i (y_msgs y) ++ skipn (Datatypes.S i) (y_msgs y)) in *.
    assert (RI : forall z, In z rest -> In z (y_msgs y)) by (intros z; apply rest_in). clearbody rest.
    pose proof (F6 m Im) as L6.
    destruct (keq (mDst m) (co_addr (y_coord y))) as [D|D].
    + destruct (co_handle S G (y_coord y) (mType m) (mParams m) (mSrc m) cr) as [[c' out]|] eqn:EC; [|discriminate].
      injection E as <-.
      assert (N : mType m <> SERVER_REGISTER /\ (back = true -> mType m <> ROUND_END)).
      { split; [unfold linking in L6; tauto|]. intros -> X. destruct (F5 m Im) as [U|U]; [now rewrite X| |exact (B eq_refl _ U)].
        rewrite D in U. contradiction. }
      destruct (co_still S G (y_coord y) (EMsg (mType m) (mParams m) (mSrc m) cr) c' out EC) as [E1 E2].
      { intros ty p src rn [= <- <- <- <-]. apply N. }
      pose proof (co_along S G (y_coord y) (EMsg (mType m) (mParams m) (mSrc m) cr) c' out back EC) as AL.
      assert (AL' : forall z, In z out -> ~ linking (mType z) /\ (along back (mType z) = true -> enter back (y_coord y) = Some (mDst z))).
      { apply AL. intros ty p src rn [= <- <- <- <-]. apply N. }
      constructor; cbn [y_coord y_servers y_msgs]; rewrite ?(enter_same back _ _ E1), ?E2; try assumption.
      * intros z I A. apply in_app_iff in I. destruct I as [I|I]; [apply F5; auto|].
        destruct (AL' z I) as [_ X]. specialize (X A). destruct F1 as (l & F1 & Ql). left. congruence.
      * intros z I. apply in_app_iff in I. destruct I as [I|I]; [apply F6; auto|]. now apply AL'.
    + destruct (mget (y_servers y) (mDst m)) as [s|] eqn:Es.
      * destruct (sv_handle S H G s (mType m) (mParams m) (mSrc m) sr) as [[s' out]|] eqn:EC; [|discriminate].
        injection E as <-. destruct (sv_links S H G s _ _ _ _ s' out EC) as (A1 & A2 & _ & _ & A5).
        assert (LK : link back s' = link back s).
        { unfold linking in L6. destruct back; cbn [link]; [apply A1|apply A2]; tauto. }
        constructor; cbn [y_coord y_servers y_msgs]; try assumption.
        -- intros x Qx. destruct (F4 x Qx) as (t & T1 & T2). rewrite mget_mset. destruct (keq x (mDst m)) as [->|N]; [|eauto].
           exists s'. split; [reflexivity|]. rewrite LK. congruence.
        -- intros z I A. apply in_app_iff in I. destruct I as [I|I]; [apply F5; auto|].
           assert (X : along back (mType m) = true /\ mDst z = link back s).
           { destruct (A5 z I) as [(U1 & U2 & U3)|[(U1 & U2 & U3)|[(U1 & U2 & U3)|[(U1 & U2)|(U1 & U2 & _)]]]];
               rewrite U1 in A; rewrite ?U2; destruct back; try discriminate A; (split; [reflexivity|assumption]). }
           destruct X as [X1 X2]. rewrite X2. destruct (F5 m Im X1) as [U|U]; [|apply F3 in U; contradiction].
           destruct (F4 _ U) as (t & T1 & T2). congruence.
        -- intros z I. apply in_app_iff in I. destruct I as [I|I]; [apply F6; auto|]. unfold linking.
           destruct (A5 z I) as [(U1 & _)|[(U1 & _)|[(U1 & _)|[(U1 & _)|(U1 & _)]]]]; rewrite U1; intuition discriminate.
      * destruct (mget (y_clients y) (mDst m)) as [c|]; [|discriminate].
        destruct (cl_handle S G c (mType m) (mParams m) chal) as [[c' out]|] eqn:EC; [|discriminate].
        injection E as <-. destruct (cl_sends S G c _ _ _ c' out EC) as [_ A].
        constructor; cbn [y_coord y_servers y_msgs]; try assumption.
        -- intros z I Az. apply in_app_iff in I. destruct I as [I|I]; [apply F5; auto|]. rewrite (A z I) in Az. destruct back; discriminate.
        -- intros z I. apply in_app_iff in I. destruct I as [I|I]; [apply F6; auto|]. rewrite (A z I). unfold linking. intuition discriminate.
  - destruct (is_loop e) eqn:IL; [|discriminate].
    destruct (co_step S G (y_coord y) e) as [[c' out]|] eqn:EC; [|discriminate]. injection E as <-.
    assert (N : forall ty p src rn, e <> EMsg ty p src rn) by (intros ? ? ? ? ->; discriminate).
    destruct (co_still S G (y_coord y) e c' out EC) as [E1 E2]; [intros ty p src rn X; exfalso; eapply N; eauto|].
    assert (AL : forall z, In z out -> ~ linking (mType z) /\ (along back (mType z) = true -> enter back (y_coord y) = Some (mDst z))).
    { apply (co_along S G (y_coord y) e c' out back EC). intros ty p src rn X; exfalso; eapply N; eauto. }
    constructor; cbn [y_coord y_servers y_msgs]; rewrite ?(enter_same back _ _ E1), ?E2; try assumption.
    * intros z I A. apply in_app_iff in I. destruct I as [I|I]; [apply F5; auto|].
      destruct (AL z I) as [_ X]. specialize (X A). destruct F1 as (l & F1 & Ql). left. congruence.
    * intros z I. apply in_app_iff in I. destruct I as [I|I]; [apply F6; auto|]. now apply AL.
  - destruct (mget (y_clients y) x) as [c|]; [|discriminate].
    destruct (cl_command S G c cmd) as [out|] eqn:EC; [|discriminate]. injection E as <-.
    pose proof (cmd_sends S G c cmd out EC) as A.
    constructor; cbn [y_coord y_servers y_msgs]; try assumption.
    * intros z I Az. apply in_app_iff in I. destruct I as [I|I]; [apply F5; auto|].
      destruct (A z I) as [U|[U|U]]; rewrite U in Az; destruct back; discriminate.
    * intros z I. apply in_app_iff in I. destruct I as [I|I]; [apply F6; auto|]. unfold linking.
      destruct (A z I) as [U|[U|U]]; rewrite U; intuition discriminate.
Qed.

Lemma flow_run back Q R : (back = true -> forall x, ~ R x) -> forall l y y', Forall ordinary l -> flow back Q R y ->
  sys_run S H G y l = Some y' -> flow back Q R y'.
Proof.
  intros B. induction l as [|a l IH]; intros y y' O F E; cbn [sys_run] in E; [now injection E as <-|].
  inversion O; subst. destruct (sys_step S H G y a) as [y1|] eqn:E1; [|discriminate].
  apply (IH y1 y'); auto. now apply (flow_step back Q R y a y1).
Qed.

(** When no table of a round end can reach the coordinator, nothing of what such a table
    does ever happens. *)
Lemma flow_back_step Q y a y' : ordinary a -> flow true Q (fun _ => False) y -> sys_step S H G y a = Some y' ->
  (co_status (y_coord y') = CO_READY_FOR_NEW_ROUND -> co_status (y_coord y) = CO_READY_FOR_NEW_ROUND) /\
  (forall x k, mget (y_clients y) x = Some k -> exists k', mget (y_clients y') x = Some k' /\ cl_rep k' = cl_rep k).
Proof.
  intros O [F1 F2 F3 F4 F5 F6] E. destruct a as [x pv rk|x pv s|i cr sr chal|e|x cmd]; [destruct O| | | |]; cbn [sys_step] in E.
  - destruct (keq x (co_addr (y_coord y))); [discriminate|].
    destruct (mget (y_servers y) x); [discriminate|]. destruct (mget (y_clients y) x) eqn:X; [discriminate|].
    injection E as <-. cbn [y_coord y_clients]. split; [tauto|]. intros z k K. rewrite mget_mset_ne by congruence. eauto.
  - destruct (nth_error (y_msgs y) i) as [m|] eqn:Em; [|discriminate]. pose proof (nth_error_In _ _ Em) as Im.
    destruct (keq (mDst m) (co_addr (y_coord y))) as [D|D].
    + destruct (co_handle S G (y_coord y) (mType m) (mParams m) (mSrc m) cr) as [[c' out]|] eqn:EC; [|discriminate].
      injection E as <-. cbn [y_coord y_clients]. split; [|eauto].
      assert (N : mType m <> ROUND_END).
      { intros X. destruct (F5 m Im) as [U|[]]; [now rewrite X|]. rewrite D in U. contradiction. }
      destruct (Z.eq_dec (mType m) ANNOUNCEMENT) as [X|X].
      * rewrite X in EC. unfold co_handle in EC. cbn in EC. unfold co_announcement in EC. odestruct EC. injection EC as <- _.
        cbn. discriminate.
      * destruct (co_step_frame S G (y_coord y) (EMsg (mType m) (mParams m) (mSrc m) cr) c' out EC) as [F _].
        specialize (F FStatus). cbn [agree writes_ev] in F. rewrite F; [tauto|]. unfold writes.
        repeat match goal with |- ~ In _ (if ?u =? ?v then _ else _) => destruct (Z.eqb_spec u v); [first [contradiction|cbn; intuition discriminate]|] end.
        cbn; tauto.
    + destruct (mget (y_servers y) (mDst m)) as [s|] eqn:Es.
      * destruct (sv_handle S H G s (mType m) (mParams m) (mSrc m) sr) as [[s' out]|] eqn:EC; [|discriminate].
        injection E as <-. cbn [y_coord y_clients]. split; [tauto|eauto].
      * destruct (mget (y_clients y) (mDst m)) as [c|] eqn:Ec; [|discriminate].
        destruct (cl_handle S G c (mType m) (mParams m) chal) as [[c' out]|] eqn:EC; [|discriminate].
        injection E as <-. cbn [y_coord y_clients]. split; [tauto|].
        destruct (cl_sends S G c _ _ _ c' out EC) as [A _].
        assert (N : mType m <> ROUND_END).
        { intros X. destruct (F5 m Im) as [U|[]]; [now rewrite X|]. destruct (F4 _ U) as (t & T & _). congruence. }
        intros z k K. rewrite mget_mset. destruct (keq z (mDst m)) as [->|]; [|eauto]. exists c'. split; [reflexivity|].
        rewrite (A N). congruence.
  - destruct (is_loop e) eqn:IL; [|discriminate].
    destruct (co_step S G (y_coord y) e) as [[c' out]|] eqn:EC; [|discriminate]. injection E as <-.
    cbn [y_coord y_clients]. split; [|eauto].
    destruct e as [ty p src rn| |fakes ord| |ord rs]; [discriminate|destruct O| | |].
    + cbn [co_step] in EC. unfold begin_round in EC. destruct (Z.eqb_spec (co_status (y_coord y)) CO_READY_FOR_NEW_ROUND); [tauto|discriminate].
    + destruct (co_step_frame S G (y_coord y) EVotePhase c' out EC) as [F _]. specialize (F FStatus). cbn in F.
      rewrite F; [tauto|]. intuition discriminate.
    + cbn [co_step] in EC. unfold round_end in EC. destruct F1 as (l & F1 & _). cbn [enter] in F1. rewrite F1 in EC. odestruct EC.
      injection EC as <- _. cbn.
      pose proof (fold_ending_frame (co_buffer (y_coord y)) (y_coord y) FStatus ltac:(cbn; intuition discriminate)) as A. cbn in A.
      now rewrite A.
  - destruct (mget (y_clients y) x) as [c|]; [|discriminate].
    destruct (cl_command S G c cmd) as [out|]; [|discriminate]. injection E as <-. cbn [y_coord y_clients]. split; [tauto|eauto].
Qed.

Lemma flow_back_run Q : forall l y y', Forall ordinary l -> flow true Q (fun _ => False) y -> sys_run S H G y l = Some y' ->
  (co_status (y_coord y') = CO_READY_FOR_NEW_ROUND -> co_status (y_coord y) = CO_READY_FOR_NEW_ROUND) /\
  (forall x k, mget (y_clients y) x = Some k -> exists k', mget (y_clients y') x = Some k' /\ cl_rep k' = cl_rep k).
Proof.
  induction l as [|a l IH]; intros y y' O F E; cbn [sys_run] in E.
  - injection E as <-. split; [tauto|eauto].
  - inversion O; subst. destruct (sys_step S H G y a) as [y1|] eqn:E1; [|discriminate].
    destruct (flow_back_step Q y a y1) as [A1 A2]; auto.
    destruct (IH y1 y') as [B1 B2]; auto.
    { apply (flow_step true Q _ y a y1); auto. }
    split; [auto|]. intros x k K. destruct (A2 x k K) as (k1 & K1 & R1). destruct (B2 x k1 K1) as (k2 & K2 & R2). exists k2. split; [assumption|congruence].
Qed.

End Flow.

(** ** The second registration *)
Section Again.
Context (S : suite) (H : oracle) (G : gob).

Definition is_delivery (a : action) : Prop := match a with ADeliver _ _ _ _ => True | _ => False end.

(** While the answers to the second registration of [a] are on their way; [z] is the last
    server of the list at the time of the registration. *)
Record rejoining (y : sys) (a z : addr) (k : Z) (y1 : sys) : Prop := {
  rj_servers : co_servers (y_coord y1) = co_servers (y_coord y) ++ [(a, k)];
  rj_addr : co_addr (y_coord y1) = co_addr (y_coord y);
  rj_status : co_status (y_coord y1) = co_status (y_coord y);
  rj_clients : y_clients y1 = y_clients y;
  rj_msgs : forall m, In m (y_msgs y1) ->
    mType m = UPDATE_NEXT_HOP /\ mDst m = z /\ get_str (mParams m) "next_hop"%str = Some a \/
    mType m = SERVER_REGISTER_REPLY /\ mDst m = a /\ get_str (mParams m) "prev_server"%str = Some z /\ mSrc m = co_addr (y_coord y) \/
    mType m = UPDATE_PEDERSEN_H /\ mDst m = co_addr (y_coord y);
  rj_links : forall x s, mget (y_servers y) x = Some s -> exists s1, mget (y_servers y1) x = Some s1 /\
    (x <> a -> sv_prev s1 = sv_prev s) /\
    (x <> z -> sv_next s1 = if keq x a then co_addr (y_coord y) else sv_next s) /\
    (x = a -> sv_prev s1 = z \/ exists m, In m (y_msgs y1) /\ mType m = SERVER_REGISTER_REPLY /\ mDst m = a) /\
    (x = z -> sv_next s1 = a \/ exists m, In m (y_msgs y1) /\ mType m = UPDATE_NEXT_HOP /\ mDst m = z)
}.

Lemma rest_or {A} (l : list A) i x m : nth_error l i = Some x -> In m l -> m = x \/ In m (firstn i l ++ skipn (Datatypes.S i) l).
Proof.
  intros E I. apply nth_error_split in E. destruct E as (l1 & l2 & -> & <-).
  rewrite firstn_app, Nat.sub_diag, firstn_all. cbn [firstn]. rewrite app_nil_r.
  replace (skipn _ _) with l2.
  - apply in_app_iff in I. destruct I as [I|[I|I]]; [right; apply in_app_iff; now left|now left|right; apply in_app_iff; now right].
  - replace (Datatypes.S (length l1)) with (length (l1 ++ [x])) by (rewrite app_length; cbn; lia).
    now rewrite (app_assoc l1 [x] l2 : l1 ++ x :: l2 = (l1 ++ [x]) ++ l2), skipn_app, skipn_all, Nat.sub_diag.
Qed.

Lemma rejoining_step y a z k y1 b y2 : a <> co_addr (y_coord y) -> z <> co_addr (y_coord y) ->
  mget (y_servers y) a <> None -> mget (y_servers y) z <> None ->
  is_delivery b -> rejoining y a z k y1 -> sys_step S H G y1 b = Some y2 -> rejoining y a z k y2.
Proof.
  intros Na Nz Ia Iz D [R1 R2 R3 R4 R5 R6] E. destruct b as [| |i cr sr chal| |]; try destruct D. cbn [sys_step] in E.
  destruct (nth_error (y_msgs y1) i) as [m|] eqn:Em; [|discriminate]. pose proof (nth_error_In _ _ Em) as Im.
  pose proof (fun w => rest_or (y_msgs y1) i m w Em) as RO.
  pose proof (fun w => rest_in (y_msgs y1) i w) as RI.
  set (rest := firstn i (y_msgs y1) ++ skipn (Datatypes.S i) (y_msgs y1)) in *. clearbody rest.
  rewrite R2 in E.
  destruct (R5 m Im) as [(T & Dm & Pm)|[(T & Dm & Pm & Sm)|(T & Dm)]].
  - (* UPDATE_NEXT_HOP *)
    destruct (keq (mDst m) (co_addr (y_coord y))) as [X|_]; [congruence|]. rewrite Dm in E.
    destruct (mget (y_servers y) z) as [s0|] eqn:E0; [|congruence].
    destruct (R6 z s0 E0) as (s1 & E1 & L1 & L2 & L3 & L4). rewrite E1 in E.
    destruct (sv_handle S H G s1 (mType m) (mParams m) (mSrc m) sr) as [[s' out]|] eqn:EC; [|discriminate].
    destruct (sv_links S H G s1 _ _ _ _ s' out EC) as (A1 & A2 & A3 & A4 & A5).
    assert (out = []) as ->.
    { rewrite T in EC. unfold sv_handle in EC. cbn in EC. unfold sv_update_next in EC. odestruct EC. now injection EC as _ <-. }
    injection E as <-. specialize (A4 T). rewrite Pm in A4. injection A4 as A4.
    constructor; cbn [y_coord y_servers y_clients y_msgs]; rewrite ?app_nil_r; auto.
    intros x s Ex. rewrite mget_mset. destruct (keq x z) as [->|N].
    + exists s'. split; [reflexivity|]. rewrite E0 in Ex. injection Ex as <-.
      rewrite A1 by (rewrite T; discriminate). repeat split; auto; try congruence.
      intros X. destruct (L3 X) as [|(w & W1 & W2 & W3)]; [auto|]. right. exists w. split; [|auto].
      destruct (RO w W1) as [->|]; [rewrite T in W2; discriminate W2|assumption].
    + destruct (R6 x s Ex) as (sx & Ex1 & M1 & M2 & M3 & M4). exists sx. split; [assumption|]. repeat split; auto; try congruence.
      intros X. destruct (M3 X) as [|(w & W1 & W2 & W3)]; [auto|]. right. exists w. split; [|auto].
      destruct (RO w W1) as [->|]; [rewrite T in W2; discriminate W2|assumption].
  - (* SERVER_REGISTER_REPLY *)
    destruct (keq (mDst m) (co_addr (y_coord y))) as [X|_]; [congruence|]. rewrite Dm in E.
    destruct (mget (y_servers y) a) as [s0|] eqn:E0; [|congruence].
    destruct (R6 a s0 E0) as (s1 & E1 & L1 & L2 & L3 & L4). rewrite E1 in E.
    destruct (sv_handle S H G s1 (mType m) (mParams m) (mSrc m) sr) as [[s' out]|] eqn:EC; [|discriminate].
    destruct (sv_links S H G s1 _ _ _ _ s' out EC) as (A1 & A2 & A3 & A4 & A5).
    assert (OU : forall w, In w out -> mType w = UPDATE_PEDERSEN_H /\ mDst w = co_addr (y_coord y)).
    { intros w W. destruct (A5 w W) as [(U1 & U2 & _)|[(U1 & U2 & _)|[(U1 & U2 & _)|[(U1 & U2)|(U1 & U2 & U3)]]]];
        rewrite T in U2; try discriminate U2. split; congruence. }
    injection E as <-. specialize (A3 T _ Pm).
    constructor; cbn [y_coord y_servers y_clients y_msgs]; auto.
    { intros w W. apply in_app_iff in W. destruct W as [W|W]; auto. }
    intros x s Ex. rewrite mget_mset. destruct (keq x a) as [->|N].
    + exists s'. split; [reflexivity|]. rewrite E0 in Ex. injection Ex as <-.
      rewrite A2 by (rewrite T; discriminate). repeat split; auto; try congruence.
      * intros X. rewrite (L2 X). now destruct (keq a a).
      * intros X. destruct (L4 X) as [|(w & W1 & W2 & W3)]; [auto|]. right. exists w. split; [|auto].
        apply in_app_iff. left. destruct (RO w W1) as [->|]; [rewrite T in W2; discriminate W2|assumption].
    + destruct (R6 x s Ex) as (sx & Ex1 & M1 & M2 & M3 & M4). exists sx. split; [assumption|]. repeat split; auto; try congruence.
      * intros X. rewrite (M2 X). now destruct (keq x a).
      * intros X. destruct (M4 X) as [|(w & W1 & W2 & W3)]; [auto|]. right. exists w. split; [|auto].
        apply in_app_iff. left. destruct (RO w W1) as [->|]; [rewrite T in W2; discriminate W2|assumption].
  - (* UPDATE_PEDERSEN_H *)
    destruct (keq (mDst m) (co_addr (y_coord y))) as [_|X]; [|congruence].
    rewrite T in E. unfold co_handle in E. cbn in E. unfold co_pedersen_h in E.
    odestruct E. injection E as <-. 
    repeat match goal with Q : _ = Some (_, _) |- _ => odestruct Q; injection Q as <- <- end.
    constructor; cbn [y_coord y_servers y_clients y_msgs set_pb co_servers co_status]; rewrite ?app_nil_r; auto.
    intros x s Ex. destruct (R6 x s Ex) as (sx & Ex1 & M1 & M2 & M3 & M4). exists sx. repeat split; auto.
    * intros X. destruct (M3 X) as [|(w & W1 & W2 & W3)]; [auto|]. right. exists w. split; [|auto].
      destruct (RO w W1) as [->|]; [rewrite T in W2; discriminate W2|assumption].
    * intros X. destruct (M4 X) as [|(w & W1 & W2 & W3)]; [auto|]. right. exists w. split; [|auto].
      destruct (RO w W1) as [->|]; [rewrite T in W2; discriminate W2|assumption].
Qed.

Lemma rejoining_run y a z k : a <> co_addr (y_coord y) -> z <> co_addr (y_coord y) ->
  mget (y_servers y) a <> None -> mget (y_servers y) z <> None ->
  forall l y1 y2, Forall is_delivery l -> rejoining y a z k y1 -> sys_run S H G y1 l = Some y2 -> rejoining y a z k y2.
Proof.
  intros Na Nz Ia Iz. induction l as [|b l IH]; intros y1 y2 F R E; cbn [sys_run] in E; [now injection E as <-|].
  inversion F; subst. destruct (sys_step S H G y1 b) as [y3|] eqn:E1; [|discriminate].
  apply (IH y3 y2); auto. now apply (rejoining_step y a z k y1 b y3).
Qed.

(** A server that registers again is listed a second time, at the end; the links that
    result. *)
Lemma rejoined y a z priv rk l y1 : y_msgs y = [] -> last_server (y_coord y) = Some z ->
  a <> co_addr (y_coord y) -> z <> co_addr (y_coord y) ->
  mget (y_servers y) a <> None -> mget (y_servers y) z <> None ->
  Forall is_delivery l -> sys_run S H G (restart S y a priv rk) l = Some y1 -> y_msgs y1 = [] ->
  (exists k, co_servers (y_coord y1) = co_servers (y_coord y) ++ [(a, k)]) /\
  co_addr (y_coord y1) = co_addr (y_coord y) /\ co_status (y_coord y1) = co_status (y_coord y) /\
  y_clients y1 = y_clients y /\
  forall x s, mget (y_servers y) x = Some s -> exists s1, mget (y_servers y1) x = Some s1 /\
    sv_prev s1 = (if keq x a then z else sv_prev s) /\
    sv_next s1 = (if keq x z then a else if keq x a then co_addr (y_coord y) else sv_next s).
Proof.
  intros M0 LZ Na Nz Ia Iz F E M1. destruct l as [|b l].
  { injection E as <-. unfold restart in M1. cbn [y_msgs] in M1. now apply app_eq_nil in M1. }
  inversion F as [|? ? Fb Fl]; subst. cbn [sys_run] in E.
  destruct (sys_step S H G (restart S y a priv rk) b) as [y0|] eqn:E0; [|discriminate].
  assert (RJ : exists k, rejoining y a z k y0).
  { destruct b as [| |i cr sr chal| |]; try destruct Fb. unfold restart in E0. rewrite M0 in E0. cbn [sys_step y_msgs y_coord app] in E0.
    destruct i as [|i]; [|now destruct i]. cbn [nth_error firstn skipn app] in E0.
    unfold sv_register, init_server in E0. cbn [mDst mType mParams mSrc sv_coord sv_pub sv_addr] in E0.
    destruct (keq (co_addr (y_coord y)) (co_addr (y_coord y))) as [_|N]; [|congruence].
    unfold co_handle in E0. cbn in E0. rewrite LZ in E0. injection E0 as <-.
    eexists. constructor; cbn [y_coord y_servers y_clients y_msgs add_server set_servers co_servers co_status]; try reflexivity.
    - intros m [<-|[<-|[]]]; cbn; auto 10.
    - intros x s Ex. rewrite mget_mset. destruct (keq x a) as [->|N].
      + eexists. split; [reflexivity|]. repeat split; try congruence.
        * intros _. right. eexists. split; [right; left; reflexivity|]. auto.
        * intros X. right. eexists. split; [left; reflexivity|]. auto.
      + exists s. split; [assumption|]. repeat split; try congruence.
        intros X. right. eexists. split; [left; reflexivity|]. auto. }
  destruct RJ as (k & RJ). pose proof (rejoining_run y a z k Na Nz Ia Iz l y0 y1 Fl RJ E) as [R1 R2 R3 R4 R5 R6].
  split; [eauto|]. repeat (split; [assumption|]). intros x s Ex. destruct (R6 x s Ex) as (s1 & E1 & L1 & L2 & L3 & L4).
  exists s1. split; [assumption|]. rewrite M1 in *. split.
  - destruct (keq x a) as [X|X]; [|auto]. destruct (L3 X) as [|(? & [] & _)]; assumption.
  - destruct (keq x z) as [X|X]; [|auto]. destruct (L4 X) as [|(? & [] & _)]; assumption.
Qed.

End Again.
