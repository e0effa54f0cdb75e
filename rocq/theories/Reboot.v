(** A coordinator that is stopped and started again, on top of System.v: what reaches the
    servers and clients that were there before (used for C93). *)
From Coq Require Import ZArith Znumtheory Lia List Bool Permutation.
From Coq Require Import Strings.Byte.
From Coq Require String.
From Verif Require Import ZMod Bytes Suite Pedersen ElGamal FujiOkam Equality Codec Maps Net Bridge Client
  Perm SimpleShuffle PairShuffle Server Coordinator History System Depart Restart.
Import ListNotations.
Import String.StringSyntax.
Open Scope Z_scope.
Delimit Scope string_scope with str.

(** The coordinator's process ends and a new one is started with the same configuration:
    CoordinatorLauncher.go:45-79 initCoordinator knows no servers and no clients and picks
    a new key [a], a new base [fb] with its trapdoor and new values [gammas] for the
    honesty proofs; 227-231 listens at the same address.  Nothing is read from a file, and
    the servers and clients go on as they are.  Simplification: nobody sends to the
    coordinator while it is down (a failed dial is in Depart.v). *)
Definition reboot (S : suite) (y : sys) (a : Z) (fb : fobase) (trap : fotrap) (gammas : list Z) : sys :=
  Sys (init_coord S (co_addr (y_coord y)) a fb trap gammas) (y_servers y) (y_clients y) (y_msgs y) (y_log y).

(** The commands of a user: ClientLauncher.go:65-86, 91-146, 206-234. *)
Definition commanding (ty : Z) : Prop := ty = POST_BRIDGE \/ ty = REQUEST_BRIDGES \/ ty = VOTE.

(** ** What the handlers send, and where to *)
Section Old.
Context (S : suite) (G : gob).
Variable O : addr -> Prop.
Variable self : addr.
Hypothesis Oself : ~ O self.

(** A message that does not bring the processes in [O] back into the session. *)
Record apart (m : msg) : Prop := {
  ap_dst : O (mDst m) -> mType m = GOT_SIGNS;
  ap_src : O (mSrc m) -> mDst m = self /\ commanding (mType m);
  ap_addr : mType m = CLIENT_REGISTER_SERVERSIDE -> forall x, get_str (mParams m) "addr"%str = Some x -> ~ O x;
  ap_next : mType m = UPDATE_NEXT_HOP -> forall x, get_str (mParams m) "next_hop"%str = Some x -> ~ O x;
  ap_prev : mType m = SERVER_REGISTER_REPLY -> forall x, get_str (mParams m) "prev_server"%str = Some x -> ~ O x
}.

Lemma apart_plain d ty p s : ~ O d -> ~ O s -> ty <> CLIENT_REGISTER_SERVERSIDE -> ty <> UPDATE_NEXT_HOP ->
  ty <> SERVER_REGISTER_REPLY -> apart (Msg d ty p s).
Proof. intros. constructor; cbn [mDst mSrc mType mParams]; intros; contradiction. Qed.

Record co_apart (c : coord) : Prop := {
  ca_self : co_addr c = self;
  ca_servers : forall a, In a (map fst (co_servers c)) -> ~ O a;
  ca_clients : forall a, In a (map snd (co_clients c)) -> ~ O a
}.

Lemma in_snd_mset (m : amap Z addr) k v x : In x (map snd (mset m k v)) -> x = v \/ In x (map snd m).
Proof.
  induction m as [|[k' v'] m IH]; cbn; [intros [<-|[]]; now left|]. destruct (keq k k'); cbn; [intuition|].
  intros [<-|I]; [auto|]. destruct (IH I); auto.
Qed.
Lemma in_snd_add_client ord (m : amap Z addr) k v x : In x (map snd (add_client ord m k v)) -> x = v \/ In x (map snd m).
Proof.
  unfold add_client. cbv zeta. intros I. apply in_snd_mset in I. destruct I as [->|I]; [now left|right].
  destruct (find _ ord) as [z|]; [|exact I]. apply in_map_iff in I. destruct I as (p & <- & I). apply in_map. eapply in_mdel; eauto.
Qed.

Lemma co_apart_same c c' : co_static c' = co_static c -> co_servers c' = co_servers c -> co_clients c' = co_clients c ->
  co_apart c -> co_apart c'.
Proof. intros E1 E2 E3 [A1 A2 A3]. constructor; unfold co_addr in *; rewrite ?E1, ?E2, ?E3; assumption. Qed.

Lemma to_servers_apart c ty p : co_apart c -> ty <> CLIENT_REGISTER_SERVERSIDE -> ty <> UPDATE_NEXT_HOP ->
  ty <> SERVER_REGISTER_REPLY -> Forall apart (to_servers c ty p).
Proof.
  intros [A1 A2 A3] N1 N2 N3. apply Forall_forall. intros m I. apply in_map_iff in I. destruct I as (x & <- & I).
  apply apart_plain; try assumption; [|now rewrite A1]. now apply A2, in_map.
Qed.
Lemma to_clients_apart c ty p : co_apart c -> ty <> CLIENT_REGISTER_SERVERSIDE -> ty <> UPDATE_NEXT_HOP ->
  ty <> SERVER_REGISTER_REPLY -> Forall apart (to_clients c ty p).
Proof.
  intros [A1 A2 A3] N1 N2 N3. apply Forall_forall. intros m I. apply in_map_iff in I. destruct I as (x & <- & I).
  apply apart_plain; try assumption; [|now rewrite A1]. now apply A3, in_map.
Qed.

Lemma last_in c l : last_server c = Some l -> In l (map fst (co_servers c)).
Proof.
  intros EL. unfold last_server in EL. destruct (nth_error (rev (co_servers c)) 0) as [x|] eqn:EN; [|discriminate].
  injection EL as <-. apply in_map. apply in_rev. now apply nth_error_In in EN.
Qed.
Lemma first_in c l : first_server c = Some l -> In l (map fst (co_servers c)).
Proof.
  intros EL. unfold first_server in EL. destruct (nth_error (co_servers c) 0) as [x|] eqn:EN; [|discriminate].
  injection EL as <-. apply in_map. now apply nth_error_In in EN.
Qed.

Lemma got_loop_src j rq : forall l sigs c out0 c' out, got_loop S G c j rq sigs l out0 = Some (c', out) ->
  forall m, In m out -> In m out0 \/ mSrc m = co_addr c.
Proof.
  induction l as [|a l IH]; intros sigs c out0 c' out E m I; cbn [got_loop] in E.
  - injection E as <- <-. now left.
  - odestruct E.
    + match goal with X : add_asig _ _ _ _ = Some _ |- _ => apply add_asig_frame in X; destruct X as (x & ->) end.
      destruct (IH _ _ _ _ _ E m I) as [J|J]; [|now right]. apply in_app_iff in J. destruct J as [|[<-|[]]]; [tauto|].
      right. match goal with X : send _ _ _ _ = Some _ |- _ => unfold send in X; odestruct X; injection X as <- end. reflexivity.
    + match goal with X : add_asig _ _ _ _ = Some _ |- _ => apply add_asig_frame in X; destruct X as (x & ->) end.
      destruct (IH _ _ _ _ _ E m I) as [J|J]; [now left|now right].
Qed.

(** The coordinator, for a message that is apart itself. *)
Lemma co_handle_apart c m rn c' out : co_apart c -> apart m ->
  co_handle S G c (mType m) (mParams m) (mSrc m) rn = Some (c', out) -> co_apart c' /\ Forall apart out.
Proof.
  intros CA [M1 M2 M3 M4 M5] E. destruct m as [d ty p src]. cbn [mDst mType mParams mSrc] in *.
  pose proof (ca_self _ CA) as Ec.
  assert (NS : ~ commanding ty -> ~ O src) by (intros N X; now apply N, (M2 X)).
  unfold co_handle in E.
  destruct (Z.eqb_spec ty SERVER_REGISTER) as [->|N1].
  { assert (Ns : ~ O src) by (apply NS; unfold commanding; intros [X|[X|X]]; discriminate X).
    unfold co_server_register in E. cbv zeta in E. odestruct E. injection E as <- <-. split.
    - constructor; cbn.
      + exact Ec.
      + intros x I. rewrite map_app in I. apply in_app_or in I. destruct I as [I|[<-|[]]]; [now apply (ca_servers _ CA)|exact Ns].
      + apply (ca_clients _ CA).
    - assert (NP : ~ O (match last_server c with Some l => l | None => co_addr c end)).
      { destruct (last_server c) as [l|] eqn:EL; [|now rewrite Ec]. apply (ca_servers _ CA). now apply last_in. }
      apply Forall_app. split.
      + destruct (last_server c) as [l|] eqn:EL; [|constructor]. constructor; [|constructor].
        constructor; cbn [mDst mSrc mType mParams]; try discriminate.
        * intros X. exfalso. revert X. apply (ca_servers _ CA). now apply last_in.
        * rewrite Ec. intros X. contradiction.
        * intros _ x Hx. cbn in Hx. injection Hx as <-. exact Ns.
      + constructor; [|constructor]. constructor; cbn [mDst mSrc mType mParams]; try discriminate.
        * intros X. contradiction.
        * rewrite Ec. intros X. contradiction.
        * intros _ x Hx. cbn in Hx. injection Hx as <-. exact NP. }
  destruct (Z.eqb_spec ty UPDATE_PEDERSEN_H) as [->|N2].
  { unfold co_pedersen_h in E. odestruct E. injection E as <- <-. split; [now apply (co_apart_same c)|constructor]. }
  destruct (Z.eqb_spec ty CLIENT_REGISTER_CONTROLLERSIDE) as [->|N3].
  { assert (Ns : ~ O src) by (apply NS; unfold commanding; intros [X|[X|X]]; discriminate X).
    unfold co_client_register in E. cbv zeta in E. destruct (ped_commit _ _ _ _) as [pc r]. odestruct E. injection E as <- <-. split.
    - constructor; cbn.
      + exact Ec.
      + apply (ca_servers _ CA).
      + intros x I. apply in_snd_add_client in I. destruct I as [->|I]; [exact Ns|now apply (ca_clients _ CA)].
    - match goal with X : send _ (first_server c) _ _ = Some _ |- _ => unfold send in X; destruct (first_server c) as [fs|] eqn:EF; [|discriminate]; injection X as <- end.
      pose proof (ca_servers _ CA _ (first_in _ _ EF)) as Nf.
      constructor; [|constructor; [|constructor]].
      + constructor; cbn [mDst mSrc mType mParams]; try discriminate.
        * intros X. contradiction.
        * rewrite Ec. intros X. contradiction.
        * intros _ x Hx. cbn in Hx. injection Hx as <-. exact Ns.
      + apply apart_plain; try assumption; try discriminate. now rewrite Ec. }
  destruct (Z.eqb_spec ty CLIENT_REGISTER_SERVERSIDE) as [->|N4].
  { unfold co_client_confirm in E. cbv zeta in E. odestruct E. injection E as <- <-. split; [now apply (co_apart_same c)|].
    constructor; [|constructor]. apply apart_plain; try discriminate; [|now rewrite Ec]. now apply M3. }
  destruct (Z.eqb_spec ty GN_HONESTY_CHALLENGE) as [->|N5].
  { assert (Ns : ~ O src) by (apply NS; unfold commanding; intros [X|[X|X]]; discriminate X).
    unfold co_honesty in E. odestruct E. injection E as <- <-. split; [exact CA|].
    constructor; [|constructor]. apply apart_plain; try discriminate; [exact Ns|now rewrite Ec]. }
  destruct (Z.eqb_spec ty POST_BRIDGE) as [->|N6].
  { unfold co_post in E. odestruct E; injection E as <- <-; (split; [now apply (co_apart_same c)|constructor]). }
  destruct (Z.eqb_spec ty REQUEST_BRIDGES) as [->|N7].
  { unfold co_request in E. cbv zeta in E. odestruct E; injection E as <- <-; subst; try (split; [assumption|constructor]; fail).
    - match goal with X : assign_bridges _ _ _ _ = _ |- _ => unfold assign_bridges in X;
        destruct (get_bridges _ _ _) as [brs mm]; injection X as Hl <- end.
      split; [now apply (co_apart_same c)|constructor].
    - match goal with X : assign_bridges _ _ _ _ = _ |- _ => unfold assign_bridges in X;
        destruct (get_bridges _ _ _) as [brs mm]; injection X as Hl <- end.
      match goal with X : open_assignments _ _ _ = Some _ |- _ => apply open_assignments_frame in X; destruct X as (F1 & F2 & _ & F4) end.
      match goal with |- co_apart ?z /\ _ => assert (CA' : co_apart z) by (apply (co_apart_same c); [exact F4|exact F2|exact F1|exact CA]) end.
      split; [exact CA'|]. apply to_servers_apart; [exact CA'|discriminate..]. }
  destruct (Z.eqb_spec ty GOT_SIGNS) as [->|N8].
  { unfold co_got in E. cbv zeta in E. odestruct E; try (injection E as <- <-; split; [assumption|constructor]).
    destruct (got_loop_frame _ _ _ _ _ _ _ _ _ _ E) as [F T]. pose proof (got_loop_src _ _ _ _ _ _ _ _ E) as Sx. split.
    - apply (co_apart_same c); [apply (F FStatic)|apply (F FServers)|apply (F FClients)|exact CA]; cbn; intros X; intuition discriminate.
    - apply Forall_forall. intros m I. destruct (T m I) as [[]|Ty]. destruct (Sx m I) as [[]|Sc].
      constructor; rewrite ?Ty; try discriminate; [reflexivity|]. rewrite Sc, Ec. intros X. contradiction. }
  destruct (Z.eqb_spec ty Net.VOTE) as [->|N9].
  { unfold co_vote in E. cbv zeta in E. odestruct E; injection E as <- <-; (split; [now apply (co_apart_same c)|constructor]). }
  destruct (Z.eqb_spec ty Net.ROUND_END) as [->|N10].
  { unfold co_round_end in E. cbv zeta in E. odestruct E. injection E as <- <-. split; [now apply (co_apart_same c)|].
    apply to_clients_apart; [exact CA|discriminate..]. }
  destruct (Z.eqb_spec ty ANNOUNCEMENT) as [->|N11].
  { unfold co_announcement in E. cbv zeta in E. odestruct E. injection E as <- <-. split; [now apply (co_apart_same c)|].
    apply Forall_app. split; [apply to_clients_apart; [exact CA|discriminate..]|apply to_servers_apart; [exact CA|discriminate..]]. }
  injection E as <- <-. split; [exact CA|constructor].
Qed.

Lemma co_loop_apart c e c' out : is_loop e = true -> co_apart c -> co_step S G c e = Some (c', out) ->
  co_apart c' /\ Forall apart out.
Proof.
  intros L CA E. pose proof (ca_self _ CA) as Ec. destruct e as [ty p src rn| |fakes ord| |ord rs]; cbn [co_step] in E; [discriminate| | | |].
  - injection E as <- <-. split; [now apply (co_apart_same c)|]. apply to_servers_apart; [exact CA|discriminate..].
  - unfold begin_round in E. destruct (negb _); [discriminate|]. cbv zeta in E. unfold announce in E.
    match type of E with match first_server ?d with _ => _ end = _ =>
      assert (FD : co_static d = co_static c /\ co_servers d = co_servers c /\ co_clients d = co_clients c); [|set (d0 := d) in *] end.
    { destruct (co_first c); [|auto]. cbn.
      split; [apply (add_fakes_frame S fakes c FStatic); cbn; intuition discriminate|].
      split; [apply (add_fakes_frame S fakes c FServers)|apply (add_fakes_frame S fakes c FClients)]; cbn; intuition discriminate. }
    clearbody d0. destruct FD as (F1 & F2 & F3). assert (CD : co_apart d0) by (now apply (co_apart_same c)).
    destruct (first_server d0) as [x|] eqn:EF.
    + odestruct E. injection E as <- <-. split; [exact CD|]. constructor; [|constructor].
      apply apart_plain; try discriminate; [|now rewrite (ca_self _ CD)]. apply (ca_servers _ CD). now apply first_in.
    + injection E as <- <-. split; [now apply (co_apart_same d0)|constructor].
  - injection E as <- <-. split; [now apply (co_apart_same c)|]. apply to_clients_apart; [exact CA|discriminate..].
  - unfold round_end in E. destruct (last_server c) as [b|] eqn:EL.
    2:{ injection E as <- <-. split; [now apply (co_apart_same c)|constructor]. }
    cbv zeta in E. odestruct E. injection E as <- <-.
    match goal with |- context [clear_bridges ?d] => assert (CD : co_apart d) end.
    { apply (co_apart_same c); [| | |exact CA].
      - apply (fold_ending_frame (co_buffer c) c FStatic); cbn; intuition discriminate.
      - apply (fold_ending_frame (co_buffer c) c FServers); cbn; intuition discriminate.
      - apply (fold_ending_frame (co_buffer c) c FClients); cbn; intuition discriminate. }
    split; [revert CD; now apply co_apart_same|]. constructor; [|apply to_clients_apart; [exact CD|discriminate..]].
    apply apart_plain; try discriminate; [|now rewrite Ec]. apply (ca_servers _ CA). now apply last_in.
Qed.

(** A server that is not one of those in [O]. *)
Record sv_apart (a : addr) (s : server) : Prop := {
  sa_addr : sv_addr s = a;
  sa_next : ~ O (sv_next s);
  sa_prev : ~ O (sv_prev s)
}.

Lemma sv_handle_apart H a s m rn s' out : sv_apart a s -> ~ O a -> mDst m = a -> a <> self -> apart m ->
  sv_handle S H G s (mType m) (mParams m) (mSrc m) rn = Some (s', out) -> sv_apart a s' /\ Forall apart out.
Proof.
  intros [A1 A2 A3] Na Ed Ns [M1 M2 M3 M4 M5] E. destruct m as [d ty p src]. cbn [mDst mType mParams mSrc] in *. subst d.
  assert (Nsrc : ~ O src) by (intros X; now destruct (M2 X)).
  unfold sv_handle in E.
  destruct (Z.eqb_spec ty SERVER_REGISTER_REPLY) as [->|N1].
  { unfold sv_register_reply in E. odestruct E; injection E as <- <-; (split; [|constructor; [|constructor];
      apply apart_plain; try discriminate; [exact Nsrc|now rewrite A1]]); constructor; cbn [sv_addr sv_next sv_prev]; try assumption.
    match goal with X : (if has_key p _ then _ else _) = Some _ |- _ => destruct (has_key p _); [now apply M5|congruence] end. }
  destruct (Z.eqb_spec ty ANNOUNCEMENT) as [->|N2].
  { unfold sv_announcement in E. odestruct E; injection E as <- <-; (split; [now constructor|constructor; [|constructor]]);
      (apply apart_plain; try discriminate; [exact A2|now rewrite A1]). }
  destruct (Z.eqb_spec ty ANNOUNCEMENT_FINALIZE) as [->|N3].
  { unfold sv_finalize in E. odestruct E; injection E as <- <-; (split; [now constructor|constructor]). }
  destruct (Z.eqb_spec ty SIGN_ASSIGNMENTS) as [->|N4].
  { unfold sv_sign in E. odestruct E; injection E as <- <-; (split; [now constructor|constructor; [|constructor]]);
      (apply apart_plain; try discriminate; [exact Nsrc|now rewrite A1]). }
  destruct (Z.eqb_spec ty UPDATE_NEXT_HOP) as [->|N5].
  { unfold sv_update_next in E. odestruct E; injection E as <- <-. split; [|constructor]. constructor; cbn [sv_addr sv_next sv_prev]; try assumption.
    now apply M4. }
  destruct (Z.eqb_spec ty CLIENT_REGISTER_SERVERSIDE) as [->|N6].
  { unfold sv_client_register in E. cbv zeta in E. odestruct E; injection E as <- <-; (split; [now constructor|constructor; [|constructor]]).
    constructor; cbn [mDst mSrc mType mParams]; try discriminate.
    - intros X. contradiction.
    - rewrite A1. intros X. contradiction.
    - intros _ x Hx. cbn in Hx. injection Hx as <-. now apply M3. }
  destruct (Z.eqb_spec ty ROUND_END) as [->|N7].
  { unfold sv_round_end in E. odestruct E; injection E as <- <-; (split; [now constructor|constructor; [|constructor]]);
      (apply apart_plain; try discriminate; [exact A3|now rewrite A1]). }
  destruct (Z.eqb_spec ty BCAST_PEDERSEN_H) as [->|N8].
  { unfold sv_pedersen_h in E. odestruct E; injection E as <- <-; (split; [now constructor|constructor]). }
  injection E as <- <-. split; [now constructor|constructor].
Qed.

(** Clients keep their two addresses and send to the coordinator only. *)
Lemma cl_handle_apart k ty p chal k' out : cl_handle S G k ty p chal = Some (k', out) ->
  cl_addr k' = cl_addr k /\ cl_coord k' = cl_coord k /\
  forall m, In m out -> mDst m = cl_coord k /\ mSrc m = cl_addr k /\ mType m = GN_HONESTY_CHALLENGE /\ ty = CLIENT_REGISTER_CONFIRMATION.
Proof.
  unfold cl_handle, cl_register_confirmation, cl_init_r, cl_honesty_answer, cl_announce_final, cl_got_signatures,
    cl_vote_start, cl_round_end, cl_rdiff, cl_vote_reply. intros E. cbv zeta in E.
  destruct (Z.eqb_spec ty CLIENT_REGISTER_CONFIRMATION) as [->|N].
  { odestruct E. injection E as <- <-. split; [reflexivity|]. split; [reflexivity|]. now intros m [<-|[]]. }
  repeat match type of E with (if ty =? _ then _ else _) = _ => destruct (ty =? _) end;
    odestruct E; injection E as <- <-; (split; [reflexivity|]; split; [reflexivity|]; intros m []).
Qed.

Lemma cmd_apart k cmd out : cl_command S G k cmd = Some out ->
  forall m, In m out -> mDst m = cl_coord k /\ mSrc m = cl_addr k /\ commanding (mType m).
Proof.
  intros E m I. pose proof (cmd_sends _ _ _ _ _ E m I) as T. destruct cmd as [b|ind rn|id f]; cbn [cl_command] in E.
  - injection E as <-. destruct I as [<-|[]]. now repeat split.
  - destruct (cl_request S G k ind rn) as [[x|]|] eqn:R; [|injection E as <-; destruct I|discriminate].
    injection E as <-. destruct I as [I|[]]. subst x. unfold cl_request in R. odestruct R; injection R as <-; now repeat split.
  - destruct (cl_vote S k id f) as [x|] eqn:R; [|discriminate]. injection E as <-. destruct I as [I|[]]. subst x.
    unfold cl_vote in R. odestruct R; injection R as <-; now repeat split.
Qed.

(** What the signatures for an assignment change at a client. *)
Definition but_assigns (k k' : client) : Prop :=
  k' = Client (cl_addr k) (cl_coord k) (cl_status k) (cl_priv k) (cl_pub k) (cl_cpk k) (cl_nym k) (cl_G k) (cl_rep k)
    (cl_keys k) (cl_index k) (cl_assigns k') (cl_PCommr k) (cl_R k) (cl_fb k) (cl_pb k) (cl_hpub k) (cl_hchal k).
Lemma but_assigns_refl k : but_assigns k k.
Proof. now destruct k. Qed.
Lemma got_but_assigns k p chal k' out : cl_handle S G k GOT_SIGNS p chal = Some (k', out) -> but_assigns k k' /\ out = [].
Proof.
  unfold cl_handle. cbn [Z.eqb]. change (cl_got_signatures S k p = Some (k', out) -> but_assigns k k' /\ out = []).
  unfold cl_got_signatures. intros E. odestruct E; injection E as <- <-; (split; [|reflexivity]); [apply but_assigns_refl|reflexivity].
Qed.
Lemma but_assigns_trans a b c : but_assigns a b -> but_assigns b c -> but_assigns a c.
Proof. unfold but_assigns. intros E1 E2. rewrite E2. cbn [cl_assigns]. rewrite E1. reflexivity. Qed.

End Old.
