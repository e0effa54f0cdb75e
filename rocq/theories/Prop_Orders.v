(** C99: a server takes orders from its coordinator and its neighbours only.  Refuted: a
    server does not look at the sender.  Anybody can divert its tables, replace its bases,
    make it forget the round, read off its table of pseudonyms, or stop it; and one message
    to the last server of the chain empties the coordinator's table of reputations. *)
From Coq Require Import ZArith Znumtheory Lia List Bool Permutation.
From Coq Require Import Strings.Byte.
From Coq Require String.
From Verif Require Import ZMod Bytes Suite Spec Pedersen ElGamal FujiOkam Equality Codec Maps Net Bridge Client
  Perm SimpleShuffle PairShuffle Server Coordinator History System Round RoundInv
  Prop_Codec Prop_ElGamal Prop_Bridge Prop_Shuffle Prop_Assign Prop_Topology Prop_Round Prop_Client.
Import ListNotations.
Import String.StringSyntax.
Open Scope Z_scope.
Delimit Scope string_scope with str.

(** ** What each message may change *)
(** A server's keys and addresses never change; each other field changes only with the
    messages listed for it. *)
Theorem C99_frame : forall S H G s ty p src rn s' out, sv_handle S H G s ty p src rn = Some (s', out) ->
  (sv_priv s', sv_pub s', sv_addr s', sv_coord s') = (sv_priv s, sv_pub s, sv_addr s, sv_coord s) /\
  (sv_next s' <> sv_next s -> ty = UPDATE_NEXT_HOP) /\
  ((sv_prev s', sv_connected s', sv_fb s') <> (sv_prev s, sv_connected s, sv_fb s) -> ty = SERVER_REGISTER_REPLY) /\
  (sv_roundkey s' <> sv_roundkey s -> ty = Net.ROUND_END) /\
  (sv_keymap s' <> sv_keymap s -> In ty [ANNOUNCEMENT; CLIENT_REGISTER_SERVERSIDE; Net.ROUND_END]) /\
  ((sv_G s', sv_ekeys s', sv_ecomms s') <> (sv_G s, sv_ekeys s, sv_ecomms s) -> ty = ANNOUNCEMENT_FINALIZE) /\
  (sv_pb s' <> sv_pb s -> In ty [ANNOUNCEMENT_FINALIZE; BCAST_PEDERSEN_H]).
Proof.
  intros S H G s ty p src rn s' out E. unfold sv_handle in E.
  repeat match type of E with (if ty =? ?b then _ else _) = _ => destruct (Z.eqb_spec ty b) as [->|]; [|] end;
  unfold sv_register_reply, sv_announcement, sv_finalize, sv_sign, sv_update_next, sv_client_register, sv_round_end,
    sv_pedersen_h in E; cbv zeta in E; odestruct E; injection E as <- <-;
  cbn [sv_priv sv_pub sv_addr sv_coord sv_next sv_prev sv_connected sv_fb sv_roundkey sv_keymap sv_G sv_ekeys sv_ecomms sv_pb];
  (split; [reflexivity|]); repeat split; intros N; first [congruence | reflexivity | cbn; tauto].
Qed.

(** ** Who can send it *)
(** The property as stated: delivering a message that comes neither from the coordinator nor from a
    server of the chain does not change a server. *)
Definition own_chain_only : Prop := forall S H G, suite_ok S -> gob_ok G -> forall y V m cr sr chal y' a, reach S H G y V ->
  mSrc m <> co_addr (y_coord y) -> ~ In (mSrc m) (chain_addrs y) ->
  sys_step S H G (inject y m) (ADeliver (length (y_msgs y)) cr sr chal) = Some y' ->
  mget (y_servers y') a = mget (y_servers y) a.
(** A table without entries, with the bases [g] and [h]. *)
Definition no_table (S : suite) (g h : Z) : params := table_params S [] [] g h.

Lemma firstn_S_in {A} (L : list A) i a : nth_error L i = Some a -> firstn (Datatypes.S i) L = firstn i L ++ [a].
Proof. revert L. induction i as [|i IH]; intros [|b L] E; cbn in E; try discriminate; [now injection E as ->|]. cbn [firstn app]. f_equal. now apply IH. Qed.

Lemma look_all {A} (f : A -> option Z) l : (forall x, In x l -> f x <> None) -> exists r, non_nil (map f l) = Some r.
Proof.
  unfold non_nil. induction l as [|a l IH]; intros F; cbn [map dec_all]; [now exists []|]. destruct (IH (fun x I => F x (or_intror I))) as [r Er].
  destruct (f a) as [b|] eqn:Ea; [|now elim (F a (or_introl eq_refl))]. rewrite Er. now exists (b :: r).
Qed.

Section Anyone.
Context (S : suite) (OK : suite_ok S) (H : oracle) (G : gob) (GOK : gob_ok G).

Section One.
Variables (y : sys) (a : addr) (s : server) (src : addr) (cr : co_rand) (sr : sv_rand) (chal : list bool).
Hypothesis ES : mget (y_servers y) a = Some s.
Hypothesis NC : a <> co_addr (y_coord y).

(** Delivering a message of the stranger to the server. *)
Definition order (ty : Z) (p : params) : option sys :=
  sys_step S H G (inject y (Msg a ty p src)) (ADeliver (length (y_msgs y)) cr sr chal).
Lemma order_does ty p s' out : sv_handle S H G s ty p src sr = Some (s', out) ->
  exists y', order ty p = Some y' /\ mget (y_servers y') a = Some s' /\ y_msgs y' = y_msgs y ++ out /\ y_coord y' = y_coord y.
Proof.
  intros E. unfold order, inject. cbn [sys_step y_msgs y_coord y_servers y_clients y_log].
  rewrite nth_error_app2, Nat.sub_diag by lia. cbn [nth_error mDst mType mParams mSrc].
  destruct (keq a (co_addr (y_coord y))) as [X|_]; [contradiction|]. rewrite ES, E.
  eexists. split; [reflexivity|]. cbn [y_servers y_msgs]. split; [apply mget_mset_eq|].
  rewrite firstn_app, Nat.sub_diag, firstn_all, firstn_O, app_nil_r. rewrite skipn_all2 by (rewrite app_length; cbn; lia). rewrite app_nil_r. now split.
Qed.

(** Anybody can send the tables of a server elsewhere. *)
Theorem C99_anyone_diverts : forall b, exists p y' s', order UPDATE_NEXT_HOP p = Some y' /\ mget (y_servers y') a = Some s' /\
  sv_next s' = b.
Proof.
  intros b. exists [("next_hop"%str, VStr b)]. edestruct order_does as (y' & E1 & E2 & _); [|exists y'; eexists; split; [exact E1|split; [exact E2|]]]; reflexivity.
Qed.

(** Anybody can tell a server where to send the tables of the end of a round. *)
Theorem C99_anyone_diverts_back : forall b, exists p y' s', order SERVER_REGISTER_REPLY p = Some y' /\ mget (y_servers y') a = Some s' /\
  sv_prev s' = b /\ sv_keymap s' = sv_keymap s /\ y_coord y' = y_coord y.
Proof.
  intros b. exists [("reply"%str, VBool true); ("prev_server"%str, VStr b); ("n"%str, VBytes []); ("g1"%str, VBytes []); ("g2"%str, VBytes []);
    ("g3"%str, VBytes []); ("g4"%str, VBytes []); ("g5"%str, VBytes []); ("g6"%str, VBytes []); ("h1"%str, VBytes []); ("h"%str, VBytes (enc_point S 1))].
  edestruct order_does as (y' & E1 & E2 & _ & EC); [|exists y'; eexists; split; [exact E1|split; [exact E2|]]].
  - unfold sv_handle. cbn -[enc_point dec_point sv_register_reply]. unfold sv_register_reply, get_bytes, has_key. cbn [lookup String.eqb Ascii.eqb Bool.eqb get_bool get_str read_fobase get_bytes].
    rewrite (dec_enc_point S OK) by (now apply in_group_1). reflexivity.
  - split; [reflexivity|]. split; [reflexivity|exact EC].
Qed.

(** Anybody can replace the table a server checks requests with, and the bases. *)
Theorem C99_anyone_replaces_table : forall g g1 h1 k v, Forall (in_group S) [g; g1; h1; k; v] ->
  exists p y' s', order ANNOUNCEMENT_FINALIZE p = Some y' /\ mget (y_servers y') a = Some s' /\
  sv_ecomms s' = [(k, v)] /\ sv_ekeys s' = [(k, k)] /\ sv_pb s' = PBase h1 g1 /\ sv_G s' = Some g.
Proof.
  intros g g1 h1 k v F. rewrite Forall_forall in F.
  exists (("g"%str, VBytes (enc_point S g)) :: table_params S [k] [v] g1 h1).
  edestruct order_does as (y' & E1 & E2 & _); [|exists y'; eexists; split; [exact E1|split; [exact E2|]]].
  - unfold sv_handle. cbn -[enc_point dec_point enc_points dec_points sv_finalize table_params]. unfold sv_finalize, get_bytes, table_params. cbn [lookup String.eqb Ascii.eqb Bool.eqb].
    rewrite !(dec_enc_point S OK) by (apply F; cbn; tauto).
    rewrite !(dec_enc_points S OK) by (constructor; [apply F; cbn; tauto|constructor]). cbn [ending_map length Nat.ltb Nat.leb combine fold_left fst snd]. reflexivity.
  - repeat split.
Qed.

(** What a server does with a table that has no entries. *)
Lemma empty_round_end s0 sr0 src0 g h : in_group S g -> in_group S h ->
  sv_handle S H G s0 Net.ROUND_END (no_table S g h) src0 sr0 =
  Some (Server (sv_addr s0) (sv_coord s0) (sv_priv s0) (sv_pub s0) (sv_G s0) (sv_ekeys s0) (sv_ecomms s0)
          (sv_connected s0) (sv_next s0) (sv_prev s0) [] (srKey sr0) (sv_pb s0) (sv_fb s0),
        [Msg (sv_prev s0) ROUND_END (no_table S (pt_mul S g (srE sr0)) (pt_mul S h (srE sr0))) (sv_addr s0)]).
Proof.
  intros Ig Ih. unfold sv_handle. cbn -[enc_point dec_point sv_round_end no_table pt_mul]. unfold sv_round_end, no_table, table_params, get_bytes, has_key.
  cbn [lookup String.eqb Ascii.eqb Bool.eqb]. unfold verify_neff, has_key. cbn [lookup String.eqb Ascii.eqb Bool.eqb].
  rewrite !(dec_enc_point S OK) by assumption. cbn -[enc_point pt_mul]. reflexivity.
Qed.

(** Anybody can make a server forget the round: its table of pseudonyms is empty then and
    its key of the round replaced. *)
Theorem C99_anyone_ends_round : exists p y' s', order Net.ROUND_END p = Some y' /\ mget (y_servers y') a = Some s' /\
  sv_keymap s' = [] /\ sv_roundkey s' = srKey sr.
Proof.
  exists (no_table S 1 1). edestruct order_does as (y' & E1 & E2 & _); [|exists y'; eexists; split; [exact E1|split; [exact E2|]]].
  - apply empty_round_end; now apply in_group_1.
  - split; reflexivity.
Qed.

(** Anybody can have a server say which key is behind a pseudonym: it sends it to its
    previous hop, which anybody can set. *)
Theorem C99_anyone_looks_up : forall x k, in_group S x -> mget (sv_keymap s) x = Some k ->
  exists p y' m, order Net.ROUND_END p = Some y' /\ y_msgs y' = y_msgs y ++ [m] /\ mDst m = sv_prev s /\
  get_bytes (mParams m) "keys"%str = Some (enc_points S [k]).
Proof.
  intros x k Ix Ek. exists (table_params S [x] [1] 1 1).
  edestruct order_does as (y' & E1 & _ & E3 & _); [|exists y'; eexists; split; [exact E1|split; [exact E3|]]].
  - unfold sv_handle. cbn -[enc_point dec_point enc_points dec_points sv_round_end table_params]. unfold sv_round_end, table_params, get_bytes, has_key.
    cbn [lookup String.eqb Ascii.eqb Bool.eqb]. unfold verify_neff, has_key. cbn [lookup String.eqb Ascii.eqb Bool.eqb].
    rewrite !(dec_enc_point S OK) by (now apply in_group_1). rewrite !(dec_enc_points S OK) by (constructor; [first [assumption|now apply in_group_1]|constructor]).
    cbn [map]. rewrite Ek. cbn [non_nil dec_all scale_vals length Nat.ltb Nat.leb mix]. reflexivity.
  - split; reflexivity.
Qed.

(** Anybody can stop a server. *)
Theorem C99_anyone_stops_server : exists p, order UPDATE_NEXT_HOP p = None.
Proof.
  exists []. unfold order, inject. cbn [sys_step y_msgs y_coord y_servers y_clients y_log].
  rewrite nth_error_app2, Nat.sub_diag by lia. cbn [nth_error mDst mType mParams mSrc].
  destruct (keq a (co_addr (y_coord y))) as [X|_]; [contradiction|]. rewrite ES. reflexivity.
Qed.
End One.

(** Together: with two messages a stranger gets the key behind any pseudonym from the server
    that has it. *)
Theorem C99_anyone_unmasks : forall y a s src cr sr chal x k, mget (y_servers y) a = Some s -> a <> co_addr (y_coord y) ->
  in_group S x -> mget (sv_keymap s) x = Some k ->
  exists p1 y1 p2 y2 m, order y a src cr sr chal SERVER_REGISTER_REPLY p1 = Some y1 /\ order y1 a src cr sr chal Net.ROUND_END p2 = Some y2 /\
    In m (y_msgs y2) /\ mDst m = src /\ get_bytes (mParams m) "keys"%str = Some (enc_points S [k]).
Proof.
  intros y a s src cr sr chal x k ES NC Ix Ek.
  destruct (C99_anyone_diverts_back y a s src cr sr chal ES NC src) as (p1 & y1 & s1 & E1 & ES1 & PV & KM & EC).
  destruct (C99_anyone_looks_up y1 a s1 src cr sr chal ES1 ltac:(now rewrite EC) x k Ix ltac:(now rewrite KM)) as (p2 & y2 & m & E2 & M2 & D2 & K2).
  exists p1, y1, p2, y2, m. split; [exact E1|]. split; [exact E2|]. split; [rewrite M2; apply in_or_app; right; now left|]. split; [congruence|assumption].
Qed.

(** ** One message to the last server *)
(** The deliveries that follow: the only message there is, one server after the other, and
    then the coordinator; any draws. *)
Definition passed_on (srs : list sv_rand) (cr : co_rand) (chal : list bool) : list System.action :=
  map (fun sr => ADeliver 0 cr sr chal) srs.

Lemma empty_passes (L : list addr) (c : coord) (K : amap addr client) (cr : co_rand) (chal : list bool) : NoDup L -> ~ In (co_addr c) L ->
  forall srs i V lg src g h, length srs = i -> (i <= length L)%nat -> in_group S g -> in_group S h ->
  (forall j a, nth_error L j = Some a -> exists s, mget V a = Some s /\ sv_prev s = before L (co_addr c) j) ->
  exists V' lg' src' g' h', in_group S g' /\ in_group S h' /\
    sys_run S H G (Sys c V K [Msg (before L (co_addr c) i) Net.ROUND_END (no_table S g h) src] lg) (passed_on srs cr chal) =
    Some (Sys c V' K [Msg (co_addr c) Net.ROUND_END (no_table S g' h') src'] lg') /\
    (forall b, ~ In b (firstn i L) -> mget V' b = mget V b) /\
    (forall j a, (j < i)%nat -> nth_error L j = Some a -> exists s, mget V' a = Some s /\ sv_keymap s = []) /\
    (forall b, option_map sv_next (mget V' b) = option_map sv_next (mget V b)).
Proof.
  intros ND NI. induction srs as [|sr srs IH]; intros i V lg src g h LS LE Ig Ih LK; cbn [length] in LS; subst i.
  - exists V, lg, src, g, h. repeat (split; [assumption|]). split; [reflexivity|]. split; [reflexivity|]. split; [|reflexivity]. intros j a Hj. lia.
  - set (i := length srs) in *. destruct (nth_error L i) as [a|] eqn:Ea; [|apply nth_error_None in Ea; lia].
    destruct (LK i a Ea) as (s & Es & Ep).
    assert (EB : before L (co_addr c) (Datatypes.S i) = a) by (cbn [before]; now apply nth_error_nth).
    set (s' := Server (sv_addr s) (sv_coord s) (sv_priv s) (sv_pub s) (sv_G s) (sv_ekeys s) (sv_ecomms s)
          (sv_connected s) (sv_next s) (sv_prev s) [] (srKey sr) (sv_pb s) (sv_fb s)).
    assert (NA : a <> co_addr c) by (intros ->; apply NI; now apply nth_error_In in Ea).
    destruct (IH i (mset V a s') (lg ++ []) (sv_addr s) (pt_mul S g (srE sr)) (pt_mul S h (srE sr)) eq_refl ltac:(lia) ltac:(unfold pt_mul; in_grp) ltac:(unfold pt_mul; in_grp))
      as (V' & lg' & src' & g' & h' & I1 & I2 & E & FR & KM & NX).
    { intros j b Eb. rewrite mget_mset. destruct (keq b a) as [->|]; [|now apply LK]. exists s'. split; [reflexivity|]. cbn [s' sv_prev].
      destruct (LK j a Eb) as (s1 & Es1 & Ep1). congruence. }
    exists V', lg', src', g', h'. split; [assumption|]. split; [assumption|]. split.
    + cbn [passed_on map sys_run]. rewrite EB. unfold sys_step at 1. cbn [y_msgs nth_error y_coord y_servers y_clients y_log mDst mType mParams mSrc firstn skipn app].
      destruct (keq a (co_addr c)) as [X|_]; [contradiction|]. rewrite Es. rewrite (empty_round_end s sr src g h Ig Ih). fold s'. rewrite Ep. exact E.
    + assert (NF : ~ In a (firstn i L)).
      { pose proof (firstn_skipn (Datatypes.S i) L) as FS. rewrite (firstn_S_in L i a Ea) in FS. rewrite <- FS, <- app_assoc in ND.
        apply NoDup_remove_2 in ND. intros I. apply ND. apply in_or_app. now left. }
      split.
      * intros b NB. rewrite FR; [|intros I; apply NB; rewrite (firstn_S_in L i a Ea); apply in_or_app; now left].
        apply mget_mset_ne. intros EQ. apply NB. rewrite (firstn_S_in L i a Ea). apply in_or_app. right. left. congruence.
      * split; [|intros b; rewrite NX, mget_mset; destruct (keq b a) as [->|]; [now rewrite Es|reflexivity]]. intros j b Hj Eb. destruct (Nat.eq_dec j i) as [->|N]; [|apply (KM j b); [lia|assumption]].
        assert (b = a) by congruence. subst b. rewrite FR by assumption. rewrite mget_mset_eq. exists s'. split; reflexivity.
Qed.
(** What a stranger's table without entries at the last server leads to. *)
Lemma empties y V src srs cr chal : reach S H G y V -> y_msgs y = [] ->
  (forall t, In t (mkeys (co_diffs (y_coord y))) -> mget (co_ekeys (y_coord y)) t <> None) ->
  length srs = length (co_servers (y_coord y)) -> range_order (crDiffs cr) (co_diffs (y_coord y)) ->
  exists z y', last_server (y_coord y) = Some z /\
    sys_run S H G (inject y (Msg z Net.ROUND_END (no_table S 1 1) src)) (passed_on srs cr chal ++ [ADeliver 0 cr (SvRand 0 (fun _ => 0) [] (PsRand [] [] [] 0 0 []) 1) chal]) = Some y' /\
    (exists g' h', in_group S g' /\ in_group S h' /\
       y_coord y' = set_status (set_pb (set_bkeys (set_bcomms (y_coord y) []) []) (PBase h' g')) CO_READY_FOR_NEW_ROUND) /\ y_clients y' = y_clients y /\
    (forall a, In a (chain_addrs y) -> exists s, mget (y_servers y') a = Some s /\ sv_keymap s = []) /\
    (forall b, option_map sv_next (mget (y_servers y') b) = option_map sv_next (mget (y_servers y) b)).
Proof.
  intros R M DT LS RO. destruct (reach_inv S OK H G GOK y V R) as [B _].
  set (L := map fst (co_servers (y_coord y))). set (c := y_coord y) in *.
  assert (LL : length L = length (co_servers c)) by apply map_length.
  assert (NE : co_servers c <> []) by exact (b_ne _ _ _ _ _ B).
  exists (before L (co_addr c) (length L)).
  assert (NI : ~ In (co_addr c) L).
  { intros I. apply (b_srv _ _ _ _ _ B) in I. apply I. exact (b_self _ _ _ _ _ B). }
  destruct (empty_passes L c (y_clients y) cr chal (b_nd _ _ _ _ _ B) NI srs (length L) (y_servers y) (y_log y) src 1 1 ltac:(lia) ltac:(lia)
    ltac:(now apply in_group_1) ltac:(now apply in_group_1)) as (V' & lg' & src' & g' & h' & I1 & I2 & E & _ & KM & NX).
  { intros j a Ea. assert (I : In a L) by (now apply nth_error_In in Ea). apply (b_srv _ _ _ _ _ B) in I.
    destruct (mget (y_servers y) a) as [s|] eqn:Es; [|contradiction]. exists s. split; [reflexivity|]. now apply (b_link _ _ _ _ _ B j a s). }
  destruct (look_all (fun k => mget (co_ekeys c) k) (crDiffs cr)) as [dk Edk].
  { intros t I. apply DT. now apply (Permutation_in t RO). }
  eexists. split.
  { destruct (last_server c) as [z|] eqn:EZ.
    - f_equal. pose proof (last_before c) as X. rewrite EZ in X. rewrite X. fold L. now rewrite app_nil_r.
    - exfalso. pose proof (last_cases c) as X. destruct X as [[X _]|(l & x & _ & X)]; [now destruct (co_servers c)|congruence]. }
  split.
  { unfold inject. rewrite M. cbn [app]. fold c. rewrite sys_run_app, E. cbn [sys_run]. unfold sys_step.
    cbn [y_msgs nth_error y_coord y_servers y_clients y_log mDst mType mParams mSrc firstn skipn app].
    destruct (keq (co_addr c) (co_addr c)) as [_|X]; [|contradiction].
    change (co_handle S G c Net.ROUND_END (no_table S g' h') src' cr) with (co_round_end S G c (no_table S g' h') cr).
    unfold co_round_end, no_table, table_params, get_bytes. cbn [lookup String.eqb Ascii.eqb Bool.eqb].
    rewrite !(dec_enc_point S OK) by assumption. rewrite Edk. cbn -[enc_point enc_points genc_ints to_clients set_status set_pb set_bkeys set_bcomms]. reflexivity. }
  cbn [y_coord y_clients y_servers]. split; [now exists g', h'|]. split; [reflexivity|]. split; [|exact NX].
  intros a I. apply In_nth_error in I. destruct I as [j Ej]. apply (KM j a); [|exact Ej]. apply nth_error_Some. unfold chain_addrs in Ej. fold c in Ej. fold L in Ej. congruence.
Qed.
(** In any open round with nothing in flight: a stranger sends the last server a table
    without entries.  Whatever the servers draw, the message is passed on through the whole
    chain, and in the end the coordinator has an empty table of reputations and takes the
    round to be over; no server remembers a pseudonym.  The clients are not told. *)
Theorem C99_one_message_empties_table : forall y V src srs cr chal, reach S H G y V -> y_msgs y = [] ->
  (forall t, In t (mkeys (co_diffs (y_coord y))) -> mget (co_ekeys (y_coord y)) t <> None) ->
  length srs = length (co_servers (y_coord y)) -> range_order (crDiffs cr) (co_diffs (y_coord y)) ->
  exists z p y', last_server (y_coord y) = Some z /\
    sys_run S H G (inject y (Msg z Net.ROUND_END p src)) (passed_on srs cr chal ++ [ADeliver 0 cr (SvRand 0 (fun _ => 0) [] (PsRand [] [] [] 0 0 []) 1) chal]) = Some y' /\
    co_status (y_coord y') = CO_READY_FOR_NEW_ROUND /\ co_bcomms (y_coord y') = [] /\ y_clients y' = y_clients y /\
    (forall a, In a (chain_addrs y) -> exists s, mget (y_servers y') a = Some s /\ sv_keymap s = []).
Proof.
  intros y V src srs cr chal R M DT LS RO.
  destruct (empties y V src srs cr chal R M DT LS RO) as (z & y' & EZ & E & (g' & h' & _ & _ & EC) & EK & KM & _).
  exists z, (no_table S 1 1), y'. rewrite EC. repeat (split; [first [assumption | reflexivity]|]). assumption.
Qed.

(** *** The round after that *)
(** An announcement without entries; servers add the generator [og]. *)
Definition no_names (og : option Z) (g h : Z) : params :=
  match og with Some x => [("g"%str, VBytes (enc_point S x))] | None => [] end ++ no_table S g h.
Lemma empty_announced s0 sr0 src0 og g h : in_group S g -> in_group S h -> (forall x, og = Some x -> in_group S x) ->
  exists x, in_group S x /\ sv_handle S H G s0 ANNOUNCEMENT (no_names og g h) src0 sr0 =
    Some (s0, [Msg (sv_next s0) ANNOUNCEMENT (no_names (Some x) (pt_mul S g (srE sr0)) (pt_mul S h (srE sr0))) (sv_addr s0)]).
Proof.
  intros Ig Ih Io. unfold sv_handle. cbn -[enc_point dec_point sv_announcement no_names pt_mul]. unfold sv_announcement, no_names, no_table, table_params, get_bytes, has_key.
  destruct og as [x|]; cbn [app lookup String.eqb Ascii.eqb Bool.eqb]; unfold verify_neff, has_key; cbn [lookup String.eqb Ascii.eqb Bool.eqb];
    rewrite !(dec_enc_point S OK) by assumption; cbn -[enc_point pt_mul dec_point_unchecked pt_mul_base]; (eexists; split; [|destruct s0; reflexivity]).
  - rewrite (dec_enc_unchecked S) by (now apply Io). unfold pt_mul. specialize (Io x eq_refl). in_grp.
  - unfold pt_mul_base. in_grp.
Qed.
(** It goes through the chain, whatever else is in flight. *)
Lemma empty_announces (L : list addr) (c : coord) (K : amap addr client) (pre : list msg) (cr : co_rand) (chal : list bool) : NoDup L -> ~ In (co_addr c) L ->
  forall srs i V lg src og g h, (i + length srs = length L)%nat -> in_group S g -> in_group S h -> (forall x, og = Some x -> in_group S x) -> (og <> None \/ srs <> []) ->
  (forall j a, nth_error L j = Some a -> exists s, mget V a = Some s /\ sv_next s = after L (co_addr c) j) ->
  exists V' lg' src' x g' h', in_group S x /\ in_group S g' /\ in_group S h' /\
    sys_run S H G (Sys c V K (pre ++ [Msg (nth i L (co_addr c)) ANNOUNCEMENT (no_names og g h) src]) lg) (map (fun sr => ADeliver (length pre) cr sr chal) srs) =
    Some (Sys c V' K (pre ++ [Msg (co_addr c) ANNOUNCEMENT (no_names (Some x) g' h') src']) lg').
Proof.
  intros ND NI. induction srs as [|sr srs IH]; intros i V lg src og g h LS Ig Ih Io NO LK; cbn [length] in LS.
  - destruct og as [x|]; [|destruct NO; congruence]. exists V, lg, src, x, g, h. split; [now apply Io|]. repeat (split; [assumption|]).
    cbn [map sys_run]. rewrite nth_overflow by lia. reflexivity.
  - destruct (nth_error L i) as [a|] eqn:Ea; [|apply nth_error_None in Ea; lia].
    destruct (LK i a Ea) as (s & Es & En). destruct (empty_announced s sr src og g h Ig Ih Io) as (x & Ix & EA).
    assert (NA : a <> co_addr c) by (intros ->; apply NI; now apply nth_error_In in Ea).
    destruct (IH (Datatypes.S i) (mset V a s) (lg ++ []) (sv_addr s) (Some x) (pt_mul S g (srE sr)) (pt_mul S h (srE sr)) ltac:(lia) ltac:(unfold pt_mul; in_grp) ltac:(unfold pt_mul; in_grp)
      ltac:(now intros x0 [= <-]) ltac:(left; discriminate)) as (V' & lg' & src' & x' & g' & h' & I1 & I2 & I3 & E).
    { intros j b Eb. rewrite mget_mset. destruct (keq b a) as [->|]; [|now apply LK]. exists s. split; [reflexivity|].
      destruct (LK j a Eb) as (s1 & Es1 & En1). congruence. }
    exists V', lg', src', x', g', h'. repeat (split; [assumption|]). cbn [map sys_run]. unfold sys_step at 1.
    cbn [y_msgs y_coord y_servers y_clients y_log]. rewrite nth_error_app2, Nat.sub_diag by lia. cbn [nth_error mDst mType mParams mSrc].
    rewrite (nth_error_nth L i (co_addr c) Ea). destruct (keq a (co_addr c)) as [X|_]; [contradiction|]. rewrite Es, EA.
    change (ANNOUNCEMENT =? SERVER_REGISTER_REPLY) with false. cbv iota.
    rewrite firstn_app, firstn_all, Nat.sub_diag. cbn [firstn]. rewrite app_nil_r, skipn_all2 by (rewrite app_length; cbn; lia). rewrite app_nil_r, En. exact E.
Qed.
(** One message of a stranger, and the next round stops the process of every registered
    client: the coordinator starts the round, the announcement goes through the chain,
    whatever the servers draw, and for every client there is a message on its way whose
    delivery stops it, whatever it has done in between. *)
Theorem C99_one_message_stops_clients : forall y V src srs srs' cr chal, reach S H G y V -> y_msgs y = [] -> co_first (y_coord y) = false ->
  (forall t, In t (mkeys (co_diffs (y_coord y))) -> mget (co_ekeys (y_coord y)) t <> None) ->
  length srs = length (co_servers (y_coord y)) -> length srs' = length (co_servers (y_coord y)) -> range_order (crDiffs cr) (co_diffs (y_coord y)) ->
  exists z p y' sr0 y'', last_server (y_coord y) = Some z /\
    sys_run S H G (inject y (Msg z Net.ROUND_END p src)) (passed_on srs cr chal ++ [ADeliver 0 cr sr0 chal]) = Some y' /\
    sys_run S H G y' (ALoop (EBegin [] []) :: map (fun sr => ADeliver (length (y_msgs y')) cr sr chal) (srs' ++ [sr0])) = Some y'' /\
    forall a, In a (map snd (co_clients (y_coord y))) ->
      exists m, In m (y_msgs y'') /\ mDst m = a /\ forall k chal', cl_handle S G k (mType m) (mParams m) chal' = None.
Proof.
  intros y V src srs srs' cr chal R M CF DT LS LS' RO. destruct (reach_inv S OK H G GOK y V R) as [B _].
  destruct (empties y V src srs cr chal R M DT LS RO) as (z & y' & EZ & E & (g' & h' & Ig & Ih & EC) & EK & KM & NX).
  exists z, (no_table S 1 1), y', (SvRand 0 (fun _ => 0) [] (PsRand [] [] [] 0 0 []) 1).
  destruct y' as [c' V' K' M' lg']. cbn [y_coord y_servers y_clients y_msgs y_log] in *. subst c' K'.
  set (c := y_coord y) in *. set (L := map fst (co_servers c)).
  assert (NE : co_servers c <> []) by exact (b_ne _ _ _ _ _ B).
  set (c1 := set_status (clear_buffer (set_status (set_pb (set_bkeys (set_bcomms c []) []) (PBase h' g')) CO_READY_FOR_NEW_ROUND)) CO_ANNOUNCE).
  assert (NI : ~ In (co_addr c1) L).
  { intros I. apply (b_srv _ _ _ _ _ B) in I. apply I. exact (b_self _ _ _ _ _ B). }
  assert (LL : length L = length (co_servers c)) by apply map_length.
  assert (LK : forall j a, nth_error L j = Some a -> exists s, mget V' a = Some s /\ sv_next s = after L (co_addr c1) j).
  { intros j a Ea. assert (I : In a L) by (now apply nth_error_In in Ea). apply (b_srv _ _ _ _ _ B) in I.
    destruct (mget (y_servers y) a) as [s|] eqn:Es; [|contradiction]. specialize (NX a). rewrite Es in NX.
    destruct (mget V' a) as [s'|]; [|discriminate]. cbn in NX. injection NX as NX. exists s'. split; [reflexivity|]. rewrite NX. now apply (b_link _ _ _ _ _ B j a s). }
  destruct (empty_announces L c1 (y_clients y) M' cr chal (b_nd _ _ _ _ _ B) NI srs' 0%nat V' lg' (co_addr c1) None g' h' ltac:(cbn; lia) Ig Ih ltac:(discriminate)
    ltac:(right; intros ->; apply NE; cbn in LS'; now apply length_zero_iff_nil) LK) as (V2 & lg2 & src2 & x & g2 & h2 & Ix & Ig2 & Ih2 & E2).
  eexists. split; [assumption|]. split; [exact E|]. split.
  { cbn [sys_run]. unfold sys_step at 1. cbn [is_loop co_step y_coord y_servers y_clients y_msgs y_log]. unfold begin_round.
    change (co_status (set_status (set_pb (set_bkeys (set_bcomms c []) []) (PBase h' g')) CO_READY_FOR_NEW_ROUND) =? CO_READY_FOR_NEW_ROUND) with true. cbn [negb].
    change (co_first (set_status (set_pb (set_bkeys (set_bcomms c []) []) (PBase h' g')) CO_READY_FOR_NEW_ROUND)) with (co_first c). rewrite CF. cbv zeta iota. fold c1.
    unfold announce. assert (EF : first_server c1 = Some (nth 0 L (co_addr c1))).
    { unfold first_server. change (co_servers c1) with (co_servers c). unfold L. destruct (co_servers c) as [|[b q] l]; [contradiction|reflexivity]. }
    rewrite EF. cbn [map non_nil dec_all]. rewrite map_app, sys_run_app.
    change (table_params S [] [] (pb_GT (co_pb c1)) (pb_HT (co_pb c1))) with (no_names None g' h'). rewrite E2.
    cbn [map sys_run]. unfold sys_step. cbn [y_msgs y_coord y_servers y_clients y_log]. rewrite nth_error_app2, Nat.sub_diag by lia. cbn [nth_error mDst mType mParams mSrc].
    destruct (keq (co_addr c1) (co_addr c1)) as [_|X]; [|contradiction].
    change (co_handle S G c1 ANNOUNCEMENT (no_names (Some x) g2 h2) src2 cr) with (co_announcement S c1 (no_names (Some x) g2 h2)).
    unfold co_announcement, no_names, no_table, table_params, get_bytes. cbn [app lookup String.eqb Ascii.eqb Bool.eqb].
    rewrite !(dec_enc_point S OK) by assumption. cbn -[enc_point enc_points to_clients to_servers c1]. reflexivity. }
  cbn [y_msgs]. intros a I. apply in_map_iff in I. destruct I as ([k0 b] & <- & I). cbn [snd].
  eexists. split; [apply in_or_app; right; apply in_or_app; left; apply in_map_iff; exists (k0, b); split; [reflexivity|exact I]|].
  cbn [mDst mType mParams]. split; [reflexivity|]. intros k chal'.
  unfold cl_handle. cbn -[enc_point cl_announce_final]. unfold cl_announce_final, get_bytes. cbn [lookup String.eqb Ascii.eqb Bool.eqb]. reflexivity.
Qed.
End Anyone.

(** ** The property is refuted *)
(** Two servers A and B and the client D in an open round; B knows the pseudonym 12. *)
Lemma toy_order_state : exists y V s, reach toy_suite toy_oracle toy_gob y V /\ y_msgs y = [] /\ co_status (y_coord y) = CO_MESSAGE /\
  co_addr (y_coord y) = adC /\ chain_addrs y = [adA; adB] /\ co_diffs (y_coord y) = [] /\ mget (y_servers y) adB = Some s /\ sv_next s = adC /\ sv_prev s = adA /\
  mget (sv_keymap s) 12 = Some 9 /\ co_bcomms (y_coord y) <> [] /\
  co_first (y_coord y) = false /\ map snd (co_clients (y_coord y)) = [adD].
Proof.
  destruct (toy_run toy_mid2 (fun yv => let y := fst yv in (y_msgs y, co_status (y_coord y), co_addr (y_coord y), chain_addrs y, co_diffs (y_coord y),
      option_map (fun s => (sv_next s, sv_prev s, mget (sv_keymap s) 12)) (mget (y_servers y) adB), length (co_bcomms (y_coord y)),
      (co_first (y_coord y), map snd (co_clients (y_coord y)))))
    ([], CO_MESSAGE, adC, [adA; adB], [], Some (adC, adA, Some 9), 2%nat, (false, [adD]))) as (y & V & _ & R & F); [vm_compute; reflexivity|].
  cbv zeta in F. cbn [fst] in F. injection F as F1 F2 F3 F4 F5 F6 F7 F8 F9. destruct (mget (y_servers y) adB) as [s|] eqn:Es; [|discriminate].
  cbn [option_map] in F6. injection F6 as F6 F6' F6''. exists y, V, s. repeat (split; [assumption|]). split; [|now split]. intros X. rewrite X in F7. discriminate F7.
Qed.
Theorem C99_own_chain_only_refuted : ~ own_chain_only.
Proof.
  intros X. destruct toy_order_state as (y & V & s & R & M & ST & CA & CH & _ & Es & NX & _ & _ & _).
  assert (NC : adB <> co_addr (y_coord y)) by (rewrite CA; discriminate).
  destruct (C99_anyone_diverts toy_suite toy_oracle toy_gob y adB s adE toy_rand toy_sr1 [] Es NC adE) as (p & y' & s' & E & Es' & N').
  assert (Y : mget (y_servers y') adB = mget (y_servers y) adB).
  { apply (X toy_suite toy_oracle toy_gob toy_ok toy_gob_ok y V (Msg adB UPDATE_NEXT_HOP p adE) toy_rand toy_sr1 [] y' adB R); [rewrite CA; discriminate| |exact E].
    rewrite CH. cbn [mSrc In]. intros [Y|[Y|[]]]; discriminate Y. }
  rewrite Es, Es' in Y. injection Y as ->. rewrite NX in N'. discriminate N'.
Qed.
(** The hypotheses of the theorems about strangers are met, and what the theorem about one
    message says happens to a table that is not empty. *)
Example C99_instance : exists y V s (srs : list sv_rand), reach toy_suite toy_oracle toy_gob y V /\ y_msgs y = [] /\ mget (y_servers y) adB = Some s /\ adB <> co_addr (y_coord y) /\
  in_group toy_suite 12 /\ mget (sv_keymap s) 12 = Some 9 /\
  (forall t, In t (mkeys (co_diffs (y_coord y))) -> mget (co_ekeys (y_coord y)) t <> None) /\
  length srs = length (co_servers (y_coord y)) /\ range_order (crDiffs (CoRand 0 [] (fun _ => []) [])) (co_diffs (y_coord y)) /\
  co_bcomms (y_coord y) <> [] /\ Forall (in_group toy_suite) [2; 3; 4; 6; 8] /\
  co_first (y_coord y) = false /\ In adD (map snd (co_clients (y_coord y))).
Proof.
  destruct toy_order_state as (y & V & s & R & M & ST & CA & CH & D & Es & NX & PV & K & BC & CF & CC). exists y, V, s, [toy_sr1; toy_sr1].
  split; [assumption|]. split; [assumption|]. split; [assumption|]. split; [rewrite CA; discriminate|].
  split; [vm_compute; repeat split; discriminate|]. split; [assumption|]. rewrite D. split; [intros t []|].
  split. { apply (f_equal (@length _)) in CH. unfold chain_addrs in CH. rewrite map_length in CH. now rewrite CH. }
  split; [constructor|]. split; [assumption|]. split; [repeat constructor; vm_compute; repeat split; discriminate|].
  split; [assumption|]. rewrite CC. now left.
Qed.

Print Assumptions C99_frame.
Print Assumptions C99_anyone_diverts.
Print Assumptions C99_anyone_diverts_back.
Print Assumptions C99_anyone_replaces_table.
Print Assumptions C99_anyone_ends_round.
Print Assumptions C99_anyone_looks_up.
Print Assumptions C99_anyone_unmasks.
Print Assumptions C99_anyone_stops_server.
Print Assumptions C99_one_message_empties_table.
Print Assumptions C99_one_message_stops_clients.
Print Assumptions C99_own_chain_only_refuted.
