(** C94: a server may be started while the service is running.  Refuted: the commitments
    of the clients no longer open, honest requests are refused, and a round that is open
    when the server is started is never closed. *)
From Coq Require Import ZArith Znumtheory Lia List Bool Permutation.
From Coq Require Import Strings.Byte.
From Coq Require String.
From Verif Require Import ZMod Bytes Suite Spec Pedersen ElGamal FujiOkam Equality Codec Maps Net Bridge Client
  Perm SimpleShuffle PairShuffle Server Coordinator History System Chain Prop_Topology Prop_Chain Round RoundInv
  Prop_Pedersen Prop_ElGamal Prop_FujiOkam Prop_Shuffle Prop_Codec Prop_Bridge Prop_Assign Prop_Coord Prop_Round
  Restart Prop_Restart Late.
Import ListNotations.
Import String.StringSyntax.
Open Scope Z_scope.
Delimit Scope string_scope with str.

(** ** Specification *)
(** A server is started at the new address [a] in [y], and everything that is sent because
    of its registration is delivered, in whatever order: [y1].  [s] is the secret the new
    server draws for its share of the base (the log of the draws records it). *)
Definition late (S : suite) (H : oracle) (G : gob) (y : sys) (a : addr) (s : Z) (y1 : sys) : Prop :=
  exists priv rk l, Forall is_delivery l /\ sys_run S H G y (ALaunch a priv rk :: l) = Some y1 /\ y_msgs y1 = [] /\
    y_log y1 = y_log y ++ [(a, s)].

(** The client's stored commitment opens to its own reputation and blinding. *)
Definition in_credit (S : suite) (y : sys) (k : client) : Prop :=
  exists R c, cl_R k = Some R /\ stored y k c /\ opens S y c (cl_rep k) R.

(** The property, first half: every client's stored commitment opens as before. *)
Definition takes_in (S : suite) (H : oracle) (G : gob) : Prop :=
  forall y V a s y1, reach S H G y V -> y_msgs y = [] -> late S H G y a s y1 ->
  forall x k, mget (y_clients y) x = Some k -> in_credit S y k -> in_credit S y1 k.

(** What happens afterwards: anything but further servers or clients; the end of the round
    is started only if somebody takes part in it. *)
Definition calm (b : System.action) : Prop :=
  match b with
  | ALaunch _ _ _ | AJoin _ _ _ | ALoop EConfigure => False
  | ALoop (EEnd ord _) => ord <> []
  | _ => True
  end.

(** The property, second half: a round that is open when the server is started can be
    closed. *)
Definition can_close (S : suite) (H : oracle) (G : gob) : Prop :=
  forall y V a s y1, reach S H G y V -> y_msgs y = [] -> co_status (y_coord y) = CO_MESSAGE ->
  co_ecomms (y_coord y) <> [] -> late S H G y a s y1 ->
  exists l y2, Forall calm l /\ sys_run S H G y1 l = Some y2 /\ co_status (y_coord y2) = CO_READY_FOR_NEW_ROUND.

Section Late.
Context (S : suite) (OK : suite_ok S) (H : oracle) (G : gob) (GOK : gob_ok G).

Lemma late_joined y V a s y1 : reach S H G y V -> y_msgs y = [] -> late S H G y a s y1 ->
  mget (y_servers y) a = None /\ a <> co_addr (y_coord y) /\
  exists rk k, joined S y a (last (chain_addrs y) (co_addr (y_coord y))) rk k s y1.
Proof.
  intros R M (priv & rk & l & Fl & E & M1 & EL).
  assert (NA : mget (y_servers y) a = None /\ a <> co_addr (y_coord y)).
  { cbn [sys_run sys_step] in E. destruct (keq a (co_addr (y_coord y))); [discriminate|].
    destruct (mget (y_servers y) a); [discriminate|]. auto. }
  split; [tauto|]. split; [tauto|].
  destruct (chain_facts S OK H G GOK y V R) as (ND & NE & NS & LK). set (L := chain_addrs y) in *. set (self := co_addr (y_coord y)) in *.
  assert (LZ : last_server (y_coord y) = Some (last L self)).
  { apply last_server_last. intros X. apply NE. unfold L, chain_addrs. now rewrite X. }
  assert (IZ : In (last L self) L) by (eapply nth_error_In; apply (last_nth L self NE)).
  destruct (LK _ _ (last_nth L self NE)) as (t & Et & _).
  destruct (reach_inv S OK H G GOK y V R) as [B _].
  destruct (joins S OK H G y a (last L self) t priv rk l y1 M LZ) as (k & s' & J); auto.
  { intros X. apply NS. fold self in X. now rewrite <- X. }
  { apply (b_pb _ _ _ _ _ B). }
  exists rk, k. pose proof (jn_log _ _ _ _ _ _ _ _ J) as X. rewrite EL in X. apply app_inv_head in X. injection X as ->. exact J.
Qed.

(** ** The links *)
(** The new server is the last one of the list, and the links of all servers are those of
    the longer list; nothing changes at the clients. *)
Theorem C94_links : forall y V a s y1, reach S H G y V -> y_msgs y = [] -> late S H G y a s y1 ->
  let L := chain_addrs y ++ [a] in let self := co_addr (y_coord y) in
  chain_addrs y1 = L /\ co_addr (y_coord y1) = self /\
  co_status (y_coord y1) = co_status (y_coord y) /\ y_clients y1 = y_clients y /\
  (forall i x, nth_error L i = Some x -> exists t, mget (y_servers y1) x = Some t /\
    sv_next t = after L self i /\ sv_prev t = before L self i) /\
  (exists t, mget (y_servers y1) a = Some t /\ sv_connected t = true).
Proof.
  intros y V a s y1 R M LT L self. destruct (late_joined y V a s y1 R M LT) as (NA & Na & rk & k & J).
  destruct (chain_facts S OK H G GOK y V R) as (ND & NE & NS & LK). set (L0 := chain_addrs y) in *. fold self in NS, LK, J, Na.
  destruct J as [J1 J2 J3 (t & T1 & T2 & T3 & T4 & T5 & T6 & T7) J5 J6]. fold self in T3.
  split; [unfold chain_addrs; rewrite J1; cbn [co_servers set_pb set_servers]; now rewrite map_app|].
  split; [rewrite J1; reflexivity|]. split; [rewrite J1; reflexivity|]. split; [exact J2|]. split; [|exists t; auto].
  assert (N0 : (0 < length L0)%nat) by (destruct L0; [congruence|cbn; lia]).
  intros i x Ei. destruct (Nat.lt_ge_cases i (length L0)) as [LE|GE].
  - unfold L in Ei. rewrite nth_error_app1 in Ei by lia.
    destruct (LK i x Ei) as (u & Eu & U1 & U2).
    assert (XA : x <> a) by (intros ->; congruence).
    assert (BE : before L self i = before L0 self i).
    { destruct i as [|i]; [reflexivity|]. cbn [before]. unfold L. rewrite app_nth1 by lia. reflexivity. }
    destruct (keq x (last L0 self)) as [X|X].
    + exists (hop u a). split; [rewrite X; apply J5; congruence|]. cbn [hop sv_next sv_prev]. split; [|congruence].
      rewrite X in Ei. rewrite (nodup_index L0 i _ _ ND Ei (last_nth L0 self NE)). unfold after, L.
      replace (Datatypes.S (length L0 - 1)) with (length L0) by lia. rewrite app_nth2, Nat.sub_diag by lia. reflexivity.
    + exists u. split; [rewrite J6; assumption|]. split; [|congruence]. rewrite U1. unfold after, L.
      assert (i <> length L0 - 1)%nat. { intros ->. apply X. rewrite (last_nth L0 self NE) in Ei. congruence. }
      rewrite app_nth1 by lia. reflexivity.
  - unfold L in Ei. rewrite nth_error_app2 in Ei by lia. destruct (i - length L0)%nat as [|n] eqn:D; [|destruct n; discriminate].
    injection Ei as <-. replace i with (length L0) by lia. exists t. split; [assumption|]. split.
    + rewrite T3. unfold after, L. rewrite nth_overflow; [reflexivity|]. rewrite app_length. cbn. lia.
    + rewrite T4. destruct (length L0) as [|n] eqn:EN; [lia|]. cbn [before]. unfold L. rewrite app_nth1 by lia.
      pose proof (last_nth L0 self NE) as X. rewrite EN in X. replace (Datatypes.S n - 1)%nat with n in X by lia.
      symmetry. now apply nth_error_nth.
Qed.

(** ** The base *)
Lemma rebase h g s x r : prime (sQ S) -> in_group S h -> in_group S g -> h <> 1 ->
  (ped_commit_r S (PBase (pt_mul S h s) g) x r = ped_commit_r S (PBase h g) x r <-> (r * (s - 1)) mod sQ S = 0).
Proof.
  intros PQ Hh Hg N1. pose proof (sP_gt1 S OK). pose proof (sQ_gt1 S OK).
  assert (U := in_group_unit S OK h Hh). assert (Ug := in_group_unit S OK g Hg).
  unfold ped_commit_r, pt_add, pt_mul. cbn [pb_GT pb_HT]. rewrite zexp_mul by (assumption || lia).
  assert (M0 : forall u v, u mod sQ S = v mod sQ S <-> (v - u) mod sQ S = 0).
  { intros u v. split; intros E; [rewrite Zminus_mod, E, Z.sub_diag; now apply Z.mod_0_l; lia|].
    replace v with ((v - u) + u) by lia. rewrite Z.add_mod, E, Z.add_0_l, Z.mod_mod by lia. reflexivity. }
  replace (r * (s - 1)) with (s * r - r) by lia. split.
  - intros E. apply mulm_cancel_l in E; [|lia|now apply unit_zexp].
    rewrite !(Z.mod_small (zexp _ _ _)) in E by (apply zexp_range; lia).
    apply (zexp_inj S OK) in E; try assumption. apply M0. congruence.
  - intros E. f_equal. rewrite <- (zexp_modQ S OK h (s * r) Hh), <- (zexp_modQ S OK h r Hh). f_equal. symmetry. now apply M0.
Qed.

(** Whatever commitment the coordinator stored for a client, it stores still; under the new
    base it opens to what the client keeps exactly if the blinding times the secret of the
    new server less one is zero modulo the order of the group. *)
Theorem C94_openings : forall y V a s y1, prime (sQ S) -> reach S H G y V -> y_msgs y = [] -> late S H G y a s y1 ->
  pb_HT (co_pb (y_coord y)) <> 1 ->
  forall k c v R, stored y k c -> opens S y c v R ->
  stored y1 k c /\ (opens S y1 c v R <-> (R * (s - 1)) mod sQ S = 0).
Proof.
  intros y V a s y1 PQ R M LT N1 k c v r ST OP. destruct (late_joined y V a s y1 R M LT) as (_ & _ & rk & k' & [J1 _ _ _ _ _]).
  destruct (reach_inv S OK H G GOK y V R) as [B _]. destruct (b_pb _ _ _ _ _ B) as [P1 P2]. pose proof (sQ_gt1 S OK).
  split. { revert ST. unfold stored. now rewrite J1. }
  unfold opens, commits_to in *. rewrite J1. cbn [co_pb set_pb pb_GT pb_HT].
  set (h := pb_HT (co_pb (y_coord y))) in *. set (g := pb_GT (co_pb (y_coord y))) in *.
  assert (X : forall h0, (g ^ (v mod sQ S) * h0 ^ (r mod sQ S)) mod sP S = ped_commit_r S (PBase h0 g) (v mod sQ S) (r mod sQ S)).
  { intros h0. rewrite (ped_commit_plain S OK) by (apply Z.mod_pos_bound; lia). reflexivity. }
  rewrite X in *. rewrite OP.
  assert (Y : (r * (s - 1)) mod sQ S = ((r mod sQ S) * (s - 1)) mod sQ S) by (rewrite Z.mul_mod_idemp_l by lia; reflexivity).
  rewrite Y, <- (rebase h g s (v mod sQ S) (r mod sQ S) PQ P1 P2 N1). split; intros E; now symmetry.
Qed.

(** ** Requests *)
(** In a round that is open when the server is started: a request that a client of the
    round makes as it should is refused, and nothing is given out, unless the blinding it
    draws times the secret of the new server less one is zero modulo the order. *)
Theorem C94_requests_refused : forall y V a s y1 x k ind rn m cr c2 out, prime (sQ S) -> reach S H G y V -> y_msgs y = [] ->
  co_status (y_coord y) = CO_MESSAGE -> late S H G y a s y1 -> pb_HT (co_pb (y_coord y)) <> 1 ->
  mget (y_clients y1) x = Some k -> In (nym_of S y (cl_pub k)) (mkeys (co_ecomms (y_coord y))) ->
  cl_request S G k ind rn = Some (Some m) -> 0 <= rqInd rn < sQ S -> (rqInd rn * (s - 1)) mod sQ S <> 0 ->
  co_handle S G (y_coord y1) (mType m) (mParams m) (mSrc m) cr = Some (c2, out) ->
  c2 = y_coord y1 /\ out = [].
Proof.
  intros y V a s y1 x k ind rn m cr c2 out PQ R M ST LT N1 Ek IK EQ RI NZ E.
  destruct (late_joined y V a s y1 R M LT) as (_ & _ & rk & k' & [J1 J2 _ _ _ _]).
  destruct (reach_inv S OK H G GOK y V R) as [B _]. destruct (b_pb _ _ _ _ _ B) as [P1 P2].
  rewrite J2 in Ek.
  destruct (C44_agreement S OK H G GOK y V R ST) as [_ AG].
  { intros (_ & w & I & _). rewrite M in I. destruct I. }
  { intros w I. rewrite M in I. destruct I. }
  destruct (AG x k Ek IK) as (_ & PB & _). clear AG.
  unfold cl_request in EQ. cbn [ped_commit] in EQ. destruct (cl_rep k <? ind); [discriminate|]. cbv zeta in EQ.
  set (PI := ped_commit_r S (cl_pb k) (sec_of_int S ind) (rqInd rn)) in *.
  assert (GI : in_group S PI) by (apply ped_commit_group; [assumption|]; rewrite PB; split; assumption).
  odestruct EQ; injection EQ as <-. cbn [mType mParams mSrc] in E.
  change (co_handle S G ?c REQUEST_BRIDGES ?p ?q ?r) with (co_request S G c p q r) in E. unfold co_request in E.
  cbn [app] in E. odestruct E; try (injection E as <- <-; auto; fail); exfalso;
  match goal with X : verify_ind _ _ _ _ _ _ = Some ?b, Y : negb ?b = false |- _ => rename X into VI; destruct b; [clear Y|discriminate Y] end;
  unfold verify_ind in VI; cbn [get_int get_bytes lookup String.eqb Ascii.eqb Bool.eqb] in VI;
  rewrite (dec_enc_point S OK PI GI) in VI;
  (destruct (dec_point S (enc_point S (cl_nym k))); [|discriminate VI]);
  (match type of VI with match ?d with _ => _ end = _ => destruct d; [|discriminate VI] end);
  rewrite (dec_enc_secret S _ RI) in VI;
  (destruct (Z.eqb_spec (ped_commit_r S (co_pb (y_coord y1)) (sec_of_int S ind) (rqInd rn)) PI) as [X|X]; [|discriminate VI]);
  rewrite J1 in X; cbn [co_pb set_pb] in X; unfold PI in X; rewrite PB in X;
  apply NZ; apply (rebase _ (pb_GT (co_pb (y_coord y))) s (sec_of_int S ind) (rqInd rn) PQ P1 P2 N1); rewrite X; now destruct (co_pb (y_coord y)).
Qed.

(** ** The open round *)
(** A list of keys that is not empty is not read as an empty one. *)
Lemma keys_nonempty k l r : dec_points S (enc_points S (k :: l)) = Some r -> r <> [].
Proof.
  intros E. unfold dec_points, enc_points in E.
  set (fs := map (fun x => (1, enc_point S x)) (k :: l)).
  assert (X : concat (map (fun p => pb_bytes 1 (enc_point S p)) (k :: l)) = concat (map (fun f => pb_bytes (fst f) (snd f)) fs)).
  { unfold fs. rewrite map_map. reflexivity. }
  rewrite X, pb_parse_fields in E.
  2:{ intros f I. unfold fs in I. apply in_map_iff in I. destruct I as (? & <- & _). cbn. lia. }
  unfold fs in E. cbn [map fst snd dec_repeated] in E. odestruct E. injection E as <-. discriminate.
Qed.

Definition registering : list Z :=
  [SERVER_REGISTER; SERVER_REGISTER_REPLY; UPDATE_NEXT_HOP; CLIENT_REGISTER_CONTROLLERSIDE; CLIENT_REGISTER_SERVERSIDE; ANNOUNCEMENT].

Record stuck (a : addr) (y : sys) : Prop := {
  st_status : co_status (y_coord y) = CO_MESSAGE;
  st_last : last_server (y_coord y) = Some a;
  st_self : a <> co_addr (y_coord y);
  st_new : exists t, mget (y_servers y) a = Some t /\ sv_keymap t = [];
  st_msgs : forall m, In m (y_msgs y) -> ~ In (mType m) registering /\
    (mType m = ROUND_END -> mDst m = a /\ exists k l, get_bytes (mParams m) "keys"%str = Some (enc_points S (k :: l)))
}.

(** The new server stops on such a table: it knows none of its keys. *)
Lemma round_end_stops t p src rn k l : sv_keymap t = [] -> get_bytes p "keys"%str = Some (enc_points S (k :: l)) ->
  sv_handle S H G t ROUND_END p src rn = None.
Proof.
  intros K B. change (sv_round_end S H t p rn = None). unfold sv_round_end. rewrite B.
  destruct (dec_points S (enc_points S (k :: l))) as [[|x r]|] eqn:E; [exfalso; now apply keys_nonempty in E| |reflexivity].
  rewrite K. assert (Z0 : non_nil (map (fun k => mget (@nil (Z * Z)) k) (x :: r)) = None) by reflexivity. rewrite Z0.
  repeat match goal with |- match ?u with _ => _ end = None => destruct u; [|reflexivity] end. reflexivity.
Qed.

(** A server's table of pseudonyms changes by three messages only. *)
Lemma keymap_same t ty p src rn t' out : sv_handle S H G t ty p src rn = Some (t', out) ->
  ty <> ANNOUNCEMENT -> ty <> CLIENT_REGISTER_SERVERSIDE -> ty <> ROUND_END -> sv_keymap t' = sv_keymap t.
Proof.
  unfold sv_handle. intros E N1 N2 N3.
  destruct (ty =? SERVER_REGISTER_REPLY). { unfold sv_register_reply in E. odestruct E; now injection E as <- _. }
  destruct (Z.eqb_spec ty ANNOUNCEMENT); [contradiction|].
  destruct (ty =? ANNOUNCEMENT_FINALIZE). { unfold sv_finalize in E. odestruct E; now injection E as <- _. }
  destruct (ty =? SIGN_ASSIGNMENTS). { unfold sv_sign in E. odestruct E; now injection E as <- _. }
  destruct (ty =? UPDATE_NEXT_HOP). { unfold sv_update_next in E. odestruct E; now injection E as <- _. }
  destruct (Z.eqb_spec ty CLIENT_REGISTER_SERVERSIDE); [contradiction|].
  destruct (Z.eqb_spec ty ROUND_END); [contradiction|].
  destruct (ty =? BCAST_PEDERSEN_H). { unfold sv_pedersen_h in E. odestruct E; now injection E as <- _. }
  now injection E as <- _.
Qed.

Lemma stuck_step a y b y' : calm b -> stuck a y -> sys_step S H G y b = Some y' ->
  stuck a y' /\ begins b = false /\ y_log y' = y_log y /\
  (forall x k, mget (y_clients y) x = Some k -> exists k', mget (y_clients y') x = Some k' /\ cl_rep k' = cl_rep k).
Proof.
  intros O [F1 F2 F3 F4 F5] E. destruct b as [x pv rk|x pv s|i cr sr chal|e|x cmd]; [destruct O|destruct O| | |]; cbn [sys_step] in E.
  - destruct (nth_error (y_msgs y) i) as [m|] eqn:Em; [|discriminate]. pose proof (nth_error_In _ _ Em) as Im.
    set (rest := firstn i (y_msgs y) ++ skipn (Datatypes.S i) (y_msgs y)) in *.
    assert (RI : forall z, In z rest -> In z (y_msgs y)) by (intros z; apply rest_in). clearbody rest. cbv zeta in E.
    destruct (F5 m Im) as [NR RE]. cbn [registering In] in NR.
    assert (NE : mType m <> ROUND_END).
    { intros T. destruct (RE T) as (D & k & l & B). rewrite T, D in E. destruct (keq a (co_addr (y_coord y))); [contradiction|].
      destruct F4 as (t & Et & K). rewrite Et in E. now rewrite (round_end_stops t _ _ _ k l K B) in E. }
    destruct (keq (mDst m) (co_addr (y_coord y))) as [D|D].
    + destruct (co_handle S G (y_coord y) (mType m) (mParams m) (mSrc m) cr) as [[c' out]|] eqn:EC; [|discriminate].
      injection E as <-. destruct (co_step_frame S G (y_coord y) (EMsg (mType m) (mParams m) (mSrc m) cr) c' out EC) as [W EM].
      destruct (co_still S G (y_coord y) (EMsg (mType m) (mParams m) (mSrc m) cr) c' out EC) as [E1 E2].
      { intros ty p src rn [= <- <- <- <-]. intros X. apply NR. auto. }
      split; [|split; [reflexivity|split; [reflexivity|cbn [y_clients]; eauto]]].
      constructor; cbn [y_coord y_servers y_msgs]; rewrite ?E2; try assumption.
      * specialize (W FStatus). cbn [agree writes_ev] in W. rewrite W; [assumption|]. unfold writes.
        repeat match goal with |- ~ In _ (if ?u =? ?v then _ else _) => destruct (Z.eqb_spec u v); [first [tauto|exfalso; apply NR; intuition congruence|cbn; intuition discriminate]|] end.
        cbn; tauto.
      * unfold last_server in *. now rewrite E1.
      * intros z I. apply in_app_iff in I. destruct I as [I|I]; [apply F5; auto|]. specialize (EM z I). cbn [emits_ev] in EM. unfold emits in EM.
        repeat match type of EM with In _ (if ?u =? ?v then _ else _) => destruct (Z.eqb_spec u v);
          [first [exfalso; intuition congruence|cbn [In] in EM; destruct EM as [EM|[]]; rewrite <- EM; split; [cbn; intuition discriminate|discriminate]]|] end.
        destruct EM.
    + destruct (mget (y_servers y) (mDst m)) as [s|] eqn:Es.
      * destruct (sv_handle S H G s (mType m) (mParams m) (mSrc m) sr) as [[s' out]|] eqn:EC; [|discriminate].
        injection E as <-. destruct (sv_links S H G s _ _ _ _ s' out EC) as (_ & _ & _ & _ & A5).
        split; [|split; [reflexivity|split; [|cbn [y_clients]; eauto]]].
        2:{ cbn [y_log]. destruct (Z.eqb_spec (mType m) SERVER_REGISTER_REPLY); [exfalso; intuition congruence|apply app_nil_r]. }
        constructor; cbn [y_coord y_servers y_msgs]; try assumption.
        -- destruct F4 as (t & Et & K). rewrite mget_mset. destruct (keq a (mDst m)) as [->|N]; [|eauto].
           exists s'. split; [reflexivity|]. rewrite (keymap_same s _ _ _ _ _ _ EC); [congruence|intuition congruence..].
        -- intros z I. apply in_app_iff in I. destruct I as [I|I]; [apply F5; auto|].
           destruct (A5 z I) as [(U1 & U2 & U3)|[(U1 & U2 & U3)|[(U1 & U2 & U3)|[(U1 & U2)|(U1 & U2 & _)]]]];
             try (exfalso; intuition congruence).
           rewrite U1. split; [cbn; intuition discriminate|discriminate].
      * destruct (mget (y_clients y) (mDst m)) as [c|] eqn:Ec; [|discriminate].
        destruct (cl_handle S G c (mType m) (mParams m) chal) as [[c' out]|] eqn:EC; [|discriminate].
        injection E as <-. destruct (cl_sends S G c _ _ _ c' out EC) as [A0 A].
        split; [|split; [reflexivity|split; [reflexivity|cbn [y_clients]]]].
        -- constructor; cbn [y_coord y_servers y_msgs]; try assumption.
           intros z I. apply in_app_iff in I. destruct I as [I|I]; [apply F5; auto|]. rewrite (A z I).
           split; [cbn; intuition discriminate|discriminate].
        -- intros z k K. rewrite mget_mset. destruct (keq z (mDst m)) as [->|]; [|eauto]. exists c'. split; [reflexivity|].
           rewrite (A0 NE). congruence.
  - destruct (is_loop e) eqn:IL; [|discriminate].
    destruct (co_step S G (y_coord y) e) as [[c' out]|] eqn:EC; [|discriminate]. injection E as <-.
    assert (N : forall ty p src rn, e <> EMsg ty p src rn) by (intros ? ? ? ? ->; discriminate).
    destruct (co_still S G (y_coord y) e c' out EC) as [E1 E2]; [intros ty p src rn X; exfalso; eapply N; eauto|].
    destruct (co_step_frame S G (y_coord y) e c' out EC) as [W EM].
    destruct e as [ty p src rn| |fakes ord| |ord rs]; [discriminate|destruct O| | |].
    + exfalso. cbn [co_step] in EC. unfold begin_round in EC. rewrite F1 in EC. discriminate EC.
    + split; [|split; [reflexivity|split; [reflexivity|cbn [y_clients]; eauto]]].
      constructor; cbn [y_coord y_servers y_msgs]; rewrite ?E2; try assumption.
      * specialize (W FStatus). cbn in W. rewrite W; [assumption|]. intuition discriminate.
      * unfold last_server in *. now rewrite E1.
      * intros z I. apply in_app_iff in I. destruct I as [I|I]; [apply F5; auto|]. destruct (EM z I) as [<-|[]].
        split; [cbn; intuition discriminate|discriminate].
    + cbn [calm] in O. cbn [co_step] in EC. unfold round_end in EC. rewrite F2 in EC. cbv zeta in EC.
      destruct (non_nil _) as [keys|] eqn:EK; [|discriminate]. destruct (non_nil (map (fun k => mget (co_ecomms _) k) ord)) as [vs|]; [|discriminate].
      injection EC as <- <-.
      assert (NK : exists k l, keys = k :: l).
      { destruct ord as [|o ord]; [congruence|]. destruct keys as [|k0 keys]; [|eauto]. exfalso. apply dec_all_spec in EK. inversion EK. }
      split; [|split; [reflexivity|split; [reflexivity|cbn [y_clients]; eauto]]].
      constructor; cbn [y_coord y_servers y_msgs]; rewrite ?E2; try assumption.
      * pose proof (fold_ending_frame (co_buffer (y_coord y)) (y_coord y) FStatus ltac:(cbn; intuition discriminate)) as A. cbn in A.
        cbn. now rewrite A.
      * unfold last_server in *. now rewrite E1.
      * intros z I. apply in_app_iff in I. destruct I as [I|[<-|I]]; [apply F5; auto| |].
        -- split; [cbn; intuition discriminate|]. intros _. split; [reflexivity|]. destruct NK as (k & l & ->). exists k, l. reflexivity.
        -- apply to_clients_type in I. rewrite I. split; [cbn; intuition discriminate|discriminate].
  - destruct (mget (y_clients y) x) as [c|]; [|discriminate].
    destruct (cl_command S G c cmd) as [out|] eqn:EC; [|discriminate]. injection E as <-.
    pose proof (cmd_sends S G c cmd out EC) as A.
    split; [|split; [reflexivity|split; [reflexivity|cbn [y_clients]; eauto]]].
    constructor; cbn [y_coord y_servers y_msgs]; try assumption.
    intros z I. apply in_app_iff in I. destruct I as [I|I]; [apply F5; auto|].
    destruct (A z I) as [U|[U|U]]; rewrite U; (split; [cbn; intuition discriminate|discriminate]).
Qed.

Lemma stuck_run a : forall l y y', Forall calm l -> stuck a y -> sys_run S H G y l = Some y' ->
  stuck a y' /\ filter begins l = [] /\
  (forall x k, mget (y_clients y) x = Some k -> exists k', mget (y_clients y') x = Some k' /\ cl_rep k' = cl_rep k).
Proof.
  induction l as [|b l IH]; intros y y' O F E; cbn [sys_run filter] in *; [injection E as <-; eauto|].
  inversion O; subst. destruct (sys_step S H G y b) as [y1|] eqn:E1; [|discriminate].
  destruct (stuck_step a y b y1 ltac:(assumption) F E1) as (F1 & -> & _ & C1).
  destruct (IH y1 y' ltac:(assumption) F1 E) as (F2 & -> & C2). split; [assumption|]. split; [reflexivity|].
  intros x k K. destruct (C1 x k K) as (k1 & K1 & R1). destruct (C2 x k1 K1) as (k2 & K2 & R2). exists k2. split; [assumption|congruence].
Qed.

Lemma late_stuck y V a s y1 : reach S H G y V -> y_msgs y = [] -> co_status (y_coord y) = CO_MESSAGE -> late S H G y a s y1 -> stuck a y1.
Proof.
  intros R M ST LT. assert (M1 : y_msgs y1 = []) by (destruct LT as (? & ? & ? & _ & _ & X & _); exact X).
  destruct (late_joined y V a s y1 R M LT) as (NA & Na & rk & k & [J1 J2 J3 (t & T1 & T2 & T3 & T4 & T5 & T6 & T7) J5 J6]).
  constructor.
  - now rewrite J1.
  - rewrite J1. unfold last_server. cbn [co_servers set_pb set_servers]. now rewrite rev_app_distr.
  - now rewrite J1.
  - eauto.
  - rewrite M1. intros m [].
Qed.

(** Whatever happens after a server was started in an open round: the round stays open and
    no other round begins, no reputation changes, no table of the round's end gets to any
    other process, and the new server stops when it is given such a table. *)
Theorem C94_round_never_closes : forall y V a s y1 l y2, reach S H G y V -> y_msgs y = [] ->
  co_status (y_coord y) = CO_MESSAGE -> late S H G y a s y1 -> Forall calm l -> sys_run S H G y1 l = Some y2 ->
  co_status (y_coord y2) = CO_MESSAGE /\ filter begins l = [] /\
  (forall x k, mget (y_clients y) x = Some k -> exists k2, mget (y_clients y2) x = Some k2 /\ cl_rep k2 = cl_rep k) /\
  (forall m, In m (y_msgs y2) -> mType m = ROUND_END -> mDst m = a) /\
  (forall i cr sr chal m, nth_error (y_msgs y2) i = Some m -> mType m = ROUND_END -> sys_step S H G y2 (ADeliver i cr sr chal) = None).
Proof.
  intros y V a s y1 l y2 R M ST LT O E. pose proof (late_stuck y V a s y1 R M ST LT) as F.
  destruct (C94_links y V a s y1 R M LT) as (_ & _ & _ & EC & _).
  destruct (stuck_run a l y1 y2 O F E) as (F2 & B2 & C2). rewrite EC in C2.
  split; [apply F2|]. split; [assumption|]. split; [assumption|]. split.
  - intros m I T. now apply (st_msgs _ _ F2 m I).
  - intros i cr sr chal m Em T. destruct (proj2 (st_msgs _ _ F2 m (nth_error_In _ _ Em)) T) as (D & k & r & B).
    cbn [sys_step]. rewrite Em, T, D. destruct (keq a (co_addr (y_coord y2))) as [X|_]; [exfalso; now apply (st_self _ _ F2)|].
    destruct (st_new _ _ F2) as (t & Et & K). rewrite Et. now rewrite (round_end_stops t _ _ _ k r K B).
Qed.

End Late.
Print Assumptions C94_links.
Print Assumptions C94_openings.
Print Assumptions C94_requests_refused.
Print Assumptions C94_round_never_closes.

(** ** The property is refuted *)
(** Two servers A and B and the client D, in the second round; the server E is started. *)
Definition toy_late : list (sys -> System.action) := [do (ALaunch adE 2 3)] ++ dls 4.
Lemma toy_late_is y y1 : run_with toy_suite toy_oracle toy_gob toy_late y = Some y1 -> y_msgs y1 = [] ->
  y_log y1 = y_log y ++ [(adE, 2)] -> late toy_suite toy_oracle toy_gob y adE 2 y1.
Proof.
  intros E M L. apply taken_run in E. unfold toy_late in E. cbn [app taken] in E. unfold do at 1 in E. cbv beta in E.
  destruct (sys_step toy_suite toy_oracle toy_gob y (do (ALaunch adE 2 3) y)) as [y0|] eqn:E0.
  - exists 2, 3, (taken (dls 4) y0). split; [|auto]. clear. unfold dls. set (n := 4%nat). clearbody n. revert y0.
    induction n as [|n IH]; intros z; cbn [repeat taken]; constructor; [exact I|].
    destruct (sys_step toy_suite toy_oracle toy_gob z (tdl 0 z)); [apply IH|constructor].
  - cbn [sys_run] in E. unfold do in E0. rewrite E0 in E. discriminate E.
Qed.

(** D requests a bridge, and the round's end is started. *)
Definition toy_close : list (sys -> System.action) :=
  [do (ACommand adD (CRequest 1 toy_rn))] ++ dls 1 ++ [tend].
Definition calmb (b : System.action) : bool :=
  match b with
  | ALaunch _ _ _ | AJoin _ _ _ | ALoop EConfigure => false
  | ALoop (EEnd ord _) => negb (length ord =? 0)%nat
  | _ => true
  end.
Lemma calmb_ok l : forallb calmb l = true -> Forall calm l.
Proof.
  intros E. apply Forall_forall. intros b I. rewrite forallb_forall in E. specialize (E b I).
  destruct b as [| | |[]|]; try discriminate E; try exact Logic.I. destruct ord; [discriminate E|discriminate].
Qed.
Definition late_close (y1 : sys) :=
  (forallb calmb (taken toy_close y1), map (fun b => match b with ACommand _ _ => 0 | ADeliver _ _ _ _ => 1 | ALoop _ => 2 | _ => 3 end) (taken toy_close y1),
   option_map (fun y2 => map (fun m => (mDst m, mType m)) (y_msgs y2)) (run_with toy_suite toy_oracle toy_gob toy_close y1),
   option_map (fun k => match cl_request toy_suite toy_gob k 1 toy_rn with Some (Some _) => true | _ => false end) (mget (y_clients y1) adD)).
Definition late_facts (yv : sys * ledger) :=
  let y := fst yv in
  (y_msgs y, co_status (y_coord y), client_at adD y, co_pb (y_coord y), co_ecomms (y_coord y), co_buffer (y_coord y),
   nym_of toy_suite y 3, y_log y,
   option_map (fun y1 => (y_msgs y1, co_pb (y_coord y1), map fst (co_servers (y_coord y1)), y_log y1, late_close y1))
     (run_with toy_suite toy_oracle toy_gob toy_late y)).
Lemma toy_late_state : exists y V y1 k, reach toy_suite toy_oracle toy_gob y V /\ y_msgs y = [] /\
  co_status (y_coord y) = CO_MESSAGE /\ co_ecomms (y_coord y) = [(16, 9); (12, 16)] /\ co_buffer (y_coord y) = [] /\
  late toy_suite toy_oracle toy_gob y adE 2 y1 /\ run_with toy_suite toy_oracle toy_gob toy_late y = Some y1 /\
  co_pb (y_coord y) = PBase 13 18 /\ co_pb (y_coord y1) = PBase 8 18 /\
  chain_addrs y1 = [adA; adB; adE] /\ mget (y_clients y) adD = Some k /\ cl_pub k = 3 /\ cl_rep k = 5 /\ cl_R k = Some 1 /\
  cl_nym k = 12 /\ nym_of toy_suite y 3 = 12 /\
  late_close y1 = (true, [0; 1; 2], Some [(adE, ROUND_END); (adD, BCAST_PEDERSEN_RDIFF)], Some true).
Proof.
  destruct (toy_run toy_mid2 late_facts ([], CO_MESSAGE, Some (3, 5, Some 1, Some 3, PBase 13 18, 12), PBase 13 18,
      [(16, 9); (12, 16)], [], 12, [(adA, 2); (adB, 7)],
      Some ([], PBase 8 18, [adA; adB; adE], [(adA, 2); (adB, 7); (adE, 2)],
        (true, [0; 1; 2], Some [(adE, ROUND_END); (adD, BCAST_PEDERSEN_RDIFF)], Some true)))) as (y & V & _ & R & F); [vm_compute; reflexivity|].
  pose proof (toy_late_is y) as IS. unfold late_facts in F. cbn [fst] in F. set (w := toy_late) in *. clearbody w. set (cl := late_close) in *. clearbody cl. cbv zeta in F.
  injection F as F1 F2 F3 F4 F5 F6 F7 F8 F9.
  destruct (run_with toy_suite toy_oracle toy_gob w y) as [y1|] eqn:E1; [|discriminate F9]. cbn [option_map] in F9.
  injection F9 as G1 G2 G3 G4 G5.
  destruct (client_at_some _ _ _ _ _ _ _ _ F3) as (k & Ek & K1 & K2 & K3 & _ & _ & K4).
  exists y, V, y1, k. repeat (split; [assumption|]).
  split; [apply IS; [reflexivity|assumption|rewrite F8, G4; reflexivity]|]. split; [exact E1|]. auto 15.
Qed.

Theorem C94_takes_in_refuted : ~ (forall S H G, suite_ok S -> gob_ok G -> takes_in S H G).
Proof.
  intros C. specialize (C toy_suite toy_oracle toy_gob toy_ok toy_gob_ok).
  destruct toy_late_state as (y & V & y1 & k & R & M & ST & EC & EB & LT & _ & PB & PB1 & _ & Ek & K1 & K2 & K3 & K4 & _).
  assert (SO : forall c, stored y k c -> c = 16).
  { intros c [[X _]|[_ [X|X]]]; [rewrite ST in X; discriminate X| |rewrite EB in X; destruct X].
    rewrite EC, K4 in X. now injection X. }
  destruct (C y V adE 2 y1 R M LT adD k Ek) as (r & c & E1 & E2 & E3).
  - exists 1, 16. split; [assumption|]. split.
    + right. split; [assumption|]. left. now rewrite EC, K4.
    + unfold opens, commits_to. rewrite PB, K2. reflexivity.
  - rewrite K3 in E1. injection E1 as <-.
    destruct (late_joined toy_suite toy_ok toy_oracle toy_gob toy_gob_ok y V adE 2 y1 R M LT) as (_ & _ & rk & k' & [J1 _ _ _ _ _]).
    assert (E4 : stored y k c) by (revert E2; unfold stored; rewrite J1; exact (fun u => u)).
    apply SO in E4. subst c. unfold opens, commits_to in E3. rewrite PB1, K2 in E3. vm_compute in E3. discriminate E3.
Qed.
Print Assumptions C94_takes_in_refuted.

Theorem C94_can_close_refuted : ~ (forall S H G, suite_ok S -> gob_ok G -> can_close S H G).
Proof.
  intros C. specialize (C toy_suite toy_oracle toy_gob toy_ok toy_gob_ok).
  destruct toy_late_state as (y & V & y1 & k & R & M & ST & EC & EB & LT & _).
  destruct (C y V adE 2 y1 R M ST ltac:(rewrite EC; discriminate) LT) as (l & y2 & F & E & X).
  destruct (C94_round_never_closes toy_suite toy_ok toy_oracle toy_gob toy_gob_ok y V adE 2 y1 l y2 R M ST LT F E) as (Y & _).
  rewrite Y in X. discriminate X.
Qed.
Print Assumptions C94_can_close_refuted.

(** There, D's own request is refused although it is made as it should be, and at the end
    of the round the table gets to E, which stops. *)
Example C94_instance : exists y V y1 k m l y2, reach toy_suite toy_oracle toy_gob y V /\ y_msgs y = [] /\
  co_status (y_coord y) = CO_MESSAGE /\ prime (sQ toy_suite) /\ late toy_suite toy_oracle toy_gob y adE 2 y1 /\
  pb_HT (co_pb (y_coord y)) <> 1 /\ stored y k 16 /\ opens toy_suite y 16 5 1 /\ (1 * (2 - 1)) mod sQ toy_suite <> 0 /\
  mget (y_clients y1) adD = Some k /\ In (nym_of toy_suite y (cl_pub k)) (mkeys (co_ecomms (y_coord y))) /\
  cl_request toy_suite toy_gob k 1 toy_rn = Some (Some m) /\ 0 <= rqInd toy_rn < sQ toy_suite /\
  (rqInd toy_rn * (2 - 1)) mod sQ toy_suite <> 0 /\
  Forall calm l /\ sys_run toy_suite toy_oracle toy_gob y1 l = Some y2 /\
  exists m0, In m0 (y_msgs y2) /\ mType m0 = ROUND_END /\ mDst m0 = adE.
Proof.
  destruct toy_late_state as (y & V & y1 & k & R & M & ST & EC & EB & LT & _ & PB & PB1 & _ & Ek & K1 & K2 & K3 & K4 & NY & CL).
  destruct (late_joined toy_suite toy_ok toy_oracle toy_gob toy_gob_ok y V adE 2 y1 R M LT) as (_ & _ & rk & k' & [_ J2 _ _ _ _]).
  rewrite <- J2 in Ek. unfold late_close in CL. rewrite Ek in CL. set (w := toy_close) in *. clearbody w. cbn [option_map] in CL.
  injection CL as C1 C2 C3 C4.
  destruct (run_with toy_suite toy_oracle toy_gob w y1) as [y2|] eqn:E2; [|discriminate C3]. cbn [option_map] in C3.
  destruct (cl_request toy_suite toy_gob k 1 toy_rn) as [[m|]|] eqn:ER; try discriminate C4.
  injection C3 as C3. destruct (y_msgs y2) as [|m0 ms] eqn:EM; [discriminate C3|]. injection C3 as D1 D2 _.
  exists y, V, y1, k, m, (taken w y1), y2. split; [exact R|]. split; [exact M|]. split; [exact ST|].
  split; [exact prime_11|]. split; [exact LT|]. split; [rewrite PB; discriminate|].
  split; [right; split; [exact ST|]; left; now rewrite EC, K4|]. split; [unfold opens, commits_to; rewrite PB; reflexivity|].
  split; [discriminate|]. split; [exact Ek|]. split; [rewrite K1, NY, EC; cbn; tauto|]. split; [exact ER|].
  split; [cbn; lia|]. split; [discriminate|]. split; [now apply calmb_ok|]. split; [now apply taken_run|].
  exists m0. rewrite EM. split; [now left|auto].
Qed.
