(** Orderly sessions: users give commands only in an announced round, to clients that take
    part in it, and the loop ends a round only once the bridge traffic of the round has been
    handled.  What is in flight in such a session never stops the process that handles it. *)
From Coq Require Import ZArith Znumtheory Lia List Bool Permutation.
From Coq Require Import Strings.Byte.
From Coq Require String.
From Verif Require Import ZMod Bytes Suite Spec Pedersen ElGamal FujiOkam Equality Codec Maps Net Bridge Client
  Perm SimpleShuffle PairShuffle Server Coordinator History System Chain Prop_Pedersen Prop_FujiOkam Prop_Codec Prop_Assign Prop_Topology Prop_Chain Round RoundInv
  Prop_Coord Prop_Round Session Prop_Session Signing Progress Live Delivery Enrol.
Import ListNotations.
Import String.StringSyntax.
Open Scope Z_scope.
Delimit Scope string_scope with str.

(** ** Specification *)
(** The bridge traffic of a round: posts, requests, the servers' work on them, the
    hand-outs and the votes. *)
Definition traffic (c : coord) (m : msg) : Prop :=
  In (mType m) [POST_BRIDGE; REQUEST_BRIDGES; SIGN_ASSIGNMENTS; GOT_SIGNS] \/ (mType m = Net.VOTE /\ mDst m = co_addr c).
(** How users and the coordinator behave in an orderly session.  Besides, a client draws a
    challenge of 480 bits, as the code does. *)
Definition conduct (S : suite) (y : sys) (a : action) : Prop :=
  match a with
  | ACommand b cmd => open_round y /\ (exists k, in_table S y b k) /\
      match cmd with CRequest _ rn => is_secret S (rqInd rn) | _ => True end
  | ALoop (EEnd _ _) => forall m, In m (y_msgs y) -> ~ traffic (y_coord y) m
  | _ => long_chal y a
  end.
Inductive orderly (S : suite) (H : oracle) (G : gob) : sys -> ledger -> Prop :=
| o_start self a fb trap gammas l y1 y2 :
    Forall (conf_act S) l -> sys_run S H G (init_sys S self a fb trap gammas) l = Some y1 ->
    y_msgs y1 = [] -> co_servers (y_coord y1) <> [] ->
    sys_step S H G y1 (ALoop EConfigure) = Some y2 -> orderly S H G y2 []
| o_step y V a y' :
    orderly S H G y V -> guard S y V a -> conduct S y a -> sys_step S H G y a = Some y' ->
    orderly S H G y' (ledger_step S y V a).

Lemma orderly_reach S H G y V : orderly S H G y V -> reach S H G y V.
Proof. induction 1; [eapply r_start; eassumption|eapply r_step; eassumption]. Qed.
Lemma conduct_chal S y a : conduct S y a -> long_chal y a.
Proof. destruct a as [| | |[]|]; cbn; tauto. Qed.

Lemma traffic_dec c m : {traffic c m} + {~ traffic c m}.
Proof.
  unfold traffic. destruct (in_dec Z.eq_dec (mType m) [POST_BRIDGE; REQUEST_BRIDGES; SIGN_ASSIGNMENTS; GOT_SIGNS]); [left; now left|].
  destruct (Z.eq_dec (mType m) Net.VOTE); [|right; tauto]. destruct (keq (mDst m) (co_addr c)); [left; tauto|right; tauto].
Qed.

Section Conduct.
Context (S : suite) (OK : suite_ok S) (H : oracle) (G : gob) (GOK : gob_ok G).

(** ** What the messages of the traffic carry *)
Definition known (c : coord) (p : params) (nym : Z) : Prop :=
  exists bn, get_bytes p "nym"%str = Some bn /\ dec_point S bn = Some nym /\ mget (co_ecomms c) nym <> None.
(** An assignment of a bridge whose owner is in the table. *)
Definition fit (c : coord) (x : assignment) : Prop := good S x /\ exists n, asNym x = Some n /\ mget (co_ecomms c) n <> None.
Definition full_set (c : coord) (bs : bytes) : Prop :=
  exists sigs, gdec_2d G bs = Some sigs /\ length sigs = (length (co_servers c) + 1)%nat.
Definition pack (c : coord) (nym : Z) (l : list assignment) : Prop :=
  l <> [] /\ (forall x, In x l -> fit c x /\ asNymR x = Some nym /\ mget (co_asigs c) (asAddr x) <> None) /\
  exists rq a, co_reqs c = Some rq /\ mget rq nym = Some a.
Definition checks (c : coord) (p : params) (nym : Z) : Prop :=
  verify_ind S G (co_pb c) (co_fb c) p (mget (co_ecomms c) nym) <> None.
Record work_ok (cl : amap addr client) (c : coord) (m : msg) : Prop := {
  w_post : mType m = POST_BRIDGE -> mDst m = co_addr c /\ get_str (mParams m) "bridge_addr"%str <> None /\
    get_bytes (mParams m) "signature"%str <> None /\ exists nym, known c (mParams m) nym;
  w_req : mType m = REQUEST_BRIDGES -> mDst m = co_addr c /\ mget cl (mSrc m) <> None /\ get_int (mParams m) "ind"%str <> None /\
    get_bytes (mParams m) "signature"%str <> None /\ msg_request (mParams m) <> None /\
    exists nym, known c (mParams m) nym /\ checks c (mParams m) nym;
  w_sign : mType m = SIGN_ASSIGNMENTS -> In (mDst m) (map fst (co_servers c)) /\ mSrc m = co_addr c /\
    exists nym ba l, known c (mParams m) nym /\ checks c (mParams m) nym /\ get_bytes (mParams m) "assignments"%str = Some ba /\
      dec_assignments S G ba = Some l /\ pack c nym l;
  w_got : mType m = GOT_SIGNS -> mDst m = co_addr c -> get_bool (mParams m) "success"%str = Some false \/
    (get_bool (mParams m) "success"%str = Some true /\ exists nym ba l bs sigs,
      get_bytes (mParams m) "assignments"%str = Some ba /\ dec_assignments S G ba = Some l /\ pack c nym l /\
      get_bytes (mParams m) "signatures"%str = Some bs /\ gdec_2d G bs = Some sigs /\ length sigs = length l);
  w_rel : mType m = GOT_SIGNS -> mDst m <> co_addr c -> mget cl (mDst m) <> None /\
    get_bytes (mParams m) "signature"%str <> None /\ exists x bs, get_bytes (mParams m) "assignment"%str = Some (enc_assignment S x) /\
      fit c x /\ get_bytes (mParams m) "signatures"%str = Some bs /\ full_set c bs;
  w_vote : mType m = Net.VOTE -> mDst m = co_addr c -> get_bytes (mParams m) "signature"%str <> None /\
    get_int (mParams m) "feedback"%str <> None /\ exists nym x bs, known c (mParams m) nym /\
      get_bytes (mParams m) "assignment"%str = Some (enc_assignment S x) /\ fit c x /\
      get_bytes (mParams m) "signatures"%str = Some bs /\ full_set c bs
}.
Lemma work_none cl c m : ~ traffic c m -> work_ok cl c m.
Proof. intros N. constructor; intros T; [..|intros D]; exfalso; apply N; unfold traffic; rewrite T; cbn; tauto. Qed.

(** The facts hold on in the same round, with more requests and more signatures. *)
Record grow (c c' : coord) : Prop := {
  gr_st : co_static c' = co_static c;
  gr_sl : co_servers c' = co_servers c;
  gr_ec : co_ecomms c' = co_ecomms c;
  gr_pb : co_pb c' = co_pb c;
  gr_as : forall b, mget (co_asigs c) b <> None -> mget (co_asigs c') b <> None;
  gr_rq : forall rq nym a, co_reqs c = Some rq -> mget rq nym = Some a -> exists rq' a', co_reqs c' = Some rq' /\ mget rq' nym = Some a'
}.
Lemma grow_refl c : grow c c.
Proof. constructor; auto. intros rq nym a E M. eauto. Qed.
Lemma grow_trans c1 c2 c3 : grow c1 c2 -> grow c2 c3 -> grow c1 c3.
Proof.
  intros [A1 A2 A3 A4 A5 A6] [B1 B2 B3 B4 B5 B6]. constructor; try congruence; auto.
  intros rq nym a E M. destruct (A6 _ _ _ E M) as (rq' & a' & E' & M'). eauto.
Qed.
Lemma pack_mono c c' nym l : grow c c' -> pack c nym l -> pack c' nym l.
Proof.
  intros [A1 A2 A3 A4 A5 A6] (P1 & P2 & rq & a & E & M). split; [assumption|]. split; [|eauto].
  intros x I. destruct (P2 x I) as (F & N & AS). unfold fit. rewrite A3. auto.
Qed.
Lemma work_mono cl cl' c c' m : grow c c' -> (forall a, mget cl a <> None -> mget cl' a <> None) -> work_ok cl c m -> work_ok cl' c' m.
Proof.
  intros GR D [W1 W2 W3 W4 W5 W6]. pose proof GR as [A1 A2 A3 A4 A5 A6].
  assert (EA : co_addr c' = co_addr c) by (unfold co_addr; now rewrite A1).
  assert (EF : co_fb c' = co_fb c) by (unfold co_fb; now rewrite A1).
  constructor; unfold known, checks, fit, full_set in *; rewrite ?EA, ?EF, ?A2, ?A3, ?A4 in *; try assumption.
  - intros T. destruct (W2 T) as (X1 & X2 & X). auto.
  - intros T. destruct (W3 T) as (X1 & X2 & nym & ba & l & X3 & X4 & X5 & X6 & X7). split; [assumption|]. split; [assumption|].
    exists nym, ba, l. pose proof (pack_mono c c' nym l GR X7). auto.
  - intros T E. destruct (W4 T E) as [X|(X & nym & ba & l & bs & sigs & X1 & X2 & X3 & X4)]; [now left|right]. split; [assumption|].
    exists nym, ba, l, bs, sigs. pose proof (pack_mono c c' nym l GR X3). auto.
  - intros T E. destruct (W5 T E) as (X1 & X2 & X). auto.
Qed.

(** ** What the coordinator keeps *)
Definition lens (c : coord) : Prop := forall b ss n, mget (co_asigs c) b = Some (ss, n) -> length ss = (length (co_servers c) + 1)%nat.
Definition free_known (c : coord) : Prop := forall b nb, mget (co_bridges c) b = Some (nb, false) ->
  exists n, nb = Some n /\ in_group S n /\ mget (co_ecomms c) n <> None.
Definition reqs_cl (cl : amap addr client) (c : coord) : Prop := forall rq nym a, co_reqs c = Some rq -> mget rq nym = Some a -> mget cl a <> None.
Record co_ok (cl : amap addr client) (c : coord) : Prop := { k_len : lens c; k_free : free_known c; k_req : reqs_cl cl c }.

Lemma known_group c p nym : known c p nym -> in_group S nym.
Proof. intros (bn & _ & E & _). eapply Prop_Assign.dec_point_group; eassumption. Qed.

Lemma post_ok cl c m cr : co_ok cl c -> work_ok cl c m -> mType m = POST_BRIDGE ->
  exists c', co_handle S G c (mType m) (mParams m) (mSrc m) cr = Some (c', []) /\ grow c c' /\ co_ok cl c' /\ co_diffs c' = co_diffs c.
Proof.
  intros [K1 K2 K3] W T. destruct (w_post _ _ _ W T) as (_ & N1 & N2 & nym & KN). pose proof (known_group _ _ _ KN) as GN. destruct KN as (bn & E1 & E2 & E3).
  rewrite T. change (co_handle S G c POST_BRIDGE (mParams m) (mSrc m) cr) with (co_post S c (mParams m)). unfold co_post, msg_post.
  destruct (get_str (mParams m) "bridge_addr"%str) as [a|]; [|contradiction]. destruct (get_bytes (mParams m) "signature"%str) as [sig|]; [|contradiction].
  rewrite E1, E2. destruct (negb _).
  - exists c. split; [reflexivity|]. split; [apply grow_refl|]. split; [now constructor|reflexivity].
  - exists (add_bridge c a nym). split; [reflexivity|]. split; [constructor; auto; intros rq n b E M; exists rq, b; now split|]. split; [|reflexivity].
    constructor; [exact K1| |exact K3]. intros b nb. unfold add_bridge. cbn [co_bridges set_bridges]. rewrite mget_mset. destruct (keq b a); [|apply K2].
    intros [= <-]. exists nym. auto.
Qed.

Lemma vote_ok cl c m cr : co_ok cl c -> work_ok cl c m -> mType m = Net.VOTE -> mDst m = co_addr c ->
  exists c', co_handle S G c (mType m) (mParams m) (mSrc m) cr = Some (c', []) /\ grow c c' /\ co_ok cl c' /\
    (co_diffs c' = co_diffs c \/ exists t v, co_diffs c' = mset (co_diffs c) t v /\ mget (co_ecomms c) t <> None).
Proof.
  intros [K1 K2 K3] W T D. destruct (w_vote _ _ _ W T D) as (N1 & N2 & nym & x & bs & (bn & E1 & E2 & _) & E3 & F & E4 & sigs & E5 & L).
  rewrite T. change (co_handle S G c Net.VOTE (mParams m) (mSrc m) cr) with (co_vote S G c (mParams m)). unfold co_vote, msg_vote.
  rewrite E1, E2. cbv zeta.
  assert (Z : forall d, (d = co_diffs c \/ exists t v, d = mset (co_diffs c) t v /\ mget (co_ecomms c) t <> None) ->
    exists c', Some (set_diffs c d, @nil msg) = Some (c', []) /\ grow c c' /\ co_ok cl c' /\ (co_diffs c' = co_diffs c \/ exists t v, co_diffs c' = mset (co_diffs c) t v /\ mget (co_ecomms c) t <> None)).
  { intros d Hd. exists (set_diffs c d). split; [reflexivity|]. split; [constructor; auto; intros rq n b E M; exists rq, b; now split|]. split; [now constructor|exact Hd]. }
  assert (Z0 : exists c', Some (c, @nil msg) = Some (c', []) /\ grow c c' /\ co_ok cl c' /\ (co_diffs c' = co_diffs c \/ exists t v, co_diffs c' = mset (co_diffs c) t v /\ mget (co_ecomms c) t <> None)).
  { exists c. split; [reflexivity|]. split; [apply grow_refl|]. split; [now constructor|now left]. }
  destruct (Z.ltb_spec (find_index (co_keys c) nym) 0) as [|GE]; [exact Z0|].
  apply find_index_in in GE. rewrite (Prop_Coord.find_index_nth _ _ GE).
  destruct (get_bytes (mParams m) "signature"%str) as [sig|]; [|contradiction]. destruct (get_int (mParams m) "feedback"%str) as [f|]; [|contradiction].
  rewrite E3, E4, E5. destruct F as [F1 (n & F2 & F3)]. rewrite (assignment_round_trip S x OK (proj1 F1)), F2.
  destruct (negb _); [exact Z0|].
  assert (CS : forall pks sg ms, length sg = length pks -> check_sigs S ms pks sg <> None).
  { clear. induction pks as [|pk pks IH]; intros sg ms L; cbn [check_sigs]; [discriminate|]. destruct sg as [|g sg]; [discriminate L|]. cbn [nth_error tl].
    destruct (negb _); [discriminate|]. apply IH. now injection L. }
  destruct (check_sigs S _ _ sigs) as [ok|] eqn:EC.
  2:{ exfalso. revert EC. apply CS. rewrite app_length, map_length. cbn [length]. lia. }
  destruct (negb ok); [exact Z0|]. apply Z. right. eauto.
Qed.

Lemma set_asigs_grow c b e : grow c (set_asigs c (mset (co_asigs c) b e)).
Proof.
  constructor; try reflexivity; [|intros rq n a E M; exists rq, a; now split]. intros d N. cbn [co_asigs set_asigs]. rewrite mget_mset. destruct (keq d b); [discriminate|assumption].
Qed.

Lemma got_total cl j nym d : mget cl d <> None -> forall l c sigs out0, co_ok cl c -> d <> co_addr c -> (j < length (co_servers c))%nat ->
  length sigs = length l -> (forall x, In x l -> fit c x /\ asNymR x = Some nym /\ mget (co_asigs c) (asAddr x) <> None) -> Forall (work_ok cl c) out0 ->
  exists c' out, got_loop S G c j (Some d) sigs l out0 = Some (c', out) /\ grow c c' /\ co_ok cl c' /\ co_diffs c' = co_diffs c /\ Forall (work_ok cl c') out.
Proof.
  intros MD. induction l as [|x l IH]; intros c sigs out0 KO ND LJ LS FA FO; cbn [got_loop].
  - exists c, out0. split; [reflexivity|]. split; [apply grow_refl|]. auto.
  - destruct sigs as [|sg sigs]; [discriminate LS|]. cbn [nth_error tl]. injection LS as LS.
    destruct (FA x (or_introl eq_refl)) as (FX & NX & AX). unfold add_asig. destruct KO as [K1 K2 K3].
    destruct (mget (co_asigs c) (asAddr x)) as [[ss n]|] eqn:EA; [|contradiction]. pose proof (K1 _ _ _ EA) as L1.
    destruct (set_nth_total ss j (Some sg)) as (ss' & ES); [lia|]. rewrite ES. pose proof (History.set_nth_length _ _ _ _ ES) as L2.
    set (c1 := set_asigs c (mset (co_asigs c) (asAddr x) (ss', n + 1))).
    assert (G1 : grow c c1) by apply set_asigs_grow.
    assert (KO1 : co_ok cl c1).
    { constructor; [|exact K2|exact K3]. intros b s0 n0. cbn [c1 co_asigs set_asigs]. rewrite mget_mset. change (co_servers c1) with (co_servers c).
      destruct (keq b (asAddr x)); [intros [= <- <-]; congruence|apply K1]. }
    assert (FA1 : forall c2, grow c c2 -> forall z, In z l -> fit c2 z /\ asNymR z = Some nym /\ mget (co_asigs c2) (asAddr z) <> None).
    { intros c2 G2 z Iz. destruct (FA z (or_intror Iz)) as (Z1 & Z2 & Z3). split; [unfold fit; rewrite (gr_ec _ _ G2); exact Z1|]. split; [assumption|]. now apply (gr_as _ _ G2). }
    assert (NXT : forall c2 out2, grow c c2 -> co_ok cl c2 -> co_diffs c2 = co_diffs c -> Forall (work_ok cl c2) out2 ->
      exists c' out, got_loop S G c2 j (Some d) sigs l out2 = Some (c', out) /\ grow c c' /\ co_ok cl c' /\ co_diffs c' = co_diffs c /\ Forall (work_ok cl c') out).
    { intros c2 out2 G2 KO2 ED2 FO2. destruct (IH c2 sigs out2) as (c' & out & R1 & R2 & R3 & R4 & R5); try assumption.
      - unfold co_addr in *. now rewrite (gr_st _ _ G2).
      - now rewrite (gr_sl _ _ G2).
      - now apply FA1.
      - exists c', out. split; [assumption|]. split; [now apply (grow_trans c c2)|]. split; [assumption|]. split; [congruence|assumption]. }
    destruct (asigs_done c1 (asAddr x)) eqn:ED.
    + cbv zeta. set (c2 := set_bridges c1 _). unfold msg_got.
      match goal with |- context [get_bytes ?pm "assignment"%str] => change (get_bytes pm "assignment"%str) with (Some (enc_assignment S x)); change (get_bytes pm "signatures"%str) with (Some (genc_2d G (get_asigs c2 (asAddr x)))) end.
      cbn [send]. assert (G2 : grow c c2) by (destruct G1 as [A1 A2 A3 A4 A5 A6]; constructor; assumption).
      apply NXT; [assumption| |reflexivity|].
      * destruct KO1 as [Q1 Q2 Q3]. constructor; [exact Q1| |exact Q3]. intros b nb. unfold c2. cbn [co_bridges set_bridges]. rewrite mget_mset. destruct (keq b (asAddr x)); [discriminate|apply Q2].
      * apply Forall_app. split; [eapply Forall_impl; [|exact FO]; intros mm; apply work_mono; [assumption|tauto]|]. constructor; [|constructor].
        constructor; cbn [mType mDst mParams]; try discriminate; [intros _ EE; exfalso; apply ND; exact EE|]. intros _ _. split; [assumption|]. split; [discriminate|].
        exists x, (genc_2d G (get_asigs c2 (asAddr x))). split; [reflexivity|]. split; [unfold fit; rewrite (gr_ec _ _ G2); exact FX|]. split; [reflexivity|].
        exists (get_asigs c2 (asAddr x)). split; [apply (g_2d G GOK)|]. unfold get_asigs, c2, c1. cbn [co_asigs set_bridges set_asigs co_servers]. rewrite mget_mset_eq, map_length. etransitivity; [exact L2|exact L1].
    + apply NXT; [assumption|assumption|reflexivity|]. eapply Forall_impl; [|exact FO]. intros mm. apply work_mono; [assumption|tauto].
Qed.

Lemma got_ok cl c m cr : co_ok cl c -> mget cl (co_addr c) = None -> work_ok cl c m -> mType m = GOT_SIGNS -> mDst m = co_addr c ->
  exists c' out, co_handle S G c (mType m) (mParams m) (mSrc m) cr = Some (c', out) /\ grow c c' /\ co_ok cl c' /\ co_diffs c' = co_diffs c /\ Forall (work_ok cl c') out.
Proof.
  intros KO NC W T D. rewrite T. change (co_handle S G c GOT_SIGNS (mParams m) (mSrc m) cr) with (co_got S G c (mParams m) (mSrc m)). unfold co_got.
  assert (Z0 : exists c' out, Some (c, @nil msg) = Some (c', out) /\ grow c c' /\ co_ok cl c' /\ co_diffs c' = co_diffs c /\ Forall (work_ok cl c') out).
  { exists c, []. split; [reflexivity|]. split; [apply grow_refl|]. auto. }
  destruct (w_got _ _ _ W T D) as [->|(-> & nym & ba & l & bs & sigs & E1 & E2 & (P1 & P2 & rq & a & P3 & P4) & E3 & E4 & E5)]; cbn [negb]; [exact Z0|].
  destruct (server_index c (mSrc m)) as [j|] eqn:EJ; [|exact Z0]. rewrite E1, E2, E3, E4.
  destruct l as [|x l]; [contradiction|]. cbn [nth_error]. destruct (P2 x (or_introl eq_refl)) as (_ & -> & _). cbv zeta. rewrite P3, P4.
  pose proof (k_req _ _ KO _ _ _ P3 P4) as MA. apply (got_total cl j nym a MA); try assumption; [| |constructor].
  - intros ->. contradiction.
  - unfold server_index in EJ. clear - EJ. assert (X : forall l i, server_index_from i l (mSrc m) = Some j -> (j < i + length l)%nat).
    { induction l as [|[b pk] l IH]; intros i E; cbn [server_index_from] in E; [discriminate|]. cbn [length]. destruct (keq b (mSrc m)); [injection E as <-; lia|]. apply IH in E. lia. }
    apply X in EJ. exact EJ.
Qed.

Lemma open_grow l : forall c, exists c', open_assignments S c l = Some c' /\ grow c c' /\ co_bridges c' = co_bridges c /\ co_reqs c' = co_reqs c /\ co_diffs c' = co_diffs c /\
  (forall x, In x l -> mget (co_asigs c') (asAddr x) <> None) /\ (lens c -> lens c').
Proof.
  induction l as [|x l IH]; intros c; cbn [open_assignments].
  - exists c. split; [reflexivity|]. split; [apply grow_refl|]. repeat split; auto; intros x [].
  - rewrite open_one. match goal with |- context [open_assignments S ?c1 l] => set (c2 := c1) end.
    destruct (IH c2) as (c' & -> & G2 & E1 & E2 & E3 & IA & LE). exists c'. split; [reflexivity|].
    assert (AS : forall b, mget (co_asigs c2) b = if keq b (asAddr x) then Some (repeat None (length (co_servers c)) ++ [Some (co_sign S c (enc_assignment S x))], 1) else mget (co_asigs c) b).
    { intros b. unfold c2. cbn [co_asigs set_asigs]. rewrite !mget_mset. now destruct (keq b (asAddr x)). }
    split; [|split; [exact E1|split; [exact E2|split; [exact E3|split]]]].
    + apply (grow_trans c c2); [|assumption]. constructor; try reflexivity; [|intros rq n a E M; exists rq, a; now split]. intros b N. rewrite AS. destruct (keq b _); [discriminate|assumption].
    + intros z [<-|Iz]; [|now apply IA]. apply (gr_as _ _ G2). rewrite AS. destruct (keq (asAddr x) (asAddr x)); [discriminate|contradiction].
    + intros L. apply LE. intros b ss n. rewrite AS. change (co_servers c2) with (co_servers c). destruct (keq b _); [|apply L].
      intros [= <- <-]. rewrite app_length, repeat_length. reflexivity.
Qed.

Lemma request_ok cl c m cr : co_ok cl c -> co_reqs c <> None -> work_ok cl c m -> mType m = REQUEST_BRIDGES ->
  exists c' out, co_handle S G c (mType m) (mParams m) (mSrc m) cr = Some (c', out) /\ grow c c' /\ co_ok cl c' /\ co_diffs c' = co_diffs c /\ Forall (work_ok cl c') out.
Proof.
  intros KO NR W T. destruct (w_req _ _ _ W T) as (_ & MS & N1 & N2 & N3 & nym & KN & CH). pose proof (known_group _ _ _ KN) as GN. pose proof KN as (bn & E1 & E2 & E3).
  assert (Z0 : exists c' out, Some (c, @nil msg) = Some (c', out) /\ grow c c' /\ co_ok cl c' /\ co_diffs c' = co_diffs c /\ Forall (work_ok cl c') out).
  { exists c, []. split; [reflexivity|]. split; [apply grow_refl|]. auto. }
  rewrite T. change (co_handle S G c REQUEST_BRIDGES (mParams m) (mSrc m) cr) with (co_request S G c (mParams m) (mSrc m) cr).
  destruct (co_request S G c (mParams m) (mSrc m) cr) as [[c' out]|] eqn:E.
  2:{ exfalso. unfold co_request in E. destruct (get_int (mParams m) "ind"%str) as [ind|] eqn:EI; [|contradiction].
    destruct (get_bytes (mParams m) "signature"%str) as [sig|]; [|contradiction]. rewrite E1, E2 in E.
    destruct (msg_request (mParams m)) as [mm|] eqn:EM; [|contradiction]. cbv zeta in E.
    destruct (negb _); [discriminate|]. unfold checks in CH. destruct (verify_ind _ _ _ _ _ _) as [ok|]; [|contradiction]. destruct (negb ok); [discriminate|].
    destruct (co_reqs c) as [rq|]; [|contradiction]. destruct (assign_bridges _ _ _ _) as [l c2]. destruct l as [|x l]; [discriminate|].
    destruct (open_grow (x :: l) c2) as (c3 & EO & _). rewrite EO in E. unfold msg_request in EM. odestruct EM; discriminate. }
  destruct (co_request_sent S G _ _ _ _ _ _ E) as [[-> ->]|(ind & bn' & nymR & rq & brs & mp & F1 & F2 & F3 & F4 & F5 & F6)]; [exact Z0|].
  rewrite E1 in F1. injection F1 as <-. rewrite E2 in F2. injection F2 as <-. cbv zeta in F6. destruct F6 as [F6 F7].
  set (l := map _ brs) in *. set (c1 := set_bridges _ mp) in *.
  destruct (open_grow l c1) as (c2 & EO & G2 & EB & EQ & EDF & IA & LE). rewrite EO in F6. injection F6 as <-.
  destruct (get_bridges_spec _ _ _ _ _ F5) as (_ & _ & I1 & I2 & _). destruct KO as [K1 K2 K3].
  assert (GC : grow c c2).
  { apply (grow_trans c c1); [|assumption]. constructor; try reflexivity; [auto|]. intros rq0 n a Eq M. assert (rq0 = rq) by congruence. subst rq0.
    cbn [c1 co_reqs set_reqs set_bridges]. exists (mset rq nym (mSrc m)). destruct (Z.eq_dec n nym) as [->|NE]; [exists (mSrc m); now rewrite mget_mset_eq|].
    exists a. split; [reflexivity|]. now rewrite mget_mset_ne by congruence. }
  assert (KO2 : co_ok cl c2).
  { constructor.
    - apply LE. exact K1.
    - intros b nb. rewrite EB. cbn [c1 co_bridges set_bridges]. rewrite (gr_ec _ _ GC). intros M.
      assert (NI : ~ In b (map fst brs)). { intros I. apply in_map_iff in I. destruct I as ([b' nb'] & <- & I). destruct (I1 _ _ I) as [_ M2]. cbn [fst] in M. congruence. }
      rewrite (I2 b NI) in M. exact (K2 b nb M).
    - intros rq0 n a. rewrite EQ. cbn [c1 co_reqs set_reqs set_bridges]. intros [= <-]. rewrite mget_mset. destruct (keq n nym); [intros [= <-]; assumption|]. now apply K3. }
  exists c2, out. split; [reflexivity|]. split; [assumption|]. split; [assumption|]. split; [exact EDF|].
  destruct F7 as [[_ ->]|(q & NL & -> & Q1 & Q2)]; [constructor|].
  apply Forall_forall. intros z Iz. unfold to_servers in Iz. apply in_map_iff in Iz. destruct Iz as ([sa spk] & <- & Is). cbn [fst].
  constructor; cbn [mType mDst mSrc mParams]; try discriminate. intros _. split; [rewrite (gr_sl _ _ GC); now apply (in_map fst) in Is|].
  split; [unfold co_addr; now rewrite (gr_st _ _ GC)|].
  exists nym, (enc_assignments S G l), l.
  assert (GL : forall x, In x l -> good S x /\ exists n, asNym x = Some n /\ mget (co_ecomms c) n <> None).
  { intros x Ix. unfold l in Ix. apply in_map_iff in Ix. destruct Ix as ([b nb] & <- & Ib). destruct (I1 _ _ Ib) as [M _]. destruct (K2 _ _ M) as (n & -> & Gn & En).
    cbn [asNym asNymR asAddr fst snd]. split; [|eauto]. split; [|cbn; split; discriminate]. split; cbn [asNym asNymR]; intros z [= <-]; now apply member_in_group. }
  split; [exists bn; rewrite (gr_ec _ _ GC); auto|]. split.
  { unfold checks. rewrite Q2, (gr_ec _ _ GC), (gr_pb _ _ GC). unfold co_fb. rewrite (gr_st _ _ GC). exact CH. }
  split; [reflexivity|]. split; [apply (C27_assignments_round_trip S G OK GOK l); intros x Ix; apply (GL x Ix)|].
  split; [assumption|]. split.
  - intros x Ix. split; [unfold fit; rewrite (gr_ec _ _ GC); now apply GL|]. split; [|now apply IA].
    unfold l in Ix. apply in_map_iff in Ix. destruct Ix as (b & <- & _). reflexivity.
  - exists (mset rq nym (mSrc m)), (mSrc m). split; [rewrite EQ; reflexivity|apply mget_mset_eq].
Qed.

(** A client sends well-formed commands. *)
Lemma command_ok y V a k cmd out : reach S H G y V -> open_round y -> in_table S y a k -> co_ok (y_clients y) (y_coord y) ->
  (forall x bs, In (x, bs) (cl_assigns k) -> fit (y_coord y) x /\ full_set (y_coord y) bs) ->
  match cmd with CRequest _ rn => is_secret S (rqInd rn) | _ => True end ->
  cl_command S G k cmd = Some out ->
  Forall (work_ok (y_clients y) (y_coord y)) out /\ (forall m, In m out -> mDst m = co_addr (y_coord y) /\ mType m <> VOTE_REPLY).
Proof.
  intros R O [Ek IT] KO HD RI E. set (c := y_coord y) in *.
  destruct (announced S OK H G GOK y V a k R O Ek IT) as (v & r & R0 & g & C & J1 & J2 & J3 & J4 & J5 & J6 & J7 & J8 & J9 & J10 & J11 & J12 & J13 & J14 & J15).
  destruct (reach_inv S OK H G GOK y V R) as [B P]. destruct (b_cl _ _ _ _ _ B a k Ek) as (P1 & _ & _ & NA & _ & _ & IV).
  assert (NG : in_group S (cl_nym k)).
  { rewrite J10. unfold nym_of, pt_mul. apply (in_group_zexp S OK). pose proof (b_Vg _ _ _ _ _ B) as F. rewrite Forall_forall in F. now apply F. }
  assert (GC : in_group S C).
  { unfold opens, commits_to in J15. pose proof (sQ_gt1 S OK). rewrite J15, <- (ped_commit_plain S OK) by (apply Z.mod_pos_bound; lia). now apply ped_commit_group. }
  assert (KN : forall p, get_bytes p "nym"%str = Some (enc_point S (cl_nym k)) -> known c p (cl_nym k)).
  { intros p Ep. exists (enc_point S (cl_nym k)). split; [assumption|]. split; [now apply (dec_enc_point S OK)|]. fold c in J14. rewrite J14. discriminate. }
  destruct cmd as [ba|ind rn|id f]; cbn [cl_command] in E.
  - injection E as <-. split; [|intros m [<-|[]]; cbn [cl_post mDst mType]; split; [assumption|discriminate]].
    constructor; [|constructor]. constructor; cbn [cl_post mType mDst mSrc mParams]; try discriminate. intros _. split; [assumption|]. split; [discriminate|]. split; [discriminate|].
    exists (cl_nym k). apply KN. reflexivity.
  - destruct (cl_request S G k ind rn) as [[m|]|] eqn:ER; [|injection E as <-; split; [constructor|intros m []]|discriminate]. injection E as <-.
    pose proof ER as ER0. unfold cl_request in ER. cbv zeta in ER. destruct (_ <? ind); [discriminate|]. rewrite J13 in ER. unfold ped_commit in ER.
    set (PI := ped_commit_r S (cl_pb k) (sec_of_int S ind) (rqInd rn)) in *. cbv beta iota zeta in ER.
    assert (GI : in_group S PI) by (apply ped_commit_group; [assumption|rewrite J8; assumption]).
    unfold ped_sub in ER. rewrite (pt_sub_group S OK) in ER by assumption. set (PD := mulm _ _ _) in *.
    assert (GD : in_group S PD) by (unfold PD; in_grp).
    destruct (cl_fb k) as [fb|]; [|discriminate]. destruct (fo_commit fb _ _) as [FO rFO]. destruct (prove_nonneg _ _ _ _ _ _) as [nn|]; [|discriminate]. rewrite J2 in ER.
    set (eq := prove_equal _ _ _ _ _ _ _ _ _) in *.
    set (fields := [("ind"%str, VInt ind); _; _; _; _; _; _; _]) in *. destruct (msg_request fields) as [mm|] eqn:EM; [|discriminate]. injection ER as <-.
    split; [|intros m [<-|[]]; cbn [mDst mType]; split; [assumption|discriminate]].
    constructor; [|constructor]. constructor; cbn [mType mDst mSrc mParams]; try discriminate. intros _. split; [assumption|]. split; [rewrite J12; congruence|]. split; [discriminate|].
    split; [discriminate|]. split; [discriminate|]. exists (cl_nym k). split; [apply KN; reflexivity|].
    unfold checks. fold c in J14. rewrite J14. unfold verify_ind.
    unfold fields, get_bytes, get_int. cbn [app lookup String.eqb Ascii.eqb Bool.eqb].
    rewrite !(dec_enc_point S OK), (dec_enc_secret S) by assumption. cbv beta iota.
    destruct (negb _); [discriminate|]. unfold ped_sub. rewrite (pt_sub_group S OK) by assumption. destruct (negb _); [discriminate|].
    rewrite (g_nonneg G GOK). destruct (negb _); [discriminate|]. rewrite (g_equal G GOK). discriminate.
  - destruct (cl_vote S k id f) as [m|] eqn:EV; [|discriminate]. injection E as <-. unfold cl_vote in EV. cbv zeta in EV. destruct (id <? 0); [discriminate|].
    destruct (nth_error (cl_assigns k) (Z.to_nat id)) as [[x bs]|] eqn:EN; [|discriminate].
    set (fields := [_; _; _; _]) in *. destruct (msg_vote fields) as [mm|] eqn:EM; [|discriminate]. injection EV as <-.
    split; [|intros m [<-|[]]; cbn [mDst mType]; split; [assumption|discriminate]].
    destruct (HD x bs (nth_error_In _ _ EN)) as [FX FS].
    constructor; [|constructor]. constructor; cbn [mType mDst mSrc mParams]; try discriminate. intros _ _. split; [discriminate|]. split; [discriminate|].
    exists (cl_nym k), x, bs. split; [apply KN; reflexivity|]. split; [reflexivity|]. split; [assumption|]. split; [reflexivity|assumption].
Qed.

(** ** The other handlers *)
Definition traffic_types : list Z := [POST_BRIDGE; REQUEST_BRIDGES; SIGN_ASSIGNMENTS; GOT_SIGNS; Net.VOTE; VOTE_REPLY].
Lemma not_traffic c m : ~ In (mType m) traffic_types -> ~ traffic c m.
Proof. unfold traffic, traffic_types. cbn [In]. intros N [X|[X _]]; [cbn [In] in X|]; intuition congruence. Qed.

Lemma co_quiet c m cr c' out : co_handle S G c (mType m) (mParams m) (mSrc m) cr = Some (c', out) ->
  ~ In (mType m) [POST_BRIDGE; REQUEST_BRIDGES; GOT_SIGNS; Net.VOTE] ->
  co_asigs c' = co_asigs c /\ co_bridges c' = co_bridges c /\ co_reqs c' = co_reqs c /\
  (co_diffs c' = co_diffs c \/ co_diffs c' = []) /\ (forall x, In x out -> ~ In (mType x) traffic_types).
Proof.
  intros E N. cbn [In] in N.
  assert (N1 : mType m <> POST_BRIDGE) by (intros X; rewrite X in N; tauto). assert (N2 : mType m <> REQUEST_BRIDGES) by (intros X; rewrite X in N; tauto).
  assert (N3 : mType m <> GOT_SIGNS) by (intros X; rewrite X in N; tauto). assert (N4 : mType m <> Net.VOTE) by (intros X; rewrite X in N; tauto). clear N.
  destruct (co_plain S H G (fun _ => 0) c _ _ _ _ c' out E N1 N2 N3) as (X1 & X2 & X3 & _). repeat (split; [assumption|]).
  destruct (co_step_frame S G c (EMsg (mType m) (mParams m) (mSrc m) cr) c' out E) as [F O]. cbn [writes_ev emits_ev] in *. split.
  - destruct (Z.eq_dec (mType m) ANNOUNCEMENT) as [T|NA].
    + right. rewrite T in E. change (co_handle S G c ANNOUNCEMENT (mParams m) (mSrc m) cr) with (co_announcement S c (mParams m)) in E. unfold co_announcement in E. cbv zeta in E.
      odestruct E. injection E as <- <-. reflexivity.
    + left. apply (F FDiffs). unfold writes. apply Z.eqb_neq in N1, N2, N3, N4, NA. rewrite N1, N2, N3, N4, NA.
      repeat match goal with |- context [if ?b then _ else _] => destruct b end; cbn; intuition discriminate.
  - intros x I. specialize (O x I). unfold emits in O. apply Z.eqb_neq in N1, N2, N3, N4. rewrite N2, N3 in O.
    repeat match type of O with context [if ?b then _ else _] => destruct b end; cbn in O;
      repeat (destruct O as [O|O]; [rewrite <- O; cbn; intuition discriminate|]); destruct O.
Qed.
Lemma sv_quiet s m sr s' out : sv_handle S H G s (mType m) (mParams m) (mSrc m) sr = Some (s', out) -> mType m <> SIGN_ASSIGNMENTS ->
  forall x, In x out -> ~ In (mType x) traffic_types.
Proof.
  intros E N x I. destruct (C60_server_frame S H G _ _ _ _ _ _ _ E) as [_ SO]. specialize (SO x I). cbn [In] in SO.
  repeat (destruct SO as [SO|SO]; [injection SO as SO1 SO2; try (now destruct N); rewrite <- SO2; cbn; intuition discriminate|]). destruct SO.
Qed.
Lemma cl_quiet k m chal k' out : cl_handle S G k (mType m) (mParams m) chal = Some (k', out) ->
  (forall x, In x out -> ~ In (mType x) traffic_types) /\
  ((mType m = Net.ROUND_END /\ cl_assigns k' = []) \/ (mType m <> Net.ROUND_END /\ cl_assigns k' = cl_assigns k) \/
   (mType m = GOT_SIGNS /\ exists ba x bs, get_bytes (mParams m) "assignment"%str = Some ba /\ dec_assignment S ba = Some x /\
      get_bytes (mParams m) "signatures"%str = Some bs /\ cl_assigns k' = cl_assigns k ++ [(x, bs)])).
Proof.
  intros E. destruct (Z.eq_dec (mType m) Net.ROUND_END) as [T|NR].
  { rewrite T in E. change (cl_round_end S G k (mParams m) = Some (k', out)) in E. unfold cl_round_end in E. odestruct E. injection E as <- <-. split; [intros x []|]. left. now split. }
  destruct (Z.eq_dec (mType m) GOT_SIGNS) as [T|NG].
  { rewrite T in E |- *. change (cl_got_signatures S k (mParams m) = Some (k', out)) in E. unfold cl_got_signatures in E. odestruct E; injection E as <- <-; (split; [intros z []|]).
    - right. left. split; [discriminate|reflexivity].
    - right. right. split; [reflexivity|]. do 3 eexists. repeat split; eauto. }
  unfold cl_handle in E. apply Z.eqb_neq in NR, NG. rewrite NR, NG in E. apply Z.eqb_neq in NR.
  assert (Z : forall k0, cl_assigns k0 = cl_assigns k -> Some (k0, @nil msg) = Some (k', out) -> (forall x, In x out -> ~ In (mType x) traffic_types) /\
    ((mType m = Net.ROUND_END /\ cl_assigns k' = []) \/ (mType m <> Net.ROUND_END /\ cl_assigns k' = cl_assigns k) \/
   (mType m = GOT_SIGNS /\ exists ba x bs, get_bytes (mParams m) "assignment"%str = Some ba /\ dec_assignment S ba = Some x /\
      get_bytes (mParams m) "signatures"%str = Some bs /\ cl_assigns k' = cl_assigns k ++ [(x, bs)]))).
  { intros k0 E0 [= <- <-]. split; [intros x []|]. right. left. now split. }
  destruct (mType m =? CLIENT_REGISTER_CONFIRMATION).
  { unfold cl_register_confirmation in E. odestruct E. injection E as <- <-. split; [intros x [<-|[]]; cbn; intuition discriminate|]. right. left. now split. }
  destruct (mType m =? INIT_PEDERSEN_R). { unfold cl_init_r in E. odestruct E. eapply Z; [|exact E]. reflexivity. }
  destruct (mType m =? GN_HONESTY_ANSWER). { unfold cl_honesty_answer in E. odestruct E. eapply Z; [|exact E]. reflexivity. }
  destruct (mType m =? ANNOUNCEMENT_FINALIZE). { unfold cl_announce_final in E. cbv zeta in E. odestruct E. eapply Z; [|exact E]. reflexivity. }
  destruct (mType m =? Net.VOTE); [eapply Z; [|exact E]; reflexivity|].
  destruct (mType m =? BCAST_PEDERSEN_RDIFF). { unfold cl_rdiff in E. cbv zeta in E. odestruct E; (eapply Z; [|exact E]; reflexivity). }
  destruct (mType m =? VOTE_REPLY). { unfold cl_vote_reply in E. odestruct E. eapply Z; [|exact E]. reflexivity. }
  eapply Z; [|exact E]. reflexivity.
Qed.

Lemma sign_ok cl c s m sr : work_ok cl c m -> mType m = SIGN_ASSIGNMENTS -> sv_pb s = co_pb c -> sv_ecomms s = co_ecomms c -> sv_fb s = Some (co_fb c) ->
  exists s' out, sv_handle S H G s (mType m) (mParams m) (mSrc m) sr = Some (s', out) /\ Forall (work_ok cl c) out /\
    (forall x, In x out -> mType x = GOT_SIGNS /\ mDst x = co_addr c).
Proof.
  intros W T E1 E2 E3. destruct (w_sign _ _ _ W T) as (_ & ES & nym & ba & l & (bn & B1 & B2 & B3) & CH & EA & ED & PK).
  rewrite T. change (sv_handle S H G s SIGN_ASSIGNMENTS (mParams m) (mSrc m) sr) with (sv_sign S G s (mParams m) (mSrc m)). unfold sv_sign.
  rewrite B1, B2, E1, E2, E3. unfold checks in CH. destruct (verify_ind _ _ _ _ _ _) as [ok|]; [|contradiction]. rewrite ES. destruct (negb ok).
  - eexists s, _. split; [reflexivity|]. split; [|intros x [<-|[]]; now split]. constructor; [|constructor].
    constructor; cbn [mType mDst mParams]; try discriminate; [|intros _ X; now elim X]. intros _ _. now left.
  - rewrite EA, ED. eexists s, _. split; [reflexivity|]. split; [|intros x [<-|[]]; now split]. constructor; [|constructor].
    constructor; cbn [mType mDst mParams]; try discriminate; [|intros _ X; now elim X]. intros _ _. right. split; [reflexivity|].
    exists nym, ba, l. do 2 eexists. split; [reflexivity|]. split; [assumption|]. split; [assumption|]. split; [reflexivity|]. split; [apply (g_2d G GOK)|]. apply map_length.
Qed.
Lemma rel_ok_live cl c k m chal : work_ok cl c m -> mType m = GOT_SIGNS -> mDst m <> co_addr c -> cl_handle S G k (mType m) (mParams m) chal <> None.
Proof.
  intros W T N. destruct (w_rel _ _ _ W T N) as (_ & N2 & x & bs & E1 & FX & E2 & _). rewrite T.
  change (cl_got_signatures S k (mParams m) <> None). unfold cl_got_signatures, msg_got. destruct (get_bytes (mParams m) "signature"%str); [|contradiction].
  rewrite E1, E2. destruct (negb _); [discriminate|]. rewrite (assignment_round_trip S x OK (proj1 (proj1 FX))). discriminate.
Qed.

(** ** The invariant *)
Definition held_ok (c : coord) (k : client) : Prop := forall x bs, In (x, bs) (cl_assigns k) -> fit c x /\ full_set c bs.
Record hon (y : sys) : Prop := {
  h_co : co_ok (y_clients y) (y_coord y);
  h_free : forall b nb, mget (co_bridges (y_coord y)) b = Some (nb, false) -> open_round y;
  h_open : forall m, In m (y_msgs y) -> traffic (y_coord y) m -> open_round y;
  h_work : Forall (work_ok (y_clients y) (y_coord y)) (y_msgs y);
  h_vote : forall m, In m (y_msgs y) -> mType m = Net.VOTE -> mDst m = co_addr (y_coord y) \/ mget (y_clients y) (mDst m) <> None;
  h_reply : forall m, In m (y_msgs y) -> mType m <> VOTE_REPLY;
  h_held : forall a k, mget (y_clients y) a = Some k -> cl_assigns k <> [] ->
    (open_round y /\ held_ok (y_coord y) k) \/ ending y \/ sent_to (y_msgs y) Net.ROUND_END a;
  h_diffs : co_status (y_coord y) = CO_MESSAGE -> votes_in_table (y_coord y)
}.

Lemma open_dec y : {open_round y} + {~ open_round y}.
Proof.
  unfold open_round, ending. destruct (Z.eq_dec (co_status (y_coord y)) CO_MESSAGE) as [E|N]; [|right; tauto].
  destruct (existsb (fun m => (mType m =? Net.ROUND_END) || (mType m =? ANNOUNCEMENT_FINALIZE)) (y_msgs y)) eqn:EX.
  - right. intros (_ & N1 & N2). apply existsb_exists in EX. destruct EX as (m & I & T). apply orb_prop in T. destruct T as [T|T]; apply Z.eqb_eq in T.
    + apply N1. split; [assumption|]. eauto.
    + now apply (N2 m).
  - left. assert (X : forall m, In m (y_msgs y) -> mType m <> Net.ROUND_END /\ mType m <> ANNOUNCEMENT_FINALIZE).
    { intros m I. split; intros T; assert (Y : existsb (fun m => (mType m =? Net.ROUND_END) || (mType m =? ANNOUNCEMENT_FINALIZE)) (y_msgs y) = true); try congruence;
        apply existsb_exists; exists m; (split; [assumption|]); rewrite T; reflexivity. }
    split; [assumption|]. split.
    + intros (_ & m & I & T). exact (proj1 (X m I) T).
    + intros m I. now apply X.
Qed.

(** A step inside a round. *)
Lemma hon_inside y y' out : hon y -> open_round y -> open_round y' -> same_round y y' ->
  co_ok (y_clients y') (y_coord y') -> grow (y_coord y) (y_coord y') ->
  (forall a, mget (y_clients y) a <> None -> mget (y_clients y') a <> None) ->
  (forall m, In m (y_msgs y') -> In m (y_msgs y) \/ In m out) -> Forall (work_ok (y_clients y') (y_coord y')) out ->
  (forall m, In m out -> mType m <> VOTE_REPLY /\ (mType m = Net.VOTE -> mDst m = co_addr (y_coord y') \/ mget (y_clients y') (mDst m) <> None)) ->
  (forall a k', mget (y_clients y') a = Some k' -> cl_assigns k' = [] \/ (exists k, mget (y_clients y) a = Some k /\
     (cl_assigns k' = cl_assigns k \/ exists x bs, cl_assigns k' = cl_assigns k ++ [(x, bs)] /\ fit (y_coord y) x /\ full_set (y_coord y) bs))) ->
  votes_in_table (y_coord y') -> hon y'.
Proof.
  intros [H1 H2 H3 H4 H5 H6 H7 H8] O O' SR KO GR DOM MS FO VO AS VT.
  assert (EA : co_addr (y_coord y') = co_addr (y_coord y)) by (unfold co_addr; now rewrite (gr_st _ _ GR)).
  constructor; auto.
  - rewrite Forall_forall in H4, FO |- *. intros m I. destruct (MS m I) as [J|J]; [|now apply FO]. eapply work_mono; [exact GR|exact DOM|now apply H4].
  - intros m I T. destruct (MS m I) as [J|J]; [|now apply (VO m J)]. rewrite EA. destruct (H5 m J T) as [X|X]; [now left|right; now apply DOM].
  - intros m I. destruct (MS m I) as [J|J]; [now apply H6|now apply (VO m J)].
  - intros a k' Ek' NE. left. split; [assumption|].
    assert (MO : forall x bs, fit (y_coord y) x /\ full_set (y_coord y) bs -> fit (y_coord y') x /\ full_set (y_coord y') bs).
    { intros x bs. unfold fit, full_set. now rewrite (gr_ec _ _ GR), (gr_sl _ _ GR). }
    destruct (AS a k' Ek') as [X|(k & Ek & X)]; [contradiction|].
    assert (HK : held_ok (y_coord y) k).
    { destruct (cl_assigns k) as [|e l] eqn:EL; [intros x bs I; rewrite EL in I; destruct I|]. destruct (H7 a k Ek) as [[_ Z]|[Z|Z]]; [congruence|assumption| |].
      - now destruct O as (_ & N & _).
      - exfalso. destruct Z as (m & I & T & _). destruct O as (O1 & N & _). apply N. split; [assumption|]. eauto. }
    intros x bs I. apply MO. destruct X as [X|(x0 & bs0 & X & F)]; rewrite X in I; [now apply HK|]. apply in_app_or in I. destruct I as [I|[I|[]]]; [now apply HK|]. now injection I as <- <-.
Qed.

(** No traffic on its way, no bridge to be had, and whoever still holds assignments is
    about to drop them. *)
Definition bare (y' : sys) : Prop :=
  (forall m, In m (y_msgs y') -> ~ traffic (y_coord y') m) /\ (forall b nb, mget (co_bridges (y_coord y')) b <> Some (nb, false)) /\
  (forall a k', mget (y_clients y') a = Some k' -> cl_assigns k' <> [] -> ending y' \/ sent_to (y_msgs y') Net.ROUND_END a).

(** A step outside: no traffic before, none after. *)
Lemma hon_outside y' : (forall m, In m (y_msgs y') -> ~ traffic (y_coord y') m) ->
  lens (y_coord y') -> reqs_cl (y_clients y') (y_coord y') -> (forall b nb, mget (co_bridges (y_coord y')) b <> Some (nb, false)) ->
  (forall m, In m (y_msgs y') -> mType m <> VOTE_REPLY /\ (mType m = Net.VOTE -> mget (y_clients y') (mDst m) <> None)) ->
  (forall a k', mget (y_clients y') a = Some k' -> cl_assigns k' <> [] -> ending y' \/ sent_to (y_msgs y') Net.ROUND_END a) ->
  (co_status (y_coord y') = CO_MESSAGE -> votes_in_table (y_coord y')) -> hon y' /\ bare y'.
Proof.
  intros NT LE RQ NB VO HD VT. split; [|now split]. constructor; auto.
  - constructor; [assumption| |assumption]. intros b nb M. elim (NB _ _ M).
  - intros b nb M. elim (NB _ _ M).
  - intros m I T. elim (NT m I T).
  - apply Forall_forall. intros m I. apply work_none. now apply NT.
  - intros m I T. right. now apply (VO m I).
  - intros m I. now apply (VO m I).
  - intros a k' Ek NE. right. now apply (HD a k').
Qed.

Lemma mid_ekeys y V nym : reach S H G y V -> open_round y -> mget (co_ecomms (y_coord y)) nym <> None -> mget (co_ekeys (y_coord y)) nym <> None.
Proof.
  intros R (O1 & O2 & _) N. destruct (reach_inv S OK H G GOK y V R) as [B P].
  destruct P as [T A|T i p keys vals GT HT A|T0 T1 K A|T n M1 p keys vals GT HT A].
  - pose proof (p1_status _ _ _ _ _ _ _ A) as X. rewrite O1 in X. discriminate.
  - pose proof (p2_status _ _ _ _ _ _ _ _ _ _ _ _ _ _ A) as X. rewrite O1 in X. discriminate.
  - rewrite (p3_keys _ _ _ _ _ _ _ _ _ A). destruct (mget (co_ecomms (y_coord y)) nym); [discriminate|contradiction].
  - exfalso. apply O2. split; [assumption|]. destruct (p4_M _ _ _ _ _ _ _ _ _ _ _ _ _ _ _ A) as [src X].
    exists (Msg (before (map fst (co_servers (y_coord y))) (co_addr (y_coord y)) n) Net.ROUND_END p src). split; [|reflexivity].
    apply (core_in (y_msgs y)). eapply Permutation_in; [symmetry; exact X|]. now left.
Qed.
Lemma ekeys_same y y' : same_round y y' -> co_ekeys (y_coord y') = co_ekeys (y_coord y).
Proof. intros [E _]. unfold round_view in E. congruence. Qed.

Lemma grow_same y y' : same_round y y' -> co_asigs (y_coord y') = co_asigs (y_coord y) -> co_reqs (y_coord y') = co_reqs (y_coord y) -> grow (y_coord y) (y_coord y').
Proof.
  intros SR E1 E2. destruct (view_eq _ _ SR) as (W1 & W2 & _ & _ & W5 & _ & W7). constructor; try assumption; rewrite ?E1, ?E2; auto.
  intros rq nym a E M. eauto.
Qed.
Lemma co_ok_same cl cl' y y' : same_round y y' -> co_asigs (y_coord y') = co_asigs (y_coord y) -> co_reqs (y_coord y') = co_reqs (y_coord y) ->
  co_bridges (y_coord y') = co_bridges (y_coord y) -> (forall a, mget cl a <> None -> mget cl' a <> None) -> co_ok cl (y_coord y) -> co_ok cl' (y_coord y').
Proof.
  intros SR E1 E2 E3 D [K1 K2 K3]. destruct (view_eq _ _ SR) as (W1 & W2 & _ & _ & W5 & _ & W7).
  constructor; unfold lens, free_known, reqs_cl in *; rewrite ?E1, ?E2, ?E3, ?W2, ?W5; auto. intros rq nym a E M. apply D. eauto.
Qed.
Lemma votes_same y y' V : reach S H G y V -> open_round y -> same_round y y' -> votes_in_table (y_coord y) ->
  (co_diffs (y_coord y') = co_diffs (y_coord y) \/ co_diffs (y_coord y') = [] \/
   exists t v, co_diffs (y_coord y') = mset (co_diffs (y_coord y)) t v /\ mget (co_ecomms (y_coord y)) t <> None) -> votes_in_table (y_coord y').
Proof.
  intros R O SR VT D nym N. rewrite (ekeys_same _ _ SR). destruct D as [D|[D|(t & v & D & M)]]; rewrite D in N; [now apply VT|now elim N|].
  rewrite mget_mset in N. destruct (keq nym t) as [->|]; [now apply (mid_ekeys y V)|now apply VT].
Qed.

Lemma hon_in_step y V a y' : reach S H G y V -> fo_nonneg (co_fb (y_coord y)) -> hon y -> guard S y V a -> conduct S y a -> open_round y -> is_end a = false ->
  sys_step S H G y a = Some y' -> hon y'.
Proof.
  intros R NN HO GU CD O NE E. pose proof (reach_inv S OK H G GOK y V R) as I. destruct (open_step S H G y V a y' I O GU NE E) as [O' SR].
  pose proof HO as [H1 H2 H3 H4 H5 H6 H7 H8]. destruct I as [B P]. pose proof (proj1 O) as ST. specialize (H8 ST).
  assert (NC : mget (y_clients y) (co_addr (y_coord y)) = None).
  { destruct (mget (y_clients y) (co_addr (y_coord y))) as [k|] eqn:Ek; [|reflexivity]. destruct (b_cl _ _ _ _ _ B _ _ Ek) as (_ & _ & _ & N & _). now elim N. }
  destruct a as [b priv rk|b priv s|i cr sr chal|e|b cmd]; cbn [sys_step] in E.
  - destruct GU.
  - destruct (keq b _); [discriminate|]. destruct (mget (y_servers y) b); [discriminate|].
    destruct (mget (y_clients y) b) as [kb|] eqn:Eb; [discriminate|]. injection E as <-. set (k0 := init_client _ _ _ _ _) in *.
    assert (DOM : forall x, mget (y_clients y) x <> None -> mget (mset (y_clients y) b k0) x <> None).
    { intros x N. rewrite mget_mset. destruct (keq x b); [discriminate|assumption]. }
    apply (hon_inside y _ [cl_register S k0]); try assumption; cbn [y_coord y_clients y_msgs].
    + destruct H1 as [K1 K2 K3]. constructor; try assumption. intros rq nn x E1 M. apply DOM. eapply K3; eassumption.
    + apply grow_refl.
    + intros m Im. apply in_app_or in Im. tauto.
    + constructor; [|constructor]. apply work_none. apply not_traffic. cbn. intuition discriminate.
    + intros m [<-|[]]. cbn [cl_register mType]. split; [discriminate|]. discriminate.
    + intros x k'. rewrite mget_mset. destruct (keq x b); [intros [= <-]; now left|]. intros Ek. right. exists k'. split; [assumption|now left].
  - destruct (nth_error (y_msgs y) i) as [m|] eqn:Em; [|discriminate]. cbn zeta in E.
    assert (Im : In m (y_msgs y)) by (eapply nth_error_In; exact Em).
    destruct (pick_split i _ m Em) as (l1 & l2 & EM & ER). rewrite ER in E.
    assert (MS : forall out x, In x ((l1 ++ l2) ++ out) -> In x (y_msgs y) \/ In x out).
    { intros out x J. rewrite EM. rewrite !in_app_iff in *. cbn [In]. tauto. }
    pose proof H4 as WK. rewrite Forall_forall in WK. specialize (WK m Im).
    destruct (keq (mDst m) _) as [ED|ND].
    + destruct (co_handle _ _ _ _ _ _ _) as [[c' out]|] eqn:EH; [|discriminate]. injection E as <-.
      assert (GO : forall z, grow (y_coord y) c' -> co_ok (y_clients y) c' -> Forall (work_ok (y_clients y) c') out ->
        (co_diffs c' = z) -> (z = co_diffs (y_coord y) \/ z = [] \/ exists t v, z = mset (co_diffs (y_coord y)) t v /\ mget (co_ecomms (y_coord y)) t <> None) ->
        (forall x, In x out -> mType x <> VOTE_REPLY /\ mType x <> Net.VOTE) -> hon (Sys c' (y_servers y) (y_clients y) ((l1 ++ l2) ++ out) (y_log y))).
      { intros z X1 X2 X3 X4 X5 X6. apply (hon_inside y _ out); try assumption; cbn [y_coord y_clients y_msgs].
        - tauto.
        - apply MS.
        - intros x Ix. destruct (X6 x Ix). split; [assumption|]. intros Z. contradiction.
        - intros x k' Ek. right. exists k'. split; [assumption|now left].
        - apply (votes_same y (Sys c' (y_servers y) (y_clients y) ((l1 ++ l2) ++ out) (y_log y)) V); try assumption. cbn [y_coord]. now rewrite X4. }
      assert (EMI : forall ty, mType m = ty -> In ty [POST_BRIDGE; REQUEST_BRIDGES; GOT_SIGNS; Net.VOTE] -> forall x, In x out -> mType x <> VOTE_REPLY /\ mType x <> Net.VOTE).
      { intros ty T IT x Ix. destruct (co_step_frame S G _ (EMsg (mType m) (mParams m) (mSrc m) cr) c' out EH) as [_ OO]. specialize (OO x Ix). cbn [emits_ev] in OO. rewrite T in OO.
        clear - IT OO. repeat (destruct IT as [<-|IT]; [cbn in OO; repeat (destruct OO as [<-|OO]; [split; discriminate|]); destruct OO|]). destruct IT. }
      destruct (Z.eq_dec (mType m) POST_BRIDGE) as [T|N1].
      { destruct (post_ok _ _ m cr H1 WK T) as (c2 & X1 & X2 & X3 & X4). rewrite EH in X1. injection X1 as -> ->. eapply GO; try eassumption; [constructor|now left|intros x []]. }
      destruct (Z.eq_dec (mType m) REQUEST_BRIDGES) as [T|N2].
      { destruct (reach_run S H G y V R) as (self & a0 & fb & trap & gammas & t & RR).
        pose proof (run_reqs S H G self a0 fb trap gammas t _ RR (open_first S OK H G GOK y V R O)) as RQ.
        destruct (request_ok _ _ m cr H1 RQ WK T) as (c2 & out2 & X1 & X2 & X3 & X4 & X5). rewrite EH in X1. injection X1 as -> ->. eapply GO; try eassumption; [now left|]. eapply EMI; [exact T|cbn; tauto]. }
      destruct (Z.eq_dec (mType m) GOT_SIGNS) as [T|N3].
      { destruct (got_ok _ _ m cr H1 NC WK T ED) as (c2 & out2 & X1 & X2 & X3 & X4 & X5). rewrite EH in X1. injection X1 as -> ->. eapply GO; try eassumption; [now left|]. eapply EMI; [exact T|cbn; tauto]. }
      destruct (Z.eq_dec (mType m) Net.VOTE) as [T|N4].
      { destruct (vote_ok _ _ m cr H1 WK T ED) as (c2 & X1 & X2 & X3 & X4). rewrite EH in X1. injection X1 as -> ->. eapply GO; try eassumption; [constructor|reflexivity| |intros x []]. destruct X4 as [X4|X4]; [now left|now right; right]. }
      destruct (co_quiet _ m cr _ _ EH) as (X1 & X2 & X3 & X4 & X5).
      { cbn [In]. intros Z. repeat (destruct Z as [Z|Z]; [now symmetry in Z|]). destruct Z. }
      apply (GO (co_diffs c')).
      * exact (grow_same y (Sys c' (y_servers y) (y_clients y) ((l1 ++ l2) ++ out) (y_log y)) SR X1 X3).
      * exact (co_ok_same (y_clients y) (y_clients y) y (Sys c' (y_servers y) (y_clients y) ((l1 ++ l2) ++ out) (y_log y)) SR X1 X3 X2 (fun a N => N) H1).
      * apply Forall_forall. intros x Ix. apply work_none, not_traffic. now apply X5.
      * reflexivity.
      * tauto.
      * intros x Ix. specialize (X5 x Ix). split; intros Z; apply X5; rewrite Z; cbn; tauto.
    + destruct (mget (y_servers y) (mDst m)) as [s|] eqn:Es.
      * destruct (sv_handle _ _ _ _ _ _ _ _) as [[s' out]|] eqn:EH; [|discriminate]. injection E as <-.
        apply (hon_inside y _ out); try assumption; cbn [y_coord y_clients y_msgs]; [apply grow_refl|tauto|apply MS| | |].
        -- destruct (Z.eq_dec (mType m) SIGN_ASSIGNMENTS) as [T|NS].
           ++ destruct O as (O1 & O2 & O3). destruct (C44_agreement S OK H G GOK y V R O1 O2 O3) as [AG _]. destruct (AG _ _ Es) as (_ & A2 & A3 & _).
              destruct (e_sv _ _ _ (reach_ses S OK H G GOK y V R NN) _ _ Es) as [A4 _].
              destruct (sign_ok _ _ s m sr WK T A2 A3 A4) as (s2 & out2 & X1 & X2 & _). rewrite EH in X1. injection X1 as -> ->. exact X2.
           ++ apply Forall_forall. intros x Ix. apply work_none, not_traffic. now apply (sv_quiet _ _ _ _ _ EH NS).
        -- intros x Ix. destruct (C60_server_frame S H G _ _ _ _ _ _ _ EH) as [_ SO]. specialize (SO x Ix). cbn [In] in SO. clear - SO.
           repeat (destruct SO as [SO|SO]; [injection SO as SO1 SO2; rewrite <- SO2; split; discriminate|]). destruct SO.
        -- intros x k' Ek. right. exists k'. split; [assumption|now left].
      * destruct (mget (y_clients y) (mDst m)) as [k|] eqn:Ek; [|discriminate].
        destruct (cl_handle _ _ _ _ _ _) as [[k' out]|] eqn:EH; [|discriminate]. injection E as <-. destruct (cl_quiet _ _ _ _ _ EH) as [Q1 Q2].
        assert (DOM : forall x, mget (y_clients y) x <> None -> mget (mset (y_clients y) (mDst m) k') x <> None).
        { intros x N. rewrite mget_mset. destruct (keq x (mDst m)); [discriminate|assumption]. }
        apply (hon_inside y _ out); try assumption; cbn [y_coord y_clients y_msgs]; [|apply grow_refl|apply MS| | |].
        -- destruct H1 as [K1 K2 K3]. constructor; try assumption. intros rq nn x E1 M. apply DOM. eapply K3; eassumption.
        -- apply Forall_forall. intros x Ix. apply work_none, not_traffic. now apply Q1.
        -- intros x Ix. specialize (Q1 x Ix). split; [intros Z|intros Z; exfalso]; apply Q1; rewrite Z; cbn; tauto.
        -- intros x kx. rewrite mget_mset. destruct (keq x (mDst m)) as [->|]; [intros [= <-]|intros Ex; right; exists kx; split; [assumption|now left]].
           destruct Q2 as [[_ Q2]|[[_ Q2]|(T & ba & z & bs & Q2 & Q3 & Q4 & Q5)]]; [now left|right; exists k; split; [assumption|now left]|].
           right. exists k. split; [assumption|]. right. exists z, bs. split; [assumption|].
           destruct (w_rel _ _ _ WK T ND) as (_ & _ & z' & bs' & F1 & F2 & F3 & F4). rewrite F1 in Q2. injection Q2 as <-. rewrite F3 in Q4. injection Q4 as <-.
           rewrite (assignment_round_trip S z' OK (proj1 (proj1 F2))) in Q3. injection Q3 as <-. now split.
  - destruct (is_loop e) eqn:EL; [|discriminate]. destruct (co_step _ _ _ _) as [[c' out]|] eqn:ES; [|discriminate]. injection E as <-.
    destruct e as [ty p src rn| |fakes ord| |ord rs]; try discriminate NE; try discriminate EL; try (destruct GU; fail).
    + exfalso. cbn [co_step] in ES. unfold begin_round in ES. rewrite ST in ES. discriminate ES.
    + cbn [co_step begin_vote] in ES. injection ES as <- <-.
      assert (VC : forall x, In x (to_clients (y_coord y) Net.VOTE []) -> mType x = Net.VOTE /\ mget (y_clients y) (mDst x) <> None).
      { intros x Ix. split; [now apply to_clients_type in Ix|]. unfold to_clients in Ix. apply in_map_iff in Ix. destruct Ix as ([q a] & <- & Iq). cbn [mDst snd].
        apply (mwf_In _ _ _ (b_wf _ _ _ _ _ B)) in Iq. destruct (b_reg _ _ _ _ _ B _ _ Iq) as (k & Ek & _). congruence. }
      apply (hon_inside y _ (to_clients (y_coord y) Net.VOTE [])); try assumption; cbn [y_coord y_clients y_msgs].
      * destruct H1. now constructor.
      * apply (grow_same y (Sys (clear_votes (y_coord y)) (y_servers y) (y_clients y) (y_msgs y ++ to_clients (y_coord y) Net.VOTE []) (y_log y)) SR eq_refl eq_refl).
      * tauto.
      * intros m Im. apply in_app_or in Im. tauto.
      * apply Forall_forall. intros x Ix. destruct (VC x Ix) as [T D]. apply work_none. intros [Z|[_ Z]]; [rewrite T in Z; cbn in Z; intuition discriminate|].
        apply D. rewrite Z. exact NC.
      * intros x Ix. destruct (VC x Ix) as [T D]. split; [rewrite T; discriminate|]. intros _. now right.
      * intros x k' Ek. right. exists k'. split; [assumption|now left].
  - destruct (mget (y_clients y) b) as [k|] eqn:Ek; [|discriminate]. destruct (cl_command S G k cmd) as [out|] eqn:EC; [|discriminate]. injection E as <-.
    destruct CD as (_ & (k2 & IT) & RI). assert (k2 = k) by (destruct IT; congruence). subst k2.
    assert (HK : held_ok (y_coord y) k).
    { destruct (cl_assigns k) as [|e l] eqn:EL; [intros x bs J; rewrite EL in J; destruct J|]. destruct (H7 b k Ek) as [[_ Z]|[Z|Z]]; [congruence|assumption| |].
      - now destruct O as (_ & N & _).
      - exfalso. destruct Z as (m & J & T & _). destruct O as (O1 & N & _). apply N. split; [assumption|]. eauto. }
    destruct (command_ok y V b k cmd out R O IT H1 HK RI EC) as [F1 F2].
    apply (hon_inside y _ out); try assumption; cbn [y_coord y_clients y_msgs]; [apply grow_refl|tauto| | |].
    + intros m Im. apply in_app_or in Im. tauto.
    + intros x Ix. destruct (F2 x Ix). split; [assumption|]. intros _. now left.
    + intros x k' Ek'. right. exists k'. split; [assumption|now left].
Qed.

(** Leaving a round, and the steps between rounds. *)
Lemma hon_out_step y V a y' : reach S H G y V -> hon y -> guard S y V a -> conduct S y a -> (~ open_round y \/ is_end a = true) ->
  sys_step S H G y a = Some y' -> hon y' /\ bare y'.
Proof.
  intros R HO GU CD OO E. pose proof (reach_inv S OK H G GOK y V R) as I. pose proof I as [B P]. pose proof HO as [H1 H2 H3 H4 H5 H6 H7 H8]. pose proof H1 as [K1 K2 K3].
  assert (NC : mget (y_clients y) (co_addr (y_coord y)) = None) by (eapply self_not_cl; exact B).
  assert (NTR : forall m, In m (y_msgs y) -> ~ traffic (y_coord y) m).
  { intros m Im T. destruct OO as [OO|OO]; [apply OO; now apply (H3 m)|].
    destruct a as [| | |[| | | |ord rs]|]; try discriminate OO. now apply (CD m). }
  assert (VOT : forall m, In m (y_msgs y) -> mType m <> VOTE_REPLY /\ (mType m = Net.VOTE -> mget (y_clients y) (mDst m) <> None)).
  { intros m Im. split; [now apply H6|]. intros T. destruct (H5 m Im T) as [D|D]; [|assumption]. exfalso. apply (NTR m Im). right. now split. }
  assert (HELD : is_end a = false -> forall b k, mget (y_clients y) b = Some k -> cl_assigns k <> [] -> ending y \/ sent_to (y_msgs y) Net.ROUND_END b).
  { intros NE b k Ek N. destruct OO as [OO|OO]; [|congruence]. destruct (H7 b k Ek N) as [[X _]|X]; [contradiction|assumption]. }
  assert (NB : is_end a = false -> forall b nb, mget (co_bridges (y_coord y)) b <> Some (nb, false)).
  { intros NE b nb M. destruct OO as [OO|OO]; [|congruence]. apply OO. eapply H2; exact M. }
  assert (EKEEP : forall c' sv cl ms lg, co_status c' = co_status (y_coord y) -> (forall m, In m (y_msgs y) -> mType m = Net.ROUND_END -> In m ms) ->
    forall b, ending y \/ sent_to (y_msgs y) Net.ROUND_END b -> ending (Sys c' sv cl ms lg) \/ sent_to ms Net.ROUND_END b).
  { intros c' sv cl ms lg E1 E2 b [(X1 & m & X2 & X3)|(m & X2 & X3 & X4)].
    - left. split; [cbn [y_coord]; congruence|]. exists m. split; [now apply E2|assumption].
    - right. exists m. auto. }
  destruct a as [b priv rk|b priv s|i cr sr chal|e|b cmd]; cbn [sys_step] in E.
  - destruct GU.
  - destruct (keq b _); [discriminate|]. destruct (mget (y_servers y) b); [discriminate|].
    destruct (mget (y_clients y) b) as [kb|] eqn:Eb; [discriminate|]. injection E as <-. set (k0 := init_client _ _ _ _ _) in *.
    assert (DOM : forall x, mget (y_clients y) x <> None -> mget (mset (y_clients y) b k0) x <> None).
    { intros x N. rewrite mget_mset. destruct (keq x b); [discriminate|assumption]. }
    apply hon_outside; cbn [y_coord y_clients y_msgs]; try assumption.
    + intros m Im. apply in_app_or in Im. destruct Im as [Im|[<-|[]]]; [now apply NTR|]. apply not_traffic. cbn. intuition discriminate.
    + intros rq nn x E1 M. apply DOM. eapply K3; eassumption.
    + now apply NB.
    + intros m Im. apply in_app_or in Im. destruct Im as [Im|[<-|[]]]; [|split; discriminate]. destruct (VOT m Im) as [X1 X2]. split; [assumption|]. intros T. now apply DOM, X2.
    + intros x kx. rewrite mget_mset. destruct (keq x b); [intros [= <-] N; now elim N|]. intros Ex N. apply EKEEP; [reflexivity| |now apply (HELD eq_refl x kx)].
      intros m Im _. apply in_or_app. now left.
  - destruct (nth_error (y_msgs y) i) as [m|] eqn:Em; [|discriminate]. cbn zeta in E.
    assert (Im : In m (y_msgs y)) by (eapply nth_error_In; exact Em).
    destruct (pick_split i _ m Em) as (l1 & l2 & EM & ER). rewrite ER in E.
    assert (OLD : forall x, In x (l1 ++ l2) -> In x (y_msgs y)) by (intros x J; rewrite EM; rewrite !in_app_iff in *; cbn [In]; tauto).
    assert (KEEP : forall out x, In x (y_msgs y) -> x <> m -> In x ((l1 ++ l2) ++ out)).
    { intros out x J N. rewrite EM in J. rewrite !in_app_iff in *. cbn [In] in J. destruct J as [J|[J|J]]; [auto|congruence|auto]. }
    specialize (HELD eq_refl). specialize (NB eq_refl). pose proof (NTR m Im) as NM.
    destruct (keq (mDst m) _) as [ED|ND].
    + destruct (co_handle _ _ _ _ _ _ _) as [[c' out]|] eqn:EH; [|discriminate]. injection E as <-.
      destruct (co_quiet _ m cr _ _ EH) as (X1 & X2 & X3 & X4 & X5).
      { cbn [In]. intros Z. apply NM. unfold traffic. cbn [In]. destruct Z as [<-|[<-|[<-|[Z|[]]]]]; auto 10. }
      pose proof (step_static S H G _ (EMsg (mType m) (mParams m) (mSrc m) cr) _ _ EH) as SS.
      assert (EA : co_addr c' = co_addr (y_coord y)) by (unfold co_addr; now rewrite SS).
      destruct (co_step_frame S G _ (EMsg (mType m) (mParams m) (mSrc m) cr) c' out EH) as [FR _]. cbn [writes_ev] in FR.
      apply hon_outside; cbn [y_coord y_clients y_msgs].
      * intros x Ix. apply in_app_or in Ix. destruct Ix as [Ix|Ix]; [|apply not_traffic; now apply X5].
        intros T. apply (NTR x (OLD x Ix)). unfold traffic in *. now rewrite EA in T.
      * unfold lens. rewrite X1. rewrite (co_servers_step S H G _ (EMsg (mType m) (mParams m) (mSrc m) cr) c' out EH); [exact K1|].
        intros ty p src rn [= <- _ _ _] T. pose proof (inv_types S H G y V I) as F. rewrite Forall_forall in F. specialize (F m Im). rewrite T in F. cbn in F. intuition discriminate.
      * unfold reqs_cl. now rewrite X3.
      * now rewrite X2.
      * intros x Ix. apply in_app_or in Ix. destruct Ix as [Ix|Ix]; [now apply VOT, OLD|]. specialize (X5 x Ix). split; intros Z; exfalso; apply X5; rewrite Z; cbn; tauto.
      * intros b k Ek N. destruct (Z.eq_dec (mType m) Net.ROUND_END) as [T|NT].
        -- destruct (HELD b k Ek N) as [EN|(m2 & Y1 & Y2 & Y3)].
           ++ right. destruct P as [T0 A|T0 j p keys vals GT HT A|T0 T1 K A|T0 j M1 p keys vals GT HT A].
              ** destruct EN as [EN _]. pose proof (p1_status _ _ _ _ _ _ _ A) as Z. rewrite EN in Z. discriminate.
              ** destruct EN as [EN _]. pose proof (p2_status _ _ _ _ _ _ _ _ _ _ _ _ _ _ A) as Z. rewrite EN in Z. discriminate.
              ** exfalso. pose proof (p3_msg _ _ _ _ _ _ _ _ _ A) as F. rewrite Forall_forall in F.
                 assert (IC : In m (core (y_msgs y))) by (apply core_in; split; [assumption|unfold inert; rewrite T; reflexivity]). destruct (F m IC); discriminate T.
              ** destruct (p4_cl _ _ _ _ _ _ _ _ _ _ _ _ _ _ _ A b k Ek) as [RG _].
                 rewrite T in EH. change (co_handle S G (y_coord y) Net.ROUND_END (mParams m) (mSrc m) cr) with (co_round_end S G (y_coord y) (mParams m) cr) in EH.
                 unfold co_round_end in EH. cbv zeta in EH. odestruct EH. injection EH as <- <-.
                 eexists. split; [apply in_or_app; right; unfold to_clients; apply in_map_iff; exists (cl_pub k, b); split; [reflexivity|now apply mget_In]|]. now split.
           ++ right. exists m2. split; [|now split]. apply KEEP; [assumption|]. intros ->. rewrite ED in Y3. subst b. congruence.
        -- destruct (co_status_step S H G _ _ _ _ _ _ _ EH NT) as [ST _].
           assert (EN2 : ending y \/ sent_to (y_msgs y) Net.ROUND_END b) by now apply (HELD b k).
           destruct EN2 as [(Z1 & m2 & Z2 & Z3)|(m2 & Y1 & Y2 & Y3)].
           ++ left. split; [cbn [y_coord]; destruct ST as [ST|[_ ST]]; congruence|]. exists m2. split; [|assumption]. apply KEEP; [assumption|]. intros ->. contradiction.
           ++ right. exists m2. split; [|now split]. apply KEEP; [assumption|]. intros ->. contradiction.
      * intros ST'. destruct (Z.eq_dec (mType m) Net.ROUND_END) as [T|NT].
        { exfalso. rewrite T in EH. change (co_handle S G (y_coord y) Net.ROUND_END (mParams m) (mSrc m) cr) with (co_round_end S G (y_coord y) (mParams m) cr) in EH.
          unfold co_round_end in EH. cbv zeta in EH. odestruct EH. injection EH as <- <-. discriminate ST'. }
        destruct (Z.eq_dec (mType m) ANNOUNCEMENT) as [T|NA].
        { rewrite T in EH. change (co_handle S G (y_coord y) ANNOUNCEMENT (mParams m) (mSrc m) cr) with (co_announcement S (y_coord y) (mParams m)) in EH.
          unfold co_announcement in EH. cbv zeta in EH. odestruct EH. injection EH as <- <-. intros nym N. now elim N. }
        destruct (co_status_step S H G _ _ _ _ _ _ _ EH NT) as [[ST|[T _]] _]; [|contradiction].
        assert (EK : co_ekeys c' = co_ekeys (y_coord y)).
        { apply (FR FEKeys). unfold writes. apply Z.eqb_neq in NA, NT. rewrite NA, NT.
          repeat match goal with |- context [if ?b then _ else _] => destruct b end; cbn; intuition discriminate. }
        intros nym N. rewrite EK. destruct X4 as [X4|X4]; rewrite X4 in N; [|now elim N]. apply H8; [congruence|assumption].
    + destruct (mget (y_servers y) (mDst m)) as [s|] eqn:Es.
      * destruct (sv_handle _ _ _ _ _ _ _ _) as [[s' out]|] eqn:EH; [|discriminate]. injection E as <-.
        assert (NS : mType m <> SIGN_ASSIGNMENTS) by (intros T; apply NM; left; rewrite T; cbn; tauto). pose proof (sv_quiet _ _ _ _ _ EH NS) as Q.
        apply hon_outside; cbn [y_coord y_clients y_msgs]; try assumption.
        -- intros x Ix. apply in_app_or in Ix. destruct Ix as [Ix|Ix]; [now apply NTR, OLD|apply not_traffic; now apply Q].
        -- intros x Ix. apply in_app_or in Ix. destruct Ix as [Ix|Ix]; [now apply VOT, OLD|]. specialize (Q x Ix). split; intros Z; exfalso; apply Q; rewrite Z; cbn; tauto.
        -- intros b k Ek N. destruct (HELD b k Ek N) as [EN|(m2 & Y1 & Y2 & Y3)].
           ++ left. pose proof EN as (Z1 & m2 & Z2 & Z3). split; [assumption|]. cbn [y_msgs]. destruct (Z.eq_dec (mType m) Net.ROUND_END) as [T|NT].
              ** rewrite T in EH. change (sv_handle S H G s Net.ROUND_END (mParams m) (mSrc m) sr) with (sv_round_end S H s (mParams m) sr) in EH. destruct (end_out _ _ _ _ _ _ _ EH) as (p' & ->).
                 eexists. split; [apply in_or_app; right; left; reflexivity|reflexivity].
              ** exists m2. split; [|assumption]. apply KEEP; [assumption|]. intros ->. contradiction.
           ++ right. exists m2. split; [|now split]. apply KEEP; [assumption|]. intros ->. subst b.
              destruct (b_cl _ _ _ _ _ B _ _ Ek) as (_ & _ & _ & _ & Z & _). congruence.
      * destruct (mget (y_clients y) (mDst m)) as [k|] eqn:Ek; [|discriminate].
        destruct (cl_handle _ _ _ _ _ _) as [[k' out]|] eqn:EH; [|discriminate]. injection E as <-. destruct (cl_quiet _ _ _ _ _ EH) as [Q1 Q2].
        assert (DOM : forall x, mget (y_clients y) x <> None -> mget (mset (y_clients y) (mDst m) k') x <> None).
        { intros x N. rewrite mget_mset. destruct (keq x (mDst m)); [discriminate|assumption]. }
        apply hon_outside; cbn [y_coord y_clients y_msgs]; try assumption.
        -- intros x Ix. apply in_app_or in Ix. destruct Ix as [Ix|Ix]; [now apply NTR, OLD|apply not_traffic; now apply Q1].
        -- intros rq nn x E1 M. apply DOM. eapply K3; eassumption.
        -- intros x Ix. apply in_app_or in Ix. destruct Ix as [Ix|Ix]; [|specialize (Q1 x Ix); split; intros Z; exfalso; apply Q1; rewrite Z; cbn; tauto].
           destruct (VOT x (OLD x Ix)) as [Z1 Z2]. split; [assumption|]. intros T. now apply DOM, Z2.
        -- intros b kb Eb N.
           assert (AS : exists k0, mget (y_clients y) b = Some k0 /\ cl_assigns k0 <> [] /\ (b = mDst m -> mType m <> Net.ROUND_END)).
           { rewrite mget_mset in Eb. destruct (keq b (mDst m)) as [->|]; [|exists kb; auto]. injection Eb as <-. exists k. split; [assumption|].
             destruct Q2 as [[_ Q2]|[[Q0 Q2]|(T & _)]]; [congruence|split; [congruence|auto]|]. exfalso. apply NM. left. rewrite T. cbn. tauto. }
           destruct AS as (k0 & Ek0 & N0 & NR). destruct (HELD b k0 Ek0 N0) as [EN|(m2 & Y1 & Y2 & Y3)].
           ++ left. pose proof EN as (Z1 & m2 & Z2 & Z3). split; [assumption|]. exists m2. split; [|assumption]. cbn [y_msgs]. apply KEEP; [assumption|]. intros ->.
              destruct (round_end_to S G y V m I EN Im Z3) as [Z|Z]; [contradiction|congruence].
           ++ right. exists m2. split; [|now split]. apply KEEP; [assumption|]. intros ->. now apply NR.
  - destruct (is_loop e) eqn:EL; [|discriminate]. destruct (co_step _ _ _ _) as [[c' out]|] eqn:ES; [|discriminate]. pose proof E as E0. injection E as <-.
    destruct (co_step_frame S G _ _ _ _ ES) as [FR EM].
    pose proof (step_static S H G _ _ _ _ ES) as SS. assert (EA : co_addr c' = co_addr (y_coord y)) by (unfold co_addr; now rewrite SS).
    assert (OLDT : forall x, In x (y_msgs y) -> ~ traffic c' x) by (intros x Ix T; apply (NTR x Ix); unfold traffic in *; now rewrite EA in T).
    assert (E1 : sys_step S H G y (ALoop e) = Some (Sys c' (y_servers y) (y_clients y) (y_msgs y ++ out) (y_log y))) by (cbn [sys_step]; rewrite EL, ES; reflexivity).
    destruct e as [ty p src rn| |fakes ord| |ord rs]; try discriminate EL; try (destruct GU; fail); cbn [emits_ev writes_ev] in *.
    + destruct (due_begin S H G y V fakes ord _ I GU E1) as (_ & _ & _ & ST & _). cbn [y_coord] in ST.
      assert (NOH : forall b k, mget (y_clients y) b = Some k -> cl_assigns k = []).
      { intros b k Ek. destruct (cl_assigns k) as [|q l] eqn:EQ; [reflexivity|]. exfalso. destruct GU as (SE & _).
        destruct (HELD eq_refl b k Ek) as [(_ & m & Z1 & Z2)|(m & Z1 & Z2 & _)]; [congruence| |];
          (assert (X : In m (core (y_msgs y))) by (apply core_in; split; [assumption|unfold inert; rewrite Z2; reflexivity])); unfold settled in SE; rewrite SE in X; destruct X. }
      apply hon_outside; cbn [y_coord y_clients y_msgs].
      * intros x Ix. apply in_app_or in Ix. destruct Ix as [Ix|Ix]; [now apply OLDT|]. apply not_traffic. destruct (EM x Ix) as [<-|[]]. cbn. intuition discriminate.
      * unfold lens. rewrite (co_servers_step S H G _ _ c' out ES) by discriminate. assert (F1 : co_asigs c' = co_asigs (y_coord y)) by (apply (FR FASigs); cbn; intuition discriminate). rewrite F1. clear F1. exact K1.
      * intros rq nn x E2 M. exfalso. cbn [co_step] in ES. unfold begin_round, announce in ES. destruct (negb _); [discriminate|].
        destruct (first_server _); [|injection ES as <- <-]; [cbv zeta in ES; odestruct ES; injection ES as <- <-|]; cbn in E2; injection E2 as <-; discriminate M.
      * assert (F1 : co_bridges c' = co_bridges (y_coord y)) by (apply (FR FBridges); cbn; intuition discriminate). rewrite F1. clear F1. now apply NB.
      * intros x Ix. apply in_app_or in Ix. destruct Ix as [Ix|Ix]; [now apply VOT|]. destruct (EM x Ix) as [<-|[]]. split; discriminate.
      * intros b k Ek N. elim N. now apply (NOH b).
      * rewrite ST. discriminate.
    + cbn [co_step begin_vote] in ES. injection ES as <- <-.
      assert (VC : forall x, In x (to_clients (y_coord y) Net.VOTE []) -> mType x = Net.VOTE /\ mget (y_clients y) (mDst x) <> None).
      { intros x Ix. split; [now apply to_clients_type in Ix|]. unfold to_clients in Ix. apply in_map_iff in Ix. destruct Ix as ([q a] & <- & Iq). cbn [mDst snd].
        apply (mwf_In _ _ _ (b_wf _ _ _ _ _ B)) in Iq. destruct (b_reg _ _ _ _ _ B _ _ Iq) as (k & Ek & _). congruence. }
      apply hon_outside; cbn [y_coord y_clients y_msgs]; try assumption.
      * intros x Ix. apply in_app_or in Ix. destruct Ix as [Ix|Ix]; [now apply NTR|]. destruct (VC x Ix) as [T D]. intros [Z|[_ Z]]; [rewrite T in Z; cbn in Z; intuition discriminate|].
        apply D. rewrite Z. exact NC.
      * now apply NB.
      * intros x Ix. apply in_app_or in Ix. destruct Ix as [Ix|Ix]; [now apply VOT|]. destruct (VC x Ix) as [T D]. split; [rewrite T; discriminate|auto].
      * intros b k Ek N. apply EKEEP; [reflexivity| |now apply (HELD eq_refl b k)]. intros m Im _. apply in_or_app. now left.
    + destruct (due_end S H G y V ord rs _ I GU E1) as (_ & _ & _ & EN).
      apply hon_outside; cbn [y_coord y_clients y_msgs].
      * intros x Ix. apply in_app_or in Ix. destruct Ix as [Ix|Ix]; [now apply OLDT|]. apply not_traffic. destruct (EM x Ix) as [<-|[<-|[]]]; cbn; intuition discriminate.
      * unfold lens. rewrite (co_servers_step S H G _ _ c' out ES) by discriminate. assert (F1 : co_asigs c' = co_asigs (y_coord y)) by (apply (FR FASigs); cbn; intuition discriminate). rewrite F1. clear F1. exact K1.
      * unfold reqs_cl. assert (F1 : co_reqs c' = co_reqs (y_coord y)) by (apply (FR FReqs); cbn; intuition discriminate). rewrite F1. clear F1. exact K3.
      * intros b nb M. cbn [co_step] in ES. unfold round_end in ES. destruct (last_server (y_coord y)) as [la|] eqn:ELA.
        -- cbv zeta in ES. odestruct ES. injection ES as <- <-. discriminate M.
        -- destruct EN as [EN _]. cbn [y_coord] in EN. injection ES as <- <-. discriminate EN.
      * intros x Ix. apply in_app_or in Ix. destruct Ix as [Ix|Ix]; [now apply VOT|]. destruct (EM x Ix) as [<-|[<-|[]]]; split; discriminate.
      * intros b k Ek N. now left.
      * intros _. exact (votes_end S H G y V ord rs _ I (H8 (proj1 GU)) E1).
  - exfalso. destruct CD as (O & _). destruct OO as [OO|OO]; [contradiction|discriminate].
Qed.

Lemma hon_step y V a y' : reach S H G y V -> fo_nonneg (co_fb (y_coord y)) -> hon y -> guard S y V a -> conduct S y a ->
  sys_step S H G y a = Some y' -> hon y'.
Proof.
  intros R NN HO GU CD E. destruct (is_end a) eqn:EE; [apply (proj1 (hon_out_step y V a y' R HO GU CD (or_intror EE) E))|].
  destruct (open_dec y) as [O|O]; [apply (hon_in_step y V a y'); auto|apply (proj1 (hon_out_step y V a y' R HO GU CD (or_introl O) E))].
Qed.

(** ** Orderly sessions *)
Lemma orderly_hon y V : orderly S H G y V -> fo_nonneg (co_fb (y_coord y)) -> hon y.
Proof.
  induction 1 as [self a fb trap gammas l y1 y2 F E M NE E2|y V a y' OR IH GU CD E]; intros NN.
  - assert (FC : Forall is_conf l) by (eapply Forall_impl; [|exact F]; intros [] X; try exact I; destruct X).
    destruct (start_zinv S OK H G _ _ _ _ _ _ _ FC E) as [X1 X2 X3 X4 X5]. cbn [sys_step is_loop co_step co_configure] in E2. injection E2 as <-.
    apply hon_outside; cbn [y_coord y_clients y_msgs]; rewrite ?M; cbn [app].
    + intros m Im. apply to_servers_type in Im. apply not_traffic. rewrite Im. cbn. intuition discriminate.
    + intros b ss n Z. change (co_asigs (set_status ?c ?v)) with (co_asigs c) in Z. rewrite X1 in Z. discriminate.
    + intros rq nym b Z. change (co_reqs (set_status ?c ?v)) with (co_reqs c) in Z. rewrite X3 in Z. discriminate.
    + intros b nb Z. change (co_bridges (set_status ?c ?v)) with (co_bridges c) in Z. rewrite X2 in Z. discriminate.
    + intros m Im. apply to_servers_type in Im. rewrite Im. split; discriminate.
    + intros b k Ek. rewrite X4 in Ek. discriminate.
    + discriminate.
  - assert (NN' : fo_nonneg (co_fb (y_coord y))) by (unfold co_fb in *; now rewrite <- (sys_static S H G _ _ _ E)).
    exact (hon_step y V a y' (orderly_reach S H G y V OR) NN' (IH NN') GU CD E).
Qed.

Lemma orderly_enrol y V : orderly S H G y V -> fo_nonneg (co_fb (y_coord y)) -> enrol G (co_static (y_coord y)) y.
Proof.
  induction 1 as [self a fb trap gammas l y1 y2 F E M NE E2|y V a y' OR IH GU CD E]; intros NN.
  - cbn [sys_step is_loop co_step co_configure] in E2. injection E2 as <-. cbn [y_coord].
    set (c := y_coord y1) in *. assert (PL : Forall (fun m => ~ In (mType m) enrol_types) (to_servers c BCAST_PEDERSEN_H [("h"%str, VBytes (enc_point S (pb_HT (co_pb c))))])).
    { apply Forall_forall. intros m Im. apply to_servers_type in Im. rewrite Im. cbn. intuition discriminate. }
    constructor; cbn [y_msgs y_clients]; rewrite M; cbn [app]; [rewrite owners_none by exact PL; constructor|now apply enr_all_none].
  - pose proof (sys_static S H G _ _ _ E) as SS. rewrite SS. assert (NN' : fo_nonneg (co_fb (y_coord y))) by (unfold co_fb in *; now rewrite <- SS).
    pose proof (orderly_reach S H G y V OR) as R.
    exact (enrol_step S OK H G GOK (co_static (y_coord y)) y V a y' (reach_inv S OK H G GOK y V R) (reach_ses S OK H G GOK y V R NN') eq_refl (IH NN') GU (conduct_chal S y a CD) E).
Qed.

Lemma reach_hpub y V : reach S H G y V ->
  cs_hpub (co_static (y_coord y)) = snd (gn_generate_all (cs_fb (co_static (y_coord y))) (cs_hsec (co_static (y_coord y)))).
Proof.
  intros R. destruct (reach_run S H G y V R) as (self & a0 & fb & trap & gammas & t & RR).
  enough (X : forall c t c', run S G c t c' -> co_static c' = co_static c).
  { rewrite (X _ _ _ RR). reflexivity. }
  clear - H. intros c t c' RR. induction RR as [|t c1 e c2 out R0 IH ES]; [reflexivity|]. rewrite <- IH. exact (step_static S H G _ _ _ _ ES).
Qed.

(** ** Nobody stops *)
Lemma traffic_live y V i m cr sr chal : reach S H G y V -> fo_nonneg (co_fb (y_coord y)) -> hon y -> nth_error (y_msgs y) i = Some m ->
  In (mType m) [POST_BRIDGE; REQUEST_BRIDGES; SIGN_ASSIGNMENTS; GOT_SIGNS; Net.VOTE] -> sys_step S H G y (ADeliver i cr sr chal) <> None.
Proof.
  intros R NN [H1 H2 H3 H4 H5 H6 H7 H8] Em IT. assert (Im : In m (y_msgs y)) by (eapply nth_error_In; exact Em).
  pose proof (reach_inv S OK H G GOK y V R) as I. pose proof I as [B P]. pose proof (self_not_cl _ _ _ _ _ B) as NC.
  rewrite Forall_forall in H4. pose proof (H4 m Im) as WK.
  assert (CO : mDst m = co_addr (y_coord y) -> (exists c' out, co_handle S G (y_coord y) (mType m) (mParams m) (mSrc m) cr = Some (c', out)) -> sys_step S H G y (ADeliver i cr sr chal) <> None).
  { intros ED (c' & out & EH). cbn [sys_step]. rewrite Em. cbv zeta. destruct (keq (mDst m) _); [|contradiction]. rewrite EH. discriminate. }
  assert (CL : mget (y_clients y) (mDst m) <> None -> (forall k, cl_handle S G k (mType m) (mParams m) chal <> None) -> sys_step S H G y (ADeliver i cr sr chal) <> None).
  { intros NK HK. destruct (mget (y_clients y) (mDst m)) as [k|] eqn:Ek; [|contradiction]. destruct (b_cl _ _ _ _ _ B _ _ Ek) as (_ & _ & _ & NA & NS & _).
    cbn [sys_step]. rewrite Em. cbv zeta. destruct (keq (mDst m) _); [contradiction|]. rewrite NS, Ek. specialize (HK k). destruct (cl_handle _ _ _ _ _ _) as [[? ?]|]; [discriminate|contradiction]. }
  cbn [In] in IT. destruct IT as [T|[T|[T|[T|[T|[]]]]]]; symmetry in T.
  - apply CO; [now apply (w_post _ _ _ WK T)|]. destruct (post_ok _ _ m cr H1 WK T) as (c' & E & _). eauto.
  - apply CO; [now apply (w_req _ _ _ WK T)|].
    assert (O : open_round y) by (apply (H3 m Im); left; rewrite T; cbn; tauto).
    destruct (reach_run S H G y V R) as (self & a0 & fb & trap & gammas & t & RR).
    pose proof (run_reqs S H G self a0 fb trap gammas t _ RR (open_first S OK H G GOK y V R O)) as RQ.
    destruct (request_ok _ _ m cr H1 RQ WK T) as (c' & out & E & _). eauto.
  - assert (O : open_round y) by (apply (H3 m Im); left; rewrite T; cbn; tauto).
    destruct (w_sign _ _ _ WK T) as (IS & _). apply (b_srv _ _ _ _ _ B) in IS. destruct (mget (y_servers y) (mDst m)) as [s|] eqn:Es; [|contradiction].
    destruct O as (O1 & O2 & O3). destruct (C44_agreement S OK H G GOK y V R O1 O2 O3) as [AG _]. destruct (AG _ _ Es) as (_ & A2 & A3 & _).
    destruct (e_sv _ _ _ (reach_ses S OK H G GOK y V R NN) _ _ Es) as [A4 _].
    destruct (sign_ok _ _ s m sr WK T A2 A3 A4) as (s2 & out2 & X1 & _).
    cbn [sys_step]. rewrite Em. cbv zeta. destruct (keq (mDst m) _) as [D|_]; [exfalso; rewrite D in Es; pose proof (b_self _ _ _ _ _ B); congruence|]. rewrite Es, X1. discriminate.
  - destruct (keq (mDst m) (co_addr (y_coord y))) as [D|D].
    + apply CO; [assumption|]. destruct (got_ok _ _ m cr H1 NC WK T D) as (c' & out & E & _). eauto.
    + apply CL; [now apply (w_rel _ _ _ WK T D)|]. intros k. now apply (rel_ok_live _ _ k m chal WK T D).
  - destruct (H5 m Im T) as [D|D].
    + apply CO; [assumption|]. destruct (vote_ok _ _ m cr H1 WK T D) as (c' & E & _). eauto.
    + apply CL; [assumption|]. intros k. rewrite T. discriminate.
Qed.

Lemma orderly_live y V i m cr sr chal : orderly S H G y V -> trap_right (co_static (y_coord y)) -> nth_error (y_msgs y) i = Some m ->
  guard S y V (ADeliver i cr sr chal) -> draws_ok S H y m sr -> sys_step S H G y (ADeliver i cr sr chal) <> None.
Proof.
  intros OR TR Em GU DR. pose proof (orderly_reach S H G y V OR) as R. assert (NN : fo_nonneg (co_fb (y_coord y))) by apply TR.
  pose proof (orderly_hon y V OR NN) as HO. assert (Im : In m (y_msgs y)) by (eapply nth_error_In; exact Em).
  pose proof (reach_inv S OK H G GOK y V R) as I. destruct (inert m) eqn:IM.
  - apply inert_in in IM. cbn [In inert_types] in IM.
    assert (A : In (mType m) honesty_types \/ In (mType m) [POST_BRIDGE; REQUEST_BRIDGES; SIGN_ASSIGNMENTS; GOT_SIGNS; Net.VOTE] \/ mType m = VOTE_REPLY) by (cbn [In honesty_types]; intuition congruence).
    destruct A as [A|[A|A]].
    + exact (enrol_live S OK H G GOK (co_static (y_coord y)) y V i m cr sr chal I (reach_ses S OK H G GOK y V R NN) eq_refl (orderly_enrol y V OR NN) TR (reach_hpub y V R) Em A).
    + exact (traffic_live y V i m cr sr chal R NN HO Em A).
    + elim (h_reply y HO m Im A).
  - apply (core_live S OK H G GOK y V i m cr sr chal R Em IM GU DR). intros T D. apply (h_diffs y HO).
    (* a round end at the coordinator: the round is not over *)
    destruct I as [B P]. assert (IC : In m (core (y_msgs y))) by (now apply core_in). pose proof (self_not_cl _ _ _ _ _ B) as NC.
    destruct P as [T0 A|T0 j p keys vals GT HT A|T0 T1 K A|T0 n M1 p keys vals GT HT A]; try apply A.
    + exfalso. pose proof (p1_msg _ _ _ _ _ _ _ A) as F. rewrite Forall_forall in F.
      destruct (F m IC) as [[_ X]|[[_ X]|[_ X]]]; rewrite D in X; [|congruence|congruence]. apply (in_chain _ _ _ _ _ _ B) in X. destruct X. congruence.
    + exfalso. destruct (p2_M _ _ _ _ _ _ _ _ _ _ _ _ _ _ A) as [src X]. rewrite X in IC. destruct IC as [<-|[]]. discriminate T.
Qed.
End Conduct.
