(** C96: a message that was recorded on the network does nothing when it is sent again.
    Refuted within a round; in another round it holds up to a coincidence of the challenge
    hash, which is stated exactly. *)
From Coq Require Import ZArith Znumtheory Lia List Bool Permutation.
From Coq Require Import Strings.Byte.
From Coq Require String.
From Verif Require Import ZMod Bytes Suite Spec Pedersen ElGamal FujiOkam Equality Codec Maps Net Bridge Client
  Perm SimpleShuffle PairShuffle Server Coordinator History
  Prop_Pedersen Prop_ElGamal Prop_FujiOkam Prop_Shuffle Prop_Codec Prop_Bridge Prop_Assign Prop_Coord.
Import ListNotations.
Import String.StringSyntax.
Open Scope Z_scope.
Delimit Scope string_scope with str.

(** ** Specification *)
(** The three messages a client sends in a round. *)
Definition client_message (ty : Z) : Prop := In ty [POST_BRIDGE; REQUEST_BRIDGES; Net.VOTE].
(** What can happen while a round is under way: every message but the ones by which the
    servers join, announce or end a round, and the start of the voting phase. *)
Definition within_round (e : event) : Prop :=
  match e with
  | EMsg ty _ _ _ => ~ In ty [SERVER_REGISTER; UPDATE_PEDERSEN_H; Net.ROUND_END; ANNOUNCEMENT]
  | EVotePhase => True
  | _ => False
  end.
(** The property: a client message that the coordinator has handled leaves the coordinator
    as it is when it arrives again, from wherever. *)
Definition works_once (S : suite) (G : gob) : Prop :=
  forall self a0 fb trap gammas t c, run S G (init_coord S self a0 fb trap gammas) t c ->
  forall st ty p src rn src' rn' c' out, client_message ty -> In st t -> stEvent st = EMsg ty p src rn ->
  co_handle S G c ty p src' rn' = Some (c', out) -> c' = c /\ out = [].
(** What a poster relies on: a bridge for which there is only one post message, however
    often it is sent, is given out once. *)
Definition one_post_one_recipient (S : suite) (G : gob) : Prop :=
  forall self a0 fb trap gammas t c, run S G (init_coord S self a0 fb trap gammas) t c ->
  forall a p0, (forall st p src rn, In st t -> stEvent st = EMsg POST_BRIDGE p src rn -> get_str p "bridge_addr"%str = Some a -> p = p0) ->
  (times_assigned S G t a <= 1)%nat.
(** The key points of the signature check: with the response [r] and the challenge [ch],
    under the generator [g]. *)
Definition key_point (S : suite) (g nym ch r : Z) : Z := (g ^ r * nym ^ ch) mod sP S.

Section Replay.
Context (S : suite) (OK : suite_ok S) (G : gob).

(** ** Within the round *)
Definition same_round (c c2 : coord) : Prop :=
  co_G c2 = co_G c /\ co_keys c2 = co_keys c /\ co_servers c2 = co_servers c /\ co_pub c2 = co_pub c /\
  co_pb c2 = co_pb c /\ co_fb c2 = co_fb c /\ co_ecomms c2 = co_ecomms c.
Lemma within_same c e c' out : within_round e -> co_step S G c e = Some (c', out) -> same_round c c'.
Proof.
  intros W E. destruct (co_step_frame S G c e c' out E) as [F _].
  assert (X : forall f, In f [FStatic; FG; FKeys; FServers; FPB; FEComms] -> agree f c c').
  { intros f I. apply F. destruct e as [ty p src rn| |fakes ord| |ord rs]; cbn [within_round writes_ev] in *; try contradiction.
    - cbn [In] in W, I. unfold writes. intros J.
      destruct (Z.eqb_spec ty SERVER_REGISTER); [exfalso; apply W; subst ty; tauto|]. destruct (Z.eqb_spec ty UPDATE_PEDERSEN_H); [exfalso; apply W; subst ty; tauto|].
      destruct (Z.eqb_spec ty Net.ROUND_END); [exfalso; apply W; subst ty; tauto|]. destruct (Z.eqb_spec ty ANNOUNCEMENT); [exfalso; apply W; subst ty; tauto|].
      repeat match type of J with context [ty =? ?x] => destruct (ty =? x) end; cbn in J; intuition (subst; discriminate).
    - intros J. cbn in J; cbn in I; intuition (subst; discriminate). }
  pose proof (X FStatic ltac:(cbn; tauto)) as X0. pose proof (X FG ltac:(cbn; tauto)) as X1. pose proof (X FKeys ltac:(cbn; tauto)) as X2.
  pose proof (X FServers ltac:(cbn; tauto)) as X3. pose proof (X FPB ltac:(cbn; tauto)) as X4. pose proof (X FEComms ltac:(cbn; tauto)) as X5.
  cbn [agree] in *. unfold same_round, co_pub, co_fb. rewrite X0. auto 10.
Qed.
Lemma same_round_refl c : same_round c c. Proof. repeat split. Qed.
Lemma same_round_trans a b c : same_round a b -> same_round b c -> same_round a c.
Proof. unfold same_round. intuition congruence. Qed.
Lemma run_same c t c2 : run S G c t c2 -> (forall st, In st t -> within_round (stEvent st)) -> same_round c c2.
Proof.
  induction 1 as [|t c1 e c2 out R IH E]; intros W; [apply same_round_refl|].
  eapply same_round_trans; [apply IH; intros st I; apply W, in_app_iff; now left|].
  eapply within_same; [|exact E]. apply (W (Step c1 e c2 out)). apply in_app_iff. right. now left.
Qed.

(** Until the round ends a recorded message stays valid. *)
Theorem C96_stays_valid : forall c t c2, run S G c t c2 -> (forall st, In st t -> within_round (stEvent st)) ->
  (forall p a nym, post_valid S c p a nym <-> post_valid S c2 p a nym) /\
  (forall p target f, vote_valid S G c p target f <-> vote_valid S G c2 p target f) /\
  (forall p ind nym, request_valid S G c p ind nym <-> request_valid S G c2 p ind nym).
Proof.
  intros c t c2 R W. destruct (run_same c t c2 R W) as (E1 & E2 & E3 & E4 & E5 & E6 & E7).
  unfold post_valid, vote_valid, request_valid. rewrite E1, E2, E3, E4, E5, E6, E7. tauto.
Qed.

(** A post that is sent again puts the bridge on offer again, whether or not it has been
    given out since. *)
Theorem C96_post_again : forall c t c2 p a nym src rn, run S G c t c2 -> (forall st, In st t -> within_round (stEvent st)) ->
  post_valid S c p a nym ->
  exists c3, co_handle S G c2 POST_BRIDGE p src rn = Some (c3, []) /\ mget (co_bridges c3) a = Some (Some nym, false).
Proof.
  intros c t c2 p a nym src rn R W V. apply (proj1 (C96_stays_valid c t c2 R W)) in V.
  destruct (C52_valid_post_recorded S G OK c2 p src rn a nym V) as (c3 & E & M & _). eauto.
Qed.

(** A vote that is sent [n] times counts [n] times. *)
Theorem C96_vote_again : forall n c p target f src rn, vote_valid S G c p target f ->
  exists t c2, exec S G c (repeat (EMsg Net.VOTE p src rn) n) = Some (t, c2) /\
    int64 (rep_diff c2 target) = int64 (rep_diff c target + Z.of_nat n * f) /\
    forall k, k <> target -> rep_diff c2 k = rep_diff c k.
Proof.
  induction n as [|n IH]; intros c p target f src rn V.
  - exists [], c. split; [reflexivity|]. split; [f_equal; lia|auto].
  - cbn [repeat exec co_step]. pose proof (co_vote_accept S OK G c p target f V) as EV.
    change (co_handle S G c Net.VOTE p src rn) with (co_vote S G c p). rewrite EV.
    match type of EV with _ = Some (?x, _) => set (c1 := x) in * end.
    assert (V1 : vote_valid S G c1 p target f) by exact V.
    destruct (IH c1 p target f src rn V1) as (t & c2 & E & D & K). rewrite E. do 2 eexists. split; [reflexivity|].
    assert (D1 : rep_diff c1 target = int64 (rep_diff c target + f)).
    { unfold rep_diff at 1. cbn [c1 co_diffs set_diffs]. now rewrite mget_mset_eq. }
    split.
    + rewrite D, D1, int64_add_l. f_equal. lia.
    + intros k N. rewrite K by assumption. unfold rep_diff. cbn [c1 co_diffs set_diffs]. now rewrite mget_mset_ne by congruence.
Qed.

(** ** In another round *)
(** A signature made for the generator [g1] verifies under [g2] exactly if the challenge
    hash, keyed with another point unless the response is 0, gives the same challenge. *)
Lemma verify_other g1 g2 nym m sig : prime (sQ S) -> member (sP S) (sQ S) g1 -> member (sP S) (sQ S) g2 -> member (sP S) (sQ S) nym ->
  g1 <> g2 -> eg_verify S m nym sig (Some g1) = true ->
  exists ch r, serialises S sig ch r /\
    (eg_verify S m nym sig (Some g2) = true <->
     sPick S (enc_point S (key_point S g2 nym ch r)) m = sPick S (enc_point S (key_point S g1 nym ch r)) m) /\
    (r <> 0 -> key_point S g2 nym ch r <> key_point S g1 nym ch r).
Proof.
  intros PQ H1 H2 Hn N V. apply (C19_verify_exact S OK) in V. destruct V as (ch & r & Se & E). exists ch, r. split; [exact Se|]. split.
  - rewrite (C19_verify_exact S OK). unfold key_point. rewrite E. split.
    + intros (ch' & r' & Se' & E'). apply eg_read_iff in Se, Se'. rewrite Se in Se'. injection Se' as -> ->. exact E'.
    + intros E'. exists ch, r. auto.
  - intros Nr X. apply N. pose proof (sP_gt1 S OK) as HP.
    destruct Se as (bc & br & tl & _ & _ & _ & Ec & Er & Hc & Hr). pose proof (be_to_z_range bc). pose proof (be_to_z_range br).
    apply member_in_group in H1, H2, Hn.
    apply (pt_mul_inj S OK g1 g2 r H1 H2).
    + apply rel_prime_sym, prime_rel_prime; [assumption|]. intros D. apply Z.divide_pos_le in D; lia.
    + unfold key_point in X. unfold pt_mul.
      assert (Y : mulm (sP S) (zexp (sP S) nym ch) (zexp (sP S) g2 r) = mulm (sP S) (zexp (sP S) nym ch) (zexp (sP S) g1 r)).
      { unfold mulm. rewrite !zexp_pos by lia. rewrite <- !Z.mul_mod by lia. rewrite !(Z.mul_comm (nym ^ ch)). exact X. }
      apply mulm_cancel_l in Y; [|lia|].
      * rewrite !Z.mod_small in Y by (apply zexp_range; lia). now symmetry.
      * apply in_group_unit; [assumption|]. change (in_group S (pt_mul S nym ch)). unfold pt_mul. in_grp.
Qed.

(** For posts, between two states with different generators: when a recorded post counts. *)
Theorem C96_post_in_other_round : forall c1 c2 g1 g2 p a nym, prime (sQ S) ->
  co_G c1 = Some g1 -> co_G c2 = Some g2 -> member (sP S) (sQ S) g1 -> member (sP S) (sQ S) g2 -> g1 <> g2 ->
  post_valid S c1 p a nym ->
  exists m sig ch r, msg_post p = Some m /\ get_bytes p "signature"%str = Some sig /\ serialises S sig ch r /\
    (post_valid S c2 p a nym <->
     sPick S (enc_point S (key_point S g2 nym ch r)) m = sPick S (enc_point S (key_point S g1 nym ch r)) m) /\
    (r <> 0 -> key_point S g2 nym ch r <> key_point S g1 nym ch r).
Proof.
  intros c1 c2 g1 g2 p a nym PQ E1 E2 H1 H2 N (HN & Ea & sig & bn & Es & Eb & EV). rewrite E1 in EV.
  assert (Hn : member (sP S) (sQ S) nym) by (destruct HN as (b & _ & H & _); exact H).
  destruct (verify_other g1 g2 nym (a ++ bn) sig PQ H1 H2 Hn N EV) as (ch & r & Se & I & D).
  exists (a ++ bn), sig, ch, r. split; [now apply msg_post_eq|]. split; [exact Es|]. split; [exact Se|]. split; [|exact D].
  rewrite <- I. unfold post_valid. rewrite E2. split.
  - intros (_ & _ & sig' & bn' & Es' & Eb' & EV'). congruence.
  - intros EV'. split; [exact HN|]. split; [exact Ea|]. exists sig, bn. auto.
Qed.

(** The same for votes and requests, as a necessary condition: they are also checked
    against the table of the round. *)
Theorem C96_vote_in_other_round : forall c1 c2 g1 g2 p t1 f1 t2 f2, prime (sQ S) ->
  co_G c1 = Some g1 -> co_G c2 = Some g2 -> member (sP S) (sQ S) g1 -> member (sP S) (sQ S) g2 -> g1 <> g2 ->
  vote_valid S G c1 p t1 f1 -> vote_valid S G c2 p t2 f2 ->
  exists nym m sig ch r, names_nym S p nym /\ In nym (co_keys c1) /\ In nym (co_keys c2) /\
    msg_vote p = Some m /\ get_bytes p "signature"%str = Some sig /\ serialises S sig ch r /\
    sPick S (enc_point S (key_point S g2 nym ch r)) m = sPick S (enc_point S (key_point S g1 nym ch r)) m /\
    (r <> 0 -> key_point S g2 nym ch r <> key_point S g1 nym ch r).
Proof.
  intros c1 c2 g1 g2 p t1 f1 t2 f2 PQ E1 E2 H1 H2 N (nym & m & sig & _ & _ & _ & _ & HN & I1 & Es & Em & EV & _)
    (nym' & m' & sig' & _ & _ & _ & _ & HN' & I2 & Es' & Em' & EV' & _).
  rewrite (names_nym_fun _ _ _ _ HN' HN) in *. rewrite E1 in EV. rewrite E2 in EV'.
  assert (m' = m) by congruence. assert (sig' = sig) by congruence. subst m' sig'.
  assert (Hn : member (sP S) (sQ S) nym) by (destruct HN as (b & _ & H & _); exact H).
  destruct (verify_other g1 g2 nym m sig PQ H1 H2 Hn N EV) as (ch & r & Se & I & D).
  exists nym, m, sig, ch, r. repeat (split; [assumption|]). split; [now apply I|exact D].
Qed.
Theorem C96_request_in_other_round : forall c1 c2 g1 g2 p i1 nym i2 nym2, prime (sQ S) ->
  co_G c1 = Some g1 -> co_G c2 = Some g2 -> member (sP S) (sQ S) g1 -> member (sP S) (sQ S) g2 -> g1 <> g2 ->
  request_valid S G c1 p i1 nym -> request_valid S G c2 p i2 nym2 ->
  nym2 = nym /\ exists m sig ch r, msg_request p = Some m /\ get_bytes p "signature"%str = Some sig /\ serialises S sig ch r /\
    sPick S (enc_point S (key_point S g2 nym ch r)) m = sPick S (enc_point S (key_point S g1 nym ch r)) m /\
    (r <> 0 -> key_point S g2 nym ch r <> key_point S g1 nym ch r).
Proof.
  intros c1 c2 g1 g2 p i1 nym i2 nym2 PQ E1 E2 H1 H2 N (bn & sig & m & _ & Eb & Es & Hn & En & Em & EV & _)
    (bn' & sig' & m' & _ & Eb' & Es' & _ & En' & Em' & EV' & _).
  assert (X : nym2 = nym) by congruence. rewrite X in EV'. clear En'. split; [exact X|].
  assert (m' = m) by congruence. assert (sig' = sig) by congruence. subst m' sig'. rewrite E1 in EV. rewrite E2 in EV'.
  destruct (verify_other g1 g2 nym m sig PQ H1 H2 Hn N EV) as (ch & r & Se & I & D).
  exists m, sig, ch, r. repeat (split; [assumption|]). split; [now apply I|exact D].
Qed.
End Replay.

(** ** Refutations *)
(** The client posts b1 and b2, somebody is given b1; the post of b1 is sent again and the
    next request is given b1 too. *)
Definition toy_replay : list event := toy_setup ++ [toy_request; nth 5 toy_setup EConfigure; toy_request].
Definition only_post (p0 : params) (a : bytes) (st : step) : Prop :=
  forall p src rn, stEvent st = EMsg POST_BRIDGE p src rn -> get_str p "bridge_addr"%str = Some a -> p = p0.
Definition posts_addr (a : bytes) (e : event) : bool :=
  match e with
  | EMsg ty p _ _ => (ty =? POST_BRIDGE) && match get_str p "bridge_addr"%str with Some b => if keq b a then true else false | None => false end
  | _ => false
  end.
Lemma toy_replay_run : exists t c p0, exec toy_suite toy_gob toy_c0 toy_replay = Some (t, c) /\
  Forall (only_post p0 [x62; x31]%byte) t /\ times_assigned toy_suite toy_gob t [x62; x31]%byte = 2%nat.
Proof.
  exists (match exec toy_suite toy_gob toy_c0 toy_replay with Some (t, _) => t | None => [] end).
  exists (match exec toy_suite toy_gob toy_c0 toy_replay with Some (_, c) => c | None => toy_c0 end).
  exists (mParams (cl_post toy_suite toy_client [x62; x31]%byte)).
  split; [vm_compute; reflexivity|]. split; [|vm_compute; reflexivity].
  assert (E : map stEvent (match exec toy_suite toy_gob toy_c0 toy_replay with Some (t, _) => t | None => [] end) = toy_replay) by (vm_compute; reflexivity).
  apply Forall_forall. intros st I p src rn Ee Ea. apply (in_map stEvent) in I. rewrite E, Ee in I. clear E Ee st.
  assert (J : In (EMsg POST_BRIDGE p src rn) (filter (posts_addr [x62; x31]%byte) toy_replay)).
  { apply filter_In. split; [exact I|]. cbn [posts_addr]. rewrite Ea. vm_compute. reflexivity. }
  assert (F : filter (posts_addr [x62; x31]%byte) toy_replay = repeat (ev_of (cl_post toy_suite toy_client [x62; x31]%byte)) 2) by (vm_compute; reflexivity).
  rewrite F in J. apply repeat_spec in J. unfold ev_of in J. injection J as J _ _. exact J.
Qed.

Theorem C96_one_recipient_refuted : ~ (forall S G, suite_ok S -> gob_ok G -> one_post_one_recipient S G).
Proof.
  intros H. destruct toy_replay_run as (t & c & p0 & E & A & T).
  specialize (H toy_suite toy_gob toy_ok toy_gob_ok _ _ _ _ _ _ _ (exec_run _ _ _ _ _ _ E) [x62; x31]%byte p0).
  rewrite T in H. enough (2 <= 1)%nat by lia. apply H. intros st p src rn I. rewrite Forall_forall in A. exact (A st I p src rn).
Qed.

Theorem C96_works_once_refuted : ~ (forall S G, suite_ok S -> gob_ok G -> works_once S G).
Proof.
  intros H. destruct toy_replay_run as (t & c & p0 & E & A & T). clear A T.
  assert (X : exists t0 c0 st p src rn c' , exec toy_suite toy_gob toy_c0 (toy_setup ++ [toy_request]) = Some (t0, c0) /\
    In st t0 /\ stEvent st = EMsg POST_BRIDGE p src rn /\ co_handle toy_suite toy_gob c0 POST_BRIDGE p src rn = Some (c', []) /\
    mget (co_bridges c') [x62; x31]%byte <> mget (co_bridges c0) [x62; x31]%byte).
  { do 7 eexists. split; [vm_compute; reflexivity|]. split; [do 5 right; left; reflexivity|]. split; [vm_compute; reflexivity|].
    split; [vm_compute; reflexivity|]. vm_compute. discriminate. }
  destruct X as (t0 & c0 & st & p & src & rn & c' & E0 & I & Ee & Eh & N).
  destruct (H toy_suite toy_gob toy_ok toy_gob_ok _ _ _ _ _ _ _ (exec_run _ _ _ _ _ _ E0) st POST_BRIDGE p src rn src rn c' [] ltac:(now left) I Ee Eh) as [-> _].
  now apply N.
Qed.

(** The hypotheses are met: a valid post and what happens in the round after it; a valid
    vote; two generators under which the recorded post is checked, where it fails. *)
Example C96_instance : exists t c t2 c2, exec toy_suite toy_gob toy_c0 (firstn 5 toy_setup) = Some (t, c) /\
  exec toy_suite toy_gob c (skipn 5 toy_setup ++ [toy_request]) = Some (t2, c2) /\
  (forall st, In st t2 -> within_round (stEvent st)) /\
  post_valid toy_suite c (mParams (cl_post toy_suite toy_client [x62; x31]%byte)) [x62; x31]%byte (cl_nym toy_client) /\
  mget (co_bridges c2) [x62; x31]%byte = Some (Some (cl_nym toy_client), true).
Proof.
  exists (match exec toy_suite toy_gob toy_c0 (firstn 5 toy_setup) with Some (t, _) => t | None => [] end).
  set (c := match exec toy_suite toy_gob toy_c0 (firstn 5 toy_setup) with Some (_, c) => c | None => toy_c0 end). exists c.
  exists (match exec toy_suite toy_gob c (skipn 5 toy_setup ++ [toy_request]) with Some (t, _) => t | None => [] end).
  exists (match exec toy_suite toy_gob c (skipn 5 toy_setup ++ [toy_request]) with Some (_, c) => c | None => toy_c0 end).
  split; [vm_compute; reflexivity|]. split; [vm_compute; reflexivity|]. split; [|split; [|vm_compute; reflexivity]].
  - assert (E : map stEvent (match exec toy_suite toy_gob c (skipn 5 toy_setup ++ [toy_request]) with Some (t, _) => t | None => [] end)
      = skipn 5 toy_setup ++ [toy_request]) by (vm_compute; reflexivity).
    intros st I. apply (in_map stEvent) in I. rewrite E in I. clear E.
    destruct I as [<-|[<-|[<-|[]]]]; vm_compute; intuition discriminate.
  - split; [eexists; split; [vm_compute; reflexivity|]; split; [|vm_compute; reflexivity]; vm_compute; intuition congruence|].
    split; [reflexivity|]. do 2 eexists. split; [vm_compute; reflexivity|]. split; vm_compute; reflexivity.
Qed.
Example C96_instance_other : forall c1 c2, co_G c1 = Some 8 -> co_G c2 = Some 13 ->
  post_valid toy_suite c1 (mParams (cl_post toy_suite toy_client [x62; x31]%byte)) [x62; x31]%byte (cl_nym toy_client) /\
  member (sP toy_suite) (sQ toy_suite) 13 /\
  ~ post_valid toy_suite c2 (mParams (cl_post toy_suite toy_client [x62; x31]%byte)) [x62; x31]%byte (cl_nym toy_client).
Proof.
  intros c1 c2 E1 E2. unfold post_valid. rewrite E1, E2. split; [|split; [vm_compute; intuition congruence|]].
  - split; [eexists; split; [vm_compute; reflexivity|]; split; [|vm_compute; reflexivity]; vm_compute; intuition congruence|].
    split; [reflexivity|]. do 2 eexists. split; [vm_compute; reflexivity|]. split; vm_compute; reflexivity.
  - intros (_ & _ & sig & bn & Es & Eb & EV). vm_compute in Es, Eb. injection Es as <-. injection Eb as <-. vm_compute in EV. discriminate.
Qed.

Print Assumptions C96_stays_valid.
Print Assumptions C96_post_again.
Print Assumptions C96_vote_again.
Print Assumptions C96_post_in_other_round.
Print Assumptions C96_vote_in_other_round.
Print Assumptions C96_request_in_other_round.
Print Assumptions C96_one_recipient_refuted.
Print Assumptions C96_works_once_refuted.
