(** C97: a bridge that was posted stays on offer until it is given out.  Refuted: the end of
    a round withdraws every bridge that was not given out, and a bridge posted again while
    the signatures for its first assignment are outstanding is withdrawn by the last of them. *)
From Coq Require Import ZArith Znumtheory Lia List Bool Permutation.
From Coq Require Import Strings.Byte.
From Coq Require String.
From Verif Require Import ZMod Bytes Suite Spec Pedersen ElGamal FujiOkam Equality Codec Maps Net Bridge Client
  Perm SimpleShuffle PairShuffle Server Coordinator History Enrol
  Prop_Pedersen Prop_ElGamal Prop_FujiOkam Prop_Shuffle Prop_Codec Prop_Bridge Prop_Assign Prop_Coord Prop_Outsider.
Import ListNotations.
Import String.StringSyntax.
Open Scope Z_scope.
Delimit Scope string_scope with str.

(** ** Specification *)
(** The step gives the bridge [a] out: it is among the assignments the servers are asked to
    sign. *)
Definition gives (S : suite) (G : gob) (st : step) (a : bytes) : Prop := In a (assigned_in S G (stOut st)).
(** The step is the end of a round. *)
Definition closes (st : step) : Prop := exists ord rs, stEvent st = EEnd ord rs.
(** The step handles a server's reply with signatures for assignments, [a] among them. *)
Definition reply_for (S : suite) (G : gob) (st : step) (a : bytes) : Prop :=
  exists p src rn ba l, stEvent st = EMsg GOT_SIGNS p src rn /\
    get_bytes p "assignments"%str = Some ba /\ dec_assignments S G ba = Some l /\ In a (map asAddr l).
(** [a] is on offer, whoever posted it. *)
Definition offered (c : coord) (a : bytes) : Prop := exists nym, on_offer c a nym.

(** The property: in every history of the coordinator a bridge on offer is given out by the
    next step or on offer after it. *)
Definition stays_on_offer (S : suite) (G : gob) : Prop :=
  forall self a0 fb trap gammas t c, run S G (init_coord S self a0 fb trap gammas) t c ->
  forall e c' out a, co_step S G c e = Some (c', out) -> offered c a ->
  gives S G (Step c e c' out) a \/ offered c' a.
(** The same for the steps inside a round. *)
Definition stays_within_round (S : suite) (G : gob) : Prop :=
  forall self a0 fb trap gammas t c, run S G (init_coord S self a0 fb trap gammas) t c ->
  forall e c' out a, co_step S G c e = Some (c', out) -> offered c a -> ~ closes (Step c e c' out) ->
  gives S G (Step c e c' out) a \/ offered c' a.

Lemma got_loop_others S G j rq a : forall l sigs c out0 c' out, got_loop S G c j rq sigs l out0 = Some (c', out) ->
  ~ In a (map asAddr l) -> mget (co_bridges c') a = mget (co_bridges c) a.
Proof.
  induction l as [|x l IH]; intros sigs c out0 c' out E N; cbn [got_loop] in E.
  - injection E as <- <-. reflexivity.
  - cbn [map In] in N. odestruct E;
      match goal with H : add_asig _ _ _ _ = Some _ |- _ => apply add_asig_frame in H; destruct H as (y & ->) end;
      rewrite (IH _ _ _ _ _ E) by tauto; cbn [co_bridges set_bridges set_asigs]; [|reflexivity].
    apply mget_mset_ne. intros Q. apply N. left. now symmetry.
Qed.

(** Servers are only ever added (CoordinatorHandler.go, handleServerRegister). *)
Lemma still_servers S G c e c' out : co_step S G c e = Some (c', out) -> co_servers c <> [] -> co_servers c' <> [].
Proof.
  intros E NS. destruct (co_step_frame S G c e c' out E) as [F _].
  assert (same : ~ In FServers (writes_ev e) -> co_servers c' <> []).
  { intros N. pose proof (F FServers N) as Y. cbn [agree] in Y. now rewrite Y. }
  destruct e as [ty p src rn| |fakes ord| |ord rs]; cbn [co_step writes_ev] in *; [|apply same; cbn; intuition discriminate ..].
  destruct (Z.eq_dec ty SERVER_REGISTER) as [->|N].
  - change (co_server_register S c p src = Some (c', out)) in E. unfold co_server_register in E. odestruct E; injection E as <- <-; cbn; try assumption;
    now destruct (co_servers c).
  - apply same. unfold writes. rewrite (proj2 (Z.eqb_neq _ _) N).
    repeat match goal with |- context [ty =? ?x] => destruct (ty =? x) end; cbn; intuition discriminate.
Qed.

Section Offer.
Context (S : suite) (OK : suite_ok S) (G : gob) (GOK : gob_ok G).

(** ** What becomes of a bridge on offer in one step *)
(** In every state the coordinator can be in, whatever the next step: the bridge is on
    offer, by the same poster, unless the step is a valid post of the same address; or it is
    given out; or the round ends; or a server replies with signatures for this address.
    (A coordinator without servers gives a bridge to nobody.) *)
Theorem C97_fate : forall self a0 fb trap gammas t c, run S G (init_coord S self a0 fb trap gammas) t c ->
  co_servers c <> [] ->
  forall e c' out a nym, co_step S G c e = Some (c', out) -> on_offer c a nym ->
  on_offer c' a nym \/
  (posts S (Step c e c' out) a = true /\ offered c' a) \/
  gives S G (Step c e c' out) a \/ closes (Step c e c' out) \/ reply_for S G (Step c e c' out) a.
Proof.
  intros self a0 fb trap gammas t c R NS e c' out a nym E X.
  destruct (run_bridges S G OK GOK _ _ _ _ _ _ _ R) as [_ HB].
  destruct (co_step_frame S G c e c' out E) as [F O].
  assert (same : ~ In FBridges (writes_ev e) -> on_offer c' a nym).
  { intros N. pose proof (F FBridges N) as Y. cbn [agree] in Y. unfold on_offer in *. now rewrite Y. }
  destruct e as [ty p src rn| |fakes ord| |ord rs]; cbn [co_step writes_ev] in *.
  2,3,4: left; apply same; cbn; intuition discriminate.
  2:{ do 3 right. left. now exists ord, rs. }
  destruct (Z.eq_dec ty POST_BRIDGE) as [->|N1]; [|destruct (Z.eq_dec ty REQUEST_BRIDGES) as [->|N2];
    [|destruct (Z.eq_dec ty GOT_SIGNS) as [->|N3]]].
  - change (co_handle S G c POST_BRIDGE p src rn) with (co_post S c p) in E.
    destruct (co_post_spec S OK c p c' out E) as [(-> & _ & _)|(b & n & V & -> & ->)]; [now left|].
    destruct (keq a b) as [->|N].
    + right. left. split.
      * destruct V as (V1 & V2 & (sig & bn & V3 & V4 & V5)). apply (names_nym_dec S OK) in V1. destruct V1 as (bn' & V1 & V6).
        assert (bn' = bn) by congruence. subst bn'.
        assert (En : n = be_to_z bn) by (apply (C23_point_decode_exact S OK bn n) in V6; symmetry; tauto).
        unfold posts. cbn [stEvent stBefore]. rewrite V2, V3, V4, <- En, V5, Z.eqb_refl. destruct (keq b b); [reflexivity|congruence].
      * exists n. unfold on_offer. cbn [add_bridge set_bridges co_bridges]. apply mget_mset_eq.
    + left. unfold on_offer in *. cbn [add_bridge set_bridges co_bridges]. rewrite mget_mset_ne; [exact X|congruence].
  - change (co_handle S G c REQUEST_BRIDGES p src rn) with (co_request S G c p src rn) in E.
    destruct (co_request_spec _ _ _ _ _ _ _ _ E) as [[-> _]|(ind & nymR & bn & m & brs & mp & z & _ & _ & E3 & _ & E5 & -> & H)]; [now left|].
    destruct (get_bridges_spec _ _ _ _ _ E5) as (_ & _ & I1 & O1 & _).
    destruct (in_dec keq a (map fst brs)) as [J|J].
    2:{ left. unfold on_offer in *. cbn [co_bridges set_asigs set_bridges]. now rewrite O1. }
    right. right. left. unfold gives. cbn [stOut]. cbv zeta in H.
    destruct H as [[-> _]|(_ & pm & ->)]; [destruct J|].
    unfold to_servers. destruct (co_servers c) as [|(sa & spk) rest]; [congruence|]. cbn [map]. unfold assigned_in. cbn [find mType].
    change (SIGN_ASSIGNMENTS =? SIGN_ASSIGNMENTS) with true. cbn [mParams]. unfold get_bytes. cbn [lookup String.eqb Ascii.eqb Bool.eqb].
    rewrite (C27_assignments_round_trip S G OK GOK).
    + now rewrite map_map.
    + eapply taken_assignment_ok; try eassumption. eapply Prop_Assign.dec_point_group; eassumption.
  - change (co_handle S G c GOT_SIGNS p src rn) with (co_got S G c p src) in E. unfold co_got in E.
    odestruct E; try (injection E as <- <-; now left).
    match goal with H : dec_assignments S G _ = Some ?l |- _ => destruct (in_dec keq a (map asAddr l)) as [J|J] end.
    + do 4 right. do 5 eexists. split; [reflexivity|]. split; [eassumption|]. split; eassumption.
    + left. unfold on_offer in *. erewrite got_loop_others by eassumption. exact X.
  - left. apply same. unfold writes. rewrite (proj2 (Z.eqb_neq _ _) N1), (proj2 (Z.eqb_neq _ _) N2), (proj2 (Z.eqb_neq _ _) N3).
    repeat match goal with |- context [ty =? ?x] => destruct (ty =? x) end; cbn; intuition discriminate.
Qed.

(** ** Over a whole stretch of the round *)
(** From any point of any history at which [nym]'s bridge [a] is on offer: as long as the
    round is not ended, nobody posts [a] and no reply for [a] arrives, it has been given out
    or is on offer as before. *)
Theorem C97_until_given : forall self a0 fb trap gammas t c, run S G (init_coord S self a0 fb trap gammas) t c ->
  forall a nym, on_offer c a nym -> co_servers c <> [] ->
  forall es t' c', exec S G c es = Some (t', c') ->
  (forall st, In st t' -> ~ closes st /\ ~ reply_for S G st a /\ posts S st a = false) ->
  on_offer c' a nym \/ exists st, In st t' /\ gives S G st a.
Proof.
  intros self a0 fb trap gammas t c R a nym X NS es. revert t c R X NS.
  induction es as [|e es IH]; intros t c R X NS t' c' E H; cbn [exec] in E.
  - injection E as <- <-. now left.
  - destruct (co_step S G c e) as [[c1 out]|] eqn:E1; [|discriminate].
    destruct (exec S G c1 es) as [[t1 c2]|] eqn:E2; [|discriminate]. injection E as <- <-.
    destruct (H (Step c e c1 out) ltac:(now left)) as (H1 & H2 & H3).
    destruct (C97_fate _ _ _ _ _ _ _ R NS e c1 out a nym E1 X) as [X1|[[P _]|[Gv|[C|RF]]]].
    + assert (R1 : run S G (init_coord S self a0 fb trap gammas) (t ++ [Step c e c1 out]) c1) by (econstructor; eassumption).
      assert (NS1 : co_servers c1 <> []) by (eapply still_servers; eassumption).
      destruct (IH _ _ R1 X1 NS1 _ _ E2 ltac:(intros st I; apply H; now right)) as [Y|(st & I & Y)]; [now left|].
      right. exists st. split; [now right|exact Y].
    + congruence.
    + right. eexists. split; [now left|exact Gv].
    + contradiction.
    + contradiction.
Qed.

(** A valid request for at least as many bridges as there are takes every bridge on offer,
    in every order in which Go ranges over the map. *)
Theorem C97_big_request_takes_all : forall self a0 fb trap gammas t c, run S G (init_coord S self a0 fb trap gammas) t c ->
  co_reqs c <> None -> co_servers c <> [] ->
  forall p src rn ind nymR, request_valid S G c p ind nymR ->
  (forall i, range_order (crBridges rn i) (co_bridges c)) -> Z.of_nat (length (mkeys (co_bridges c))) <= ind ->
  exists c' out, co_handle S G c REQUEST_BRIDGES p src rn = Some (c', out) /\
    forall a, offered c a -> gives S G (Step c (EMsg REQUEST_BRIDGES p src rn) c' out) a.
Proof.
  intros self a0 fb trap gammas t c R NR NS p src rn ind nymR V HO LE.
  destruct (C46_exact S G OK GOK _ _ _ _ _ _ _ R NR p src rn ind nymR V HO) as (l & c' & out & E & LL & ND & HI & HN & HE & HOUT).
  exists c', out. split; [exact E|]. intros a (nym & X).
  destruct (in_dec keq a (map asAddr l)) as [J|J].
  - assert (NL : l <> []) by (intros ->; destruct J). destruct (HOUT NL) as [D M].
    unfold gives, assigned_in. cbn [stOut]. destruct out as [|m out].
    { destruct (co_servers c); [congruence|discriminate]. }
    destruct (M m ltac:(now left)) as (Ty & b & B1 & B2). cbn [find]. rewrite Ty. change (SIGN_ASSIGNMENTS =? SIGN_ASSIGNMENTS) with true.
    cbn [find]. rewrite B1, B2. exact J.
  - exfalso. destruct (run_bridges S G OK GOK _ _ _ _ _ _ _ R) as [W _].
    assert (LU : (length (unused c) <= length (mkeys (co_bridges c)))%nat).
    { unfold unused, mkeys. rewrite map_length. clear. induction (co_bridges c) as [|x m IH]; [reflexivity|]. cbn [filter]. destruct (negb _); cbn [length]; lia. }
    assert (I : incl (map asAddr l) (map fst (unused c))).
    { intros b I. apply in_map_iff in I. destruct I as (x & <- & I). destruct (HI x I) as (_ & M & _). apply in_map_iff.
      exists (asAddr x, (asNym x, false)). split; [reflexivity|]. unfold unused. apply filter_In. split; [now apply mget_In|reflexivity]. }
    assert (I2 : incl (map fst (unused c)) (map asAddr l)).
    { apply NoDup_length_incl; [exact ND| |exact I]. rewrite !map_length. lia. }
    apply J, I2. apply in_map_iff. exists (a, (Some nym, false)). split; [reflexivity|]. unfold unused. apply filter_In. split; [|reflexivity].
    apply mget_In. exact X.
Qed.

(** ** What the end of a round does *)
(** In every state with a server, if the round's end does not stop the coordinator there is
    no bridge on offer after it, and no bridge is given out by it. *)
Theorem C97_round_end_withdraws : forall c ord rs c' out, co_servers c <> [] ->
  co_step S G c (EEnd ord rs) = Some (c', out) ->
  (forall a, ~ offered c' a) /\ (forall a, ~ gives S G (Step c (EEnd ord rs) c' out) a).
Proof.
  intros c ord rs c' out NS E. split.
  - intros a (nym & X). cbn [co_step] in E. unfold round_end in E.
    destruct (last_server c) as [ls|] eqn:EL.
    + odestruct E. injection E as <- <-. discriminate.
    + apply NS. unfold last_server in EL. destruct (rev (co_servers c)) as [|s l] eqn:ER; [|discriminate].
      now rewrite <- (rev_involutive (co_servers c)), ER.
  - intros a I. unfold gives in I. cbn [stOut] in I. rewrite assigned_none in I; [destruct I|].
    intros m Im Ht. destruct (co_step_frame S G c _ c' out E) as [_ O]. apply O in Im. rewrite Ht in Im. cbn in Im. intuition discriminate.
Qed.
End Offer.

(** ** Refutations *)
(** The round of [toy_setup] has two bridges on offer; then it ends. *)
Definition toy_close : list event := toy_setup ++ [EEnd [12] [3]].
(** The client asks for a bridge and gets the first.  It is posted again before the servers
    have signed, and then both do. *)
Definition toy_repost : list event :=
  toy_setup ++ [toy_request; nth 5 toy_setup EConfigure; toy_got adA [x05]%byte].
Lemma toy_close_run : exists t c c' out, exec toy_suite toy_gob toy_c0 toy_setup = Some (t, c) /\
  co_step toy_suite toy_gob c (EEnd [12] [3]) = Some (c', out) /\
  on_offer c [x62; x31]%byte 12 /\ mget (co_bridges c') [x62; x31]%byte = None /\ assigned_in toy_suite toy_gob out = [].
Proof. do 4 eexists. repeat (split; [vm_compute; reflexivity|]). vm_compute. reflexivity. Qed.
Lemma toy_repost_run : exists t c c' out, exec toy_suite toy_gob toy_c0 toy_repost = Some (t, c) /\
  co_step toy_suite toy_gob c (toy_got adB [x06]%byte) = Some (c', out) /\
  on_offer c [x62; x31]%byte 12 /\ mget (co_bridges c') [x62; x31]%byte = Some (Some 12, true) /\ assigned_in toy_suite toy_gob out = [].
Proof. do 4 eexists. repeat (split; [vm_compute; reflexivity|]). vm_compute. reflexivity. Qed.

Theorem C97_stays_on_offer_refuted : ~ (forall S G, suite_ok S -> gob_ok G -> stays_on_offer S G).
Proof.
  intros H. destruct toy_close_run as (t & c & c' & out & E & E1 & X & Y & N).
  destruct (H toy_suite toy_gob toy_ok toy_gob_ok _ _ _ _ _ _ _ (exec_run _ _ _ _ _ _ E) _ _ _ _ E1 (ex_intro _ _ X)) as [I|(nym & Z0)].
  - unfold gives in I. cbn [stOut] in I. rewrite N in I. destruct I.
  - unfold on_offer in Z0. congruence.
Qed.
Theorem C97_stays_within_round_refuted : ~ (forall S G, suite_ok S -> gob_ok G -> stays_within_round S G).
Proof.
  intros H. destruct toy_repost_run as (t & c & c' & out & E & E1 & X & Y & N).
  destruct (H toy_suite toy_gob toy_ok toy_gob_ok _ _ _ _ _ _ _ (exec_run _ _ _ _ _ _ E) _ _ _ _ E1 (ex_intro _ _ X)) as [I|(nym & Z0)].
  - intros (ord & rs & K). discriminate.
  - unfold gives in I. cbn [stOut] in I. rewrite N in I. destruct I.
  - unfold on_offer in Z0. congruence.
Qed.

(** The hypotheses of the theorems above are met: in the round of [toy_setup] the second
    bridge is still on offer after a request that takes the first; and a valid request. *)
Example C97_instance : exists t c t' c', exec toy_suite toy_gob toy_c0 toy_setup = Some (t, c) /\
  on_offer c [x62; x32]%byte 12 /\ on_offer c [x62; x31]%byte 12 /\ co_servers c <> [] /\
  exec toy_suite toy_gob c [toy_request] = Some (t', c') /\ on_offer c' [x62; x32]%byte 12 /\
  flat_map (fun st => assigned_in toy_suite toy_gob (stOut st)) t' = [[x62; x31]%byte] /\
  forallb (fun st => negb (posts toy_suite st [x62; x32]%byte) &&
    match stEvent st with EMsg ty _ _ _ => negb (ty =? GOT_SIGNS) | _ => false end) t' = true.
Proof.
  do 4 eexists. split; [vm_compute; reflexivity|]. split; [vm_compute; reflexivity|]. split; [vm_compute; reflexivity|]. split; [vm_compute; discriminate|].
  repeat (split; [vm_compute; reflexivity|]). vm_compute. reflexivity.
Qed.
(** A round with one bridge, and a valid request for one. *)
Example C97_instance_request : exists t c p src, exec toy_suite toy_gob toy_c0 (firstn 6 toy_setup) = Some (t, c) /\
  toy_request = EMsg REQUEST_BRIDGES p src toy_rand /\ request_valid toy_suite toy_gob c p 1 (cl_nym toy_client) /\
  co_reqs c <> None /\ co_servers c <> [] /\ range_order [[x62; x31]]%byte (co_bridges c) /\
  Z.of_nat (length (mkeys (co_bridges c))) <= 1 /\ offered c [x62; x31]%byte.
Proof.
  do 4 eexists. split; [vm_compute; reflexivity|]. split; [vm_compute; reflexivity|]. split.
  - do 3 eexists. do 3 (split; [vm_compute; reflexivity|]). split; [|split; [vm_compute; reflexivity|
      split; [vm_compute; reflexivity|split; vm_compute; reflexivity]]].
    vm_compute. intuition congruence.
  - split; [vm_compute; discriminate|]. split; [vm_compute; discriminate|]. split; [vm_compute; apply Permutation_refl|].
    split; [vm_compute; discriminate|]. exists 12. vm_compute. reflexivity.
Qed.
Print Assumptions C97_fate.
Print Assumptions C97_until_given.
Print Assumptions C97_big_request_takes_all.
Print Assumptions C97_round_end_withdraws.
Print Assumptions C97_stays_on_offer_refuted.
Print Assumptions C97_stays_within_round_refuted.
