(** Bridges given out by the coordinator: C45, C46, C47. *)
From Coq Require Import ZArith Znumtheory Lia List Bool Permutation.
From Coq Require Import Strings.Byte.
From Coq Require String.
From Verif Require Import ZMod Bytes Suite Spec Pedersen ElGamal FujiOkam Equality Codec Maps Net Bridge Client
  Perm SimpleShuffle PairShuffle Server Coordinator History Prop_Pedersen Prop_ElGamal Prop_FujiOkam Prop_Codec Prop_Bridge.
Import ListNotations.
Import String.StringSyntax.
Open Scope Z_scope.
Delimit Scope string_scope with str.

(** ** C45 *)
(** The bridge addresses assigned by a step: those in the SIGN_ASSIGNMENTS message the
    servers get. *)
Definition assigned_in (S : suite) (G : gob) (out : list msg) : list bytes :=
  match find (fun m => mType m =? SIGN_ASSIGNMENTS) out with
  | Some m =>
      match get_bytes (mParams m) "assignments"%str with
      | Some b => match dec_assignments S G b with Some l => map asAddr l | None => [] end
      | None => []
      end
  | None => []
  end.
(** The step handles a post of bridge [a] whose signature verifies under the nym it
    names. *)
Definition posts (S : suite) (st : step) (a : bytes) : bool :=
  match stEvent st with
  | EMsg ty p _ _ =>
      match get_str p "bridge_addr"%str, get_bytes p "nym"%str, get_bytes p "signature"%str with
      | Some b, Some bn, Some sig =>
          (ty =? POST_BRIDGE) && (if keq b a then true else false) &&
          eg_verify S (b ++ bn) (be_to_z bn) sig (co_G (stBefore st))
      | _, _, _ => false
      end
  | _ => false
  end.
Definition times_assigned (S : suite) (G : gob) (t : list step) (a : bytes) : nat :=
  list_sum (map (fun st => count_occ keq (assigned_in S G (stOut st)) a) t).
Definition times_posted (S : suite) (t : list step) (a : bytes) : nat :=
  length (filter (fun st => posts S st a) t).

Definition bridges_ok (S : suite) (m : amap bytes (option Z * bool)) : Prop :=
  forall a nym, mget m a = Some (nym, false) -> exists p, nym = Some p /\ in_group S p.
Definition free1 (c : coord) (a : bytes) : nat := if bridge_free (co_bridges c) a then 1%nat else 0%nat.

Lemma assigned_none S G out : (forall m, In m out -> mType m <> SIGN_ASSIGNMENTS) -> assigned_in S G out = [].
Proof.
  intros HN. unfold assigned_in. rewrite (proj2 (find_none_iff _ out)); [reflexivity|].
  intros m I. apply Z.eqb_neq. now apply HN.
Qed.

Lemma got_loop_bridges S G j rq : forall l sigs c out0 c' out, got_loop S G c j rq sigs l out0 = Some (c', out) ->
  forall a, mget (co_bridges c') a = mget (co_bridges c) a \/ exists n, mget (co_bridges c') a = Some (n, true).
Proof.
  induction l as [|x l IH]; intros sigs c out0 c' out E a; cbn [got_loop] in E.
  - injection E as <- <-. now left.
  - odestruct E;
      match goal with H : add_asig _ _ _ _ = Some _ |- _ => apply add_asig_frame in H; destruct H as (y & ->) end;
      destruct (IH _ _ _ _ _ E a) as [E1|E1]; try (now right); cbn [co_bridges set_bridges set_asigs] in E1; [|now left].
    rewrite mget_mset in E1. destruct (keq a (asAddr x)) as [->|]; [right; eauto|now left].
Qed.

(** Everything an accepted request does to the tables, and what it sends. *)
Lemma co_request_spec S G c p src rn c' out : co_request S G c p src rn = Some (c', out) ->
  (c' = c /\ out = []) \/
  exists ind nymR bn m brs mp x, get_int p "ind"%str = Some ind /\ get_bytes p "nym"%str = Some bn /\
    dec_point S bn = Some nymR /\ co_reqs c = Some m /\
    get_bridges (Z.to_nat ind) (crBridges rn) (co_bridges c) = (brs, mp) /\
    c' = set_asigs (set_bridges (set_reqs c (Some (mset m nymR src))) mp) x /\
    let l := map (fun b : bytes * option Z => Assign (Some nymR) (fst b) (snd b)) brs in
    ((brs = [] /\ out = []) \/
     (brs <> [] /\ exists pm, out = to_servers c SIGN_ASSIGNMENTS (("assignments"%str, VBytes (enc_assignments S G l)) :: pm))).
Proof.
  intros E. unfold co_request in E.
  destruct (get_int p "ind"%str) as [ind|] eqn:E1; [|discriminate].
  destruct (get_bytes p "signature"%str) as [sig|] eqn:E2; [|discriminate].
  destruct (get_bytes p "nym"%str) as [bn|] eqn:E3; [|discriminate].
  destruct (dec_point S bn) as [nymR|] eqn:E4; [|discriminate].
  destruct (msg_request p) as [m|] eqn:E5; [|discriminate].
  destruct (negb (eg_verify S m nymR sig (co_G c))); [injection E as <- <-; now left|].
  destruct (verify_ind S G (co_pb c) (co_fb c) p (mget (co_ecomms c) nymR)) as [ok|]; [|discriminate].
  destruct (negb ok); [injection E as <- <-; now left|].
  destruct (co_reqs c) as [reqs|] eqn:E6; [|discriminate]. cbv zeta in E. unfold assign_bridges in E. cbn [co_bridges set_reqs] in E.
  destruct (get_bridges (Z.to_nat ind) (crBridges rn) (co_bridges c)) as [brs mp] eqn:E7.
  right. exists ind, nymR, bn, reqs, brs, mp.
  set (l := map _ brs) in *.
  destruct l as [|a0 l0] eqn:El.
  - injection E as <- <-. exists (co_asigs c). repeat (split; [first [assumption|reflexivity]|]).
    left. split; [|reflexivity]. destruct brs; [reflexivity|discriminate].
  - match type of E with context [open_assignments S ?c1 ?l1] => destruct (open_total S l1 c1) as (x & Hx); rewrite Hx in E end.
    odestruct E. injection E as <- <-. exists x. repeat (split; [first [assumption|reflexivity]|]).
    right. split; [intros ->; discriminate|]. eexists. reflexivity.
Qed.

Section C45.
Context (S : suite) (OK : suite_ok S) (G : gob) (GK : gob_ok G).

Lemma taken_assignment_ok nymR m brs (n : nat) ords mp : in_group S nymR -> bridges_ok S m -> get_bridges n ords m = (brs, mp) ->
  forall a, In a (map (fun b : bytes * option Z => Assign (Some nymR) (fst b) (snd b)) brs) -> assignment_ok S a.
Proof.
  intros HN HB E a I. apply in_map_iff in I. destruct I as ((b & nb) & <- & I).
  destruct (get_bridges_spec _ _ _ _ _ E) as (_ & _ & I1 & _ & _). destruct (I1 _ _ I) as [M _].
  destruct (HB _ _ M) as (q & -> & Hq). split; cbn [asNymR asNym fst snd]; intros z [= <-]; now apply member_in_group.
Qed.

Lemma dec_point_group b p : dec_point S b = Some p -> in_group S p.
Proof. intros E. apply member_in_group. apply (proj1 (C23_point_decode_exact S OK b p)) in E. tauto. Qed.

Lemma assigned_request c p src rn c' out : bridges_ok S (co_bridges c) -> co_request S G c p src rn = Some (c', out) ->
  bridges_ok S (co_bridges c') /\
  forall a, (count_occ keq (assigned_in S G out) a + free1 c' a <= free1 c a)%nat.
Proof.
  intros HB E. destruct (co_request_spec _ _ _ _ _ _ _ _ E) as [[-> ->]|
    (ind & nymR & bn & m & brs & mp & x & E1 & E2 & E3 & E4 & E5 & -> & H)].
  { split; [assumption|]. intros a. cbn. lia. }
  destruct (get_bridges_spec _ _ _ _ _ E5) as (ND & _ & I1 & O1 & _). cbn [co_bridges set_asigs set_bridges]. split.
  - intros a nym M. destruct (in_dec keq a (map fst brs)) as [I|N].
    + apply in_map_iff in I. destruct I as ((b & nb) & <- & I). destruct (I1 _ _ I) as [_ M']. cbn [fst] in M. congruence.
    + rewrite O1 in M by assumption. now apply (HB a).
  - intros a. unfold free1. cbn [co_bridges set_asigs set_bridges].
    assert (HA : (count_occ keq (assigned_in S G out) a <= count_occ keq (map fst brs) a)%nat).
    { cbv zeta in H. destruct H as [[-> ->]|(_ & pm & ->)]; [cbn; lia|]. unfold assigned_in.
      destruct (find _ _) as [mm|] eqn:F; [|cbn; lia]. apply find_some in F. destruct F as [F _].
      apply in_map_iff in F. destruct F as (? & <- & _). unfold get_bytes. cbn [mParams lookup String.eqb Ascii.eqb Bool.eqb]. rewrite C27_assignments_round_trip; try assumption.
      - rewrite map_map. cbn [asAddr]. reflexivity.
      - eapply taken_assignment_ok; try eassumption. eapply dec_point_group; eassumption. }
    destruct (in_dec keq a (map fst brs)) as [I|N].
    + pose proof (proj1 (NoDup_count_occ keq _) ND a). apply in_map_iff in I. destruct I as ((b & nb) & <- & I).
      destruct (I1 _ _ I) as [M M']. cbn [fst] in *. unfold bridge_free. rewrite M, M'. cbn. lia.
    + pose proof (proj1 (count_occ_not_In keq _ _) N). unfold bridge_free. rewrite O1 by assumption. lia.
Qed.

Lemma times_assigned_snoc t st a : times_assigned S G (t ++ [st]) a =
  (times_assigned S G t a + count_occ keq (assigned_in S G (stOut st)) a)%nat.
Proof. unfold times_assigned. rewrite map_app, list_sum_app. cbn. lia. Qed.
Lemma times_posted_snoc t st a : times_posted S (t ++ [st]) a =
  (times_posted S t a + if posts S st a then 1 else 0)%nat.
Proof. unfold times_posted. rewrite filter_app, app_length. cbn. destruct (posts S st a); cbn; lia. Qed.

Lemma step_assign c e c' out : bridges_ok S (co_bridges c) -> co_step S G c e = Some (c', out) ->
  bridges_ok S (co_bridges c') /\
  forall a, (count_occ keq (assigned_in S G out) a + free1 c' a <=
             free1 c a + if posts S (Step c e c' out) a then 1 else 0)%nat.
Proof.
  intros HB E. destruct (co_step_frame S G c e c' out E) as [F O].
  assert (same : ~ In SIGN_ASSIGNMENTS (emits_ev e) -> ~ In FBridges (writes_ev e) ->
    bridges_ok S (co_bridges c') /\ forall a, (count_occ keq (assigned_in S G out) a + free1 c' a <= free1 c a)%nat).
  { intros N1 N2. pose proof (F FBridges N2) as E1. cbn [agree] in E1. unfold free1. rewrite E1. split; [assumption|].
    intros a. rewrite assigned_none; [cbn; lia|]. intros m I Ht. apply O in I. congruence. }
  assert (weak : forall P : Prop, (P /\ forall a, (count_occ keq (assigned_in S G out) a + free1 c' a <= free1 c a)%nat) ->
    P /\ forall a, (count_occ keq (assigned_in S G out) a + free1 c' a <=
             free1 c a + if posts S (Step c e c' out) a then 1 else 0)%nat).
  { intros P [HP HA]. split; [assumption|]. intros a. specialize (HA a). lia. }
  destruct e as [ty p src rn| |fakes ord| |ord rs]; cbn [co_step writes_ev emits_ev] in *.
  2,3,4: apply weak, same; cbn; intuition discriminate.
  2:{ apply weak. rewrite assigned_none.
      - unfold round_end in E. destruct (last_server c) as [ls|].
        + odestruct E. injection E as <- <-. cbn [co_bridges clear_bridges set_bridges]. split; [intros a nym M; discriminate|].
          intros a. cbn. lia.
        + injection E as <- <-. cbn. split; [assumption|]. intros a. reflexivity.
      - intros m I Ht. apply O in I. rewrite Ht in I. cbn in I. intuition discriminate. }
  destruct (Z.eq_dec ty POST_BRIDGE) as [->|N1]; [|destruct (Z.eq_dec ty REQUEST_BRIDGES) as [->|N2];
    [|destruct (Z.eq_dec ty GOT_SIGNS) as [->|N3]]].
  - rewrite assigned_none by (intros m I Ht; apply O in I; rewrite Ht in I; cbn in I; tauto).
    change (co_handle S G c POST_BRIDGE p src rn) with (co_post S c p) in E. unfold co_post in E.
    destruct (get_str p "bridge_addr"%str) as [b|] eqn:E1; [|discriminate].
    destruct (get_bytes p "signature"%str) as [sig|] eqn:E2; [|discriminate].
    destruct (get_bytes p "nym"%str) as [bn|] eqn:E3; [|discriminate].
    destruct (dec_point S bn) as [nym|] eqn:E4; [|discriminate].
    unfold msg_post in E. rewrite E1, E3 in E.
    destruct (eg_verify S (b ++ bn) nym sig (co_G c)) eqn:EV; cbn [negb] in E; injection E as <- <-.
    + assert (HG : in_group S nym) by (eapply dec_point_group; eassumption).
      assert (En : nym = be_to_z bn) by (apply (C23_point_decode_exact S OK bn nym) in E4; symmetry; tauto).
      split.
      * intros a n M. cbn [co_bridges add_bridge set_bridges] in M. rewrite mget_mset in M.
        destruct (keq a b); [injection M as <-; eauto|now apply (HB a)].
      * intros a. unfold posts. cbn [stEvent stBefore]. rewrite E1, E2, E3. rewrite <- En, EV, Z.eqb_refl.
        unfold free1, bridge_free. cbn [co_bridges add_bridge set_bridges]. rewrite mget_mset. cbn [count_occ].
        destruct (keq b a) as [->|]; [destruct (keq a a); [cbn; lia|congruence]|].
        destruct (keq a b); [congruence|]. cbn. lia.
    + split; [assumption|]. intros a. cbn. lia.
  - apply weak. now apply assigned_request in E.
  - apply weak. rewrite assigned_none by (intros m I Ht; apply O in I; rewrite Ht in I; cbn in I; intuition discriminate).
    change (co_handle S G c GOT_SIGNS p src rn) with (co_got S G c p src) in E.
    assert (HB' : forall a, mget (co_bridges c') a = mget (co_bridges c) a \/ exists n, mget (co_bridges c') a = Some (n, true)).
    { unfold co_got in E. odestruct E; try (injection E as <- <-; now left). eapply got_loop_bridges. eassumption. }
    split.
    + intros a n M. destruct (HB' a) as [E1|(n' & E1)]; [|congruence]. rewrite E1 in M. now apply (HB a).
    + intros a. unfold free1, bridge_free. destruct (HB' a) as [-> |(n' & ->)]; cbn; lia.
  - apply weak, same.
    + unfold emits. rewrite (proj2 (Z.eqb_neq _ _) N2), (proj2 (Z.eqb_neq _ _) N3).
      repeat match goal with |- context [ty =? ?x] => destruct (ty =? x) end; cbn; intuition discriminate.
    + unfold writes. rewrite (proj2 (Z.eqb_neq _ _) N1), (proj2 (Z.eqb_neq _ _) N2), (proj2 (Z.eqb_neq _ _) N3).
      repeat match goal with |- context [ty =? ?x] => destruct (ty =? x) end; cbn; intuition discriminate.
Qed.
End C45.

(** C45: in every history the number of assignments of a bridge address is at most the
    number of accepted posts of it. *)
Theorem C45_assigned_at_most_posted : forall S G, suite_ok S -> gob_ok G ->
  forall self a0 fb trap gammas t c, run S G (init_coord S self a0 fb trap gammas) t c ->
  forall a, (times_assigned S G t a <= times_posted S t a)%nat.
Proof.
  intros S G OK GK self a0 fb trap gammas t c R a.
  enough (bridges_ok S (co_bridges c) /\ (times_assigned S G t a + free1 c a <= times_posted S t a)%nat) by lia.
  induction R as [|t c e c' out R IH E].
  - split; [|cbn; lia]. intros b nym M. discriminate.
  - destruct IH as [HB IH]. destruct (step_assign S OK G GK c e c' out HB E) as [HB' HS]. split; [assumption|].
    rewrite times_assigned_snoc, times_posted_snoc. specialize (HS a). cbn [stOut]. lia.
Qed.

(** In particular a bridge posted once is in the assignments of at most one request. *)
Theorem C45_posted_once : forall S G, suite_ok S -> gob_ok G ->
  forall self a0 fb trap gammas t c, run S G (init_coord S self a0 fb trap gammas) t c ->
  forall a t1 st1 t2 st2 t3, times_posted S t a = 1%nat -> t = t1 ++ st1 :: t2 ++ st2 :: t3 ->
  In a (assigned_in S G (stOut st1)) -> ~ In a (assigned_in S G (stOut st2)).
Proof.
  intros S G OK GK self a0 fb trap gammas t c R a t1 st1 t2 st2 t3 P -> I1 I2.
  pose proof (C45_assigned_at_most_posted S G OK GK _ _ _ _ _ _ _ R a) as L. rewrite P in L.
  unfold times_assigned in L. rewrite map_app, list_sum_app in L. cbn [map list_sum fold_right] in L.
  fold (list_sum (map (fun st => count_occ keq (assigned_in S G (stOut st)) a) (t2 ++ st2 :: t3))) in L.
  rewrite map_app, list_sum_app in L. cbn [map list_sum fold_right] in L.
  apply (count_occ_In keq) in I1, I2. lia.
Qed.

(** ** C46 *)
Definition unused (c : coord) : list (bytes * (option Z * bool)) :=
  filter (fun b => negb (snd (snd b))) (co_bridges c).

Lemma filter_ext_len {K V} `{EqK K} (f : V -> bool) : forall (m m0 : amap K V),
  (forall k v, In (k, v) m -> mget m0 k = Some v) ->
  length (filter (fun b => f (snd b)) m) =
  length (filter (fun k => match mget m0 k with Some v => f v | None => false end) (mkeys m)).
Proof.
  induction m as [|[k v] m IH]; intros m0 I; [reflexivity|]. cbn [filter mkeys map fst snd].
  rewrite (I k v) by (now left). assert (IH' := IH m0 (fun k v X => I k v (or_intror X))). unfold mkeys in IH'.
  destruct (f v); cbn [length]; now rewrite IH'.
Qed.

Lemma free_list_unused c : mwf (co_bridges c) -> length (free_list (co_bridges c)) = length (unused c).
Proof.
  intros W. unfold free_list, unused. symmetry.
  rewrite (filter_ext_len (fun v : option Z * bool => negb (snd v)) _ (co_bridges c)).
  - f_equal. apply filter_ext. intros a. unfold bridge_free. destruct (mget (co_bridges c) a) as [[? ?]|]; reflexivity.
  - intros k v I. now apply mwf_In.
Qed.

Lemma got_loop_mwf S G j rq : forall l sigs c out0 c' out, got_loop S G c j rq sigs l out0 = Some (c', out) ->
  mwf (co_bridges c) -> mwf (co_bridges c').
Proof.
  induction l as [|x l IH]; intros sigs c out0 c' out E W; cbn [got_loop] in E.
  - injection E as <- <-. assumption.
  - odestruct E;
      match goal with H : add_asig _ _ _ _ = Some _ |- _ => apply add_asig_frame in H; destruct H as (y & ->) end;
      (eapply IH; [exact E|]); cbn [co_bridges set_bridges set_asigs]; [|assumption]. now apply mwf_mset.
Qed.

Lemma mwf_keys {K V} `{EqK K} (m m' : amap K V) : mkeys m' = mkeys m -> mwf m -> mwf m'.
Proof. unfold mwf. now intros ->. Qed.

Lemma step_mwf S G c e c' out : mwf (co_bridges c) -> co_step S G c e = Some (c', out) -> mwf (co_bridges c').
Proof.
  intros W E. destruct (co_step_frame S G c e c' out E) as [F _].
  assert (same : ~ In FBridges (writes_ev e) -> mwf (co_bridges c')).
  { intros N. pose proof (F FBridges N) as E1. cbn [agree] in E1. now rewrite E1. }
  destruct e as [ty p src rn| |fakes ord| |ord rs]; cbn [co_step writes_ev] in *.
  2,3,4: apply same; cbn; intuition discriminate.
  2:{ unfold round_end in E. destruct (last_server c) as [ls|]; [|now injection E as <- <-].
      odestruct E. injection E as <- <-. apply mwf_nil. }
  destruct (Z.eq_dec ty POST_BRIDGE) as [->|N1]; [|destruct (Z.eq_dec ty REQUEST_BRIDGES) as [->|N2];
    [|destruct (Z.eq_dec ty GOT_SIGNS) as [->|N3]]].
  - change (co_handle S G c POST_BRIDGE p src rn) with (co_post S c p) in E. unfold co_post in E.
    odestruct E; injection E as <- <-; [assumption|]. now apply mwf_mset.
  - change (co_handle S G c REQUEST_BRIDGES p src rn) with (co_request S G c p src rn) in E.
    destruct (co_request_spec _ _ _ _ _ _ _ _ E) as [[-> ->]|
      (ind & nymR & bn & m & brs & mp & x & E1 & E2 & E3 & E4 & E5 & -> & _)]; [assumption|].
    destruct (get_bridges_spec _ _ _ _ _ E5) as (_ & _ & _ & _ & K). eapply mwf_keys; [exact K|assumption].
  - change (co_handle S G c GOT_SIGNS p src rn) with (co_got S G c p src) in E. unfold co_got in E.
    odestruct E; try (injection E as <- <-; assumption). eapply got_loop_mwf; eassumption.
  - apply same. unfold writes. rewrite (proj2 (Z.eqb_neq _ _) N1), (proj2 (Z.eqb_neq _ _) N2), (proj2 (Z.eqb_neq _ _) N3).
    repeat match goal with |- context [ty =? ?x] => destruct (ty =? x) end; cbn; intuition discriminate.
Qed.

Lemma run_bridges S G : suite_ok S -> gob_ok G -> forall self a0 fb trap gammas t c,
  run S G (init_coord S self a0 fb trap gammas) t c -> mwf (co_bridges c) /\ bridges_ok S (co_bridges c).
Proof.
  intros OK GK self a0 fb trap gammas t c R. induction R as [|t c e c' out R IH E].
  - split; [constructor|]. intros b nym M. discriminate.
  - destruct IH as [W HB]. split; [eapply step_mwf; eassumption|].
    exact (proj1 (step_assign S OK G GK c e c' out HB E)).
Qed.

(** The request in [p] carries a valid signature of its nym and a valid proof. *)
Definition request_valid (S : suite) (G : gob) (c : coord) (p : params) (ind nymR : Z) : Prop :=
  exists bn sig m, get_int p "ind"%str = Some ind /\ get_bytes p "nym"%str = Some bn /\
    get_bytes p "signature"%str = Some sig /\ member (sP S) (sQ S) nymR /\ be_to_z bn = nymR /\
    msg_request p = Some m /\ eg_verify S m nymR sig (co_G c) = true /\
    verify_ind S G (co_pb c) (co_fb c) p (mget (co_ecomms c) nymR) = Some true.

(** C46: in every reachable state with at least one round begun, for every valid request
    and all map iteration orders, exactly min(max(ind,0), unused) distinct unused bridges
    are assigned, with their provider and the requester, to be signed by every server;
    these are marked used and no other bridge changes. *)
Theorem C46_exact : forall S G, suite_ok S -> gob_ok G ->
  forall self a0 fb trap gammas t c, run S G (init_coord S self a0 fb trap gammas) t c -> co_reqs c <> None ->
  forall p src rn ind nymR, request_valid S G c p ind nymR ->
  (forall i, range_order (crBridges rn i) (co_bridges c)) ->
  exists l c' out, co_handle S G c REQUEST_BRIDGES p src rn = Some (c', out) /\
    Z.of_nat (length l) = Z.min (Z.max ind 0) (Z.of_nat (length (unused c))) /\
    NoDup (map asAddr l) /\
    (forall x, In x l -> asNymR x = Some nymR /\ mget (co_bridges c) (asAddr x) = Some (asNym x, false) /\
       asNym x <> None /\ mget (co_bridges c') (asAddr x) = Some (asNym x, true)) /\
    (forall a, ~ In a (map asAddr l) -> mget (co_bridges c') a = mget (co_bridges c) a) /\
    (l = [] -> out = []) /\
    (l <> [] -> map mDst out = map fst (co_servers c) /\
       forall m, In m out -> mType m = SIGN_ASSIGNMENTS /\
         exists b, get_bytes (mParams m) "assignments"%str = Some b /\ dec_assignments S G b = Some l).
Proof.
  intros S G OK GK self a0 fb trap gammas t c R HR p src rn ind nymR
    (bn & sig & mm & E1 & E2 & E3 & Mem & Eb & Em & EV & EI) HO.
  destruct (run_bridges S G OK GK _ _ _ _ _ _ _ R) as [W HB].
  assert (E4 : dec_point S bn = Some nymR) by (apply (C23_point_decode_exact S OK); auto).
  change (co_handle S G c REQUEST_BRIDGES p src rn) with (co_request S G c p src rn).
  assert (HG : in_group S nymR) by (now apply member_in_group).
  destruct (co_reqs c) as [reqs|] eqn:ER; [|congruence].
  unfold co_request. rewrite E1, E3, E2, E4, Em, EV, EI, ER. cbn [negb]. cbv zeta. unfold assign_bridges.
  cbn [co_bridges set_reqs].
  pose proof (get_bridges_count (Z.to_nat ind) (crBridges rn) (co_bridges c) W HO) as CN.
  destruct (get_bridges (Z.to_nat ind) (crBridges rn) (co_bridges c)) as [brs mp] eqn:E7.
  destruct (get_bridges_spec _ _ _ _ _ E7) as (ND & _ & I1 & O1 & _).
  pose proof (taken_assignment_ok S nymR _ _ _ _ _ HG HB E7) as AOK.
  cbn [fst] in CN. rewrite free_list_unused in CN by assumption.
  set (l := map (fun b : bytes * option Z => Assign (Some nymR) (fst b) (snd b)) brs) in *.
  assert (Ll : length l = length brs) by apply map_length.
  assert (La : map asAddr l = map fst brs) by (unfold l; now rewrite map_map).
  assert (HI : forall x, In x l -> asNymR x = Some nymR /\ mget (co_bridges c) (asAddr x) = Some (asNym x, false) /\
       asNym x <> None /\ mget mp (asAddr x) = Some (asNym x, true)).
  { intros x Ix. apply in_map_iff in Ix. destruct Ix as ((a & n) & <- & Ix). cbn [asNymR asAddr asNym fst snd].
    destruct (I1 _ _ Ix) as [M M']. split; [reflexivity|]. split; [assumption|]. split; [|assumption].
    destruct (HB _ _ M) as (q & -> & _). discriminate. }
  exists l.
  assert (LZ : Z.of_nat (length l) = Z.min (Z.max ind 0) (Z.of_nat (length (unused c)))) by lia.
  rewrite <- La in ND, O1.
  clearbody l. destruct l as [|a1 l1].
  - do 2 eexists. split; [reflexivity|]. cbn [co_bridges set_bridges].
    do 4 (split; [assumption|]). split; [reflexivity|congruence].
  - match goal with |- context [open_assignments S ?c1 ?l1] => destruct (open_total S l1 c1) as (x & Hx); rewrite Hx end.
    assert (F : forall k, In k ["FOCommd"%str; "PCommd"%str; "PCommind"%str; "rind"%str; "arg_nonneg"%str; "arg_equal"%str] ->
      exists v, get_bytes p k = Some v).
    { unfold msg_request in Em. rewrite E1, E2 in Em. odestruct Em. intros k Ik. cbn [In] in Ik.
      repeat destruct Ik as [<-|Ik]; try eauto. destruct Ik. }
    destruct (F "FOCommd"%str) as (v1 & ->); [cbn; tauto|]. destruct (F "PCommd"%str) as (v2 & ->); [cbn; tauto|].
    destruct (F "PCommind"%str) as (v3 & ->); [cbn; tauto|]. destruct (F "rind"%str) as (v4 & ->); [cbn; tauto|].
    destruct (F "arg_nonneg"%str) as (v5 & ->); [cbn; tauto|]. destruct (F "arg_equal"%str) as (v6 & ->); [cbn; tauto|].
    do 2 eexists. split; [reflexivity|]. cbn [co_bridges set_bridges set_asigs].
    do 4 (split; [assumption|]). split; [discriminate|]. intros _. split.
    + unfold to_servers. rewrite map_map. reflexivity.
    + intros m I. split; [eapply to_servers_type; eassumption|]. apply in_map_iff in I. destruct I as (? & <- & _).
      eexists. split; [reflexivity|]. now apply C27_assignments_round_trip.
Qed.

(** ** C47 *)
(** In the history [t] server [src] sent signature [sig] for bridge [a]. *)
Definition received (S : suite) (G : gob) (t : list step) (a : bytes) (src : addr) (sig : bytes) : Prop :=
  exists st p rn ba bs l sigs k x, In st t /\ stEvent st = EMsg GOT_SIGNS p src rn /\
    get_bytes p "assignments"%str = Some ba /\ dec_assignments S G ba = Some l /\
    get_bytes p "signatures"%str = Some bs /\ gdec_2d G bs = Some sigs /\
    nth_error l k = Some x /\ asAddr x = a /\ nth_error sigs k = Some sig.
(** [m] hands the assignment of bridge [a] with the signatures [sigs] to a requester. *)
Definition releases (S : suite) (G : gob) (m : msg) (a : bytes) (sigs : list bytes) : Prop :=
  mType m = GOT_SIGNS /\
  exists ba x bs, get_bytes (mParams m) "assignment"%str = Some ba /\ dec_assignment S ba = Some x /\ asAddr x = a /\
    get_bytes (mParams m) "signatures"%str = Some bs /\ gdec_2d G bs = Some sigs.
(** [sigs] has, in the order of the servers, a signature received from each of them for
    bridge [a], and the coordinator's own signature of an assignment of [a]. *)
Definition all_signatures (S : suite) (G : gob) (t : list step) (c : coord) (a : bytes) (sigs : list bytes) : Prop :=
  length sigs = (length (co_servers c) + 1)%nat /\
  (forall i src pk, nth_error (co_servers c) i = Some (src, pk) ->
     exists sig, nth_error sigs i = Some sig /\ received S G t a src sig) /\
  (exists x, asAddr x = a /\ nth_error sigs (length (co_servers c)) = Some (co_sign S c (enc_assignment S x))).
(** The step is not a reply of a server that has already replied, since the assignment was
    made, for one of the bridges it names. *)
Definition first_reply (S : suite) (G : gob) (st : step) : Prop :=
  forall p src rn j ba l, stEvent st = EMsg GOT_SIGNS p src rn -> server_index (stBefore st) src = Some j ->
    get_bytes p "assignments"%str = Some ba -> dec_assignments S G ba = Some l ->
    NoDup (map asAddr l) /\
    forall x slots n sig, In x l -> mget (co_asigs (stBefore st)) (asAddr x) = Some (slots, n) ->
      nth_error slots j <> Some (Some sig).

Definition filled (l : list (option bytes)) : nat :=
  length (filter (fun o => match o with Some _ => true | None => false end) l).
Lemma filled_le l : (filled l <= length l)%nat.
Proof. unfold filled. induction l as [|[b|] l IH]; cbn in *; lia. Qed.
Lemma filled_all l : filled l = length l -> forall i, (i < length l)%nat -> exists s, nth_error l i = Some (Some s).
Proof.
  induction l as [|[b|] l IH]; cbn; intros E i Hi; [lia| |].
  - destruct i as [|i]; cbn; [eauto|]. apply IH; [|lia]. unfold filled in *. cbn in E. lia.
  - pose proof (filled_le l). unfold filled in *. cbn in E. lia.
Qed.
Lemma filled_set l : forall i x l', set_nth l i (Some x) = Some l' -> (forall s, nth_error l i <> Some (Some s)) ->
  filled l' = Datatypes.S (filled l).
Proof.
  induction l as [|o l IH]; intros [|i] x l' E N; cbn in E; try discriminate.
  - injection E as <-. destruct o as [b|]; [now destruct (N b)|]. reflexivity.
  - destruct (set_nth l i (Some x)) eqn:E1; [|discriminate]. injection E as <-.
    pose proof (IH _ _ _ E1 N) as E2. unfold filled in *. cbn. destruct o; cbn; lia.
Qed.
Lemma filled_repeat n : filled (repeat None n) = 0%nat.
Proof. induction n; [reflexivity|]. unfold filled in *. cbn. assumption. Qed.
Lemma filled_app a b : filled (a ++ b) = (filled a + filled b)%nat.
Proof. unfold filled. rewrite filter_app, app_length. reflexivity. Qed.

Lemma dec_fields_ok S fs : suite_ok S -> forall a0 a, assignment_ok S a0 -> dec_assignment_fields S fs a0 = Some a -> assignment_ok S a.
Proof.
  intros OK. induction fs as [|[f w] fs IH]; intros a0 a H E; cbn [dec_assignment_fields] in E.
  - now injection E as <-.
  - odestruct E; try (eapply IH; [|exact E]; try assumption);
    destruct H as [H1 H2]; split; cbn [asNymR asNym]; try assumption; intros q [= <-];
      match goal with X : dec_point S _ = Some _ |- _ => apply (C23_point_decode_exact S OK) in X; tauto end.
Qed.
Lemma dec_assignment_ok S b a : suite_ok S -> dec_assignment S b = Some a -> assignment_ok S a.
Proof.
  intros OK E. unfold dec_assignment in E. odestruct E. eapply dec_fields_ok; [assumption| |exact E].
  split; cbn; discriminate.
Qed.
Lemma dec_assignments_ok S G b l : suite_ok S -> dec_assignments S G b = Some l -> forall x, In x l -> assignment_ok S x.
Proof.
  intros OK E x I. unfold dec_assignments in E. odestruct E. apply dec_all_spec in E.
  match goal with X : gdec_2d _ _ = _ |- _ => clear X end. revert I. induction E as [|a b' la lb Eab F IH]; [intros []|]. intros [<-|I]; [|now apply IH].
  eapply dec_assignment_ok; eassumption.
Qed.

Section C47.
Context (S : suite) (OK : suite_ok S) (G : gob) (GK : gob_ok G).

(** The invariant: an entry's count is the number of its filled slots; slot i was filled
    by server i and the last slot by the coordinator. *)
Definition entry_ok (R : bytes -> addr -> bytes -> Prop) (c : coord) (a : bytes) (slots : list (option bytes)) (n : Z) : Prop :=
  n = Z.of_nat (filled slots) /\
  exists k x, (k <= length (co_servers c))%nat /\ length slots = (k + 1)%nat /\ asAddr x = a /\
    nth_error slots k = Some (Some (co_sign S c (enc_assignment S x))) /\
    forall i sig, (i < k)%nat -> nth_error slots i = Some (Some sig) ->
      exists src pk, nth_error (co_servers c) i = Some (src, pk) /\ R a src sig.
Definition log_ok (R : bytes -> addr -> bytes -> Prop) (c : coord) : Prop :=
  forall a slots n, mget (co_asigs c) a = Some (slots, n) -> entry_ok R c a slots n.

Lemma entry_ok_mono (R R' : bytes -> addr -> bytes -> Prop) c a sl n : (forall a s g, R a s g -> R' a s g) ->
  entry_ok R c a sl n -> entry_ok R' c a sl n.
Proof.
  intros HR (E & k & x & L1 & L2 & A & N & HI). split; [assumption|]. exists k, x. do 4 (split; [assumption|]).
  intros i sig Hi Hn. destruct (HI i sig Hi Hn) as (src & pk & H1 & H2). eauto.
Qed.

Lemma open_log (R : bytes -> addr -> bytes -> Prop) l : forall c c', log_ok R c -> open_assignments S c l = Some c' -> log_ok R c'.
Proof.
  induction l as [|a l IH]; intros c c' H E; cbn [open_assignments] in E; [now injection E as <-|].
  rewrite open_one in E. refine (IH _ _ _ E). intros b sl n M. cbn [co_asigs set_asigs] in M. rewrite mget_mset in M.
  destruct (keq b (asAddr a)) as [->|Nb].
  - injection M as <- <-. split; [rewrite filled_app, filled_repeat; reflexivity|].
    exists (length (co_servers c)), a. cbn [co_servers set_asigs]. rewrite app_length, repeat_length. split; [lia|]. split; [reflexivity|].
    split; [reflexivity|]. split.
    + rewrite nth_error_app2 by (rewrite repeat_length; lia). rewrite repeat_length, Nat.sub_diag. reflexivity.
    + intros i sig Hi E1. rewrite nth_error_app1 in E1 by (rewrite repeat_length; lia).
      apply nth_error_In in E1. apply repeat_spec in E1. discriminate.
  - rewrite mget_mset_ne in M by congruence. apply (H b sl n M).
Qed.

Lemma server_index_nth l : forall a i j, server_index_from i l a = Some j ->
  (i <= j)%nat /\ exists pk, nth_error l (j - i) = Some (a, pk).
Proof.
  induction l as [|[b pk] l IH]; intros a i j E; cbn [server_index_from] in E; [discriminate|].
  destruct (keq b a) as [->|N].
  - injection E as <-. split; [lia|]. rewrite Nat.sub_diag. cbn. eauto.
  - destruct (IH _ _ _ E) as (L & pk' & E'). split; [lia|]. exists pk'.
    replace (j - i)%nat with (Datatypes.S (j - Datatypes.S i)) by lia. exact E'.
Qed.

Lemma nth_error_tl {A} (l : list A) k : nth_error (tl l) k = nth_error l (Datatypes.S k).
Proof. destruct l; [now destruct k|reflexivity]. Qed.

Lemma got_loop_log (R : bytes -> addr -> bytes -> Prop) j rq src pk : forall l sigs c out0 c' out,
  got_loop S G c j rq sigs l out0 = Some (c', out) -> nth_error (co_servers c) j = Some (src, pk) ->
  log_ok R c -> (forall x, In x l -> assignment_ok S x) -> NoDup (map asAddr l) ->
  (forall x sl n sig, In x l -> mget (co_asigs c) (asAddr x) = Some (sl, n) -> nth_error sl j <> Some (Some sig)) ->
  (forall k x sig, nth_error l k = Some x -> nth_error sigs k = Some sig -> R (asAddr x) src sig) ->
  log_ok R c' /\
  forall m a ss, In m out -> releases S G m a ss -> In m out0 \/
    (length ss = (length (co_servers c) + 1)%nat /\
     (forall i s pk, nth_error (co_servers c) i = Some (s, pk) -> exists sig, nth_error ss i = Some sig /\ R a s sig) /\
     (exists x, asAddr x = a /\ nth_error ss (length (co_servers c)) = Some (co_sign S c (enc_assignment S x)))).
Proof.
  induction l as [|x l IH]; intros sigs c out0 c' out E HJ HL HA ND HG HR; cbn [got_loop] in E.
  - injection E as <- <-. split; [assumption|]. tauto.
  - destruct (nth_error sigs 0) as [sig|] eqn:ES; [|discriminate].
    destruct (add_asig c (asAddr x) j sig) as [c1|] eqn:EA; [|discriminate].
    pose proof EA as EA0. unfold add_asig in EA.
    destruct (mget (co_asigs c) (asAddr x)) as [[sl n]|] eqn:EM; [|discriminate].
    destruct (set_nth sl j (Some sig)) as [sl'|] eqn:ESN; [|discriminate]. injection EA as <-.
    set (c1 := set_asigs c (mset (co_asigs c) (asAddr x) (sl', n + 1))) in *.
    cbn [map] in ND. inversion ND as [|? ? NI ND']; subst.
    assert (Rx : R (asAddr x) src sig) by (apply (HR 0%nat x sig); [reflexivity|assumption]).
    assert (HL1 : log_ok R c1).
    { intros b sb nb M. unfold c1 in M. cbn [co_asigs set_asigs] in M. rewrite mget_mset in M.
      destruct (keq b (asAddr x)) as [->|Nb]; [|apply (HL b sb nb M)].
      injection M as <- <-. destruct (HL _ _ _ EM) as (En & k & y & L1 & L2 & A & N & HI).
      assert (NE : forall s, nth_error sl j <> Some (Some s)) by (intros s; apply (HG x sl n s); [now left|assumption]).
      split; [rewrite (filled_set _ _ _ _ ESN NE); lia|].
      destruct (set_nth_spec _ _ _ _ ESN) as [Lj Nj]. exists k, y.
      assert (j <> k) by (intros ->; now apply (NE _ N)).
      unfold c1. cbn [co_servers set_asigs]. split; [assumption|]. split; [now rewrite (set_nth_length _ _ _ _ ESN)|]. split; [assumption|].
      split.
      - rewrite Nj. destruct (Nat.eqb_spec k j); [congruence|]. exact N.
      - intros i s Hi E1. rewrite Nj in E1. destruct (Nat.eqb_spec i j) as [->|Nij].
        + injection E1 as <-. eauto.
        + apply (HI i s Hi E1). }
    assert (HG1 : forall c2, co_asigs c2 = co_asigs c1 ->
      forall y sy ny sg, In y l -> mget (co_asigs c2) (asAddr y) = Some (sy, ny) -> nth_error sy j <> Some (Some sg)).
    { intros c2 E2 y sy ny sg Iy My. rewrite E2 in My. unfold c1 in My. cbn [co_asigs set_asigs] in My.
      rewrite mget_mset_ne in My; [apply (HG y sy ny sg (or_intror Iy) My)|].
      intros Ex. apply NI. rewrite Ex. now apply in_map. }
    assert (HR1 : forall k y sg, nth_error l k = Some y -> nth_error (tl sigs) k = Some sg -> R (asAddr y) src sg).
    { intros k y sg H1 H2. rewrite nth_error_tl in H2. now apply (HR (Datatypes.S k) y sg). }
    destruct (asigs_done c1 (asAddr x)) eqn:ED.
    + cbv zeta in E.
      set (c2 := set_bridges c1 _) in *. set (pm := [("assignment"%str, _); _]) in *.
      destruct (msg_got pm) as [mg|] eqn:EMG; [|discriminate].
      destruct (send (co_addr c) rq GOT_SIGNS (pm ++ [("signature"%str, VBytes (co_sign S c2 mg))])) as [ms|] eqn:ESD; [|discriminate].
      apply IH in E; [|assumption|exact HL1|intros y Iy; apply HA; now right|assumption|apply HG1; reflexivity|assumption].
      destruct E as [HL' HO]. split; [assumption|].
      intros m a ss Im Hm. destruct (HO m a ss Im Hm) as [I|I]; [|right; exact I].
      apply in_app_iff in I. destruct I as [I|[<-|[]]]; [now left|]. right.
      unfold send in ESD. odestruct ESD. injection ESD as <-.
      destruct Hm as (_ & ba & y & bs & H1 & H2 & H3 & H4 & H5). unfold get_bytes in H1, H4.
      cbn [mParams pm app lookup String.eqb Ascii.eqb Bool.eqb] in H1, H4.
      injection H1 as <-. injection H4 as <-.
      rewrite (assignment_round_trip S x OK (HA x (or_introl eq_refl))) in H2. injection H2 as <-. subst a.
      rewrite (g_2d G GK) in H5. injection H5 as <-.
      unfold asigs_done in ED. change (co_asigs c2) with (co_asigs c1). unfold get_asigs.
      change (co_asigs c2) with (co_asigs c1).
      destruct (mget (co_asigs c1) (asAddr x)) as [[s1 n1]|] eqn:EM1; [|discriminate].
      apply Z.eqb_eq in ED. destruct (HL1 _ _ _ EM1) as (En & k & y & L1 & L2 & A & N & HI).
      change (co_servers c1) with (co_servers c) in *.
      pose proof (filled_le s1). assert (k = length (co_servers c)) by lia. subst k.
      assert (FA : filled s1 = length s1) by lia.
      rewrite map_length. split; [assumption|]. split.
      * intros i s pks Hi. assert (i < length (co_servers c))%nat by (apply nth_error_Some; congruence).
        destruct (filled_all s1 FA i ltac:(lia)) as (sg & Hsg). exists sg.
        split; [exact (map_nth_error _ i s1 Hsg)|]. destruct (HI i sg ltac:(lia) Hsg) as (s' & pk' & E1 & E2). congruence.
      * exists y. split; [assumption|]. exact (map_nth_error _ _ s1 N).
    + apply IH in E; [|assumption|exact HL1|intros y Iy; apply HA; now right|assumption|apply HG1; reflexivity|assumption].
      exact E.
Qed.

Lemma log_ok_frame (R R' : bytes -> addr -> bytes -> Prop) c c' : (forall a s g, R a s g -> R' a s g) ->
  co_asigs c' = co_asigs c -> co_static c' = co_static c ->
  (forall i x, nth_error (co_servers c) i = Some x -> nth_error (co_servers c') i = Some x) ->
  log_ok R c -> log_ok R' c'.
Proof.
  intros HR EA ES HS HL a sl n M. rewrite EA in M. destruct (HL a sl n M) as (En & k & x & L1 & L2 & A & N & HI).
  split; [assumption|]. exists k, x. split.
  { assert (length (co_servers c) <= length (co_servers c'))%nat; [|lia].
    destruct (co_servers c) as [|y l] eqn:El; [cbn; lia|]. rewrite <- El in *.
    assert (Hlt : (length (co_servers c) - 1 < length (co_servers c))%nat) by (rewrite El; cbn; lia).
    apply nth_error_Some in Hlt. destruct (nth_error (co_servers c) (length (co_servers c) - 1)) eqn:E; [|congruence].
    apply HS in E. assert (length (co_servers c) - 1 < length (co_servers c'))%nat by (apply nth_error_Some; congruence). lia. }
  split; [assumption|]. split; [assumption|]. split; [unfold co_sign, co_priv in *; now rewrite ES|].
  intros i sig Hi Hn. destruct (HI i sig Hi Hn) as (src & pk & H1 & H2). exists src, pk. split; [now apply HS|now apply HR].
Qed.

Lemma step_log t c e c' out : co_step S G c e = Some (c', out) -> first_reply S G (Step c e c' out) ->
  log_ok (received S G t) c ->
  let t' := t ++ [Step c e c' out] in
  log_ok (received S G t') c' /\
  forall m a ss, In m out -> releases S G m a ss -> all_signatures S G t' c a ss.
Proof.
  intros E FR HL t'. destruct (co_step_frame S G c e c' out E) as [F O].
  assert (RM : forall a s g, received S G t a s g -> received S G t' a s g).
  { intros a s g (st & H). exists st. decompose [ex and] H. do 8 eexists. split; [apply in_app_iff; left; eassumption|].
    repeat split; eassumption. }
  assert (same : ~ In FASigs (writes_ev e) -> ~ In GOT_SIGNS (emits_ev e) ->
    (forall i x, nth_error (co_servers c) i = Some x -> nth_error (co_servers c') i = Some x) ->
    log_ok (received S G t') c' /\ forall m a ss, In m out -> releases S G m a ss -> all_signatures S G t' c a ss).
  { intros N1 N2 HS. split.
    - eapply log_ok_frame; [exact RM| | |exact HS|exact HL]; [exact (F FASigs N1)|].
      apply (F FStatic). destruct e as [ty p src rn| | | |]; cbn [writes_ev]; try (cbn; intuition discriminate).
      unfold writes. repeat match goal with |- context [ty =? ?x] => destruct (ty =? x) end; cbn; intuition discriminate.
    - intros m a ss I [Ht _]. apply O in I. rewrite Ht in I. contradiction. }
  destruct e as [ty p src rn| |fakes ord| |ord rs].
  2,3,4,5: cbn [writes_ev emits_ev] in *; apply same; try (cbn; intuition discriminate);
    (assert (ESv : co_servers c' = co_servers c) by (apply (F FServers); cbn; intuition discriminate)); rewrite ESv; auto.
  destruct (Z.eq_dec ty SERVER_REGISTER) as [->|N0]; [|destruct (Z.eq_dec ty REQUEST_BRIDGES) as [->|N2];
    [|destruct (Z.eq_dec ty GOT_SIGNS) as [->|N3]]].
  - apply same; try (cbn; intuition discriminate).
    cbn [co_step] in E. change (co_handle S G c SERVER_REGISTER p src rn) with (co_server_register S c p src) in E.
    unfold co_server_register in E. odestruct E. injection E as <- <-. intros i x Hi.
    cbn [co_servers add_server set_servers]. rewrite nth_error_app1; [assumption|]. apply nth_error_Some. congruence.
  - assert (NR : forall m a ss, In m out -> releases S G m a ss -> all_signatures S G t' c a ss).
    { intros m a ss I [Ht _]. apply O in I. rewrite Ht in I. cbn in I. intuition discriminate. }
    split; [|assumption].
    cbn [co_step] in E. change (co_handle S G c REQUEST_BRIDGES p src rn) with (co_request S G c p src rn) in E.
    unfold co_request in E.
    assert (HLc : forall c1, co_asigs c1 = co_asigs c -> co_static c1 = co_static c -> co_servers c1 = co_servers c ->
      log_ok (received S G t') c1).
    { intros c1 H1 H2 H3. eapply log_ok_frame; [exact RM|exact H1|exact H2| |exact HL]. now rewrite H3. }
    clear same. odestruct E; try (injection E as <- <-); try (apply HLc; reflexivity).
    + match goal with H : assign_bridges _ _ _ _ = _ |- _ => unfold assign_bridges in H;
        destruct (get_bridges _ _ _) as [brs mm]; injection H as Hl <- end. apply HLc; reflexivity.
    + match goal with H : assign_bridges _ _ _ _ = _ |- _ => unfold assign_bridges in H;
        destruct (get_bridges _ _ _) as [brs mm]; injection H as Hl <- end.
      eapply open_log; [|eassumption]. apply HLc; reflexivity.
  - cbn [co_step] in E. change (co_handle S G c GOT_SIGNS p src rn) with (co_got S G c p src) in E.
    unfold co_got in E.
    destruct (get_bool p "success"%str) as [ok|]; [|discriminate].
    destruct ok; cbn [negb] in E.
    2:{ injection E as <- <-. split; [|intros m a ss []]. eapply log_ok_frame; [exact RM| | | |exact HL]; auto. }
    destruct (server_index c src) as [j|] eqn:EJ.
    2:{ injection E as <- <-. split; [|intros m a ss []]. eapply log_ok_frame; [exact RM| | | |exact HL]; auto. }
    destruct (get_bytes p "assignments"%str) as [ba|] eqn:E1; [|discriminate].
    destruct (dec_assignments S G ba) as [l|] eqn:E2; [|discriminate].
    destruct (get_bytes p "signatures"%str) as [bs|] eqn:E3; [|discriminate].
    destruct (gdec_2d G bs) as [sigs|] eqn:E4; [|discriminate].
    destruct (nth_error l 0) as [x0|]; [|discriminate]. destruct (asNymR x0) as [nr|]; [|discriminate]. cbv zeta in E.
    destruct (FR p src rn j ba l eq_refl EJ E1 E2) as [ND HG].
    destruct (server_index_nth _ _ _ _ EJ) as (_ & pk & HJ). rewrite Nat.sub_0_r in HJ.
    eapply (got_loop_log (received S G t')) in E; [|eassumption| | |exact ND|exact HG|].
    + destruct E as [HL' HO]. split; [exact HL'|]. intros m a ss I Hm. destruct (HO m a ss I Hm) as [[]|H]. exact H.
    + eapply log_ok_frame; [exact RM| | | |exact HL]; auto.
    + eapply dec_assignments_ok; eassumption.
    + intros k x sig Hx Hs. exists (Step c (EMsg GOT_SIGNS p src rn) c' out), p, rn, ba, bs, l, sigs, k, x.
      split; [apply in_app_iff; right; now left|]. repeat split; assumption.
  - assert (W1 : ~ In FASigs (writes ty)).
    { unfold writes. rewrite (proj2 (Z.eqb_neq _ _) N2), (proj2 (Z.eqb_neq _ _) N3).
      repeat match goal with |- context [ty =? ?x] => destruct (ty =? x) end; cbn; intuition discriminate. }
    assert (W2 : ~ In FServers (writes ty)).
    { unfold writes. rewrite (proj2 (Z.eqb_neq _ _) N0).
      repeat match goal with |- context [ty =? ?x] => destruct (ty =? x) end; cbn; intuition discriminate. }
    assert (W3 : ~ In GOT_SIGNS (emits ty)).
    { unfold emits. rewrite (proj2 (Z.eqb_neq _ _) N2), (proj2 (Z.eqb_neq _ _) N3).
      repeat match goal with |- context [ty =? ?x] => destruct (ty =? x) end; cbn; intuition discriminate. }
    apply same; try assumption. intros i x. now rewrite (F FServers W2 : co_servers c' = co_servers c).
Qed.
End C47.

(** C47, the part that holds: in every history in which no server replies twice for the
    same assignment, an assignment is handed to a requester only with a signature received
    from every server, in the order of the servers, and the coordinator's own.  Missing:
    the coordinator does not enforce the restriction (see below). *)
Theorem C47_all_signatures_partial : forall S G, suite_ok S -> gob_ok G ->
  forall self a0 fb trap gammas t c, run S G (init_coord S self a0 fb trap gammas) t c ->
  (forall st, In st t -> first_reply S G st) ->
  forall t1 st t2, t = t1 ++ st :: t2 -> forall m a sigs, In m (stOut st) -> releases S G m a sigs ->
  all_signatures S G (t1 ++ [st]) (stBefore st) a sigs.
Proof.
  intros S G OK GK self a0 fb trap gammas t c R.
  enough (HH : (forall st, In st t -> first_reply S G st) -> log_ok S (received S G t) c /\
    forall t1 st t2, t = t1 ++ st :: t2 -> forall m a sigs, In m (stOut st) -> releases S G m a sigs ->
      all_signatures S G (t1 ++ [st]) (stBefore st) a sigs) by (intros HF; exact (proj2 (HH HF))).
  induction R as [|t c e c' out R IH E]; intros HF.
  - split; [intros b sl n M; discriminate|]. intros [|? ?] st t2 E; discriminate.
  - destruct (IH (fun st I => HF st (proj2 (in_app_iff _ _ _) (or_introl I)))) as [HL HT].
    destruct (step_log S OK G GK t c e c' out E (HF _ (in_elt _ t [])) HL) as [HL' HO].
    split; [exact HL'|]. intros t1 st t2 Et m a sigs I Hm.
    destruct t2 as [|st2 t2].
    + apply app_inj_tail in Et. destruct Et as [-> <-]. apply (HO m a sigs I Hm).
    + destruct (exists_last (l := st2 :: t2)) as (u & z & Eu); [discriminate|]. rewrite Eu in Et.
      rewrite app_comm_cons, app_assoc in Et. apply app_inj_tail in Et. destruct Et as [-> _].
      apply (HT t1 st u eq_refl m a sigs I Hm).
Qed.

(** ** A concrete history: two servers, one client with reputation 5, two bridges. *)
Definition adA : addr := [x41]%byte.
Definition adB : addr := [x42]%byte.
Definition adC : addr := [x43]%byte.
Definition toy_rand : co_rand := CoRand 3 [] (fun _ => [[x62; x31]; [x62; x32]]%byte) [].
Definition ev_of (m : msg) : event := EMsg (mType m) (mParams m) (mSrc m) toy_rand.
Definition toy_c0 : coord := init_coord toy_suite adC 5 toy_fb toy_trap [1; 2; 3].
Definition toy_setup : list event :=
  [EMsg SERVER_REGISTER [("public_key"%str, VBytes (enc_point toy_suite 2))] adA toy_rand;
   EMsg SERVER_REGISTER [("public_key"%str, VBytes (enc_point toy_suite 3))] adB toy_rand;
   EConfigure; EBegin [] [];
   EMsg ANNOUNCEMENT (("g"%str, VBytes (enc_point toy_suite 8)) ::
      table_params toy_suite [cl_nym toy_client] [ped_commit_r toy_suite toy_base 5 6] (pb_GT toy_base) (pb_HT toy_base))
      adB toy_rand;
   ev_of (cl_post toy_suite toy_client [x62; x31]%byte);
   ev_of (cl_post toy_suite toy_client [x62; x32]%byte)].
Definition toy_request : event :=
  match cl_request toy_suite toy_gob toy_client 1 toy_rn with
  | Some (Some m) => ev_of m
  | _ => EConfigure
  end.
Definition toy_assign : assignment := Assign (Some (cl_nym toy_client)) [x62; x31]%byte (Some (cl_nym toy_client)).
Definition toy_got (src : addr) (sig : bytes) : event :=
  EMsg GOT_SIGNS [("success"%str, VBool true);
    ("assignments"%str, VBytes (enc_assignments toy_suite toy_gob [toy_assign]));
    ("signatures"%str, VBytes (genc_2d toy_gob [sig]))] src toy_rand.

(** The messages released in a list of steps: bridge and signatures. *)
Definition released_in (S : suite) (G : gob) (st : step) : list (bytes * list bytes) :=
  flat_map (fun m =>
    if mType m =? GOT_SIGNS then
      match get_bytes (mParams m) "assignment"%str, get_bytes (mParams m) "signatures"%str with
      | Some ba, Some bs =>
          match dec_assignment S ba, gdec_2d G bs with
          | Some x, Some sigs => [(asAddr x, sigs)]
          | _, _ => []
          end
      | _, _ => []
      end
    else []) (stOut st).
Lemma released_in_spec S G st a sigs : In (a, sigs) (released_in S G st) -> exists m, In m (stOut st) /\ releases S G m a sigs.
Proof.
  unfold released_in. intros I. apply in_flat_map in I. destruct I as (m & Im & I). exists m. split; [assumption|].
  destruct (Z.eqb_spec (mType m) GOT_SIGNS); [|destruct I].
  destruct (get_bytes (mParams m) "assignment"%str) as [ba|] eqn:E1; [|destruct I].
  destruct (get_bytes (mParams m) "signatures"%str) as [bs|] eqn:E2; [|destruct I].
  destruct (dec_assignment S ba) as [x|] eqn:E3; [|destruct I].
  destruct (gdec_2d G bs) as [ss|] eqn:E4; [|destruct I].
  destruct I as [[= <- <-]|[]]. split; [assumption|]. exists ba, x, bs. auto.
Qed.

Example C45_instance : exists t c, exec toy_suite toy_gob toy_c0 (toy_setup ++ [toy_request]) = Some (t, c) /\
  times_assigned toy_suite toy_gob t [x62; x31]%byte = 1%nat /\ times_posted toy_suite t [x62; x31]%byte = 1%nat /\
  times_assigned toy_suite toy_gob t [x62; x32]%byte = 0%nat /\ times_posted toy_suite t [x62; x32]%byte = 1%nat.
Proof. do 2 eexists. split; [vm_compute; reflexivity|]. vm_compute. auto. Qed.

Example C46_instance : exists t c p src, exec toy_suite toy_gob toy_c0 toy_setup = Some (t, c) /\
  toy_request = EMsg REQUEST_BRIDGES p src toy_rand /\
  request_valid toy_suite toy_gob c p 1 (cl_nym toy_client) /\ co_reqs c <> None /\
  (forall i, range_order (crBridges toy_rand i) (co_bridges c)) /\ length (unused c) = 2%nat.
Proof.
  do 4 eexists. split; [vm_compute; reflexivity|]. split; [vm_compute; reflexivity|]. split.
  - do 3 eexists. do 3 (split; [vm_compute; reflexivity|]). split; [|split; [vm_compute; reflexivity|
      split; [vm_compute; reflexivity|split; vm_compute; reflexivity]]].
    vm_compute. intuition congruence.
  - split; [discriminate|]. split; [|reflexivity]. intros i. unfold range_order. cbn. apply Permutation_refl.
Qed.

(** A history in which each server replies once: the hypotheses of C47 are met and the
    assignment is released. *)
Definition no_dup_reply (S : suite) (G : gob) (st : step) : bool :=
  match stEvent st with
  | EMsg ty p src rn =>
      if ty =? GOT_SIGNS then
        match server_index (stBefore st) src, get_bytes p "assignments"%str with
        | Some j, Some ba =>
            match dec_assignments S G ba with
            | Some [x] =>
                match mget (co_asigs (stBefore st)) (asAddr x) with
                | Some (slots, _) => match nth_error slots j with Some (Some _) => false | _ => true end
                | None => true
                end
            | _ => false
            end
        | _, _ => true
        end
      else true
  | _ => true
  end.
Lemma no_dup_reply_spec S G st : no_dup_reply S G st = true -> first_reply S G st.
Proof.
  unfold no_dup_reply. intros H p src rn j ba l E1 E2 E3 E4. rewrite E1 in H. change (GOT_SIGNS =? GOT_SIGNS) with true in H. cbn iota in H.
  rewrite E2, E3, E4 in H. destruct l as [|x [|y l]]; try discriminate. split; [repeat constructor; intros []|].
  intros z slots n sig [<-|[]] M. rewrite M in H. intros N. rewrite N in H. discriminate.
Qed.
Example C47_instance : exists t c, exec toy_suite toy_gob toy_c0 (toy_setup ++ [toy_request; toy_got adA [x05]%byte; toy_got adB [x07]%byte]) = Some (t, c) /\
  (forall st, In st t -> first_reply toy_suite toy_gob st) /\
  exists own, flat_map (released_in toy_suite toy_gob) t = [([x62; x31]%byte, [[x05]; [x07]; own]%byte)].
Proof.
  do 2 eexists. split; [vm_compute; reflexivity|]. split.
  - intros st I. apply no_dup_reply_spec. revert st I. apply forallb_forall. vm_compute. reflexivity.
  - eexists. vm_compute. reflexivity.
Qed.

(** C47 refuted: a history in which server A replies twice and server B never; the
    assignment is released although nothing was received from B. *)
Definition toy_twice : list event := toy_setup ++ [toy_request; toy_got adA [x05]%byte; toy_got adA [x06]%byte].
Definition not_from_B (st : step) : bool :=
  match stEvent st with EMsg ty _ src _ => negb ((ty =? GOT_SIGNS) && if keq src adB then true else false) | _ => true end.
Lemma not_from_B_spec st p rn : not_from_B st = true -> stEvent st <> EMsg GOT_SIGNS p adB rn.
Proof. intros H E. unfold not_from_B in H. rewrite E in H. vm_compute in H. discriminate. Qed.
Lemma toy_twice_run : exists t c t1 st own pk, exec toy_suite toy_gob toy_c0 toy_twice = Some (t, c) /\ t = t1 ++ [st] /\
  In ([x62; x31]%byte, [[x06]; []; own]%byte) (released_in toy_suite toy_gob st) /\
  nth_error (co_servers (stBefore st)) 1 = Some (adB, pk) /\ forallb not_from_B t = true.
Proof.
  destruct (exec toy_suite toy_gob toy_c0 toy_twice) as [[t c]|] eqn:E; [|vm_compute in E; discriminate].
  exists t, c, (removelast t), (last t (Step toy_c0 EConfigure toy_c0 [])).
  assert (X : (forallb not_from_B t && match t with [] => false | _ => true end)%bool = true /\
     (exists own, In ([x62; x31]%byte, [[x06]; []; own]%byte) (released_in toy_suite toy_gob (last t (Step toy_c0 EConfigure toy_c0 [])))) /\
     exists pk, nth_error (co_servers (stBefore (last t (Step toy_c0 EConfigure toy_c0 [])))) 1 = Some (adB, pk)).
  { replace t with (match exec toy_suite toy_gob toy_c0 toy_twice with Some (t, _) => t | None => [] end) by (now rewrite E).
    clear E t c. split; [vm_compute; reflexivity|]. split; [eexists; vm_compute; left; reflexivity|eexists; vm_compute; reflexivity]. }
  destruct X as (X1 & (own & X2) & pk & X3). apply andb_true_iff in X1. destruct X1 as [X1 X0].
  exists own, pk. split; [reflexivity|]. split; [apply app_removelast_last; intros ->; discriminate|].
  split; [exact X2|]. split; [exact X3|exact X1].
Qed.
Theorem C47_all_signatures_refuted : ~ (forall S G, suite_ok S -> gob_ok G ->
  forall self a0 fb trap gammas t c, run S G (init_coord S self a0 fb trap gammas) t c ->
  forall t1 st t2, t = t1 ++ st :: t2 -> forall m a sigs, In m (stOut st) -> releases S G m a sigs ->
  all_signatures S G (t1 ++ [st]) (stBefore st) a sigs).
Proof.
  intros H. destruct toy_twice_run as (t & c & t1 & st & own & pk & E & Et & I & HB & FB).
  pose proof (exec_run _ _ _ _ _ _ E) as R.
  destruct (released_in_spec _ _ _ _ _ I) as (m & Im & Rm).
  destruct (H toy_suite toy_gob toy_ok toy_gob_ok _ _ _ _ _ _ _ R t1 st [] Et m _ _ Im Rm) as (_ & HS & _).
  destruct (HS _ _ _ HB) as (sig & _ & (s & p & rn & ba & bs & l & sigs & k & x & Is & Es & _)).
  rewrite <- Et in Is. rewrite forallb_forall in FB. exact (not_from_B_spec s p rn (FB s Is) Es).
Qed.

Print Assumptions C45_assigned_at_most_posted.
Print Assumptions C45_posted_once.
Print Assumptions C46_exact.
Print Assumptions C47_all_signatures_partial.
Print Assumptions C47_all_signatures_refuted.
