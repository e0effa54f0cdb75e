(** C95: only a client of the round can put a bridge on offer, and a bridge on offer keeps
    its poster.  Refuted: anybody who knows the round's generator can post under a key of
    their own, and a second post of an address replaces the first. *)
From Coq Require Import ZArith Znumtheory Lia List Bool Permutation.
From Coq Require Import Strings.Byte.
From Coq Require String.
From Verif Require Import ZMod Bytes Suite Spec Pedersen ElGamal FujiOkam Equality Codec Maps Net Bridge Client
  Perm SimpleShuffle PairShuffle Server Coordinator History Enrol
  Prop_Pedersen Prop_ElGamal Prop_FujiOkam Prop_Shuffle Prop_Codec Prop_Bridge Prop_Assign Prop_Coord.
Import ListNotations.
Import String.StringSyntax.
Open Scope Z_scope.
Delimit Scope string_scope with str.

(** ** Specification *)
(** [nym] is known to the coordinator: it is a key of the table of the round, or one of a
    client that joined during the round. *)
Definition takes_part (c : coord) (nym : Z) : Prop :=
  In nym (co_keys c) \/ In nym (mkeys (co_ecomms c)) \/ In nym (map fst (co_buffer c)).
(** The bridge [a] is on offer, posted by [nym]. *)
Definition on_offer (c : coord) (a : bytes) (nym : Z) : Prop := mget (co_bridges c) a = Some (Some nym, false).

(** The property: whatever messages the coordinator gets, every bridge on offer was posted
    by a pseudonym that takes part. *)
Definition posted_by_members (S : suite) (G : gob) : Prop :=
  forall self a0 fb trap gammas t c, run S G (init_coord S self a0 fb trap gammas) t c ->
  forall a nym, on_offer c a nym -> takes_part c nym.
(** A bridge on offer stays the poster's until it is given out or the round ends: no
    message changes the poster. *)
Definition keeps_poster (S : suite) (G : gob) : Prop :=
  forall self a0 fb trap gammas t c, run S G (init_coord S self a0 fb trap gammas) t c ->
  forall ty p src rn c' out a nym nym', co_handle S G c ty p src rn = Some (c', out) ->
  on_offer c a nym -> on_offer c' a nym' -> nym' = nym.

(** The post of the address [a] by somebody who has picked the secret [x] and read the
    round's generator [g] off the wire; [v] is the nonce. *)
Definition own_post (S : suite) (g x v : Z) (a : bytes) : params :=
  let bn := enc_point S ((g ^ x) mod sP S) in
  [("bridge_addr"%str, VStr a); ("nym"%str, VBytes bn); ("signature"%str, VBytes (eg_sign S v (a ++ bn) x (Some g)))].

Section Outsider.
Context (S : suite) (OK : suite_ok S) (G : gob) (GOK : gob_ok G).

Lemma own_post_valid c g x v a : co_G c = Some g -> member (sP S) (sQ S) g -> 0 <= x ->
  post_valid S c (own_post S g x v a) a ((g ^ x) mod sP S).
Proof.
  intros EG Hg Hx. set (nym := (g ^ x) mod sP S).
  assert (Hn : in_group S nym).
  { pose proof (sP_gt1 S OK). unfold nym. rewrite <- zexp_pos by lia. apply member_in_group in Hg.
    change (in_group S (pt_mul S g x)). unfold pt_mul; in_grp. }
  split; [|split; [reflexivity|]].
  - apply (names_nym_dec S OK). eexists. split; [reflexivity|]. now apply (dec_enc_point S OK).
  - do 2 eexists. split; [reflexivity|]. split; [reflexivity|]. rewrite EG. now apply (C19_sign_verifies S OK).
Qed.

(** ** Anybody can post, and takes the place of the poster *)
(** In every state of the coordinator, for every address, whoever posted it before: the
    post is accepted from any sender, the bridge is on offer under the outsider's key, and
    nothing else changes. *)
Theorem C95_anyone_posts : forall c g x v a src rn, co_G c = Some g -> member (sP S) (sQ S) g -> 0 <= x ->
  exists c', co_handle S G c POST_BRIDGE (own_post S g x v a) src rn = Some (c', []) /\
    on_offer c' a ((g ^ x) mod sP S) /\
    (forall b, b <> a -> mget (co_bridges c') b = mget (co_bridges c) b) /\
    (forall nym, takes_part c' nym <-> takes_part c nym).
Proof.
  intros c g x v a src rn EG Hg Hx. pose proof (own_post_valid c g x v a EG Hg Hx) as V.
  destruct (C52_valid_post_recorded S G OK c _ src rn a _ V) as (c' & E & E1 & E2). exists c'. split; [exact E|]. split; [exact E1|].
  split; [exact E2|]. intros nym. destruct (co_step_frame S G c (EMsg POST_BRIDGE (own_post S g x v a) src rn) c' [] E) as [F _].
  pose proof (F FKeys ltac:(cbn; intuition discriminate)) as F1. pose proof (F FEComms ltac:(cbn; intuition discriminate)) as F2.
  pose proof (F FBuffer ltac:(cbn; intuition discriminate)) as F3. cbn in F1, F2, F3. unfold takes_part. rewrite F1, F2, F3. tauto.
Qed.

(** ** A request may be answered with the outsider's bridges only *)
Lemma get_bridges_first nym n : forall (used free rest : list bytes) m, NoDup free ->
  (forall a, In a used -> bridge_free m a = false) -> (forall a, In a free -> mget m a = Some (nym, false)) -> (n <= length free)%nat ->
  fst (get_bridges n (fun _ => used ++ free ++ rest) m) = map (fun a => (a, nym)) (firstn n free).
Proof.
  induction n as [|n IH]; intros used free rest m ND U F L; [reflexivity|].
  destruct free as [|a free]; [cbn in L; lia|]. cbn [get_bridges].
  assert (E : get_bridge (used ++ (a :: free) ++ rest) m = Some (a, nym, mset m a (nym, true))).
  { unfold get_bridge. assert (X : find (bridge_free m) (used ++ (a :: free) ++ rest) = Some a).
    { clear - U F. induction used as [|u used IHu]; cbn [app find].
      - unfold bridge_free. rewrite F by (now left). reflexivity.
      - rewrite U by (now left). apply IHu. intros b I. apply U. now right. }
    rewrite X, F by (now left). reflexivity. }
  rewrite E. inversion ND; subst.
  specialize (IH (used ++ [a]) free rest (mset m a (nym, true))).
  replace ((used ++ [a]) ++ free ++ rest) with (used ++ (a :: free) ++ rest) in IH by (rewrite <- app_assoc; reflexivity).
  assert (X : fst (get_bridges n (fun _ => used ++ (a :: free) ++ rest) (mset m a (nym, true))) = map (fun a => (a, nym)) (firstn n free)).
  { apply IH; [assumption| | |cbn in L; lia].
    - intros b I. unfold bridge_free. rewrite mget_mset. destruct (keq b a) as [|N]; [reflexivity|].
      apply in_app_iff in I. destruct I as [I|[->|[]]]; [|congruence]. now apply U in I.
    - intros b I. rewrite mget_mset_ne; [apply F; now right|]. intros ->. contradiction. }
  destruct (get_bridges n (fun _ => used ++ (a :: free) ++ rest) (mset m a (nym, true))) as [l m'']. cbn [fst] in *. cbn [firstn map]. now rewrite X.
Qed.

Lemma posts_run g x v src rn : forall l c, co_G c = Some g -> member (sP S) (sQ S) g -> 0 <= x ->
  exists t c', exec S G c (map (fun a => EMsg POST_BRIDGE (own_post S g x v a) src rn) l) = Some (t, c') /\
    c' = set_bridges c (co_bridges c') /\
    (forall a, In a l -> on_offer c' a ((g ^ x) mod sP S)) /\
    (forall a, ~ In a l -> mget (co_bridges c') a = mget (co_bridges c) a).
Proof.
  induction l as [|a l IH]; intros c EG Hg Hx.
  - exists [], c. split; [reflexivity|]. split; [now destruct c|]. split; [intros a []|auto].
  - cbn [map exec co_step].
    pose proof (own_post_valid c g x v a EG Hg Hx) as V.
    destruct (co_handle S G c POST_BRIDGE (own_post S g x v a) src rn) as [[c1 out]|] eqn:E.
    2:{ destruct (C52_valid_post_recorded S G OK c _ src rn a _ V) as (c' & E' & _). congruence. }
    destruct (co_post_spec S OK c _ c1 out E) as [(_ & _ & NV)|(a' & nym' & V' & -> & ->)]; [exfalso; eapply NV; eassumption|].
    assert (X : a' = a /\ nym' = (g ^ x) mod sP S).
    { destruct V as (V1 & V2 & _), V' as (V1' & V2' & _). split; [congruence|now apply (names_nym_fun _ _ _ _ V1')]. }
    destruct X as [-> ->].
    destruct (IH (add_bridge c a ((g ^ x) mod sP S)) EG Hg Hx) as (t & c' & E1 & E2 & E3 & E4). rewrite E1.
    do 2 eexists. split; [reflexivity|]. split; [rewrite E2 at 1; reflexivity|]. split.
    + intros b [<-|I]; [|now apply E3]. destruct (in_dec keq a l) as [I|N]; [now apply E3|].
      unfold on_offer. rewrite E4 by assumption. cbn [add_bridge set_bridges co_bridges]. apply mget_mset_eq.
    + intros b N. cbn [In] in N. rewrite E4 by tauto. cbn [add_bridge set_bridges co_bridges]. apply mget_mset_ne. intros ->. tauto.
Qed.

(** An outsider posts [l], a list of addresses of their choice that nobody has posted.  A
    valid request for no more than that many bridges may then be answered with addresses of
    [l] only: there is an order of iteration over Go's map for which it is. *)
Theorem C95_requests_get_outsiders : forall self a0 fb trap gammas t c g x v l src rn p ind nymR,
  run S G (init_coord S self a0 fb trap gammas) t c -> co_reqs c <> None -> co_G c = Some g -> member (sP S) (sQ S) g -> 0 <= x ->
  NoDup l -> (forall a, In a l -> mget (co_bridges c) a = None) ->
  request_valid S G c p ind nymR -> 0 <= ind <= Z.of_nat (length l) ->
  exists t' c1, exec S G c (map (fun a => EMsg POST_BRIDGE (own_post S g x v a) src rn) l) = Some (t', c1) /\
  exists ords, (forall i, range_order (ords i) (co_bridges c1)) /\
  forall src2 r d, exists given c2 out,
    co_handle S G c1 REQUEST_BRIDGES p src2 (CoRand r d ords []) = Some (c2, out) /\
    Z.of_nat (length given) = ind /\
    (forall y, In y given -> In (asAddr y) l /\ asNym y = Some ((g ^ x) mod sP S) /\ asNymR y = Some nymR) /\
    (given <> [] -> map mDst out = map fst (co_servers c) /\
       forall m, In m out -> mType m = SIGN_ASSIGNMENTS /\
         exists b, get_bytes (mParams m) "assignments"%str = Some b /\ dec_assignments S G b = Some given).
Proof.
  intros self a0 fb trap gammas t c g x v l src rn p ind nymR R NR EG Hg Hx ND NB RV LE.
  destruct (posts_run g x v src rn l c EG Hg Hx) as (t' & c1 & E & EC & ON & OFF). exists t', c1. split; [exact E|].
  assert (R1 : run S G (init_coord S self a0 fb trap gammas) (t ++ t') c1) by (eapply exec_run_from; eassumption).
  destruct (run_bridges S G OK GOK _ _ _ _ _ _ _ R1) as [W1 HB1].
  set (rest := filter (fun a => if in_dec keq a l then false else true) (mkeys (co_bridges c1))).
  assert (PO : Permutation (l ++ rest) (mkeys (co_bridges c1))).
  { apply NoDup_Permutation; [|exact W1|].
    - apply NoDup_app_intro; [assumption|apply NoDup_filter; exact W1|]. intros b I1 I2. apply filter_In in I2. destruct I2 as [_ I2].
      destruct (in_dec keq b l); [discriminate|contradiction].
    - intros b. rewrite in_app_iff. unfold rest. rewrite filter_In. split.
      + intros [I|[I _]]; [|assumption]. apply (mget_keys _ _ (Some ((g ^ x) mod sP S), false)). exact (ON b I).
      + intros I. destruct (in_dec keq b l); [now left|now right]. }
  exists (fun _ => l ++ rest). split; [intros i; exact PO|]. intros src2 r d.
  assert (RV1 : request_valid S G c1 p ind nymR) by (rewrite EC; exact RV).
  assert (NR1 : co_reqs c1 <> None) by (rewrite EC; exact NR).
  destruct (C46_exact S G OK GOK _ _ _ _ _ _ _ R1 NR1 p src2 (CoRand r d (fun _ => l ++ rest) []) ind nymR RV1 ltac:(intros i; exact PO))
    as (given & c2 & out & EH & LG & NDG & HG & _ & _ & HOUT).
  exists given, c2, out. split; [exact EH|].
  assert (LU : (length l <= length (unused c1))%nat).
  { rewrite <- (map_length (fun a => (a, (Some ((g ^ x) mod sP S), false))) l). apply NoDup_incl_length.
    - apply FinFun.Injective_map_NoDup; [|assumption]. intros u w X. congruence.
    - intros b I. apply in_map_iff in I. destruct I as (u & <- & I). unfold unused. apply filter_In. split; [|reflexivity].
      apply mget_In. exact (ON u I). }
  split; [lia|]. split.
  - intros y Iy. destruct (HG y Iy) as (A1 & A2 & A3 & A4).
    assert (I : In (asAddr y) l).
    { change (co_handle S G c1 REQUEST_BRIDGES p src2 ?q) with (co_request S G c1 p src2 q) in EH.
      destruct (co_request_spec _ _ _ _ _ _ _ _ EH) as [[-> _]|(ind' & nymR' & bn & m & brs & mp & z & E1 & E2 & E3 & E4 & E5 & E6 & _)]; [congruence|].
      assert (ind' = ind) by (destruct RV as (? & ? & ? & X & _); congruence). subst ind'.
      destruct (get_bridges_spec _ _ _ _ _ E5) as (_ & _ & _ & O1 & _).
      destruct (in_dec keq (asAddr y) (map fst brs)) as [J|J].
      2:{ rewrite E6 in A4. cbn [co_bridges set_asigs set_bridges] in A4. rewrite O1 in A4 by assumption. congruence. }
      pose proof (get_bridges_first (Some ((g ^ x) mod sP S)) (Z.to_nat ind) [] l rest (co_bridges c1) ND ltac:(intros ? []) ON ltac:(lia)) as X.
      cbn [crBridges app] in E5, X. rewrite E5 in X. cbn [fst] in X. rewrite X, map_map in J. cbn [fst] in J. rewrite map_id in J.
      rewrite <- (firstn_skipn (Z.to_nat ind) l). apply in_app_iff. now left. }
    split; [exact I|]. split; [|exact A1]. pose proof (ON _ I) as X. unfold on_offer in X. congruence.
  - intros N. destruct (HOUT N) as [X1 X2]. split; [|exact X2]. rewrite X1, EC. reflexivity.
Qed.
(** ** What does hold *)
(** Every bridge on offer was posted in a message signed with the poster's key for the
    generator the coordinator had then. *)
Theorem C95_offers_signed : forall self a0 fb trap gammas t c, run S G (init_coord S self a0 fb trap gammas) t c ->
  forall a nym, on_offer c a nym ->
  exists t1 c0 p src rn c1 t2, t = t1 ++ Step c0 (EMsg POST_BRIDGE p src rn) c1 [] :: t2 /\ post_valid S c0 p a nym.
Proof.
  intros self a0 fb trap gammas t c R. remember (init_coord S self a0 fb trap gammas) as c0 eqn:E0.
  induction R as [|t c e c' out R IH E]; [subst; intros a nym X; discriminate|].
  intros a nym X.
  assert (HB : on_offer c a nym \/ exists p src rn, e = EMsg POST_BRIDGE p src rn /\ post_valid S c p a nym /\ out = []).
  { destruct (co_step_frame S G c e c' out E) as [F O].
    assert (same : ~ In FBridges (writes_ev e) -> on_offer c a nym).
    { intros N. pose proof (F FBridges N) as Y. cbn [agree] in Y. unfold on_offer in *. now rewrite <- Y. }
    destruct e as [ty p src rn| |fakes ord| |ord rs]; cbn [co_step writes_ev] in *.
    2,3,4: left; apply same; cbn; intuition discriminate.
    2:{ left. unfold round_end in E. unfold on_offer in *. destruct (last_server c) as [ls|]; [|injection E as <- <-; exact X].
        odestruct E. injection E as <- <-. discriminate. }
    destruct (Z.eq_dec ty POST_BRIDGE) as [->|N1]; [|destruct (Z.eq_dec ty REQUEST_BRIDGES) as [->|N2];
      [|destruct (Z.eq_dec ty GOT_SIGNS) as [->|N3]]].
    - change (co_handle S G c POST_BRIDGE p src rn) with (co_post S c p) in E.
      destruct (co_post_spec S OK c p c' out E) as [(-> & _ & _)|(b & n & V & -> & ->)]; [now left|].
      unfold on_offer in *. cbn [co_bridges add_bridge set_bridges] in X. rewrite mget_mset in X.
      destruct (keq a b) as [->|]; [|now left]. injection X as <-. right. exists p, src, rn. auto.
    - left. change (co_handle S G c REQUEST_BRIDGES p src rn) with (co_request S G c p src rn) in E.
      destruct (co_request_spec _ _ _ _ _ _ _ _ E) as [[-> _]|(ind & nymR & bn & m & brs & mp & z & _ & _ & _ & _ & E5 & -> & _)]; [exact X|].
      destruct (get_bridges_spec _ _ _ _ _ E5) as (_ & _ & I1 & O1 & _).
      unfold on_offer in *. cbn [co_bridges set_asigs set_bridges] in X.
      destruct (in_dec keq a (map fst brs)) as [J|J]; [|now rewrite O1 in X].
      apply in_map_iff in J. destruct J as ((b & nb) & <- & J). destruct (I1 _ _ J) as [_ Y]. cbn [fst] in X. congruence.
    - left. change (co_handle S G c GOT_SIGNS p src rn) with (co_got S G c p src) in E.
      assert (HB' : mget (co_bridges c') a = mget (co_bridges c) a \/ exists n, mget (co_bridges c') a = Some (n, true)).
      { unfold co_got in E. odestruct E; try (injection E as <- <-; now left). eapply got_loop_bridges. eassumption. }
      unfold on_offer in *. destruct HB' as [<-|(n & Y)]; [exact X|congruence].
    - left. apply same. unfold writes. rewrite (proj2 (Z.eqb_neq _ _) N1), (proj2 (Z.eqb_neq _ _) N2), (proj2 (Z.eqb_neq _ _) N3).
      repeat match goal with |- context [ty =? ?x] => destruct (ty =? x) end; cbn; intuition discriminate. }
  destruct HB as [HB|(p & src & rn & -> & V & ->)].
  - destruct (IH a nym HB) as (t1 & d0 & p & src & rn & d1 & t2 & -> & V).
    exists t1, d0, p, src, rn, d1, (t2 ++ [Step c e c' out]). split; [|exact V]. now rewrite <- app_assoc.
  - exists t, c, p, src, rn, c', []. auto.
Qed.
End Outsider.

(** ** Refutations *)
(** The round of [toy_setup] has one pseudonym, 12, which has posted two bridges.  Somebody
    with the key 8^2 = 18, who has not registered, posts a third and then the first. *)
Definition toy_outsider (a : bytes) : event := EMsg POST_BRIDGE (own_post toy_suite 8 2 3 a) [x58]%byte toy_rand.
Lemma toy_outsider_run : exists t c t1 c1 t2 c2, exec toy_suite toy_gob toy_c0 toy_setup = Some (t, c) /\
  exec toy_suite toy_gob toy_c0 (toy_setup ++ [toy_outsider [x62; x33]%byte]) = Some (t1, c1) /\
  on_offer c1 [x62; x33]%byte 18 /\ co_keys c1 = [12] /\ mkeys (co_ecomms c1) = [12] /\ co_buffer c1 = [] /\
  co_step toy_suite toy_gob c1 (toy_outsider [x62; x31]%byte) = Some (c2, t2) /\
  on_offer c1 [x62; x31]%byte 12 /\ on_offer c2 [x62; x31]%byte 18.
Proof. do 6 eexists. repeat (split; [vm_compute; reflexivity|]). vm_compute. reflexivity. Qed.

Theorem C95_posted_by_members_refuted : ~ (forall S G, suite_ok S -> gob_ok G -> posted_by_members S G).
Proof.
  intros H. destruct toy_outsider_run as (t & c & t1 & c1 & t2 & c2 & _ & E1 & O & K & EC & B & _).
  specialize (H toy_suite toy_gob toy_ok toy_gob_ok _ _ _ _ _ _ _ (exec_run _ _ _ _ _ _ E1) _ _ O).
  unfold takes_part in H. rewrite K, EC, B in H. cbn in H. lia.
Qed.
Theorem C95_keeps_poster_refuted : ~ (forall S G, suite_ok S -> gob_ok G -> keeps_poster S G).
Proof.
  intros H. destruct toy_outsider_run as (t & c & t1 & c1 & t2 & c2 & _ & E1 & _ & _ & _ & _ & E2 & O1 & O2).
  specialize (H toy_suite toy_gob toy_ok toy_gob_ok _ _ _ _ _ _ _ (exec_run _ _ _ _ _ _ E1) POST_BRIDGE _ [x58]%byte toy_rand _ _ _ _ _ E2 O1 O2). lia.
Qed.

(** The hypotheses of the theorems above are met: the round of [toy_setup], two addresses
    nobody has posted, and the request of the one client for one bridge. *)
Example C95_instance : exists t c p src, exec toy_suite toy_gob toy_c0 toy_setup = Some (t, c) /\
  co_G c = Some 8 /\ member (sP toy_suite) (sQ toy_suite) 8 /\ co_reqs c <> None /\
  (forall a, In a [[x62; x33]; [x62; x34]]%byte -> mget (co_bridges c) a = None) /\
  toy_request = EMsg REQUEST_BRIDGES p src toy_rand /\ request_valid toy_suite toy_gob c p 1 (cl_nym toy_client) /\
  on_offer c [x62; x31]%byte (cl_nym toy_client).
Proof.
  destruct C46_instance as (t & c & p & src & E & ER & V & NR & _ & _). exists t, c, p, src. split; [exact E|].
  assert (X : co_G c = Some 8 /\ forallb (fun a => match mget (co_bridges c) a with None => true | Some _ => false end) [[x62; x33]; [x62; x34]]%byte = true /\
    mget (co_bridges c) [x62; x31]%byte = Some (Some (cl_nym toy_client), false)).
  { clear - E. vm_compute in E. injection E as _ <-. repeat split. }
  destruct X as (X1 & X2 & X3). split; [exact X1|]. split; [vm_compute; intuition congruence|]. split; [exact NR|]. split; [|auto].
  intros a I. rewrite forallb_forall in X2. specialize (X2 a I). now destruct (mget (co_bridges c) a).
Qed.

Print Assumptions C95_anyone_posts.
Print Assumptions C95_requests_get_outsiders.
Print Assumptions C95_offers_signed.
Print Assumptions C95_posted_by_members_refuted.
Print Assumptions C95_keeps_poster_refuted.
