(** C98: reputation has to be earned from other clients.  Refuted: a client can vote for its
    own bridge, as often as it likes, and a client that has lost reputation does better by
    joining again.  What does hold is the balance: the reputations add up to the starting
    credit of every client plus all votes. *)
From Coq Require Import ZArith Znumtheory Lia List Bool Permutation.
From Coq Require Import Strings.Byte.
From Coq Require String.
From Verif Require Import ZMod Bytes Suite Spec Pedersen ElGamal FujiOkam Equality Codec Maps Net Bridge Client
  Perm SimpleShuffle PairShuffle Server Coordinator History System Chain Prop_Pedersen Prop_FujiOkam Prop_Codec Prop_Coord Prop_Topology Prop_Chain Round RoundInv
  Prop_Round Session Prop_Session Signing Prop_Signing Progress Live Prop_Live Delivery Enrol Conduct Prop_Conduct Tally Prop_Tally Posted Prop_Posted Prop_Ration.
Import ListNotations.
Import String.StringSyntax.
Open Scope Z_scope.
Delimit Scope string_scope with str.

(** ** Specification *)
(** The sum of a list of numbers. *)
Fixpoint total (l : list Z) : Z := match l with [] => 0 | x :: r => x + total r end.
(** The reputations of all clients, and the votes of a session. *)
Definition reputations (y : sys) : list Z := map (fun e : addr * client => cl_rep (snd e)) (y_clients y).
Definition all_votes (L : list (Z * Z)) : list Z := map snd L.
(** The only client of the session is the one at [a]. *)
Definition alone (y : sys) (a : addr) : Prop := forall b, mget (y_clients y) b <> None -> b = a.
(** The steps of a user who votes [f] on the assignment [id], with the delivery of each
    vote. *)
Definition only_votes (a : addr) (id f : Z) (x : System.action) : Prop :=
  x = ACommand a (CVote id f) \/ exists i cr sr ch, x = ADeliver i cr sr ch.

(** The property, first half: a client that has nobody to vote for it never has more than
    the starting credit. *)
Definition earned_from_others (S : suite) (H : oracle) (G : gob) : Prop :=
  forall y V P L, honoured S H G y V P L -> fo_nonneg (co_fb (y_coord y)) -> Z.of_nat (length L) < 2 ^ 61 ->
  co_status (y_coord y) = CO_READY_FOR_NEW_ROUND -> settled y ->
  forall a k, mget (y_clients y) a = Some k -> alone y a -> cl_rep k <= starting_credit.
(** Second half: a client that nobody has voted for has no more than one that has been
    there before. *)
Definition no_gain_by_joining (S : suite) (H : oracle) (G : gob) : Prop :=
  forall y V P L l y' V' P' L', honoured S H G y V P L -> goes S H G y V l y' V' -> honoured S H G y' V' P' L' ->
  fo_nonneg (co_fb (y_coord y')) -> Z.of_nat (length L') < 2 ^ 61 ->
  co_status (y_coord y') = CO_READY_FOR_NEW_ROUND -> settled y' ->
  forall a a' k k', mget (y_clients y) a <> None -> mget (y_clients y) a' = None ->
  mget (y_clients y') a = Some k -> mget (y_clients y') a' = Some k' -> votes_for L' (cl_pub k') = 0 -> cl_rep k' <= cl_rep k.

Lemma total_app l1 l2 : total (l1 ++ l2) = total l1 + total l2.
Proof. induction l1 as [|x l1 IH]; cbn [app total]; lia. Qed.
Lemma votes_for_nil q : votes_for [] q = 0.
Proof. reflexivity. Qed.
Lemma votes_for_cons w L q : votes_for (w :: L) q = (if fst w =? q then snd w else 0) + votes_for L q.
Proof. reflexivity. Qed.
(** Votes spread over distinct keys that cover them all. *)
Lemma votes_spread L : forall ks, NoDup ks -> (forall w, In w L -> In (fst w) ks) ->
  total (map (votes_for L) ks) = total (all_votes L).
Proof.
  induction L as [|w L IH]; intros ks ND C.
  - cbn. clear. induction ks as [|q ks IH]; [reflexivity|]. cbn [map total]. rewrite IH. reflexivity.
  - cbn [all_votes map total]. fold (all_votes L). rewrite <- (IH ks ND) by (intros z Iz; apply C; now right).
    assert (X : forall ks, total (map (votes_for (w :: L)) ks) = total (map (fun q => if fst w =? q then snd w else 0) ks) + total (map (votes_for L) ks)).
    { clear. induction ks as [|q ks IHk]; [reflexivity|]. cbn [map total]. rewrite IHk, votes_for_cons. lia. }
    rewrite X. f_equal. assert (I : In (fst w) ks) by (apply C; now left). clear - ND I.
    assert (Z0 : forall ks, ~ In (fst w) ks -> total (map (fun q => if fst w =? q then snd w else 0) ks) = 0).
    { clear. induction ks as [|q ks IH]; [reflexivity|]. intros N. cbn [map total In] in *. destruct (Z.eqb_spec (fst w) q) as [EQ|]; [elim N; left; congruence|]. rewrite IH by tauto. reflexivity. }
    induction ks as [|q ks IH]; [destruct I|]. inversion ND; subst. cbn [map total]. destruct (Z.eqb_spec (fst w) q) as [<-|N].
    + rewrite Z0 by assumption. lia.
    + destruct I as [E|I]; [congruence|]. rewrite IH by assumption. lia.
Qed.

Lemma pubs_distinct (m : amap addr client) : NoDup (map fst m) ->
  (forall e e', In e m -> In e' m -> cl_pub (snd e) = cl_pub (snd e') -> fst e = fst e') -> NoDup (map (fun e : addr * client => cl_pub (snd e)) m).
Proof.
  induction m as [|e m IH]; intros W J; [constructor|]. cbn [map] in *. inversion W; subst. constructor; [|apply IH; [assumption|intros; apply J; auto; now right]].
  intros I. apply in_map_iff in I. destruct I as (e' & E & I). apply H1. apply in_map_iff. exists e'. split; [|assumption].
  apply J; [now right|now left|assumption].
Qed.

Section Earn.
Context (S : suite) (OK : suite_ok S) (H : oracle) (G : gob) (GOK : gob_ok G).

Lemma honoured_reach y V P L : honoured S H G y V P L -> reach S H G y V.
Proof. intros HO. exact (orderly_reach S H G y V (noted_orderly S H G _ _ _ (honoured_noted S H G _ _ _ _ HO))). Qed.

(** Every vote of the session was on a bridge of a client. *)
Lemma honoured_owners y V P L : honoured S H G y V P L -> forall w, In w L -> exists a k, mget (y_clients y) a = Some k /\ cl_pub k = fst w.
Proof.
  induction 1 as [|y V P L a y' HO IH GU CD PC WI OP E]; [intros w []|]. intros w I.
  assert (X : exists b k, mget (y_clients y) b = Some k /\ cl_pub k = fst w).
  { apply in_app_or in I. destruct I as [I|I]; [now apply IH|].
    destruct a as [| | |e|b [ad| |id f]]; try (destruct I; fail). cbn [cast_on] in I.
    destruct (mget (y_clients y) b) as [k|] eqn:Ek; [|destruct I]. destruct (nth_error (cl_assigns k) (Z.to_nat id)) as [xs|]; [|destruct I].
    destruct (poster P (asAddr (fst xs))) as [q|] eqn:EP; [|destruct I]. destruct I as [<-|[]]. cbn [fst].
    unfold poster in EP. destruct (find _ P) as [[ad q']|] eqn:EF; [|discriminate]. cbn in EP. injection EP as ->. apply find_some in EF.
    exact (noted_clients S H G y V P (honoured_noted S H G _ _ _ _ HO) ad q (proj1 EF)). }
  destruct X as (b & k & Ek & EP). destruct (step_client S H G y a y' b k E Ek) as (k' & Ek' & EP'). exists b, k'. split; [assumption|congruence].
Qed.
Lemma wf_step y a y' : mwf (y_clients y) -> sys_step S H G y a = Some y' -> mwf (y_clients y').
Proof.
  intros IH E. destruct a as [a p|a p s|i cr sr ch|e|a k]; cbn [sys_step] in E.
  - destruct (keq a _); [discriminate|]. destruct (mget (y_servers y) a); [discriminate|]. destruct (mget (y_clients y) a); [discriminate|]. now injection E as <-.
  - destruct (keq a _); [discriminate|]. destruct (mget (y_servers y) a); [discriminate|]. destruct (mget (y_clients y) a); [discriminate|]. injection E as <-. now apply mwf_mset.
  - destruct (nth_error _ i) as [m|]; [|discriminate]. cbv zeta in E. destruct (keq _ _).
    + destruct (co_handle _ _ _ _ _) as [[c' out]|]; [|discriminate]. now injection E as <-.
    + destruct (mget (y_servers y) _) as [s|].
      * destruct (sv_handle _ _ _ _ _ _) as [[s' out]|]; [|discriminate]. now injection E as <-.
      * destruct (mget (y_clients y) _) as [c|]; [|discriminate]. odestruct E. injection E as <-. now apply mwf_mset.
  - destruct (is_loop e); [|discriminate]. odestruct E. now injection E as <-.
  - odestruct E. now injection E as <-.
Qed.
Lemma wf_run l : forall y y', mwf (y_clients y) -> sys_run S H G y l = Some y' -> mwf (y_clients y').
Proof.
  induction l as [|a l IH]; intros y y' W E; cbn [sys_run] in E; [now injection E as <-|].
  destruct (sys_step S H G y a) as [y1|] eqn:E1; [|discriminate]. exact (IH y1 y' (wf_step y a y1 W E1) E).
Qed.
Lemma clients_wf y V : reach S H G y V -> mwf (y_clients y).
Proof.
  induction 1 as [self z fb trap gammas l y1 y2 F E1 M1 N1 E2|y V a y' R IH GU E].
  - refine (wf_step y1 _ y2 _ E2). refine (wf_run l _ y1 _ E1). constructor.
  - now apply (wf_step y a).
Qed.
Lemma nym_goes y V l y' V' q : goes S H G y V l y' V' -> reach S H G y V -> open_round y -> existsb is_end l = false -> nym_of S y' q = nym_of S y q.
Proof.
  induction 1 as [|y V a y1 l y2 V2 GU E _ IH]; intros R O NE; [reflexivity|]. cbn [existsb] in NE. apply orb_false_iff in NE. destruct NE as [N1 N2].
  pose proof (reach_inv S OK H G GOK y V R) as I. rewrite (IH (r_step S H G y V a y1 R GU E) (proj1 (open_step S H G y V a y1 I O GU N1 E)) N2).
  exact (nym_step S H G y V a y1 q I O GU N1 E).
Qed.

(** ** The balance *)
(** When a round is over and its messages have been handled, the reputations of all clients
    add up to the starting credit of each of them and all votes that were ever cast. *)
Theorem C98_total : forall y V P L, honoured S H G y V P L -> fo_nonneg (co_fb (y_coord y)) -> Z.of_nat (length L) < 2 ^ 61 ->
  co_status (y_coord y) = CO_READY_FOR_NEW_ROUND -> settled y ->
  total (reputations y) = starting_credit * Z.of_nat (length (y_clients y)) + total (all_votes L).
Proof.
  intros y V P L HO NN BD ST SE. pose proof (honoured_reach y V P L HO) as R. pose proof (clients_wf y V R) as W.
  assert (EQ : forall e, In e (y_clients y) -> cl_rep (snd e) = starting_credit + votes_for L (cl_pub (snd e))).
  { intros [a k] I. apply (mwf_In _ a k W) in I. exact (proj1 (C75_reputation_is_votes_on_posts S OK H G GOK y V P L HO NN BD ST SE a k I)). }
  assert (X : total (reputations y) = starting_credit * Z.of_nat (length (y_clients y)) + total (map (votes_for L) (map (fun e : addr * client => cl_pub (snd e)) (y_clients y)))).
  { unfold reputations. clear - EQ. induction (y_clients y) as [|e m IH]; [reflexivity|]. cbn [map total length].
    rewrite (EQ e) by (now left). rewrite IH by (intros z I; apply EQ; now right). lia. }
  rewrite X. f_equal. apply votes_spread.
  - destruct (reach_inv S OK H G GOK y V R) as [B _]. pose proof (b_inj _ _ _ _ _ B) as J. unfold mwf, mkeys in W.
    apply (pubs_distinct (y_clients y) W). intros e e' I I' E. destruct e as [a k], e' as [a' k'].
    exact (J a a' k k' (mwf_In _ a k W I) (mwf_In _ a' k' W I') E).
  - intros w I. destruct (honoured_owners y V P L HO w I) as (a & k & Ek & EP). apply in_map_iff. exists (a, k). split; [exact EP|]. now apply mget_In.
Qed.

(** Where a client stands depends on the votes alone: without any it has the starting
    credit, however late it joined, and with more votes against it than for it, less. *)
Theorem C98_standing : forall y V P L, honoured S H G y V P L -> fo_nonneg (co_fb (y_coord y)) -> Z.of_nat (length L) < 2 ^ 61 ->
  co_status (y_coord y) = CO_READY_FOR_NEW_ROUND -> settled y ->
  forall a k a' k', mget (y_clients y) a = Some k -> mget (y_clients y) a' = Some k' ->
  votes_for L (cl_pub k) < 0 -> votes_for L (cl_pub k') = 0 -> cl_rep k < cl_rep k' /\ cl_rep k' = starting_credit.
Proof.
  intros y V P L HO NN BD ST SE a k a' k' Ek Ek' N Z0.
  pose proof (proj1 (C75_reputation_is_votes_on_posts S OK H G GOK y V P L HO NN BD ST SE a k Ek)) as X.
  pose proof (proj1 (C75_reputation_is_votes_on_posts S OK H G GOK y V P L HO NN BD ST SE a' k' Ek')) as X'. lia.
Qed.

(** ** A client votes for its own bridge *)
(** A client of the table that holds an assignment, in any open round, can vote on it [n]
    times, for every [n]: every one of its votes counts.  When the bridge is its own, they
    count for itself. *)
Theorem C98_votes_again : forall y V a k id x bs f t, calm_reach S H G y V -> open_round y -> fo_nonneg (co_fb (y_coord y)) ->
  in_table S y a k -> 0 <= cl_priv k -> 0 <= id -> nth_error (cl_assigns k) (Z.to_nat id) = Some (x, bs) ->
  responses_nonzero S y x -> asNym x = Some t ->
  forall n : nat, Z.abs (rep_diff (y_coord y) t) + Z.of_nat n < 2 ^ 63 ->
  exists l y' V', goes S H G y V l y' V' /\ Forall (only_votes a id f) l /\ length l = (2 * n)%nat /\
    existsb is_end l = false /\ mget (y_clients y') a = Some k /\ y_msgs y' = y_msgs y /\
    co_ecomms (y_coord y') = co_ecomms (y_coord y) /\ co_buffer (y_coord y') = co_buffer (y_coord y) /\
    rep_diff (y_coord y') t = rep_diff (y_coord y) t + Z.of_nat n * (if 0 <? f then 1 else -1).
Proof.
  intros y V a k id x bs f t CR O NN IT KP ID EI RN ET.
  destruct (C64_vote_counted S OK H G GOK y V a k id x bs f CR O NN IT KP ID EI RN) as (m & target & EV & MD & EN & MS).
  assert (target = t) by congruence. subst target.
  assert (MT : mType m = Net.VOTE).
  { unfold cl_vote in EV. odestruct EV. now injection EV as <-. }
  induction n as [|n IH]; intros BD.
  - exists [], y, V. split; [constructor|]. split; [constructor|]. split; [reflexivity|]. split; [reflexivity|]. split; [apply IT|].
    repeat (split; [reflexivity|]). lia.
  - destruct IH as (l & y1 & V1 & GO & AL & LL & NE & EC & EM & EE & EB & RD); [lia|].
    assert (R : reach S H G y V) by (now apply calm_is_reach).
    destruct (open_goes S OK H G GOK y V l y1 V1 R O GO NE) as [O1 SR]. destruct (view_eq _ _ SR) as (W1 & _).
    set (cr := CoRand 0 (mkeys (co_clients (y_coord y1))) (fun _ => mkeys (co_bridges (y_coord y1))) (mkeys (co_diffs (y_coord y1)))).
    set (y2 := Sys (y_coord y1) (y_servers y1) (y_clients y1) (y_msgs y1 ++ [m]) (y_log y1)).
    pose proof (MS y1 V1 cr (ex_intro _ l (conj GO NE))) as E1.
    set (c2 := set_diffs (y_coord y1) _) in E1.
    set (act1 := ACommand a (CVote id f)). set (act2 := ADeliver (length (y_msgs y1)) cr (SvRand 0 (fun _ => 0) [] (PsRand [] [] [] 0 0 []) 1) []).
    set (y3 := Sys c2 (y_servers y1) (y_clients y1) (y_msgs y1) (y_log y1)).
    assert (ED : mDst m = co_addr (y_coord y1)) by (rewrite MD; unfold co_addr; now rewrite W1).
    assert (S1 : sys_step S H G y1 act1 = Some y2).
    { unfold act1. cbn [sys_step cl_command]. rewrite EC, EV. reflexivity. }
    assert (S2 : sys_step S H G y2 act2 = Some y3).
    { unfold act2. cbn [sys_step y2 y_msgs y_coord y_servers y_clients y_log].
      rewrite nth_error_app2, Nat.sub_diag by lia. cbn [nth_error]. destruct (keq (mDst m) (co_addr (y_coord y1))); [|contradiction].
      rewrite E1. rewrite firstn_app, Nat.sub_diag, firstn_all, firstn_O, app_nil_r.
      rewrite skipn_all2 by (rewrite app_length; cbn; lia). rewrite !app_nil_r. reflexivity. }
    assert (G2 : guard S y2 V1 act2).
    { unfold act2. cbn [guard]. split; [unfold is_secret; cbn; pose proof (sQ_gt1 S OK); lia|]. split; [apply range_self|]. split; [apply range_self|].
      split; [apply rel_prime_1|]. intros (_ & z & Iz & Tz) m0 E0 T0. exfalso. cbn [y2 y_msgs] in Iz. apply in_app_or in Iz. destruct Iz as [Iz|[Ez|[]]].
      - apply (proj1 (proj2 O1)). split; [apply O1|]. now exists z.
      - rewrite <- Ez, MT in Tz. discriminate. }
    exists (l ++ [act1; act2]), y3. eexists. split.
    { eapply goes_app; [exact GO|]. eapply g_step; [exact I|exact S1|]. eapply g_step; [|exact S2|constructor]. exact G2. }
    split. { apply Forall_app. split; [assumption|]. constructor; [now left|]. constructor; [right; now do 4 eexists|constructor]. }
    split; [rewrite app_length; cbn [length]; lia|]. split; [rewrite existsb_app, NE; reflexivity|]. split; [exact EC|].
    split; [exact EM|]. split; [exact EE|]. split; [exact EB|].
    cbn [y3 y_coord c2]. unfold rep_diff at 1. unfold c2. cbn [co_diffs set_diffs]. rewrite mget_mset_eq, RD.
    rewrite fits_int64; [destruct (0 <? f); lia|]. unfold fits. destruct (0 <? f); lia.
Qed.

(** And after the round: the client's reputation has grown by [n]. *)
Theorem C98_raises_itself : forall y V a k id x bs, calm_reach S H G y V -> open_round y -> fo_nonneg (co_fb (y_coord y)) ->
  in_table S y a k -> 0 <= cl_priv k -> 0 <= id -> nth_error (cl_assigns k) (Z.to_nat id) = Some (x, bs) ->
  responses_nonzero S y x -> asNym x = Some (cl_nym k) -> rep_diff (y_coord y) (cl_nym k) = 0 ->
  forall n : nat, Z.of_nat n < 2 ^ 63 ->
  exists l y' V', goes S H G y V l y' V' /\ Forall (only_votes a id 1) l /\ y_msgs y' = y_msgs y /\
  forall ord rs l2 y3 V3, goes S H G y' V' (ALoop (EEnd ord rs) :: l2) y3 V3 -> existsb is_end l2 = false -> settled y3 ->
  exists k3, mget (y_clients y3) a = Some k3 /\ cl_rep k3 = int64 (cl_rep k + Z.of_nat n).
Proof.
  intros y V a k id x bs CR O NN IT KP ID EI RN ET D0 n BD. pose proof (calm_is_reach S H G y V CR) as R.
  destruct (C98_votes_again y V a k id x bs 1 (cl_nym k) CR O NN IT KP ID EI RN ET n ltac:(rewrite D0; lia))
    as (l & y' & V' & GO & AL & LL & NE & EC & EM & EE & EB & RD).
  exists l, y', V'. split; [assumption|]. split; [assumption|]. split; [assumption|].
  intros ord rs l2 y3 V3 G3 NE2 SE. pose proof (goes_reach _ _ _ _ _ _ _ _ GO R) as R1. pose proof (goes_reach _ _ _ _ _ _ _ _ G3 R1) as R3.
  destruct (announced S OK H G GOK y V a k R O (proj1 IT) (proj2 IT)) as (v & r & R0 & g & C & J1 & J2 & J3 & J4 & J5 & J6 & J7 & J8 & J9 & J10 & _).
  destruct (goes_value S H G _ _ _ _ _ GO NE _ _ _ J1) as [r1 I1].
  destruct (open_goes S OK H G GOK y V l y' V' R O GO NE) as [O1 SR].
  inversion G3 as [|? ? ? y2' ? ? ? GE EE2 G3']; subst.
  assert (NY : nym_of S y' (cl_pub k) = cl_nym k).
  { rewrite J10. exact (nym_goes _ _ _ _ _ _ GO R O NE). }
  assert (I2 : In (cl_pub k, (v + Z.of_nat n, r1 + drawn ord rs (cl_nym k))) (ledger_step S y' V' (ALoop (EEnd ord rs)))).
  { cbn [ledger_step]. apply in_map_iff. exists (cl_pub k, (v, r1)). cbn [fst snd]. split; [|assumption]. rewrite NY, RD, D0. cbn [Z.ltb Z.compare].
    do 3 f_equal. lia. }
  destruct (goes_value S H G _ _ _ _ _ G3' NE2 _ _ _ I2) as [r3 I3].
  destruct (goes_client S H G _ _ _ _ _ G3 a k EC) as (k3 & E3 & P3). exists k3. split; [assumption|].
  destruct (C42_settled S OK H G GOK y3 V3 R3 SE a k3 E3) as (v' & r' & R0' & c & K1 & _ & _ & _ & K5 & _).
  rewrite P3 in K1. pose proof (value_unique S OK H G GOK y3 V3 _ _ _ _ _ R3 K1 I3) as ->. rewrite K5, J4.
  now rewrite Prop_Coord.int64_add_l.
Qed.
End Earn.

(** ** Concrete sessions *)
Import Prop_Bridge Prop_Shuffle Prop_Assign.
Lemma honoured_play_goes l : forall y V P L y' V' P' L', honoured_play l y V P L = Some (y', V', P', L') ->
  exists t, goes toy_suite toy_oracle toy_gob y V t y' V'.
Proof.
  induction l as [|f l IH]; cbn [honoured_play]; intros y V P L y' V' P' L' E; [injection E as <- <- <- <-; exists []; constructor|].
  destruct (okb toy_suite false y V (f y) && _) eqn:EO; [|discriminate]. rewrite !andb_true_iff in EO. destruct EO as [EO _].
  destruct (sys_step _ _ _ y (f y)) as [y1|] eqn:ES; [|discriminate]. destruct (IH _ _ _ _ _ _ _ _ E) as [t T].
  exists (f y :: t). eapply g_step; [exact (proj2 (okb_guard _ _ _ _ _ EO) eq_refl)|exact ES|exact T].
Qed.
(** One client, D.  It posts a bridge, asks for one and is given its own. *)
Definition toy_own : list (sys -> System.action) :=
  dls 2 ++ [tbegin []] ++ dls 5 ++ [do (AJoin adD 4 8)] ++ dls 8 ++ [tend] ++ dls 5 ++ [tbegin []] ++ dls 6 ++
  [do (ACommand adD (CPost [x62; x32]%byte))] ++ dls 1 ++ [do (ACommand adD (CRequest 1 toy_rn))] ++ dls 6.
(** It votes for it, and the round ends. *)
Definition toy_own_up : list (sys -> System.action) := [do (ACommand adD (CVote 0 1))] ++ dls 1 ++ [tend] ++ dls 5.
(** It votes against it, another client joins, and the round ends. *)
Definition toy_own_down : list (sys -> System.action) :=
  [do (ACommand adD (CVote 0 (-1)))] ++ dls 1 ++ [do (AJoin adE 7 8)] ++ dls 8 ++ [tend] ++ dls 7.
Definition standing (t : sys * ledger * postings * list (Z * Z)) :=
  let y := fst (fst (fst t)) in (co_status (y_coord y), y_msgs y, snd t, co_fb (y_coord y), map (fun e : addr * client => (fst e, (cl_pub (snd e), cl_rep (snd e)))) (y_clients y)).
Lemma standing_get (m : amap addr client) : forall l, map (fun e : addr * client => (fst e, (cl_pub (snd e), cl_rep (snd e)))) m = l ->
  forall a, option_map (fun k => (cl_pub k, cl_rep k)) (mget m a) = mget l a.
Proof.
  intros l <- a. induction m as [|[b k] m IH]; [reflexivity|]. cbn [map fst snd mget]. destruct (keq a b); [reflexivity|exact IH].
Qed.

(** D has 6, and nobody else has ever been there. *)
Example C98_instance : exists y V P k, honoured toy_suite toy_oracle toy_gob y V P [(3, 1)] /\ fo_nonneg (co_fb (y_coord y)) /\
  co_status (y_coord y) = CO_READY_FOR_NEW_ROUND /\ settled y /\ mget (y_clients y) adD = Some k /\ alone y adD /\ cl_rep k = 6.
Proof.
  destruct (honoured_play (toy_own ++ toy_own_up) toy_s [] [] []) as [[[[y V] P] L]|] eqn:E; [|vm_compute in E; discriminate E].
  pose proof (honoured_play_ok _ _ _ _ _ _ _ _ _ toy_s_honoured E) as HO.
  assert (F : option_map standing (honoured_play (toy_own ++ toy_own_up) toy_s [] [] []) = Some (CO_READY_FOR_NEW_ROUND, [], [(3, 1)], toy_fb, [(adD, (3, 6))]))
    by (vm_compute; reflexivity).
  rewrite E in F. clear E. unfold standing in F. cbn [option_map fst snd] in F. injection F as F1 F2 -> F4 F5.
  pose proof (standing_get _ _ F5 adD) as X. destruct (mget (y_clients y) adD) as [k|] eqn:Ek; [|discriminate]. cbn [option_map mget] in X.
  destruct (keq adD adD); [|contradiction]. injection X as K1 K2. exists y, V, P, k. split; [exact HO|]. rewrite F4.
  split; [vm_compute; intuition discriminate|]. split; [assumption|]. split; [unfold settled; now rewrite F2|]. split; [assumption|]. split; [|assumption].
  intros b N. pose proof (standing_get _ _ F5 b) as Y. destruct (mget (y_clients y) b); [|contradiction]. cbn [option_map mget] in Y. now destruct (keq b adD).
Qed.
Theorem C98_from_others_refuted : ~ (forall S H G, suite_ok S -> gob_ok G -> earned_from_others S H G).
Proof.
  intros X. destruct C98_instance as (y & V & P & k & HO & NN & ST & SE & Ek & AL & ER).
  specialize (X _ _ _ toy_ok toy_gob_ok y V P _ HO NN ltac:(cbn; lia) ST SE adD k Ek AL). rewrite ER in X. unfold starting_credit in X. lia.
Qed.

(** D has 4; E, who has just joined and whom nobody has voted for, has 5. *)
Example C98_instance_joined : exists y V P L l y' V' P' k k', honoured toy_suite toy_oracle toy_gob y V P L /\ goes toy_suite toy_oracle toy_gob y V l y' V' /\
  honoured toy_suite toy_oracle toy_gob y' V' P' [(3, -1)] /\ fo_nonneg (co_fb (y_coord y')) /\ co_status (y_coord y') = CO_READY_FOR_NEW_ROUND /\ settled y' /\
  mget (y_clients y) adD <> None /\ mget (y_clients y) adE = None /\ mget (y_clients y') adD = Some k /\ mget (y_clients y') adE = Some k' /\
  cl_pub k = 3 /\ cl_pub k' = 8 /\ cl_rep k = 4 /\ cl_rep k' = 5.
Proof.
  destruct (honoured_play toy_own toy_s [] [] []) as [[[[y V] P] L]|] eqn:E; [|vm_compute in E; discriminate E].
  pose proof (honoured_play_ok _ _ _ _ _ _ _ _ _ toy_s_honoured E) as HO.
  assert (F : option_map (fun t => (map fst (y_clients (fst (fst (fst t)))), option_map standing (honoured_play toy_own_down (fst (fst (fst t))) (snd (fst (fst t))) (snd (fst t)) (snd t))))
      (honoured_play toy_own toy_s [] [] []) =
    Some ([adD], Some (CO_READY_FOR_NEW_ROUND, [], [(3, -1)], toy_fb, [(adD, (3, 4)); (adE, (8, 5))]))) by (vm_compute; reflexivity).
  rewrite E in F. clear E. cbn [option_map fst snd] in F. destruct (honoured_play toy_own_down y V P L) as [[[[y' V'] P'] L']|] eqn:E'; [|discriminate F].
  unfold standing in F. cbn [option_map fst snd] in F. injection F as F0 F1 F2 FL F4 F5. subst L'.
  pose proof (honoured_play_ok _ _ _ _ _ _ _ _ _ HO E') as HO'. destruct (honoured_play_goes _ _ _ _ _ _ _ _ _ E') as [l GO].
  pose proof (standing_get _ _ F5 adD) as X. destruct (mget (y_clients y') adD) as [k|] eqn:Ek; [|discriminate].
  pose proof (standing_get _ _ F5 adE) as X'. destruct (mget (y_clients y') adE) as [k'|] eqn:Ek'; [|discriminate].
  vm_compute in X, X'. injection X as K1 K2. injection X' as K1' K2'.
  exists y, V, P, L, l, y', V', P', k, k'. split; [exact HO|]. split; [exact GO|]. split; [exact HO'|]. rewrite F4.
  split; [vm_compute; intuition discriminate|]. split; [assumption|]. split; [unfold settled; now rewrite F2|].
  split. { destruct (keys_mget (y_clients y) adD) as [w Ew]; [unfold mkeys; rewrite F0; now left|congruence]. }
  split. { destruct (mget (y_clients y) adE) eqn:EE; [|reflexivity]. exfalso. apply mget_keys in EE. unfold mkeys in EE. rewrite F0 in EE. destruct EE as [EE|[]]. discriminate EE. }
  repeat (split; [assumption|]). assumption.
Qed.
Theorem C98_joining_again_refuted : ~ (forall S H G, suite_ok S -> gob_ok G -> no_gain_by_joining S H G).
Proof.
  intros X. destruct C98_instance_joined as (y & V & P & L & l & y' & V' & P' & k & k' & HO & GO & HO' & NN & ST & SE & Ed & Ee & Ek & Ek' & K1 & K1' & K2 & K2').
  assert (Z : cl_rep k' <= cl_rep k).
  { apply (X _ _ _ toy_ok toy_gob_ok y V P L l y' V' P' _ HO GO HO' NN ltac:(cbn; lia) ST SE adD adE k k' Ed Ee Ek Ek'). rewrite K1'. reflexivity. }
  lia.
Qed.

(** In the open round D holds the assignment of its own bridge. *)
Example C98_instance_own : exists y V k bs, calm_reach toy_suite toy_oracle toy_gob y V /\ fo_nonneg (co_fb (y_coord y)) /\
  open_round y /\ in_table toy_suite y adD k /\ 0 <= cl_priv k /\ nth_error (cl_assigns k) 0 = Some (toy_asg, bs) /\
  responses_nonzero toy_suite y toy_asg /\ asNym toy_asg = Some (cl_nym k) /\ rep_diff (y_coord y) (cl_nym k) = 0.
Proof.
  destruct (calm_run toy_held (fun yv => let y := fst yv in (co_status (y_coord y), y_msgs y, round_exp y, mkeys (co_ecomms (y_coord y)),
      co_fb (y_coord y), sv_privs y, co_priv (y_coord y), rep_diff (y_coord y) 12, held_by adD y, option_map cl_nym (mget (y_clients y) adD)))
    (3, [], 4, [16; 12], toy_fb, [(adA, 2); (adB, 3)], 5, 0, Some (3, 4, [(toy_asg, Some [[x01; x02]; [x01; x01]; [x01; x0a]]%byte)]), Some 12))
    as (y & V & R & F); [vm_compute; reflexivity|]. cbv zeta in F. cbn [fst snd] in F.
  assert (F1 : co_status (y_coord y) = 3) by congruence. assert (F2 : y_msgs y = []) by congruence.
  assert (F3 : round_exp y = 4) by congruence. assert (F4 : mkeys (co_ecomms (y_coord y)) = [16; 12]) by congruence.
  assert (F5 : co_fb (y_coord y) = toy_fb) by congruence. assert (F6 : sv_privs y = [(adA, 2); (adB, 3)]) by congruence.
  assert (F7 : co_priv (y_coord y) = 5) by congruence. assert (F8 : rep_diff (y_coord y) 12 = 0) by congruence.
  assert (F9 : held_by adD y = Some (3, 4, [(toy_asg, Some [[x01; x02]; [x01; x01]; [x01; x0a]]%byte)])) by congruence.
  assert (F10 : option_map cl_nym (mget (y_clients y) adD) = Some 12) by congruence. clear F.
  unfold held_by in F9. destruct (mget (y_clients y) adD) as [k|] eqn:Ek; [|discriminate]. cbn [option_map] in F9, F10. injection F10 as F10.
  assert (K1 : cl_pub k = 3) by congruence. assert (K2 : cl_priv k = 4) by congruence.
  assert (K3 : map (fun xb => (fst xb, gdec_2d toy_gob (snd xb))) (cl_assigns k) = [(toy_asg, Some [[x01; x02]; [x01; x01]; [x01; x0a]]%byte)]) by congruence.
  destruct (cl_assigns k) as [|[x bs] r] eqn:EA; [discriminate|]. cbn [map fst snd] in K3.
  assert (K4 : x = toy_asg) by congruence.
  exists y, V, k, bs. split; [assumption|]. rewrite F5. split; [vm_compute; intuition discriminate|]. split.
  { split; [assumption|]. split; [apply has_end_no; unfold has_end; now rewrite F2|]. rewrite F2. intros m []. }
  split. { split; [assumption|]. rewrite F4, K1. unfold nym_of. rewrite F3. vm_compute. auto. }
  split; [lia|]. split; [rewrite EA, K4; reflexivity|]. split; [split|].
  - intros a s Es. apply sv_priv_in in Es. rewrite F6 in Es. destruct Es as [Es|[Es|[]]]; injection Es as _ <-; vm_compute; discriminate.
  - rewrite F7. vm_compute. discriminate.
  - rewrite F10. split; [reflexivity|assumption].
Qed.

Print Assumptions C98_total.
Print Assumptions C98_standing.
Print Assumptions C98_votes_again.
Print Assumptions C98_raises_itself.
Print Assumptions C98_from_others_refuted.
Print Assumptions C98_joining_again_refuted.
