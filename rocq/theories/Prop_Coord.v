(** Properties of the coordinator's handling of messages: C48, C49, C50, C52, C53, C55,
    C56, C57, C58, C60. *)
From Coq Require Import ZArith Znumtheory Lia List Bool Permutation.
From Coq Require Import Strings.Byte.
From Coq Require String.
From Verif Require Import ZMod Bytes Suite Spec Pedersen ElGamal FujiOkam Equality Codec Maps Net Bridge Client
  Perm SimpleShuffle PairShuffle Server Coordinator History Prop_Pedersen Prop_ElGamal Prop_FujiOkam Prop_Codec Prop_Bridge
  Prop_Assign.
Import ListNotations.
Import String.StringSyntax.
Open Scope Z_scope.
Delimit Scope string_scope with str.

(** ** Specification: which messages verify *)
(** The field "nym" of [p] is the encoding of the group element [nym]. *)
Definition names_nym (S : suite) (p : params) (nym : Z) : Prop :=
  exists b, get_bytes p "nym"%str = Some b /\ member (sP S) (sQ S) nym /\ be_to_z b = nym.
(** [p] posts bridge [a] for [nym], signed with the key behind [nym] (base: the
    coordinator's current g). *)
Definition post_valid (S : suite) (c : coord) (p : params) (a : bytes) (nym : Z) : Prop :=
  names_nym S p nym /\ get_str p "bridge_addr"%str = Some a /\
  exists sig bn, get_bytes p "signature"%str = Some sig /\ get_bytes p "nym"%str = Some bn /\
    eg_verify S (a ++ bn) nym sig (co_G c) = true.
(** [p] is a vote of [f] for the provider [target] of the assignment it carries: the voter
    is in the table and signed it; the i-th signature verifies under the i-th server's key
    and the last one under the coordinator's. *)
Definition vote_valid (S : suite) (G : gob) (c : coord) (p : params) (target f : Z) : Prop :=
  exists nym m sig bs sigs ba a,
    names_nym S p nym /\ In nym (co_keys c) /\
    get_bytes p "signature"%str = Some sig /\ msg_vote p = Some m /\ eg_verify S m nym sig (co_G c) = true /\
    get_bytes p "signatures"%str = Some bs /\ gdec_2d G bs = Some sigs /\
    get_bytes p "assignment"%str = Some ba /\ dec_assignment S ba = Some a /\
    (forall i pk, nth_error (map snd (co_servers c) ++ [co_pub c]) i = Some pk ->
       exists s, nth_error sigs i = Some s /\ eg_verify S ba pk s (Some pt_new) = true) /\
    asNym a = Some target /\ get_int p "feedback"%str = Some f.

Lemma names_nym_dec S (OK : suite_ok S) p nym :
  names_nym S p nym <-> exists b, get_bytes p "nym"%str = Some b /\ dec_point S b = Some nym.
Proof.
  split; intros (b & E & H); exists b; (split; [assumption|]); now apply (C23_point_decode_exact S OK).
Qed.

Lemma names_nym_fun S p n1 n2 : names_nym S p n1 -> names_nym S p n2 -> n1 = n2.
Proof. intros (b & E & _ & H) (b' & E' & _ & H'). congruence. Qed.

Lemma check_sigs_iff S m : forall pks sigs, check_sigs S m pks sigs = Some true <->
  forall i pk, nth_error pks i = Some pk -> exists s, nth_error sigs i = Some s /\ eg_verify S m pk s (Some pt_new) = true.
Proof.
  induction pks as [|pk pks IH]; intros sigs; cbn [check_sigs].
  - split; [|reflexivity]. intros _ [|i] pk E; discriminate.
  - split.
    + destruct sigs as [|s sigs]; cbn [nth_error tl]; [discriminate|].
      destruct (eg_verify S m pk s (Some pt_new)) eqn:EV; cbn [negb]; [|discriminate].
      intros E [|i] pk' N; cbn in N; [injection N as <-; now exists s|]. cbn [nth_error]. now apply (proj1 (IH sigs) E).
    + intros HS. destruct (HS O pk eq_refl) as (s & N & EV). rewrite N. rewrite EV. cbn [negb].
      apply IH. intros i pk' N'. destruct (HS (Datatypes.S i) pk' N') as (s' & N2 & EV').
      destruct sigs as [|s0 sigs]; [destruct i; discriminate|]. exists s'. split; assumption.
Qed.

Lemma find_index_in keys nym : In nym keys <-> 0 <= find_index keys nym.
Proof.
  destruct (C30_find_index keys nym) as [H1 H2]. split.
  - intros I. destruct (first_at_ex _ _ I) as (i & Hi). rewrite (H1 i Hi). lia.
  - intros L. destruct (in_dec Z.eq_dec nym keys) as [|N]; [assumption|]. specialize (H2 N). lia.
Qed.
Lemma find_index_nth keys nym : In nym keys -> nth_error keys (Z.to_nat (find_index keys nym)) = Some nym.
Proof.
  intros I. destruct (C30_find_index keys nym) as [H1 _]. destruct (first_at_ex _ _ I) as (i & Hi).
  rewrite (H1 i Hi), Nat2Z.id. apply Hi.
Qed.

Lemma msg_post_eq p a bn : get_str p "bridge_addr"%str = Some a -> get_bytes p "nym"%str = Some bn -> msg_post p = Some (a ++ bn).
Proof. intros E1 E2. unfold msg_post. now rewrite E1, E2. Qed.

(** What a post does, when it does not stop the coordinator. *)
Lemma co_post_spec S (OK : suite_ok S) c p c' out : co_post S c p = Some (c', out) ->
  (c' = c /\ out = [] /\ forall a nym, ~ post_valid S c p a nym) \/
  (exists a nym, post_valid S c p a nym /\ c' = add_bridge c a nym /\ out = []).
Proof.
  unfold co_post. intros E.
  destruct (get_str p "bridge_addr"%str) as [a|] eqn:E1; [|discriminate].
  destruct (get_bytes p "signature"%str) as [sig|] eqn:E2; [|discriminate].
  destruct (get_bytes p "nym"%str) as [bn|] eqn:E3; [|discriminate].
  destruct (dec_point S bn) as [nym|] eqn:E4; [|discriminate].
  assert (HN : names_nym S p nym) by (apply (names_nym_dec S OK); eauto).
  rewrite (msg_post_eq p a bn E1 E3) in E.
  destruct (eg_verify S (a ++ bn) nym sig (co_G c)) eqn:EV; cbn [negb] in E; injection E as <- <-.
  - right. exists a, nym. split; [|auto]. split; [assumption|]. split; [assumption|]. exists sig, bn. auto.
  - left. split; [reflexivity|]. split; [reflexivity|]. intros a' nym' (HN' & Ea & sig' & bn' & Es & Eb & EV').
    rewrite (names_nym_fun _ _ _ _ HN' HN) in EV'. congruence.
Qed.

(** What a vote does, when it does not stop the coordinator. *)
Lemma co_vote_spec S (OK : suite_ok S) G c p c' out : co_vote S G c p = Some (c', out) ->
  out = [] /\
  ((c' = c /\ forall target f, ~ vote_valid S G c p target f) \/
   (exists target f, vote_valid S G c p target f /\
      c' = set_diffs c (mset (co_diffs c) target (int64 (rep_diff c target + f))))).
Proof.
  unfold co_vote. intros E.
  destruct (get_bytes p "nym"%str) as [bn|] eqn:E1; [|discriminate].
  destruct (dec_point S bn) as [nym|] eqn:E2; [|discriminate].
  assert (HN : names_nym S p nym) by (apply (names_nym_dec S OK); eauto).
  destruct (Z.ltb_spec (find_index (co_keys c) nym) 0) as [L|L].
  { injection E as <- <-. split; [reflexivity|]. left. split; [reflexivity|].
    intros target f (nym' & m & sig & bs & sigs & ba & a & HN' & I & _).
    rewrite (names_nym_fun _ _ _ _ HN' HN) in I. apply find_index_in in I. lia. }
  assert (I : In nym (co_keys c)) by (now apply find_index_in).
  rewrite (find_index_nth _ _ I) in E.
  destruct (get_bytes p "signature"%str) as [sig|] eqn:E3; [|discriminate].
  destruct (msg_vote p) as [m|] eqn:E4; [|discriminate].
  destruct (eg_verify S m nym sig (co_G c)) eqn:EV; cbn [negb] in E.
  2:{ injection E as <- <-. split; [reflexivity|]. left. split; [reflexivity|].
      intros target f (nym' & m' & sig' & bs & sigs & ba & a & HN' & _ & X1 & X2 & X3 & _).
      rewrite (names_nym_fun _ _ _ _ HN' HN) in X3. congruence. }
  destruct (get_bytes p "signatures"%str) as [bs|] eqn:E5; [|discriminate].
  destruct (gdec_2d G bs) as [sigs|] eqn:E6; [|discriminate].
  destruct (get_bytes p "assignment"%str) as [ba|] eqn:E7; [|discriminate].
  destruct (dec_assignment S ba) as [a|] eqn:E8; [|discriminate].
  destruct (check_sigs S ba (map snd (co_servers c) ++ [co_pub c]) sigs) as [ok|] eqn:E9; [|discriminate].
  destruct ok; cbn [negb] in E.
  2:{ injection E as <- <-. split; [reflexivity|]. left. split; [reflexivity|].
      intros target f (nym' & m' & sig' & bs' & sigs' & ba' & a' & HN' & _ & X1 & X2 & X3 & X4 & X5 & X6 & X7 & X8 & _).
      assert (sigs' = sigs) by congruence. assert (ba' = ba) by congruence. subst.
      apply check_sigs_iff in X8. congruence. }
  destruct (asNym a) as [target|] eqn:E10; [|discriminate].
  destruct (get_int p "feedback"%str) as [f|] eqn:E11; [|discriminate].
  injection E as <- <-. split; [reflexivity|]. right. exists target, f. split; [|reflexivity].
  exists nym, m, sig, bs, sigs, ba, a.
  do 9 (split; [assumption|]). split; [now apply check_sigs_iff|]. auto.
Qed.
Lemma vote_valid_fun S G c p t1 f1 t2 f2 : vote_valid S G c p t1 f1 -> vote_valid S G c p t2 f2 -> t1 = t2 /\ f1 = f2.
Proof.
  intros (? & ? & ? & ? & ? & ? & a & _ & _ & _ & _ & _ & _ & _ & A1 & A2 & _ & A3 & A4)
         (? & ? & ? & ? & ? & ? & b & _ & _ & _ & _ & _ & _ & _ & B1 & B2 & _ & B3 & B4).
  assert (a = b) by congruence. subst. split; congruence.
Qed.
(** Every valid vote is counted. *)
Lemma co_vote_accept S (OK : suite_ok S) G c p target f : vote_valid S G c p target f ->
  co_vote S G c p = Some (set_diffs c (mset (co_diffs c) target (int64 (rep_diff c target + f))), []).
Proof.
  intros (nym & m & sig & bs & sigs & ba & a & HN & I & X1 & X2 & X3 & X4 & X5 & X6 & X7 & X8 & X9 & X10).
  apply (names_nym_dec S OK) in HN. destruct HN as (b & E1 & E2). unfold co_vote. rewrite E1, E2.
  destruct (Z.ltb_spec (find_index (co_keys c) nym) 0) as [L|L]; [apply find_index_in in I; lia|].
  rewrite (find_index_nth _ _ I), X1, X2, X3, X4, X5, X6, X7, (proj2 (check_sigs_iff _ _ _ _) X8), X9, X10. reflexivity.
Qed.

(** ** C52: in every state, a post, request or vote that is not valid leaves the state
    unchanged and sends nothing (unless it stops the coordinator, see C53). *)
Theorem C52_unverified_post : forall S G, suite_ok S -> forall c p src rn c' out,
  (forall a nym, ~ post_valid S c p a nym) ->
  co_handle S G c POST_BRIDGE p src rn = Some (c', out) -> c' = c /\ out = [].
Proof.
  intros S G OK c p src rn c' out NV E. change (co_post S c p = Some (c', out)) in E.
  destruct (co_post_spec S OK _ _ _ _ E) as [(-> & -> & _)|(a & nym & V & _)]; [auto|]. now apply NV in V.
Qed.
Theorem C52_unverified_vote : forall S G, suite_ok S -> forall c p src rn c' out,
  (forall target f, ~ vote_valid S G c p target f) ->
  co_handle S G c Net.VOTE p src rn = Some (c', out) -> c' = c /\ out = [].
Proof.
  intros S G OK c p src rn c' out NV E. change (co_vote S G c p = Some (c', out)) in E.
  destruct (co_vote_spec S OK _ _ _ _ _ E) as [-> [(-> & _)|(t & f & V & _)]]; [auto|]. now apply NV in V.
Qed.
Theorem C52_unverified_request : forall S G, suite_ok S -> forall c p src rn c' out,
  (forall ind nymR, ~ request_valid S G c p ind nymR) ->
  co_handle S G c REQUEST_BRIDGES p src rn = Some (c', out) -> c' = c /\ out = [].
Proof.
  intros S G OK c p src rn c' out NV E. change (co_request S G c p src rn = Some (c', out)) in E.
  unfold co_request in E.
  destruct (get_int p "ind"%str) as [ind|] eqn:E1; [|discriminate].
  destruct (get_bytes p "signature"%str) as [sig|] eqn:E2; [|discriminate].
  destruct (get_bytes p "nym"%str) as [bn|] eqn:E3; [|discriminate].
  destruct (dec_point S bn) as [nym|] eqn:E4; [|discriminate]. cbv zeta in E.
  destruct (msg_request p) as [m|] eqn:E5; [|discriminate].
  destruct (eg_verify S m nym sig (co_G c)) eqn:EV; cbn [negb] in E; [|injection E as <- <-; auto].
  destruct (verify_ind S G (co_pb c) (co_fb c) p (mget (co_ecomms c) nym)) as [ok|] eqn:E6; [|discriminate].
  destruct ok; cbn [negb] in E; [|injection E as <- <-; auto].
  exfalso. apply (NV ind nym). exists bn, sig, m. apply (C23_point_decode_exact S OK) in E4.
  destruct E4 as [M1 M2]. auto 10.
Qed.
(** The valid ones do take effect. *)
Theorem C52_valid_post_recorded : forall S G, suite_ok S -> forall c p src rn a nym, post_valid S c p a nym ->
  exists c', co_handle S G c POST_BRIDGE p src rn = Some (c', []) /\
    mget (co_bridges c') a = Some (Some nym, false) /\
    forall b, b <> a -> mget (co_bridges c') b = mget (co_bridges c) b.
Proof.
  intros S G OK c p src rn a nym (HN & Ea & sig & bn & Es & Eb & EV).
  exists (add_bridge c a nym). split.
  - change (co_post S c p = Some (add_bridge c a nym, [])). unfold co_post.
    apply (names_nym_dec S OK) in HN. destruct HN as (b & E1 & E2). assert (b = bn) by congruence. subst b.
    rewrite Ea, Es, Eb, E2, (msg_post_eq p a bn Ea Eb), EV. reflexivity.
  - cbn [add_bridge set_bridges co_bridges]. split; [apply mget_mset_eq|]. intros b N. apply mget_mset_ne. congruence.
Qed.
Theorem C52_valid_vote_counted : forall S G, suite_ok S -> forall c p src rn target f, vote_valid S G c p target f ->
  exists c', co_handle S G c Net.VOTE p src rn = Some (c', []) /\
    rep_diff c' target = int64 (rep_diff c target + f) /\ forall k, k <> target -> rep_diff c' k = rep_diff c k.
Proof.
  intros S G OK c p src rn target f V. eexists. split; [exact (co_vote_accept S OK G c p target f V)|].
  unfold rep_diff. cbn [co_diffs set_diffs]. split; [now rewrite mget_mset_eq|].
  intros k N. now rewrite mget_mset_ne by congruence.
Qed.

(** ** C48 *)
Lemma int64_add_l a b : int64 (int64 a + b) = int64 (a + b).
Proof.
  unfold int64. change (2 ^ 63) with 9223372036854775808. change (2 ^ 64) with 18446744073709551616.
  f_equal. replace ((a + 9223372036854775808) mod 18446744073709551616 - 9223372036854775808 + b + 9223372036854775808)
    with ((a + 9223372036854775808) mod 18446744073709551616 + b) by lia.
  rewrite Zplus_mod_idemp_l. f_equal. lia.
Qed.

(** The votes for [target] since the last announcement: [tally t s] says that in the
    history [t] their feedbacks add up to [s]. *)
Inductive tally (S : suite) (G : gob) (target : Z) : list step -> Z -> Prop :=
| tally_nil : tally S G target [] 0
| tally_announcement t st p src rn : stEvent st = EMsg ANNOUNCEMENT p src rn -> tally S G target (t ++ [st]) 0
| tally_vote t s st p src rn f : tally S G target t s -> stEvent st = EMsg Net.VOTE p src rn ->
    vote_valid S G (stBefore st) p target f -> tally S G target (t ++ [st]) (s + f)
| tally_other t s st : tally S G target t s ->
    (forall p src rn, stEvent st <> EMsg ANNOUNCEMENT p src rn) ->
    (forall p src rn f, stEvent st = EMsg Net.VOTE p src rn -> ~ vote_valid S G (stBefore st) p target f) ->
    tally S G target (t ++ [st]) s.

Lemma not_vote_diffs S G c e c' out : co_step S G c e = Some (c', out) ->
  (forall p src rn, e <> EMsg ANNOUNCEMENT p src rn) -> (forall p src rn, e <> EMsg Net.VOTE p src rn) ->
  co_diffs c' = co_diffs c.
Proof.
  intros E NA NV. destruct (co_step_frame S G c e c' out E) as [F _].
  apply (F FDiffs). destruct e as [ty p src rn| | | |]; cbn [writes_ev In]; try (intuition discriminate).
  unfold writes.
  repeat match goal with |- ~ In _ (if ?a =? ?b then _ else _) => destruct (Z.eqb_spec a b); [subst; try (cbn [In]; intuition discriminate)|] end.
  - exfalso. eapply NV. reflexivity.
  - exfalso. eapply NA. reflexivity.
  - intros [].
Qed.

Lemma step_diff S (OK : suite_ok S) G c e c' out target : co_step S G c e = Some (c', out) ->
  (exists p src rn, e = EMsg ANNOUNCEMENT p src rn /\ rep_diff c' target = 0) \/
  (exists p src rn f, e = EMsg Net.VOTE p src rn /\ vote_valid S G c p target f /\
     rep_diff c' target = int64 (rep_diff c target + f)) \/
  ((forall p src rn, e <> EMsg ANNOUNCEMENT p src rn) /\
   (forall p src rn f, e = EMsg Net.VOTE p src rn -> ~ vote_valid S G c p target f) /\
   rep_diff c' target = rep_diff c target).
Proof.
  intros E.
  assert (D : (exists p src rn, e = EMsg ANNOUNCEMENT p src rn) \/ (exists p src rn, e = EMsg Net.VOTE p src rn) \/
    ((forall p src rn, e <> EMsg ANNOUNCEMENT p src rn) /\ (forall p src rn, e <> EMsg Net.VOTE p src rn))).
  { destruct e as [ty p src rn| | | |]; try (right; right; split; intros; discriminate).
    destruct (Z.eq_dec ty ANNOUNCEMENT) as [->|N1]; [left; eauto|].
    destruct (Z.eq_dec ty Net.VOTE) as [->|N2]; [right; left; eauto|].
    right; right. split; intros p' src' rn'; intros [= X]; contradiction. }
  destruct D as [(p & src & rn & ->)|[(p & src & rn & ->)|[NA NV]]].
  - left. exists p, src, rn. split; [reflexivity|]. change (co_announcement S c p = Some (c', out)) in E.
    unfold co_announcement in E. odestruct E. injection E as <- <-. reflexivity.
  - right. change (co_vote S G c p = Some (c', out)) in E.
    destruct (co_vote_spec S OK _ _ _ _ _ E) as [_ [(-> & NV)|(t & f & V & ->)]].
    + right. split; [intros; discriminate|]. split; [|reflexivity].
      intros p' src' rn' f [= <- _ _]. apply NV.
    + destruct (Z.eq_dec t target) as [->|N].
      * left. exists p, src, rn, f. split; [reflexivity|]. split; [assumption|].
        unfold rep_diff at 1. cbn [co_diffs set_diffs]. now rewrite mget_mset_eq.
      * right. split; [intros; discriminate|]. split.
        { intros p' src' rn' f' [= <- _ _] V'. apply N. exact (proj1 (vote_valid_fun _ _ _ _ _ _ _ _ V V')). }
        unfold rep_diff at 1. cbn [co_diffs set_diffs]. rewrite mget_mset_ne by assumption. reflexivity.
  - right; right. split; [assumption|]. split; [intros p src rn f X _; exact (NV _ _ _ X)|].
    unfold rep_diff. now rewrite (not_vote_diffs S G c e c' out E NA NV).
Qed.

(** C48: in every history, for every nym, the votes accepted for it since the last
    announcement have a sum, and the recorded difference is that sum (as a 64-bit int). *)
Theorem C48_sum_of_votes : forall S G, suite_ok S ->
  forall self a0 fb trap gammas t c, run S G (init_coord S self a0 fb trap gammas) t c ->
  forall target, (exists s, tally S G target t s) /\
    forall s, tally S G target t s -> rep_diff c target = int64 s.
Proof.
  intros S G OK self a0 fb trap gammas t c R target. induction R as [|t c e c' out R IH E].
  - split; [exists 0; constructor|]. intros s H. inversion H as [X| | |]; try (destruct t; discriminate).
    unfold init_coord. destruct (gn_generate_all fb gammas). reflexivity.
  - destruct IH as [(s0 & T0) IH].
    destruct (step_diff S OK G c e c' out target E) as [(p & src & rn & -> & D)|[(p & src & rn & f & -> & V & D)|(NA & NV & D)]].
    + split; [exists 0; eapply tally_announcement; reflexivity|]. intros s H. rewrite D.
      inversion H as [X|t1 st p1 src1 rn1 X Xt Xs|t1 s1 st p1 src1 rn1 f1 T1 X V Xt Xs|t1 s1 st T1 NA NV Xt Xs];
        try (destruct t; discriminate); try (apply app_inj_tail in Xt; destruct Xt as [-> ->]).
      * reflexivity.
      * discriminate.
      * exfalso. eapply NA. reflexivity.
    + split; [exists (s0 + f); eapply tally_vote; [exact T0|reflexivity|exact V]|]. intros s H. rewrite D, (IH _ T0), int64_add_l.
      inversion H as [X|t1 st p1 src1 rn1 X Xt Xs|t1 s1 st p1 src1 rn1 f1 T1 X V1 Xt Xs|t1 s1 st T1 NA NV Xt Xs];
        try (destruct t; discriminate); try (apply app_inj_tail in Xt; destruct Xt as [-> ->]).
      * discriminate.
      * cbn [stEvent stBefore] in *. injection X as <- _ _. destruct (vote_valid_fun _ _ _ _ _ _ _ _ V V1) as [_ ->].
        rewrite <- (int64_add_l s0), <- (int64_add_l s1), <- (IH _ T0), <- (IH _ T1). reflexivity.
      * exfalso. eapply NV; [reflexivity|exact V].
    + split; [exists s0; apply tally_other; [exact T0|exact NA|exact NV]|]. intros s H. rewrite D.
      inversion H as [X|t1 st p1 src1 rn1 X Xt Xs|t1 s1 st p1 src1 rn1 f1 T1 X V1 Xt Xs|t1 s1 st T1 NA1 NV1 Xt Xs];
        try (destruct t; discriminate); try (apply app_inj_tail in Xt; destruct Xt as [-> ->]).
      * exfalso. eapply NA. exact X.
      * exfalso. eapply NV; [exact X|exact V1].
      * now apply IH.
Qed.
(** No other event changes it. *)
Theorem C48_only_votes : forall S G, suite_ok S -> forall c e c' out target, co_step S G c e = Some (c', out) ->
  rep_diff c' target <> rep_diff c target ->
  (exists p src rn, e = EMsg ANNOUNCEMENT p src rn) \/
  (exists p src rn f, e = EMsg Net.VOTE p src rn /\ vote_valid S G c p target f).
Proof.
  intros S G OK c e c' out target E N.
  destruct (step_diff S OK G c e c' out target E) as [(p & src & rn & -> & D)|[(p & src & rn & f & -> & V & D)|(_ & _ & D)]];
    [left; eauto|right; eauto 10|contradiction].
Qed.

(** ** C49 *)
(** What the property asks of a vote accepted after the history [t]. *)
Definition vote_proper (S : suite) (G : gob) (t : list step) (c : coord) (p : params) : Prop :=
  forall target f, vote_valid S G c p target f ->
  exists nym ba a, names_nym S p nym /\ get_bytes p "assignment"%str = Some ba /\ dec_assignment S ba = Some a /\
    (f = 1 \/ f = -1) /\ asNymR a = Some nym /\
    (exists st m sigs, In st t /\ In m (stOut st) /\ releases S G m (asAddr a) sigs) /\
    (forall st p' src rn f', In st t -> stEvent st = EMsg Net.VOTE p' src rn ->
       get_bytes p' "assignment"%str = Some ba -> ~ vote_valid S G (stBefore st) p' target f').

(** A vote of any feedback for any target, on an assignment nobody made: only the voter's
    own key is used, the signatures of servers and coordinator are forged (C20). *)
Definition forge_vote (S : suite) (G : gob) (n : nat) (g x nonce nymR : Z) (a : bytes) (target f : Z) : params :=
  let bn := enc_point S ((g ^ x) mod sP S) in
  let ba := enc_assignment S (Assign (Some nymR) a (Some target)) in
  let bs := genc_2d G (repeat (forge_zero_base S ba) (n + 1)) in
  [("nym"%str, VBytes bn); ("assignment"%str, VBytes ba); ("signatures"%str, VBytes bs); ("feedback"%str, VInt f);
   ("signature"%str, VBytes (eg_sign S nonce (bn ++ ba ++ bs ++ z_bytes f) x (Some g)))].

Lemma nth_error_repeat_lt {A} (a : A) n i : (i < n)%nat -> nth_error (repeat a n) i = Some a.
Proof. revert i. induction n as [|n IH]; intros [|i] L; cbn; try lia; [reflexivity|]. apply IH. lia. Qed.

Theorem C49_any_vote_accepted : forall S G, suite_ok S -> gob_ok G -> forall c g x nonce,
  co_G c = Some g -> member (sP S) (sQ S) g -> 0 <= x -> In ((g ^ x) mod sP S) (co_keys c) ->
  forall nymR a target f, member (sP S) (sQ S) nymR -> member (sP S) (sQ S) target ->
  vote_valid S G c (forge_vote S G (length (co_servers c)) g x nonce nymR a target f) target f.
Proof.
  intros S G OK GK c g x nonce EG Hg Hx HI nymR a target f Hr Ht.
  set (nym := (g ^ x) mod sP S) in *. set (asg := Assign (Some nymR) a (Some target)).
  assert (Hn : in_group S nym).
  { pose proof (sP_gt1 S OK). unfold nym. rewrite <- zexp_pos by lia. apply member_in_group in Hg.
    assert (in_group S (pt_mul S g x)) by (unfold pt_mul; in_grp). assumption. }
  unfold forge_vote. fold nym asg.
  set (bn := enc_point S nym). set (ba := enc_assignment S asg).
  set (sigs := repeat (forge_zero_base S ba) (length (co_servers c) + 1)). set (bs := genc_2d G sigs).
  set (m := bn ++ ba ++ bs ++ z_bytes f). set (sig := eg_sign S nonce m x (Some g)).
  exists nym, m, sig, bs, sigs, ba, asg.
  assert (Aok : assignment_ok S asg) by (split; cbn; intros p [= <-]; assumption).
  split.
  { apply (names_nym_dec S OK). exists bn. split; [reflexivity|]. now apply (dec_enc_point S OK). }
  split; [assumption|]. split; [reflexivity|]. split; [reflexivity|]. split.
  { rewrite EG. now apply C19_sign_verifies. }
  split; [reflexivity|]. split; [apply (g_2d G GK)|]. split; [reflexivity|].
  split; [now apply assignment_round_trip|]. split; [|split; reflexivity].
  intros i pk N. exists (forge_zero_base S ba). split; [|now apply C20_unforgeable_refuted].
  apply nth_error_repeat_lt. assert (L : (i < length (map snd (co_servers c) ++ [co_pub c]))%nat)
    by (apply nth_error_Some; congruence). rewrite app_length, map_length in L. exact L.
Qed.

(** The vote can be repeated as often as one likes. *)
Theorem C49_repeatable : forall S G, suite_ok S -> forall c p src rn target f, vote_valid S G c p target f ->
  exists c', co_handle S G c Net.VOTE p src rn = Some (c', []) /\
    rep_diff c' target = int64 (rep_diff c target + f) /\ vote_valid S G c' p target f.
Proof.
  intros S G OK c p src rn target f V. eexists. split; [exact (co_vote_accept S OK G c p target f V)|].
  split; [|exact V]. unfold rep_diff at 1. cbn [co_diffs set_diffs]. now rewrite mget_mset_eq.
Qed.

Definition toy_forged : params :=
  forge_vote toy_suite toy_gob 2 8 7 5 (sG toy_suite) [x7a]%byte (cl_nym toy_client) 100.
Example C49_instance : exists t c, exec toy_suite toy_gob toy_c0
    (toy_setup ++ [EMsg Net.VOTE toy_forged adA toy_rand; EMsg Net.VOTE toy_forged adA toy_rand]) = Some (t, c) /\
  rep_diff c (cl_nym toy_client) = 200.
Proof. do 2 eexists. split; [vm_compute; reflexivity|]. vm_compute. reflexivity. Qed.

Example C48_instance : exists t c, exec toy_suite toy_gob toy_c0
    (toy_setup ++ [EMsg Net.VOTE toy_forged adA toy_rand;
      EMsg Net.VOTE (forge_vote toy_suite toy_gob 2 8 7 5 (sG toy_suite) [x7a]%byte (cl_nym toy_client) (-30)) adA toy_rand;
      EMsg Net.VOTE (forge_vote toy_suite toy_gob 2 8 7 5 (sG toy_suite) [x7a]%byte 2 1) adA toy_rand]) = Some (t, c) /\
  rep_diff c (cl_nym toy_client) = 70 /\ rep_diff c 2 = 1 /\ rep_diff c 3 = 0 /\
  exists c' out, co_step toy_suite toy_gob c (nth 4 toy_setup EConfigure) = Some (c', out) /\ rep_diff c' (cl_nym toy_client) = 0.
Proof.
  do 2 eexists. split; [vm_compute; reflexivity|]. do 3 (split; [vm_compute; reflexivity|]).
  do 2 eexists. split; vm_compute; reflexivity.
Qed.
(** A valid post, and the same post under another nym, which is not valid. *)
Example C52_instance : exists t c, exec toy_suite toy_gob toy_c0 (firstn 5 toy_setup) = Some (t, c) /\
  post_valid toy_suite c (mParams (cl_post toy_suite toy_client [x62]%byte)) [x62]%byte (cl_nym toy_client) /\
  co_handle toy_suite toy_gob c POST_BRIDGE [("bridge_addr"%str, VStr [x62]%byte); ("nym"%str, VBytes [x04]%byte);
    ("signature"%str, VBytes (forge_zero_base toy_suite [x62]%byte))] adA toy_rand = Some (c, []).
Proof.
  do 2 eexists. split; [vm_compute; reflexivity|]. split.
  - split; [eexists; split; [vm_compute; reflexivity|]; split; [|vm_compute; reflexivity]; vm_compute; intuition congruence|].
    split; [reflexivity|]. do 2 eexists. split; [vm_compute; reflexivity|]. split; vm_compute; reflexivity.
  - vm_compute. reflexivity.
Qed.

Lemma toy_setup_state : exists t c, exec toy_suite toy_gob toy_c0 toy_setup = Some (t, c) /\
  co_G c = Some 8 /\ length (co_servers c) = 2%nat /\ In ((8 ^ 7) mod sP toy_suite) (co_keys c).
Proof. do 2 eexists. split; [vm_compute; reflexivity|]. split; [reflexivity|]. split; [reflexivity|]. vm_compute. auto. Qed.

Theorem C49_one_vote_by_requester_refuted : ~ (forall S G, suite_ok S -> gob_ok G ->
  forall self a0 fb trap gammas t c, run S G (init_coord S self a0 fb trap gammas) t c ->
  forall p, vote_proper S G t c p).
Proof.
  intros H. destruct toy_setup_state as (t & c & E & EG & EL & EI).
  specialize (H toy_suite toy_gob toy_ok toy_gob_ok _ _ _ _ _ _ _ (exec_run _ _ _ _ _ _ E) toy_forged).
  assert (V : vote_valid toy_suite toy_gob c toy_forged (cl_nym toy_client) 100).
  { unfold toy_forged. rewrite <- EL.
    apply (C49_any_vote_accepted toy_suite toy_gob toy_ok toy_gob_ok); try assumption; try lia; vm_compute; intuition congruence. }
  destruct (H _ _ V) as (nym & ba & a & _ & _ & _ & F & _). lia.
Qed.

(** What does hold: a vote made by the client program carries +1 or -1 and is valid when
    the client is in the table and holds valid signatures. *)
Theorem C49_honest_vote_partial : forall S G, suite_ok S -> gob_ok G -> forall c cl g id fb m ba a bs sigs target,
  co_G c = Some g -> cl_G cl = Some g -> member (sP S) (sQ S) g -> 0 <= cl_priv cl ->
  cl_nym cl = (g ^ cl_priv cl) mod sP S -> In (cl_nym cl) (co_keys c) ->
  0 <= id -> nth_error (cl_assigns cl) (Z.to_nat id) = Some (a, bs) ->
  assignment_ok S a -> ba = enc_assignment S a -> asNym a = Some target -> gdec_2d G bs = Some sigs ->
  (forall i pk, nth_error (map snd (co_servers c) ++ [co_pub c]) i = Some pk ->
       exists s, nth_error sigs i = Some s /\ eg_verify S ba pk s (Some pt_new) = true) ->
  cl_vote S cl id fb = Some m ->
  vote_valid S G c (mParams m) target (if 0 <? fb then 1 else -1).
Proof.
  intros S G OK GK c cl g id fb m ba a bs sigs target EG EG' Hg Hx En HI Hid HN Aok -> Et Es HS E.
  unfold cl_vote in E. destruct (Z.ltb_spec id 0); [lia|]. rewrite HN in E. cbv zeta in E.
  set (f := if 0 <? fb then 1 else -1) in *.
  set (bn := enc_point S (cl_nym cl)) in *. set (ba := enc_assignment S a) in *.
  change (msg_vote _) with (Some (bn ++ ba ++ bs ++ z_bytes f)) in E. cbv iota beta in E. apply some_inj in E. subst m.
  cbn [mParams app].
  set (sig := eg_sign S (example_nonce S) (bn ++ ba ++ bs ++ z_bytes f) (cl_priv cl) (cl_G cl)).
  exists (cl_nym cl), (bn ++ ba ++ bs ++ z_bytes f), sig, bs, sigs, ba, a.
  assert (Hn : in_group S (cl_nym cl)).
  { pose proof (sP_gt1 S OK). rewrite En. rewrite <- zexp_pos by lia. apply member_in_group in Hg.
    assert (in_group S (pt_mul S g (cl_priv cl))) by (unfold pt_mul; in_grp). assumption. }
  split.
  { apply (names_nym_dec S OK). exists bn. split; [reflexivity|]. now apply (dec_enc_point S OK). }
  split; [assumption|]. split; [reflexivity|]. split; [reflexivity|]. split.
  { unfold sig. rewrite EG, EG', En. now apply C19_sign_verifies. }
  split; [reflexivity|]. split; [assumption|]. split; [reflexivity|].
  split; [now apply assignment_round_trip|]. split; [assumption|]. split; [assumption|reflexivity].
Qed.

(** ** C50 *)
(** The registrations handled in a history, oldest first: key and address. *)
Definition regs (t : list step) : list (Z * addr) :=
  flat_map (fun st => match stEvent st with
    | EMsg ty p src _ =>
        if ty =? CLIENT_REGISTER_CONTROLLERSIDE then
          match get_bytes p "public_key"%str with Some b => [(be_to_z b, src)] | None => [] end
        else []
    | _ => []
    end) t.
(** The order in which AddClient visits the registered clients is some order of them. *)
Definition reg_orders (st : step) : Prop :=
  forall p src rn, stEvent st = EMsg CLIENT_REGISTER_CONTROLLERSIDE p src rn ->
    range_order (crClients rn) (co_clients (stBefore st)).
(** [(k, a)] is the last registration of key [k] and of address [a]. *)
Definition latest (r : list (Z * addr)) (k : Z) (a : addr) : Prop :=
  exists r1 r2, r = r1 ++ (k, a) :: r2 /\ forall k' a', In (k', a') r2 -> k' <> k /\ a' <> a.

Definition one_key (m : amap Z addr) : Prop := forall k1 k2 a, mget m k1 = Some a -> mget m k2 = Some a -> k1 = k2.

Lemma latest_snoc r k a k' a' : latest (r ++ [(k, a)]) k' a' <->
  (k' = k /\ a' = a) \/ (k' <> k /\ a' <> a /\ latest r k' a').
Proof.
  split.
  - intros (r1 & r2 & E & N). destruct r2 as [|z r2] using rev_ind.
    + apply app_inj_tail in E. destruct E as [_ [= -> ->]]. now left.
    + clear IHr2. rewrite app_comm_cons, app_assoc in E. apply app_inj_tail in E. destruct E as [-> <-].
      right. destruct (N k a) as [N1 N2]; [apply in_elt|]. split; [congruence|]. split; [congruence|].
      exists r1, r2. split; [reflexivity|]. intros x y I. apply N. apply in_or_app. now left.
  - intros [[-> ->]|(N1 & N2 & r1 & r2 & -> & N)].
    + exists r, []. split; [reflexivity|]. intros ? ? [].
    + exists r1, (r2 ++ [(k, a)]). split; [now rewrite <- app_assoc|]. intros x y I. apply in_app_iff in I.
      destruct I as [I|[[= <- <-]|[]]]; [now apply N|]. split; congruence.
Qed.

Lemma add_client_get ord m k a : mwf m -> range_order ord m -> one_key m -> forall k',
  mget (add_client ord m k a) k' = if keq k' k then Some a else
    match mget m k' with Some v => if keq v a then None else Some v | None => None end.
Proof.
  intros W O1 U k'. unfold add_client. rewrite mget_mset. destruct (keq k' k); [reflexivity|].
  match goal with |- context [find ?f ord] => destruct (find f ord) as [k0|] eqn:F end.
  - apply find_some in F. destruct F as [_ F]. destruct (mget m k0) as [v0|] eqn:E0; [|discriminate].
    destruct (keq v0 a) as [->|]; [|discriminate]. rewrite mget_mdel. destruct (keq k' k0) as [->|N].
    + rewrite E0. now destruct (keq a a).
    + destruct (mget m k') as [v|] eqn:E1; [|reflexivity]. destruct (keq v a) as [->|]; [|reflexivity].
      exfalso. apply N. eapply U; eassumption.
  - destruct (mget m k') as [v|] eqn:E1; [|reflexivity]. destruct (keq v a) as [->|]; [|reflexivity].
    exfalso. pose proof (proj1 (find_none_iff _ _) F k') as X. cbn beta in X. rewrite E1 in X.
    destruct (keq a a); [|congruence]. apply mget_keys in E1. specialize (X (Permutation_in _ (Permutation_sym O1) E1)). discriminate.
Qed.

Lemma add_client_mwf ord m k a : mwf m -> mwf (add_client ord m k a).
Proof. intros W. unfold add_client. apply mwf_mset. destruct (find _ ord); [now apply mwf_mdel|assumption]. Qed.

(** C50: after any history, key [k] is registered with address [a] exactly when this is the
    latest registration of the address and of the key. *)
Theorem C50_latest_wins : forall S G self a0 fb trap gammas t c,
  run S G (init_coord S self a0 fb trap gammas) t c -> (forall st, In st t -> reg_orders st) ->
  forall k a, mget (co_clients c) k = Some a <-> latest (regs t) k a.
Proof.
  intros S G self a0 fb trap gammas t c R.
  enough (HH : (forall st, In st t -> reg_orders st) -> mwf (co_clients c) /\ one_key (co_clients c) /\
    forall k a, mget (co_clients c) k = Some a <-> latest (regs t) k a) by (intros HO; now apply HH).
  induction R as [|t c e c' out R IH E]; intros HO.
  - unfold init_coord. destruct (gn_generate_all fb gammas). cbn [co_clients].
    split; [constructor|]. split; [intros ? ? ? [=]|]. intros k a. split; [discriminate|].
    intros (r1 & r2 & E & _). destruct r1; discriminate.
  - destruct IH as (W & U & HL); [intros st I; apply HO, in_or_app; now left|].
    assert (NR : (exists p src rn, e = EMsg CLIENT_REGISTER_CONTROLLERSIDE p src rn) \/
      (regs (t ++ [Step c e c' out]) = regs t /\ co_clients c' = co_clients c)).
    { destruct e as [ty p src rn| | | |];
        try (right; split; [unfold regs; rewrite flat_map_app; cbn; apply app_nil_r|];
             destruct (co_step_frame _ _ _ _ _ _ E) as [F _]; apply (F FClients); cbn; intuition discriminate).
      destruct (Z.eq_dec ty CLIENT_REGISTER_CONTROLLERSIDE) as [->|N]; [left; eauto|]. right. split.
      - unfold regs. rewrite flat_map_app. cbn [flat_map stEvent]. apply Z.eqb_neq in N. rewrite N. cbn [app]. apply app_nil_r.
      - destruct (co_step_frame _ _ _ _ _ _ E) as [F _]. apply (F FClients). cbn [writes_ev]. unfold writes.
        repeat match goal with |- ~ In _ (if ?a =? ?b then _ else _) =>
          destruct (Z.eqb_spec a b); [subst; try contradiction; cbn [In]; intuition discriminate|] end. intros []. }
    destruct NR as [(p & src & rn & ->)|[-> ->]]; [|auto].
    change (co_client_register S c p src rn = Some (c', out)) in E. unfold co_client_register in E.
    destruct (get_bytes p "public_key"%str) as [b|] eqn:Eb; [|discriminate]. cbv zeta in E. unfold dec_point_unchecked in E.
    destruct (ped_commit S (co_pb c) (sec_of_int S starting_credit) (crR rn)) as [pc r].
    destruct (send _ _ _ _) as [m1|]; [|discriminate]. destruct (co_G c); [|discriminate]. injection E as <- <-.
    cbn [co_clients set_clients].
    assert (O1 : range_order (crClients rn) (co_clients c)) by (apply (HO _ (in_elt _ t [])) with (p := p) (src := src) (rn := rn); reflexivity).
    pose proof (add_client_get (crClients rn) (co_clients c) (be_to_z b) src W O1 U) as AG.
    assert (ER : regs (t ++ [Step c (EMsg CLIENT_REGISTER_CONTROLLERSIDE p src rn)
        (set_clients c (add_client (crClients rn) (co_clients c) (be_to_z b) src))
        [m1; Msg src INIT_PEDERSEN_R [("r"%str, VBytes (enc_secret S r)); ("g"%str, VBytes (enc_point S z))] (co_addr c)]]) =
        regs t ++ [(be_to_z b, src)]).
    { unfold regs. rewrite flat_map_app. cbn [flat_map stEvent]. rewrite Z.eqb_refl, Eb. reflexivity. }
    rewrite ER. clear ER. split; [now apply add_client_mwf|]. split.
    + intros k1 k2 a. rewrite !AG. destruct (keq k1 (be_to_z b)) as [->|N1], (keq k2 (be_to_z b)) as [->|N2]; intros E1 E2.
      * reflexivity.
      * injection E1 as <-. destruct (mget (co_clients c) k2) as [v|]; [|discriminate].
        destruct (keq v src); [discriminate|]. injection E2 as ->. contradiction.
      * injection E2 as <-. destruct (mget (co_clients c) k1) as [v|]; [|discriminate].
        destruct (keq v src); [discriminate|]. injection E1 as ->. contradiction.
      * destruct (mget (co_clients c) k1) as [v|] eqn:M1; [|discriminate]. destruct (keq v src); [discriminate|].
        destruct (mget (co_clients c) k2) as [v2|] eqn:M2; [|discriminate]. destruct (keq v2 src); [discriminate|].
        injection E1 as ->. injection E2 as ->. eapply U; eassumption.
    + intros k a. rewrite AG, latest_snoc. destruct (keq k (be_to_z b)) as [->|N1].
      * split; [intros [= ->]; now left|]. intros [[_ ->]|[N _]]; [reflexivity|congruence].
      * rewrite <- HL. destruct (mget (co_clients c) k) as [v|].
        { destruct (keq v src) as [->|N2].
          - split; [discriminate|]. intros [[? _]|(_ & N & [= <-])]; [contradiction|congruence].
          - split; [intros [= ->]; right; auto|]. intros [[? _]|(_ & N & ?)]; [contradiction|assumption]. }
        { split; [discriminate|]. intros [[? _]|(_ & N & ?)]; [contradiction|discriminate]. }
Qed.
(** In particular no two registered keys share an address. *)
Theorem C50_one_key_per_address : forall S G self a0 fb trap gammas t c,
  run S G (init_coord S self a0 fb trap gammas) t c -> (forall st, In st t -> reg_orders st) ->
  forall k1 k2 a, mget (co_clients c) k1 = Some a -> mget (co_clients c) k2 = Some a -> k1 = k2.
Proof.
  intros S G self a0 fb trap gammas t c R HO k1 k2 a M1 M2.
  apply (C50_latest_wins S G _ _ _ _ _ _ _ R HO) in M1, M2.
  generalize dependent (regs t). intros r M1 M2. induction r as [|[k a'] r IH] using rev_ind.
  - destruct M1 as (r1 & r2 & E & _). destruct r1; discriminate.
  - apply latest_snoc in M1, M2. destruct M1 as [[-> ->]|(N1 & N1' & M1)], M2 as [[-> E]|(N2 & N2' & M2)]; try congruence.
    now apply IH.
Qed.
Definition reg_event (k : Z) (a : addr) (ord : list Z) : event :=
  EMsg CLIENT_REGISTER_CONTROLLERSIDE [("public_key"%str, VBytes (enc_point toy_suite k))] a (CoRand 3 ord (fun _ => []) []).
Example C50_instance : exists t c, exec toy_suite toy_gob toy_c0
    (toy_setup ++ [reg_event 2 [x31]%byte []; reg_event 3 [x32]%byte [2]; reg_event 6 [x31]%byte [3; 2]; reg_event 3 [x33]%byte [6; 3]]) = Some (t, c) /\
  (forall st, In st t -> reg_orders st) /\ co_clients c = [(3, [x33]); (6, [x31])]%byte.
Proof.
  do 2 eexists. split; [vm_compute; reflexivity|]. split; [|reflexivity].
  intros st I. repeat (destruct I as [<-|I]; [intros p src rn E; cbn [stEvent] in E; first [discriminate E |
    injection E as <- <- <-; unfold range_order; cbn [crClients co_clients stBefore mkeys map fst];
    first [apply Permutation_refl|apply perm_swap]]|]). destruct I.
Qed.

(** ** C53 *)
(** Messages that stop the coordinator in every state: a nym that is not a group element,
    or a missing field. *)
Theorem C53_invalid_nym_stops : forall S G, suite_ok S -> forall c p src rn b,
  get_bytes p "nym"%str = Some b -> ~ member (sP S) (sQ S) (be_to_z b) ->
  co_handle S G c POST_BRIDGE p src rn = None /\
  co_handle S G c REQUEST_BRIDGES p src rn = None /\
  co_handle S G c Net.VOTE p src rn = None.
Proof.
  intros S G OK c p src rn b Eb NM.
  assert (ED : dec_point S b = None) by (apply (C23_point_decode_exact S OK b 0); assumption).
  split; [|split].
  - change (co_post S c p = None). unfold co_post. rewrite Eb, ED.
    destruct (get_str p "bridge_addr"%str); [|reflexivity]. now destruct (get_bytes p "signature"%str).
  - change (co_request S G c p src rn = None). unfold co_request. rewrite Eb, ED.
    destruct (get_int p "ind"%str); [|reflexivity]. now destruct (get_bytes p "signature"%str).
  - change (co_vote S G c p = None). unfold co_vote. now rewrite Eb, ED.
Qed.
Theorem C53_empty_message_stops : forall S G c src rn ty,
  In ty [CLIENT_REGISTER_CONTROLLERSIDE; GN_HONESTY_CHALLENGE; POST_BRIDGE; REQUEST_BRIDGES; Net.VOTE] ->
  co_handle S G c ty [] src rn = None.
Proof. intros S G c src rn ty I. cbn [In] in I. intuition (subst; reflexivity). Qed.
(** A registration before the first announcement, or without servers. *)
Theorem C53_early_registration_stops : forall S G c p src rn, co_G c = None \/ co_servers c = [] ->
  co_handle S G c CLIENT_REGISTER_CONTROLLERSIDE p src rn = None.
Proof.
  intros S G c p src rn HH. change (co_client_register S c p src rn = None). unfold co_client_register.
  destruct (get_bytes p "public_key"%str); [|reflexivity]. cbv zeta.
  destruct (ped_commit S (co_pb c) (sec_of_int S starting_credit) (crR rn)) as [pc r].
  destruct HH as [HG|HS].
  - destruct (send _ _ _ _); [|reflexivity]. now rewrite HG.
  - unfold first_server. now rewrite HS.
Qed.
(** A request signed with a key that is not in the table, and whose indicator commitment
    opens, stops the coordinator. *)
Theorem C53_unknown_requester_stops : forall S G, suite_ok S -> forall c p src rn ind nym bn sig m bi pi bd pd br r,
  get_int p "ind"%str = Some ind -> names_nym S p nym -> get_bytes p "nym"%str = Some bn ->
  mget (co_ecomms c) nym = None ->
  get_bytes p "signature"%str = Some sig -> msg_request p = Some m -> eg_verify S m nym sig (co_G c) = true ->
  get_bytes p "PCommind"%str = Some bi -> dec_point S bi = Some pi ->
  get_bytes p "PCommd"%str = Some bd -> dec_point S bd = Some pd ->
  get_bytes p "rind"%str = Some br -> dec_secret S br = Some r ->
  ped_commit_r S (co_pb c) (sec_of_int S ind) r = pi ->
  co_handle S G c REQUEST_BRIDGES p src rn = None.
Proof.
  intros S G OK c p src rn ind nym bn sig m bi pi bd pd br r E1 HN En EC E2 E3 EV E4 E5 E6 E7 E8 E9 E10.
  apply (names_nym_dec S OK) in HN. destruct HN as (b & Eb & Ed).
  change (co_request S G c p src rn = None). unfold co_request. rewrite E1, E2, Eb, Ed, E3. cbv zeta. rewrite EV. cbn [negb].
  rewrite EC. unfold verify_ind. rewrite E1, Eb, Ed, E4, E5, E6, E7, E8, E9. cbv zeta. rewrite E10, Z.eqb_refl. reflexivity.
Qed.
Theorem C53_never_stops_refuted : ~ (forall S G, suite_ok S -> gob_ok G ->
  forall self a0 fb trap gammas t c, run S G (init_coord S self a0 fb trap gammas) t c ->
  forall ty p src rn, co_handle S G c ty p src rn <> None).
Proof.
  intros H. apply (H toy_suite toy_gob toy_ok toy_gob_ok adC 5 toy_fb toy_trap [] [] _ (run_nil _ _ _) POST_BRIDGE [] adA toy_rand).
  apply C53_empty_message_stops. cbn. tauto.
Qed.
(** What does hold: these well-formed messages never stop it, in any state. *)
Theorem C53_post_partial : forall S G, suite_ok S -> forall c p src rn a sig nym,
  get_str p "bridge_addr"%str = Some a -> get_bytes p "signature"%str = Some sig -> names_nym S p nym ->
  co_handle S G c POST_BRIDGE p src rn <> None.
Proof.
  intros S G OK c p src rn a sig nym Ea Es HN. apply (names_nym_dec S OK) in HN. destruct HN as (b & Eb & Ed).
  change (co_post S c p <> None). unfold co_post. rewrite Ea, Es, Eb, Ed, (msg_post_eq p a b Ea Eb).
  destruct (eg_verify S (a ++ b) nym sig (co_G c)); discriminate.
Qed.
Lemma check_sigs_total S m : forall pks sigs, (length pks <= length sigs)%nat -> check_sigs S m pks sigs <> None.
Proof.
  induction pks as [|pk pks IH]; intros [|s sigs] L; cbn in *; try lia; try discriminate.
  destruct (eg_verify S m pk s (Some pt_new)); cbn [negb]; [|discriminate]. apply IH. lia.
Qed.
Theorem C53_vote_partial : forall S G, suite_ok S -> forall c p src rn nym sig bs sigs ba a target f,
  names_nym S p nym -> get_bytes p "signature"%str = Some sig ->
  get_bytes p "signatures"%str = Some bs -> gdec_2d G bs = Some sigs -> (length (co_servers c) < length sigs)%nat ->
  get_bytes p "assignment"%str = Some ba -> dec_assignment S ba = Some a -> asNym a = Some target ->
  get_int p "feedback"%str = Some f ->
  co_handle S G c Net.VOTE p src rn <> None.
Proof.
  intros S G OK c p src rn nym sig bs sigs ba a target f HN E1 E2 E3 L E4 E5 E6 E7.
  apply (names_nym_dec S OK) in HN. destruct HN as (b & Eb & Ed).
  change (co_vote S G c p <> None). unfold co_vote. rewrite Eb, Ed.
  destruct (Z.ltb_spec (find_index (co_keys c) nym) 0); [discriminate|].
  rewrite find_index_nth by (now apply find_index_in). rewrite E1. unfold msg_vote. rewrite Eb, E4, E2, E7.
  destruct (eg_verify S _ nym sig (co_G c)); cbn [negb]; [|discriminate]. rewrite E3, E5.
  destruct (check_sigs S ba (map snd (co_servers c) ++ [co_pub c]) sigs) as [ok|] eqn:EC.
  - destruct ok; cbn [negb]; [|discriminate]. rewrite E6. discriminate.
  - exfalso. revert EC. apply check_sigs_total. rewrite app_length, map_length. cbn. lia.
Qed.
Theorem C53_register_partial : forall S G c p src rn b,
  get_bytes p "public_key"%str = Some b -> co_servers c <> [] -> co_G c <> None ->
  co_handle S G c CLIENT_REGISTER_CONTROLLERSIDE p src rn <> None.
Proof.
  intros S G c p src rn b Eb HS HG. change (co_client_register S c p src rn <> None). unfold co_client_register.
  rewrite Eb. cbv zeta. destruct (ped_commit S (co_pb c) (sec_of_int S starting_credit) (crR rn)) as [pc r].
  unfold first_server. destruct (co_servers c) as [|[a pk] l]; [contradiction|]. cbn [nth_error option_map send fst].
  destruct (co_G c); [discriminate|contradiction].
Qed.
(** A well-formed request of a client in the table, after the first round has begun. *)
Theorem C53_request_partial : forall S G, suite_ok S -> forall c p src rn ind nym sig bi pi bd pd br r cr bf bnn nn be eq,
  co_reqs c <> None -> names_nym S p nym -> mget (co_ecomms c) nym = Some cr -> in_group S cr ->
  get_int p "ind"%str = Some ind -> get_bytes p "signature"%str = Some sig ->
  get_bytes p "PCommind"%str = Some bi -> dec_point S bi = Some pi ->
  get_bytes p "PCommd"%str = Some bd -> dec_point S bd = Some pd ->
  get_bytes p "rind"%str = Some br -> dec_secret S br = Some r -> get_bytes p "FOCommd"%str = Some bf ->
  get_bytes p "arg_nonneg"%str = Some bnn -> gdec_nonneg G bnn = Some nn ->
  get_bytes p "arg_equal"%str = Some be -> gdec_equal G be = Some eq ->
  co_handle S G c REQUEST_BRIDGES p src rn <> None.
Proof.
  intros S G OK c p src rn ind nym sig bi pi bd pd br r cr bf bnn nn be eq HR HN HC Hcr E1 E2 E3 E4 E5 E6 E7 E8 E9 E10 E11 E12 E13.
  apply (names_nym_dec S OK) in HN. destruct HN as (b & Eb & Ed).
  change (co_request S G c p src rn <> None). unfold co_request. rewrite E1, E2, Eb, Ed.
  unfold msg_request. rewrite E1, Eb, E9, E5, E3, E7, E10, E12. cbv zeta.
  destruct (eg_verify S _ nym sig (co_G c)); cbn [negb]; [|discriminate].
  assert (HV : verify_ind S G (co_pb c) (co_fb c) p (mget (co_ecomms c) nym) <> None).
  { rewrite HC. unfold verify_ind. rewrite E1, Eb, Ed, E3, E4, E5, E6, E7, E8. cbv zeta.
    destruct (negb _); [discriminate|]. unfold ped_sub. rewrite pt_sub_group; try assumption.
    - destruct (negb _); [discriminate|]. rewrite E9, E10, E11, E12, E13. destruct (negb _); discriminate.
    - eapply dec_point_group; eassumption. }
  destruct (verify_ind S G (co_pb c) (co_fb c) p (mget (co_ecomms c) nym)) as [ok|]; [|contradiction].
  destruct ok; cbn [negb]; [|discriminate]. destruct (co_reqs c) as [reqs|]; [|contradiction].
  destruct (assign_bridges _ _ _ _) as [l c2]. destruct l as [|a l]; [discriminate|].
  destruct (open_total S (a :: l) c2) as (x & ->). discriminate.
Qed.
Example C53_instance : exists t c, exec toy_suite toy_gob toy_c0 toy_setup = Some (t, c) /\
  co_handle toy_suite toy_gob c POST_BRIDGE [("bridge_addr"%str, VStr [x62]%byte); ("nym"%str, VBytes [x05]%byte);
    ("signature"%str, VBytes [])] adA toy_rand = None /\
  co_handle toy_suite toy_gob c POST_BRIDGE [("bridge_addr"%str, VStr [x62]%byte); ("nym"%str, VBytes [x04]%byte);
    ("signature"%str, VBytes [])] adA toy_rand = Some (c, []).
Proof. do 2 eexists. split; [vm_compute; reflexivity|]. split; vm_compute; reflexivity. Qed.

(** ** C55 *)
(** The messages of a registration change no commitment themselves. *)
Theorem C55_messages_partial : forall S G c ty p src rn c' out,
  In ty [CLIENT_REGISTER_CONTROLLERSIDE; CLIENT_REGISTER_SERVERSIDE] -> co_handle S G c ty p src rn = Some (c', out) ->
  co_ecomms c' = co_ecomms c /\ co_bcomms c' = co_bcomms c.
Proof.
  intros S G c ty p src rn c' out I E. destruct (co_step_frame S G c (EMsg ty p src rn) c' out E) as [F _].
  split; [apply (F FEComms)|apply (F FBComms)]; cbn [writes_ev]; destruct I as [<-|[<-|[]]]; cbn; intuition discriminate.
Qed.
Lemma fold_ending_get l : forall c k,
  mget (co_ecomms (fold_left (fun c (kv : Z * Z) => add_ending c (fst kv) (snd kv)) l c)) k =
  match find (fun kv => if keq (fst kv) k then true else false) (rev l) with
  | Some kv => Some (snd kv) | None => mget (co_ecomms c) k end.
Proof.
  intros c k. rewrite <- fold_left_rev_right. induction (rev l) as [|[k' v] r IH]; [reflexivity|].
  cbn [fold_right find fst snd]. cbn [add_ending set_ecomms co_ecomms]. rewrite mget_mset.
  destruct (keq k' k) as [->|N]; [now destruct (keq k k)|]. destruct (keq k k'); [congruence|exact IH].
Qed.
(** When the buffered registrations are added at the end of a round, the commitments under
    other keys stay. *)
Theorem C55_other_keys_partial : forall S c ord rs c' out k, round_end S c ord rs = Some (c', out) ->
  ~ In k (map fst (co_buffer c)) -> mget (co_ecomms c') k = mget (co_ecomms c) k.
Proof.
  intros S c ord rs c' out k E NI. unfold round_end in E. destruct (last_server c); [|injection E as <- <-; reflexivity].
  cbv zeta in E. odestruct E. injection E as <- <-. cbn [clear_bridges set_bridges co_ecomms]. rewrite fold_ending_get.
  destruct (find _ (rev (co_buffer c))) as [[k' v]|] eqn:F; [|reflexivity]. exfalso. apply NI.
  apply find_some in F. destruct F as [I F]. cbn [fst] in F. destruct (keq k' k) as [->|]; [|discriminate].
  apply in_map_iff. exists (k, v). split; [reflexivity|]. now apply in_rev.
Qed.
(** C55 refuted: in every state and for every key, also one in the table, the registration
    message coming out of the chain replaces the commitment at the end of the round. *)
Theorem C55_overwrites : forall S G, suite_ok S -> forall c k pc src rn a c1 out1 ord rs c2 out2,
  in_group S k -> in_group S pc -> co_servers c <> [] ->
  co_handle S G c CLIENT_REGISTER_SERVERSIDE [("public_key"%str, VBytes (enc_point S k)); ("addr"%str, VStr a);
    ("pcomm"%str, VBytes (enc_point S pc))] src rn = Some (c1, out1) ->
  round_end S c1 ord rs = Some (c2, out2) -> mget (co_ecomms c2) k = Some pc.
Proof.
  intros S G OK c k pc src rn a c1 out1 ord rs c2 out2 Hk Hp HS E1 E2.
  match type of E1 with co_handle _ _ _ _ ?p _ _ = _ => change (co_client_confirm S G c p = Some (c1, out1)) in E1 end.
  unfold co_client_confirm, get_bytes, get_str in E1.
  cbn [lookup String.eqb Ascii.eqb Bool.eqb] in E1. rewrite (dec_enc_point S OK pc Hp) in E1.
  rewrite (dec_enc_unchecked S k Hk) in E1. injection E1 as <- _.
  unfold round_end in E2. destruct (last_server _) eqn:EL.
  - cbv zeta in E2. odestruct E2. injection E2 as <- _. cbn [clear_bridges set_bridges co_ecomms]. rewrite fold_ending_get.
    cbn [add_buffer set_buffer co_buffer]. rewrite rev_app_distr. cbn [rev app find fst]. now destruct (keq k k).
  - exfalso. unfold last_server in EL. cbn [add_buffer set_buffer co_servers] in EL.
    destruct (co_servers c) as [|s l]; [contradiction|]. cbn [rev] in EL. destruct (rev l); discriminate.
Qed.
Definition toy_rereg (src : addr) : event :=
  EMsg CLIENT_REGISTER_SERVERSIDE [("public_key"%str, VBytes (enc_point toy_suite (cl_nym toy_client))); ("addr"%str, VStr adA);
    ("pcomm"%str, VBytes (enc_point toy_suite 2))] src toy_rand.
Theorem C55_unaffected_refuted : ~ (forall S G, suite_ok S -> gob_ok G ->
  forall self a0 fb trap gammas t c, run S G (init_coord S self a0 fb trap gammas) t c ->
  forall p src rn ord rs c1 out1 c2 out2, co_handle S G c CLIENT_REGISTER_SERVERSIDE p src rn = Some (c1, out1) ->
  round_end S c1 ord rs = Some (c2, out2) ->
  forall k v, mget (co_ecomms c) k = Some v -> mget (co_ecomms c2) k = Some v).
Proof.
  intros H. assert (X : exists t c c1 out1 c2 out2, exec toy_suite toy_gob toy_c0 toy_setup = Some (t, c) /\
    co_step toy_suite toy_gob c (toy_rereg adB) = Some (c1, out1) /\
    round_end toy_suite c1 [cl_nym toy_client] [4] = Some (c2, out2) /\
    mget (co_ecomms c) (cl_nym toy_client) = Some (ped_commit_r toy_suite toy_base 5 6) /\
    mget (co_ecomms c2) (cl_nym toy_client) = Some 2).
  { do 6 eexists. split; [vm_compute; reflexivity|]. do 3 (split; [vm_compute; reflexivity|]). vm_compute; reflexivity. }
  destruct X as (t & c & c1 & out1 & c2 & out2 & E & E1 & E2 & M & M'). unfold co_step, toy_rereg in E1.
  pose proof (H toy_suite toy_gob toy_ok toy_gob_ok _ _ _ _ _ _ _ (exec_run _ _ _ _ _ _ E) _ _ _ _ _ _ _ _ _ E1 E2 _ _ M) as X.
  rewrite M' in X. vm_compute in X. discriminate.
Qed.

(** ** C56 *)
(** Only these events change tables, base parameters or buffered registrations. *)
Definition same_table (c c' : coord) : Prop :=
  co_bkeys c' = co_bkeys c /\ co_bcomms c' = co_bcomms c /\ co_ekeys c' = co_ekeys c /\ co_ecomms c' = co_ecomms c /\
  co_pb c' = co_pb c /\ co_G c' = co_G c /\ co_buffer c' = co_buffer c.
Theorem C56_only_these_partial : forall S G c e c' out, co_step S G c e = Some (c', out) -> ~ same_table c c' ->
  (exists ty p src rn, e = EMsg ty p src rn /\
     In ty [ANNOUNCEMENT; Net.ROUND_END; UPDATE_PEDERSEN_H; CLIENT_REGISTER_SERVERSIDE]) \/
  (exists fakes ord, e = EBegin fakes ord) \/ (exists ord rs, e = EEnd ord rs).
Proof.
  intros S G c e c' out E N. destruct (co_step_frame S G c e c' out E) as [F _].
  assert (K : (forall f, In f [FBKeys; FBComms; FEKeys; FEComms; FPB; FG; FBuffer] -> ~ In f (writes_ev e)) -> same_table c c').
  { intros HF. split; [apply (F FBKeys)|split; [apply (F FBComms)|split; [apply (F FEKeys)|split; [apply (F FEComms)|
      split; [apply (F FPB)|split; [apply (F FG)|apply (F FBuffer)]]]]]]; apply HF; cbn; tauto. }
  destruct e as [ty p src rn| |fakes ord| |ord rs]; [|exfalso|right; left; eauto|exfalso|right; right; eauto].
  - left. exists ty, p, src, rn. split; [reflexivity|].
    destruct (in_dec Z.eq_dec ty [ANNOUNCEMENT; Net.ROUND_END; UPDATE_PEDERSEN_H; CLIENT_REGISTER_SERVERSIDE]) as [|NI]; [assumption|].
    exfalso. apply N, K. intros f If. cbn [writes_ev]. unfold writes. cbn [In] in NI, If.
    repeat match goal with |- ~ In _ (if ?a =? ?b then _ else _) =>
          destruct (Z.eqb_spec a b); [subst; try tauto; cbn [In]; intuition congruence|] end. intros [].
  - apply N, K. intros f If. cbn in *. intuition congruence.
  - apply N, K. intros f If. cbn in *. intuition congruence.
Qed.
(** C56 refuted: none of these handlers looks at the sender, at the coordinator or at a
    server. *)
Theorem C56_any_sender : forall S G c ty p src src' rn,
  In ty [ANNOUNCEMENT; Net.ROUND_END; UPDATE_PEDERSEN_H; CLIENT_REGISTER_SERVERSIDE] ->
  co_handle S G c ty p src rn = co_handle S G c ty p src' rn.
Proof. intros S G c ty p src src' rn I. cbn [In] in I. intuition (subst; reflexivity). Qed.
Theorem C56_any_sender_server : forall S H G s ty p src src' rn,
  In ty [ANNOUNCEMENT; ANNOUNCEMENT_FINALIZE; UPDATE_NEXT_HOP; CLIENT_REGISTER_SERVERSIDE; Net.ROUND_END; BCAST_PEDERSEN_H] ->
  sv_handle S H G s ty p src rn = sv_handle S H G s ty p src' rn.
Proof. intros S H G s ty p src src' rn I. cbn [In] in I. intuition (subst; reflexivity). Qed.
Theorem C56_only_servers_refuted : ~ (forall S G, suite_ok S -> gob_ok G ->
  forall self a0 fb trap gammas t c, run S G (init_coord S self a0 fb trap gammas) t c ->
  forall ty p src rn c' out, co_handle S G c ty p src rn = Some (c', out) -> server_index c src = None -> same_table c c').
Proof.
  intros H. assert (X : exists t c c1 out1, exec toy_suite toy_gob toy_c0 toy_setup = Some (t, c) /\
    co_step toy_suite toy_gob c (toy_rereg [x7a]%byte) = Some (c1, out1) /\ server_index c [x7a]%byte = None /\
    co_buffer c = [] /\ co_buffer c1 <> []).
  { do 4 eexists. split; [vm_compute; reflexivity|]. split; [vm_compute; reflexivity|].
    split; [vm_compute; reflexivity|]. split; [reflexivity|discriminate]. }
  destruct X as (t & c & c1 & out1 & E & E1 & E2 & M & M'). unfold co_step, toy_rereg in E1.
  pose proof (H toy_suite toy_gob toy_ok toy_gob_ok _ _ _ _ _ _ _ (exec_run _ _ _ _ _ _ E) _ _ _ _ _ _ E1 E2) as X.
  destruct X as (_ & _ & _ & _ & _ & _ & X). congruence.
Qed.

(** ** C57 *)
(** C57 refuted: the phase is not looked at: changing it changes nothing in what a post, a
    request or a vote does. *)
Theorem C57_phase_ignored : forall S G c s ty p src rn, In ty [POST_BRIDGE; REQUEST_BRIDGES; Net.VOTE] ->
  co_handle S G (set_status c s) ty p src rn =
  match co_handle S G c ty p src rn with Some (c', out) => Some (set_status c' s, out) | None => None end.
Proof.
  intros S G c s ty p src rn I.
  assert (HO : forall l c0, open_assignments S (set_status c0 s) l =
     match open_assignments S c0 l with Some c' => Some (set_status c' s) | None => None end).
  { induction l as [|a l IH]; intros c0; [reflexivity|]. cbn [open_assignments]. rewrite !open_one.
    match goal with |- open_assignments S ?x l = match open_assignments S ?y l with _ => _ end =>
      change x with (set_status y s) end. apply IH. }
  cbn [In] in I. destruct I as [<-|[<-|[<-|[]]]].
  - change (co_post S (set_status c s) p = match co_post S c p with Some (c', out) => Some (set_status c' s, out) | None => None end).
    unfold co_post. destruct (get_str p "bridge_addr"%str); [|reflexivity]. destruct (get_bytes p "signature"%str); [|reflexivity].
    destruct (get_bytes p "nym"%str) as [bn|]; [|reflexivity]. destruct (dec_point S bn); [|reflexivity].
    destruct (msg_post p); [|reflexivity]. cbn [set_status co_G]. destruct (eg_verify _ _ _ _ _); reflexivity.
  - change (co_request S G (set_status c s) p src rn =
      match co_request S G c p src rn with Some (c', out) => Some (set_status c' s, out) | None => None end).
    unfold co_request, co_fb. cbn [set_status co_ecomms co_G co_pb co_reqs co_static]. cbv zeta.
    destruct (get_int p "ind"%str) as [ind|]; [|reflexivity]. destruct (get_bytes p "signature"%str) as [sig|]; [|reflexivity].
    destruct (get_bytes p "nym"%str) as [bn|]; [|reflexivity]. destruct (dec_point S bn) as [nymR|]; [|reflexivity].
    destruct (msg_request p); [|reflexivity]. destruct (eg_verify _ _ _ _ _); cbn [negb]; [|reflexivity].
    destruct (verify_ind _ _ _ _ _ _) as [ok|]; [|reflexivity]. destruct ok; cbn [negb]; [|reflexivity].
    destruct (co_reqs c) as [reqs|]; [|reflexivity]. unfold assign_bridges. cbn [set_reqs co_bridges].
    destruct (get_bridges _ _ _) as [brs mm].
    match goal with |- context [match map ?f brs with _ => _ end] => destruct (map f brs) as [|a l]; [reflexivity|] end.
    match goal with |- match open_assignments S ?x ?l0 with _ => _ end = match (match open_assignments S ?y ?l1 with _ => _ end) with _ => _ end =>
      change x with (set_status y s); rewrite (HO l0 y); destruct (open_assignments S y l0); [|reflexivity] end.
    destruct (get_bytes p "FOCommd"%str); [|reflexivity]. destruct (get_bytes p "PCommd"%str); [|reflexivity].
    destruct (get_bytes p "PCommind"%str); [|reflexivity]. destruct (get_bytes p "rind"%str); [|reflexivity].
    destruct (get_bytes p "arg_nonneg"%str); [|reflexivity]. destruct (get_bytes p "arg_equal"%str); reflexivity.
  - change (co_vote S G (set_status c s) p = match co_vote S G c p with Some (c', out) => Some (set_status c' s, out) | None => None end).
    unfold co_vote, co_pub. cbn [set_status co_keys co_G co_servers co_static co_diffs]. cbv zeta.
    destruct (get_bytes p "nym"%str) as [bn|]; [|reflexivity]. destruct (dec_point S bn) as [nym|]; [|reflexivity].
    destruct (_ <? 0); [reflexivity|]. destruct (nth_error _ _); [|reflexivity].
    destruct (get_bytes p "signature"%str); [|reflexivity]. destruct (msg_vote p); [|reflexivity].
    destruct (eg_verify _ _ _ _ _); cbn [negb]; [|reflexivity].
    destruct (get_bytes p "signatures"%str) as [bs|]; [|reflexivity]. destruct (gdec_2d G bs); [|reflexivity].
    destruct (get_bytes p "assignment"%str) as [ba|]; [|reflexivity]. destruct (dec_assignment S ba) as [a|]; [|reflexivity].
    destruct (check_sigs _ _ _ _) as [ok|]; [|reflexivity]. destruct ok; cbn [negb]; [|reflexivity].
    destruct (asNym a); [|reflexivity]. destruct (get_int p "feedback"%str); reflexivity.
Qed.
(** A vote counted although the voting phase has never begun. *)
Theorem C57_voting_phase_refuted : ~ (forall S G, suite_ok S -> gob_ok G ->
  forall self a0 fb trap gammas t c, run S G (init_coord S self a0 fb trap gammas) t c ->
  forall p target f, vote_valid S G c p target f -> exists st, In st t /\ stEvent st = EVotePhase).
Proof.
  intros H. assert (X : exists t c, exec toy_suite toy_gob toy_c0 toy_setup = Some (t, c) /\
    co_G c = Some 8 /\ length (co_servers c) = 2%nat /\ In ((8 ^ 7) mod sP toy_suite) (co_keys c) /\
    forallb (fun st => match stEvent st with EVotePhase => false | _ => true end) t = true).
  { do 2 eexists. split; [vm_compute; reflexivity|]. split; [reflexivity|]. split; [reflexivity|].
    split; [vm_compute; auto|reflexivity]. }
  destruct X as (t & c & E & EG & EL & EI & NV).
  assert (V : vote_valid toy_suite toy_gob c toy_forged (cl_nym toy_client) 100).
  { unfold toy_forged. rewrite <- EL.
    apply (C49_any_vote_accepted toy_suite toy_gob toy_ok toy_gob_ok); try assumption; try lia; vm_compute; intuition congruence. }
  destruct (H toy_suite toy_gob toy_ok toy_gob_ok _ _ _ _ _ _ _ (exec_run _ _ _ _ _ _ E) _ _ _ V) as (st & I & Es).
  rewrite forallb_forall in NV. specialize (NV st I). rewrite Es in NV. discriminate.
Qed.
(** What does hold: no vote is accepted before the first announcement has been received. *)
Theorem C57_after_announcement_partial : forall S G, suite_ok S ->
  forall self a0 fb trap gammas t c, run S G (init_coord S self a0 fb trap gammas) t c ->
  forall p target f, vote_valid S G c p target f ->
  exists st p' src rn, In st t /\ stEvent st = EMsg ANNOUNCEMENT p' src rn.
Proof.
  intros S G OK self a0 fb trap gammas t c R p target f V.
  assert (HK : co_keys c <> []).
  { destruct V as (nym & m & sig & bs & sigs & ba & a & _ & I & _). intros E. now rewrite E in I. }
  clear V. induction R as [|t c e c' out R IH E].
  - exfalso. apply HK. unfold init_coord. now destruct (gn_generate_all fb gammas).
  - destruct (co_step_frame S G c e c' out E) as [F _].
    assert (D : (exists p' src rn, e = EMsg ANNOUNCEMENT p' src rn) \/ ~ In FKeys (writes_ev e)).
    { destruct e as [ty p' src rn| | | |]; try (right; cbn; intuition discriminate).
      destruct (Z.eq_dec ty ANNOUNCEMENT) as [->|N]; [left; eauto|]. right. cbn [writes_ev]. unfold writes.
      repeat match goal with |- ~ In _ (if ?a =? ?b then _ else _) =>
          destruct (Z.eqb_spec a b); [subst; try contradiction; cbn [In]; intuition discriminate|] end. intros []. }
    destruct D as [(p' & src & rn & ->)|NW].
    + exists (Step c (EMsg ANNOUNCEMENT p' src rn) c' out), p', src, rn. split; [apply in_elt|reflexivity].
    + specialize (F FKeys NW). cbn in F. rewrite F in HK. destruct (IH HK) as (st & p' & src & rn & I & Es).
      exists st, p', src, rn. split; [|assumption]. apply in_or_app. now left.
Qed.

(** ** C58 *)
(** The operations on the record of vote tags. *)
Inductive vote_op := OpAdd (y : Z) | OpClear.
Definition vote_op_run (c : coord) (o : vote_op) : coord := match o with OpAdd y => add_vote c y | OpClear => clear_votes c end.
(** [y] was added after the last clear. *)
Definition added_since_clear (l : list vote_op) (y : Z) : Prop :=
  exists l1 l2, l = l1 ++ OpAdd y :: l2 /\ ~ In OpClear l2.
Theorem C58_linkable_exact : forall S self a0 fb trap gammas l y,
  is_linkable (fold_left vote_op_run l (init_coord S self a0 fb trap gammas)) y = true <-> added_since_clear l y.
Proof.
  intros S self a0 fb trap gammas l y. unfold init_coord. destruct (gn_generate_all fb gammas) as [hs hp].
  set (c0 := Coord _ _ _ _ _ _ _ _ _ _ _ _ _ _ _ _ _ _ _).
  assert (E0 : co_votes c0 = []) by reflexivity. clearbody c0.
  induction l as [|o l IH] using rev_ind.
  - cbn [fold_left]. unfold is_linkable. rewrite E0. split; [discriminate|]. intros (l1 & l2 & E & _). destruct l1; discriminate.
  - rewrite fold_left_app. cbn [fold_left]. set (c := fold_left vote_op_run l c0) in *.
    assert (SN : added_since_clear (l ++ [o]) y <-> o = OpAdd y \/ (o <> OpClear /\ added_since_clear l y)).
    { split.
      - intros (l1 & l2 & E & N). destruct l2 as [|z l2] using rev_ind.
        + apply app_inj_tail in E. destruct E as [_ ->]. now left.
        + clear IHl2. rewrite app_comm_cons, app_assoc in E. apply app_inj_tail in E. destruct E as [-> <-].
          right. split; [intros ->; apply N, in_elt|]. exists l1, l2. split; [reflexivity|]. intros I. apply N, in_or_app. now left.
      - intros [->|(N & l1 & l2 & -> & N2)].
        + exists l, []. split; [reflexivity|]. intros [].
        + exists l1, (l2 ++ [o]). split; [now rewrite <- app_assoc|]. intros I. apply in_app_iff in I.
          destruct I as [I|[->|[]]]; [now apply N2|now apply N]. }
    rewrite SN, <- IH. destruct o as [z|]; cbn [vote_op_run].
    + unfold is_linkable. cbn [add_vote set_votes co_votes]. rewrite existsb_app, orb_true_iff. cbn [existsb].
      rewrite orb_false_r, Z.eqb_eq. split.
      * intros [H| ->]; [right; split; [discriminate|assumption]|now left].
      * intros [[= ->]|[_ H]]; [now right|now left].
    + unfold is_linkable. cbn [clear_votes set_votes co_votes existsb]. split; [discriminate|]. intros [|[N _]]; [discriminate|congruence].
Qed.
Example C58_instance : forall S self a0 fb trap gammas,
  let c0 := init_coord S self a0 fb trap gammas in
  is_linkable (fold_left vote_op_run [OpAdd 3; OpClear; OpAdd 4; OpAdd 5] c0) 4 = true /\
  is_linkable (fold_left vote_op_run [OpAdd 3; OpClear; OpAdd 4; OpAdd 5] c0) 3 = false.
Proof. intros. split; reflexivity. Qed.

(** ** C60 *)
(** Every event changes only the parts of the coordinator's state, and sends only the kinds
    of messages, that belong to its type ([writes_ev], [emits_ev] in History.v). *)
Theorem C60_coordinator_frame : forall S G c e c' out, co_step S G c e = Some (c', out) ->
  (forall f, ~ In f (writes_ev e) -> agree f c c') /\ (forall m, In m out -> In (mType m) (emits_ev e)).
Proof. intros S G c e c' out E. exact (co_step_frame S G c e c' out E). Qed.

Theorem C60_coordinator_unknown : forall S G c ty p src rn,
  ~ In ty [SERVER_REGISTER; UPDATE_PEDERSEN_H; CLIENT_REGISTER_CONTROLLERSIDE; CLIENT_REGISTER_SERVERSIDE;
           GN_HONESTY_CHALLENGE; POST_BRIDGE; REQUEST_BRIDGES; GOT_SIGNS; Net.VOTE; Net.ROUND_END; ANNOUNCEMENT] ->
  co_handle S G c ty p src rn = Some (c, []).
Proof.
  intros S G c ty p src rn NI. unfold co_handle. cbn [In] in NI.
  repeat match goal with |- context [ty =? ?b] => destruct (Z.eqb_spec ty b); [subst; tauto|] end. reflexivity.
Qed.
Theorem C60_server_unknown : forall S H G s ty p src rn,
  ~ In ty [SERVER_REGISTER_REPLY; ANNOUNCEMENT; ANNOUNCEMENT_FINALIZE; SIGN_ASSIGNMENTS; UPDATE_NEXT_HOP;
           CLIENT_REGISTER_SERVERSIDE; Net.ROUND_END; BCAST_PEDERSEN_H] ->
  sv_handle S H G s ty p src rn = Some (s, []).
Proof.
  intros S H G s ty p src rn NI. unfold sv_handle. cbn [In] in NI.
  repeat match goal with |- context [ty =? ?b] => destruct (Z.eqb_spec ty b); [subst; tauto|] end. reflexivity.
Qed.
Theorem C60_client_unknown : forall S G c ty p chal,
  ~ In ty [CLIENT_REGISTER_CONFIRMATION; INIT_PEDERSEN_R; GN_HONESTY_ANSWER; ANNOUNCEMENT_FINALIZE; GOT_SIGNS; Net.VOTE;
           Net.ROUND_END; BCAST_PEDERSEN_RDIFF; VOTE_REPLY] ->
  cl_handle S G c ty p chal = Some (c, []).
Proof.
  intros S G c ty p chal NI. unfold cl_handle. cbn [In] in NI.
  repeat match goal with |- context [ty =? ?b] => destruct (Z.eqb_spec ty b); [subst; tauto|] end. reflexivity.
Qed.
(** What a server and a client may change and send, by type. *)
Definition sv_same (keep_net keep_map keep_table : bool) (s s' : server) : Prop :=
  sv_addr s' = sv_addr s /\ sv_coord s' = sv_coord s /\ sv_priv s' = sv_priv s /\ sv_pub s' = sv_pub s /\
  (keep_net = true -> sv_next s' = sv_next s /\ sv_prev s' = sv_prev s /\ sv_connected s' = sv_connected s /\ sv_fb s' = sv_fb s) /\
  (keep_map = true -> sv_keymap s' = sv_keymap s /\ sv_roundkey s' = sv_roundkey s) /\
  (keep_table = true -> sv_G s' = sv_G s /\ sv_ekeys s' = sv_ekeys s /\ sv_ecomms s' = sv_ecomms s /\ sv_pb s' = sv_pb s).
Definition is_one_of (ty : Z) (l : list Z) : bool := if in_dec Z.eq_dec ty l then true else false.
Theorem C60_server_frame : forall S H G s ty p src rn s' out, sv_handle S H G s ty p src rn = Some (s', out) ->
  sv_same (negb (is_one_of ty [SERVER_REGISTER_REPLY; UPDATE_NEXT_HOP]))
          (negb (is_one_of ty [ANNOUNCEMENT; CLIENT_REGISTER_SERVERSIDE; Net.ROUND_END]))
          (negb (is_one_of ty [ANNOUNCEMENT_FINALIZE; BCAST_PEDERSEN_H])) s s' /\
  forall m, In m out -> In (ty, mType m) [(SERVER_REGISTER_REPLY, UPDATE_PEDERSEN_H); (ANNOUNCEMENT, ANNOUNCEMENT);
    (SIGN_ASSIGNMENTS, GOT_SIGNS); (CLIENT_REGISTER_SERVERSIDE, CLIENT_REGISTER_SERVERSIDE); (Net.ROUND_END, Net.ROUND_END)].
Proof.
  intros S H G s ty p src rn s' out E.
  assert (SS : forall a b c, sv_same a b c s s) by (intros; repeat split; reflexivity).
  unfold sv_handle in E.
  repeat match type of E with (if ty =? ?b then _ else _) = _ => destruct (Z.eqb_spec ty b) as [->|]; [|] end;
    [ | | | | | | | | injection E as <- <-; split; [apply SS|intros m []]].
  all: unfold sv_register_reply, sv_announcement, sv_finalize, sv_sign, sv_update_next, sv_client_register, sv_round_end,
    sv_pedersen_h in E; cbv zeta in E; odestruct E; injection E as <- <-.
  all: split; [first [apply SS | repeat split; cbn; first [reflexivity|discriminate]]|
    intros m I; cbn [In] in I; intuition (subst; cbn; tauto)].
Qed.
Example C60_instance : exists t c, exec toy_suite toy_gob toy_c0 toy_setup = Some (t, c) /\
  co_handle toy_suite toy_gob c 99 [] adA toy_rand = Some (c, []) /\
  (exists c' m, co_handle toy_suite toy_gob c CLIENT_REGISTER_SERVERSIDE
     [("public_key"%str, VBytes (enc_point toy_suite 3)); ("addr"%str, VStr adA); ("pcomm"%str, VBytes (enc_point toy_suite 2))]
     adB toy_rand = Some (c', [m]) /\ co_buffer c' = [(3, 2)]).
Proof.
  do 2 eexists. split; [vm_compute; reflexivity|]. split; [vm_compute; reflexivity|].
  do 2 eexists. split; [vm_compute; reflexivity|]. reflexivity.
Qed.

Print Assumptions C48_sum_of_votes.
Print Assumptions C48_only_votes.
Print Assumptions C49_any_vote_accepted.
Print Assumptions C49_repeatable.
Print Assumptions C49_one_vote_by_requester_refuted.
Print Assumptions C49_honest_vote_partial.
Print Assumptions C50_latest_wins.
Print Assumptions C50_one_key_per_address.
Print Assumptions C52_unverified_post.
Print Assumptions C52_unverified_request.
Print Assumptions C52_unverified_vote.
Print Assumptions C52_valid_post_recorded.
Print Assumptions C52_valid_vote_counted.
Print Assumptions C53_invalid_nym_stops.
Print Assumptions C53_empty_message_stops.
Print Assumptions C53_early_registration_stops.
Print Assumptions C53_unknown_requester_stops.
Print Assumptions C53_never_stops_refuted.
Print Assumptions C53_post_partial.
Print Assumptions C53_vote_partial.
Print Assumptions C53_register_partial.
Print Assumptions C53_request_partial.
Print Assumptions C55_messages_partial.
Print Assumptions C55_other_keys_partial.
Print Assumptions C55_overwrites.
Print Assumptions C55_unaffected_refuted.
Print Assumptions C56_only_these_partial.
Print Assumptions C56_any_sender.
Print Assumptions C56_any_sender_server.
Print Assumptions C56_only_servers_refuted.
Print Assumptions C57_phase_ignored.
Print Assumptions C57_voting_phase_refuted.
Print Assumptions C57_after_announcement_partial.
Print Assumptions C58_linkable_exact.
Print Assumptions C60_coordinator_frame.
Print Assumptions C60_coordinator_unknown.
Print Assumptions C60_server_unknown.
Print Assumptions C60_client_unknown.
Print Assumptions C60_server_frame.
