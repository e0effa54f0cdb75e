(** C101: while a round is open every bridge on offer belongs to a pseudonym of that round.
    Proved for orderly sessions.  Refuted without the condition on the end of a round: a post
    that arrives between the end of a round and the announcement of the next is recorded
    under the old pseudonym and offered in the next round, and one vote on it stops the
    coordinator when that round ends. *)
From Coq Require Import ZArith Znumtheory Lia List Bool Permutation.
From Coq Require Import Strings.Byte.
From Coq Require String.
From Verif Require Import ZMod Bytes Suite Spec Pedersen ElGamal FujiOkam Equality Codec Maps Net Bridge Client
  Perm SimpleShuffle PairShuffle Server Coordinator History System Chain Prop_Topology Prop_Chain Round RoundInv
  Prop_Pedersen Prop_ElGamal Prop_FujiOkam Prop_Shuffle Prop_Codec Prop_Bridge Prop_Assign Prop_Coord Prop_Round Session Prop_Session Signing Prop_Signing
  Conduct Prop_Conduct Prop_Outsider Prop_Offer.
Import ListNotations.
Import String.StringSyntax.
Open Scope Z_scope.
Delimit Scope string_scope with str.

(** ** Specification *)
(** [nym] is a pseudonym of the coordinator's round: it is in the table that was announced,
    or was given to a client that has registered since. *)
Definition of_round (c : coord) (nym : Z) : Prop := In nym (mkeys (co_ecomms c)) \/ In nym (map fst (co_buffer c)).
(** Every bridge on offer was posted under such a pseudonym. *)
Definition offers_current (c : coord) : Prop := forall a nym, on_offer c a nym -> of_round c nym.
(** [e] enters no pseudonym [nym] into the round. *)
Definition names_not (S : suite) (nym : Z) (e : event) : Prop :=
  match e with
  | EMsg ty p _ _ => ty <> ANNOUNCEMENT /\
      (ty = CLIENT_REGISTER_SERVERSIDE -> forall bk, get_bytes p "public_key"%str = Some bk -> dec_point_unchecked bk <> nym)
  | _ => True
  end.

Section Stale.
Context (S : suite) (OK : suite_ok S) (H : oracle) (G : gob) (GOK : gob_ok G).

Lemma some_key {A} (m : amap Z A) k : mget m k <> None -> In k (mkeys m).
Proof. destruct (mget m k) eqn:E; [|contradiction]. intros _. eapply mget_keys. exact E. Qed.

(** ** Orderly sessions *)
Theorem C101_orderly : forall y V, orderly S H G y V -> fo_nonneg (co_fb (y_coord y)) -> offers_current (y_coord y).
Proof.
  intros y V OR NN a nym X. pose proof (orderly_hon S OK H G GOK y V OR NN) as HO.
  destruct (k_free _ _ _ (h_co _ _ _ HO) a (Some nym) X) as (n & E & _ & I). injection E as <-. left. now apply some_key.
Qed.

(** ** A post that comes late *)
(** From any point of any history, with the round over or not: a post whose signature is
    right for the base the coordinator last announced is recorded under the pseudonym it
    names.  From then on, whatever happens - the rest of the end of the round, the beginning
    of the next, its announcement -, the bridge is on offer under that pseudonym or has been
    given out, until the next round ends, it is posted again or a reply with signatures for
    it comes. *)
Theorem C101_late_post_kept : forall self a0 fb trap gammas t c, run S G (init_coord S self a0 fb trap gammas) t c -> co_servers c <> [] ->
  forall p src rn a nym, names_nym S p nym -> get_str p "bridge_addr"%str = Some a ->
  (exists bn sig, get_bytes p "nym"%str = Some bn /\ get_bytes p "signature"%str = Some sig /\ eg_verify S (a ++ bn) nym sig (co_G c) = true) ->
  exists c1, co_step S G c (EMsg POST_BRIDGE p src rn) = Some (c1, []) /\ on_offer c1 a nym /\
  forall es t' c', exec S G c1 es = Some (t', c') ->
  (forall st, In st t' -> ~ closes st /\ ~ reply_for S G st a /\ posts S st a = false) ->
  on_offer c' a nym \/ exists st, In st t' /\ gives S G st a.
Proof.
  intros self a0 fb trap gammas t c R NS p src rn a nym NN EA (bn & sig & EN & ES & VE).
  exists (add_bridge c a nym).
  assert (E1 : co_step S G c (EMsg POST_BRIDGE p src rn) = Some (add_bridge c a nym, [])).
  { change (co_step S G c (EMsg POST_BRIDGE p src rn)) with (co_post S c p). unfold co_post, msg_post. rewrite EA, ES, EN.
    apply (names_nym_dec S OK) in NN. destruct NN as (b' & E' & D). assert (b' = bn) by congruence. subst b'. rewrite D. now rewrite VE. }
  assert (X : on_offer (add_bridge c a nym) a nym) by (unfold on_offer, add_bridge; cbn [co_bridges set_bridges]; apply mget_mset_eq).
  split; [exact E1|]. split; [exact X|]. intros es t' c' E HT.
  eapply (C97_until_given S OK G GOK self a0 fb trap gammas); [eapply run_snoc; [exact R|exact E1]|exact X|exact NS|exact E|exact HT].
Qed.

(** ** A vote for a pseudonym of another round *)
Lemma non_nil_in (l : list (option Z)) : In None l -> non_nil l = None.
Proof.
  unfold non_nil. induction l as [|x l IH]; [intros []|]. intros [->|I]; [reflexivity|]. cbn [dec_all]. destruct x; [|reflexivity]. now rewrite (IH I).
Qed.
Lemma fold_ending_keys nym l : forall c, ~ In nym (map fst l) -> mget (co_ekeys c) nym = None ->
  mget (co_ekeys (fold_left (fun c kv => add_ending c (fst kv) (snd kv)) l c)) nym = None.
Proof.
  induction l as [|[k v] l IH]; intros c N M; cbn [fold_left]; [exact M|]. cbn [map fst In] in N.
  apply IH; [tauto|]. cbn [add_ending set_ecomms set_ekeys co_ekeys fst]. rewrite mget_mset_ne; [exact M|]. intros E. apply N. now left.
Qed.
Definition strange (c : coord) (nym : Z) : Prop :=
  mget (co_ekeys c) nym = None /\ ~ In nym (map fst (co_buffer c)) /\ In nym (mkeys (co_diffs c)).
Lemma strange_step c e c' out nym : co_step S G c e = Some (c', out) -> names_not S nym e -> strange c nym -> strange c' nym.
Proof.
  intros E NN (M & NB & ID). destruct (co_step_frame S G c e c' out E) as [F _].
  assert (dif : (forall p src rn, e <> EMsg Net.VOTE p src rn) -> co_diffs c' = co_diffs c).
  { intros NV. eapply not_vote_diffs; [exact E| |exact NV]. intros p src rn ->. now destruct NN. }
  destruct e as [ty p src rn| |fakes ord| |ord rs]; cbn [names_not writes_ev] in *.
  - destruct NN as [NA NC]. split; [|split].
    + pose proof (F FEKeys) as Y. cbn [agree] in Y. rewrite Y; [exact M|]. unfold writes.
      repeat match goal with |- ~ In _ (if ?a =? ?b then _ else _) => destruct (Z.eqb_spec a b); [subst; try (cbn [In]; intuition discriminate)|] end; cbn [In]; intuition discriminate.
    + destruct (Z.eq_dec ty CLIENT_REGISTER_SERVERSIDE) as [->|N2].
      * change (co_step S G c (EMsg CLIENT_REGISTER_SERVERSIDE p src rn)) with (co_client_confirm S G c p) in E. unfold co_client_confirm in E. odestruct E. injection E as <- <-.
        unfold add_buffer. cbn [co_buffer set_buffer]. rewrite map_app. intros I. apply in_app_or in I. destruct I as [I|[I|[]]]; [now apply NB|].
        cbn [fst] in I. now apply (NC eq_refl _ eq_refl).
      * pose proof (F FBuffer) as Y. cbn [agree] in Y. rewrite Y; [exact NB|]. unfold writes.
        repeat match goal with |- ~ In _ (if ?a =? ?b then _ else _) => destruct (Z.eqb_spec a b); [subst; try (cbn [In]; intuition discriminate)|] end; cbn [In]; intuition discriminate.
    + destruct (Z.eq_dec ty Net.VOTE) as [->|N2].
      * change (co_step S G c (EMsg Net.VOTE p src rn)) with (co_vote S G c p) in E. unfold co_vote in E. odestruct E; injection E as <- <-; try exact ID.
        cbn [co_diffs set_diffs]. apply some_key. rewrite mget_mset. destruct (keq nym _); [discriminate|]. destruct (keys_mget _ _ ID) as (v & ->). discriminate.
      * rewrite dif; [exact ID|]. intros p0 s0 r0 Q. injection Q as Q _ _ _. contradiction.
  - rewrite <- (F FDiffs) in ID by (cbn [In]; intuition discriminate).
    pose proof (F FEKeys ltac:(cbn [In]; intuition discriminate)) as Y1. pose proof (F FBuffer ltac:(cbn [In]; intuition discriminate)) as Y2. cbn [agree] in Y1, Y2.
    unfold strange. rewrite Y1, Y2. auto.
  - pose proof (F FEKeys ltac:(cbn [In]; intuition discriminate)) as Y1. pose proof (dif ltac:(discriminate)) as Y2. cbn [agree] in Y1.
    split; [now rewrite Y1|]. split; [|now rewrite Y2]. cbn [co_step] in E. unfold begin_round, announce in E. odestruct E; injection E as <- <-; cbn; tauto.
  - pose proof (F FEKeys ltac:(cbn [In]; intuition discriminate)) as Y1. pose proof (F FBuffer ltac:(cbn [In]; intuition discriminate)) as Y2. pose proof (dif ltac:(discriminate)) as Y3. cbn [agree] in Y1, Y2.
    unfold strange. rewrite Y1, Y2, Y3. auto.
  - pose proof (F FBuffer ltac:(cbn [In]; intuition discriminate)) as Y2. pose proof (dif ltac:(discriminate)) as Y3. cbn [agree] in Y2.
    split; [|split; [now rewrite Y2|now rewrite Y3]].
    cbn [co_step] in E. unfold round_end in E. odestruct E; injection E as <- <-; [|exact M]. cbn [clear_bridges set_bridges co_ekeys]. now apply fold_ending_keys.
Qed.
Lemma strange_exec nym : forall es c t c', exec S G c es = Some (t, c') -> Forall (names_not S nym) es -> strange c nym -> strange c' nym.
Proof.
  induction es as [|e es IH]; intros c t c' E F X; cbn [exec] in E; [injection E as <- <-; exact X|].
  destruct (co_step S G c e) as [[c1 out]|] eqn:E1; [|discriminate]. destruct (exec S G c1 es) as [[t1 c2]|] eqn:E2; [|discriminate]. injection E as <- <-.
  inversion F as [|? ? F1 F2]; subst. exact (IH _ _ _ E2 F2 (strange_step _ _ _ _ _ E1 F1 X)).
Qed.

(** In any state: once a valid vote names a pseudonym that is neither in the round's table nor
    given to a client that has registered since, then whatever happens afterwards, unless a
    table is announced or the pseudonym is given to a client, the message that ends the round
    stops the coordinator. *)
Theorem C101_vote_stops_coordinator : forall c p src rn nym f, vote_valid S G c p nym f ->
  ~ In nym (mkeys (co_ekeys c)) -> ~ In nym (map fst (co_buffer c)) ->
  exists c1, co_step S G c (EMsg Net.VOTE p src rn) = Some (c1, []) /\
  forall es t c', exec S G c1 es = Some (t, c') -> Forall (names_not S nym) es ->
  forall p' src' rn', range_order (crDiffs rn') (co_diffs c') -> co_step S G c' (EMsg Net.ROUND_END p' src' rn') = None.
Proof.
  intros c p src rn nym f VV N1 N2. eexists. split; [exact (co_vote_accept S OK G c p nym f VV)|].
  intros es t c' E F p' src' rn' RO.
  assert (X : strange c' nym).
  { refine (strange_exec nym es _ _ _ E F _). split; [|split; [exact N2|]].
    - cbn [co_ekeys set_diffs]. destruct (mget (co_ekeys c) nym) eqn:Q; [|reflexivity]. exfalso. apply N1. eapply mget_keys. exact Q.
    - cbn [co_diffs set_diffs]. apply some_key. rewrite mget_mset_eq. discriminate. }
  destruct X as (M & _ & ID). change (co_step S G c' (EMsg Net.ROUND_END p' src' rn')) with (co_round_end S G c' p' rn'). unfold co_round_end.
  assert (Z0 : non_nil (map (fun k => mget (co_ekeys c') k) (crDiffs rn')) = None).
  { apply non_nil_in. apply in_map_iff. exists nym. split; [exact M|]. eapply Permutation_in; [apply Permutation_sym; exact RO|exact ID]. }
  rewrite Z0. repeat match goal with |- match ?x with _ => _ end = None => destruct x; try reflexivity end.
Qed.
End Stale.

(** ** A session of honest parties *)
(** D posts a bridge; the message is on its way when the coordinator ends the round, and is
    delivered before the servers have begun to pass the table on. *)
Definition toy_between : list (sys -> action) :=
  toy_mid2 ++ [do (ACommand adD (CPost [x62; x32]%byte))] ++ [tend] ++ [tdl 0] ++ [tdk 0; tdk 0; tdk 0; tdk 0; tdk 0].
(** The next round is announced to everybody. *)
Definition toy_carried : list (sys -> action) := toy_between ++ [tbegin []] ++ dls 6.
(** D asks for one bridge, gets it, votes for it, the coordinator counts the vote, and ends the
    round. *)
Definition toy_ended : list (sys -> action) :=
  toy_carried ++ [do (ACommand adD (CRequest 1 toy_rn))] ++ dls 6 ++ [do (ACommand adD (CVote 0 1))] ++ dls 1 ++ [tend] ++ dls 3.

(** An honest session with nothing on its way, in an open round, with a bridge on offer under
    a pseudonym that is not of the round. *)
Theorem C101_offers_current_refuted : ~ (forall S H G, suite_ok S -> gob_ok G -> forall y V,
  calm_reach S H G y V -> open_round y -> y_msgs y = [] -> offers_current (y_coord y)).
Proof.
  intros X.
  destruct (calm_run toy_carried (fun yv => let y := fst yv in (co_status (y_coord y), y_msgs y, mkeys (co_ecomms (y_coord y)), co_buffer (y_coord y),
    co_bridges (y_coord y))) (3, [], [6; 18], [], [([x62; x32]%byte, (Some 12, false))])) as (y & V & R & F); [vm_compute; reflexivity|]. cbv zeta in F. cbn [fst snd] in F.
  assert (F1 : co_status (y_coord y) = 3) by congruence. assert (F2 : y_msgs y = []) by congruence. assert (F3 : mkeys (co_ecomms (y_coord y)) = [6; 18]) by congruence.
  assert (F4 : co_buffer (y_coord y) = []) by congruence. assert (F5 : co_bridges (y_coord y) = [([x62; x32]%byte, (Some 12, false))]) by congruence.
  assert (O : open_round y). { split; [assumption|]. split; [apply has_end_no; unfold has_end; now rewrite F2|]. rewrite F2. intros m []. }
  destruct (X _ _ _ toy_ok toy_gob_ok y V R O F2 [x62; x32]%byte 12) as [I|I].
  - unfold on_offer. rewrite F5. reflexivity.
  - rewrite F3 in I. cbn [In] in I. intuition discriminate.
  - rewrite F4 in I. destruct I.
Qed.

(** The same session goes on: the bridge is requested, assigned with all signatures and voted
    on.  The only message on its way is the one that ends the round, and it stops the
    coordinator. *)
Theorem C101_session_stops : exists y V, calm_reach toy_suite toy_oracle toy_gob y V /\
  map (fun m => (mDst m, mType m)) (y_msgs y) = [(co_addr (y_coord y), Net.ROUND_END)] /\
  guard toy_suite y V (tdl 0 y) /\ sys_step toy_suite toy_oracle toy_gob y (tdl 0 y) = None.
Proof.
  destruct (calm_run toy_ended (fun yv => let y := fst yv in (map (fun m => (mDst m, mType m)) (y_msgs y), co_addr (y_coord y),
     okb toy_suite false y (snd yv) (tdl 0 y), match sys_step toy_suite toy_oracle toy_gob y (tdl 0 y) with None => true | Some _ => false end))
    ([(adC, Net.ROUND_END)], adC, true, true)) as (y & V & R & F); [vm_compute; reflexivity|]. cbv zeta in F. cbn [fst snd] in F.
  assert (F1 : map (fun m => (mDst m, mType m)) (y_msgs y) = [(adC, Net.ROUND_END)]) by congruence. assert (F2 : co_addr (y_coord y) = adC) by congruence.
  assert (F3 : okb toy_suite false y V (tdl 0 y) = true) by congruence.
  assert (F4 : match sys_step toy_suite toy_oracle toy_gob y (tdl 0 y) with None => true | Some _ => false end = true) by congruence. clear F.
  exists y, V. split; [exact R|]. split; [now rewrite F2|]. split; [exact (proj2 (okb_guard _ _ _ _ _ F3) eq_refl)|]. destruct (sys_step _ _ _ _ _); [discriminate|reflexivity].
Qed.

(** ** The hypotheses are met *)
(** An orderly session with a bridge on offer. *)
Example C101_instance_orderly : exists y V, orderly toy_suite toy_oracle toy_gob y V /\ fo_nonneg (co_fb (y_coord y)) /\
  on_offer (y_coord y) [x62; x32]%byte 12 /\ co_status (y_coord y) = CO_MESSAGE /\ mkeys (co_ecomms (y_coord y)) = [16; 12].
Proof.
  destruct (orderly_run (toy_mid2 ++ [do (ACommand adD (CPost [x62; x32]%byte))] ++ dls 1) (fun yv => let y := fst yv in
    (co_fb (y_coord y), mget (co_bridges (y_coord y)) [x62; x32]%byte, co_status (y_coord y), mkeys (co_ecomms (y_coord y)))) (toy_fb, Some (Some 12, false), 3, [16; 12])) as (y & V & OR & F); [vm_compute; reflexivity|].
  cbv zeta in F. cbn [fst snd] in F. exists y, V. assert (F1 : co_fb (y_coord y) = toy_fb) by congruence. split; [exact OR|]. split; [rewrite F1; vm_compute; intuition discriminate|].
  unfold on_offer. change CO_MESSAGE with 3. repeat split; congruence.
Qed.
(** The round of [toy_setup] is ended; the client's post comes once more, then the end of the
    round from the servers, the beginning of the next round and its announcement. *)
Definition toy_over : list event := toy_setup ++ [EEnd [12] [3]].
Definition toy_next : list event :=
  [EMsg Net.ROUND_END (table_params toy_suite [3] [4] 13 12) adA toy_rand; EBegin [] [3];
   EMsg ANNOUNCEMENT (("g"%str, VBytes (enc_point toy_suite 9)) :: table_params toy_suite [6] [4] 13 12) adB toy_rand].
Example C101_instance_late : exists t c c1 t' c', exec toy_suite toy_gob toy_c0 toy_over = Some (t, c) /\ co_bridges c = [] /\ co_servers c <> [] /\
  co_step toy_suite toy_gob c (ev_of (cl_post toy_suite toy_client [x62; x31]%byte)) = Some (c1, []) /\ on_offer c1 [x62; x31]%byte 12 /\
  exec toy_suite toy_gob c1 toy_next = Some (t', c') /\ on_offer c' [x62; x31]%byte 12 /\ mkeys (co_ecomms c') = [6] /\ co_status c' = CO_MESSAGE /\
  forallb (fun st => negb (posts toy_suite st [x62; x31]%byte) && match stEvent st with EMsg ty _ _ _ => negb (ty =? GOT_SIGNS) | EEnd _ _ => false | _ => true end) t' = true.
Proof.
  do 5 eexists. split; [vm_compute; reflexivity|]. split; [vm_compute; reflexivity|]. split; [vm_compute; discriminate|].
  repeat (split; [vm_compute; reflexivity|]). vm_compute. reflexivity.
Qed.
(** The vote of the session above, on its way to the coordinator. *)
Example C101_instance_vote : exists y V m f, calm_reach toy_suite toy_oracle toy_gob y V /\ y_msgs y = [m] /\
  vote_valid toy_suite toy_gob (y_coord y) (mParams m) 12 f /\
  ~ In 12 (mkeys (co_ekeys (y_coord y))) /\ ~ In 12 (map fst (co_buffer (y_coord y))).
Proof.
  destruct (calm_run (toy_carried ++ [do (ACommand adD (CRequest 1 toy_rn))] ++ dls 6 ++ [do (ACommand adD (CVote 0 1))]) (fun yv => let y := fst yv in
      (map mType (y_msgs y), mkeys (co_ekeys (y_coord y)), co_buffer (y_coord y), co_diffs (y_coord y),
       olet m := nth_error (y_msgs y) 0 in option_map (fun r => co_diffs (fst r)) (co_handle toy_suite toy_gob (y_coord y) Net.VOTE (mParams m) [] toy_rand)))
    ([Net.VOTE], [6; 18], [], [], Some [(12, 1)])) as (y & V & R & F); [vm_compute; reflexivity|]. cbv zeta in F. cbn [fst snd] in F.
  assert (F1 : map mType (y_msgs y) = [Net.VOTE]) by congruence. assert (F2 : mkeys (co_ekeys (y_coord y)) = [6; 18]) by congruence.
  assert (F3 : co_buffer (y_coord y) = []) by congruence. assert (F4 : co_diffs (y_coord y) = []) by congruence.
  assert (F5 : (olet m := nth_error (y_msgs y) 0 in option_map (fun r => co_diffs (fst r)) (co_handle toy_suite toy_gob (y_coord y) Net.VOTE (mParams m) [] toy_rand)) = Some [(12, 1)]) by congruence. clear F.
  destruct (y_msgs y) as [|m [|? ?]] eqn:EM; try discriminate F1. cbn [nth_error] in F5.
  destruct (co_handle toy_suite toy_gob (y_coord y) Net.VOTE (mParams m) [] toy_rand) as [[c' out]|] eqn:EH; [|discriminate]. cbn [option_map fst] in F5. injection F5 as F5.
  destruct (co_vote_spec toy_suite toy_ok toy_gob _ _ _ _ EH) as [_ [[-> _]|(target & f & VV & X)]]; [congruence|].
  rewrite X in F5. cbn [set_diffs co_diffs] in F5. rewrite F4 in F5. cbn in F5. injection F5 as -> _.
  exists y, V, m, f. split; [exact R|]. split; [exact EM|]. split; [exact VV|]. rewrite F2, F3. split; [cbn [In]; intuition discriminate|intros []].
Qed.

Print Assumptions C101_orderly.
Print Assumptions C101_late_post_kept.
Print Assumptions C101_vote_stops_coordinator.
Print Assumptions C101_offers_current_refuted.
Print Assumptions C101_session_stops.
