(** C80, C81: who is behind a pseudonym. *)
From Coq Require Import ZArith Znumtheory Lia List Bool Permutation.
From Coq Require Import Strings.Byte.
From Coq Require String.
From Verif Require Import ZMod Bytes Suite Pedersen ElGamal FujiOkam Equality Codec Maps Net Bridge Client
  Perm SimpleShuffle PairShuffle Server Coordinator History System Round RoundInv Session
  Prop_Codec Prop_Pedersen Prop_ElGamal Prop_Bridge Prop_Shuffle Prop_Assign Prop_Topology Prop_Round Prop_Client.
Import ListNotations.
Import String.StringSyntax.
Open Scope Z_scope.
Delimit Scope string_scope with str.

(** ** What a message of a client looks like *)
Lemma command_shape S G k cmd out m : cl_command S G k cmd = Some out -> In m out ->
  mSrc m = cl_addr k /\ mDst m = cl_coord k /\ get_bytes (mParams m) "nym"%str = Some (enc_point S (cl_nym k)) /\
  exists b, get_bytes (mParams m) "signature"%str = Some (eg_sign S (example_nonce S) b (cl_priv k) (cl_G k)).
Proof.
  intros E I. destruct cmd as [ad|ind rn|id f]; cbn [cl_command] in E.
  - injection E as <-. destruct I as [<-|[]]. unfold cl_post. cbn [mSrc mDst mParams]. repeat split. eexists. reflexivity.
  - unfold cl_request in E. cbv zeta in E. destruct (cl_rep k <? ind); [injection E as <-; destruct I|].
    destruct (ped_commit S (cl_pb k) (sec_of_int S ind) (rqInd rn)) as [PC ri].
    destruct (cl_PCommr k); [|discriminate]. destruct (ped_sub S _ PC); [|discriminate]. destruct (cl_fb k) as [fb|]; [|discriminate].
    destruct (fo_commit fb _ _) as [FC rF]. destruct (prove_nonneg S fb _ FC rF _); [|discriminate]. destruct (cl_R k); [|discriminate].
    match type of E with context [msg_request ?x] => destruct (msg_request x) as [b|] eqn:EM; [|discriminate] end.
    injection E as <-. destruct I as [<-|[]]. cbn [mSrc mDst mParams]. repeat split. exists b. reflexivity.
  - unfold cl_vote in E. cbv zeta in E. destruct (id <? 0); [discriminate|]. destruct (nth_error (cl_assigns k) (Z.to_nat id)) as [[a bs]|]; [|discriminate].
    match type of E with context [msg_vote ?x] => destruct (msg_vote x) as [b|] eqn:EM; [|discriminate] end.
    injection E as <-. destruct I as [<-|[]]. cbn [mSrc mDst mParams]. repeat split. exists b. reflexivity.
Qed.

(** ** C80: the coordinator *)
(** The registered key with the address the message comes from. *)
Definition identify (c : coord) (m : msg) : option Z :=
  option_map fst (find (fun kv : Z * addr => if keq (snd kv) (mSrc m) then true else false) (co_clients c)).

Section Coordinator.
Context (S : suite) (OK : suite_ok S) (H : oracle) (G : gob) (GOK : gob_ok G).

Lemma identify_spec y V a k m : reach S H G y V -> mget (y_clients y) a = Some k -> mget (co_clients (y_coord y)) (cl_pub k) = Some a ->
  mSrc m = a -> identify (y_coord y) m = Some (cl_pub k).
Proof.
  intros R EK ER ES. destruct (reach_inv S OK H G GOK y V R) as [B _]. unfold identify. rewrite ES.
  destruct (find _ (co_clients (y_coord y))) as [[p b]|] eqn:F.
  - apply find_some in F. destruct F as [I E]. cbn [snd] in E. destruct (keq b a) as [->|]; [|discriminate]. cbn [option_map fst]. f_equal.
    apply (mwf_In _ _ _ (b_wf _ _ _ _ _ B)) in I. destruct (b_reg _ _ _ _ _ B p a I) as (k' & EK' & <-). congruence.
  - exfalso. apply mget_In in ER. apply (find_none _ _ F) in ER. cbn [snd] in ER. destruct (keq a a); congruence.
Qed.

(** In an open round a client whose pseudonym is in the table is registered. *)
Lemma listed_registered y V a k : reach S H G y V -> open_round y -> mget (y_clients y) a = Some k ->
  In (nym_of S y (cl_pub k)) (mkeys (co_ecomms (y_coord y))) -> mget (co_clients (y_coord y)) (cl_pub k) = Some a.
Proof.
  intros R (O1 & O2 & O3) EK IT. destruct (reach_inv S OK H G GOK y V R) as [B P].
  destruct P as [T A|T i p keys vals GT HT A|T0 T1 K A|T n M1 p keys vals GT HT A].
  - pose proof (p1_status _ _ _ _ _ _ _ A) as X. rewrite O1 in X. discriminate.
  - pose proof (p2_status _ _ _ _ _ _ _ _ _ _ _ _ _ _ A) as X. rewrite O1 in X. discriminate.
  - pose proof (mid_keys S _ _ _ _ _ _ _ _ B A) as NK.
    destruct A as [A1 A2 A3 A4 A5 A6 A7 A8 A9 A10 A11 A12 A13].
    destruct (A11 a k EK) as [[I _]|[X _]]; [|exact X]. exfalso.
    assert (TG : Forall (in_group S) (map fst (T0 ++ T1))).
    { pose proof (b_Vg _ _ _ _ _ B) as F. rewrite Forall_forall in F |- *. intros x Hx. apply F.
      apply (Permutation_in _ (Permutation_map fst A9)). rewrite map_app. apply in_or_app. now left. }
    assert (I0 : In (cl_pub k) (map fst T0)).
    { unfold mkeys in IT. rewrite A5, map_map in IT. apply in_map_iff in IT. destruct IT as (t & E & It).
      unfold ent, nym_of, round_exp in E. cbn [fst] in E. rewrite <- A3 in E.
      replace (cl_pub k) with (fst t); [now apply in_map|]. revert E. apply (pt_mul_inj S OK).
      - rewrite map_app in TG. apply Forall_app in TG. destruct TG as [TG _]. rewrite Forall_forall in TG. apply TG. now apply in_map.
      - pose proof (b_Vg _ _ _ _ _ B) as F. rewrite Forall_forall in F. apply F. apply (b_cl _ _ _ _ _ B a k EK).
      - rewrite A3. apply (exps_unit S _ _ _ _ B). }
    apply (NoDup_app_disjoint _ _ NK _ I0). apply in_or_app. right.
    apply in_map_iff. exists (cl_register S k). split.
    + unfold pget, get_bytes. cbn [mParams cl_register lookup String.eqb Ascii.eqb Bool.eqb]. apply (dec_enc_unchecked S).
      rewrite Forall_forall in TG. apply TG. rewrite map_app. apply in_or_app. now left.
    + apply filter_In. split; [assumption|reflexivity].
  - exfalso. apply O2. split; [assumption|]. destruct (p4_M _ _ _ _ _ _ _ _ _ _ _ _ _ _ _ A) as [src X].
    exists (Msg (before (map fst (co_servers (y_coord y))) (co_addr (y_coord y)) n) Net.ROUND_END p src). split; [|reflexivity].
    apply (core_in (y_msgs y)). eapply Permutation_in; [symmetry; exact X|]. now left.
Qed.

(** C80: in every open round of every session, for every client in the table and every command:
    the message carries the client's pseudonym, and the coordinator finds the client's
    long-term key with what it has stored at registration. *)
Theorem C80_coordinator_identifies : forall y V a k cmd out m, reach S H G y V -> open_round y ->
  mget (y_clients y) a = Some k -> In (nym_of S y (cl_pub k)) (mkeys (co_ecomms (y_coord y))) ->
  cl_command S G k cmd = Some out -> In m out ->
  get_bytes (mParams m) "nym"%str = Some (enc_point S (nym_of S y (cl_pub k))) /\
  identify (y_coord y) m = Some (cl_pub k).
Proof.
  intros y V a k cmd out m R O EK IT E I. destruct (command_shape S G k cmd out m E I) as (E1 & _ & E2 & _).
  destruct (announced S OK H G GOK y V a k R O EK IT) as (v & r & R0 & g & C & _ & _ & _ & _ & _ & _ & _ & _ & _ & EN & _ & EA & _).
  split; [now rewrite <- EN|]. eapply identify_spec; eauto.
  - eapply listed_registered; eauto. - now rewrite E1.
Qed.
End Coordinator.

(** The property as stated: the coordinator has no way to tell the key from the message. *)
Definition hidden_from_coordinator (S : suite) (H : oracle) (G : gob) : Prop := ~ exists f : coord -> msg -> option Z,
  forall y V a k cmd out m, reach S H G y V -> open_round y -> mget (y_clients y) a = Some k ->
    In (nym_of S y (cl_pub k)) (mkeys (co_ecomms (y_coord y))) ->
    cl_command S G k cmd = Some out -> In m out -> f (y_coord y) m = Some (cl_pub k).
Theorem C80_hidden_from_coordinator_refuted : forall S H G, suite_ok S -> gob_ok G -> ~ hidden_from_coordinator S H G.
Proof.
  intros S H G OK GOK X. apply X. exists identify. intros. eapply C80_coordinator_identifies; eauto.
Qed.

(** ** C81: everybody who sees a message *)
(** The key a signature was made with, from the parameters of the message alone. *)
Definition recover (S : suite) (p : params) : option Z :=
  olet sig := get_bytes p "signature"%str in recover_key S sig.

Theorem C81_message_reveals_key : forall S G, suite_ok S -> prime (sQ S) -> forall k cmd out m, 0 <= cl_priv k < sQ S ->
  cl_command S G k cmd = Some out -> In m out -> recover S (mParams m) = Some (cl_priv k).
Proof.
  intros S G OK PQ k cmd out m RK E I. destruct (command_shape S G k cmd out m E I) as (_ & _ & _ & b & E1).
  unfold recover. rewrite E1. now apply C21_signing_reveals_key_refuted.
Qed.

Section Everybody.
Context (S : suite) (OK : suite_ok S) (H : oracle) (G : gob) (GOK : gob_ok G) (PQ : prime (sQ S)).

Lemma step_priv y a y' b k : sys_step S H G y a = Some y' -> mget (y_clients y) b = Some k ->
  exists k', mget (y_clients y') b = Some k' /\ cl_priv k' = cl_priv k /\ cl_pub k' = cl_pub k.
Proof.
  intros E EK. destruct a as [d priv rk|d priv s|i cr sr chal|e|d cmd]; cbn [sys_step] in E; odestruct E; injection E as <-; cbn [y_clients]; eauto.
  - destruct (keq b d) as [->|N]; [congruence|]. exists k. rewrite mget_mset_ne by congruence. auto.
  - destruct (keq b (mDst m)) as [->|N]; [|exists k; rewrite mget_mset_ne by congruence; auto].
    rewrite mget_mset_eq. eexists. split; [reflexivity|].
    match goal with X : mget (y_clients y) (mDst m) = Some ?k0 |- _ => rewrite EK in X; injection X as <- end.
    match goal with X : cl_handle _ _ _ _ _ _ = _ |- _ => destruct (C79_keys_kept _ _ _ _ _ _ _ _ X) as (E1 & E2 & _) end. auto.
Qed.
Lemma goes_priv y V l y' V' : goes S H G y V l y' V' -> forall b k, mget (y_clients y) b = Some k ->
  exists k', mget (y_clients y') b = Some k' /\ cl_priv k' = cl_priv k /\ cl_pub k' = cl_pub k.
Proof.
  induction 1 as [|y V a y1 l y2 V2 GU E _ IH]; intros b k EK; [eauto|].
  destruct (step_priv y a y1 b k E EK) as (k1 & E1 & P1 & Q1). destruct (IH b k1 E1) as (k2 & E2 & P2 & Q2).
  exists k2. split; [exact E2|]. split; congruence.
Qed.

(** A client's pseudonym is the base it was announced raised to its key. *)
Definition nyms_based (y : sys) : Prop := forall b k, mget (y_clients y) b = Some k -> forall g, cl_G k = Some g -> cl_nym k = pt_mul S g (cl_priv k).
Lemma handle_based k ty p chal k' out : cl_handle S G k ty p chal = Some (k', out) ->
  (forall g, cl_G k = Some g -> cl_nym k = pt_mul S g (cl_priv k)) -> forall g, cl_G k' = Some g -> cl_nym k' = pt_mul S g (cl_priv k').
Proof.
  unfold cl_handle. intros E K.
  unfold cl_register_confirmation, cl_init_r, cl_honesty_answer, cl_announce_final, cl_rdiff, cl_got_signatures, cl_round_end,
    cl_vote_start, cl_vote_reply in E. cbv zeta in E.
  odestruct E; injection E as <- _; cbn [cl_G cl_nym cl_priv]; auto; intros g [= <-]; reflexivity.
Qed.
Lemma step_based y a y' : sys_step S H G y a = Some y' -> nyms_based y -> nyms_based y'.
Proof.
  intros E NB b k EK. destruct a as [d priv rk|d priv s|i cr sr chal|e|d cmd]; cbn [sys_step] in E; odestruct E; injection E as <-; cbn [y_clients] in EK; try exact (NB b k EK).
  - destruct (keq b d) as [->|N]; [|rewrite mget_mset_ne in EK by congruence; exact (NB b k EK)].
    rewrite mget_mset_eq in EK. injection EK as <-. cbn. discriminate.
  - destruct (keq b (mDst m)) as [->|N]; [|rewrite mget_mset_ne in EK by congruence; exact (NB b k EK)].
    rewrite mget_mset_eq in EK. injection EK as <-. eapply handle_based; [eassumption|]. eapply NB; eassumption.
Qed.
Lemma nym_base y V a k g : reach S H G y V -> mget (y_clients y) a = Some k -> cl_G k = Some g -> cl_nym k = pt_mul S g (cl_priv k).
Proof.
  intros R EK EG. assert (NB : nyms_based y); [|exact (NB a k EK g EG)]. clear - R.
  induction R as [self a fb trap gammas l y1 y2 CF E1 EM NS E2|y V a y' R IH GU E]; [|exact (step_based _ _ _ E IH)].
  apply (step_based _ _ _ E2). revert E1. apply (sys_run_ind S H G (fun _ y => nyms_based y)).
  - intros b k X. discriminate X.
  - intros l0 z a0 z' _ IH ES. exact (step_based _ _ _ ES IH).
Qed.

(** One message, sent in any round, is enough to know the client's pseudonym in every round
    of the session: the pseudonym in a round is the base announced in it raised to the key the
    message reveals.  Rounds before and after the message alike. *)
Theorem C81_all_pseudonyms : forall y V l y' V' a k k' cmd out m,
  reach S H G y V -> goes S H G y V l y' V' ->
  mget (y_clients y) a = Some k -> mget (y_clients y') a = Some k' -> 0 <= cl_priv k < sQ S ->
  (cl_command S G k cmd = Some out \/ cl_command S G k' cmd = Some out) -> In m out ->
  exists x, recover S (mParams m) = Some x /\ cl_pub k = pt_mul_base S x /\
    (forall g, cl_G k = Some g -> cl_nym k = pt_mul S g x) /\ (forall g, cl_G k' = Some g -> cl_nym k' = pt_mul S g x).
Proof.
  intros y V l y' V' a k k' cmd out m R GO EK EK' RK EC I.
  destruct (goes_priv _ _ _ _ _ GO a k EK) as (k2 & X & P1 & _). rewrite EK' in X. injection X as <-.
  exists (cl_priv k). split; [|split].
  - destruct EC as [EC|EC]; [now apply (C81_message_reveals_key S G OK PQ k cmd out m)|].
    rewrite <- P1. apply (C81_message_reveals_key S G OK PQ k' cmd out m); auto. now rewrite P1.
  - destruct (reach_inv S OK H G GOK y V R) as [B _]. apply (b_cl _ _ _ _ _ B a k EK).
  - split.
    + intros g EG. exact (nym_base y V a k g R EK EG).
    + intros g EG. rewrite <- P1. exact (nym_base y' V' a k' g (goes_reach S H G _ _ _ _ _ GO R) EK' EG).
Qed.
End Everybody.

(** The property as stated: nobody who sees a message can tell which key sent it. *)
Definition hidden_from_observers (S : suite) (H : oracle) (G : gob) : Prop := ~ exists f : params -> option Z,
  forall y V a k cmd out m, reach S H G y V -> mget (y_clients y) a = Some k -> 0 <= cl_priv k < sQ S ->
    cl_command S G k cmd = Some out -> In m out -> f (mParams m) = Some (cl_pub k).
Theorem C81_hidden_from_observers_refuted : forall S H G, suite_ok S -> gob_ok G -> prime (sQ S) -> ~ hidden_from_observers S H G.
Proof.
  intros S H G OK GOK PQ X. apply X. exists (fun p => option_map (pt_mul_base S) (recover S p)).
  intros y V a k cmd out m R EK RK E I. destruct (reach_inv S OK H G GOK y V R) as [B _].
  rewrite (C81_message_reveals_key S G OK PQ k cmd out m RK E I). cbn [option_map]. f_equal. symmetry. apply (b_cl _ _ _ _ _ B a k EK).
Qed.

(** What does hold: what a client sends by itself, in answer to messages, does not depend on
    its private key. *)
Definition with_key (k : client) (x : Z) : client := Client (cl_addr k) (cl_coord k) (cl_status k) x (cl_pub k) (cl_cpk k)
  (cl_nym k) (cl_G k) (cl_rep k) (cl_keys k) (cl_index k) (cl_assigns k) (cl_PCommr k) (cl_R k) (cl_fb k) (cl_pb k) (cl_hpub k) (cl_hchal k).
Theorem C81_answers_key_free : forall S G k x ty p chal k1 o1 k2 o2,
  cl_handle S G k ty p chal = Some (k1, o1) -> cl_handle S G (with_key k x) ty p chal = Some (k2, o2) -> o1 = o2.
Proof.
  intros S G k x ty p chal k1 o1 k2 o2 E1 E2. unfold cl_handle in *.
  repeat match type of E1 with (if ty =? ?b then _ else _) = _ => destruct (ty =? b); [|] end;
    unfold cl_register_confirmation, cl_init_r, cl_honesty_answer, cl_announce_final, cl_got_signatures, cl_vote_start,
      cl_round_end, cl_rdiff, cl_vote_reply in E1, E2; cbv zeta in E1, E2; cbn [with_key cl_addr cl_coord] in E2;
    odestruct E1; odestruct E2; congruence.
Qed.

(** ** A session in which the hypotheses hold *)
Example C80_instance : exists y V k out m, reach toy_suite toy_oracle toy_gob y V /\ open_round y /\ mget (y_clients y) adD = Some k /\
  In (nym_of toy_suite y (cl_pub k)) (mkeys (co_ecomms (y_coord y))) /\ 0 <= cl_priv k < sQ toy_suite /\ prime (sQ toy_suite) /\
  cl_command toy_suite toy_gob k (CPost [x41]%byte) = Some out /\ In m out /\
  identify (y_coord y) m = Some (cl_pub k) /\ recover toy_suite (mParams m) = Some (cl_priv k).
Proof.
  destruct (toy_run toy_mid2 (fun yv => (co_status (y_coord (fst yv)), y_msgs (fst yv), option_map cl_priv (mget (y_clients (fst yv)) adD),
      round_exp (fst yv), mkeys (co_ecomms (y_coord (fst yv))), client_at adD (fst yv)))
    (3, [], Some 4, 4, [16; 12], Some (3, 5, Some 1, Some 3, PBase 13 18, 12))) as (y & V & _ & R & F);
    [vm_compute; reflexivity|]. cbn [fst snd] in F. injection F as F1 F2 F3 F4 F5 F6.
  destruct (client_at_some _ _ _ _ _ _ _ _ F6) as (k & Ek & E1 & _). rewrite Ek in F3. injection F3 as F3.
  assert (O : open_round y) by (split; [assumption|]; split; [apply has_end_no; unfold has_end; now rewrite F2|rewrite F2; intros m []]).
  assert (IT : In (nym_of toy_suite y (cl_pub k)) (mkeys (co_ecomms (y_coord y)))) by (rewrite F5, E1; unfold nym_of; rewrite F4; vm_compute; auto).
  assert (RK : 0 <= cl_priv k < sQ toy_suite) by (rewrite F3; cbn; lia).
  exists y, V, k, [cl_post toy_suite k [x41]%byte], (cl_post toy_suite k [x41]%byte).
  do 5 (split; [assumption|]). split; [exact prime_11|]. split; [reflexivity|]. split; [now left|]. split.
  - eapply (C80_coordinator_identifies toy_suite toy_ok toy_oracle toy_gob toy_gob_ok y V adD k (CPost [x41]%byte)); eauto; [reflexivity|now left].
  - apply (C81_message_reveals_key toy_suite toy_gob toy_ok prime_11 k (CPost [x41]%byte) _ _ RK eq_refl). now left.
Qed.

Print Assumptions C80_coordinator_identifies.
Print Assumptions C80_hidden_from_coordinator_refuted.
Print Assumptions C81_message_reveals_key.
Print Assumptions C81_all_pseudonyms.
Print Assumptions C81_hidden_from_observers_refuted.
Print Assumptions C81_answers_key_free.
