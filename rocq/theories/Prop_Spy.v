(** C82: what the coordinator learns about clients that say nothing. *)
From Coq Require Import ZArith Znumtheory Lia List Bool Permutation.
From Coq Require Import Strings.Byte.
From Coq Require String.
From Verif Require Import ZMod Bytes Suite Pedersen ElGamal FujiOkam Equality Codec Maps Net Bridge Client
  Perm SimpleShuffle PairShuffle Server Coordinator History System Round RoundInv Session
  Prop_Codec Prop_Pedersen Prop_ElGamal Prop_Bridge Prop_Shuffle Prop_Assign Prop_Topology Prop_Coord Prop_Round Prop_Client.
Import ListNotations.
Import String.StringSyntax.
Open Scope Z_scope.
Delimit Scope string_scope with str.

(** ** The coordinator's notes
    A coordinator that follows the protocol to the letter (CoordinatorHandler.go,
    CoordinatorLauncher.go) but writes down, beside its state, an opening for every long-term
    key: nothing but what it computes or draws itself goes into it.  It sees its own state and
    the events of its own process (History.v) with its own random draws. *)
Definition notes := list entry.
(** The commitments of the running round, of the table and of the clients that joined. *)
Definition comms (c : coord) : list (Z * Z) := co_ecomms c ++ co_buffer c.
(** The pseudonym whose commitment opens, under the round's bases, as noted. *)
Definition matching (S : suite) (c : coord) (t : entry) : option Z :=
  option_map fst (find (fun nc => snd nc =? ped_commit_r S (co_pb c) (fst (snd t)) (snd (snd t))) (comms c)).
Definition note (S : suite) (c : coord) (W : notes) (e : event) : notes :=
  match e with
  | EMsg ty p _ rn =>  (* handleClientRegisterControllerSide draws r: CoordinatorHandler.go:162-201 *)
      if ty =? CLIENT_REGISTER_CONTROLLERSIDE then W ++ [(pget p "public_key"%str, (starting_credit, crR rn))] else W
  | EBegin fakes _ =>  (* the fake clients are its own: CoordinatorLauncher.go:253-274 *)
      if co_first c then W ++ map (fun f => (pt_mul_base S (fst f), (0, snd f))) fakes else W
  | EEnd ord rs =>     (* it has counted the votes and draws the new blindings: handleRoundEnd *)
      map (fun t : entry => match matching S c t with
             | Some n => (fst t, (fst (snd t) + rep_diff c n, snd (snd t) + drawn ord rs n))
             | None => t end) W
  | _ => W
  end.
(** The event of the coordinator's process in a step of the system, if there is one. *)
Definition seen (y : sys) (a : action) : option event :=
  match a with
  | ALoop e => Some e
  | ADeliver i cr _ _ =>
      match nth_error (y_msgs y) i with
      | Some m => if keq (mDst m) (co_addr (y_coord y)) then Some (EMsg (mType m) (mParams m) (mSrc m) cr) else None
      | None => None
      end
  | _ => None
  end.
(** No two pseudonyms have the same commitment. *)
Definition distinct (c : coord) : Prop := NoDup (map snd (comms c)).
(** A session with the ledger (Round.v) and with what an observer inside the coordinator's
    process keeps: [step] may use the coordinator's state and the event it handles, nothing
    else.  The commitments are distinct whenever a round ends. *)
Inductive observed (S : suite) (H : oracle) (G : gob) {N : Type} (n0 : N) (step : coord -> N -> event -> N) : sys -> ledger -> N -> Prop :=
| n_start self a fb trap gammas l y1 y2 :
    Forall (conf_act S) l -> sys_run S H G (init_sys S self a fb trap gammas) l = Some y1 ->
    y_msgs y1 = [] -> co_servers (y_coord y1) <> [] ->
    sys_step S H G y1 (ALoop EConfigure) = Some y2 -> observed S H G n0 step y2 [] n0
| n_step y V n a y' :
    observed S H G n0 step y V n -> guard S y V a -> sys_step S H G y a = Some y' ->
    (forall ord rs, a = ALoop (EEnd ord rs) -> distinct (y_coord y)) ->
    observed S H G n0 step y' (ledger_step S y V a)
      (match seen y a with Some e => step (y_coord y) n e | None => n end).
Definition noting (S : suite) (H : oracle) (G : gob) : sys -> ledger -> notes -> Prop := observed S H G [] (note S).

Lemma noting_reach S H G y V W : noting S H G y V W -> reach S H G y V.
Proof. induction 1; [eapply r_start; eassumption|eapply r_step; eassumption]. Qed.

Section Spy.
Context (S : suite) (OK : suite_ok S) (H : oracle) (G : gob) (GOK : gob_ok G).

Definition is_reg (m : msg) : bool := is_ty CLIENT_REGISTER_CONTROLLERSIDE m.
Definition pend (l : list msg) : list entry :=
  map (fun m => (pget (mParams m) "public_key"%str, (starting_credit, 0))) (filter is_reg l).

Lemma pend_app l1 l2 : pend (l1 ++ l2) = pend l1 ++ pend l2.
Proof. unfold pend. now rewrite filter_app, map_app. Qed.
Lemma pend_none l : (forall m, In m l -> mType m <> CLIENT_REGISTER_CONTROLLERSIDE) -> pend l = [].
Proof. intros F. unfold pend. rewrite filter_none; [reflexivity|]. intros m I. apply is_ty_no. now apply F. Qed.
Lemma pend_inert l : Forall (fun m => inert m = true) l -> pend l = [].
Proof.
  intros F. apply pend_none. intros m I X. rewrite Forall_forall in F. apply F in I. apply inert_in in I. rewrite X in I.
  clear - I. repeat (destruct I as [I|I]; [discriminate I|]). destruct I.
Qed.
Lemma pend_settled y : settled y -> pend (y_msgs y) = [].
Proof.
  intros ST. apply pend_inert. apply Forall_forall. intros m I. destruct (inert m) eqn:X; [reflexivity|].
  assert (Y : In m (core (y_msgs y))) by (now apply core_in). rewrite ST in Y. destruct Y.
Qed.

Lemma cl_out k ty p chal k' out : cl_handle S G k ty p chal = Some (k', out) ->
  forall m, In m out -> mType m = GN_HONESTY_CHALLENGE.
Proof.
  unfold cl_handle. intros E.
  unfold cl_register_confirmation, cl_init_r, cl_honesty_answer, cl_announce_final, cl_rdiff, cl_got_signatures, cl_round_end,
    cl_vote_start, cl_vote_reply in E. cbv zeta in E.
  odestruct E; injection E as _ <-; intros m I; try (now destruct I). destruct I as [<-|[]]. reflexivity.
Qed.
Lemma sv_out s ty p src rn s' out : sv_handle S H G s ty p src rn = Some (s', out) ->
  forall m, In m out -> mType m <> CLIENT_REGISTER_CONTROLLERSIDE.
Proof.
  intros E m I X. destruct (C60_server_frame S H G s ty p src rn s' out E) as [_ F]. specialize (F m I). rewrite X in F.
  clear - F. cbn [In] in F. repeat (destruct F as [F|F]; [discriminate F|]). destruct F.
Qed.
Lemma co_out c e c' out : co_step S G c e = Some (c', out) -> forall m, In m out -> mType m <> CLIENT_REGISTER_CONTROLLERSIDE.
Proof.
  intros E m I X. destruct (C60_coordinator_frame S G c e c' out E) as [_ F]. specialize (F m I). rewrite X in F. clear - F.
  destruct e as [ty p src rn| |fakes ord| |ord rs]; cbn [emits_ev] in F.
  2-5: cbn [In] in F; repeat (destruct F as [F|F]; [discriminate F|]); now destruct F.
  unfold emits in F. repeat match type of F with context [if ?b then _ else _] => destruct b end; cbn [In] in F;
    repeat (destruct F as [F|F]; [discriminate F|]); now destruct F.
Qed.

(** A registration in flight is on its way from a client to the coordinator. *)
Lemma reg_msg y V m : inv S G y V -> In m (y_msgs y) -> mType m = CLIENT_REGISTER_CONTROLLERSIDE ->
  exists a k, mget (y_clients y) a = Some k /\ m = cl_register S k /\ mDst m = co_addr (y_coord y) /\
    pget (mParams m) "public_key"%str = cl_pub k.
Proof.
  intros [B P] I T. assert (IC : In m (core (y_msgs y))).
  { apply core_in. split; [assumption|]. unfold inert. now rewrite T. }
  destruct P as [T' A|T' i p keys vals GT HT A|T0 T1 K A|T' n M1 p keys vals GT HT A].
  - exfalso. pose proof (p1_msg _ _ _ _ _ _ _ A) as F. rewrite Forall_forall in F. destruct (F m IC) as [[X _]|[[X _]|[X _]]]; rewrite T in X; discriminate X.
  - exfalso. destruct (p2_M _ _ _ _ _ _ _ _ _ _ _ _ _ _ A) as [src X]. rewrite X in IC. destruct IC as [<-|[]]. discriminate T.
  - pose proof (p3_msg _ _ _ _ _ _ _ _ _ A) as F. rewrite Forall_forall in F. destruct (F m IC) as [| a k EK | |]; try discriminate T.
    exists a, k. destruct (b_cl _ _ _ _ _ B a k EK) as (K1 & K2 & K3 & K4 & K5 & K6 & K7).
    split; [assumption|]. split; [reflexivity|]. split; [exact K3|].
    unfold pget, get_bytes. cbn [mParams cl_register lookup String.eqb Ascii.eqb Bool.eqb]. apply (dec_enc_unchecked S).
    pose proof (b_Vg _ _ _ _ _ B) as F'. rewrite Forall_forall in F'. now apply F'.
  - exfalso. destruct (p4_M _ _ _ _ _ _ _ _ _ _ _ _ _ _ _ A) as [src X]. apply (Permutation_in _ X) in IC. destruct IC as [<-|IC]; [discriminate T|].
    pose proof (p4_M1 _ _ _ _ _ _ _ _ _ _ _ _ _ _ _ A) as F. rewrite Forall_forall in F. destruct (F m IC) as [Y _]. rewrite T in Y. discriminate Y.
Qed.

(** In a running round the commitments are those of the ledger's entries. *)
Lemma comms_ledger y V : reach S H G y V -> co_status (y_coord y) = CO_MESSAGE -> settled y ->
  Permutation (comms (y_coord y)) (map (ent S (co_pb (y_coord y)) (round_exp y)) V).
Proof.
  intros R ST SE. destruct (reach_inv S OK H G GOK y V R) as [B P]. unfold settled in SE. rewrite SE in P.
  destruct P as [T A|T i p keys vals GT HT A|T0 T1 K A|T n M1 p keys vals GT HT A].
  - exfalso. pose proof (p1_status _ _ _ _ _ _ _ A) as X. rewrite ST in X. discriminate.
  - exfalso. pose proof (p2_status _ _ _ _ _ _ _ _ _ _ _ _ _ _ A) as X. rewrite ST in X. discriminate.
  - destruct A as [A1 A2 A3 A4 A5 A6 A7 A8 A9 A10 A11 A12 A13]. cbn [filter map] in A7, A9. rewrite app_nil_r in A7, A9.
    unfold comms, round_exp. rewrite <- A3, A5, A7, <- A9. now rewrite map_app.
  - exfalso. destruct (p4_M _ _ _ _ _ _ _ _ _ _ _ _ _ _ _ A) as [src X]. now apply Permutation_nil_cons in X.
Qed.

Lemma find_snd (l : list (Z * Z)) n c : NoDup (map snd l) -> In (n, c) l -> find (fun nc => snd nc =? c) l = Some (n, c).
Proof.
  intros N I. destruct (find _ l) as [[n' c']|] eqn:F.
  - apply find_some in F. destruct F as [I' E]. cbn [snd] in E. apply Z.eqb_eq in E. subst c'. f_equal.
    clear - N I I'. induction l as [|[a b] l IH]; [destruct I|]. cbn [map snd] in N. inversion N as [|? ? NI N']; subst.
    destruct I as [X|I], I' as [X'|I']; auto; [congruence| |].
    + exfalso. apply NI. apply (in_map snd) in I'. cbn [snd] in I'. congruence.
    + exfalso. apply NI. apply (in_map snd) in I. cbn [snd] in I. congruence.
  - exfalso. apply (find_none _ _ F) in I. cbn [snd] in I. rewrite Z.eqb_refl in I. discriminate.
Qed.

(** With distinct commitments the matching pseudonym is the right one. *)
Lemma matching_nym y V t : reach S H G y V -> co_status (y_coord y) = CO_MESSAGE -> settled y -> distinct (y_coord y) ->
  In t V -> matching S (y_coord y) t = Some (nym_of S y (fst t)).
Proof.
  intros R ST SE D I. unfold matching.
  rewrite (find_snd _ (nym_of S y (fst t)) _ D); [reflexivity|].
  apply (Permutation_in _ (Permutation_sym (comms_ledger y V R ST SE))).
  change (nym_of S y (fst t), _) with (ent S (co_pb (y_coord y)) (round_exp y) t). now apply in_map.
Qed.

Lemma pend_reg k : in_group S (cl_pub k) -> pend [cl_register S k] = [(cl_pub k, (starting_credit, 0))].
Proof.
  intros Gk. unfold pend. change (filter is_reg [cl_register S k]) with [cl_register S k]. cbn [map].
  unfold pget, get_bytes. cbn [mParams cl_register lookup String.eqb Ascii.eqb Bool.eqb]. now rewrite (dec_enc_unchecked S _ Gk).
Qed.
Lemma pend_msgs y i m : nth_error (y_msgs y) i = Some m ->
  Permutation (pend (y_msgs y)) (pend [m] ++ pend (firstn i (y_msgs y) ++ skipn (Datatypes.S i) (y_msgs y))).
Proof.
  intros E. destruct (pick_split i _ m E) as (l1 & l2 & EL & ER). rewrite ER, EL, <- pend_app.
  unfold pend. apply Permutation_map, filter_perm. cbn [app]. symmetry. apply Permutation_middle.
Qed.

(** The notes are the ledger, except for the clients whose registration has not arrived. *)
Theorem notes_ledger : forall y V W, noting S H G y V W -> Permutation (W ++ pend (y_msgs y)) V.
Proof.
  induction 1 as [self a fb trap gammas l y1 y2 CF E1 EM NS E2|y V W a y' N IH GU E D].
  - cbn [app]. cbn [sys_step is_loop] in E2. destruct (co_step S G (y_coord y1) EConfigure) as [[c' out]|] eqn:EC; [|discriminate].
    injection E2 as <-. cbn [y_msgs]. rewrite EM. cbn [app]. rewrite pend_none; [constructor|]. exact (co_out _ _ _ _ EC).
  - pose proof (noting_reach _ _ _ _ _ _ N) as R. pose proof (reach_inv S OK H G GOK y V R) as I.
    pose proof (b_V _ _ _ _ _ (proj1 I)) as NV.
    destruct a as [a priv rk|a priv s|i cr sr chal|e|a cmd].
    + destruct GU.
    + cbn [seen ledger_step]. cbn [sys_step] in E. odestruct E. injection E as <-. cbn [y_msgs].
      rewrite pend_app, app_assoc. apply Permutation_app; [assumption|].
      rewrite pend_reg by (cbn [init_client cl_pub]; apply (group_base S OK)). reflexivity.
    + cbn [seen ledger_step]. cbn [sys_step] in E.
      destruct (nth_error (y_msgs y) i) as [m|] eqn:EM; [|discriminate]. cbv zeta in E.
      pose proof (pend_msgs y i m EM) as PM. set (rest := firstn i (y_msgs y) ++ skipn (Datatypes.S i) (y_msgs y)) in *.
      assert (EY : exists out, y_msgs y' = rest ++ out /\ pend out = []).
      { destruct (keq (mDst m) (co_addr (y_coord y))).
        - destruct (co_handle _ _ _ _ _ _ _) as [[c' out]|] eqn:EH; [|discriminate]. injection E as <-. exists out. split; [reflexivity|].
          apply pend_none. exact (co_out _ (EMsg (mType m) (mParams m) (mSrc m) cr) _ _ EH).
        - destruct (mget (y_servers y) (mDst m)) as [s|].
          + destruct (sv_handle _ _ _ _ _ _ _ _) as [[s' out]|] eqn:EH; [|discriminate]. injection E as <-. exists out. split; [reflexivity|].
            apply pend_none. exact (sv_out _ _ _ _ _ _ _ EH).
          + destruct (mget (y_clients y) (mDst m)) as [k|]; [|discriminate].
            destruct (cl_handle _ _ _ _ _ _) as [[k' out]|] eqn:EH; [|discriminate]. injection E as <-. exists out. split; [reflexivity|].
            apply pend_none. intros x Ix. rewrite (cl_out _ _ _ _ _ _ EH x Ix). discriminate. }
      destruct EY as (out & -> & PO). rewrite pend_app, PO, app_nil_r. clear out PO E.
      destruct (Z.eq_dec (mType m) CLIENT_REGISTER_CONTROLLERSIDE) as [ET|NT].
      * destruct (reg_msg y V m I (nth_error_In _ _ EM) ET) as (a & k & EK & Em & Ed & Ep).
        unfold ledger_msg. rewrite Ed. destruct (keq _ _) as [_|X]; [|now elim X]. cbn [note]. rewrite ET, Z.eqb_refl, Ep. cbn [andb].
        assert (P1 : pend [m] = [(cl_pub k, (starting_credit, 0))]).
        { unfold pend, is_reg, is_ty. cbn [filter]. rewrite ET, Z.eqb_refl. cbn [map]. now rewrite Ep. }
        rewrite P1 in PM. set (pk := cl_pub k) in *. set (Pr := pend rest) in *.
        assert (P2 : Permutation (W ++ (pk, (starting_credit, 0)) :: Pr) V) by (rewrite <- IH; apply Permutation_app_head; symmetry; exact PM).
        assert (ND : NoDup (map fst (W ++ (pk, (starting_credit, 0)) :: Pr))).
        { eapply Permutation_NoDup; [symmetry; apply Permutation_map; exact P2|exact NV]. }
        rewrite map_app in ND. cbn [map fst] in ND.
        assert (NI : ~ In pk (map fst W ++ map fst Pr)) by (now apply NoDup_remove_2).
        assert (P3 : Permutation (set_blind (W ++ (pk, (starting_credit, 0)) :: Pr) pk (crR cr)) (set_blind V pk (crR cr))) by (unfold set_blind; now apply Permutation_map).
        rewrite <- P3, set_blind_app. rewrite (set_blind_id W) by (intros X; apply NI, in_or_app; now left).
        change (set_blind ((pk, (starting_credit, 0)) :: Pr) pk (crR cr)) with
          ((if pk =? pk then (pk, (starting_credit, crR cr)) else (pk, (starting_credit, 0))) :: set_blind Pr pk (crR cr)).
        rewrite Z.eqb_refl, (set_blind_id Pr) by (intros X; apply NI, in_or_app; now right).
        now rewrite <- app_assoc.
      * assert (P1 : pend [m] = []) by (apply pend_none; intros x [<-|[]]; assumption). rewrite P1 in PM. cbn [app] in PM.
        assert (E1 : ledger_msg y V m cr = V) by (unfold ledger_msg; destruct (Z.eqb_spec (mType m) CLIENT_REGISTER_CONTROLLERSIDE); [contradiction|reflexivity]).
        rewrite E1. match goal with |- Permutation (?X ++ _) _ => replace X with W end.
        2:{ destruct (keq _ _); [|reflexivity]. cbn [note]. destruct (Z.eqb_spec (mType m) CLIENT_REGISTER_CONTROLLERSIDE); [contradiction|reflexivity]. }
        rewrite <- IH. apply Permutation_app_head. symmetry. exact PM.
    + cbn [seen]. cbn [sys_step] in E. destruct (is_loop e) eqn:IL; [|discriminate].
      destruct (co_step S G (y_coord y) e) as [[c' out]|] eqn:EC; [|discriminate]. injection E as <-. cbn [y_msgs].
      rewrite pend_app, (pend_none out (co_out _ _ _ _ EC)), app_nil_r.
      destruct e as [ty p src rn| |fakes ord| |ord rs]; cbn [ledger_step note]; try assumption; [discriminate IL| |].
      * destruct GU as (G1 & _). rewrite (pend_settled y G1), app_nil_r in *. destruct (co_first (y_coord y)); [|assumption].
        now apply Permutation_app_tail.
      * destruct GU as (G1 & G2 & _). rewrite (pend_settled y G2), app_nil_r in *.
        specialize (D ord rs eq_refl).
        rewrite (map_ext_in _ (fun t : entry => let nym := nym_of S y (fst t) in
             (fst t, (fst (snd t) + rep_diff (y_coord y) nym, snd (snd t) + drawn ord rs nym)))).
        -- now apply Permutation_map.
        -- intros t It. rewrite (matching_nym y V t R G1 G2 D) by (now apply (Permutation_in _ IH)). reflexivity.
    + cbn [seen ledger_step]. cbn [sys_step] in E. odestruct E. injection E as <-. cbn [y_msgs].
      match goal with EC : cl_command _ _ _ _ = Some ?o |- _ => rewrite pend_app, (pend_inert o (command_inert _ _ _ _ _ EC)), app_nil_r end. assumption.
Qed.

(** What the notes say about a long-term key: reputation and pseudonym. *)
Definition known (S : suite) (c : coord) (W : notes) (q : Z) : option (Z * Z) :=
  olet t := find (fun t : entry => fst t =? q) W in
  olet n := matching S c t in
  Some (int64 (fst (snd t)), n).

Lemma find_fst (l : list entry) t : NoDup (map fst l) -> In t l -> find (fun t' : entry => fst t' =? fst t) l = Some t.
Proof.
  induction l as [|x l IH]; intros N I; [destruct I|]. cbn [map] in N. inversion N as [|? ? NI N']; subst. cbn [find].
  destruct (Z.eqb_spec (fst x) (fst t)) as [E|NE].
  - destruct I as [->|I]; [reflexivity|]. exfalso. apply NI. rewrite E. now apply in_map.
  - destruct I as [->|I]; [now elim NE|]. now apply IH.
Qed.

(** Between the deliveries the notes are the ledger: the coordinator knows every opening. *)
Theorem C82_coordinator_holds_all_openings : forall y V W, noting S H G y V W -> settled y -> Permutation W V.
Proof. intros y V W N SE. rewrite <- (notes_ledger y V W N), (pend_settled y SE), app_nil_r. reflexivity. Qed.

(** C82: in every running round, for every client, whether it has ever sent a message under a
    pseudonym or not, the coordinator knows its reputation and its present pseudonym. *)
Theorem C82_coordinator_knows : forall y V W a k, noting S H G y V W ->
  co_status (y_coord y) = CO_MESSAGE -> settled y -> distinct (y_coord y) -> mget (y_clients y) a = Some k ->
  known S (y_coord y) W (cl_pub k) = Some (cl_rep k, cl_nym k).
Proof.
  intros y V W a k N ST SE D EK. pose proof (noting_reach _ _ _ _ _ _ N) as R.
  pose proof (C82_coordinator_holds_all_openings y V W N SE) as PW.
  destruct (C42_settled S OK H G GOK y V R SE a k EK) as (v & r & _ & _ & IV & _ & _ & _ & ER & _).
  pose proof (reach_inv S OK H G GOK y V R) as [B P].
  assert (EN : cl_nym k = nym_of S y (cl_pub k)).
  { unfold settled in SE. rewrite SE in P. destruct P as [T A|T i p keys vals GT HT A|T0 T1 K A|T n M1 p keys vals GT HT A].
    - exfalso. pose proof (p1_status _ _ _ _ _ _ _ A) as X. rewrite ST in X. discriminate.
    - exfalso. pose proof (p2_status _ _ _ _ _ _ _ _ _ _ _ _ _ _ A) as X. rewrite ST in X. discriminate.
    - destruct A as [A1 A2 A3 A4 A5 A6 A7 A8 A9 A10 A11 A12 A13]. unfold nym_of, round_exp. rewrite <- A3.
      destruct (A11 a k EK) as [[[] _]|(_ & v' & r' & _ & _ & [(m & [] & _)|(R' & _ & _ & [(m & [] & _)|[X _]])])]. exact X.
    - exfalso. destruct (p4_M _ _ _ _ _ _ _ _ _ _ _ _ _ _ _ A) as [src X]. now apply Permutation_nil_cons in X. }
  unfold known.
  pose proof (find_fst W (cl_pub k, (v, r))) as FW. cbn [fst] in FW. rewrite FW.
  - rewrite (matching_nym y V _ R ST SE D IV). cbn [fst snd]. now rewrite ER, EN.
  - eapply Permutation_NoDup; [symmetry; apply Permutation_map; exact PW|]. apply B.
  - now apply (Permutation_in _ (Permutation_sym PW)).
Qed.
End Spy.

(** The property: no way of keeping notes in the coordinator's process tells it the reputation
    and the pseudonym of the clients. *)
Definition clients_hidden (S : suite) (H : oracle) (G : gob) : Prop :=
  ~ exists (N : Type) (n0 : N) (step : coord -> N -> event -> N) (f : coord -> N -> Z -> option (Z * Z)),
    forall y V n a k, observed S H G n0 step y V n ->
      co_status (y_coord y) = CO_MESSAGE -> settled y -> distinct (y_coord y) -> mget (y_clients y) a = Some k ->
      f (y_coord y) n (cl_pub k) = Some (cl_rep k, cl_nym k).
Theorem C82_clients_hidden_refuted : forall S H G, suite_ok S -> gob_ok G -> ~ clients_hidden S H G.
Proof.
  intros S H G OK GOK HH. apply HH. exists notes, [], (note S), (known S).
  intros y V W a k. exact (C82_coordinator_knows S OK H G GOK y V W a k).
Qed.

(** ** An instance: the third round, in which the client D holds a reputation it got by a vote *)
Import Prop_FujiOkam Prop_Codec Prop_Bridge Prop_Shuffle Prop_Assign.
Definition distinctb (c : coord) : bool := nodupb (map snd (comms c)).
Fixpoint nplay (S : suite) (H : oracle) (G : gob) (l : list (sys -> action)) (y : sys) (V : ledger) (W : notes)
  : option (sys * ledger * notes) :=
  match l with
  | [] => Some (y, V, W)
  | f :: r =>
      let a := f y in
      if okb S false y V a && match a with ALoop (EEnd _ _) => distinctb (y_coord y) | _ => true end then
        olet y' := sys_step S H G y a in
        nplay S H G r y' (ledger_step S y V a) (match seen y a with Some e => note S (y_coord y) W e | None => W end)
      else None
  end.
Lemma nplay_noting S H G l : forall y V W y' V' W', noting S H G y V W -> nplay S H G l y V W = Some (y', V', W') -> noting S H G y' V' W'.
Proof.
  induction l as [|f l IH]; cbn [nplay]; intros y V W y' V' W' N E; [now injection E as <- <- <-|].
  destruct (okb S false y V (f y)) eqn:EO; [|discriminate]. cbn [andb] in E.
  destruct (match f y with ALoop (EEnd _ _) => distinctb (y_coord y) | _ => true end) eqn:ED; [|discriminate].
  destruct (sys_step S H G y (f y)) as [y1|] eqn:ES; [|discriminate].
  refine (IH _ _ _ _ _ _ (n_step S H G [] (note S) y V W (f y) y1 N (proj2 (okb_guard _ _ _ _ _ EO) eq_refl) ES _) E).
  intros ord rs X. rewrite X in ED. now apply nodupb_ok.
Qed.
Definition tend2 (y : sys) : action :=
  let o := mkeys (co_ecomms (y_coord y)) ++ map fst (co_buffer (y_coord y)) in ALoop (EEnd o (firstn (length o) [5; 8; 3])).
Definition toy_third : list (sys -> action) := toy_upto_vote ++ dls 1 ++ [tend2] ++ dls 5 ++ [tbegin []] ++ dls 6.
Lemma toy_s_noting : noting toy_suite toy_oracle toy_gob toy_s [] [].
Proof.
  destruct (sys_run toy_suite toy_oracle toy_gob toy_z0 toy_conf) as [y1|] eqn:E1; [|vm_compute in E1; discriminate].
  destruct (sys_step toy_suite toy_oracle toy_gob y1 (ALoop EConfigure)) as [y2|] eqn:E2.
  2:{ exfalso. vm_compute in E1. injection E1 as <-. vm_compute in E2. discriminate E2. }
  assert (ES : toy_s = y2) by (unfold toy_s, toy_started; now rewrite E1, E2). rewrite ES.
  eapply (n_start toy_suite toy_oracle toy_gob [] (note toy_suite) adC 5 toy_fb toy_trap (repeat 3 480) toy_conf y1 y2); try assumption.
  - repeat (constructor; [exact I || (cbn; unfold rel_prime; apply Zis_gcd_intro; [apply Z.divide_1_l| apply Z.divide_1_l| ]; intros x Hx Hy)|]); try constructor.
    + apply (Z.divide_sub_r _ (4 * 3) 11); [now apply Z.divide_mul_r|assumption].
    + apply (Z.divide_sub_r _ 11 (2 * 5)); [assumption|now apply Z.divide_mul_r].
  - vm_compute in E1. injection E1 as <-. reflexivity.
  - vm_compute in E1. injection E1 as <-. discriminate.
Qed.
Example C82_instance : exists y V W k, noting toy_suite toy_oracle toy_gob y V W /\ co_status (y_coord y) = CO_MESSAGE /\
  settled y /\ distinct (y_coord y) /\ mget (y_clients y) adD = Some k /\ cl_rep k = 6 /\ cl_nym k = 12 /\
  W = [(2, (0, 12)); (3, (6, 20))] /\ known toy_suite (y_coord y) W (cl_pub k) = Some (6, 12).
Proof.
  destruct (nplay toy_suite toy_oracle toy_gob toy_third toy_s [] []) as [[[y V] W]|] eqn:E; [|vm_compute in E; discriminate E].
  pose proof (nplay_noting _ _ _ _ _ _ _ _ _ _ toy_s_noting E) as N.
  assert (F : option_map (fun r => (co_status (y_coord (fst (fst r))), core (y_msgs (fst (fst r))), snd r, comms (y_coord (fst (fst r))),
     client_at adD (fst (fst r)))) (nplay toy_suite toy_oracle toy_gob toy_third toy_s [] []) =
     Some (3, [], [(2, (0, 12)); (3, (6, 20))], [(16, 18); (12, 1)], Some (3, 6, Some 9, Some 3, PBase 18 4, 12))) by (vm_compute; reflexivity).
  rewrite E in F. cbn [option_map fst snd] in F. injection F as F1 F2 F3 F4 F5.
  destruct (client_at_some _ _ _ _ _ _ _ _ F5) as (k & EK & E1 & E2 & E3 & E4 & E5 & E6).
  assert (D : distinct (y_coord y)) by (unfold distinct; rewrite F4; apply nodupb_ok; reflexivity).
  exists y, V, W, k. do 6 (split; [assumption|]). split; [assumption|]. split; [assumption|].
  rewrite (C82_coordinator_knows toy_suite toy_ok toy_oracle toy_gob toy_gob_ok y V W adD k N F1 F2 D EK). now rewrite E2, E6.
Qed.

Print Assumptions C82_coordinator_holds_all_openings.
Print Assumptions C82_coordinator_knows.
Print Assumptions C82_clients_hidden_refuted.
