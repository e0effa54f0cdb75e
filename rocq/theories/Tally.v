(** The votes users cast in an orderly session, and what becomes of each of them. *)
From Coq Require Import ZArith Znumtheory Lia List Bool Permutation.
From Coq Require Import Strings.Byte.
From Coq Require String.
From Verif Require Import ZMod Bytes Suite Spec Pedersen ElGamal FujiOkam Equality Codec Maps Net Bridge Client
  Perm SimpleShuffle PairShuffle Server Coordinator History System Chain Prop_Pedersen Prop_FujiOkam Prop_Codec Prop_Assign Prop_Topology Prop_Chain Round RoundInv
  Prop_Coord Prop_Round Session Prop_Session Signing Prop_Signing Progress Live Delivery Enrol Conduct.
Import ListNotations.
Import String.StringSyntax.
Open Scope Z_scope.
Delimit Scope string_scope with str.

(** ** Specification *)
(** The long-term key behind a pseudonym of this round. *)
Definition owner (S : suite) (y : sys) (V : ledger) (n : Z) : option Z :=
  option_map fst (find (fun t : entry => nym_of S y (fst t) =? n) V).
(** The vote a command casts: the key behind the pseudonym the voted assignment names, and
    +1 or -1. *)
Definition cast (S : suite) (y : sys) (V : ledger) (a : action) : list (Z * Z) :=
  match a with
  | ACommand b (CVote id f) =>
      match (olet k := mget (y_clients y) b in olet xs := nth_error (cl_assigns k) (Z.to_nat id) in
             olet n := asNym (fst xs) in owner S y V n) with
      | Some q => [(q, if 0 <? f then 1 else -1)]
      | None => []
      end
  | _ => []
  end.
(** All a key got in a list of votes. *)
Definition votes_for (L : list (Z * Z)) (q : Z) : Z := zsum (map (fun w => if fst w =? q then snd w else 0) L).
(** What is asked of a vote, besides its being cast in an announced round by a client of the
    table: no signature on the assignment has response 0 (C47). *)
Definition willing (S : suite) (y : sys) (a : action) : Prop :=
  match a with
  | ACommand b (CVote id _) => forall k x bs, mget (y_clients y) b = Some k -> nth_error (cl_assigns k) (Z.to_nat id) = Some (x, bs) ->
      0 <= cl_priv k /\ responses_nonzero S y x
  | _ => True
  end.
(** Sessions in which every action meets [Q], with the list of all votes cast so far. *)
Inductive voted (S : suite) (H : oracle) (G : gob) (Q : sys -> action -> Prop) : sys -> ledger -> list (Z * Z) -> Prop :=
| f_start self a fb trap gammas l y1 y2 :
    Forall (conf_act S) l -> sys_run S H G (init_sys S self a fb trap gammas) l = Some y1 ->
    y_msgs y1 = [] -> co_servers (y_coord y1) <> [] ->
    sys_step S H G y1 (ALoop EConfigure) = Some y2 -> voted S H G Q y2 [] []
| f_step y V L a y' :
    voted S H G Q y V L -> guard S y V a -> Q y a -> sys_step S H G y a = Some y' ->
    voted S H G Q y' (ledger_step S y V a) (L ++ cast S y V a).
(** Orderly sessions in which no bridge is posted while signatures on it are on their way. *)
Definition fair (S : suite) (H : oracle) (G : gob) : sys -> ledger -> list (Z * Z) -> Prop :=
  voted S H G (fun y a => conduct S y a /\ post_calm S G y a /\ willing S y a).

Section Tally.
Context (S : suite) (OK : suite_ok S) (H : oracle) (G : gob) (GOK : gob_ok G).

Lemma fair_orderly y V L : fair S H G y V L -> orderly S H G y V.
Proof. induction 1 as [| ? ? ? ? ? ? ? ? [? [? ?]]]; [eapply o_start; eassumption|eapply o_step; eassumption]. Qed.
Lemma fair_calm y V L : fair S H G y V L -> calm_reach S H G y V.
Proof. induction 1 as [| ? ? ? ? ? ? ? ? [? [? ?]]]; [eapply cr_start; eassumption|eapply cr_step; eassumption]. Qed.

(** Votes on their way to the coordinator. *)
Definition ballot (c : coord) (m : msg) : bool := (mType m =? Net.VOTE) && (if keq (mDst m) (co_addr c) then true else false).
Definition ballots (y : sys) : list msg := filter (ballot (y_coord y)) (y_msgs y).
Definition worth (t : Z) (m : msg) : Z :=
  match get_bytes (mParams m) "assignment"%str with
  | Some b => match dec_assignment S b with
    | Some x => match asNym x, get_int (mParams m) "feedback"%str with Some n, Some f => if n =? t then f else 0 | _, _ => 0 end
    | None => 0
    end
  | None => 0
  end.
Definition flight (y : sys) (t : Z) : Z := zsum (map (worth t) (ballots y)).

Lemma zsum_app l1 l2 : zsum (l1 ++ l2) = zsum l1 + zsum l2.
Proof. unfold zsum. induction l1 as [|x l IH]; cbn; [reflexivity|]. fold zsum in *. lia. Qed.
Lemma votes_for_app L1 L2 q : votes_for (L1 ++ L2) q = votes_for L1 q + votes_for L2 q.
Proof. unfold votes_for. now rewrite map_app, zsum_app. Qed.
Lemma votes_for_none L q : ~ In q (map fst L) -> votes_for L q = 0.
Proof.
  unfold votes_for. induction L as [|[p d] L IH]; cbn; intros N; [reflexivity|].
  destruct (Z.eqb_spec p q); [exfalso; apply N; now left|]. change (0 + zsum (map (fun w => if fst w =? q then snd w else 0) L) = 0). rewrite IH; tauto.
Qed.
Lemma votes_for_bound L q : (forall w, In w L -> snd w = 1 \/ snd w = -1) -> Z.abs (votes_for L q) <= Z.of_nat (length L).
Proof.
  unfold votes_for. induction L as [|[p d] L IH]; intros F; [cbn; lia|].
  change (Z.abs ((if p =? q then d else 0) + zsum (map (fun w => if fst w =? q then snd w else 0) L)) <= Z.of_nat (length ((p, d) :: L))).
  specialize (IH (fun w I => F w (or_intror I))). destruct (F (p, d) (or_introl eq_refl)) as [X|X]; cbn [snd] in X; subst d;
    cbn [length]; destruct (p =? q); lia.
Qed.

Lemma ballot_spec c m : ballot c m = true <-> mType m = Net.VOTE /\ mDst m = co_addr c.
Proof.
  unfold ballot. rewrite andb_true_iff, Z.eqb_eq. destruct (keq (mDst m) (co_addr c)); intuition (try discriminate; try contradiction).
Qed.
Lemma ballot_type c m : mType m <> Net.VOTE -> ballot c m = false.
Proof. intros N. unfold ballot. apply Z.eqb_neq in N. now rewrite N. Qed.
Lemma filter_none {A} (f : A -> bool) l : (forall x, In x l -> f x = false) -> filter f l = [].
Proof. induction l as [|x l IH]; intros F; cbn; [reflexivity|]. rewrite (F x (or_introl eq_refl)). apply IH. intros z I. apply F. now right. Qed.
Lemma ballot_addr c c' : co_static c' = co_static c -> forall m, ballot c' m = ballot c m.
Proof. intros E m. unfold ballot, co_addr. now rewrite E. Qed.
Lemma ballots_new y y' l out : co_static (y_coord y') = co_static (y_coord y) -> y_msgs y' = l ++ out ->
  (forall x, In x out -> ballot (y_coord y) x = false) -> ballots y' = filter (ballot (y_coord y)) l.
Proof.
  intros E M F. unfold ballots. rewrite M, filter_app, (filter_ext _ _ (ballot_addr _ _ E)), (filter_ext _ _ (ballot_addr _ _ E)).
  rewrite (filter_none _ out F). apply app_nil_r.
Qed.

Lemma ballots_step y V a y' : inv S G y V -> guard S y V a -> sys_step S H G y a = Some y' ->
  match a with
  | ADeliver i _ _ _ => exists m b1 b2, nth_error (y_msgs y) i = Some m /\ ballots y' = b1 ++ b2 /\
      ballots y = b1 ++ (if ballot (y_coord y) m then [m] else []) ++ b2
  | ACommand b cmd => exists k out, mget (y_clients y) b = Some k /\ cl_command S G k cmd = Some out /\
      ballots y' = ballots y ++ filter (ballot (y_coord y)) out
  | _ => ballots y' = ballots y
  end.
Proof.
  intros [B P] GU E. pose proof (sys_static S H G _ _ _ E) as ST. destruct a as [b priv rk|b priv s|i cr sr chal|e|b cmd]; cbn [sys_step] in E.
  - destruct GU.
  - destruct (keq b _); [discriminate|]. destruct (mget (y_servers y) b); [discriminate|]. destruct (mget (y_clients y) b); [discriminate|]. injection E as <-.
    apply (ballots_new y _ (y_msgs y) [cl_register S (init_client S b (co_addr (y_coord y)) priv s)]); try reflexivity. intros x [<-|[]]. now apply ballot_type.
  - destruct (nth_error (y_msgs y) i) as [m|] eqn:Em; [|discriminate]. cbn zeta in E.
    destruct (pick_split i _ m Em) as (l1 & l2 & EM & ER). rewrite ER in E.
    exists m, (filter (ballot (y_coord y)) l1), (filter (ballot (y_coord y)) l2). split; [reflexivity|]. split.
    2:{ unfold ballots. rewrite EM, filter_app. cbn [filter]. destruct (ballot (y_coord y) m); reflexivity. }
    rewrite <- filter_app.
    destruct (keq (mDst m) _) as [ED|ND].
    + destruct (co_handle _ _ _ _ _ _ _) as [[c' out]|] eqn:EH; [|discriminate]. injection E as <-.
      eapply ballots_new; [exact ST|reflexivity|]. intros x Ix. apply ballot_type.
      destruct (co_step_frame S G _ (EMsg (mType m) (mParams m) (mSrc m) cr) c' out EH) as [_ OO]. specialize (OO x Ix). cbn [emits_ev] in OO. unfold emits in OO.
      intros T. rewrite T in OO. revert OO. clear. repeat match goal with |- context [if ?b then _ else _] => destruct b end; cbn; intuition discriminate.
    + destruct (mget (y_servers y) (mDst m)) as [s|] eqn:Es.
      * destruct (sv_handle _ _ _ _ _ _ _ _) as [[s' out]|] eqn:EH; [|discriminate]. injection E as <-.
        eapply ballots_new; [exact ST|reflexivity|]. intros x Ix. apply ballot_type.
        destruct (C60_server_frame S H G _ _ _ _ _ _ _ EH) as [_ SO]. specialize (SO x Ix). cbn [In] in SO. clear - SO.
        repeat (destruct SO as [SO|SO]; [injection SO as SO1 SO2; rewrite <- SO2; discriminate|]). destruct SO.
      * destruct (mget (y_clients y) (mDst m)) as [k|] eqn:Ek; [|discriminate].
        destruct (cl_handle _ _ _ _ _ _) as [[k' out]|] eqn:EH; [|discriminate]. injection E as <-. destruct (cl_quiet S H G _ _ _ _ _ EH) as [Q1 _].
        eapply ballots_new; [exact ST|reflexivity|]. intros x Ix. apply ballot_type. intros T. apply (Q1 x Ix). rewrite T. cbn. tauto.
  - destruct (is_loop e) eqn:EL; [|discriminate]. destruct (co_step _ _ _ _) as [[c' out]|] eqn:ES; [|discriminate]. injection E as <-.
    eapply ballots_new; [exact ST|reflexivity|]. intros x Ix. destruct (co_step_frame S G _ _ _ _ ES) as [_ OO]. specialize (OO x Ix).
    destruct e as [ty p src rn| |fakes ord| |ord rs]; try discriminate EL; cbn [emits_ev] in OO.
    1,2,4: apply ballot_type; intros T; rewrite T in OO; cbn in OO; intuition discriminate.
    cbn [co_step begin_vote] in ES. injection ES as <- <-. unfold ballot. destruct (keq (mDst x) _) as [D|]; [|now rewrite andb_false_r]. exfalso.
    unfold to_clients in Ix. apply in_map_iff in Ix. destruct Ix as ([q z] & <- & Iq). cbn [mDst snd] in D.
    apply (mwf_In _ _ _ (b_wf _ _ _ _ _ B)) in Iq. destruct (b_reg _ _ _ _ _ B _ _ Iq) as (k & Ek & _). rewrite D, (self_not_cl _ _ _ _ _ B) in Ek. discriminate.
  - destruct (mget (y_clients y) b) as [k|] eqn:Ek; [|discriminate]. destruct (cl_command S G k cmd) as [out|] eqn:EC; [|discriminate]. injection E as <-.
    exists k, out. split; [reflexivity|]. split; [assumption|]. unfold ballots. cbn [y_coord y_msgs]. apply filter_app.
Qed.

(** The recorded differences change when a vote is handled and when a round is announced. *)
Lemma diffs_step y a y' : sys_step S H G y a = Some y' ->
  co_diffs (y_coord y') = co_diffs (y_coord y) \/
  exists i cr sr chal m, a = ADeliver i cr sr chal /\ nth_error (y_msgs y) i = Some m /\ mDst m = co_addr (y_coord y) /\
    ((mType m = Net.VOTE /\ exists out, co_handle S G (y_coord y) (mType m) (mParams m) (mSrc m) cr = Some (y_coord y', out)) \/
     (mType m = ANNOUNCEMENT /\ co_diffs (y_coord y') = [])).
Proof.
  intros E. destruct a as [b priv rk|b priv s|i cr sr chal|e|b cmd]; cbn [sys_step] in E.
  - left. destruct (keq b _); [discriminate|]. destruct (mget (y_servers y) b); [discriminate|]. destruct (mget (y_clients y) b); [discriminate|]. now injection E as <-.
  - left. destruct (keq b _); [discriminate|]. destruct (mget (y_servers y) b); [discriminate|]. destruct (mget (y_clients y) b); [discriminate|]. now injection E as <-.
  - destruct (nth_error (y_msgs y) i) as [m|] eqn:Em; [|discriminate]. cbn zeta in E.
    destruct (keq (mDst m) _) as [ED|ND].
    + destruct (co_handle _ _ _ _ _ _ _) as [[c' out]|] eqn:EH; [|discriminate]. injection E as <-. cbn [y_coord].
      destruct (Z.eq_dec (mType m) Net.VOTE) as [T|N1]; [right; exists i, cr, sr, chal, m; repeat (split; [assumption || reflexivity|]); left; split; [assumption|now exists out]|].
      destruct (Z.eq_dec (mType m) ANNOUNCEMENT) as [T|N2].
      { right. exists i, cr, sr, chal, m. repeat (split; [assumption || reflexivity|]). right. split; [assumption|].
        rewrite T in EH. change (co_announcement S (y_coord y) (mParams m) = Some (c', out)) in EH. unfold co_announcement in EH. cbv zeta in EH. odestruct EH. injection EH as <- <-. reflexivity. }
      left. destruct (co_step_frame S G _ (EMsg (mType m) (mParams m) (mSrc m) cr) c' out EH) as [FR _]. apply (FR FDiffs). cbn [writes_ev]. unfold writes.
      apply Z.eqb_neq in N1, N2. rewrite N1, N2. repeat match goal with |- context [if ?b then _ else _] => destruct b end; cbn; intuition discriminate.
    + left. destruct (mget (y_servers y) (mDst m)).
      * destruct (sv_handle _ _ _ _ _ _ _ _) as [[s' out]|]; [|discriminate]. now injection E as <-.
      * destruct (mget (y_clients y) (mDst m)); [|discriminate]. destruct (cl_handle _ _ _ _ _ _) as [[k' out]|]; [|discriminate]. now injection E as <-.
  - left. destruct (is_loop e) eqn:EL; [|discriminate]. destruct (co_step _ _ _ _) as [[c' out]|] eqn:ES; [|discriminate]. injection E as <-. cbn [y_coord].
    destruct (co_step_frame S G _ _ _ _ ES) as [FR _]. apply (FR FDiffs). destruct e; try discriminate EL; cbn; intuition discriminate.
  - left. destruct (mget (y_clients y) b); [|discriminate]. destruct (cl_command _ _ _ _); [|discriminate]. now injection E as <-.
Qed.

(** Which clients there are after a step. *)
Lemma clients_step y a y' : sys_step S H G y a = Some y' -> forall b k', mget (y_clients y') b = Some k' ->
  (exists k, mget (y_clients y) b = Some k /\ cl_pub k' = cl_pub k) \/
  (mget (y_clients y) b = None /\ exists priv s, a = AJoin b priv s /\ cl_pub k' = pt_mul_base S priv).
Proof.
  intros E b k' Ek. destruct a as [a priv rk|a priv s|i cr sr chal|e|a cmd]; cbn [sys_step] in E.
  - left. destruct (keq a _); [discriminate|]. destruct (mget (y_servers y) a); [discriminate|]. destruct (mget (y_clients y) a); [discriminate|]. injection E as <-. eauto.
  - destruct (keq a _); [discriminate|]. destruct (mget (y_servers y) a); [discriminate|]. destruct (mget (y_clients y) a) eqn:Ea; [discriminate|]. injection E as <-.
    cbn [y_clients] in Ek. rewrite mget_mset in Ek. destruct (keq b a) as [->|]; [|left; eauto]. injection Ek as <-. right. split; [assumption|]. exists priv, s. now split.
  - left. destruct (nth_error (y_msgs y) i) as [m|] eqn:Em; [|discriminate]. cbn zeta in E.
    destruct (keq (mDst m) _) as [ED|ND].
    + destruct (co_handle _ _ _ _ _ _ _) as [[c' out]|]; [|discriminate]. injection E as <-. eauto.
    + destruct (mget (y_servers y) (mDst m)).
      * destruct (sv_handle _ _ _ _ _ _ _ _) as [[s' out]|]; [|discriminate]. injection E as <-. eauto.
      * destruct (mget (y_clients y) (mDst m)) as [k|] eqn:Ec; [|discriminate]. destruct (cl_handle _ _ _ _ _ _) as [[k1 out]|] eqn:EH; [|discriminate]. injection E as <-.
        cbn [y_clients] in Ek. rewrite mget_mset in Ek. destruct (keq b (mDst m)) as [->|]; [|eauto]. injection Ek as <-. exists k. split; [assumption|]. eapply handle_pub. exact EH.
  - left. destruct (is_loop e); [|discriminate]. destruct (co_step _ _ _ _) as [[c' out]|]; [|discriminate]. injection E as <-. eauto.
  - left. destruct (mget (y_clients y) a); [|discriminate]. destruct (cl_command _ _ _ _); [|discriminate]. injection E as <-. eauto.
Qed.

Lemma ledger_keys y V a : incl (map fst V) (map fst (ledger_step S y V a)).
Proof.
  intros q Iq. apply in_map_iff in Iq. destruct Iq as ([q0 [v r]] & <- & I). cbn [fst]. destruct (is_end a) eqn:NE.
  - destruct a as [b priv rk|b priv s|i cr sr chal|e|b cmd]; try discriminate NE. destruct e; try discriminate NE. cbn [ledger_step].
    rewrite map_map. cbn [fst]. apply in_map_iff. exists (q0, (v, r)). now split.
  - destruct (keep_value S y V a q0 v r NE I) as [r' J]. apply in_map_iff. now exists (q0, (v, r')).
Qed.

(** ** Pseudonyms of an open round *)
Lemma nym_step y V a y' q : inv S G y V -> open_round y -> guard S y V a -> is_end a = false -> sys_step S H G y a = Some y' ->
  nym_of S y' q = nym_of S y q.
Proof.
  intros I O GU NE E. pose proof (open_msgs S H G y V I O) as TY. destruct (open_step S H G y V a y' I O GU NE E) as [_ SR].
  destruct (view_eq _ _ SR) as (_ & W2 & _). unfold nym_of, round_exp. f_equal. f_equal. unfold exps. rewrite W2. apply map_ext. intros b.
  unfold rkey. destruct a as [a priv rk|a priv s|i cr sr chal|e|a cmd]; cbn [sys_step] in E.
  - destruct GU.
  - destruct (keq a _); [discriminate|]. destruct (mget (y_servers y) a); [discriminate|]. destruct (mget (y_clients y) a); [discriminate|]. now injection E as <-.
  - destruct (nth_error (y_msgs y) i) as [m|] eqn:Em; [|discriminate]. cbn zeta in E.
    destruct (keq (mDst m) _) as [ED|ND].
    + destruct (co_handle _ _ _ _ _ _ _) as [[c' out]|]; [|discriminate]. now injection E as <-.
    + destruct (mget (y_servers y) (mDst m)) as [s|] eqn:Es.
      * destruct (sv_handle _ _ _ _ _ _ _ _) as [[s' out]|] eqn:EH; [|discriminate]. injection E as <-. cbn [y_servers].
        rewrite mget_mset. destruct (keq b (mDst m)) as [->|]; [|reflexivity]. rewrite Es.
        assert (T : In (mType m) open_types) by (rewrite Forall_forall in TY; apply TY; eapply nth_error_In; exact Em).
        destruct (Z.eq_dec (mType m) CLIENT_REGISTER_SERVERSIDE) as [TC|NC].
        { rewrite TC in EH. change (sv_handle S H G s CLIENT_REGISTER_SERVERSIDE (mParams m) (mSrc m) sr) with (sv_client_register S s (mParams m)) in EH.
          unfold sv_client_register in EH. cbv zeta in EH. odestruct EH. injection EH as <- <-. reflexivity. }
        destruct (C60_server_frame S H G _ _ _ _ _ _ _ EH) as [(_ & _ & _ & _ & _ & X & _) _]. apply X. unfold is_one_of.
        destruct (in_dec Z.eq_dec _ _) as [J|]; [|reflexivity]. exfalso. cbn [In] in J. clear - J T NC.
        destruct J as [J|[J|[J|[]]]]; [|now symmetry in J|]; rewrite <- J in T; cbn in T; intuition discriminate.
      * destruct (mget (y_clients y) (mDst m)); [|discriminate]. destruct (cl_handle _ _ _ _ _ _) as [[k' out]|]; [|discriminate]. now injection E as <-.
  - destruct (is_loop e); [|discriminate]. destruct (co_step _ _ _ _) as [[c' out]|]; [|discriminate]. now injection E as <-.
  - destruct (mget (y_clients y) a); [|discriminate]. destruct (cl_command _ _ _ _); [|discriminate]. now injection E as <-.
Qed.
Lemma nym_inj y V p q : inv S G y V -> In p (map fst V) -> In q (map fst V) -> nym_of S y p = nym_of S y q -> p = q.
Proof.
  intros [B _] Ip Iq. pose proof (b_Vg _ _ _ _ _ B) as F. rewrite Forall_forall in F.
  apply (pt_mul_inj S OK); [now apply F|now apply F|]. apply (exps_unit S _ _ _ _ B).
Qed.
(** Every pseudonym of the table has an owner. *)
Lemma nym_owner y V n : reach S H G y V -> open_round y -> mget (co_ecomms (y_coord y)) n <> None ->
  exists q, In q (map fst V) /\ nym_of S y q = n.
Proof.
  intros R (O1 & O2 & _) N. destruct (reach_inv S OK H G GOK y V R) as [B P].
  destruct P as [T A|T i p keys vals GT HT A|T0 T1 K A|T i M1 p keys vals GT HT A].
  - exfalso. pose proof (p1_status _ _ _ _ _ _ _ A) as X. rewrite O1 in X. discriminate.
  - exfalso. pose proof (p2_status _ _ _ _ _ _ _ _ _ _ _ _ _ _ A) as X. rewrite O1 in X. discriminate.
  - rewrite (p3_tab _ _ _ _ _ _ _ _ _ A) in N. destruct (mget (map _ T0) n) as [z|] eqn:EZ; [|now elim N]. clear N. pose proof (mget_keys _ _ _ EZ) as N. unfold mkeys in N. rewrite map_map in N. apply in_map_iff in N. destruct N as (t & E & It).
    exists (fst t). split.
    + apply (Permutation_in _ (Permutation_map fst (p3_V _ _ _ _ _ _ _ _ _ A))). apply in_map. apply in_or_app. left. apply in_or_app. now left.
    + unfold nym_of, round_exp. rewrite <- (p3_K _ _ _ _ _ _ _ _ _ A). exact E.
  - exfalso. apply O2. split; [assumption|]. destruct (p4_M _ _ _ _ _ _ _ _ _ _ _ _ _ _ _ A) as [src X].
    exists (Msg (before (map fst (co_servers (y_coord y))) (co_addr (y_coord y)) i) Net.ROUND_END p src). split; [|reflexivity].
    apply (core_in (y_msgs y)). eapply Permutation_in; [symmetry; exact X|]. now left.
Qed.
Lemma owner_spec y V n q : inv S G y V -> In q (map fst V) -> nym_of S y q = n -> owner S y V n = Some q.
Proof.
  intros I Iq E. unfold owner. destruct (find _ V) as [t|] eqn:F.
  - apply find_some in F. destruct F as [It Et]. apply Z.eqb_eq in Et. cbn [option_map]. f_equal. apply (nym_inj y V); auto; [now apply in_map|congruence].
  - exfalso. apply in_map_iff in Iq. destruct Iq as (t & <- & It). apply (find_none _ _ F) in It. rewrite E, Z.eqb_refl in It. discriminate.
Qed.

(** ** The invariant *)
(** A vote that will count whenever it is handled in this round. *)
Definition countable (y : sys) (V : ledger) (m : msg) : Prop :=
  exists t d, (d = 1 \/ d = -1) /\ (forall t', worth t' m = if t =? t' then d else 0) /\ mget (co_ecomms (y_coord y)) t <> None /\
  forall y1 V1 cr, later S H G y V y1 V1 ->
    co_handle S G (y_coord y1) (mType m) (mParams m) (mSrc m) cr =
      Some (set_diffs (y_coord y1) (mset (co_diffs (y_coord y1)) t (int64 (rep_diff (y_coord y1) t + d))), []).
Lemma later_step y V a y' y1 V1 : guard S y V a -> is_end a = false -> sys_step S H G y a = Some y' ->
  later S H G y' (ledger_step S y V a) y1 V1 -> later S H G y V y1 V1.
Proof. intros GU NE E (l & GO & N). exists (a :: l). split; [eapply g_step; eassumption|]. cbn [existsb]. now rewrite NE. Qed.
Lemma later_refl y V : later S H G y V y V.
Proof. exists []. split; [constructor|reflexivity]. Qed.
Lemma countable_step y V a y' m : guard S y V a -> is_end a = false -> sys_step S H G y a = Some y' -> same_round y y' ->
  countable y V m -> countable y' (ledger_step S y V a) m.
Proof.
  intros GU NE E SR (t & d & C1 & C2 & C3 & C4). exists t, d. split; [assumption|]. split; [assumption|].
  destruct (view_eq _ _ SR) as (_ & _ & _ & _ & W5 & _). rewrite W5. split; [assumption|]. intros y1 V1 cr LA. apply (C4 y1 V1). eapply later_step; eassumption.
Qed.

Record tally (y : sys) (V : ledger) (L : list (Z * Z)) : Prop := {
  t_own : forall w, In w L -> In (fst w) (map fst V) /\ (snd w = 1 \/ snd w = -1);
  t_cnt : forall m, In m (ballots y) -> countable y V m;
  t_tail : co_status (y_coord y) = CO_MESSAGE -> ~ ending y -> ~ open_round y -> co_diffs (y_coord y) = [];
  t_max : open_round y -> forall t, Z.abs (rep_diff (y_coord y) t) + Z.of_nat (length (ballots y)) <= Z.of_nat (length L);
  t_in : open_round y -> forall a k, mget (y_clients y) a = Some k -> exists v r, In (cl_pub k, (v, r)) V /\
    v + rep_diff (y_coord y) (nym_of S y (cl_pub k)) + flight y (nym_of S y (cl_pub k)) = starting_credit + votes_for L (cl_pub k);
  t_out : ~ open_round y -> forall a k, mget (y_clients y) a = Some k -> exists r, In (cl_pub k, (starting_credit + votes_for L (cl_pub k), r)) V
}.

Lemma rep_diff_table y V t : reach S H G y V -> open_round y -> hon S G y -> rep_diff (y_coord y) t <> 0 -> mget (co_ecomms (y_coord y)) t <> None.
Proof.
  intros R O HO N. assert (N1 : mget (co_diffs (y_coord y)) t <> None) by (unfold rep_diff in N; destruct (mget _ _); [discriminate|now elim N]).
  pose proof (h_diffs _ _ _ HO (proj1 O) t N1) as X. destruct (reach_inv S OK H G GOK y V R) as [B P]. destruct O as (O1 & O2 & _).
  destruct P as [T A|T i p keys vals GT HT A|T0 T1 K A|T i M1 p keys vals GT HT A].
  - exfalso. pose proof (p1_status _ _ _ _ _ _ _ A) as Y. rewrite O1 in Y. discriminate.
  - exfalso. pose proof (p2_status _ _ _ _ _ _ _ _ _ _ _ _ _ _ A) as Y. rewrite O1 in Y. discriminate.
  - rewrite (p3_keys _ _ _ _ _ _ _ _ _ A) in X. destruct (mget (co_ecomms (y_coord y)) t); [discriminate|contradiction].
  - exfalso. apply O2. split; [assumption|]. destruct (p4_M _ _ _ _ _ _ _ _ _ _ _ _ _ _ _ A) as [src Y].
    exists (Msg (before (map fst (co_servers (y_coord y))) (co_addr (y_coord y)) i) Net.ROUND_END p src). split; [|reflexivity].
    apply (core_in (y_msgs y)). eapply Permutation_in; [symmetry; exact Y|]. now left.
Qed.
Lemma flight_none y t : (forall m, In m (ballots y) -> worth t m = 0) -> flight y t = 0.
Proof.
  unfold flight. induction (ballots y) as [|m l IH]; intros F; [reflexivity|]. cbn [map].
  change (worth t m + zsum (map (worth t) l) = 0). rewrite (F m (or_introl eq_refl)), IH; [reflexivity|]. intros z Iz. apply F. now right.
Qed.

(** Steps of an open round that neither handle a vote nor cast one. *)
Lemma tally_quiet y V L a y' : reach S H G y V -> hon S G y -> guard S y V a -> open_round y -> is_end a = false -> sys_step S H G y a = Some y' ->
  co_diffs (y_coord y') = co_diffs (y_coord y) -> ballots y' = ballots y -> tally y V L -> tally y' (ledger_step S y V a) L.
Proof.
  intros R HO GU O NE E ED EB [T1 T2 T3 T4 T5 T6]. pose proof (reach_inv S OK H G GOK y V R) as I.
  pose proof (reach_inv S OK H G GOK _ _ (r_step S H G y V a y' R GU E)) as I'.
  destruct (open_step S H G y V a y' I O GU NE E) as [O' SR].
  assert (NY : forall q, nym_of S y' q = nym_of S y q) by (intros q; now apply (nym_step y V a)).
  constructor.
  - intros w Iw. destruct (T1 w Iw) as [X1 X2]. split; [|assumption]. now apply ledger_keys.
  - intros m Im. rewrite EB in Im. apply (countable_step y V a y' m); auto.
  - intros _ _ N. contradiction.
  - intros _ t. unfold rep_diff. rewrite ED, EB. now apply T4.
  - intros _ b k' Ek'. rewrite NY. unfold rep_diff, flight. rewrite ED, EB.
    destruct (clients_step y a y' E b k' Ek') as [(k & Ek & EP)|(_ & priv & s & -> & EP)].
    + rewrite EP. destruct (T5 O b k Ek) as (v & r & J1 & J2). destruct (keep_value S y V a _ _ _ NE J1) as [r' J3]. exists v, r'. now split.
    + exists starting_credit, 0. rewrite EP. cbn [ledger_step]. split; [apply in_or_app; right; now left|].
      destruct GU as (_ & _ & NI). set (q := pt_mul_base S priv) in *.
      assert (IQ : In q (map fst (ledger_step S y V (AJoin b priv s)))) by (cbn [ledger_step]; rewrite map_app; apply in_or_app; right; now left).
      assert (NT : mget (co_ecomms (y_coord y)) (nym_of S y q) = None).
      { destruct (mget (co_ecomms (y_coord y)) (nym_of S y q)) eqn:ET; [|reflexivity]. exfalso.
        destruct (nym_owner y V (nym_of S y q) R O) as (p & Ip & Ep); [congruence|]. apply NI. replace q with p; [assumption|].
        apply (nym_inj y' _ p q I'); [now apply ledger_keys|assumption|]. now rewrite !NY. }
      rewrite (votes_for_none L q); [|intros J; apply NI; apply in_map_iff in J; destruct J as (w & <- & Iw); now apply T1].
      change (match mget (co_diffs (y_coord y)) (nym_of S y q) with Some v => v | None => 0 end) with (rep_diff (y_coord y) (nym_of S y q)).
      change (zsum (map (worth (nym_of S y q)) (ballots y))) with (flight y (nym_of S y q)).
      rewrite (flight_none y). 2:{ intros m Im. destruct (T2 m Im) as (t & d & _ & C2 & C3 & _). rewrite C2. destruct (Z.eqb_spec t (nym_of S y q)); [congruence|reflexivity]. }
      destruct (Z.eq_dec (rep_diff (y_coord y) (nym_of S y q)) 0) as [->|N]; [reflexivity|]. now elim (rep_diff_table y V _ R O HO N).
  - intros N. contradiction.
Qed.

Lemma int64_small x : - 2 ^ 63 < x < 2 ^ 63 -> int64 x = x.
Proof. intros B. apply fits_int64. unfold fits. lia. Qed.

(** The coordinator handles a vote. *)
Lemma tally_vote y V L i cr sr chal m y' : reach S H G y V -> hon S G y -> guard S y V (ADeliver i cr sr chal) -> open_round y ->
  sys_step S H G y (ADeliver i cr sr chal) = Some y' -> nth_error (y_msgs y) i = Some m -> ballot (y_coord y) m = true ->
  Z.of_nat (length L) < 2 ^ 63 -> tally y V L -> tally y' (ledger_step S y V (ADeliver i cr sr chal)) L.
Proof.
  intros R HO GU O E Em BM BD [T1 T2 T3 T4 T5 T6]. pose proof (reach_inv S OK H G GOK y V R) as I.
  destruct (open_step S H G y V _ y' I O GU eq_refl E) as [O' SR].
  assert (NY : forall q, nym_of S y' q = nym_of S y q) by (intros q; now apply (nym_step y V (ADeliver i cr sr chal))).
  destruct (ballots_step y V _ y' I GU E) as (m0 & b1 & b2 & Em0 & EB' & EB). rewrite Em in Em0. injection Em0 as <-. rewrite BM in EB. cbn [app] in EB.
  assert (Im : In m (ballots y)) by (rewrite EB; apply in_or_app; right; now left).
  destruct (T2 m Im) as (t & d & D1 & D2 & D3 & D4). specialize (D4 y V cr (later_refl y V)).
  assert (EC : y_coord y' = set_diffs (y_coord y) (mset (co_diffs (y_coord y)) t (int64 (rep_diff (y_coord y) t + d)))).
  { pose proof E as E0. cbn [sys_step] in E0. rewrite Em in E0. cbn zeta in E0. apply ballot_spec in BM. destruct (keq (mDst m) _) as [_|N]; [|tauto].
    rewrite D4 in E0. injection E0 as <-. reflexivity. }
  assert (RD : forall t', rep_diff (y_coord y') t' = if t =? t' then rep_diff (y_coord y) t + d else rep_diff (y_coord y) t').
  { intros t'. rewrite EC. unfold rep_diff at 1. cbn [co_diffs set_diffs]. rewrite mget_mset. destruct (keq t' t) as [->|NT].
    - rewrite Z.eqb_refl. apply int64_small. specialize (T4 O t). rewrite EB, app_length in T4. cbn [length] in T4. lia.
    - destruct (Z.eqb_spec t t'); [congruence|]. reflexivity. }
  constructor.
  - intros w Iw. destruct (T1 w Iw) as [X1 X2]. split; [|assumption]. now apply ledger_keys.
  - intros x Ix. apply (countable_step y V _ y' x GU eq_refl E SR). apply T2. rewrite EB. rewrite EB' in Ix. rewrite in_app_iff in *. cbn [In]. tauto.
  - intros _ _ N. contradiction.
  - intros _ t'. rewrite RD, EB'. specialize (T4 O t'). rewrite EB, !app_length in T4. cbn [length] in T4. rewrite app_length.
    destruct (Z.eqb_spec t t') as [->|]; lia.
  - intros _ b k' Ek'. rewrite NY, RD. destruct (clients_step y _ y' E b k' Ek') as [(k & Ek & EP)|(_ & priv & s & X & _)]; [|discriminate X].
    rewrite EP. destruct (T5 O b k Ek) as (v & r & J1 & J2). destruct (keep_value S y V (ADeliver i cr sr chal) _ _ _ eq_refl J1) as [r' J3]. exists v, r'. split; [assumption|].
    rewrite <- J2. unfold flight. rewrite EB, EB', !map_app, !zsum_app. cbn [map]. set (n := nym_of S y (cl_pub k)).
    change (zsum (worth n m :: map (worth n) b2)) with (worth n m + zsum (map (worth n) b2)). rewrite D2.
    destruct (Z.eqb_spec t n) as [->|]; lia.
  - intros N. contradiction.
Qed.

(** A client casts a vote. *)
Lemma tally_cast y V L b id f y' : fair S H G y V L -> fo_nonneg (co_fb (y_coord y)) -> guard S y V (ACommand b (CVote id f)) ->
  conduct S y (ACommand b (CVote id f)) -> willing S y (ACommand b (CVote id f)) -> sys_step S H G y (ACommand b (CVote id f)) = Some y' ->
  tally y V L -> tally y' V (L ++ cast S y V (ACommand b (CVote id f))).
Proof.
  intros FA NN GU CD WI E [T1 T2 T3 T4 T5 T6]. pose proof (fair_calm _ _ _ FA) as CR. pose proof (calm_is_reach S H G y V CR) as R.
  pose proof (orderly_hon S OK H G GOK y V (fair_orderly _ _ _ FA) NN) as HO. pose proof (reach_inv S OK H G GOK y V R) as I.
  destruct CD as (O & (k & IT) & _). pose proof IT as [Ek _]. destruct (open_step S H G y V _ y' I O GU eq_refl E) as [O' SR].
  assert (NY : forall q, nym_of S y' q = nym_of S y q) by (intros q; now apply (nym_step y V (ACommand b (CVote id f)))).
  destruct (ballots_step y V _ y' I GU E) as (k0 & out & Ek0 & EC & EB). rewrite Ek in Ek0. injection Ek0 as <-. cbn [cl_command] in EC.
  destruct (cl_vote S k id f) as [m|] eqn:EV; [|discriminate]. injection EC as <-.
  assert (ID : 0 <= id) by (unfold cl_vote in EV; cbv zeta in EV; destruct (Z.ltb_spec id 0); [discriminate|assumption]).
  assert (EX : exists x bs, nth_error (cl_assigns k) (Z.to_nat id) = Some (x, bs)).
  { unfold cl_vote in EV. cbv zeta in EV. destruct (id <? 0); [discriminate|]. destruct (nth_error (cl_assigns k) (Z.to_nat id)) as [[x bs]|]; [eauto|discriminate]. }
  destruct EX as (x & bs & EX). cbn [willing] in WI. destruct (WI k x bs Ek EX) as [KP RN].
  destruct (C64_vote_counted S OK H G GOK y V b k id x bs f CR O NN IT KP ID EX RN) as (m0 & t & EV0 & MD & EN & LA). rewrite EV in EV0. injection EV0 as <-.
  assert (HK : good S x /\ mget (co_ecomms (y_coord y)) t <> None).
  { destruct (h_held _ _ _ HO b k Ek) as [[_ Z]|[Z|Z]].
    - intros Z. rewrite Z in EX. now destruct (Z.to_nat id).
    - destruct (Z x bs (nth_error_In _ _ EX)) as [(F1 & n & F2 & F3) _]. rewrite EN in F2. injection F2 as <-. now split.
    - now destruct O as (_ & N & _).
    - exfalso. destruct Z as (z & J & T & _). destruct O as (O1 & N & _). apply N. split; [assumption|]. eauto. }
  destruct HK as [GX TT]. destruct (nym_owner y V t R O TT) as (q & Iq & Eq). set (d := if 0 <? f then 1 else -1) in *.
  assert (EW : mType m = Net.VOTE /\ get_bytes (mParams m) "assignment"%str = Some (enc_assignment S x) /\ get_int (mParams m) "feedback"%str = Some d).
  { unfold cl_vote in EV. cbv zeta in EV. destruct (id <? 0); [discriminate|]. rewrite EX in EV. destruct (msg_vote _); [|discriminate]. injection EV as <-. repeat split. }
  destruct EW as (MT & M1 & M2).
  assert (W : forall t', worth t' m = if t =? t' then d else 0).
  { intros t'. unfold worth. rewrite M1, (assignment_round_trip S x OK (proj1 GX)), EN, M2. reflexivity. }
  assert (EK : cast S y V (ACommand b (CVote id f)) = [(q, d)]).
  { unfold cast. rewrite Ek, EX. cbn [fst]. rewrite EN. now rewrite (owner_spec y V t q I Iq Eq). }
  assert (BM : ballot (y_coord y) m = true) by now apply ballot_spec.
  cbn [filter] in EB. rewrite BM in EB. rewrite EK.
  assert (ED : y_coord y' = y_coord y /\ y_clients y' = y_clients y).
  { cbn [sys_step] in E. rewrite Ek in E. cbn [cl_command] in E. rewrite EV in E. injection E as <-. now split. }
  destruct ED as [ED ECL].
  constructor.
  - intros w Iw. apply in_app_or in Iw. destruct Iw as [Iw|[<-|[]]]; [now apply T1|]. cbn [fst snd]. split; [assumption|]. unfold d. destruct (0 <? f); tauto.
  - intros z Iz. rewrite EB in Iz. apply (countable_step y V (ACommand b (CVote id f)) y' z GU eq_refl E SR). apply in_app_or in Iz. destruct Iz as [Iz|[<-|[]]]; [now apply T2|].
    exists t, d. split; [unfold d; destruct (0 <? f); tauto|]. split; [assumption|]. split; [assumption|]. intros y1 V1 cr X. rewrite (LA y1 V1 cr X). reflexivity.
  - intros _ _ N. contradiction.
  - intros _ t'. rewrite ED, EB, !app_length. cbn [length]. specialize (T4 O t'). lia.
  - intros _ c kc Ec. rewrite ECL in Ec. rewrite NY, ED. destruct (T5 O c kc Ec) as (v & r & J1 & J2). exists v, r. split; [assumption|].
    unfold flight. rewrite EB, map_app, zsum_app, votes_for_app. fold (flight y (nym_of S y (cl_pub kc))). cbn [map]. unfold votes_for at 2. cbn [map fst snd].
    change (zsum [?z]) with (z + 0). rewrite W.
    assert (X : (t =? nym_of S y (cl_pub kc)) = (q =? cl_pub kc)).
    { destruct (Z.eqb_spec q (cl_pub kc)) as [->|N]; [apply Z.eqb_eq; now symmetry|]. apply Z.eqb_neq. intros Z. apply N.
      apply (nym_inj y V q (cl_pub kc) I Iq); [|congruence]. apply in_map_iff. now exists (cl_pub kc, (v, r)). }
    rewrite X. lia.
  - intros N. contradiction.
Qed.

(** ** Between rounds *)
Lemma tail_step y V L a y' : reach S H G y V -> hon S G y -> tally y V L -> guard S y V a -> ~ open_round y -> sys_step S H G y a = Some y' ->
  co_status (y_coord y') = CO_MESSAGE -> ~ ending y' -> co_diffs (y_coord y') = [].
Proof.
  intros R HO T GU N E ST NE. pose proof (reach_inv S OK H G GOK y V R) as I.
  assert (NB : is_begin a = false).
  { destruct (is_begin a) eqn:EB; [|reflexivity]. exfalso. destruct a as [| | |e|]; try discriminate EB. destruct e as [| |fakes ord| |]; try discriminate EB.
    destruct (due_begin S H G y V fakes ord y' I GU E) as (_ & _ & _ & X & _). rewrite ST in X. discriminate X. }
  assert (NC : ~ closing y).
  { intros C. pose proof (closing_step S H G y V a y' I C GU NB E) as [C'|C']; [rewrite ST in C'; discriminate C'|contradiction]. }
  destruct (Z.eq_dec (co_status (y_coord y)) CO_MESSAGE) as [SM|NM].
  { pose proof (t_tail _ _ _ T SM (fun X => NC (or_intror X)) N) as D0.
    destruct (diffs_step y a y' E) as [ED|(i & cr & sr & chal & m & -> & Em & D & [[TM _]|[_ X]])]; [congruence| |assumption].
    exfalso. apply N. apply (h_open _ _ _ HO m); [eapply nth_error_In; exact Em|]. right. now split. }
  destruct a as [b priv rk|b priv s|i cr sr chal|e|b cmd]; cbn [sys_step] in E.
  - destruct GU.
  - destruct (keq b _); [discriminate|]. destruct (mget (y_servers y) b); [discriminate|]. destruct (mget (y_clients y) b); [discriminate|]. injection E as <-. contradiction.
  - destruct (nth_error (y_msgs y) i) as [m|] eqn:Em; [|discriminate]. cbn zeta in E.
    destruct (keq (mDst m) _) as [ED|ND].
    + destruct (co_handle _ _ _ _ _ _ _) as [[c' out]|] eqn:EH; [|discriminate]. injection E as <-. cbn [y_coord] in ST.
      destruct (Z.eq_dec (mType m) Net.ROUND_END) as [TM|NT].
      * rewrite TM in EH. change (co_handle S G (y_coord y) Net.ROUND_END (mParams m) (mSrc m) cr) with (co_round_end S G (y_coord y) (mParams m) cr) in EH.
        unfold co_round_end in EH. cbv zeta in EH. odestruct EH. injection EH as <- <-. discriminate ST.
      * destruct (co_status_step S H G _ _ _ _ _ _ _ EH NT) as [[X|[TM _]] _]; [congruence|]. cbn [y_coord].
        rewrite TM in EH. change (co_announcement S (y_coord y) (mParams m) = Some (c', out)) in EH. unfold co_announcement in EH. cbv zeta in EH. odestruct EH. injection EH as <- <-. reflexivity.
    + destruct (mget (y_servers y) (mDst m)).
      * destruct (sv_handle _ _ _ _ _ _ _ _) as [[s' out]|]; [|discriminate]. injection E as <-. contradiction.
      * destruct (mget (y_clients y) (mDst m)); [|discriminate]. destruct (cl_handle _ _ _ _ _ _) as [[k' out]|]; [|discriminate]. injection E as <-. contradiction.
  - destruct e as [ty p src rn| |fakes ord| |ord rs]; try (destruct GU; fail); try discriminate NB.
    + cbn [is_loop co_step begin_vote] in E. injection E as <-. contradiction.
    + elim NM. apply GU.
  - destruct (mget (y_clients y) b); [|discriminate]. destruct (cl_command _ _ _ _); [|discriminate]. injection E as <-. contradiction.
Qed.

Lemma no_ballots y : hon S G y -> ~ open_round y -> ballots y = [].
Proof.
  intros HO N. apply filter_none. intros m Im. destruct (ballot (y_coord y) m) eqn:B; [|reflexivity]. exfalso. apply ballot_spec in B.
  apply N. apply (h_open _ _ _ HO m Im). right. exact B.
Qed.
Lemma tally_between y V L a y' : reach S H G y V -> hon S G y -> tally y V L -> guard S y V a -> conduct S y a -> ~ open_round y -> sys_step S H G y a = Some y' ->
  tally y' (ledger_step S y V a) L.
Proof.
  intros R HO T GU CD N E. pose proof (reach_inv S OK H G GOK y V R) as I.
  assert (NE : is_end a = false).
  { destruct (is_end a) eqn:EE; [|reflexivity]. exfalso. destruct a as [| | |[| | | |ord rs]|]; try discriminate EE. apply N. destruct GU as (G1 & G2 & _).
    apply (opening_settled S G y V I); [|assumption]. split; [rewrite G1; discriminate|]. intros m Im TM. unfold settled in G2.
    assert (X : In m (core (y_msgs y))) by (apply core_in; split; [assumption|unfold inert; rewrite TM; reflexivity]). rewrite G2 in X. destruct X. }
  assert (NB : ballots y' = []).
  { pose proof (no_ballots y HO N) as B0. pose proof (ballots_step y V a y' I GU E) as B1. destruct a as [b priv rk|b priv s|i cr sr chal|e|b cmd]; try (now rewrite B1).
    - destruct B1 as (m & b1 & b2 & _ & -> & B2). rewrite B0 in B2. symmetry in B2. apply app_eq_nil in B2. destruct B2 as [-> B2]. apply app_eq_nil in B2. destruct B2 as [_ ->]. reflexivity.
    - destruct CD as (O & _). contradiction. }
  pose proof (tail_step y V L a y' R HO T GU N E) as TL. destruct T as [T1 T2 T3 T4 T5 T6]. specialize (T6 N).
  assert (VAL : forall b k', mget (y_clients y') b = Some k' -> exists r, In (cl_pub k', (starting_credit + votes_for L (cl_pub k'), r)) (ledger_step S y V a)).
  { intros b k' Ek'. destruct (clients_step y a y' E b k' Ek') as [(k & Ek & EP)|(_ & priv & s & -> & EP)].
    - rewrite EP. destruct (T6 b k Ek) as [r J]. exact (keep_value S y V a _ _ _ NE J).
    - rewrite EP. destruct GU as (_ & _ & NI). exists 0. rewrite votes_for_none, Z.add_0_r; [cbn [ledger_step]; apply in_or_app; right; now left|].
      intros J. apply NI. apply in_map_iff in J. destruct J as (w & <- & Iw). now apply T1. }
  assert (DZ : open_round y' -> co_diffs (y_coord y') = []) by (intros (O1 & O2 & _); now apply TL).
  constructor.
  - intros w Iw. destruct (T1 w Iw) as [X1 X2]. split; [|assumption]. now apply ledger_keys.
  - rewrite NB. intros m [].
  - intros X1 X2 _. now apply TL.
  - intros O t. unfold rep_diff. rewrite (DZ O), NB. cbn. lia.
  - intros O b k' Ek'. destruct (VAL b k' Ek') as [r J]. eexists. exists r. split; [exact J|]. unfold rep_diff, flight. rewrite (DZ O), NB. cbn. lia.
  - intros _. exact VAL.
Qed.

(** The end of a round. *)
Lemma tally_end y V L ord rs y' : reach S H G y V -> tally y V L -> guard S y V (ALoop (EEnd ord rs)) -> conduct S y (ALoop (EEnd ord rs)) -> open_round y ->
  sys_step S H G y (ALoop (EEnd ord rs)) = Some y' -> tally y' (ledger_step S y V (ALoop (EEnd ord rs))) L.
Proof.
  intros R [T1 T2 T3 T4 T5 T6] GU CD O E. pose proof (reach_inv S OK H G GOK y V R) as I. pose proof (ballots_step y V _ y' I GU E) as B1. cbn beta iota in B1.
  destruct (due_end S H G y V ord rs y' I GU E) as (_ & _ & _ & EN).
  assert (NB : ballots y = []).
  { apply filter_none. intros m Im. destruct (ballot (y_coord y) m) eqn:B; [|reflexivity]. exfalso. apply ballot_spec in B. apply (CD m Im). right. exact B. }
  assert (NO : ~ open_round y') by (intros (_ & X & _); contradiction).
  constructor.
  - intros w Iw. destruct (T1 w Iw) as [X1 X2]. split; [|assumption]. now apply ledger_keys.
  - rewrite B1, NB. intros m [].
  - intros _ X. contradiction.
  - intros X. contradiction.
  - intros X. contradiction.
  - intros _ b k' Ek'. destruct (clients_step y _ y' E b k' Ek') as [(k & Ek & EP)|(_ & priv & s & X & _)]; [|discriminate X].
    rewrite EP. destruct (T5 O b k Ek) as (v & r & J1 & J2). unfold flight in J2. rewrite NB in J2. cbn [map] in J2. change (zsum []) with 0 in J2. rewrite Z.add_0_r in J2.
    rewrite <- J2. cbn [ledger_step]. eexists. apply in_map_iff. exists (cl_pub k, (v, r)). split; [|assumption]. cbn [fst snd]. reflexivity.
Qed.

Lemma tally_step y V L a y' : fair S H G y V L -> fo_nonneg (co_fb (y_coord y)) -> guard S y V a -> conduct S y a -> willing S y a ->
  sys_step S H G y a = Some y' -> Z.of_nat (length L) < 2 ^ 63 -> tally y V L -> tally y' (ledger_step S y V a) (L ++ cast S y V a).
Proof.
  intros FA NN GU CD WI E BD T. pose proof (calm_is_reach S H G y V (fair_calm _ _ _ FA)) as R.
  pose proof (orderly_hon S OK H G GOK y V (fair_orderly _ _ _ FA) NN) as HO. pose proof (reach_inv S OK H G GOK y V R) as I.
  destruct (open_dec y) as [O|N].
  2:{ replace (cast S y V a) with (@nil (Z * Z)); [rewrite app_nil_r; now apply tally_between|]. destruct a as [| | | |b []]; try reflexivity. destruct CD as (O & _). contradiction. }
  destruct a as [b priv rk|b priv s|i cr sr chal|e|b cmd].
  - destruct GU.
  - cbn [cast]. rewrite app_nil_r. apply (tally_quiet y V L _ y'); auto; [|exact (ballots_step y V _ y' I GU E)].
    destruct (diffs_step y _ y' E) as [X|(? & ? & ? & ? & ? & X & _)]; [assumption|discriminate X].
  - cbn [cast]. rewrite app_nil_r. destruct (ballots_step y V _ y' I GU E) as (m & b1 & b2 & Em & EB' & EB).
    destruct (ballot (y_coord y) m) eqn:BM; [now apply (tally_vote y V L i cr sr chal m y')|].
    apply (tally_quiet y V L _ y'); auto; [|cbn [app] in EB; congruence].
    destruct (diffs_step y _ y' E) as [X|(i0 & cr0 & sr0 & chal0 & m0 & X & Em0 & D & X2)]; [assumption|]. exfalso. injection X as <- <- <- <-. rewrite Em in Em0. injection Em0 as <-.
    destruct X2 as [[X2 _]|[X2 _]].
    + assert (ballot (y_coord y) m = true) by now apply ballot_spec. congruence.
    + pose proof (open_msgs S H G y V I O) as TY. rewrite Forall_forall in TY. specialize (TY m (nth_error_In _ _ Em)). rewrite X2 in TY. cbn in TY. intuition discriminate.
  - cbn [cast]. rewrite app_nil_r. destruct (is_end (ALoop e)) eqn:EE.
    + destruct e; try discriminate EE. now apply tally_end.
    + apply (tally_quiet y V L _ y'); auto; [|exact (ballots_step y V _ y' I GU E)].
      destruct (diffs_step y _ y' E) as [X|(? & ? & ? & ? & ? & X & _)]; [assumption|discriminate X].
  - destruct cmd as [ba|ind rn|id f]; [| |exact (tally_cast y V L b id f y' FA NN GU CD WI E T)]; cbn [cast]; rewrite app_nil_r; apply (tally_quiet y V L _ y'); auto.
    1,3: destruct (diffs_step y _ y' E) as [X|(? & ? & ? & ? & ? & X & _)]; [assumption|discriminate X].
    + destruct (ballots_step y V _ y' I GU E) as (k & out & _ & EC & ->). cbn [cl_command] in EC. injection EC as <-. cbn [filter]. rewrite ballot_type by discriminate. apply app_nil_r.
    + destruct (ballots_step y V _ y' I GU E) as (k & out & _ & EC & ->). cbn [cl_command] in EC. destruct (cl_request S G k ind rn) as [[m|]|] eqn:ER; [| |discriminate]; injection EC as <-; [|apply app_nil_r].
      cbn [filter]. destruct (request_fields S G k ind rn m ER) as (TM & _). rewrite ballot_type; [apply app_nil_r|rewrite TM; discriminate].
Qed.

Theorem fair_tally y V L : fair S H G y V L -> fo_nonneg (co_fb (y_coord y)) -> Z.of_nat (length L) < 2 ^ 63 -> tally y V L.
Proof.
  induction 1 as [self a fb trap gammas l y1 y2 F E M NE E2|y V L a y' FA IH GU (CD & PC & WI) E]; intros NN BD.
  - assert (R : reach S H G y2 []) by (eapply r_start; eassumption). pose proof (reach_inv S OK H G GOK y2 [] R) as I.
    assert (NB : ballots y2 = []).
    { cbn [sys_step is_loop co_step co_configure] in E2. injection E2 as <-. unfold ballots. cbn [y_coord y_msgs]. rewrite M. apply filter_none. intros m Im.
      apply ballot_type. cbn [app] in Im. apply to_servers_type in Im. rewrite Im. discriminate. }
    assert (NC : forall b k, mget (y_clients y2) b <> Some k).
    { intros b k Ek. destruct I as [B _]. destruct (b_cl _ _ _ _ _ B b k Ek) as (_ & _ & _ & _ & _ & _ & []). }
    assert (ST : co_status (y_coord y2) <> CO_MESSAGE).
    { cbn [sys_step is_loop co_step co_configure] in E2. injection E2 as <-. discriminate. }
    constructor.
    + intros w [].
    + rewrite NB. intros m [].
    + intros X. contradiction.
    + intros (X & _). contradiction.
    + intros (X & _). contradiction.
    + intros _ b k Ek. now elim (NC b k).
  - assert (NN0 : fo_nonneg (co_fb (y_coord y))) by (unfold co_fb in *; now rewrite <- (sys_static S H G _ _ _ E)).
    rewrite app_length in BD. apply (tally_step y V L a y'); auto; [lia|]. apply IH; [assumption|lia].
Qed.
End Tally.
