(** What becomes of an assignment between the request and its arrival at the client: as long
    as the round is open and nobody else requests under the same pseudonym, either a server
    still owes its signature, or the signed assignment is on its way, or the client holds
    it. *)
From Coq Require Import ZArith Znumtheory Lia List Bool Permutation.
From Coq Require Import Strings.Byte.
From Coq Require String.
From Verif Require Import ZMod Bytes Suite Spec Pedersen ElGamal FujiOkam Equality Codec Maps Net Bridge Client
  Perm SimpleShuffle PairShuffle Server Coordinator History System Chain Prop_Pedersen Prop_Codec Prop_Topology Prop_Chain Round RoundInv
  Prop_Coord Prop_Assign Prop_Round Session Prop_Session Signing Prop_Signing.
Import ListNotations.
Import String.StringSyntax.
Open Scope Z_scope.
Delimit Scope string_scope with str.

(** ** Specification *)
(** Nobody but [a] has a request handled under the pseudonym [nym]. *)
Definition alone (S : suite) (nym : Z) (a : addr) (y : sys) (x : action) : Prop :=
  match x with
  | ADeliver i _ _ _ => forall m bn, nth_error (y_msgs y) i = Some m -> mType m = REQUEST_BRIDGES ->
      mDst m = co_addr (y_coord y) -> get_bytes (mParams m) "nym"%str = Some bn -> dec_point S bn = Some nym -> mSrc m = a
  | _ => True
  end.
(** Later states of the same round, by schedules that post no bridge while signatures on it
    are on their way and under which nobody else requests as [nym]. *)
Inductive calm_later (S : suite) (H : oracle) (G : gob) (nym : Z) (a : addr) : sys -> ledger -> sys -> ledger -> Prop :=
| ca_refl y V : calm_later S H G nym a y V y V
| ca_step y V y1 V1 x y2 : calm_later S H G nym a y V y1 V1 ->
    guard S y1 V1 x -> post_calm S G y1 x -> alone S nym a y1 x -> is_end x = false ->
    sys_step S H G y1 x = Some y2 -> calm_later S H G nym a y V y2 (ledger_step S y1 V1 x).

Section Delivery.
Context (S : suite) (OK : suite_ok S) (H : oracle) (G : gob) (GOK : gob_ok G).

Lemma verify_ind_ext pb fb p q C : get_int p "ind"%str = get_int q "ind"%str ->
  (forall k, In k ["nym"%str; "PCommind"%str; "PCommd"%str; "rind"%str; "FOCommd"%str; "arg_nonneg"%str; "arg_equal"%str] -> get_bytes p k = get_bytes q k) ->
  verify_ind S G pb fb p C = verify_ind S G pb fb q C.
Proof.
  intros EI EB. unfold verify_ind. rewrite EI, (EB "nym"%str), (EB "PCommind"%str), (EB "PCommd"%str), (EB "rind"%str), (EB "FOCommd"%str), (EB "arg_nonneg"%str), (EB "arg_equal"%str);
    [reflexivity|cbn; tauto..].
Qed.

(** The whole of what an accepted request sends. *)
Lemma co_request_sent c p src rn c' out : co_request S G c p src rn = Some (c', out) ->
  (c' = c /\ out = []) \/
  exists ind bn nymR m brs mp, get_bytes p "nym"%str = Some bn /\ dec_point S bn = Some nymR /\ co_reqs c = Some m /\
    verify_ind S G (co_pb c) (co_fb c) p (mget (co_ecomms c) nymR) = Some true /\
    get_bridges (Z.to_nat ind) (crBridges rn) (co_bridges c) = (brs, mp) /\
    let l := map (fun b : bytes * option Z => Assign (Some nymR) (fst b) (snd b)) brs in
    open_assignments S (set_bridges (set_reqs c (Some (mset m nymR src))) mp) l = Some c' /\
    ((l = [] /\ out = []) \/
     (exists q, l <> [] /\ out = to_servers c SIGN_ASSIGNMENTS (("assignments"%str, VBytes (enc_assignments S G l)) :: q) /\
        get_bytes q "nym"%str = Some bn /\
        forall pb fb C, verify_ind S G pb fb (("assignments"%str, VBytes (enc_assignments S G l)) :: q) C = verify_ind S G pb fb p C)).
Proof.
  intros E. unfold co_request in E.
  destruct (get_int p "ind"%str) as [ind|] eqn:E1; [|discriminate].
  destruct (get_bytes p "signature"%str) as [sig|] eqn:E2; [|discriminate].
  destruct (get_bytes p "nym"%str) as [bn|] eqn:E3; [|discriminate].
  destruct (dec_point S bn) as [nymR|] eqn:E4; [|discriminate].
  destruct (msg_request p) as [m|] eqn:E5; [|discriminate].
  destruct (negb (eg_verify S m nymR sig (co_G c))); [injection E as <- <-; now left|].
  destruct (verify_ind S G (co_pb c) (co_fb c) p (mget (co_ecomms c) nymR)) as [ok|] eqn:EV; [|discriminate].
  destruct ok; cbn [negb] in E; [|injection E as <- <-; now left].
  destruct (co_reqs c) as [reqs|] eqn:E6; [|discriminate]. cbv zeta in E. unfold assign_bridges in E. cbn [co_bridges set_reqs] in E.
  destruct (get_bridges (Z.to_nat ind) (crBridges rn) (co_bridges c)) as [brs mp] eqn:E7.
  right. exists ind, bn, nymR, reqs, brs, mp. do 4 (split; [assumption || reflexivity|]). split; [assumption|].
  cbv zeta. set (l := map _ brs) in *. destruct l as [|a0 l0] eqn:El.
  - injection E as <- <-. split; [reflexivity|]. now left.
  - destruct (open_assignments S _ (a0 :: l0)) as [c3|] eqn:EO; [|discriminate].
    destruct (get_bytes p "FOCommd"%str) as [fo|] eqn:F1; [|discriminate]. destruct (get_bytes p "PCommd"%str) as [pd|] eqn:F2; [|discriminate].
    destruct (get_bytes p "PCommind"%str) as [pi|] eqn:F3; [|discriminate]. destruct (get_bytes p "rind"%str) as [ri|] eqn:F4; [|discriminate].
    destruct (get_bytes p "arg_nonneg"%str) as [nn|] eqn:F5; [|discriminate]. destruct (get_bytes p "arg_equal"%str) as [eq|] eqn:F6; [|discriminate].
    injection E as <- <-. split; [reflexivity|]. right. eexists.
    match type of EO with open_assignments S ?c1 ?l1 = _ => destruct (open_total S l1 c1) as (x & Hx); rewrite Hx in EO; injection EO as <- end.
    split; [discriminate|]. split; [reflexivity|]. split; [reflexivity|]. intros pb fb C. apply verify_ind_ext.
    + rewrite E1. reflexivity.
    + intros k I. cbn [In] in I. repeat (destruct I as [<-|I]; [first [rewrite E3|rewrite F1|rewrite F2|rewrite F3|rewrite F4|rewrite F5|rewrite F6]; reflexivity|]). destruct I.
Qed.

Context (K : addr -> Z) (cst : costatic) (sl : list (addr * Z)).
Let cfull := full S K cst sl.

(** The message that hands [x] to [d]. *)
Definition hands (d : addr) (x : assignment) (m : msg) : Prop :=
  mType m = GOT_SIGNS /\ mDst m = d /\
  mParams m = [("assignment"%str, VBytes (enc_assignment S x)); ("signatures"%str, VBytes (genc_2d G (cfull x)));
    ("signature"%str, VBytes (eg_sign S (example_nonce S) (enc_assignment S x ++ genc_2d G (cfull x)) (cs_priv cst) (Some pt_new)))].

(** The signatures of one server are handled. *)
Lemma got_track j a rq : nth_error (map fst sl) j = Some a -> forall l c sigs out0 c' out P,
  got_loop S G c j rq sigs l out0 = Some (c', out) -> co_servers c = sl -> co_static c = cst -> sigs = map (ssig S K a) l ->
  signs S K cst sl (co_asigs c) (co_bridges c) ((a, l) :: P) ->
  (forall m, In m out0 -> In m out) /\
  (forall b, ~ In b (map asAddr l) -> mget (co_asigs c') b = mget (co_asigs c) b) /\
  (forall x, In x l -> (exists m d, rq = Some d /\ In m out /\ hands d x m) \/
     exists ss n ss' n', mget (co_asigs c) (asAddr x) = Some (ss, n) /\ mget (co_asigs c') (asAddr x) = Some (ss', n') /\
       slot ss' j = 1%nat /\ (forall i, i <> j -> slot ss' i = slot ss i) /\
       exists i, (i < length sl)%nat /\ slot ss' i = 0%nat).
Proof.
  intros Ha. induction l as [|x l IH]; intros c sigs out0 c' out P E ES ET EG Q; cbn [got_loop] in E.
  - injection E as <- <-. split; [auto|]. split; [reflexivity|]. intros x [].
  - subst sigs. cbn [map nth_error tl] in E.
    destruct (add_asig c (asAddr x) j (ssig S K a x)) as [c1|] eqn:EA; [|discriminate]. unfold add_asig in EA.
    destruct (mget (co_asigs c) (asAddr x)) as [[ss n]|] eqn:EM; [|discriminate].
    destruct (set_nth ss j (Some (ssig S K a x))) as [ss'|] eqn:ESN; [|discriminate]. injection EA as <-.
    destruct (signs_add _ _ _ _ _ _ _ _ _ _ _ _ _ _ Ha Q EM ESN) as [N Q'].
    pose proof (q_nd _ _ _ _ _ _ _ Q a (x :: l) (or_introl eq_refl)) as ND. cbn [map] in ND. inversion ND as [|? ? NI ND']; subst.
    set (c1 := set_asigs c (mset (co_asigs c) (asAddr x) (ss', n + 1))) in *.
    assert (KEEP : forall b, b <> asAddr x -> mget (co_asigs c1) b = mget (co_asigs c) b).
    { intros b Nb. unfold c1. cbn [co_asigs set_asigs]. apply mget_mset_ne. congruence. }
    assert (MINE : mget (co_asigs c1) (asAddr x) = Some (ss', n + 1)) by (unfold c1; cbn [co_asigs set_asigs]; apply mget_mset_eq).
    assert (REST : forall cz z sz nz, co_asigs cz = co_asigs c1 -> mget (co_asigs cz) (asAddr z) = Some (sz, nz) -> In z l ->
      mget (co_asigs c) (asAddr z) = Some (sz, nz)).
    { intros cz z sz nz Ez Mz Iz. rewrite <- KEEP, <- Ez; [assumption|]. intros Eq. apply NI. rewrite <- Eq. now apply in_map. }
    destruct (asigs_done c1 (asAddr x)) eqn:ED.
    + cbv zeta in E. set (c2 := set_bridges c1 _) in *. set (pm := [("assignment"%str, _); _]) in *.
      destruct (msg_got pm) as [mg|] eqn:EMG; [|discriminate]. destruct rq as [d|]; cbn [send] in E; [|discriminate].
      match type of E with got_loop _ _ _ _ _ _ _ (out0 ++ [?m]) = _ => set (ms := m) in * end.
      assert (Q2 : signs S K cst sl (co_asigs c2) (co_bridges c2) ((a, l) :: P)).
      { eapply signs_weaken; [exact Q'|reflexivity| |intros p I; now right|lia].
        intros b nym. unfold c2, c1. cbn [co_bridges set_bridges set_asigs]. rewrite mget_mset. destruct (keq b (asAddr x)); [discriminate|auto]. }
      destruct (IH c2 _ _ _ _ P E ES ET eq_refl Q2) as (R1 & R2 & R3). split; [|split].
      * intros m I. apply R1. apply in_or_app. now left.
      * intros b Nb. cbn [map In] in Nb. rewrite R2 by tauto. apply KEEP. intros ->. tauto.
      * intros z [<-|Iz].
        -- left. exists ms, d. split; [reflexivity|]. split; [apply R1; apply in_or_app; right; now left|]. unfold hands. split; [reflexivity|]. split; [reflexivity|].
           pose proof (n_cnt _ _ _ _ _ _ _ _ _ N) as NC. pose proof (n_len _ _ _ _ _ _ _ _ _ N) as NL.
           assert (GA : get_asigs c2 (asAddr x) = cfull x).
           { unfold get_asigs, c2, c1. cbn [co_asigs set_bridges set_asigs]. rewrite mget_mset_eq. apply (flat_full _ _ _ _ _ _ _ _ _ N).
             unfold asigs_done in ED. rewrite MINE in ED. change (co_servers c1) with (co_servers c) in ED. rewrite ES in ED. apply Z.eqb_eq in ED. lia. }
           unfold ms. cbn [mParams]. subst pm. rewrite GA in EMG |- *. cbn [app].
           unfold msg_got in EMG. cbv [get_bytes lookup String.eqb Ascii.eqb Bool.eqb] in EMG. injection EMG as <-.
           unfold co_sign, co_priv. change (co_static c2) with (co_static c). now rewrite ET.
        -- destruct (R3 z Iz) as [R|(s1 & n1 & s2 & n2 & M1 & M2)]; [now left|]. right. exists s1, n1, s2, n2. split; [|exact M2].
           now apply (REST c2).
    + destruct (IH c1 _ _ _ _ P E ES ET eq_refl Q') as (R1 & R2 & R3). split; [assumption|]. split.
      * intros b Nb. cbn [map In] in Nb. rewrite R2 by tauto. apply KEEP. intros ->. tauto.
      * intros z [<-|Iz].
        -- right. exists ss, n, ss', (n + 1). split; [assumption|]. split; [now rewrite R2|].
           destruct (set_nth_spec _ _ _ _ ESN) as [Lj Nj]. split; [unfold slot; now rewrite Nj, Nat.eqb_refl|]. split.
           { intros i Ni. unfold slot. rewrite Nj. now rewrite (proj2 (Nat.eqb_neq _ _) Ni). }
           pose proof (n_cnt _ _ _ _ _ _ _ _ _ N) as NC. pose proof (n_len _ _ _ _ _ _ _ _ _ N) as NL. pose proof (n_own _ _ _ _ _ _ _ _ _ N) as NO.
           unfold asigs_done in ED. rewrite MINE in ED. change (co_servers c1) with (co_servers c) in ED. rewrite ES in ED. apply Z.eqb_neq in ED.
           assert (LT : (filled ss' < length ss')%nat) by (pose proof (filled_le ss'); lia).
           assert (EX : exists i, (i < length ss')%nat /\ nth_error ss' i = Some None).
           { clear - LT. induction ss' as [|[o|] r IHr]; cbn [length] in *.
             - unfold filled in LT. cbn in LT. lia.
             - destruct IHr as (i & Li & Ei); [unfold filled in *; cbn in LT |- *; lia|]. exists (Datatypes.S i). split; [lia|exact Ei].
             - exists 0%nat. split; [lia|reflexivity]. }
           destruct EX as (i & Li & Ei). exists i. split; [|unfold slot; now rewrite Ei].
           destruct (Nat.eq_dec i (length sl)) as [->|]; [congruence|lia].
        -- destruct (R3 z Iz) as [R|(s1 & n1 & s2 & n2 & M1 & M2)]; [now left|]. right. exists s1, n1, s2, n2. split; [|exact M2].
           now apply (REST c1).
Qed.

(** ** Following one assignment *)
Definition verifies (c : coord) (p : params) : Prop :=
  exists bn nm, get_bytes p "nym"%str = Some bn /\ dec_point S bn = Some nm /\
    verify_ind S G (co_pb c) (co_fb c) p (mget (co_ecomms c) nm) = Some true.
(** A message by which the signature of the server at [sa] on [x] is still to come. *)
Definition owes (c : coord) (nym : Z) (x : assignment) (sa : addr) (m : msg) : Prop :=
  In x (names S G m) /\ (forall z, In z (names S G m) -> asNymR z = Some nym) /\
  ((mType m = SIGN_ASSIGNMENTS /\ mDst m = sa /\ verifies c (mParams m)) \/
   (mType m = GOT_SIGNS /\ mSrc m = sa /\ mDst m = cs_addr cst /\ get_bool (mParams m) "success"%str = Some true)).
Definition held (y : sys) (a : addr) (x : assignment) : Prop :=
  exists k bs, mget (y_clients y) a = Some k /\ In (x, bs) (cl_assigns k).
Definition waits (y : sys) (nym : Z) (x : assignment) : Prop :=
  exists ss n, mget (co_asigs (y_coord y)) (asAddr x) = Some (ss, n) /\
    (exists i, (i < length sl)%nat /\ slot ss i = 0%nat) /\
    forall j sa, nth_error (map fst sl) j = Some sa -> slot ss j = 1%nat \/ exists m, In m (y_msgs y) /\ owes (y_coord y) nym x sa m.
Record tracked (nym : Z) (a : addr) (x : assignment) (y : sys) : Prop := {
  t_req : exists mm, co_reqs (y_coord y) = Some mm /\ mget mm nym = Some a;
  t_nym : asNymR x = Some nym;
  t_cl : exists k, mget (y_clients y) a = Some k;
  t_where : held y a x \/ (exists m, In m (y_msgs y) /\ hands a x m) \/ waits y nym x
}.

Lemma owes_same c c' nym x sa m : co_static c' = co_static c -> co_pb c' = co_pb c -> co_ecomms c' = co_ecomms c ->
  owes c nym x sa m -> owes c' nym x sa m.
Proof.
  intros E1 E2 E3 (O1 & O2 & O3). split; [assumption|]. split; [assumption|]. destruct O3 as [(T & D & bn & nm & V1 & V2 & V3)|O3]; [|now right].
  left. split; [assumption|]. split; [assumption|]. exists bn, nm. unfold co_fb. now rewrite E1, E2, E3.
Qed.

Lemma slot_le ss j : (slot ss j <= 1)%nat.
Proof. unfold slot. destruct (nth_error ss j) as [[]|]; lia. Qed.

(** A client keeps what it holds until the round ends. *)
Lemma cl_keeps k ty p chal k' out : cl_handle S G k ty p chal = Some (k', out) -> ty <> Net.ROUND_END ->
  forall xb, In xb (cl_assigns k) -> In xb (cl_assigns k').
Proof.
  intros E N xb I. unfold cl_handle in E.
  destruct (ty =? CLIENT_REGISTER_CONFIRMATION). { unfold cl_register_confirmation in E. odestruct E. now injection E as <- <-. }
  destruct (ty =? INIT_PEDERSEN_R). { unfold cl_init_r in E. odestruct E. now injection E as <- <-. }
  destruct (ty =? GN_HONESTY_ANSWER). { unfold cl_honesty_answer in E. odestruct E. now injection E as <- <-. }
  destruct (ty =? ANNOUNCEMENT_FINALIZE). { unfold cl_announce_final in E. cbv zeta in E. odestruct E. now injection E as <- <-. }
  destruct (ty =? GOT_SIGNS). { unfold cl_got_signatures in E. odestruct E; injection E as <- <-; [assumption|]. cbn [cl_assigns]. apply in_or_app. now left. }
  destruct (ty =? Net.VOTE); [now injection E as <- <-|]. destruct (Z.eqb_spec ty Net.ROUND_END); [contradiction|].
  destruct (ty =? BCAST_PEDERSEN_RDIFF). { unfold cl_rdiff in E. cbv zeta in E. odestruct E; now injection E as <- <-. }
  destruct (ty =? VOTE_REPLY). { unfold cl_vote_reply in E. odestruct E. now injection E as <- <-. }
  now injection E as <- <-.
Qed.

(** A client takes an assignment that is handed to it. *)
Lemma cl_takes k x m a chal k' out : good S x -> hands a x m -> response_nonzero S (cs_priv cst) (enc_assignment S x ++ genc_2d G (cfull x)) ->
  cl_handle S G k (mType m) (mParams m) chal = Some (k', out) -> exists bs, In (x, bs) (cl_assigns k').
Proof.
  intros GX (T & _ & EP) RN E. rewrite T, EP in E.
  change (cl_got_signatures S k [("assignment"%str, VBytes (enc_assignment S x)); ("signatures"%str, VBytes (genc_2d G (cfull x)));
    ("signature"%str, VBytes (eg_sign S (example_nonce S) (enc_assignment S x ++ genc_2d G (cfull x)) (cs_priv cst) (Some pt_new)))] = Some (k', out)) in E.
  unfold cl_got_signatures in E. change (msg_got _) with (Some (enc_assignment S x ++ genc_2d G (cfull x))) in E.
  unfold get_bytes in E. cbn [lookup String.eqb Ascii.eqb Bool.eqb] in E.
  rewrite (zero_base_sign S OK _ _ _ RN) in E. cbn [negb] in E. rewrite (assignment_round_trip S x OK (proj1 GX)) in E. injection E as <- <-.
  eexists. cbn [cl_assigns]. apply in_or_app. right. left. reflexivity.
Qed.

Lemma server_index_some a l : forall i, In a (map fst l) -> server_index_from i l a <> None.
Proof.
  induction l as [|[b pk] l IH]; intros i I; cbn [server_index_from map fst] in *; [destruct I|].
  destruct (keq b a); [discriminate|]. apply IH. destruct I as [->|I]; [contradiction|assumption].
Qed.
Lemma in_pick {A} (l1 : list A) m l2 x : In x (l1 ++ m :: l2) -> x = m \/ In x (l1 ++ l2).
Proof. intros I. apply in_app_or in I. cbn [In] in I. rewrite in_app_iff. intuition auto. Qed.

Lemma track_step nym a x y V act y' : reach S H G y V -> open_round y -> bridges_ok S (co_bridges (y_coord y)) -> sig_inv S G K cst sl y ->
  fo_nonneg (co_fb (y_coord y)) -> good S x ->
  response_nonzero S (cs_priv cst) (enc_assignment S x ++ genc_2d G (cfull x)) ->
  tracked nym a x y -> guard S y V act -> alone S nym a y act -> is_end act = false ->
  sys_step S H G y act = Some y' -> tracked nym a x y'.
Proof.
  intros R O HB SI NN GX RN TR GU AL NE E. pose proof (reach_inv S OK H G GOK y V R) as IV. pose proof (open_msgs S H G y V IV O) as OT.
  destruct (open_step S H G y V act y' IV O GU NE E) as [O' SR]. destruct (view_eq y y' SR) as (W1 & W2 & W3 & W4 & W5 & W6 & W7).
  assert (OW : forall sa m, owes (y_coord y) nym x sa m -> owes (y_coord y') nym x sa m).
  { intros sa m. now apply owes_same. }
  destruct SI as [Z1 Z2 Z3 Z4 Z5 Z6 Z7]. destruct IV as [BA PH]. destruct TR as [(mm & TR1 & TR2) TN (k0 & TK) TW].
  assert (CA : co_addr (y_coord y) = cs_addr cst) by (unfold co_addr; now rewrite Z1).
  destruct (b_cl _ _ _ _ _ BA a k0 TK) as (_ & _ & _ & NA & NSV & _).
  (* what happens to a waiting assignment when the table of signatures is as before *)
  assert (WK : forall M, co_asigs (y_coord y') = co_asigs (y_coord y) -> (forall m sa, In m (y_msgs y) -> owes (y_coord y) nym x sa m -> In m (y_msgs y') \/ M sa m) ->
    (forall m sa, M sa m -> exists m', In m' (y_msgs y') /\ owes (y_coord y') nym x sa m') -> waits y nym x -> waits y' nym x).
  { intros M EA EM EN (ss & n & WA & WB & WC). exists ss, n. rewrite EA. split; [assumption|]. split; [assumption|]. intros j sa Ej.
    destruct (WC j sa Ej) as [WC1|(m & Im & Om)]; [now left|]. right. destruct (EM m sa Im Om) as [Im'|Mm]; [exists m; auto|now apply (EN m)]. }
  destruct act as [b priv rk|b priv s|i cr sr chal|e|b cmd]; cbn [sys_step] in E.
  - destruct GU.
  - destruct (keq b _); [discriminate|]. destruct (mget (y_servers y) b); [discriminate|].
    destruct (mget (y_clients y) b) as [kb|] eqn:Eb; [discriminate|]. injection E as <-.
    assert (Nab : a <> b) by congruence.
    constructor; cbn [y_coord y_clients y_msgs] in *.
    + now exists mm.
    + assumption.
    + exists k0. rewrite mget_mset_ne by congruence. assumption.
    + destruct TW as [(k & bs & T1 & T2)|[(m & T1 & T2)|TW]].
      * left. exists k, bs. cbn [y_clients]. rewrite mget_mset_ne by congruence. now split.
      * right. left. exists m. split; [apply in_or_app; now left|assumption].
      * right. right. apply (WK (fun _ _ => False)); try reflexivity; [|tauto|assumption]. intros m sa Im _. left. apply in_or_app. now left.
  - destruct (nth_error (y_msgs y) i) as [m|] eqn:Em; [|discriminate]. cbn zeta in E.
    assert (Im : In m (y_msgs y)) by (eapply nth_error_In; exact Em).
    assert (Tm : In (mType m) open_types) by (rewrite Forall_forall in OT; now apply OT).
    assert (Fm : fine S G K cst sl m) by (rewrite Forall_forall in Z4; now apply Z4).
    cbn [alone] in AL. specialize (AL m).
    destruct (pick_split i _ m Em) as (l1 & l2 & EM & ER). rewrite ER in E.
    destruct (keq (mDst m) _) as [ED|ND].
    + destruct (co_handle _ _ _ _ _ _ _) as [[c' out]|] eqn:EH; [|discriminate]. injection E as <-.
      cbn [y_coord y_servers y_clients y_msgs] in *.
      assert (NH : ~ hands a x m) by (intros (_ & D & _); congruence).
      assert (NOS : forall sa, owes (y_coord y) nym x sa m -> mType m = GOT_SIGNS).
      { intros sa (_ & _ & [(T & D & _)|(T & _)]); [|assumption]. exfalso. destruct Fm as (FS & _). destruct (FS T) as (_ & IA & _).
        rewrite ED in IA. rewrite <- Z2 in IA. apply (b_srv _ _ _ _ _ BA) in IA. apply IA. apply (b_self _ _ _ _ _ BA). }
      assert (OTHER : co_asigs c' = co_asigs (y_coord y) -> (forall sa, ~ owes (y_coord y) nym x sa m) ->
        (exists mm', co_reqs c' = Some mm' /\ mget mm' nym = Some a) -> tracked nym a x (Sys c' (y_servers y) (y_clients y) ((l1 ++ l2) ++ out) (y_log y))).
      { intros EA NO RQ. constructor; cbn [y_coord y_clients y_msgs]; [assumption|assumption|now exists k0|].
        destruct TW as [TW|[(m' & T1 & T2)|TW]]; [now left| |].
        - right. left. exists m'. split; [|assumption]. rewrite EM in T1. apply in_or_app. left. destruct (in_pick _ _ _ _ T1) as [->|]; [contradiction|assumption].
        - right. right. apply (WK (fun _ _ => False)); try assumption; [|tauto]. intros m' sa I' O1. left. rewrite EM in I'. apply in_or_app. left.
          destruct (in_pick _ _ _ _ I') as [->|]; [destruct (NO sa O1)|assumption]. }
      destruct (Z.eq_dec (mType m) REQUEST_BRIDGES) as [T|N2].
      * (* a request *)
        rewrite T in EH. change (co_request S G (y_coord y) (mParams m) (mSrc m) cr = Some (c', out)) in EH.
        destruct (co_request_sent _ _ _ _ _ _ EH) as [[-> ->]|(ind & bn & nymR & rq & brs & mp & EB & EN & ERQ & _ & EG & EO & _)].
        { apply OTHER; [reflexivity| |now exists mm]. intros sa Ow. apply NOS in Ow. rewrite T in Ow. discriminate. }
        cbv zeta in EO. set (l := map _ brs) in *. destruct (get_bridges_spec _ _ _ _ _ EG) as (NDb & _ & I1 & O1 & _).
        assert (NDl : NoDup (map asAddr l)) by (unfold l; rewrite map_map; exact NDb).
        destruct (open_spec S H K cst sl l (set_bridges (set_reqs (y_coord y) (Some (mset rq nymR (mSrc m)))) mp)) as (A & EA & A1 & A2); [exact Z2|exact Z1|assumption|].
        rewrite EA in EO. injection EO as <-. cbn [co_asigs co_reqs set_asigs set_bridges set_reqs] in *.
        constructor; cbn [y_coord y_clients y_msgs co_reqs set_asigs set_bridges set_reqs].
        -- eexists. split; [reflexivity|]. rewrite mget_mset. destruct (keq nym nymR) as [<-|]; [|congruence]. f_equal.
           exact (AL bn Em T ED EB EN).
        -- assumption.
        -- now exists k0.
        -- destruct TW as [TW|[(m' & T1 & T2)|(ss & n & WA & WB & WC)]]; [now left| |].
           ++ right. left. exists m'. split; [|assumption]. rewrite EM in T1. apply in_or_app. left. destruct (in_pick _ _ _ _ T1) as [->|]; [contradiction|assumption].
           ++ right. right. exists ss, n. cbn [y_coord y_msgs co_asigs set_asigs]. split; [|split; [assumption|]].
              ** rewrite A2; [assumption|]. intros Ib. unfold l in Ib. rewrite map_map in Ib. apply in_map_iff in Ib. destruct Ib as ((b & nb) & Eb & Ib). cbn [asAddr fst] in Eb.
                 destruct (I1 _ _ Ib) as [M1 _]. destruct WB as (i0 & Li & Si). destruct (nth_error (map fst sl) i0) as [sa|] eqn:Esa.
                 2:{ apply nth_error_None in Esa. rewrite map_length in Esa. lia. }
                 destruct (WC i0 sa Esa) as [X|(m' & I' & (Ox & _))]; [lia|].
                 apply (q_free _ _ _ _ _ _ _ Z3 (party m') (names S G m') x nb); [now apply in_view|assumption|]. now rewrite <- Eb.
              ** intros j sa Ej. destruct (WC j sa Ej) as [X|(m' & I' & Ow)]; [now left|]. right. exists m'. split; [|now apply OW].
                 rewrite EM in I'. apply in_or_app. left. destruct (in_pick _ _ _ _ I') as [->|]; [|assumption]. apply NOS in Ow. rewrite T in Ow. discriminate.
      * assert (RQ : co_reqs c' = co_reqs (y_coord y)).
        { destruct (co_step_frame S G _ (EMsg (mType m) (mParams m) (mSrc m) cr) c' out EH) as [FR _]. apply (FR FReqs). cbn [writes_ev]. unfold writes.
          rewrite (proj2 (Z.eqb_neq _ _) N2). repeat match goal with |- context [if ?b then _ else _] => destruct b end; cbn; intuition discriminate. }
        destruct (Z.eq_dec (mType m) GOT_SIGNS) as [T|N3].
        -- (* a server's answer *)
           pose proof Fm as (_ & FG & _). specialize (FG T). destruct (keq (mDst m) (cs_addr cst)) as [EC|]; [|congruence].
           rewrite T in EH. change (co_got S G (y_coord y) (mParams m) (mSrc m) = Some (c', out)) in EH. unfold co_got in EH.
           destruct FG as (IS & [SU|(SU & ba & bs & GA & DA & GS & DS)]).
           { rewrite SU in EH. cbn [negb] in EH. injection EH as <- <-. apply OTHER; [reflexivity| |now exists mm].
             intros sa (_ & _ & [(T' & _)|(_ & _ & _ & SU')]); [rewrite T in T'; discriminate|congruence]. }
           rewrite SU in EH. cbn [negb] in EH. destruct (server_index (y_coord y) (mSrc m)) as [j|] eqn:EJ.
           2:{ exfalso. rewrite <- Z2 in IS. exact (server_index_some _ _ 0%nat IS EJ). }
           rewrite GA, DA, GS, DS in EH. destruct (nth_error (names S G m) 0) as [a0|] eqn:E0; [|discriminate]. destruct (asNymR a0) as [nymR|] eqn:ENR; [|discriminate].
           cbv zeta in EH. set (rq := match co_reqs (y_coord y) with Some _ => _ | None => _ end) in *.
           destruct (server_index_nth _ _ _ _ EJ) as (_ & pk & EN). rewrite Nat.sub_0_r, Z2 in EN.
           assert (Ej : nth_error (map fst sl) j = Some (mSrc m)) by (now rewrite (map_nth_error fst j sl EN)).
           assert (EP : party m = mSrc m).
           { unfold party. destruct (Z.eqb_spec (mType m) SIGN_ASSIGNMENTS) as [T'|]; [rewrite T in T'; discriminate|reflexivity]. }
           pose proof Z3 as Q. rewrite EM in Q. pose proof (signs_perm _ _ _ _ _ _ _ _ (view_pick S G l1 m l2) Q) as Q1. rewrite EP in Q1.
           assert (OUT : forall m', hands a x m' -> In m' (y_msgs y) -> In m' ((l1 ++ l2) ++ out)).
           { intros m' Hm I'. rewrite EM in I'. apply in_or_app. left. destruct (in_pick _ _ _ _ I') as [->|]; [contradiction|assumption]. }
           destruct (got_track j (mSrc m) rq Ej (names S G m) (y_coord y) _ [] c' out (view S G (l1 ++ l2)) EH Z2 Z1 eq_refl Q1) as (_ & R2 & R3).
           constructor; cbn [y_coord y_clients y_msgs]; [exists mm; now rewrite RQ|assumption|now exists k0|].
           destruct TW as [TW|[(m' & T1 & T2)|(ss & n & WA & WB & WC)]]; [now left|right; left; exists m'; auto|].
           destruct (in_dec keq (asAddr x) (map asAddr (names S G m))) as [Ib|Nb].
           ++ (* the answer is about [x] *)
              apply in_map_iff in Ib. destruct Ib as (x' & Ex & Ix').
              destruct (q_ent _ _ _ _ _ _ _ Q1 _ _ _ WA) as (x0 & N0).
              assert (x' = x0) by (apply (n_same _ _ _ _ _ _ _ _ _ N0 (mSrc m) (names S G m)); [now left|assumption|assumption]). subst x0.
              (* the message the server owes is this one *)
              pose proof (q_cnt _ _ _ _ _ _ _ Q1 j (mSrc m) (asAddr x) ss n Ej WA) as CN. unfold cnt, list_sum in CN. cbn [map fold_right] in CN.
              assert (HX : hit (mSrc m) (asAddr x) (mSrc m, names S G m) = 1%nat).
              { unfold hit. cbn [fst snd]. destruct (keq (mSrc m) (mSrc m)); [|contradiction]. replace (on (asAddr x) (names S G m)) with true; [reflexivity|].
                symmetry. apply on_in. rewrite <- Ex. now apply in_map. }
              rewrite HX in CN.
              destruct (WC j (mSrc m) Ej) as [X|(m' & I' & Ow)]; [lia|].
              assert (m' = m).
              { rewrite EM in I'. destruct (in_pick _ _ _ _ I') as [->|I2]; [reflexivity|]. exfalso.
                assert (PM : party m' = mSrc m).
                { unfold party. destruct Ow as (_ & _ & [(T' & D & _)|(T' & D & _)]); rewrite T'; [assumption|]. cbn. assumption. }
                assert (HM : (1 <= cnt (mSrc m) (asAddr x) (view S G (l1 ++ l2)))%nat); [|unfold cnt, list_sum in HM; lia].
                apply in_split in I2. destruct I2 as (u1 & u2 & ->). rewrite view_app. cbn [view map]. rewrite cnt_app. unfold cnt at 2. unfold list_sum. cbn [map fold_right].
                unfold hit at 1. cbn [fst snd]. rewrite PM. destruct (keq (mSrc m) (mSrc m)); [|contradiction]. destruct Ow as (Ox & _).
                replace (on (asAddr x) (names S G m')) with true; [lia|]. symmetry. apply on_in. now apply in_map. }
              subst m'. destruct Ow as (Ox & On & _).
              assert (nymR = nym). { specialize (On a0 (nth_error_In _ _ E0)). congruence. } subst nymR.
              
              destruct (R3 x Ox) as [(mr & d & Ed & Ir & Hr)|(s1 & n1 & s2 & n2 & M1 & M2 & M3 & M4 & M5)].
              { assert (d = a) by (unfold rq in Ed; rewrite TR1, TR2 in Ed; congruence). subst d.
                right. left. exists mr. split; [apply in_or_app; now right|assumption]. }
              right. right. exists s2, n2. cbn [y_coord y_msgs]. split; [assumption|]. split; [assumption|]. intros j' sa Ej'.
              assert (s1 = ss) by congruence. subst s1. destruct (Nat.eq_dec j' j) as [->|Nj]; [now left|]. rewrite (M4 j' Nj).
              destruct (WC j' sa Ej') as [X|(m' & I3 & Ow)]; [now left|]. right. exists m'. split; [|now apply OW]. rewrite EM in I3. apply in_or_app. left.
              destruct (in_pick _ _ _ _ I3) as [->|]; [|assumption]. exfalso. destruct Ow as (_ & _ & [(T' & _)|(_ & D & _)]); [rewrite T in T'; discriminate|].
              subst sa. apply Nj. pose proof (b_nd _ _ _ _ _ BA) as NS. rewrite Z2 in NS. apply (proj1 (NoDup_nth_error _) NS); [apply nth_error_Some; congruence|congruence].
           ++ right. right. exists ss, n. cbn [y_coord y_msgs]. split; [now rewrite R2|]. split; [assumption|]. intros j' sa Ej'.
              destruct (WC j' sa Ej') as [X|(m' & I' & Ow)]; [now left|]. right. exists m'. split; [|now apply OW]. rewrite EM in I'. apply in_or_app. left.
              destruct (in_pick _ _ _ _ I') as [->|]; [|assumption]. exfalso. apply Nb. destruct Ow as (Ox & _). now apply in_map.
        -- (* neither *)
           apply OTHER; [|intros sa Ow; apply NOS in Ow; contradiction|rewrite RQ; now exists mm].
           destruct (co_step_frame S G _ (EMsg (mType m) (mParams m) (mSrc m) cr) c' out EH) as [FR _]. apply (FR FASigs). cbn [writes_ev]. unfold writes.
           rewrite (proj2 (Z.eqb_neq _ _) N2), (proj2 (Z.eqb_neq _ _) N3). repeat match goal with |- context [if ?b then _ else _] => destruct b end; cbn; intuition discriminate.
    + destruct (mget (y_servers y) (mDst m)) as [s|] eqn:Es.
      * destruct (sv_handle _ _ _ _ _ _ _ _) as [[s' out]|] eqn:EH; [|discriminate]. injection E as <-.
        cbn [y_coord y_servers y_clients y_msgs] in *.
        constructor; cbn [y_coord y_clients y_msgs]; [now exists mm|assumption|now exists k0|].
        destruct TW as [TW|[(m' & T1 & T2)|TW]]; [now left| |].
        -- right. left. exists m'. split; [|assumption]. rewrite EM in T1. apply in_or_app. left. destruct (in_pick _ _ _ _ T1) as [->|]; [|assumption].
           destruct T2 as (_ & D & _). congruence.
        -- right. right. apply (WK (fun sa m' => m' = m /\ owes (y_coord y) nym x sa m)); try assumption; [reflexivity| |].
           ++ intros m' sa I' Ow. rewrite EM in I'. destruct (in_pick _ _ _ _ I') as [->|]; [right; now split|left; apply in_or_app; now left].
           ++ intros m' sa [_ Ow]. destruct Ow as (Ox & On & [(T & D & bn & nm & V1 & V2 & V3)|(_ & _ & D & _)]); [|rewrite CA in ND; contradiction].
              destruct Fm as (FS & _). destruct (FS T) as (F1 & F2 & ba & F3 & F4). rewrite T in EH.
              change (sv_sign S G s (mParams m) (mSrc m) = Some (s', out)) in EH. unfold sv_sign in EH.
              destruct (e_sv _ _ _ (reach_ses S OK H G GOK y V R NN) _ _ Es) as [SF _]. pose proof O as (Oa & Ob & Oc).
              destruct (proj1 (C44_agreement S OK H G GOK y V R Oa Ob Oc) _ _ Es) as (_ & SPB & SEC & _).
              rewrite V1, V2, SF, SPB, SEC, V3 in EH. cbn [negb] in EH. rewrite F3, F4 in EH. cbv zeta in EH. injection EH as <- <-.
              eexists. split; [apply in_or_app; right; left; reflexivity|]. set (m2 := Msg _ _ _ _).
              assert (EN : names S G m2 = names S G m).
              { unfold names at 1. unfold m2, get_bytes. cbn [mType mParams]. rewrite Z.eqb_refl, orb_true_r. cbn [lookup String.eqb Ascii.eqb Bool.eqb]. now rewrite F4. }
              split; [now rewrite EN|]. rewrite EN. split; [assumption|]. right. unfold m2. cbn [mType mSrc mDst mParams]. destruct (Z6 _ _ Es) as [SA _].
              split; [reflexivity|]. split; [congruence|]. split; [assumption|reflexivity].
      * destruct (mget (y_clients y) (mDst m)) as [k|] eqn:Ek; [|discriminate].
        destruct (cl_handle _ _ _ _ _ _) as [[k' out]|] eqn:EH; [|discriminate]. injection E as <-.
        cbn [y_coord y_servers y_clients y_msgs] in *.
        constructor; cbn [y_coord y_clients y_msgs]; [now exists mm|assumption| |].
        -- rewrite mget_mset. destruct (keq a (mDst m)); [now exists k'|now exists k0].
        -- destruct TW as [(kh & bs & T1 & T2)|[(m' & T1 & T2)|TW]].
           ++ left. unfold held. cbn [y_clients]. rewrite mget_mset. destruct (keq a (mDst m)) as [->|]; [|now exists kh, bs].
              exists k', bs. split; [reflexivity|]. eapply cl_keeps; [exact EH| |congruence].
              intros T. rewrite T in Tm. clear - Tm. cbn in Tm. intuition discriminate.
           ++ rewrite EM in T1. destruct (in_pick _ _ _ _ T1) as [->|T1'].
              ** left. destruct (cl_takes k x m a chal k' out GX T2 RN EH) as (bs & Ib). unfold held. cbn [y_clients]. destruct T2 as (_ & <- & _).
                 exists k', bs. rewrite mget_mset_eq. now split.
              ** right. left. exists m'. split; [apply in_or_app; now left|assumption].
           ++ right. right. apply (WK (fun _ _ => False)); try assumption; [reflexivity| |tauto].
              intros m' sa I' Ow. rewrite EM in I'. left. apply in_or_app. left. destruct (in_pick _ _ _ _ I') as [->|]; [|assumption]. exfalso.
              destruct Ow as (_ & _ & [(T & _)|(_ & _ & D & _)]); [|rewrite CA in ND; contradiction].
              destruct Fm as (FS & _). destruct (FS T) as (_ & IA & _). rewrite <- Z2 in IA. apply (b_srv _ _ _ _ _ BA) in IA. contradiction.
  - destruct (is_loop e) eqn:EL; [|discriminate]. destruct (co_step _ _ _ _) as [[c' out]|] eqn:ES; [|discriminate]. injection E as <-.
    cbn [y_coord y_servers y_clients y_msgs] in *. destruct e as [ty p src rn| |fakes ord| |ord rs]; try discriminate; try (destruct GU; fail).
    + exfalso. cbn [co_step] in ES. unfold begin_round in ES. destruct O as (Oa & _). rewrite Oa in ES. discriminate ES.
    + cbn [co_step] in ES. injection ES as <- <-. constructor; cbn [y_coord y_clients y_msgs]; [now exists mm|assumption|now exists k0|].
      destruct TW as [TW|[(m' & T1 & T2)|TW]]; [now left| |].
      * right. left. exists m'. split; [apply in_or_app; now left|assumption].
      * right. right. apply (WK (fun _ _ => False)); try assumption; [reflexivity| |tauto]. intros m' sa I' _. left. apply in_or_app. now left.
  - destruct (mget (y_clients y) b) as [k|] eqn:Ek; [|discriminate]. destruct (cl_command S G k cmd) as [out|] eqn:EC; [|discriminate]. injection E as <-.
    cbn [y_coord y_servers y_clients y_msgs] in *. constructor; cbn [y_coord y_clients y_msgs]; [now exists mm|assumption|now exists k0|].
    destruct TW as [TW|[(m' & T1 & T2)|TW]]; [now left| |].
    + right. left. exists m'. split; [apply in_or_app; now left|assumption].
    + right. right. apply (WK (fun _ _ => False)); try assumption; [reflexivity| |tauto]. intros m' sa I' _. left. apply in_or_app. now left.
Qed.

(** The coordinator accepts the request. *)
Lemma track_start y V i cr sr chal m y1 bn nym b nb : reach S H G y V -> sig_inv S G K cst sl y -> bridges_ok S (co_bridges (y_coord y)) ->
  nth_error (y_msgs y) i = Some m -> mType m = REQUEST_BRIDGES -> mDst m = co_addr (y_coord y) -> (exists k, mget (y_clients y) (mSrc m) = Some k) ->
  get_bytes (mParams m) "nym"%str = Some bn -> dec_point S bn = Some nym ->
  sys_step S H G y (ADeliver i cr sr chal) = Some y1 ->
  mget (co_bridges (y_coord y)) b = Some (nb, false) -> mget (co_bridges (y_coord y1)) b = Some (nb, true) ->
  good S (Assign (Some nym) b nb) /\ tracked nym (mSrc m) (Assign (Some nym) b nb) y1.
Proof.
  intros R SI HB Em T ED (k & Ek) EB EN E B1 B2. pose proof (reach_inv S OK H G GOK y V R) as [BA _]. destruct SI as [Z1 Z2 Z3 Z4 Z5 Z6 Z7].
  cbn [sys_step] in E. rewrite Em in E. cbn zeta in E. destruct (keq (mDst m) _) as [_|]; [|contradiction].
  destruct (co_handle _ _ _ _ _ _ _) as [[c' out]|] eqn:EH; [|discriminate]. injection E as <-. cbn [y_coord y_servers y_clients y_msgs] in *.
  rewrite T in EH. change (co_request S G (y_coord y) (mParams m) (mSrc m) cr = Some (c', out)) in EH.
  destruct (co_request_sent _ _ _ _ _ _ EH) as [[-> ->]|(ind & bn' & nymR & rq & brs & mp & EB' & EN' & ERQ & EV & EG & EO & EOUT)]; [congruence|].
  assert (bn' = bn) by congruence. subst bn'. assert (nymR = nym) by congruence. subst nymR.
  cbv zeta in EO, EOUT. set (l := map _ brs) in *. destruct (get_bridges_spec _ _ _ _ _ EG) as (NDb & _ & I1 & O1 & _).
  assert (NDl : NoDup (map asAddr l)) by (unfold l; rewrite map_map; exact NDb).
  destruct (open_spec S H K cst sl l (set_bridges (set_reqs (y_coord y) (Some (mset rq nym (mSrc m)))) mp)) as (A & EA & A1 & A2); [exact Z2|exact Z1|assumption|].
  rewrite EA in EO. injection EO as <-. cbn [co_asigs co_reqs co_bridges set_asigs set_bridges set_reqs] in *.
  assert (AO : forall x, In x l -> good S x).
  { intros x Ix. split; [|split].
    - revert x Ix. eapply taken_assignment_ok; try eassumption. eapply dec_point_group; eassumption.
    - unfold l in Ix. apply in_map_iff in Ix. destruct Ix as ((b' & nb') & <- & Ib). cbn [asNym snd]. destruct (I1 _ _ Ib) as [M _].
      destruct (HB _ _ M) as (q & -> & _). discriminate.
    - unfold l in Ix. apply in_map_iff in Ix. destruct Ix as (b' & <- & _). discriminate. }
  set (x := Assign (Some nym) b nb).
  assert (Ix : In x l).
  { destruct (in_dec keq b (map fst brs)) as [Ib|Nb]; [|rewrite (O1 _ Nb) in B2; congruence].
    apply in_map_iff in Ib. destruct Ib as ((b' & nb') & Eb & Ib). cbn [fst] in Eb. subst b'. destruct (I1 _ _ Ib) as [M _].
    assert (nb' = nb) by congruence. subst nb'. unfold l. apply in_map_iff. exists (b, nb). split; [reflexivity|assumption]. }
  split; [now apply AO|].
  destruct EOUT as [[El _]|(q & _ & -> & Q1 & Q2)]; [rewrite El in Ix; destruct Ix|].
  constructor; cbn [y_coord y_clients y_msgs co_reqs set_asigs set_bridges set_reqs].
  - eexists. split; [reflexivity|]. apply mget_mset_eq.
  - reflexivity.
  - now exists k.
  - right. right. eexists. eexists. cbn [y_coord y_msgs co_asigs set_asigs]. split; [exact (A1 x Ix)|]. split.
    + assert (LS : (0 < length sl)%nat). { rewrite <- Z2. pose proof (b_ne _ _ _ _ _ BA). destruct (co_servers (y_coord y)); [contradiction|cbn; lia]. }
      exists 0%nat. split; [assumption|]. unfold slot. now rewrite nth_open.
    + intros j sa Ej. right. set (p0 := ("assignments"%str, VBytes (enc_assignments S G l)) :: q) in *.
      exists (Msg sa SIGN_ASSIGNMENTS p0 (co_addr (y_coord y))). split.
      { apply in_or_app. right. unfold to_servers. apply in_map_iff. apply nth_error_In in Ej. apply in_map_iff in Ej. destruct Ej as (s & Es & Is).
        exists s. rewrite Z2. split; [|assumption]. now rewrite Es. }
      assert (DN : names S G (Msg sa SIGN_ASSIGNMENTS p0 (co_addr (y_coord y))) = l).
      { unfold names, p0, get_bytes. cbn [mType mParams]. rewrite Z.eqb_refl. cbn [orb lookup String.eqb Ascii.eqb Bool.eqb].
        now rewrite (C27_assignments_round_trip S G OK GOK l (fun x I => proj1 (AO x I))). }
      unfold owes. rewrite DN. split; [assumption|]. split.
      * intros z Iz. unfold l in Iz. apply in_map_iff in Iz. destruct Iz as (? & <- & _). reflexivity.
      * left. split; [reflexivity|]. split; [reflexivity|]. cbn [mParams]. exists bn, nym. split; [exact Q1|]. split; [assumption|]. rewrite Q2. exact EV.
Qed.

Lemma tracked_done nym a x y : tracked nym a x y ->
  (forall m, In m (y_msgs y) -> mType m <> SIGN_ASSIGNMENTS /\ mType m <> GOT_SIGNS) -> held y a x.
Proof.
  intros [_ _ _ [T|[(m & I & T & _)|(ss & n & _ & (i & Li & Si) & W)]]] N; [assumption| |].
  - destruct (N m I). contradiction.
  - exfalso. destruct (nth_error (map fst sl) i) as [sa|] eqn:E; [|apply nth_error_None in E; rewrite map_length in E; lia].
    destruct (W i sa E) as [X|(m & I & (_ & _ & [(T & _)|(T & _)]))]; [lia| |]; destruct (N m I); contradiction.
Qed.
End Delivery.

Section Follow.
Context (S : suite) (OK : suite_ok S) (H : oracle) (G : gob) (GOK : gob_ok G).

Lemma calm_later_reach nym a y V y' V' : calm_later S H G nym a y V y' V' -> calm_reach S H G y V -> calm_reach S H G y' V'.
Proof. induction 1 as [|y V y1 V1 x y2 C IH GU PC AL NE E]; intros R; [assumption|]. exact (cr_step S H G y1 V1 x y2 (IH R) GU PC E). Qed.

Lemma follow K nym a x y V y' V' : calm_later S H G nym a y V y' V' ->
  calm_reach S H G y V -> open_round y -> fo_nonneg (co_fb (y_coord y)) -> good S x ->
  sig_inv S G K (co_static (y_coord y)) (co_servers (y_coord y)) y ->
  response_nonzero S (cs_priv (co_static (y_coord y))) (enc_assignment S x ++ genc_2d G (full S K (co_static (y_coord y)) (co_servers (y_coord y)) x)) ->
  tracked S G K (co_static (y_coord y)) (co_servers (y_coord y)) nym a x y ->
  open_round y' /\ co_static (y_coord y') = co_static (y_coord y) /\ sig_inv S G K (co_static (y_coord y)) (co_servers (y_coord y)) y' /\
  tracked S G K (co_static (y_coord y)) (co_servers (y_coord y)) nym a x y'.
Proof.
  induction 1 as [|y V y1 V1 act y2 C IH GU PC AL NE E]; intros R O NN GX SI RN TR; [auto|].
  destruct (IH R O NN GX SI RN TR) as (O1 & ST1 & SI1 & TR1). pose proof (calm_later_reach _ _ _ _ _ _ C R) as CR1. pose proof (calm_is_reach S H G _ _ CR1) as R1.
  pose proof (reach_inv S OK H G GOK y1 V1 R1) as I1.
  destruct (reach_run S H G y1 V1 R1) as (self & a0 & fb & trap & gammas & t & RUN).
  pose proof (proj2 (run_bridges S G OK GOK self a0 fb trap gammas t _ RUN)) as HB.
  split; [now apply (open_step S H G y1 V1 act)|]. split; [rewrite <- ST1; eapply sys_static; eassumption|].
  split; [now apply (sig_step S OK H G GOK K _ _ y1 V1 act)|].
  apply (track_step S OK H G GOK K _ _ nym a x y1 V1 act); try assumption. unfold co_fb in *. now rewrite ST1.
Qed.
End Follow.
