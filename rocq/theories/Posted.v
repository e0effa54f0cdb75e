(** Who posted a bridge: from the command that posts it over the coordinator's table and the
    servers' signatures to the client that is handed it and votes on it. *)
From Coq Require Import ZArith Znumtheory Lia List Bool Permutation.
From Coq Require Import Strings.Byte.
From Coq Require String.
From Verif Require Import ZMod Bytes Suite Spec Pedersen ElGamal FujiOkam Equality Codec Maps Net Bridge Client
  Perm SimpleShuffle PairShuffle Server Coordinator History System Chain Prop_Pedersen Prop_FujiOkam Prop_Codec Prop_Assign Prop_Topology Prop_Chain Round RoundInv
  Prop_Coord Prop_Round Session Prop_Session Signing Progress Live Delivery Enrol Conduct Tally.
Import ListNotations.
Import String.StringSyntax.
Open Scope Z_scope.
Delimit Scope string_scope with str.

(** ** Specification *)
(** The posts of the current round: the address and the long-term key of the client whose
    user entered the command.  The list starts anew when a round is announced. *)
Definition postings := list (bytes * Z).
Definition posts_step (y : sys) (P : postings) (a : action) : postings :=
  match a with
  | ACommand b (CPost ad) => match mget (y_clients y) b with Some k => P ++ [(ad, cl_pub k)] | None => P end
  | ALoop (EBegin _ _) => []
  | _ => P
  end.
(** Orderly sessions with the posts of the current round. *)
Inductive noted (S : suite) (H : oracle) (G : gob) : sys -> ledger -> postings -> Prop :=
| n_start self a fb trap gammas l y1 y2 :
    Forall (conf_act S) l -> sys_run S H G (init_sys S self a fb trap gammas) l = Some y1 ->
    y_msgs y1 = [] -> co_servers (y_coord y1) <> [] ->
    sys_step S H G y1 (ALoop EConfigure) = Some y2 -> noted S H G y2 [] []
| n_step y V P a y' :
    noted S H G y V P -> guard S y V a -> conduct S y a -> sys_step S H G y a = Some y' ->
    noted S H G y' (ledger_step S y V a) (posts_step y P a).

(** The client that posted an address in this round: the first one, in case there are
    several. *)
Definition poster (P : postings) (b : bytes) : option Z := option_map snd (find (fun t : bytes * Z => if keq (fst t) b then true else false) P).
(** The vote a command casts: the key of the client that posted the bridge voted on, and +1
    or -1. *)
Definition cast_on (y : sys) (P : postings) (a : action) : list (Z * Z) :=
  match a with
  | ACommand b (CVote id f) =>
      match (olet k := mget (y_clients y) b in olet xs := nth_error (cl_assigns k) (Z.to_nat id) in poster P (asAddr (fst xs))) with
      | Some q => [(q, if 0 <? f then 1 else -1)]
      | None => []
      end
  | _ => []
  end.
(** No address is posted by two clients in the same round. *)
Definition one_poster (y : sys) (P : postings) (a : action) : Prop :=
  match a with
  | ACommand b (CPost ad) => forall k q, mget (y_clients y) b = Some k -> In (ad, q) P -> q = cl_pub k
  | _ => True
  end.
(** Orderly sessions with the posts of the current round and the votes cast so far, each
    with the client that posted the bridge. *)
Inductive honoured (S : suite) (H : oracle) (G : gob) : sys -> ledger -> postings -> list (Z * Z) -> Prop :=
| h_start self a fb trap gammas l y1 y2 :
    Forall (conf_act S) l -> sys_run S H G (init_sys S self a fb trap gammas) l = Some y1 ->
    y_msgs y1 = [] -> co_servers (y_coord y1) <> [] ->
    sys_step S H G y1 (ALoop EConfigure) = Some y2 -> honoured S H G y2 [] [] []
| h_step y V P L a y' :
    honoured S H G y V P L -> guard S y V a -> conduct S y a -> post_calm S G y a -> willing S y a -> one_poster y P a ->
    sys_step S H G y a = Some y' ->
    honoured S H G y' (ledger_step S y V a) (posts_step y P a) (L ++ cast_on y P a).

Section Posted.
Context (S : suite) (OK : suite_ok S) (H : oracle) (G : gob) (GOK : gob_ok G).

Lemma noted_orderly y V P : noted S H G y V P -> orderly S H G y V.
Proof. induction 1; [eapply o_start; eassumption|now eapply o_step]. Qed.
Lemma orderly_noted y V : orderly S H G y V -> exists P, noted S H G y V P.
Proof. induction 1 as [|? ? ? ? ? [P IH]]; [eexists; eapply n_start; eassumption|eexists; eapply n_step; eassumption]. Qed.

(** Posted in this round by the client behind this pseudonym. *)
Definition by_nym (y : sys) (P : postings) (b : bytes) (n : Z) : Prop := exists q, In (b, q) P /\ nym_of S y q = n.
Definition backed (y : sys) (P : postings) (x : assignment) : Prop := exists n, asNym x = Some n /\ by_nym y P (asAddr x) n.
(** The assignments a message carries, to be signed or to be handed out. *)
Definition carries (m : msg) (x : assignment) : Prop :=
  In x (names S G m) \/ (mType m = GOT_SIGNS /\ exists b, get_bytes (mParams m) "assignment"%str = Some b /\ dec_assignment S b = Some x).
Record backing (y : sys) (P : postings) : Prop := {
  k_post : forall m ad bn n, In m (y_msgs y) -> mType m = POST_BRIDGE -> get_str (mParams m) "bridge_addr"%str = Some ad ->
    get_bytes (mParams m) "nym"%str = Some bn -> dec_point S bn = Some n -> by_nym y P ad n;
  k_tab : forall b nb, mget (co_bridges (y_coord y)) b = Some (nb, false) -> exists n, nb = Some n /\ by_nym y P b n;
  k_msg : forall m x, In m (y_msgs y) -> carries m x -> backed y P x;
  k_held : forall a k x bs, mget (y_clients y) a = Some k -> In (x, bs) (cl_assigns k) -> backed y P x
}.

Lemma carries_type m x : carries m x -> mType m = SIGN_ASSIGNMENTS \/ mType m = GOT_SIGNS.
Proof.
  intros [I|[T _]]; [|now right]. unfold names in I. destruct ((_ =? _) || _) eqn:E; [|destruct I]. apply orb_prop in E.
  destruct E as [E|E]; apply Z.eqb_eq in E; auto.
Qed.
Lemma carries_quiet m x : ~ In (mType m) traffic_types -> ~ carries m x.
Proof. intros N C. apply N. destruct (carries_type m x C) as [-> | ->]; cbn; tauto. Qed.

(** ** The handlers *)
Lemma got_out j rq : forall l sigs c out0 c' out, got_loop S G c j rq sigs l out0 = Some (c', out) ->
  forall m, In m out -> In m out0 \/ (mType m = GOT_SIGNS /\ exists x q, In x l /\ mParams m = ("assignment"%str, VBytes (enc_assignment S x)) :: q /\
    get_bytes (mParams m) "assignments"%str = None).
Proof.
  induction l as [|x l IH]; intros sigs c out0 c' out E m Im; cbn [got_loop] in E.
  - injection E as <- <-. now left.
  - odestruct E; destruct (IH _ _ _ _ _ E m Im) as [J|(T & z & q & J1 & J2 & J3)];
      try (right; split; [assumption|]; exists z, q; split; [now right|now split]); [|now left].
    apply in_app_or in J. destruct J as [J|[J|[]]]; [now left|]. right.
    match goal with Hs : send _ _ _ _ = Some _ |- _ => unfold send in Hs; destruct rq; [|discriminate Hs]; injection Hs as <- end. subst m. cbn [mType mParams].
    split; [reflexivity|]. exists x. eexists. split; [now left|]. split; [reflexivity|]. reflexivity.
Qed.

Lemma co_carries cl c m cr c' out : co_ok S cl c ->
  co_handle S G c (mType m) (mParams m) (mSrc m) cr = Some (c', out) ->
  (forall z x, In z out -> carries z x -> carries m x \/ exists n, asNym x = Some n /\ mget (co_bridges c) (asAddr x) = Some (Some n, false)) /\
  (forall b nb, mget (co_bridges c') b = Some (nb, false) -> mget (co_bridges c) b = Some (nb, false) \/
     (mType m = POST_BRIDGE /\ exists bn n, get_str (mParams m) "bridge_addr"%str = Some b /\ get_bytes (mParams m) "nym"%str = Some bn /\
        dec_point S bn = Some n /\ nb = Some n)) /\
  (forall z, In z out -> mType z <> POST_BRIDGE).
Proof.
  intros KO E.
  assert (NP : forall z, In z out -> mType z <> POST_BRIDGE).
  { intros z Iz. destruct (co_step_frame S G c (EMsg (mType m) (mParams m) (mSrc m) cr) c' out E) as [_ O]. specialize (O z Iz). cbn [emits_ev] in O. unfold emits in O.
    repeat match type of O with context [if ?b then _ else _] => destruct b end; cbn in O; repeat (destruct O as [O|O]; [rewrite <- O; discriminate|]); destruct O. }
  split; [|split; [|exact NP]].
  - intros z x Iz C. destruct (Z.eq_dec (mType m) REQUEST_BRIDGES) as [T|N2].
    { rewrite T in E. change (co_request S G c (mParams m) (mSrc m) cr = Some (c', out)) in E.
      destruct (co_request_spec S G _ _ _ _ _ _ E) as [[-> ->]|(ind & nymR & bn & rq & brs & mp & x0 & F1 & F2 & F3 & F4 & F5 & F6 & F7)]; [destruct Iz|].
      cbv zeta in F7. set (l := map _ brs) in *. destruct F7 as [[_ ->]|(NB & pm & ->)]; [destruct Iz|].
      destruct (get_bridges_spec _ _ _ _ _ F5) as (_ & _ & I1 & _).
      assert (GL : forall u, In u l -> assignment_ok S u /\ exists n, asNym u = Some n /\ mget (co_bridges c) (asAddr u) = Some (Some n, false)).
      { intros u Iu. unfold l in Iu. apply in_map_iff in Iu. destruct Iu as ([b nb] & <- & Ib). destruct (I1 _ _ Ib) as [M _]. destruct (k_free _ _ _ KO _ _ M) as (n & -> & Gn & _).
        cbn [asNym asNymR asAddr fst snd]. split; [|eauto]. split; cbn [asNym asNymR]; intros w [= <-]; apply member_in_group; auto. eapply dec_point_group; eassumption. }
      right. unfold to_servers in Iz. apply in_map_iff in Iz. destruct Iz as ([sa spk] & <- & _).
      destruct C as [C|[C _]]; [|discriminate C]. unfold names, get_bytes in C. cbn [mType mParams] in C. rewrite Z.eqb_refl in C. cbn [orb lookup String.eqb Ascii.eqb Bool.eqb] in C.
      rewrite (C27_assignments_round_trip S G OK GOK l) in C by (intros u Iu; apply (GL u Iu)). apply (GL x C). }
    destruct (Z.eq_dec (mType m) GOT_SIGNS) as [T|N3].
    { left. pose proof E as E0. rewrite T in E. change (co_got S G c (mParams m) (mSrc m) = Some (c', out)) in E. unfold co_got in E.
      destruct (get_bool _ _) as [ok|]; [|discriminate]. destruct (negb ok); [injection E as <- <-; destruct Iz|]. destruct (server_index c (mSrc m)) as [j|]; [|injection E as <- <-; destruct Iz].
      destruct (get_bytes (mParams m) "assignments"%str) as [ba|] eqn:EB; [|discriminate]. destruct (dec_assignments S G ba) as [l|] eqn:ED; [|discriminate].
      destruct (get_bytes (mParams m) "signatures"%str) as [bs|]; [|discriminate]. destruct (gdec_2d G bs) as [sigs|]; [|discriminate].
      destruct (nth_error l 0) as [a0|]; [|discriminate]. destruct (asNymR a0) as [nymR|]; [|discriminate]. cbv zeta in E.
      assert (NM : names S G m = l) by (unfold names; rewrite T, Z.eqb_refl, orb_true_r, EB, ED; reflexivity).
      destruct (got_out _ _ _ _ _ _ _ _ E z Iz) as [[]|(TZ & u & q & J1 & J2 & J3)].
      assert (CU : carries m u) by (left; now rewrite NM).
      destruct C as [C|[_ (b & C1 & C2)]].
      - unfold names in C. rewrite TZ, Z.eqb_refl, orb_true_r, J3 in C. destruct C.
      - rewrite J2 in C1. cbn in C1. injection C1 as <-. rewrite (assignment_round_trip S u OK (dec_assignments_ok S G ba l OK ED u J1)) in C2. now injection C2 as <-. }
    exfalso. destruct (co_plain S H G (fun _ => 0) c _ _ _ _ c' out E) as (_ & _ & _ & F); [|assumption|assumption|].
    + intros T. rewrite T in E. change (co_post S c (mParams m) = Some (c', out)) in E. unfold co_post in E. odestruct E; injection E as <- <-; destruct Iz.
    + rewrite Forall_forall in F. specialize (F z Iz). destruct F as (F1 & F2 & _). destruct (carries_type z x C); contradiction.
  - intros b nb M. destruct (Z.eq_dec (mType m) POST_BRIDGE) as [T|N1].
    { rewrite T in E. change (co_post S c (mParams m) = Some (c', out)) in E. unfold co_post in E.
      destruct (get_str (mParams m) "bridge_addr"%str) as [ad|]; [|discriminate]. destruct (get_bytes (mParams m) "signature"%str); [|discriminate].
      destruct (get_bytes (mParams m) "nym"%str) as [bn|]; [|discriminate]. destruct (dec_point S bn) as [n|] eqn:EN; [|discriminate]. destruct (msg_post (mParams m)); [|discriminate].
      destruct (negb _); injection E as <- <-; [now left|]. unfold add_bridge in M. cbn [co_bridges set_bridges] in M. rewrite mget_mset in M. destruct (keq b ad) as [->|]; [|now left].
      injection M as <-. right. split; [assumption|]. exists bn, n. auto. }
    left. destruct (Z.eq_dec (mType m) REQUEST_BRIDGES) as [T|N2].
    { rewrite T in E. change (co_request S G c (mParams m) (mSrc m) cr = Some (c', out)) in E.
      destruct (co_request_spec S G _ _ _ _ _ _ E) as [[-> ->]|(ind & nymR & bn & rq & brs & mp & x0 & F1 & F2 & F3 & F4 & F5 & -> & F7)]; [assumption|].
      destruct (get_bridges_spec _ _ _ _ _ F5) as (_ & _ & I1 & I2 & _). cbn [co_bridges set_asigs set_bridges] in M.
      assert (NI : ~ In b (map fst brs)). { intros J. apply in_map_iff in J. destruct J as ([b' nb'] & <- & J). destruct (I1 _ _ J) as [_ M2]. cbn [fst] in M. congruence. }
      now rewrite (I2 b NI) in M. }
    destruct (Z.eq_dec (mType m) GOT_SIGNS) as [T|N3].
    { rewrite T in E. change (co_got S G c (mParams m) (mSrc m) = Some (c', out)) in E. unfold co_got in E. odestruct E; try (injection E as <- <-; assumption).
      cbv zeta in E. match type of E with got_loop _ _ _ _ _ _ _ _ = _ => destruct (got_loop_bridges S G _ _ _ _ _ _ _ _ E b) as [EQ|(nn & EQ)]; congruence end. }
    destruct (co_plain S H G (fun _ => 0) c _ _ _ _ c' out E N1 N2 N3) as (_ & X & _). now rewrite X in M.
Qed.

Lemma sv_carries s m sr s' out : sv_handle S H G s (mType m) (mParams m) (mSrc m) sr = Some (s', out) ->
  (forall z x, In z out -> carries z x -> carries m x) /\ (forall z, In z out -> mType z <> POST_BRIDGE).
Proof.
  intros E. destruct (Z.eq_dec (mType m) SIGN_ASSIGNMENTS) as [T|N].
  - rewrite T in E. change (sv_sign S G s (mParams m) (mSrc m) = Some (s', out)) in E. unfold sv_sign in E.
    destruct (get_bytes (mParams m) "nym"%str) as [bn|]; [|discriminate]. destruct (dec_point S bn) as [n|]; [|discriminate]. destruct (sv_fb s) as [fb|]; [|discriminate].
    destruct (verify_ind _ _ _ _ _ _) as [ok|]; [|discriminate]. destruct (negb ok).
    + injection E as <- <-. split; [|intros z [<-|[]]; discriminate]. intros z x [<-|[]] [C|(_ & b & C & _)]; [|discriminate C]. destruct C.
    + destruct (get_bytes (mParams m) "assignments"%str) as [ba|] eqn:EB; [|discriminate]. destruct (dec_assignments S G ba) as [l|] eqn:ED; [|discriminate]. cbv zeta in E. injection E as <- <-.
      split; [|intros z [<-|[]]; discriminate]. intros z x [<-|[]] [C|(_ & b & C & _)]; [|discriminate C]. left.
      unfold names in C |- *. rewrite T, Z.eqb_refl, EB, ED. cbn [orb]. cbn [mType mParams] in C. rewrite Z.eqb_refl, orb_true_r in C. unfold get_bytes in C. cbn [lookup String.eqb Ascii.eqb Bool.eqb] in C.
      rewrite ED in C. exact C.
  - pose proof (sv_quiet S H G _ _ _ _ _ E N) as Q. split.
    + intros z x Iz C. elim (carries_quiet z x (Q z Iz) C).
    + intros z Iz T. apply (Q z Iz). rewrite T. cbn. tauto.
Qed.

(** ** The invariant *)
Lemma by_nym_mono y P y' P' b n : (forall q, nym_of S y' q = nym_of S y q) -> incl P P' -> by_nym y P b n -> by_nym y' P' b n.
Proof. intros NY I (q & J & E). exists q. rewrite NY. auto. Qed.
Lemma backed_mono y P y' P' x : (forall q, nym_of S y' q = nym_of S y q) -> incl P P' -> backed y P x -> backed y' P' x.
Proof. intros NY I (n & J & E). exists n. split; [assumption|]. eapply by_nym_mono; eassumption. Qed.

Lemma back_in y V P a y' : noted S H G y V P -> fo_nonneg (co_fb (y_coord y)) -> guard S y V a -> conduct S y a -> open_round y -> is_end a = false ->
  sys_step S H G y a = Some y' -> backing y P -> backing y' (posts_step y P a).
Proof.
  intros NO NN GU CD O NE E [B1 B2 B3 B4]. pose proof (noted_orderly _ _ _ NO) as OR. pose proof (orderly_reach S H G y V OR) as R.
  pose proof (orderly_hon S OK H G GOK y V OR NN) as HO. pose proof (reach_inv S OK H G GOK y V R) as I.
  assert (NY : forall q, nym_of S y' q = nym_of S y q) by (intros q; exact (nym_step S H G y V a y' q I O GU NE E)).
  assert (NB : forall f o, a <> ALoop (EBegin f o)).
  { intros f o ->. cbn [sys_step is_loop co_step] in E. unfold begin_round in E. rewrite (proj1 O) in E. discriminate E. }
  assert (IN : incl P (posts_step y P a)).
  { destruct a as [| | |[| |f0 o0| |]|b [ad| |]]; try apply incl_refl; [now elim (NB f0 o0)|]. cbn [posts_step]. destruct (mget _ _); [apply incl_appl|]; apply incl_refl. }
  assert (MN : forall b n, by_nym y P b n -> by_nym y' (posts_step y P a) b n) by (intros b n; now apply by_nym_mono).
  assert (MB : forall x, backed y P x -> backed y' (posts_step y P a) x) by (intros x; now apply backed_mono).
  (* what is to be shown when the messages grow by [out] *)
  assert (GO : forall out, (forall z, In z (y_msgs y') -> In z (y_msgs y) \/ In z out) -> (forall z x, In z out -> carries z x -> backed y P x) ->
    (forall z ad bn n, In z out -> mType z = POST_BRIDGE -> get_str (mParams z) "bridge_addr"%str = Some ad ->
       get_bytes (mParams z) "nym"%str = Some bn -> dec_point S bn = Some n -> by_nym y' (posts_step y P a) ad n) ->
    (forall b nb, mget (co_bridges (y_coord y')) b = Some (nb, false) -> exists n, nb = Some n /\ by_nym y P b n) ->
    (forall c k' x bs, mget (y_clients y') c = Some k' -> In (x, bs) (cl_assigns k') -> backed y P x) -> backing y' (posts_step y P a)).
  { intros out X1 X2 X3 X4 X5. constructor.
    - intros z ad bn n Iz T F1 F2 F3. destruct (X1 z Iz) as [J|J]; [apply MN; now apply (B1 z ad bn n)|now apply (X3 z ad bn n)].
    - intros b nb M. destruct (X4 b nb M) as (n & -> & F). eauto.
    - intros z x Iz C. apply MB. destruct (X1 z Iz) as [J|J]; [now apply (B3 z)|now apply (X2 z)].
    - intros c k' x bs Ek Ix. apply MB. now apply (X5 c k' x bs). }
  destruct a as [b priv rk|b priv s|i cr sr chal|e|b cmd].
  - destruct GU.
  - cbn [sys_step] in E. destruct (keq b _) as [|NK0]; [discriminate|]. destruct (mget (y_servers y) b); [discriminate|].
    destruct (mget (y_clients y) b) as [kb|] eqn:Eb; [discriminate|]. injection E as <-. set (k0 := init_client _ _ _ _ _) in *.
    apply (GO [cl_register S k0]); cbn [y_coord y_clients y_msgs]; auto.
    + intros z Iz. now apply in_app_or in Iz.
    + intros z x [<-|[]] C. destruct (carries_type _ _ C) as [T|T]; discriminate T.
    + intros z ad bn n [<-|[]] T. discriminate T.
    + intros c k' x bs. rewrite mget_mset. destruct (keq c b); [intros [= <-] []|apply B4].
  - cbn [sys_step] in E. destruct (nth_error (y_msgs y) i) as [m|] eqn:Em; [|discriminate]. cbn zeta in E.
    assert (Im : In m (y_msgs y)) by (eapply nth_error_In; exact Em).
    destruct (pick_split i _ m Em) as (l1 & l2 & EM & ER). rewrite ER in E.
    assert (MS : forall out x, In x ((l1 ++ l2) ++ out) -> In x (y_msgs y) \/ In x out).
    { intros out x J. rewrite EM. rewrite !in_app_iff in *. cbn [In]. tauto. }
    destruct (keq (mDst m) _) as [ED|ND].
    + destruct (co_handle _ _ _ _ _ _ _) as [[c' out]|] eqn:EH; [|discriminate]. injection E as <-.
      destruct (co_carries _ _ _ _ _ _ (h_co _ _ _ HO) EH) as (C1 & C2 & C3).
      apply (GO out); cbn [y_coord y_clients y_msgs].
      * apply MS.
      * intros z x Iz C. destruct (C1 z x Iz C) as [C'|(n & F1 & F2)]; [now apply (B3 m)|]. destruct (B2 _ _ F2) as (n' & [= <-] & F3). exists n. now split.
      * intros z ad bn n Iz T. elim (C3 z Iz T).
      * intros b nb M. destruct (C2 b nb M) as [M'|(T & bn & n & F1 & F2 & F3 & ->)]; [now apply B2|]. exists n. split; [reflexivity|]. now apply (B1 m b bn n).
      * exact B4.
    + destruct (mget (y_servers y) (mDst m)) as [s|] eqn:Es.
      * destruct (sv_handle _ _ _ _ _ _ _ _) as [[s' out]|] eqn:EH; [|discriminate]. injection E as <-. destruct (sv_carries _ _ _ _ _ EH) as [C1 C2].
        apply (GO out); cbn [y_coord y_clients y_msgs]; auto.
        -- intros z x Iz C. apply (B3 m); [assumption|now apply (C1 z)].
        -- intros z ad bn n Iz T. elim (C2 z Iz T).
      * destruct (mget (y_clients y) (mDst m)) as [k|] eqn:Ek; [|discriminate].
        destruct (cl_handle _ _ _ _ _ _) as [[k' out]|] eqn:EH; [|discriminate]. injection E as <-. destruct (cl_quiet S H G _ _ _ _ _ EH) as [Q1 Q2].
        apply (GO out); cbn [y_coord y_clients y_msgs]; auto.
        -- intros z x Iz C. elim (carries_quiet z x (Q1 z Iz) C).
        -- intros z ad bn n Iz T. elim (Q1 z Iz). rewrite T. cbn. tauto.
        -- intros c kc x bs. rewrite mget_mset. destruct (keq c (mDst m)) as [->|]; [intros [= <-]|apply B4].
           destruct Q2 as [[_ Q2]|[[_ Q2]|(T & ba & z & bs' & F1 & F2 & F3 & F4)]]; [rewrite Q2; intros []|rewrite Q2; now apply (B4 (mDst m) k)|].
           rewrite F4. intros J. apply in_app_or in J. destruct J as [J|[J|[]]]; [now apply (B4 (mDst m) k x bs)|]. injection J as <- <-.
           apply (B3 m); [assumption|]. right. split; [assumption|]. exists ba. now split.
  - cbn [sys_step] in E. destruct (is_loop e) eqn:EL; [|discriminate]. destruct (co_step _ _ _ _) as [[c' out]|] eqn:ES; [|discriminate]. injection E as <-.
    destruct e as [ty p src rn| |fakes ord| |ord rs]; try discriminate NE; try discriminate EL; try (destruct GU; fail); [now elim (NB fakes ord)|].
    cbn [co_step begin_vote] in ES. injection ES as <- <-. apply (GO (to_clients (y_coord y) Net.VOTE [])); cbn [y_coord y_clients y_msgs].
    + intros z Iz. now apply in_app_or in Iz.
    + intros z x Iz C. apply to_clients_type in Iz. destruct (carries_type _ _ C) as [T|T]; rewrite Iz in T; discriminate T.
    + intros z ad bn n Iz T. apply to_clients_type in Iz. rewrite Iz in T. discriminate T.
    + exact B2.
    + exact B4.
  - cbn [sys_step] in E. destruct (mget (y_clients y) b) as [k|] eqn:Ek; [|discriminate]. destruct (cl_command S G k cmd) as [out|] eqn:EC; [|discriminate]. injection E as <-.
    apply (GO out); cbn [y_coord y_clients y_msgs]; auto.
    + intros z Iz. now apply in_app_or in Iz.
    + intros z x Iz C. exfalso. destruct (carries_type _ _ C) as [T|T]; destruct cmd as [ba|ind rn|id f]; cbn [cl_command] in EC.
      1,4: injection EC as <-; destruct Iz as [<-|[]]; discriminate T.
      1,3: destruct (cl_request S G k ind rn) as [[z0|]|] eqn:ER; [|injection EC as <-; destruct Iz|discriminate]; injection EC as <-; destruct Iz as [<-|[]];
           destruct (request_fields S G k ind rn z0 ER) as (TM & _); rewrite TM in T; discriminate T.
      all: destruct (cl_vote S k id f) as [z0|] eqn:EV; [|discriminate]; injection EC as <-; destruct Iz as [<-|[]]; unfold cl_vote in EV; odestruct EV; injection EV as <-; discriminate T.
    + intros z ad bn n Iz T F1 F2 F3. destruct cmd as [ba|ind rn|id f]; cbn [cl_command] in EC.
      * injection EC as <-. destruct Iz as [<-|[]]. cbn in F1, F2. injection F1 as <-. injection F2 as <-.
        destruct CD as (_ & (k2 & [Ek2 IT]) & _). rewrite Ek in Ek2. injection Ek2 as <-.
        destruct (announced S OK H G GOK y V b k R O Ek IT) as (v & r & R0 & g & C & J1 & J2 & J3 & J4 & J5 & J6 & J7 & J8 & J9 & J10 & _).
        pose proof I as [BA _]. assert (NG : in_group S (cl_nym k)).
        { rewrite J10. unfold nym_of, pt_mul. apply (in_group_zexp S OK). pose proof (b_Vg _ _ _ _ _ BA) as F. rewrite Forall_forall in F. apply F. now apply (in_map fst) in J1. }
        rewrite (dec_enc_point S OK) in F3 by assumption. injection F3 as <-. exists (cl_pub k). cbn [posts_step]. rewrite Ek. split; [apply in_or_app; right; now left|].
        rewrite NY. now symmetry.
      * exfalso. destruct (cl_request S G k ind rn) as [[z0|]|] eqn:ER; [|injection EC as <-; destruct Iz|discriminate]. injection EC as <-. destruct Iz as [<-|[]].
        destruct (request_fields S G k ind rn z0 ER) as (TM & _). rewrite TM in T. discriminate T.
      * exfalso. destruct (cl_vote S k id f) as [z0|] eqn:EV; [|discriminate]. injection EC as <-. destruct Iz as [<-|[]]. unfold cl_vote in EV. odestruct EV. injection EV as <-. discriminate T.
Qed.

Lemma bare_back y P : bare y -> open_round y -> backing y P.
Proof.
  intros (X1 & X2 & X3) O. constructor.
  - intros m ad bn n Im T. elim (X1 m Im). left. rewrite T. cbn. tauto.
  - intros b nb M. elim (X2 _ _ M).
  - intros m x Im C. elim (X1 m Im). left. destruct (carries_type m x C) as [-> | ->]; cbn; tauto.
  - intros a k x bs Ek Ix. exfalso. destruct O as (O1 & O2 & _). destruct (X3 a k Ek) as [Z|(m & Z1 & Z2 & _)].
    + intros Z. rewrite Z in Ix. destruct Ix.
    + contradiction.
    + apply O2. split; [assumption|eauto].
Qed.

Theorem noted_back y V P : noted S H G y V P -> fo_nonneg (co_fb (y_coord y)) -> open_round y -> backing y P.
Proof.
  induction 1 as [self a fb trap gammas l y1 y2 F E M NE E2|y V P a y' NO IH GU CD E]; intros NN O'.
  - exfalso. cbn [sys_step is_loop co_step co_configure] in E2. injection E2 as <-. destruct O' as [O' _]. discriminate O'.
  - pose proof (noted_orderly _ _ _ NO) as OR. assert (NN' : fo_nonneg (co_fb (y_coord y))) by (unfold co_fb in *; now rewrite <- (sys_static S H G _ _ _ E)).
    pose proof (orderly_hon S OK H G GOK y V OR NN') as HO. pose proof (orderly_reach S H G y V OR) as R.
    destruct (is_end a) eqn:EE.
    { apply bare_back; [|assumption]. exact (proj2 (hon_out_step S OK H G GOK y V a y' R HO GU CD (or_intror EE) E)). }
    destruct (open_dec y) as [O|N]; [apply (back_in y V); auto|].
    apply bare_back; [|assumption]. exact (proj2 (hon_out_step S OK H G GOK y V a y' R HO GU CD (or_introl N) E)).
Qed.

(** ** Who is behind a post *)
Lemma noted_clients y V P : noted S H G y V P -> forall b q, In (b, q) P -> exists a k, mget (y_clients y) a = Some k /\ cl_pub k = q.
Proof.
  induction 1 as [|y V P a y' NO IH GU CD E]; [intros b q []|]. intros b q I.
  assert (X : exists c k, mget (y_clients y) c = Some k /\ cl_pub k = q).
  { destruct a as [| | |[]|c [ad| |]]; cbn [posts_step] in I; try (eapply IH; exact I); [destruct I|].
    destruct (mget (y_clients y) c) as [k|] eqn:Ek; [|eapply IH; exact I]. apply in_app_or in I. destruct I as [I|[I|[]]]; [eapply IH; exact I|]. injection I as <- <-. eauto. }
  destruct X as (c & k & Ek & <-). destruct (step_client S H G y a y' c k E Ek) as (k' & Ek' & EP). eauto.
Qed.
Lemma noted_keys y V P : noted S H G y V P -> forall b q, In (b, q) P -> In q (map fst V).
Proof.
  intros NO b q I. destruct (noted_clients y V P NO b q I) as (a & k & Ek & <-).
  destruct (reach_inv S OK H G GOK y V (orderly_reach S H G y V (noted_orderly _ _ _ NO))) as [B _]. now destruct (b_cl _ _ _ _ _ B a k Ek) as (_ & _ & _ & _ & _ & _ & X).
Qed.

Lemma honoured_noted y V P L : honoured S H G y V P L -> noted S H G y V P.
Proof. induction 1; [eapply n_start; eassumption|now eapply n_step]. Qed.
Definition single (P : postings) : Prop := forall b q q', In (b, q) P -> In (b, q') P -> q = q'.
Lemma honoured_single y V P L : honoured S H G y V P L -> single P.
Proof.
  induction 1 as [|y V P L a y' HO IH GU CD PC WI OP E]; [intros b q q' []|].
  destruct a as [| | |[]|c [ad| |]]; cbn [posts_step]; try exact IH; [intros b q q' []|].
  destruct (mget (y_clients y) c) as [k|] eqn:Ek; [|exact IH]. intros b q q' I I'. apply in_app_or in I. apply in_app_or in I'. cbn [one_poster] in OP.
  destruct I as [I|[I|[]]], I' as [I'|[I'|[]]].
  - eapply IH; eassumption.
  - injection I' as <- <-. exact (OP k q Ek I).
  - injection I as <- <-. symmetry. exact (OP k q' Ek I').
  - congruence.
Qed.
Lemma poster_single P b q : single P -> In (b, q) P -> poster P b = Some q.
Proof.
  intros SI I. unfold poster. destruct (find _ P) as [[b' q']|] eqn:F.
  - apply find_some in F. destruct F as [F1 F2]. cbn [fst] in F2. destruct (keq b' b) as [->|]; [|discriminate]. cbn. f_equal. exact (SI b q' q F1 I).
  - pose proof (find_none _ _ F _ I) as N. cbn [fst] in N. destruct (keq b b); [discriminate|contradiction].
Qed.

(** The vote goes to a client that posted the bridge in this round. *)
Lemma cast_backed y V P b k id f x bs : noted S H G y V P -> fo_nonneg (co_fb (y_coord y)) -> open_round y ->
  mget (y_clients y) b = Some k -> nth_error (cl_assigns k) (Z.to_nat id) = Some (x, bs) ->
  exists q, In (asAddr x, q) P /\ asNym x = Some (nym_of S y q) /\ cast S y V (ACommand b (CVote id f)) = [(q, if 0 <? f then 1 else -1)].
Proof.
  intros NO NN O Ek EX. destruct (k_held _ _ (noted_back y V P NO NN O) b k x bs Ek (nth_error_In _ _ EX)) as (n & E1 & q & I & E2).
  exists q. split; [assumption|]. split; [congruence|]. cbn [cast]. rewrite Ek, EX. cbn [fst]. rewrite E1.
  rewrite (owner_spec S OK G y V n q); [reflexivity| | |assumption].
  - exact (reach_inv S OK H G GOK y V (orderly_reach S H G y V (noted_orderly _ _ _ NO))).
  - eapply noted_keys; eassumption.
Qed.
Lemma honoured_fair y V P L : honoured S H G y V P L -> fo_nonneg (co_fb (y_coord y)) -> fair S H G y V L.
Proof.
  induction 1 as [|y V P L a y' HO IH GU CD PC WI OP E]; intros NN; [eapply f_start; eassumption|].
  assert (NN' : fo_nonneg (co_fb (y_coord y))) by (unfold co_fb in *; now rewrite <- (sys_static S H G _ _ _ E)).
  replace (cast_on y P a) with (cast S y V a); [exact (f_step S H G _ y V L a y' (IH NN') GU (conj CD (conj PC WI)) E)|].
  destruct a as [| | | |b [| |id f]]; try reflexivity. destruct CD as (O & _). cbn [cast cast_on].
  destruct (mget (y_clients y) b) as [k|] eqn:Ek; [|reflexivity]. destruct (nth_error (cl_assigns k) (Z.to_nat id)) as [[x bs]|] eqn:EX; [|reflexivity].
  destruct (cast_backed y V P b k id f x bs (honoured_noted _ _ _ _ HO) NN' O Ek EX) as (q & I & _ & EC). cbn [cast] in EC. rewrite Ek, EX in EC.
  rewrite EC. cbn [fst]. now rewrite (poster_single P _ q (honoured_single _ _ _ _ HO) I).
Qed.
End Posted.
