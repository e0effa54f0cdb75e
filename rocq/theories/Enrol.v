(** The registration of clients in a whole session: each client has at most one message of
    the registration and of the honesty check of the Fujisaki-Okamoto base on its way, and
    the answer it gets is the one to the challenge it holds. *)
From Coq Require Import ZArith Znumtheory Lia List Bool Permutation.
From Coq Require Import Strings.Byte.
From Coq Require String.
From Verif Require Import ZMod Bytes Suite Spec Pedersen ElGamal FujiOkam Equality Codec Maps Net Bridge Client
  Perm SimpleShuffle PairShuffle Server Coordinator History System Chain Prop_FujiOkam Prop_Codec Prop_Topology Prop_Chain Round RoundInv
  Prop_Coord Prop_Round Session Prop_Session.
Import ListNotations.
Import String.StringSyntax.
Open Scope Z_scope.
Delimit Scope string_scope with str.

(** ** Specification *)
(** The client a message of the registration belongs to. *)
Definition owner (m : msg) : list addr :=
  if mType m =? CLIENT_REGISTER_CONTROLLERSIDE then [mSrc m]
  else if mType m =? CLIENT_REGISTER_SERVERSIDE then
    match get_str (mParams m) "addr"%str with Some a => [a] | None => [] end
  else if mType m =? CLIENT_REGISTER_CONFIRMATION then [mDst m]
  else if mType m =? GN_HONESTY_CHALLENGE then [mSrc m]
  else if mType m =? GN_HONESTY_ANSWER then [mDst m]
  else [].
Definition enrol_types : list Z :=
  [CLIENT_REGISTER_CONTROLLERSIDE; CLIENT_REGISTER_SERVERSIDE; CLIENT_REGISTER_CONFIRMATION; GN_HONESTY_CHALLENGE; GN_HONESTY_ANSWER].
(** The coordinator knows the discrete logarithms of its generators and drew 480 secrets. *)
Definition trap_right (cst : costatic) : Prop :=
  fobase_ok (cs_fb cst) /\ fo_nonneg (cs_fb cst) /\ length (cs_hsec cst) = 480%nat /\
  forall i, (i < 6)%nat -> is_power (fN (cs_fb cst)) (fH1 (cs_fb cst)) (fo_alpha (cs_trap cst) i) (fo_gen (cs_fb cst) i).

Section Enrol.
Context (S : suite) (OK : suite_ok S) (H : oracle) (G : gob) (GOK : gob_ok G).
Context (cst : costatic).

(** The client has the coordinator's base and commitments, and a challenge of 480 bits. *)
Definition asks (k : client) : Prop :=
  cl_fb k = Some (cs_fb cst) /\ cl_hpub k = cs_hpub cst /\ length (cl_hchal k) = 480%nat.
Record enr_ok (cl : amap addr client) (m : msg) : Prop := {
  o_reg : mType m = CLIENT_REGISTER_CONTROLLERSIDE -> mget cl (mSrc m) <> None;
  o_srv : mType m = CLIENT_REGISTER_SERVERSIDE -> exists a, get_str (mParams m) "addr"%str = Some a /\ mget cl a <> None;
  o_conf : mType m = CLIENT_REGISTER_CONFIRMATION -> mget cl (mDst m) <> None /\
    get_bytes (mParams m) "honesty_prf"%str = Some (genc_bigints G (cs_hpub cst));
  o_chal : mType m = GN_HONESTY_CHALLENGE -> mDst m = cs_addr cst /\ exists k, mget cl (mSrc m) = Some k /\ asks k /\
    get_bytes (mParams m) "honesty_chal"%str = Some (enc_bools (cl_hchal k));
  o_ans : mType m = GN_HONESTY_ANSWER -> exists k ans, mget cl (mDst m) = Some k /\ asks k /\
    get_bytes (mParams m) "honesty_ans"%str = Some (genc_bigints G ans) /\
    gn_answer_all (cs_trap cst) (cl_hchal k) (cs_hsec cst) = Some ans
}.
Definition owners (M : list msg) : list addr := flat_map owner M.
Record enrol (y : sys) : Prop := {
  r_nd : NoDup (owners (y_msgs y));
  r_msg : Forall (enr_ok (y_clients y)) (y_msgs y)
}.

Lemma owner_none m : ~ In (mType m) enrol_types -> owner m = [].
Proof.
  intros N. unfold owner, enrol_types in *. cbn [In] in N.
  repeat match goal with |- context [mType m =? ?b] => destruct (Z.eqb_spec (mType m) b) as [E|_]; [exfalso; symmetry in E; tauto|] end. reflexivity.
Qed.
Lemma enr_none cl m : ~ In (mType m) enrol_types -> enr_ok cl m.
Proof. intros N. constructor; intros E; exfalso; apply N; rewrite E; unfold enrol_types; cbn; tauto. Qed.
Lemma owners_none l : Forall (fun m => ~ In (mType m) enrol_types) l -> owners l = [].
Proof. induction 1 as [|m l N F IH]; [reflexivity|]. unfold owners in *. cbn [flat_map]. now rewrite owner_none. Qed.
Lemma enr_all_none cl l : Forall (fun m => ~ In (mType m) enrol_types) l -> Forall (enr_ok cl) l.
Proof. apply Forall_impl. intros m. apply enr_none. Qed.
Lemma owners_app l l' : owners (l ++ l') = owners l ++ owners l'.
Proof. apply flat_map_app. Qed.
Lemma in_owners a m M : In m M -> In a (owner m) -> In a (owners M).
Proof. intros I J. apply in_flat_map. now exists m. Qed.

(** Every owner is a client. *)
Lemma owner_client cl m a : enr_ok cl m -> In a (owner m) -> mget cl a <> None.
Proof.
  intros [X1 X2 X3 X4 X5] I. unfold owner in I.
  destruct (Z.eqb_spec (mType m) CLIENT_REGISTER_CONTROLLERSIDE) as [T|_]; [destruct I as [<-|[]]; now apply X1|].
  destruct (Z.eqb_spec (mType m) CLIENT_REGISTER_SERVERSIDE) as [T|_].
  { destruct (X2 T) as (b & E & N). rewrite E in I. destruct I as [<-|[]]. assumption. }
  destruct (Z.eqb_spec (mType m) CLIENT_REGISTER_CONFIRMATION) as [T|_]; [destruct I as [<-|[]]; now apply X3|].
  destruct (Z.eqb_spec (mType m) GN_HONESTY_CHALLENGE) as [T|_].
  { destruct (X4 T) as (_ & k & E & _). destruct I as [<-|[]]. congruence. }
  destruct (Z.eqb_spec (mType m) GN_HONESTY_ANSWER) as [T|_]; [|destruct I].
  destruct (X5 T) as (k & ans & E & _). destruct I as [<-|[]]. congruence.
Qed.

(** A message keeps what it is about when clients other than its owner change. *)
Lemma enr_mono cl cl' m : enr_ok cl m -> (forall a, mget cl a <> None -> mget cl' a <> None) ->
  (forall a k, In a (owner m) -> mget cl a = Some k -> exists k', mget cl' a = Some k' /\ cl_fb k' = cl_fb k /\ cl_hpub k' = cl_hpub k /\ cl_hchal k' = cl_hchal k) ->
  enr_ok cl' m.
Proof.
  intros [X1 X2 X3 X4 X5] D K. constructor; intros T.
  - apply D, X1, T.
  - destruct (X2 T) as (a & E & N). exists a. auto.
  - destruct (X3 T) as [N E]. auto.
  - destruct (X4 T) as (E & k & M & (A1 & A2 & A3) & B). split; [assumption|]. destruct (K (mSrc m) k) as (k' & M' & E1 & E2 & E3); [unfold owner; rewrite T; now left|assumption|].
    exists k'. split; [assumption|]. unfold asks. rewrite E1, E2, E3. auto.
  - destruct (X5 T) as (k & ans & M & (A1 & A2 & A3) & B & C). destruct (K (mDst m) k) as (k' & M' & E1 & E2 & E3); [unfold owner; rewrite T; now left|assumption|].
    exists k', ans. split; [assumption|]. unfold asks. rewrite E1, E2, E3. auto.
Qed.

Ltac out_none O := apply Forall_forall; intros x I; specialize (O x I);
  repeat match type of O with context [if ?b then _ else _] => destruct b end; cbn in O;
  repeat (destruct O as [O|O]; [rewrite <- O; cbn; intuition discriminate|]); destruct O.

(** ** The coordinator *)
Lemma co_enrol c m cr c' out cl : co_static c = cst -> enr_ok cl m ->
  co_handle S G c (mType m) (mParams m) (mSrc m) cr = Some (c', out) ->
  (owners out = owner m \/ owners out = []) /\ Forall (enr_ok cl) out.
Proof.
  intros ET EN E.
  destruct (Z.eq_dec (mType m) CLIENT_REGISTER_CONTROLLERSIDE) as [T|N1].
  { pose proof (o_reg _ _ EN T) as MS. rewrite T in E. change (co_client_register S c (mParams m) (mSrc m) cr = Some (c', out)) in E.
    unfold co_client_register in E. destruct (get_bytes (mParams m) "public_key"%str) as [bk|]; [|discriminate]. cbv zeta in E.
    destruct (ped_commit S (co_pb c) (sec_of_int S starting_credit) (crR cr)) as [pc r].
    unfold send in E. destruct (first_server c) as [f|]; [|discriminate]. destruct (co_G c) as [g|]; [|discriminate]. injection E as <- <-.
    split; [left; unfold owner at 1; rewrite T; reflexivity|].
    constructor; [|constructor; [apply enr_none; cbn; intuition discriminate|constructor]].
    constructor; cbn [mType]; try discriminate. intros _. exists (mSrc m). split; [reflexivity|assumption]. }
  destruct (Z.eq_dec (mType m) CLIENT_REGISTER_SERVERSIDE) as [T|N2].
  { destruct (o_srv _ _ EN T) as (a & EA & MA). rewrite T in E. change (co_client_confirm S G c (mParams m) = Some (c', out)) in E.
    unfold co_client_confirm in E. rewrite EA in E. odestruct E. injection E as <- <-.
    split; [left; unfold owner at 1; rewrite T, EA; reflexivity|]. constructor; [|constructor].
    constructor; cbn [mType]; try discriminate. intros _. split; [assumption|]. rewrite ET. reflexivity. }
  destruct (Z.eq_dec (mType m) GN_HONESTY_CHALLENGE) as [T|N3].
  { destruct (o_chal _ _ EN T) as (ED & k & MK & A & EC). rewrite T in E. change (co_honesty G c (mParams m) (mSrc m) = Some (c', out)) in E.
    unfold co_honesty in E. rewrite EC in E.
    destruct (C23_lists S OK [] [] (cl_hchal k)) as (_ & _ & DB); [intros ? []|intros ? []|]. rewrite DB, ET in E.
    destruct (gn_answer_all (cs_trap cst) (cl_hchal k) (cs_hsec cst)) as [ans|] eqn:EA; [|discriminate]. injection E as <- <-.
    split; [left; unfold owner at 1; rewrite T; reflexivity|]. constructor; [|constructor].
    constructor; cbn [mType]; try discriminate. intros _. exists k, ans. split; [assumption|]. split; [assumption|]. split; [reflexivity|assumption]. }
  destruct (co_step_frame S G c (EMsg (mType m) (mParams m) (mSrc m) cr) c' out E) as [_ O]. cbn [emits_ev] in O.
  assert (F : Forall (fun m => ~ In (mType m) enrol_types) out).
  { apply Z.eqb_neq in N1, N2, N3. unfold emits in O. rewrite N1, N2, N3 in O. out_none O. }
  split; [right; now apply owners_none|now apply enr_all_none].
Qed.

(** ** A server *)
Lemma sv_enrol s m sr s' out cl : enr_ok cl m ->
  sv_handle S H G s (mType m) (mParams m) (mSrc m) sr = Some (s', out) ->
  (owners out = owner m \/ owners out = []) /\ Forall (enr_ok cl) out.
Proof.
  intros EN E. destruct (Z.eq_dec (mType m) CLIENT_REGISTER_SERVERSIDE) as [T|N].
  { destruct (o_srv _ _ EN T) as (a & EA & MA). rewrite T in E. change (sv_client_register S s (mParams m) = Some (s', out)) in E.
    unfold sv_client_register in E. cbv zeta in E. rewrite EA in E. odestruct E. injection E as <- <-.
    split; [left; unfold owner at 1; rewrite T, EA; reflexivity|]. constructor; [|constructor].
    constructor; cbn [mType]; try discriminate. intros _. exists a. split; [reflexivity|assumption]. }
  destruct (C60_server_frame S H G _ _ _ _ _ _ _ E) as [_ SO].
  assert (F : Forall (fun m => ~ In (mType m) enrol_types) out).
  { apply Forall_forall. intros x I. specialize (SO x I). cbn in SO.
    repeat (destruct SO as [SO|SO]; [injection SO as SO1 SO2; try (now destruct N); rewrite <- SO2; cbn; intuition discriminate|]). destruct SO. }
  split; [right; now apply owners_none|now apply enr_all_none].
Qed.

(** ** A client *)
Lemma cl_other k ty p chal k' out : cl_handle S G k ty p chal = Some (k', out) -> ty <> CLIENT_REGISTER_CONFIRMATION ->
  out = [] /\ cl_fb k' = cl_fb k /\ cl_hpub k' = cl_hpub k /\ cl_hchal k' = cl_hchal k.
Proof.
  intros E N. unfold cl_handle in E. rewrite (proj2 (Z.eqb_neq _ _) N) in E.
  repeat match type of E with (if ?b then _ else _) = _ => destruct b end;
    unfold cl_init_r, cl_honesty_answer, cl_announce_final, cl_got_signatures, cl_vote_start, cl_round_end, cl_rdiff, cl_vote_reply in E; cbv zeta in E;
    odestruct E; injection E as <- <-; repeat split; reflexivity || congruence.
Qed.
Lemma cl_conf k m chal k' out cl : conf_ok S (cs_fb cst) (cs_pub cst) m -> enr_ok cl m -> mType m = CLIENT_REGISTER_CONFIRMATION ->
  cl_handle S G k (mType m) (mParams m) chal = Some (k', out) ->
  cl_fb k' = Some (cs_fb cst) /\ cl_hpub k' = cs_hpub cst /\ cl_hchal k' = chal /\
  out = [Msg (cl_coord k) GN_HONESTY_CHALLENGE [("honesty_chal"%str, VBytes (enc_bools chal))] (cl_addr k)].
Proof.
  intros CO EN T E. destruct (o_conf _ _ EN T) as [_ EH]. destruct (CO T) as (EF & _). rewrite T in E.
  change (cl_register_confirmation S G k (mParams m) chal = Some (k', out)) in E. unfold cl_register_confirmation in E.
  rewrite EF, EH, (g_bigints G GOK) in E. odestruct E. injection E as <- <-. repeat split; reflexivity.
Qed.

(** ** The whole system *)
Definition long_chal (y : sys) (a : action) : Prop :=
  match a with
  | ADeliver i _ _ chal => forall m, nth_error (y_msgs y) i = Some m -> mType m = CLIENT_REGISTER_CONFIRMATION -> length chal = 480%nat
  | _ => True
  end.

Lemma NoDup_app_intro {A} (l l' : list A) : NoDup l -> NoDup l' -> (forall x, In x l -> ~ In x l') -> NoDup (l ++ l').
Proof.
  induction l as [|a l IH]; intros N N' D; [assumption|]. inversion N as [|? ? NI N1]; subst. cbn [app]. constructor.
  - intros I. apply in_app_or in I. destruct I as [I|I]; [contradiction|]. apply (D a); [now left|assumption].
  - apply IH; try assumption. intros x I. apply D. now right.
Qed.
Lemma owners_pick l1 m l2 out : NoDup (owners (l1 ++ m :: l2)) -> owners out = owner m \/ owners out = [] -> NoDup (owners ((l1 ++ l2) ++ out)).
Proof.
  intros N O. rewrite !owners_app in *. unfold owners at 2 in N. cbn [flat_map] in N. fold (owners l2) in N.
  assert (P : Permutation (owners l1 ++ owner m ++ owners l2) ((owners l1 ++ owners l2) ++ owner m)).
  { rewrite <- app_assoc. apply Permutation_app_head, Permutation_app_comm. }
  apply (Permutation_NoDup P) in N. destruct O as [->| ->]; [assumption|]. rewrite app_nil_r.
  clear P. induction (owners l1 ++ owners l2) as [|a l IH]; [constructor|]. cbn [app] in N. inversion N as [|? ? NI N1]; subst.
  constructor; [intros I; apply NI; apply in_or_app; now left|now apply IH].
Qed.
Lemma owners_apart l1 m l2 a m' : NoDup (owners (l1 ++ m :: l2)) -> In a (owner m) -> In m' (l1 ++ l2) -> ~ In a (owner m').
Proof.
  intros N Ia Im J. rewrite owners_app in N. unfold owners at 2 in N. cbn [flat_map] in N. fold (owners l2) in N.
  assert (P : Permutation (owners l1 ++ owner m ++ owners l2) (owner m ++ owners (l1 ++ l2))).
  { rewrite owners_app, !app_assoc. apply Permutation_app_tail, Permutation_app_comm. }
  apply (Permutation_NoDup P) in N. pose proof (in_owners a m' _ Im J) as K.
  clear - N Ia K. induction (owner m) as [|b l IH]; [destruct Ia|]. cbn [app] in N. inversion N as [|? ? NI N1]; subst.
  destruct Ia as [->|Ia]; [apply NI; apply in_or_app; now right|now apply IH].
Qed.

Lemma enrol_step y V a y' : inv S G y V -> ses S (cs_fb cst) y -> co_static (y_coord y) = cst -> enrol y -> guard S y V a -> long_chal y a ->
  sys_step S H G y a = Some y' -> enrol y'.
Proof.
  intros IV SE ET [R1 R2] GU LC E. destruct IV as [BA PH].
  assert (CA : co_addr (y_coord y) = cs_addr cst) by (unfold co_addr; now rewrite ET).
  destruct a as [b priv rk|b priv s|i cr sr chal|e|b cmd]; cbn [sys_step] in E.
  - destruct GU.
  - destruct (keq b _); [discriminate|]. destruct (mget (y_servers y) b); [discriminate|].
    destruct (mget (y_clients y) b) as [kb|] eqn:Eb; [discriminate|]. injection E as <-. set (k0 := init_client _ _ _ _ _) in *.
    constructor; cbn [y_clients y_msgs].
    + rewrite owners_app. apply NoDup_app_intro; [assumption|cbn; constructor; [intros []|constructor]|].
      intros x I [<-|[]]. apply in_flat_map in I. destruct I as (m & Im & Io). rewrite Forall_forall in R2.
      apply (owner_client _ _ _ (R2 m Im)) in Io. contradiction.
    + apply Forall_app. split.
      * eapply Forall_impl; [|exact R2]. intros m EN. apply (enr_mono (y_clients y)); [assumption| |].
        -- intros x N. rewrite mget_mset. destruct (keq x b); [discriminate|assumption].
        -- intros x k _ M. exists k. rewrite mget_mset_ne by congruence. repeat split; assumption.
      * constructor; [|constructor]. constructor; cbn [mType cl_register]; try discriminate. intros _. cbn [mSrc cl_addr init_client k0].
        rewrite mget_mset_eq. discriminate.
  - destruct (nth_error (y_msgs y) i) as [m|] eqn:Em; [|discriminate]. cbn zeta in E. cbn [long_chal] in LC. specialize (LC m Em).
    assert (Im : In m (y_msgs y)) by (eapply nth_error_In; exact Em).
    destruct (pick_split i _ m Em) as (l1 & l2 & EM & ER). rewrite ER in E. rewrite EM in R1, R2.
    assert (EN : enr_ok (y_clients y) m) by (rewrite Forall_forall in R2; apply R2; apply in_or_app; right; now left).
    assert (R2' : Forall (enr_ok (y_clients y)) (l1 ++ l2)).
    { apply Forall_app in R2. destruct R2 as [F1 F2]. inversion F2; subst. apply Forall_app. now split. }
    destruct (keq (mDst m) _) as [ED|ND].
    + destruct (co_handle _ _ _ _ _ _ _) as [[c' out]|] eqn:EH; [|discriminate]. injection E as <-.
      destruct (co_enrol _ _ _ _ _ (y_clients y) ET EN EH) as [O1 O2]. constructor; cbn [y_clients y_msgs].
      * now apply (owners_pick l1 m l2).
      * apply Forall_app. now split.
    + destruct (mget (y_servers y) (mDst m)) as [s|] eqn:Es.
      * destruct (sv_handle _ _ _ _ _ _ _ _) as [[s' out]|] eqn:EH; [|discriminate]. injection E as <-.
        destruct (sv_enrol _ _ _ _ _ (y_clients y) EN EH) as [O1 O2]. constructor; cbn [y_clients y_msgs].
        -- now apply (owners_pick l1 m l2).
        -- apply Forall_app. now split.
      * destruct (mget (y_clients y) (mDst m)) as [k|] eqn:Ek; [|discriminate].
        destruct (cl_handle _ _ _ _ _ _) as [[k' out]|] eqn:EH; [|discriminate]. injection E as <-.
        destruct (b_cl _ _ _ _ _ BA _ _ Ek) as (_ & KA & KC & _).
        assert (DOM : forall x, mget (y_clients y) x <> None -> mget (mset (y_clients y) (mDst m) k') x <> None).
        { intros x N. rewrite mget_mset. destruct (keq x (mDst m)); [discriminate|assumption]. }
        destruct (Z.eq_dec (mType m) CLIENT_REGISTER_CONFIRMATION) as [T|NT].
        -- assert (CO : conf_ok S (cs_fb cst) (cs_pub cst) m).
           { pose proof (e_conf _ _ _ SE) as F. rewrite Forall_forall in F. specialize (F m Im). unfold co_pub in F. now rewrite ET in F. }
           destruct (cl_conf _ _ _ _ _ _ CO EN T EH) as (F1 & F2 & F3 & ->).
           constructor; cbn [y_clients y_msgs].
           ++ apply (owners_pick l1 m l2); [assumption|]. left. unfold owner. rewrite T. cbn. now rewrite KA.
           ++ apply Forall_app. split.
              ** rewrite Forall_forall in R2' |- *. intros m' I'. apply (enr_mono (y_clients y)); [now apply R2'|exact DOM|].
                 intros x kx Ix Mx. exists kx. rewrite mget_mset_ne; [now repeat split|]. intros <-.
                 apply (owners_apart l1 m l2 (mDst m) m' R1); [unfold owner; rewrite T; now left|assumption|assumption].
              ** constructor; [|constructor]. constructor; cbn [mType]; try discriminate. intros _. cbn [mDst mSrc mParams].
                 split; [congruence|]. exists k'. rewrite KA, mget_mset_eq. split; [reflexivity|]. split; [|rewrite F3; reflexivity].
                 unfold asks. rewrite F3. auto.
        -- destruct (cl_other _ _ _ _ _ _ EH NT) as (-> & F1 & F2 & F3). constructor; cbn [y_clients y_msgs].
           ++ apply (owners_pick l1 m l2); [assumption|]. now right.
           ++ rewrite app_nil_r. eapply Forall_impl; [|exact R2']. intros m' EN'. apply (enr_mono (y_clients y)); [assumption|exact DOM|].
              intros x kx _ Mx. rewrite mget_mset. destruct (keq x (mDst m)) as [->|]; [|now exists kx].
              assert (kx = k) by congruence. subst kx. exists k'. auto.
  - destruct (is_loop e) eqn:EL; [|discriminate]. destruct (co_step _ _ _ _) as [[c' out]|] eqn:ES; [|discriminate]. injection E as <-.
    destruct (co_step_frame S G _ e c' out ES) as [_ O].
    assert (F : Forall (fun m => ~ In (mType m) enrol_types) out).
    { destruct e; try discriminate EL; cbn [emits_ev] in O; out_none O. }
    constructor; cbn [y_clients y_msgs].
    + rewrite owners_app, (owners_none out F), app_nil_r. assumption.
    + apply Forall_app. split; [assumption|now apply enr_all_none].
  - destruct (mget (y_clients y) b) as [k|] eqn:Ek; [|discriminate]. destruct (cl_command S G k cmd) as [out|] eqn:EC; [|discriminate]. injection E as <-.
    assert (F : Forall (fun m => ~ In (mType m) enrol_types) out).
    { clear - EC. destruct cmd as [a|ind rn|id f]; cbn [cl_command] in EC.
      - injection EC as <-. constructor; [cbn; intuition discriminate|constructor].
      - destruct (cl_request S G k ind rn) as [[m|]|] eqn:ER; [|injection EC as <-; constructor|discriminate].
        injection EC as <-. constructor; [|constructor]. unfold cl_request in ER. cbv zeta in ER. odestruct ER. injection ER as <-. cbn. intuition discriminate.
      - destruct (cl_vote S k id f) as [m|] eqn:EV; [|discriminate]. injection EC as <-. constructor; [|constructor].
        unfold cl_vote in EV. cbv zeta in EV. odestruct EV. injection EV as <-. cbn. intuition discriminate. }
    constructor; cbn [y_clients y_msgs].
    + rewrite owners_app, (owners_none out F), app_nil_r. assumption.
    + apply Forall_app. split; [assumption|now apply enr_all_none].
Qed.

(** ** No message of the registration stops anybody *)
Lemma answer_made bits : trap_right cst -> cs_hpub cst = snd (gn_generate_all (cs_fb cst) (cs_hsec cst)) -> length bits = 480%nat ->
  exists ans, gn_answer_all (cs_trap cst) bits (cs_hsec cst) = Some ans /\ gn_check_all (cs_fb cst) ans bits (cs_hpub cst) = Some 0.
Proof.
  intros (F1 & F2 & F3 & F4) EP L. destruct (C10_honest (cs_fb cst) (cs_trap cst) (cs_hsec cst) bits F1 F4 F3 L) as (ans & A1 & A2).
  exists ans. rewrite EP. now split.
Qed.
Definition honesty_types : list Z := [CLIENT_REGISTER_CONFIRMATION; GN_HONESTY_CHALLENGE; GN_HONESTY_ANSWER].
Lemma enrol_live y V i m cr sr chal : inv S G y V -> ses S (cs_fb cst) y -> co_static (y_coord y) = cst -> enrol y -> trap_right cst ->
  cs_hpub cst = snd (gn_generate_all (cs_fb cst) (cs_hsec cst)) ->
  nth_error (y_msgs y) i = Some m -> In (mType m) honesty_types -> sys_step S H G y (ADeliver i cr sr chal) <> None.
Proof.
  intros [BA PH] SE ET [R1 R2] TR EP Em IT.
  assert (Im : In m (y_msgs y)) by (eapply nth_error_In; exact Em).
  assert (EN : enr_ok (y_clients y) m) by (rewrite Forall_forall in R2; now apply R2).
  assert (CA : co_addr (y_coord y) = cs_addr cst) by (unfold co_addr; now rewrite ET).
  assert (CL : forall k, mget (y_clients y) (mDst m) = Some k -> cl_handle S G k (mType m) (mParams m) chal <> None -> sys_step S H G y (ADeliver i cr sr chal) <> None).
  { intros k Ek NN. destruct (b_cl _ _ _ _ _ BA _ _ Ek) as (_ & _ & _ & NA & NS & _). cbn [sys_step]. rewrite Em. cbv zeta. destruct (keq (mDst m) _); [contradiction|].
    rewrite NS, Ek. destruct (cl_handle _ _ _ _ _ _) as [[? ?]|]; [discriminate|contradiction]. }
  destruct IT as [T|[T|[T|[]]]]; symmetry in T.
  - destruct (o_conf _ _ EN T) as [MK EH]. destruct (mget (y_clients y) (mDst m)) as [k|] eqn:Ek; [|contradiction]. apply (CL k eq_refl).
    pose proof (e_conf _ _ _ SE) as F. rewrite Forall_forall in F. destruct (F m Im T) as (EF & b & Eb & Db).
    rewrite T. change (cl_register_confirmation S G k (mParams m) chal <> None). unfold cl_register_confirmation.
    rewrite EF, EH, (g_bigints G GOK), Eb, Db. discriminate.
  - destruct (o_chal _ _ EN T) as (ED & k & MK & (A1 & A2 & A3) & EC). cbn [sys_step]. rewrite Em. cbv zeta. destruct (keq (mDst m) _); [|congruence].
    rewrite T. change (co_handle S G (y_coord y) GN_HONESTY_CHALLENGE (mParams m) (mSrc m) cr) with (co_honesty G (y_coord y) (mParams m) (mSrc m)). unfold co_honesty. rewrite EC.
    destruct (C23_lists S OK [] [] (cl_hchal k)) as (_ & _ & DB); [intros ? []|intros ? []|]. rewrite DB, ET.
    destruct (answer_made (cl_hchal k) TR EP A3) as (ans & -> & _). discriminate.
  - destruct (o_ans _ _ EN T) as (k & ans & Ek & (A1 & A2 & A3) & EA & GA). apply (CL k Ek).
    rewrite T. change (cl_honesty_answer G k (mParams m) <> None). unfold cl_honesty_answer. rewrite A1, EA, (g_bigints G GOK), A2.
    destruct (answer_made (cl_hchal k) TR EP A3) as (ans' & GA' & GC). assert (ans' = ans) by congruence. subst ans'. rewrite GC. discriminate.
Qed.
End Enrol.
