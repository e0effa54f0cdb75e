(** What the parties hold while a round is open: the coordinator's history inside a run of
    the system, the Fujisaki-Okamoto base at servers and clients, and what stays the same
    until the round ends. *)
From Coq Require Import ZArith Znumtheory Lia List Bool Permutation.
From Coq Require Import Strings.Byte.
From Coq Require String.
From Verif Require Import ZMod Bytes Suite Spec Pedersen ElGamal FujiOkam Equality Codec Maps Net Bridge Client
  Perm SimpleShuffle PairShuffle Server Coordinator History System Chain Prop_Topology Prop_Chain Round RoundInv
  Prop_Coord Prop_Round.
Import ListNotations.
Import String.StringSyntax.
Open Scope Z_scope.
Delimit Scope string_scope with str.

(** All numbers of the base are sent with big.Int.Bytes, which drops the sign. *)
Definition fo_nonneg (fb : fobase) : Prop :=
  0 <= fN fb /\ 0 <= fH1 fb /\ 0 <= fG1 fb /\ 0 <= fG2 fb /\ 0 <= fG3 fb /\ 0 <= fG4 fb /\ 0 <= fG5 fb /\ 0 <= fG6 fb.

Section Session.
Context (S : suite) (OK : suite_ok S) (H : oracle) (G : gob) (GOK : gob_ok G).

(** ** The coordinator's history *)
Lemma step_coord y a y' : sys_step S H G y a = Some y' ->
  y_coord y' = y_coord y \/ exists e out, co_step S G (y_coord y) e = Some (y_coord y', out).
Proof.
  intros E. destruct a as [a priv rk|a priv s|i cr sr chal|e|a cmd]; cbn [sys_step] in E.
  - destruct (keq a _); [discriminate|]. destruct (mget (y_servers y) a); [discriminate|].
    destruct (mget (y_clients y) a); [discriminate|]. injection E as <-. now left.
  - destruct (keq a _); [discriminate|]. destruct (mget (y_servers y) a); [discriminate|].
    destruct (mget (y_clients y) a); [discriminate|]. injection E as <-. now left.
  - destruct (nth_error (y_msgs y) i) as [m|]; [|discriminate]. cbn zeta in E. destruct (keq (mDst m) _).
    + destruct (co_handle _ _ _ _ _ _ _) as [[c' out]|] eqn:EC; [|discriminate]. injection E as <-. right.
      exists (EMsg (mType m) (mParams m) (mSrc m) cr), out. exact EC.
    + destruct (mget (y_servers y) (mDst m)).
      * destruct (sv_handle _ _ _ _ _ _ _ _) as [[s' out]|]; [|discriminate]. injection E as <-. now left.
      * destruct (mget (y_clients y) (mDst m)) as [k0|]; [|discriminate].
        destruct (cl_handle _ _ _ _ _ _) as [[k0' out]|]; [|discriminate]. injection E as <-. now left.
  - destruct (is_loop e); [|discriminate]. destruct (co_step _ _ _ _) as [[c' out]|] eqn:EC; [|discriminate]. injection E as <-. right. now exists e, out.
  - destruct (mget (y_clients y) a); [|discriminate]. destruct (cl_command _ _ _ _); [|discriminate]. injection E as <-. now left.
Qed.
Lemma sys_run_coord y0 l : forall y c0 t, run S G c0 t (y_coord y0) -> sys_run S H G y0 l = Some y -> exists t', run S G c0 t' (y_coord y).
Proof.
  revert y0. induction l as [|a l IH]; intros y0 y c0 t R E; cbn [sys_run] in E.
  - injection E as <-. now exists t.
  - destruct (sys_step S H G y0 a) as [y1|] eqn:E1; [|discriminate].
    destruct (step_coord _ _ _ E1) as [X|(e & out & X)].
    + apply (IH y1 y c0 t); [now rewrite X|assumption].
    + eapply (IH y1 y c0); [|exact E]. eapply run_snoc; eassumption.
Qed.
(** The coordinator of a reachable state has gone through a history of History.v, so the
    theorems about those apply. *)
Lemma reach_run y V : reach S H G y V -> exists self a fb trap gammas t, run S G (init_coord S self a fb trap gammas) t (y_coord y).
Proof.
  induction 1 as [self a fb trap gammas l y1 y2 F E M NE E2|y V a y' R IH GU E].
  - exists self, a, fb, trap, gammas.
    assert (E3 : sys_run S H G (init_sys S self a fb trap gammas) (l ++ [ALoop EConfigure]) = Some y2).
    { rewrite sys_run_app, E. cbn [sys_run]. now rewrite E2. }
    eapply sys_run_coord; [|exact E3]. apply run_nil.
  - destruct IH as (self & a0 & fb & trap & gammas & t & RR). exists self, a0, fb, trap, gammas.
    destruct (step_coord _ _ _ E) as [X|(e & out & X)]; [rewrite X; now exists t|]. eexists. eapply run_snoc; eassumption.
Qed.

Lemma assign_reqs c num nym ords l c' : assign_bridges c num nym ords = (l, c') -> co_reqs c' = co_reqs c.
Proof. unfold assign_bridges. destruct (get_bridges _ _ _). intros [= <- <-]. reflexivity. Qed.
(** RequesterAddrs is there once a round has begun. *)
Lemma step_reqs c e c' out : co_step S G c e = Some (c', out) -> (co_first c = false -> co_reqs c <> None) ->
  co_first c' = false -> co_reqs c' <> None.
Proof.
  intros E I F. destruct (co_step_frame S G c e c' out E) as [FR _].
  destruct e as [ty p src rn| |fakes ord| |ord rs].
  - assert (FF : co_first c' = co_first c).
    { apply (FR FFirst). cbn [writes_ev]. unfold writes. repeat match goal with |- context [if ?b then _ else _] => destruct b end; cbn; intuition discriminate. }
    rewrite FF in F. specialize (I F). destruct (Z.eqb_spec ty REQUEST_BRIDGES) as [->|N].
    + change (co_request S G c p src rn = Some (c', out)) in E. unfold co_request in E.
      odestruct E; try (injection E as <- <-; assumption); injection E as <- <-.
      * match goal with X : assign_bridges _ _ _ _ = _ |- _ => apply assign_reqs in X; rewrite X end. discriminate.
      * match goal with X : open_assignments S ?q ?l = Some _ |- _ => destruct (open_total S l q) as (x & Hx); rewrite Hx in X; injection X as <- end.
        match goal with X : assign_bridges _ _ _ _ = _ |- _ => apply assign_reqs in X; cbn [co_reqs set_asigs]; rewrite X end. discriminate.
    + assert (FQ : co_reqs c' = co_reqs c).
      { apply (FR FReqs). cbn [writes_ev]. unfold writes. rewrite (proj2 (Z.eqb_neq _ _) N).
        repeat match goal with |- context [if ?b then _ else _] => destruct b end; cbn; intuition discriminate. }
      now rewrite FQ.
  - injection E as <- <-. exact (I F).
  - cbn [co_step] in E. unfold begin_round in E. destruct (negb _); [discriminate|]. unfold announce in E.
    destruct (first_server _); [|injection E as <- <-; cbn; discriminate]. odestruct E; injection E as <- <-; cbn; discriminate.
  - injection E as <- <-. exact (I F).
  - assert (FQ : co_reqs c' = co_reqs c) by (apply (FR FReqs); cbn; intuition discriminate).
    assert (FF : co_first c' = co_first c) by (apply (FR FFirst); cbn; intuition discriminate). rewrite FQ. apply I. congruence.
Qed.
Lemma run_reqs self a fb trap gammas t c : run S G (init_coord S self a fb trap gammas) t c -> co_first c = false -> co_reqs c <> None.
Proof.
  induction 1 as [|t c e c' out R IH E].
  - unfold init_coord. destruct (gn_generate_all fb gammas). discriminate.
  - eapply step_reqs; eassumption.
Qed.

(** ** The Fujisaki-Okamoto base *)
Lemma read_params fb pre post : fo_nonneg fb ->
  (forall k, In k ["n"%str; "g1"%str; "g2"%str; "g3"%str; "g4"%str; "g5"%str; "g6"%str; "h1"%str] -> lookup pre k = None) ->
  read_fobase (pre ++ fobase_params fb ++ post) = Some fb.
Proof.
  intros (N0 & N1 & N2 & N3 & N4 & N5 & N6 & N7) L. unfold read_fobase, get_bytes.
  rewrite !(lookup_app pre) by (apply L; cbn; tauto). unfold fobase_params. cbn [app lookup String.eqb Ascii.eqb Bool.eqb].
  rewrite !be_z_bytes, !Z.abs_eq by assumption. now destruct fb.
Qed.

(** What servers hold after the configuration: the coordinator's base, and the coordinator
    has their public keys. *)
Record sinv (fb : fobase) (y : sys) : Prop := {
  s_cfb : co_fb (y_coord y) = fb;
  s_fb : forall a s, mget (y_servers y) a = Some s -> sv_fb s = Some fb \/ In a (Prop_Topology.regs (y_msgs y)) \/
    exists prev h, In (reply_msg S (y_coord y) a prev h) (y_msgs y);
  s_key : forall a s, mget (y_servers y) a = Some s -> sv_pub s = pt_mul_base S (sv_priv s);
  s_reg : forall m, In m (y_msgs y) -> is_reg m = true -> exists s, mget (y_servers y) (mSrc m) = Some s /\
    get_bytes (mParams m) "public_key"%str = Some (enc_point S (sv_pub s));
  s_list : forall a pk s, In (a, pk) (co_servers (y_coord y)) -> mget (y_servers y) a = Some s -> pk = sv_pub s
}.

Lemma in_regs a l : In a (Prop_Topology.regs l) <-> exists m, In m l /\ is_reg m = true /\ mSrc m = a.
Proof.
  unfold Prop_Topology.regs. rewrite in_map_iff. split.
  - intros (m & E & I). apply filter_In in I. exists m. tauto.
  - intros (m & I & R & E). exists m. split; [assumption|]. now apply filter_In.
Qed.

Lemma reply_fb s c a prev h rn : fo_nonneg (co_fb c) -> in_group S h ->
  forall s' out, sv_handle S H G s SERVER_REGISTER_REPLY (mParams (reply_msg S c a prev h)) (co_addr c) rn = Some (s', out) ->
  sv_fb s' = Some (co_fb c) /\ sv_pub s' = sv_pub s /\ sv_priv s' = sv_priv s /\ Forall (fun m => is_reg m = false) out.
Proof.
  intros NN Hh s' out E. unfold sv_handle in E. rewrite Z.eqb_refl in E. unfold sv_register_reply, reply_msg in E. cbn [mParams] in E.
  pose proof (read_params (co_fb c) [("reply"%str, VBool true); ("prev_server"%str, VStr prev); ("h"%str, VBytes (enc_point S h))] [] NN) as RP.
  rewrite app_nil_r in RP. cbn [app] in RP. rewrite RP in E.
  2:{ intros k I. cbn [In] in I. repeat (destruct I as [<-|I]; [reflexivity|]). destruct I. }
  unfold get_bool, has_key, get_str, get_bytes in E. cbn [lookup String.eqb Ascii.eqb Bool.eqb] in E.
  rewrite (dec_enc_point S OK h Hh) in E. injection E as <- <-. repeat split. repeat constructor.
Qed.

Lemma conf_sinv fb st y a y' : fo_nonneg fb -> cinv S st y -> sinv fb y -> is_conf a -> sys_step S H G y a = Some y' -> sinv fb y'.
Proof.
  intros NN I [X0 X1 X2 X3 X4] C E. destruct a as [a priv rk|?|i cr sr ch|?|?]; try destruct C.
  - cbn [sys_step] in E. destruct (keq a _); [discriminate|]. destruct (mget (y_servers y) a) eqn:Ea; [discriminate|].
    destruct (mget (y_clients y) a); [discriminate|]. injection E as <-.
    set (s0 := init_server S a (co_addr (y_coord y)) priv rk).
    assert (MS : forall b s, mget (y_servers y) b = Some s -> mget (mset (y_servers y) a s0) b = Some s).
    { intros b s Eb. rewrite mget_mset_ne; [assumption|]. congruence. }
    constructor; cbn [y_coord y_servers y_clients y_msgs].
    + assumption.
    + intros b s. rewrite mget_mset, Prop_Topology.regs_app, in_app_iff. destruct (keq b a) as [->|].
      * intros _. right. left. right. now left.
      * intros Eb. destruct (X1 b s Eb) as [Z1|[Z1|(prev & h & Z1)]]; [auto|auto|]. right. right. exists prev, h. apply in_or_app. now left.
    + intros b s. rewrite mget_mset. destruct (keq b a) as [->|]; [|apply X2]. intros [= <-]. reflexivity.
    + intros m Im Rm. apply in_app_or in Im. destruct Im as [Im|[<-|[]]].
      * destruct (X3 m Im Rm) as (s & E1 & E2). exists s. split; [now apply MS|assumption].
      * exists s0. split; [apply mget_mset_eq|reflexivity].
    + intros b pk s Ib. rewrite mget_mset. destruct (keq b a) as [->|]; [|now apply X4]. intros _. exfalso.
      destruct (i_in _ _ _ I a) as [s1 Es]; [|congruence]. unfold chain_addrs. change a with (fst (a, pk)). now apply in_map.
  - cbn [sys_step] in E. destruct (nth_error (y_msgs y) i) as [m|] eqn:Em; [|discriminate]. cbn zeta in E.
    pose proof (i_msgs _ _ _ I) as F. rewrite Forall_forall in F. pose proof (F m (nth_error_In _ _ Em)) as Fm.
    destruct (pick_split i _ m Em) as (l1 & l2 & EM & ER). rewrite ER in E.
    set (c := y_coord y) in *.
    assert (SUB : forall x out, In x (l1 ++ l2) \/ In x out -> In x ((l1 ++ l2) ++ out)) by (intros; now rewrite in_app_iff).
    assert (OLD : forall x, In x (l1 ++ l2) -> In x (y_msgs y)).
    { intros x Hx. rewrite EM. apply in_or_app. apply in_app_or in Hx. cbn [In]. tauto. }
    destruct Fm as [a b sa Ha|j a h Hj Hh|j a b Hj Hj2|a h Hh].
    + cbn [reg_msg mDst mType mSrc] in E. destruct (keq (co_addr c) (co_addr c)) as [_|N]; [|congruence].
      rewrite (reg_step S G c a b cr) in E. injection E as <-.
      set (c' := add_server c a (dec_point_unchecked b)). set (out := _ ++ [_]).
      destruct (X3 (reg_msg c a b) (nth_error_In _ _ Em) eq_refl) as (s0 & E0 & K0). cbn [reg_msg mSrc] in E0. cbn in K0. injection K0 as K0.
      constructor; cbn [y_coord y_servers y_clients y_msgs].
      * assumption.
      * intros d s Ed. destruct (X1 d s Ed) as [Z1|[Z1|(prev & h & Z1)]]; [auto| |].
        -- apply in_regs in Z1. destruct Z1 as (m & Im & Rm & Sm). rewrite EM in Im. apply (in_rest _ _ _ _ out) in Im. destruct Im as [->|Im].
           ++ cbn [reg_msg mSrc] in Sm. subst d. right. right. eexists. eexists. apply SUB. right. apply in_or_app. right. left.
              change (co_addr c) with (co_addr c'). reflexivity.
           ++ right. left. apply in_regs. now exists m.
        -- right. right. exists prev, h. change (reply_msg S c' d prev h) with (reply_msg S c d prev h). rewrite EM in Z1. apply (in_rest _ _ _ _ out) in Z1.
           destruct Z1 as [Z1|Z1]; [discriminate Z1|assumption].
      * assumption.
      * intros m Im Rm. apply in_app_or in Im. destruct Im as [Im|Im]; [now apply X3; [apply OLD|]|].
        exfalso. unfold out in Im. apply in_app_or in Im. destruct Im as [Im|[<-|[]]]; [|discriminate Rm].
        unfold link_out in Im. destruct (last_server c); [|destruct Im]. destruct Im as [<-|[]]. discriminate Rm.
      * intros d pk s Id Ed. unfold c', add_server, set_servers in Id. cbn [co_servers] in Id. apply in_app_or in Id. destruct Id as [Id|[Id|[]]]; [now apply (X4 d)|].
        injection Id as -> <-. assert (s = s0) by congruence. subst s. rewrite K0. apply (dec_enc_unchecked S).
        rewrite (X2 _ _ E0). unfold pt_mul_base. in_grp.
    + destruct (i_in _ _ _ I a ltac:(eapply nth_error_In; exact Hj)) as (s & Hs).
      set (rm := reply_msg S c a _ h) in *. change (mDst rm) with a in E.
      destruct (keq a (co_addr c)) as [->|Na].
      { exfalso. pose proof (i_self _ _ _ I) as Z. pose proof (i_static _ _ _ I) as Z1. unfold co_addr, c in Hs. rewrite Z1 in Hs. congruence. }
      rewrite Hs in E. change (mType rm) with SERVER_REGISTER_REPLY in E. change (mSrc rm) with (co_addr c) in E.
      destruct (sv_handle _ _ _ _ _ _ _ _) as [[s' out]|] eqn:EH; [|discriminate]. injection E as <-.
      destruct (reply_fb _ _ _ _ _ _ ltac:(now rewrite X0) Hh _ _ EH) as (K1 & K2 & K3 & K4).
      assert (MS : forall b s1, mget (mset (y_servers y) a s') b = Some s1 -> exists s2, mget (y_servers y) b = Some s2 /\ sv_pub s1 = sv_pub s2 /\ sv_priv s1 = sv_priv s2 /\ (b <> a -> s1 = s2) /\ (b = a -> sv_fb s1 = Some fb)).
      { intros b s1. rewrite mget_mset. destruct (keq b a) as [->|Nb]; [|intros Eb; exists s1; tauto].
        intros [= <-]. exists s. rewrite X0 in K1. tauto. }
      constructor; cbn [y_coord y_servers y_clients y_msgs].
      * assumption.
      * intros b s1 Eb. destruct (MS b s1 Eb) as (s2 & Eb2 & P1 & P2 & P3 & P4). destruct (keq b a) as [->|Nb]; [left; auto|].
        rewrite (P3 Nb) in *. destruct (X1 b s2 Eb2) as [Z1|[Z1|(prev & h0 & Z1)]]; [auto| |].
        -- right. left. apply in_regs in Z1. destruct Z1 as (m & Im & Rm & Sm). rewrite EM in Im. apply (in_rest _ _ _ _ out) in Im. destruct Im as [->|Im]; [discriminate Rm|].
           apply in_regs. now exists m.
        -- right. right. exists prev, h0. rewrite EM in Z1. apply (in_rest _ _ _ _ out) in Z1. destruct Z1 as [Z1|Z1]; [|assumption].
           exfalso. apply Nb. apply (f_equal mDst) in Z1. exact Z1.
      * intros b s1 Eb. destruct (MS b s1 Eb) as (s2 & Eb2 & P1 & P2 & _). rewrite P1, P2. now apply (X2 b).
      * intros m Im Rm. apply in_app_or in Im. destruct Im as [Im|Im].
        -- destruct (X3 m (OLD m Im) Rm) as (s2 & E2 & K5). destruct (mget (mset (y_servers y) a s') (mSrc m)) as [s1|] eqn:E1.
           ++ exists s1. split; [reflexivity|]. destruct (MS _ _ E1) as (s3 & E3 & P1 & _). rewrite P1. congruence.
           ++ exfalso. rewrite mget_mset in E1. destruct (keq (mSrc m) a); congruence.
        -- rewrite Forall_forall in K4. rewrite (K4 m Im) in Rm. discriminate.
      * intros b pk s1 Ib Eb. destruct (MS b s1 Eb) as (s2 & Eb2 & P1 & _). rewrite P1. now apply (X4 b).
    + destruct (i_in _ _ _ I a ltac:(eapply nth_error_In; exact Hj)) as (s & Hs).
      set (rm := hop_msg c a b) in *. change (mDst rm) with a in E.
      destruct (keq a (co_addr c)) as [->|Na].
      { exfalso. pose proof (i_self _ _ _ I) as Z. pose proof (i_static _ _ _ I) as Z1. unfold co_addr, c in Hs. rewrite Z1 in Hs. congruence. }
      rewrite Hs in E. change (mType rm) with UPDATE_NEXT_HOP in E. change (mSrc rm) with (co_addr c) in E.
      change (sv_handle S H G s UPDATE_NEXT_HOP (mParams rm) (co_addr c) sr) with (sv_update_next s (mParams rm)) in E.
      unfold sv_update_next, get_str, rm, hop_msg in E. cbn [mParams lookup String.eqb Ascii.eqb Bool.eqb] in E. injection E as <-.
      match goal with |- sinv fb (Sys _ (mset _ _ ?z) _ _ _) => set (s' := z) in * end.
      assert (MS : forall b s1, mget (mset (y_servers y) a s') b = Some s1 -> exists s2, mget (y_servers y) b = Some s2 /\ sv_pub s1 = sv_pub s2 /\ sv_priv s1 = sv_priv s2 /\ sv_fb s1 = sv_fb s2).
      { intros d s1. rewrite mget_mset. destruct (keq d a) as [->|Nb]; [|intros Eb; exists s1; tauto].
        intros [= <-]. now exists s. }
      constructor; cbn [y_coord y_servers y_clients y_msgs]; rewrite ?app_nil_r.
      * assumption.
      * intros d s1 Ed. destruct (MS d s1 Ed) as (s2 & Ed2 & P1 & P2 & P3). rewrite P3.
        destruct (X1 d s2 Ed2) as [Z1|[Z1|(prev & h0 & Z1)]]; [auto| |].
        -- right. left. apply in_regs in Z1. destruct Z1 as (m & Im & Rm & Sm). rewrite EM in Im. apply (in_rest _ _ _ _ []) in Im. rewrite app_nil_r in Im. destruct Im as [->|Im]; [discriminate Rm|].
           apply in_regs. now exists m.
        -- right. right. exists prev, h0. rewrite EM in Z1. apply (in_rest _ _ _ _ []) in Z1. rewrite app_nil_r in Z1. destruct Z1 as [Z1|Z1]; [discriminate Z1|assumption].
      * intros d s1 Ed. destruct (MS d s1 Ed) as (s2 & Ed2 & P1 & P2 & _). rewrite P1, P2. now apply (X2 d).
      * intros m Im Rm. destruct (X3 m (OLD m Im) Rm) as (s2 & E2 & K5). destruct (mget (mset (y_servers y) a s') (mSrc m)) as [s1|] eqn:E1.
        -- exists s1. split; [reflexivity|]. destruct (MS _ _ E1) as (s3 & E3 & P1 & _). rewrite P1. congruence.
        -- exfalso. rewrite mget_mset in E1. destruct (keq (mSrc m) a); congruence.
      * intros d pk s1 Id Ed. destruct (MS d s1 Ed) as (s2 & Ed2 & P1 & _). rewrite P1. now apply (X4 d).
    + cbn [ped_msg mDst mType mSrc] in E. destruct (keq (co_addr c) (co_addr c)) as [_|N]; [|congruence].
      rewrite (ped_step S OK G c a h cr Hh) in E. injection E as <-.
      constructor; cbn [y_coord y_servers y_clients y_msgs]; rewrite ?app_nil_r.
      * assumption.
      * intros d s Ed. destruct (X1 d s Ed) as [Z1|[Z1|(prev & h0 & Z1)]]; [auto| |].
        -- right. left. apply in_regs in Z1. destruct Z1 as (m & Im & Rm & Sm). rewrite EM in Im. apply (in_rest _ _ _ _ []) in Im. rewrite app_nil_r in Im. destruct Im as [->|Im]; [discriminate Rm|].
           apply in_regs. now exists m.
        -- right. right. exists prev, h0. rewrite EM in Z1. apply (in_rest _ _ _ _ []) in Z1. rewrite app_nil_r in Z1. destruct Z1 as [Z1|Z1]; [discriminate Z1|assumption].
      * assumption.
      * intros m Im Rm. now apply X3; [apply OLD|].
      * assumption.
Qed.

(** At the start of the first round. *)
Lemma start_sinv self a fb trap gammas l y1 : fo_nonneg fb -> Forall is_conf l ->
  sys_run S H G (init_sys S self a fb trap gammas) l = Some y1 -> sinv fb y1.
Proof.
  intros NN F E. set (st := co_static (y_coord (init_sys S self a fb trap gammas))).
  assert (P : forall l y0 y, Forall is_conf l -> cinv S st y0 -> sinv fb y0 -> sys_run S H G y0 l = Some y -> sinv fb y).
  { clear - OK NN. clearbody st. induction l as [|x l IH]; intros y0 y F I X E; cbn [sys_run] in E; [now injection E as <-|].
    inversion F as [|? ? Fx Fl]; subst. destruct (sys_step S H G y0 x) as [y1|] eqn:E1; [|discriminate].
    apply (IH y1 y Fl); [| |assumption].
    - destruct x as [b p r|?|i cr sr ch|?|?]; try destruct Fx.
      + eapply launch_inv; eauto.
      + destruct (nth_error (y_msgs y0) i) as [m|] eqn:Em; [|cbn [sys_step] in E1; rewrite Em in E1; discriminate].
        destruct (deliver_ok S OK H G st y0 i m cr sr ch I Em) as (y2 & E2 & I2). congruence.
    - eapply conf_sinv; eauto. }
  eapply P; [exact F|now apply init_cinv| |exact E].
  unfold init_sys, init_coord. destruct (gn_generate_all fb gammas). constructor; cbn [y_coord y_servers y_msgs].
  - reflexivity.
  - intros b s X. discriminate X.
  - intros b s X. discriminate X.
  - intros m [].
  - intros b pk s [].
Qed.

(** ** Messages in flight once the rounds have begun *)
Definition round_types : list Z := inert_types ++
  [BCAST_PEDERSEN_H; BCAST_PEDERSEN_RDIFF; Net.ROUND_END; ANNOUNCEMENT; ANNOUNCEMENT_FINALIZE;
   CLIENT_REGISTER_CONTROLLERSIDE; CLIENT_REGISTER_SERVERSIDE; INIT_PEDERSEN_R].
Lemma inv_types y V : inv S G y V -> Forall (fun m => In (mType m) round_types) (y_msgs y).
Proof.
  intros [B P]. apply Forall_forall. intros m I. unfold round_types. destruct (inert m) eqn:EI; [apply in_or_app; left; now apply inert_in|].
  apply in_or_app. right. assert (IC : In m (core (y_msgs y))) by (now apply core_in).
  destruct P as [T A|T i p keys vals GT HT A|T0 T1 K A|T n M1 p keys vals GT HT A].
  - pose proof (p1_msg _ _ _ _ _ _ _ A) as F. rewrite Forall_forall in F. destruct (F m IC) as [[-> _]|[[-> _]|[-> _]]]; cbn; tauto.
  - destruct (p2_M _ _ _ _ _ _ _ _ _ _ _ _ _ _ A) as [src X]. rewrite X in IC. destruct IC as [<-|[]]. cbn. tauto.
  - pose proof (p3_msg _ _ _ _ _ _ _ _ _ A) as F. rewrite Forall_forall in F. destruct (F m IC); cbn; tauto.
  - destruct (p4_M _ _ _ _ _ _ _ _ _ _ _ _ _ _ _ A) as [src X]. apply (Permutation_in _ X) in IC. destruct IC as [<-|IC]; [cbn; tauto|].
    pose proof (p4_M1 _ _ _ _ _ _ _ _ _ _ _ _ _ _ _ A) as F. rewrite Forall_forall in F. destruct (F m IC) as [-> _]. cbn. tauto.
Qed.

(** The coordinator's keys, once created. *)
Lemma reach_pub y V : reach S H G y V -> co_pub (y_coord y) = pt_mul_base S (co_priv (y_coord y)).
Proof.
  intros R. destruct (reach_run y V R) as (self & a & fb & trap & gammas & t & RR). clear R. induction RR as [|t c e c' out R IH E].
  - unfold init_coord. destruct (gn_generate_all fb gammas). reflexivity.
  - destruct (co_step_frame S G c e c' out E) as [FR _]. assert (ES : co_static c' = co_static c).
    { apply (FR FStatic). destruct e; cbn [writes_ev]; try (cbn; intuition discriminate). unfold writes.
      repeat match goal with |- context [if ?b then _ else _] => destruct b end; cbn; intuition discriminate. }
    unfold co_pub, co_priv in *. now rewrite ES.
Qed.
Lemma step_static c e c' out : co_step S G c e = Some (c', out) -> co_static c' = co_static c.
Proof.
  intros E. destruct (co_step_frame S G c e c' out E) as [FR _]. apply (FR FStatic). destruct e; cbn [writes_ev]; try (cbn; intuition discriminate). unfold writes.
  repeat match goal with |- context [if ?b then _ else _] => destruct b end; cbn; intuition discriminate.
Qed.
Lemma sys_static y a y' : sys_step S H G y a = Some y' -> co_static (y_coord y') = co_static (y_coord y).
Proof. intros E. destruct (step_coord _ _ _ E) as [->|(e & out & X)]; [reflexivity|]. eapply step_static; eassumption. Qed.

(** What clients hold. *)
Record cl_ok (fb : fobase) (pub : Z) (k : client) : Prop := {
  k_fb : cl_fb k = None \/ (cl_fb k = Some fb /\ cl_cpk k = pub);
  k_R : forall R, cl_R k = Some R -> 0 <= R < sQ S;
  k_G : forall g, cl_G k = Some g -> cl_nym k = pt_mul S g (cl_priv k)
}.
Definition conf_ok (fb : fobase) (pub : Z) (m : msg) : Prop :=
  mType m = CLIENT_REGISTER_CONFIRMATION ->
  read_fobase (mParams m) = Some fb /\ exists b, get_bytes (mParams m) "public_key"%str = Some b /\ dec_point S b = Some pub.
Lemma client_ok_step fb pub k m chal k' out : cl_ok fb pub k -> conf_ok fb pub m ->
  cl_handle S G k (mType m) (mParams m) chal = Some (k', out) ->
  cl_ok fb pub k' /\ Forall (fun x => mType x = GN_HONESTY_CHALLENGE) out.
Proof.
  intros KK C E. pose proof KK as [K1 K2 K3]. unfold cl_handle in E. destruct (Z.eqb_spec (mType m) CLIENT_REGISTER_CONFIRMATION) as [T|_].
  { destruct (C T) as (RF & b & Eb & Db). unfold cl_register_confirmation in E. rewrite RF, Eb, Db in E. odestruct E. injection E as <- <-.
    split; [|repeat constructor]. constructor; cbn [cl_fb cl_cpk cl_R cl_G cl_nym cl_priv]; auto. }
  clear C. repeat match type of E with (if ?b then _ else _) = _ => destruct b end.
  all: try (unfold cl_honesty_answer, cl_got_signatures, cl_vote_start, cl_vote_reply, cl_round_end in E; cbv zeta in E; odestruct E; injection E as <- <-; (split; [first [exact KK|constructor; assumption]|constructor])).
  - unfold cl_init_r in E. odestruct E. injection E as <- <-. split; [|constructor].
    constructor; cbn [cl_fb cl_cpk cl_R cl_G cl_nym cl_priv]; [assumption| |congruence].
    intros R [= <-]. match goal with X : dec_secret S _ = Some _ |- _ => rename X into DS end.
    unfold dec_secret in DS. cbv zeta in DS. destruct (Z.ltb_spec (be_to_z b) (sQ S)) as [L|]; [|discriminate]. injection DS as <-.
    split; [apply be_to_z_range|exact L].
  - unfold cl_announce_final in E. cbv zeta in E. odestruct E. injection E as <- <-. split; [|constructor].
    constructor; cbn [cl_fb cl_cpk cl_R cl_G cl_nym cl_priv]; [assumption|assumption|congruence].
  - unfold cl_rdiff in E. cbv zeta in E. odestruct E; injection E as <- <-; (split; [|constructor]); [now constructor|].
    constructor; cbn [cl_fb cl_cpk cl_R cl_G cl_nym cl_priv]; [assumption| |assumption].
    intros R [= <-]. unfold sec_add. apply Z.mod_pos_bound. pose proof (sQ_gt1 S OK). lia.
Qed.

Record ses (fb : fobase) (y : sys) : Prop := {
  e_sv : forall a s, mget (y_servers y) a = Some s -> sv_fb s = Some fb /\ sv_pub s = pt_mul_base S (sv_priv s);
  e_pk : forall a pk s, In (a, pk) (co_servers (y_coord y)) -> mget (y_servers y) a = Some s -> pk = sv_pub s;
  e_conf : Forall (conf_ok fb (co_pub (y_coord y))) (y_msgs y);
  e_cl : forall a k, mget (y_clients y) a = Some k -> cl_ok fb (co_pub (y_coord y)) k
}.

Lemma co_servers_step c e c' out : co_step S G c e = Some (c', out) ->
  (forall ty p src rn, e = EMsg ty p src rn -> ty <> SERVER_REGISTER) -> co_servers c' = co_servers c.
Proof.
  intros E N. destruct (co_step_frame S G c e c' out E) as [FR _]. apply (FR FServers).
  destruct e as [ty p src rn| | | |]; cbn [writes_ev]; try (cbn; intuition discriminate).
  specialize (N ty p src rn eq_refl). apply Z.eqb_neq in N. unfold writes. rewrite N.
  repeat match goal with |- context [if ?b then _ else _] => destruct b end; cbn; intuition discriminate.
Qed.
Lemma conf_sent c e c' out : fo_nonneg (co_fb c) -> in_group S (co_pub c) -> co_step S G c e = Some (c', out) ->
  Forall (conf_ok (co_fb c) (co_pub c)) out.
Proof.
  intros NN PG E. destruct (co_step_frame S G c e c' out E) as [_ EM]. apply Forall_forall. intros m Im T. pose proof (EM m Im) as TM. rewrite T in TM.
  destruct e as [ty p src rn| | | |]; cbn [emits_ev] in TM; try (cbn in TM; intuition discriminate).
  destruct (Z.eqb_spec ty CLIENT_REGISTER_SERVERSIDE) as [->|N].
  - change (co_client_confirm S G c p = Some (c', out)) in E. unfold co_client_confirm in E. odestruct E. injection E as <- <-.
    destruct Im as [<-|[]]. cbn [mParams]. split.
    + pose proof (read_params (co_fb c) [] [("honesty_prf"%str, VBytes (genc_bigints G (cs_hpub (co_static c)))); ("public_key"%str, VBytes (enc_point S (co_pub c)))] NN) as X.
      apply X. reflexivity.
    + eexists. split; [reflexivity|]. now apply (dec_enc_point S OK).
  - exfalso. apply Z.eqb_neq in N. unfold emits in TM. rewrite N in TM.
    repeat match type of TM with context [if ?b then _ else _] => destruct b end; cbn in TM; intuition discriminate.
Qed.

Lemma ses_step y V a y' : inv S G y V -> fo_nonneg (co_fb (y_coord y)) -> in_group S (co_pub (y_coord y)) ->
  ses (co_fb (y_coord y)) y -> guard S y V a -> sys_step S H G y a = Some y' -> ses (co_fb (y_coord y')) y'.
Proof.
  intros I NN PG SE GU E. assert (EF : co_fb (y_coord y') = co_fb (y_coord y)) by (unfold co_fb; now rewrite (sys_static _ _ _ E)).
  assert (EP : co_pub (y_coord y') = co_pub (y_coord y)) by (unfold co_pub; now rewrite (sys_static _ _ _ E)). rewrite EF.
  pose proof (inv_types y V I) as TY. destruct SE as [X1 X2 X3 X4]. set (fb := co_fb (y_coord y)) in *. set (pub := co_pub (y_coord y)) in *.
  assert (NC : forall l, Forall (fun x => mType x = GN_HONESTY_CHALLENGE) l -> Forall (conf_ok fb pub) l).
  { intros l F. eapply Forall_impl; [|exact F]. intros m Em T. rewrite Em in T. discriminate T. }
  destruct a as [a priv rk|a priv s|i cr sr chal|e|a cmd]; cbn [sys_step] in E.
  - destruct GU.
  - destruct (keq a _); [discriminate|]. destruct (mget (y_servers y) a); [discriminate|].
    destruct (mget (y_clients y) a); [discriminate|]. injection E as <-. constructor; cbn [y_coord y_servers y_clients y_msgs]; try assumption.
    + apply Forall_app. split; [assumption|]. constructor; [|constructor]. intros T. discriminate T.
    + intros b k. rewrite mget_mset. destruct (keq b a) as [->|]; [|apply X4]. intros [= <-]. constructor; cbn; [now left|discriminate|discriminate].
  - destruct (nth_error (y_msgs y) i) as [m|] eqn:Em; [|discriminate]. cbn zeta in E.
    assert (Im : In m (y_msgs y)) by (eapply nth_error_In; exact Em).
    assert (Tm : In (mType m) round_types) by (rewrite Forall_forall in TY; now apply TY).
    destruct (pick_split i _ m Em) as (l1 & l2 & EM & ER). rewrite ER in E.
    assert (X3' : Forall (conf_ok fb pub) (l1 ++ l2)).
    { rewrite EM in X3. apply Forall_app in X3. destruct X3 as [F1 F2]. inversion F2; subst. now apply Forall_app. }
    assert (Cm : conf_ok fb pub m) by (rewrite Forall_forall in X3; now apply X3).
    destruct (keq (mDst m) _).
    + destruct (co_handle _ _ _ _ _ _ _) as [[c' out]|] eqn:EH; [|discriminate]. injection E as <-.
      assert (ES : co_step S G (y_coord y) (EMsg (mType m) (mParams m) (mSrc m) cr) = Some (c', out)) by exact EH.
      constructor; cbn [y_coord y_servers y_clients y_msgs] in *; rewrite ?EP; try assumption.
      * intros b pk s. rewrite (co_servers_step _ _ _ _ ES); [apply X2|]. intros ? ? ? ? [= <- _ _ _] T. rewrite T in Tm. clear - Tm.
        cbn in Tm. intuition discriminate.
      * apply Forall_app. split; [assumption|]. eapply conf_sent; eassumption.
    + destruct (mget (y_servers y) (mDst m)) as [s|] eqn:Es.
      * destruct (sv_handle _ _ _ _ _ _ _ _) as [[s' out]|] eqn:EH; [|discriminate]. injection E as <-.
        destruct (C60_server_frame S H G _ _ _ _ _ _ _ EH) as [SS SO].
        assert (NR : mType m <> SERVER_REGISTER_REPLY /\ mType m <> UPDATE_NEXT_HOP).
        { clear - Tm. split; intros T; rewrite T in Tm; cbn in Tm; intuition discriminate. }
        destruct SS as (S1 & S2 & S3 & S4 & S5 & _). destruct S5 as (_ & _ & _ & S5).
        { unfold is_one_of. destruct (in_dec _ _ _) as [Z|]; [|reflexivity]. exfalso. destruct NR, Z as [Z|[Z|[]]]; congruence. }
        assert (MS : forall b s1, mget (mset (y_servers y) (mDst m) s') b = Some s1 -> exists s2, mget (y_servers y) b = Some s2 /\ sv_pub s1 = sv_pub s2 /\ sv_priv s1 = sv_priv s2 /\ sv_fb s1 = sv_fb s2).
        { intros d s1. rewrite mget_mset. destruct (keq d (mDst m)) as [->|Nb]; [|intros Eb; exists s1; tauto].
          intros [= <-]. exists s. repeat split; assumption. }
        constructor; cbn [y_coord y_servers y_clients y_msgs] in *; try assumption.
        -- intros b s1 Eb. destruct (MS b s1 Eb) as (s2 & E2 & P1 & P2 & P3). rewrite P1, P2, P3. now apply (X1 b).
        -- intros b pk s1 Ib Eb. destruct (MS b s1 Eb) as (s2 & E2 & P1 & _). rewrite P1. now apply (X2 b).
        -- apply Forall_app. split; [assumption|]. apply Forall_forall. intros x Ix T. specialize (SO x Ix). rewrite T in SO. clear - SO.
           exfalso. cbn in SO. repeat (destruct SO as [SO|SO]; [discriminate SO|]). destruct SO.
      * destruct (mget (y_clients y) (mDst m)) as [k|] eqn:Ek; [|discriminate].
        destruct (cl_handle _ _ _ _ _ _) as [[k' out]|] eqn:EH; [|discriminate]. injection E as <-.
        destruct (client_ok_step fb pub k m chal k' out (X4 _ _ Ek) Cm EH) as [K' O'].
        constructor; cbn [y_coord y_servers y_clients y_msgs] in *; try assumption.
        -- apply Forall_app. split; [assumption|]. now apply NC.
        -- intros b kb. rewrite mget_mset. destruct (keq b (mDst m)) as [->|]; [|apply X4]. now intros [= <-].
  - destruct (is_loop e) eqn:EL; [|discriminate]. destruct (co_step _ _ _ _) as [[c' out]|] eqn:ES; [|discriminate]. injection E as <-.
    constructor; cbn [y_coord y_servers y_clients y_msgs] in *; rewrite ?EP; try assumption.
    + intros b pk s. rewrite (co_servers_step _ _ _ _ ES); [apply X2|]. intros ? ? ? ? -> _. discriminate EL.
    + apply Forall_app. split; [assumption|]. eapply conf_sent; eassumption.
  - destruct (mget (y_clients y) a) as [k|]; [|discriminate]. destruct (cl_command S G k cmd) as [out|] eqn:EC; [|discriminate]. injection E as <-.
    constructor; cbn [y_coord y_servers y_clients y_msgs] in *; try assumption.
    apply Forall_app. split; [assumption|]. apply Forall_forall. intros m Im T. exfalso. destruct cmd as [ba|ind rn|id f]; cbn [cl_command] in EC.
    + injection EC as <-. destruct Im as [<-|[]]. discriminate T.
    + destruct (cl_request S G k ind rn) as [[x|]|] eqn:ER; [|injection EC as <-; destruct Im|discriminate].
      injection EC as <-. destruct Im as [<-|[]]. unfold cl_request in ER. odestruct ER. injection ER as <-. discriminate T.
    + destruct (cl_vote S k id f) as [x|] eqn:EV; [|discriminate]. injection EC as <-. destruct Im as [<-|[]].
      unfold cl_vote in EV. odestruct EV. injection EV as <-. discriminate T.
Qed.

Theorem reach_ses y V : reach S H G y V -> fo_nonneg (co_fb (y_coord y)) -> ses (co_fb (y_coord y)) y.
Proof.
  induction 1 as [self a fb trap gammas l y1 y2 F E M NE E2|y V a y' R IH GU E]; intros NN.
  - assert (FC : Forall is_conf l) by (eapply Forall_impl; [|exact F]; intros [] X; try exact I; destruct X).
    assert (EFB : co_fb (y_coord y2) = fb).
    { assert (X : exists t, run S G (init_coord S self a fb trap gammas) t (y_coord y2)).
      { eapply sys_run_coord with (l := l ++ [ALoop EConfigure]) (t := []); [|rewrite sys_run_app, E; cbn [sys_run]; now rewrite E2]. apply run_nil. }
      destruct X as [t X]. clear - X H OK GOK. unfold co_fb. induction X as [|t c e c' out R IH E].
      - unfold init_coord. now destruct (gn_generate_all fb gammas).
      - now rewrite (step_static _ _ _ _ E). }
    rewrite EFB in *. destruct (start_sinv self a fb trap gammas l y1 NN FC E) as [X0 X1 X2 X3 X4].
    cbn [sys_step is_loop co_step co_configure] in E2. injection E2 as <-. rewrite M in *.
    assert (CL : y_clients y1 = []).
    { assert (P : forall l y0 y, Forall is_conf l -> y_clients y0 = [] -> sys_run S H G y0 l = Some y -> y_clients y = []).
      { clear. induction l as [|x l IH]; intros y0 y F C E; cbn [sys_run] in E; [now injection E as <-|]. inversion F as [|? ? Fx Fl]; subst.
        destruct (sys_step S H G y0 x) as [y1|] eqn:E1; [|discriminate]. apply (IH y1 y Fl); [|assumption]. destruct x as [b p r|?|i cr sr ch|?|?]; try destruct Fx; cbn [sys_step] in E1.
        - odestruct E1. injection E1 as <-. assumption.
        - odestruct E1; injection E1 as <-; cbn [y_clients]; try assumption. rewrite C in *. discriminate. }
      eapply P; [exact FC| |exact E]. reflexivity. }
    constructor; cbn [y_coord y_servers y_clients y_msgs].
    + intros b s Eb. split; [|now apply (X2 b)]. destruct (X1 b s Eb) as [Z|[[]|(? & ? & [])]]. assumption.
    + intros b pk s Ib Eb. now apply (X4 b).
    + apply Forall_forall. intros m Im T. cbn [app] in Im. apply to_servers_type in Im. rewrite Im in T. discriminate.
    + rewrite CL. intros b k X. discriminate X.
  - assert (EF : co_fb (y_coord y') = co_fb (y_coord y)) by (unfold co_fb; now rewrite (sys_static _ _ _ E)).
    rewrite EF in NN. apply (ses_step y V a y'); try assumption.
    + eapply reach_inv; eassumption.
    + rewrite (reach_pub y V R). apply group_base. assumption.
    + apply IH. assumption.
Qed.

(** ** An open round *)
(** The announcement has reached everybody and the round has not begun to end. *)
Definition open_round (y : sys) : Prop :=
  co_status (y_coord y) = CO_MESSAGE /\ ~ ending y /\ (forall m, In m (y_msgs y) -> mType m <> ANNOUNCEMENT_FINALIZE).
Definition open_types : list Z := inert_types ++ [CLIENT_REGISTER_CONTROLLERSIDE; CLIENT_REGISTER_SERVERSIDE; INIT_PEDERSEN_R].

Lemma open_msgs y V : inv S G y V -> open_round y -> Forall (fun m => In (mType m) open_types) (y_msgs y).
Proof.
  intros [B P] (O1 & O2 & O3). apply Forall_forall. intros m I. unfold open_types. destruct (inert m) eqn:EI; [apply in_or_app; left; now apply inert_in|].
  apply in_or_app. right. assert (IC : In m (core (y_msgs y))) by (now apply core_in).
  destruct P as [T A|T i p keys vals GT HT A|T0 T1 K A|T n M1 p keys vals GT HT A].
  - pose proof (p1_status _ _ _ _ _ _ _ A) as X. rewrite O1 in X. discriminate.
  - pose proof (p2_status _ _ _ _ _ _ _ _ _ _ _ _ _ _ A) as X. rewrite O1 in X. discriminate.
  - pose proof (p3_msg _ _ _ _ _ _ _ _ _ A) as F. rewrite Forall_forall in F. specialize (O3 m I).
    destruct (F m IC); [now elim O3| | |]; cbn; tauto.
  - exfalso. apply O2. split; [assumption|]. destruct (p4_M _ _ _ _ _ _ _ _ _ _ _ _ _ _ _ A) as [src X].
    exists (Msg (before (map fst (co_servers (y_coord y))) (co_addr (y_coord y)) n) Net.ROUND_END p src). split; [|reflexivity].
    apply (core_in (y_msgs y)). eapply Permutation_in; [symmetry; exact X|]. now left.
Qed.

Definition sv_view (s : server) := (sv_addr s, sv_priv s, sv_pub s, sv_fb s, sv_G s, sv_pb s, sv_ekeys s, sv_ecomms s).
Definition round_view (c : coord) :=
  (co_static c, co_servers c, co_status c, co_first c, co_G c, co_ekeys c, co_ecomms c, co_keys c, co_pb c).
Definition same_round (y y' : sys) : Prop :=
  round_view (y_coord y') = round_view (y_coord y) /\
  forall a, option_map sv_view (mget (y_servers y') a) = option_map sv_view (mget (y_servers y) a).
Lemma same_round_refl y : same_round y y.
Proof. split; reflexivity. Qed.
Lemma same_round_trans y1 y2 y3 : same_round y1 y2 -> same_round y2 y3 -> same_round y1 y3.
Proof. intros [A1 A2] [B1 B2]. split; [congruence|]. intros a. now rewrite B2. Qed.

Lemma view_step c e c' out : co_step S G c e = Some (c', out) ->
  (forall f, In f [FStatic; FServers; FStatus; FFirst; FG; FEKeys; FEComms; FKeys; FPB] -> ~ In f (writes_ev e)) ->
  round_view c' = round_view c.
Proof.
  intros E W. destruct (co_step_frame S G c e c' out E) as [FR _]. unfold round_view.
  pose proof (FR FStatic (W FStatic ltac:(cbn; tauto))) as E1. pose proof (FR FServers (W FServers ltac:(cbn; tauto))) as E2.
  pose proof (FR FStatus (W FStatus ltac:(cbn; tauto))) as E3. pose proof (FR FFirst (W FFirst ltac:(cbn; tauto))) as E4.
  pose proof (FR FG (W FG ltac:(cbn; tauto))) as E5. pose proof (FR FEKeys (W FEKeys ltac:(cbn; tauto))) as E6.
  pose proof (FR FEComms (W FEComms ltac:(cbn; tauto))) as E7. pose proof (FR FKeys (W FKeys ltac:(cbn; tauto))) as E8.
  pose proof (FR FPB (W FPB ltac:(cbn; tauto))) as E9. cbn [agree] in *. congruence.
Qed.

Ltac each_type I := repeat (destruct I as [<-|I]; [try (cbn; intuition discriminate)|]); try (destruct I).

Lemma open_step y V a y' : inv S G y V -> open_round y -> guard S y V a -> is_end a = false -> sys_step S H G y a = Some y' ->
  open_round y' /\ same_round y y'.
Proof.
  intros I O GU NE E. pose proof (open_msgs y V I O) as TY. destruct O as (O1 & _ & _).
  enough (X : same_round y y' /\ Forall (fun m => In (mType m) open_types) (y_msgs y')).
  { destruct X as [X1 X2]. split; [|assumption]. destruct X1 as [X1 _]. unfold round_view in X1. rewrite Forall_forall in X2.
    split; [congruence|]. split.
    - intros (_ & m & Im & T). specialize (X2 m Im). rewrite T in X2. clear - X2. cbn in X2. intuition discriminate.
    - intros m Im T. specialize (X2 m Im). rewrite T in X2. clear - X2. cbn in X2. intuition discriminate. }
  destruct a as [a priv rk|a priv s|i cr sr chal|e|a cmd]; cbn [sys_step] in E.
  - destruct GU.
  - destruct (keq a _); [discriminate|]. destruct (mget (y_servers y) a); [discriminate|].
    destruct (mget (y_clients y) a); [discriminate|]. injection E as <-. split; [split; reflexivity|]. cbn [y_msgs].
    apply Forall_app. split; [assumption|]. constructor; [|constructor]. cbn. tauto.
  - destruct (nth_error (y_msgs y) i) as [m|] eqn:Em; [|discriminate]. cbn zeta in E.
    assert (Tm : In (mType m) open_types) by (rewrite Forall_forall in TY; apply TY; eapply nth_error_In; exact Em).
    destruct (pick_split i _ m Em) as (l1 & l2 & EM & ER). rewrite ER in E.
    assert (TY' : Forall (fun m => In (mType m) open_types) (l1 ++ l2)).
    { rewrite EM in TY. apply Forall_app in TY. destruct TY as [F1 F2]. inversion F2; subst. now apply Forall_app. }
    destruct (keq (mDst m) _).
    + destruct (co_handle _ _ _ _ _ _ _) as [[c' out]|] eqn:EH; [|discriminate]. injection E as <-.
      assert (ES : co_step S G (y_coord y) (EMsg (mType m) (mParams m) (mSrc m) cr) = Some (c', out)) by exact EH.
      split.
      * split; [|reflexivity]. cbn [y_coord]. apply (view_step _ _ _ _ ES). cbn [writes_ev]. clear - Tm. intros f If. revert Tm. generalize (mType m). intros ty Tm.
        destruct f; cbn [In] in If; try (intuition discriminate); clear If; cbn [In app open_types inert_types] in Tm; each_type Tm.
      * cbn [y_msgs]. apply Forall_app. split; [assumption|]. apply Forall_forall. intros x Ix.
        destruct (co_step_frame S G _ _ _ _ ES) as [_ EO]. specialize (EO x Ix). cbn [emits_ev] in EO. clear - Tm EO. revert Tm EO. generalize (mType m). intros ty Tm.
        cbn [In app open_types inert_types] in Tm. repeat (destruct Tm as [<-|Tm]; [cbn; intuition|]). destruct Tm.
    + destruct (mget (y_servers y) (mDst m)) as [s|] eqn:Es.
      * destruct (sv_handle _ _ _ _ _ _ _ _) as [[s' out]|] eqn:EH; [|discriminate]. injection E as <-.
        destruct (C60_server_frame S H G _ _ _ _ _ _ _ EH) as [SS SO].
        destruct SS as (S1 & S2 & S3 & S4 & S5 & _ & S6).
        destruct S5 as (_ & _ & _ & S5).
        { unfold is_one_of. destruct (in_dec _ _ _) as [Z|]; [|reflexivity]. exfalso. clear - Tm Z. revert Tm Z. generalize (mType m). intros ty Tm Z. cbn [In] in Z.
          destruct Z as [<-|[<-|[]]]; cbn in Tm; intuition discriminate. }
        destruct S6 as (S6 & S7 & S8 & S9).
        { unfold is_one_of. destruct (in_dec _ _ _) as [Z|]; [|reflexivity]. exfalso. clear - Tm Z. revert Tm Z. generalize (mType m). intros ty Tm Z. cbn [In] in Z.
          destruct Z as [<-|[<-|[]]]; cbn in Tm; intuition discriminate. }
        split.
        -- split; [reflexivity|]. intros b. cbn [y_servers]. rewrite mget_mset. destruct (keq b (mDst m)) as [->|]; [|reflexivity].
           rewrite Es. cbn [option_map]. unfold sv_view. congruence.
        -- cbn [y_msgs]. apply Forall_app. split; [assumption|]. apply Forall_forall. intros x Ix. specialize (SO x Ix). clear - Tm SO. revert Tm SO. generalize (mType m). intros ty Tm SO.
           cbn [In] in SO. repeat (destruct SO as [SO|SO]; [injection SO as <- <-; cbn in *; intuition discriminate|]). destruct SO.
      * destruct (mget (y_clients y) (mDst m)) as [k|] eqn:Ek; [|discriminate].
        destruct (cl_handle _ _ _ _ _ _) as [[k' out]|] eqn:EH; [|discriminate]. injection E as <-.
        split; [split; reflexivity|]. cbn [y_msgs]. apply Forall_app. split; [assumption|].
        unfold cl_handle, cl_register_confirmation, cl_init_r, cl_honesty_answer, cl_announce_final, cl_rdiff, cl_got_signatures, cl_round_end,
          cl_vote_start, cl_vote_reply in EH. cbv zeta in EH. clear - EH. odestruct EH; injection EH as _ <-; try (apply Forall_nil). apply Forall_cons; [cbn; tauto|apply Forall_nil].
  - destruct (is_loop e) eqn:EL; [|discriminate]. destruct (co_step _ _ _ _) as [[c' out]|] eqn:ES; [|discriminate]. injection E as <-.
    destruct e as [ty p src rn| |fakes ord| |ord rs]; try discriminate NE; try discriminate EL; try (destruct GU; fail).
    + exfalso. cbn [co_step] in ES. unfold begin_round in ES. rewrite O1 in ES. discriminate ES.
    + cbn [co_step begin_vote] in ES. injection ES as <- <-. split; [split; reflexivity|]. cbn [y_msgs]. apply Forall_app. split; [assumption|].
      apply Forall_forall. intros x Ix. apply to_clients_type in Ix. rewrite Ix. cbn. tauto.
  - destruct (mget (y_clients y) a) as [k|]; [|discriminate]. destruct (cl_command S G k cmd) as [out|] eqn:EC; [|discriminate]. injection E as <-.
    split; [split; reflexivity|]. cbn [y_msgs]. apply Forall_app. split; [assumption|]. apply command_inert in EC.
    eapply Forall_impl; [|exact EC]. intros m Hm. apply inert_in in Hm. unfold open_types. apply in_or_app. now left.
Qed.

Lemma open_goes y V l y' V' : reach S H G y V -> open_round y -> goes S H G y V l y' V' -> existsb is_end l = false ->
  open_round y' /\ same_round y y'.
Proof.
  intros R O GO. revert R O. induction GO as [|y V a y1 l y2 V2 GU E GO IH]; intros R O NE; [split; [assumption|apply same_round_refl]|].
  cbn [existsb] in NE. apply orb_false_iff in NE. destruct NE as [N1 N2].
  destruct (open_step y V a y1 (reach_inv S OK H G GOK y V R) O GU N1 E) as [O1 S1].
  destruct (IH (r_step S H G y V a y1 R GU E) O1 N2) as [O2 S2]. split; [assumption|]. eapply same_round_trans; eassumption.
Qed.

(** ** A client of the announced table *)
Lemma announced y V a k : reach S H G y V -> open_round y -> mget (y_clients y) a = Some k ->
  In (nym_of S y (cl_pub k)) (mkeys (co_ecomms (y_coord y))) ->
  exists v r R g C, In (cl_pub k, (v, r)) V /\ cl_R k = Some R /\ R mod sQ S = r mod sQ S /\ cl_rep k = int64 v /\
    co_G (y_coord y) = Some g /\ in_group S g /\ cl_G k = Some g /\ cl_pb k = co_pb (y_coord y) /\ pbase_ok S (co_pb (y_coord y)) /\
    cl_nym k = nym_of S y (cl_pub k) /\ cl_coord k = co_addr (y_coord y) /\ cl_addr k = a /\
    cl_PCommr k = Some C /\ mget (co_ecomms (y_coord y)) (cl_nym k) = Some C /\ opens S y C v R.
Proof.
  intros R (O1 & O2 & O3) Ek I.
  destruct (C44_agreement S OK H G GOK y V R O1 O2 O3) as [_ AG]. destruct (AG a k Ek I) as (E1 & E2 & E3 & E4).
  destruct (reach_inv S OK H G GOK y V R) as [B P].
  destruct (b_cl _ _ _ _ _ B a k Ek) as (_ & Ea & Ec & _ & _ & I64 & _).
  assert (NS : forall a, ~ sent_to (core (y_msgs y)) ANNOUNCEMENT_FINALIZE a).
  { intros b (m & Im & E & _). apply core_in in Im. now apply (O3 m (proj1 Im)). }
  destruct P as [T A|T i p keys vals GT HT A|T0 T1 K A|T n M1 p keys vals GT HT A].
  - exfalso. pose proof (p1_status _ _ _ _ _ _ _ A) as X. rewrite O1 in X. discriminate.
  - exfalso. pose proof (p2_status _ _ _ _ _ _ _ _ _ _ _ _ _ _ A) as X. rewrite O1 in X. discriminate.
  - pose proof (mid_keys S _ _ _ _ _ _ _ _ B A) as NK.
    destruct A as [A1 A2 A3 A4 A5 A6 A7 A8 A9 A10 A11 A12 A13].
    assert (TG : Forall (in_group S) (map fst (T0 ++ T1))).
    { pose proof (b_Vg _ _ _ _ _ B) as F. rewrite Forall_forall in F |- *. intros x Hx. apply F.
      apply (Permutation_in _ (Permutation_map fst A9)). rewrite map_app. apply in_or_app. now left. }
    assert (TN : NoDup (map fst (T0 ++ T1))).
    { pose proof (Permutation_NoDup (Permutation_sym (Permutation_map fst A9)) (b_V _ _ _ _ _ B)) as X. rewrite map_app in X. now apply NoDup_app_remove_r in X. }
    assert (RP : rel_prime K (sQ S)) by (rewrite A3; apply (exps_unit S _ _ _ _ B)).
    assert (IT : In (cl_pub k) (map fst T0)).
    { unfold mkeys in I. rewrite A5, map_map in I. apply in_map_iff in I. destruct I as (t & E & It).
      unfold ent, nym_of, round_exp in E. cbn [fst] in E. rewrite <- A3 in E.
      replace (cl_pub k) with (fst t); [now apply in_map|]. revert E. apply (pt_mul_inj S OK); [| |assumption].
      - rewrite map_app in TG. apply Forall_app in TG. destruct TG as [TG _]. rewrite Forall_forall in TG. apply TG. now apply in_map.
      - pose proof (b_Vg _ _ _ _ _ B) as F. rewrite Forall_forall in F. apply F. apply (b_cl _ _ _ _ _ B a k Ek). }
    destruct (A11 a k Ek) as [[C1 _]|(C1 & v & r & C2 & C3 & C4)].
    { exfalso. apply (NoDup_app_disjoint _ _ NK _ IT). apply in_or_app. right.
      apply in_map_iff. exists (cl_register S k). split.
      - unfold pget, get_bytes. cbn [mParams cl_register lookup String.eqb Ascii.eqb Bool.eqb]. apply (dec_enc_unchecked S).
        rewrite Forall_forall in TG. apply TG. rewrite map_app. apply in_or_app. now left.
      - apply filter_In. split; [assumption|reflexivity]. }
    destruct C4 as [X|(R0 & C5 & C6 & _)].
    { exfalso. destruct X as (m & Im & Tm & Dm). rewrite Forall_forall in A10. specialize (A10 m Im).
      inversion A10 as [b p src D1 D2 Em|b kb D1 Em|b d kb pc src D1 D2 D3 Em|b kb r0 g src D1 D2 D3 D4 Em]; subst m; cbn [mType mDst cl_register] in *; try discriminate Tm.
      subst b. assert (kb = k) by congruence. subst kb. apply (NoDup_app_disjoint _ _ NK _ IT). apply in_or_app. left.
      apply in_map_iff. eexists. split; [|exact D3]. reflexivity. }
    assert (C2' : In (cl_pub k, (v, r)) T0).
    { apply in_app_or in C2. destruct C2 as [C2|C2]; [assumption|]. exfalso. rewrite map_app in TN. apply (NoDup_app_disjoint _ _ TN _ IT).
      apply in_map_iff. eexists. split; [|exact C2]. reflexivity. }
    rewrite map_app in TG, TN. apply Forall_app in TG.
    assert (GC : mget (co_ecomms (y_coord y)) (cl_nym k) = Some (ped_commit_r S (co_pb (y_coord y)) v r)).
    { rewrite E3. unfold nym_of, round_exp. rewrite <- A3, A5. apply (ent_get S OK); try assumption; [apply TG|]. now apply NoDup_app_remove_r in TN. }
    exists v, r, R0, (pt_mul_base S K), (ped_commit_r S (co_pb (y_coord y)) v r).
    split; [apply (Permutation_in _ A9); apply in_or_app; left; assumption|].
    split; [assumption|]. split; [assumption|]. split; [congruence|]. split; [assumption|]. split; [apply (group_base S OK)|].
    split; [congruence|]. split; [assumption|]. split; [apply B|]. split; [assumption|]. split; [assumption|]. split; [assumption|].
    split; [congruence|]. split; [assumption|]. unfold opens. rewrite C6. apply (opens_com S OK). apply B.
  - exfalso. apply O2. split; [assumption|]. destruct (p4_M _ _ _ _ _ _ _ _ _ _ _ _ _ _ _ A) as [src X].
    exists (Msg (before (map fst (co_servers (y_coord y))) (co_addr (y_coord y)) n) Net.ROUND_END p src). split; [|reflexivity].
    apply (core_in (y_msgs y)). eapply Permutation_in; [symmetry; exact X|]. now left.
Qed.
End Session.
