(** C93: a coordinator that is stopped and started again takes the session up.  Refuted:
    no later schedule brings anything of the protocol to the servers and clients that were
    there before; only newly started ones take part in what the coordinator then runs. *)
From Coq Require Import ZArith Znumtheory Lia List Bool Permutation.
From Coq Require Import Strings.Byte.
From Coq Require String.
From Verif Require Import ZMod Bytes Suite Spec Pedersen ElGamal FujiOkam Equality Codec Maps Net Bridge Client
  Perm SimpleShuffle PairShuffle Server Coordinator History System Chain Prop_Topology Prop_Chain Round RoundInv
  Prop_Pedersen Prop_ElGamal Prop_FujiOkam Prop_Shuffle Prop_Codec Prop_Bridge Prop_Assign Prop_Coord Prop_Round Depart
  Restart Reboot Prop_Restart.
Import ListNotations.
Import String.StringSyntax.
Open Scope Z_scope.
Delimit Scope string_scope with str.

(** ** Specification *)
(** The address of a server or of a client of [y]. *)
Definition was_there (y : sys) (x : addr) : Prop := mget (y_servers y) x <> None \/ mget (y_clients y) x <> None.

(** The property: after the restart of the coordinator of a service that is waiting for
    its next round, some schedule brings a client of that service an announcement again,
    i.e. lets it take part in a round. *)
Definition resumes (S : suite) (H : oracle) (G : gob) : Prop :=
  forall y V a fb trap gammas x, reach S H G y V -> y_msgs y = [] -> mget (y_clients y) x <> None ->
  co_status (y_coord y) = CO_READY_FOR_NEW_ROUND ->
  exists l y2 m, sys_run S H G (reboot S y a fb trap gammas) l = Some y2 /\ In m (y_msgs y2) /\
    mDst m = x /\ mType m = ANNOUNCEMENT_FINALIZE.

(** Nothing is started at an address that is in use. *)
Definition elsewhere (y : sys) (a : System.action) : Prop :=
  match a with ALaunch x _ _ | AJoin x _ _ => ~ was_there y x | _ => True end.

(** Two systems are the same as far as the addresses outside [y] are concerned. *)
Definition alike (y z z' : sys) : Prop :=
  y_coord z' = y_coord z /\ y_msgs z' = y_msgs z /\ y_log z' = y_log y ++ y_log z /\
  forall x, ~ was_there y x -> mget (y_servers z') x = mget (y_servers z) x /\ mget (y_clients z') x = mget (y_clients z) x.

Section Reboot.
Context (S : suite) (OK : suite_ok S) (H : oracle) (G : gob) (GOK : gob_ok G).

(** ** The invariant *)
Record left_out (y0 y : sys) : Prop := {
  lo_co : co_apart (was_there y0) (co_addr (y_coord y0)) (y_coord y);
  lo_sv : forall a s, mget (y_servers y) a = Some s -> ~ was_there y0 a -> sv_apart (was_there y0) a s;
  lo_cl : forall a k, mget (y_clients y) a = Some k -> cl_addr k = a /\ cl_coord k = co_addr (y_coord y0);
  lo_msgs : Forall (apart (was_there y0) (co_addr (y_coord y0))) (y_msgs y);
  lo_oldsv : forall a, was_there y0 a -> mget (y_servers y) a = mget (y_servers y0) a;
  lo_oldcl : forall a k, mget (y_clients y0) a = Some k -> exists k', mget (y_clients y) a = Some k' /\ but_assigns k k'
}.

Lemma mget_same {K V} `{EqK K} (m : amap K V) k v k' : mget m k = Some v -> mget (mset m k v) k' = mget m k'.
Proof. intros E. rewrite mget_mset. destruct (keq k' k) as [->|]; congruence. Qed.

Lemma self_new y V : reach S H G y V -> ~ was_there y (co_addr (y_coord y)).
Proof.
  intros R. destruct (reach_inv S OK H G GOK y V R) as [B _]. intros [N|N].
  - now apply N, (b_self _ _ _ _ _ B).
  - destruct (mget (y_clients y) (co_addr (y_coord y))) as [k|] eqn:E; [|congruence].
    now destruct (b_cl _ _ _ _ _ B _ _ E) as (_ & _ & _ & X & _).
Qed.

Lemma left_out_reboot y V a fb trap gammas : reach S H G y V -> y_msgs y = [] -> left_out y (reboot S y a fb trap gammas).
Proof.
  intros R Q. destruct (reach_inv S OK H G GOK y V R) as [B _]. constructor; cbn [reboot y_coord y_servers y_clients y_msgs].
  - unfold init_coord. destruct (gn_generate_all fb gammas) as [hs hp]. constructor; cbn; [reflexivity|intros x []..].
  - intros x s E N. exfalso. apply N. left. congruence.
  - intros x k E. destruct (b_cl _ _ _ _ _ B _ _ E) as (_ & E1 & E2 & _). auto.
  - rewrite Q. constructor.
  - reflexivity.
  - intros x k E. exists k. split; [exact E|apply but_assigns_refl].
Qed.

Lemma old_or_not y x : was_there y x \/ ~ was_there y x.
Proof.
  unfold was_there. destruct (mget (y_servers y) x); [left; left; discriminate|]. destruct (mget (y_clients y) x).
  - left. right. discriminate.
  - right. intros [X|X]; now apply X.
Qed.

Lemma in_rest {A} (l : list A) i m x : nth_error l i = Some m -> In x (firstn i l ++ skipn (Datatypes.S i) l) -> In x l.
Proof.
  intros _ I. apply in_app_or in I. destruct I as [I|I].
  - rewrite <- (firstn_skipn i l). apply in_or_app. now left.
  - rewrite <- (firstn_skipn (Datatypes.S i) l). apply in_or_app. now right.
Qed.

Lemma left_out_step y0 y b y' : ~ was_there y0 (co_addr (y_coord y0)) ->
  left_out y0 y -> sys_step S H G y b = Some y' -> left_out y0 y'.
Proof.
  intros NS [C SV CL M OS OC] E. pose proof (ca_self _ _ _ C) as Ec.
  assert (FREE : forall x, mget (y_servers y) x = None -> mget (y_clients y) x = None -> ~ was_there y0 x).
  { intros x E1 E2 W. pose proof (OS _ W) as E3. destruct W as [W|W]; [congruence|].
    destruct (mget (y_clients y0) x) as [k|] eqn:E4; [|congruence]. destruct (OC _ _ E4) as (k' & E5 & _). congruence. }
  destruct b as [x priv rk|x priv s|i cr sr chal|e|x cmd]; cbn [sys_step] in E.
  - destruct (keq x _); [discriminate|]. destruct (mget (y_servers y) x) eqn:E1; [discriminate|].
    destruct (mget (y_clients y) x) eqn:E2; [discriminate|]. injection E as <-. pose proof (FREE x E1 E2) as Nx.
    constructor; cbn [y_coord y_servers y_clients y_msgs]; try assumption.
    + intros z s. rewrite mget_mset. destruct (keq z x) as [->|]; [|apply SV]. intros [= <-] _.
      constructor; cbn; [reflexivity|now rewrite Ec..].
    + apply Forall_app. split; [exact M|]. constructor; [|constructor]. cbn. rewrite Ec. now apply apart_plain.
    + intros z W. rewrite mget_mset. destruct (keq z x) as [->|]; [contradiction|now apply OS].
  - destruct (keq x _); [discriminate|]. destruct (mget (y_servers y) x) eqn:E1; [discriminate|].
    destruct (mget (y_clients y) x) eqn:E2; [discriminate|]. injection E as <-. pose proof (FREE x E1 E2) as Nx.
    constructor; cbn [y_coord y_servers y_clients y_msgs]; try assumption.
    + intros z k. rewrite mget_mset. destruct (keq z x) as [->|]; [|apply CL]. intros [= <-]. cbn. now rewrite Ec.
    + apply Forall_app. split; [exact M|]. constructor; [|constructor]. cbn. rewrite Ec. now apply apart_plain.
    + intros z k E3. rewrite mget_mset. destruct (keq z x) as [->|]; [|now apply OC]. exfalso. apply Nx. right. congruence.
  - destruct (nth_error (y_msgs y) i) as [m|] eqn:En; [|discriminate]. cbv zeta in E.
    assert (Mm : apart (was_there y0) (co_addr (y_coord y0)) m) by (eapply Forall_forall; [exact M|]; now apply nth_error_In in En).
    assert (MR : Forall (apart (was_there y0) (co_addr (y_coord y0))) (firstn i (y_msgs y) ++ skipn (Datatypes.S i) (y_msgs y))).
    { apply Forall_forall. intros z Iz. eapply Forall_forall; [exact M|]. eapply in_rest; eauto. }
    destruct (keq (mDst m) (co_addr (y_coord y))) as [Ed|Nd].
    + destruct (co_handle S G (y_coord y) _ _ _ cr) as [[c' out]|] eqn:Eh; [|discriminate]. injection E as <-.
      destruct (co_handle_apart S G _ _ NS _ _ _ _ _ C Mm Eh) as [C' O']. constructor; cbn; try assumption. apply Forall_app. now split.
    + destruct (mget (y_servers y) (mDst m)) as [s|] eqn:Es.
      * destruct (sv_handle S H G s _ _ _ sr) as [[s' out]|] eqn:Eh; [|discriminate]. injection E as <-.
        destruct (old_or_not y0 (mDst m)) as [W|W].
        -- pose proof (ap_dst _ _ _ Mm W) as T. rewrite T in Eh. cbn in Eh. injection Eh as <- <-.
           constructor; cbn [y_coord y_servers y_clients y_msgs]; try assumption.
           ++ intros z t Ez. rewrite (mget_same _ _ _ _ Es) in Ez. now apply SV.
           ++ now rewrite app_nil_r.
           ++ intros z Wz. rewrite (mget_same _ _ _ _ Es). now apply OS.
        -- destruct (sv_handle_apart S G (was_there y0) (co_addr (y_coord y0)) H (mDst m) s m sr s' out (SV _ _ Es W) W eq_refl ltac:(now rewrite <- Ec) Mm Eh) as [S' O'].
           constructor; cbn [y_coord y_servers y_clients y_msgs]; try assumption.
           ++ intros z t. rewrite mget_mset. destruct (keq z (mDst m)) as [->|]; [|apply SV]. now intros [= <-] _.
           ++ apply Forall_app. now split.
           ++ intros z Wz. rewrite mget_mset. destruct (keq z (mDst m)) as [->|]; [contradiction|now apply OS].
      * destruct (mget (y_clients y) (mDst m)) as [k|] eqn:Ek; [|discriminate].
        destruct (cl_handle S G k _ _ chal) as [[k' out]|] eqn:Eh; [|discriminate]. injection E as <-.
        destruct (cl_handle_apart S G _ _ _ _ _ _ Eh) as (A1 & A2 & A3). destruct (CL _ _ Ek) as [K1 K2].
        assert (CL' : forall z t, mget (mset (y_clients y) (mDst m) k') z = Some t -> cl_addr t = z /\ cl_coord t = co_addr (y_coord y0)).
        { intros z t. rewrite mget_mset. destruct (keq z (mDst m)) as [->|]; [|apply CL]. intros [= <-]. now rewrite A1, A2. }
        destruct (old_or_not y0 (mDst m)) as [W|W].
        -- pose proof (ap_dst _ _ _ Mm W) as T. rewrite T in Eh. destruct (got_but_assigns S G _ _ _ _ _ Eh) as [BA ->].
           constructor; cbn [y_coord y_servers y_clients y_msgs]; try assumption.
           ++ now rewrite app_nil_r.
           ++ intros z t Ez. rewrite mget_mset. destruct (keq z (mDst m)) as [->|]; [|now apply OC].
              exists k'. split; [reflexivity|]. destruct (OC _ _ Ez) as (k1 & E1 & B1). rewrite Ek in E1. injection E1 as <-.
              eapply but_assigns_trans; eauto.
        -- constructor; cbn [y_coord y_servers y_clients y_msgs]; try assumption.
           ++ apply Forall_app. split; [assumption|]. apply Forall_forall. intros z Iz. destruct (A3 z Iz) as (B1 & B2 & B3 & _).
              destruct z as [zd zt zp zs]. cbn [mDst mSrc mType] in *. subst zd zt zs. rewrite K1, K2. now apply apart_plain.
           ++ intros z t Ez. rewrite mget_mset. destruct (keq z (mDst m)) as [->|]; [|now apply OC]. exfalso. apply W. right. congruence.
  - destruct (is_loop e) eqn:L; [|discriminate]. destruct (co_step S G (y_coord y) e) as [[c' out]|] eqn:Eh; [|discriminate]. injection E as <-.
    destruct (co_loop_apart S G _ _ NS _ _ _ _ L C Eh) as [C' O']. constructor; cbn; try assumption. apply Forall_app. now split.
  - destruct (mget (y_clients y) x) as [k|] eqn:Ek; [|discriminate]. destruct (cl_command S G k cmd) as [out|] eqn:Eh; [|discriminate].
    injection E as <-. destruct (CL _ _ Ek) as [K1 K2]. constructor; cbn; try assumption. apply Forall_app. split; [assumption|].
    apply Forall_forall. intros z Iz. destruct (cmd_apart S G _ _ _ Eh z Iz) as (B1 & B2 & B3).
    constructor.
    + rewrite B1, K2. intros X. contradiction.
    + intros _. rewrite B1, K2. now split.
    + intros X. rewrite X in B3. destruct B3 as [B|[B|B]]; discriminate B.
    + intros X. rewrite X in B3. destruct B3 as [B|[B|B]]; discriminate B.
    + intros X. rewrite X in B3. destruct B3 as [B|[B|B]]; discriminate B.
Qed.

Lemma left_out_run y V a fb trap gammas l y2 : reach S H G y V -> y_msgs y = [] ->
  sys_run S H G (reboot S y a fb trap gammas) l = Some y2 -> left_out y y2.
Proof.
  intros R Q. revert l y2. apply (sys_run_ind S H G (fun _ z => left_out y z)).
  - now apply (left_out_reboot y V).
  - intros l z b z' _ I E. eapply left_out_step; eauto. now apply (self_new y V).
Qed.

(** C93: whatever happens after the restart - deliveries in any order, commands at any
    client, new servers and clients, any number of rounds - the servers that were there
    stay exactly as they are, and the clients that were there as well, except for the list
    of assigned bridges; the coordinator never lists any of them again, and nothing but the
    signatures for requested bridges is ever sent to them. *)
Theorem C93_left_behind : forall y V a fb trap gammas l y2, reach S H G y V -> y_msgs y = [] ->
  sys_run S H G (reboot S y a fb trap gammas) l = Some y2 ->
  (forall x s, mget (y_servers y) x = Some s -> mget (y_servers y2) x = Some s) /\
  (forall x k, mget (y_clients y) x = Some k -> exists k', mget (y_clients y2) x = Some k' /\
     cl_rep k' = cl_rep k /\ cl_R k' = cl_R k /\ cl_PCommr k' = cl_PCommr k /\ cl_nym k' = cl_nym k /\ cl_G k' = cl_G k /\
     cl_priv k' = cl_priv k /\ cl_pub k' = cl_pub k /\ cl_cpk k' = cl_cpk k /\ cl_pb k' = cl_pb k /\ cl_fb k' = cl_fb k /\
     cl_status k' = cl_status k /\ cl_keys k' = cl_keys k /\ cl_index k' = cl_index k) /\
  (forall x, was_there y x -> ~ In x (map fst (co_servers (y_coord y2))) /\ ~ In x (map snd (co_clients (y_coord y2)))) /\
  (forall m, In m (y_msgs y2) -> was_there y (mDst m) -> mType m = GOT_SIGNS).
Proof.
  intros y V a fb trap gammas l y2 R Q E. destruct (left_out_run _ _ _ _ _ _ _ _ R Q E) as [C SV CL M OS OC].
  split; [|split; [|split]].
  - intros x s Es. rewrite OS; [exact Es|]. left. congruence.
  - intros x k Ek. destruct (OC x k Ek) as (k' & E' & B). exists k'. split; [exact E'|]. rewrite B. now repeat split.
  - intros x W. split; intros I; [now apply (ca_servers _ _ _ C x I)|now apply (ca_clients _ _ _ C x I)].
  - intros m I W. rewrite Forall_forall in M. exact (ap_dst _ _ _ (M m I) W).
Qed.

(** What the restarted coordinator can do: everything a new service can.  Each run of a
    new service with the same coordinator, whose servers and clients are at other
    addresses, is also a run after the restart, with the same coordinator, the same
    messages and the same processes. *)
Lemma alike_step y z z' b w : ~ was_there y (co_addr (y_coord z)) ->
  (forall x, mget (y_servers z) x <> None \/ mget (y_clients z) x <> None -> ~ was_there y x) ->
  elsewhere y b -> alike y z z' -> sys_step S H G z b = Some w ->
  exists w', sys_step S H G z' b = Some w' /\ alike y w w' /\
    (forall x, mget (y_servers w) x <> None \/ mget (y_clients w) x <> None -> ~ was_there y x).
Proof.
  intros NS NEW EL (A1 & A2 & A3 & A4) E. unfold alike.
  destruct b as [x priv rk|x priv s|i cr sr chal|e|x cmd]; cbn [sys_step elsewhere] in *; rewrite ?A1, ?A2.
  - destruct (keq x _) as [|Nx]; [discriminate|]. destruct (A4 x EL) as [B1 B2]. rewrite B1, B2.
    destruct (mget (y_servers z) x) eqn:E1; [discriminate|]. destruct (mget (y_clients z) x) eqn:E2; [discriminate|].
    injection E as <-. eexists. split; [reflexivity|]. cbn [y_coord y_msgs y_log y_servers y_clients]. split; [|].
    + split; [reflexivity|]. split; [reflexivity|]. split; [exact A3|]. intros t Wt. destruct (A4 t Wt) as [C1 C2].
      rewrite !mget_mset, C1, C2. auto.
    + intros t. rewrite mget_mset. destruct (keq t x) as [->|]; [now intros _|apply NEW].
  - destruct (keq x _) as [|Nx]; [discriminate|]. destruct (A4 x EL) as [B1 B2]. rewrite B1, B2.
    destruct (mget (y_servers z) x) eqn:E1; [discriminate|]. destruct (mget (y_clients z) x) eqn:E2; [discriminate|].
    injection E as <-. eexists. split; [reflexivity|]. cbn [y_coord y_msgs y_log y_servers y_clients]. split; [|].
    + split; [reflexivity|]. split; [reflexivity|]. split; [exact A3|]. intros t Wt. destruct (A4 t Wt) as [C1 C2].
      rewrite !mget_mset, C1, C2. auto.
    + intros t. rewrite mget_mset. destruct (keq t x) as [->|]; [now intros _|apply NEW].
  - destruct (nth_error (y_msgs z) i) as [m|] eqn:En; [|discriminate]. cbv zeta in *.
    destruct (keq (mDst m) (co_addr (y_coord z))) as [Ed|Nd].
    + destruct (co_handle S G (y_coord z) _ _ _ cr) as [[c' out]|] eqn:Eh; [|discriminate]. injection E as <-.
      eexists. split; [reflexivity|]. cbn [y_coord y_msgs y_log y_servers y_clients]. auto 6.
    + destruct (mget (y_servers z) (mDst m)) as [s|] eqn:Es.
      * assert (W : ~ was_there y (mDst m)) by (apply NEW; left; congruence). destruct (A4 _ W) as [B1 B2]. rewrite B1, Es.
        destruct (sv_handle S H G s _ _ _ sr) as [[s' out]|] eqn:Eh; [|discriminate]. injection E as <-.
        eexists. split; [reflexivity|]. cbn [y_coord y_msgs y_log y_servers y_clients]. split; [|].
        -- split; [reflexivity|]. split; [reflexivity|]. split; [now rewrite A3, app_assoc|]. intros t Wt. destruct (A4 t Wt) as [C1 C2].
           rewrite !mget_mset, C1, C2. auto.
        -- intros t. rewrite mget_mset. destruct (keq t (mDst m)) as [->|]; [now intros _|apply NEW].
      * destruct (mget (y_clients z) (mDst m)) as [k|] eqn:Ek; [|discriminate].
        assert (W : ~ was_there y (mDst m)) by (apply NEW; right; congruence). destruct (A4 _ W) as [B1 B2]. rewrite B1, B2, Es, Ek.
        destruct (cl_handle S G k _ _ chal) as [[k' out]|] eqn:Eh; [|discriminate]. injection E as <-.
        eexists. split; [reflexivity|]. cbn [y_coord y_msgs y_log y_servers y_clients]. split; [|].
        -- split; [reflexivity|]. split; [reflexivity|]. split; [exact A3|]. intros t Wt. destruct (A4 t Wt) as [C1 C2].
           rewrite !mget_mset, C1, C2. auto.
        -- intros t. rewrite mget_mset. destruct (keq t (mDst m)) as [->|]; [now intros _|apply NEW].
  - destruct (is_loop e) eqn:L; [|discriminate]. destruct (co_step S G (y_coord z) e) as [[c' out]|] eqn:Eh; [|discriminate]. injection E as <-.
    eexists. split; [reflexivity|]. cbn [y_coord y_msgs y_log y_servers y_clients]. auto 6.
  - destruct (mget (y_clients z) x) as [k|] eqn:Ek; [|discriminate].
    assert (W : ~ was_there y x) by (apply NEW; right; congruence). destruct (A4 _ W) as [B1 B2]. rewrite B2, Ek.
    destruct (cl_command S G k cmd) as [out|] eqn:Eh; [|discriminate]. injection E as <-.
    eexists. split; [reflexivity|]. cbn [y_coord y_msgs y_log y_servers y_clients]. auto 6.
Qed.

Theorem C93_fresh_start : forall y V a fb trap gammas l z, reach S H G y V -> y_msgs y = [] -> Forall (elsewhere y) l ->
  sys_run S H G (init_sys S (co_addr (y_coord y)) a fb trap gammas) l = Some z ->
  exists y2, sys_run S H G (reboot S y a fb trap gammas) l = Some y2 /\ alike y z y2.
Proof.
  intros y V a fb trap gammas l z R Q F E. pose proof (self_new y V R) as NS.
  assert (X : Forall (elsewhere y) l -> exists y2, sys_run S H G (reboot S y a fb trap gammas) l = Some y2 /\ alike y z y2 /\
    (forall x, mget (y_servers z) x <> None \/ mget (y_clients z) x <> None -> ~ was_there y x) /\
    co_addr (y_coord z) = co_addr (y_coord y)).
  2:{ destruct (X F) as (y2 & X1 & X2 & _). now exists y2. }
  clear F. revert l z E.
  apply (sys_run_ind S H G (fun l z => Forall (elsewhere y) l -> exists y2, sys_run S H G (reboot S y a fb trap gammas) l = Some y2 /\ alike y z y2 /\
    (forall x, mget (y_servers z) x <> None \/ mget (y_clients z) x <> None -> ~ was_there y x) /\
    co_addr (y_coord z) = co_addr (y_coord y))).
  - intros _. eexists. split; [reflexivity|]. split; [|split].
    + split; [reflexivity|]. split; [exact Q|]. split; [cbn; now rewrite app_nil_r|]. intros x W. cbn.
      destruct (mget (y_servers y) x) eqn:E1; [exfalso; apply W; left; congruence|].
      destruct (mget (y_clients y) x) eqn:E2; [exfalso; apply W; right; congruence|]. auto.
    + cbn. intros x [X|X]; congruence.
    + cbn. unfold init_coord. now destruct (gn_generate_all fb gammas).
  - intros l z b w Er IH Eb F. apply Forall_app in F. destruct F as [F1 F2]. inversion F2 as [|? ? F3 _]; subst.
    destruct (IH F1) as (y2 & R2 & A & NEW & Ea).
    destruct (alike_step y z y2 b w ltac:(now rewrite Ea) NEW F3 A Eb) as (w' & Ew & Aw & NW).
    exists w'. split; [|split; [exact Aw|split; [exact NW|]]].
    + rewrite sys_run_app, R2. cbn [sys_run]. now rewrite Ew.
    + rewrite <- Ea. clear - Eb. destruct b as [x priv rk|x priv s|i cr sr chal|e|x cmd]; cbn [sys_step] in Eb.
      * destruct (keq x _); [discriminate|]. destruct (mget _ x); [discriminate|]. destruct (mget _ x); [discriminate|]. now injection Eb as <-.
      * destruct (keq x _); [discriminate|]. destruct (mget _ x); [discriminate|]. destruct (mget _ x); [discriminate|]. now injection Eb as <-.
      * destruct (nth_error (y_msgs z) i) as [m|]; [|discriminate]. cbv zeta in Eb. destruct (keq (mDst m) _).
        -- destruct (co_handle _ _ _ _ _ _ _) as [[c' out]|] eqn:Eh; [|discriminate]. injection Eb as <-. cbn [y_coord].
           pose proof (proj1 (co_step_frame S G _ (EMsg _ _ _ _) _ _ Eh) FStatic) as X. unfold co_addr. f_equal. apply X.
           cbn [writes_ev]. unfold writes. repeat (match goal with |- context [if ?b then _ else _] => destruct b end; [cbn; intuition discriminate|]). cbn. tauto.
        -- destruct (mget (y_servers z) (mDst m)) as [s|].
           ++ destruct (sv_handle _ _ _ _ _ _ _ _) as [[s' out]|]; [|discriminate]. now injection Eb as <-.
           ++ destruct (mget (y_clients z) (mDst m)) as [k|]; [|discriminate]. destruct (cl_handle _ _ _ _ _ _) as [[k' out]|]; [|discriminate]. now injection Eb as <-.
      * destruct (is_loop e); [|discriminate]. destruct (co_step S G (y_coord z) e) as [[c' out]|] eqn:Eh; [|discriminate]. injection Eb as <-. cbn [y_coord].
        pose proof (proj1 (co_step_frame S G _ e _ _ Eh) FStatic) as X. unfold co_addr. f_equal. apply X. destruct e; cbn [writes_ev]; [|cbn; intuition discriminate..].
        unfold writes. repeat (match goal with |- context [if ?b then _ else _] => destruct b end; [cbn; intuition discriminate|]). cbn. tauto.
      * destruct (mget (y_clients z) x) as [k|]; [|discriminate]. destruct (cl_command _ _ _ _); [|discriminate]. now injection Eb as <-.
Qed.

End Reboot.
Print Assumptions C93_left_behind.
Print Assumptions C93_fresh_start.

(** ** The property is refuted *)
(** Two servers A and B and the client D, between the first and the second round. *)
Theorem C93_resumes_refuted : ~ (forall S H G, suite_ok S -> gob_ok G -> resumes S H G).
Proof.
  intros C. specialize (C toy_suite toy_oracle toy_gob toy_ok toy_gob_ok).
  destruct (toy_run toy_ready1 (fun yv => (y_msgs (fst yv), co_status (y_coord (fst yv)),
      match mget (y_clients (fst yv)) adD with Some _ => true | None => false end)) ([], CO_READY_FOR_NEW_ROUND, true))
    as (y & V & _ & R & F); [vm_compute; reflexivity|].
  cbn [fst] in F. injection F as F1 F2 F3.
  assert (N : mget (y_clients y) adD <> None) by (destruct (mget (y_clients y) adD); [discriminate|discriminate F3]).
  destruct (C y V 5 toy_fb toy_trap (repeat 3 480%nat) adD R F1 N F2) as (l & y2 & m & E & I & D & T).
  destruct (C93_left_behind toy_suite toy_ok toy_oracle toy_gob toy_gob_ok _ _ _ _ _ _ _ _ R F1 E) as (_ & _ & _ & X).
  assert (W : was_there y (mDst m)) by (rewrite D; right; exact N). specialize (X m I W). rewrite T in X. discriminate X.
Qed.
Print Assumptions C93_resumes_refuted.

(** The coordinator is restarted there; a new server E registers, a round begins with a
    fake client, and D posts a bridge.  The round is open, but D is not in it: it still has
    the pseudonym of the first round. *)
Definition toy_anew : list (sys -> System.action) :=
  [do (ALaunch adE 2 3)] ++ dls 3 ++ [do (ALoop EConfigure)] ++ dls 1 ++ [tbegin [(6, 2)]] ++ dls 3 ++
  [do (ACommand adD (CPost [x62; x32]%byte))] ++ dls 1.
Definition toy_reboot (y : sys) : sys := reboot toy_suite y 7 toy_fb toy_trap (repeat 3 480%nat).

Example C93_instance : exists y V l y2 k, reach toy_suite toy_oracle toy_gob y V /\ y_msgs y = [] /\
  co_status (y_coord y) = CO_READY_FOR_NEW_ROUND /\ mget (y_clients y) adD = Some k /\ map fst (y_servers y) = [adA; adB] /\
  sys_run toy_suite toy_oracle toy_gob (toy_reboot y) l = Some y2 /\ length l = 12%nat /\
  co_status (y_coord y2) = CO_MESSAGE /\ map fst (co_servers (y_coord y2)) = [adE] /\ y_msgs y2 = [] /\
  co_clients (y_coord y2) = [] /\ length (co_keys (y_coord y2)) = 1%nat /\ ~ In (cl_nym k) (co_keys (y_coord y2)).
Proof.
  destruct (toy_run toy_ready1 (fun yv => (y_msgs (fst yv), co_status (y_coord (fst yv)), client_at adD (fst yv), map fst (y_servers (fst yv)),
      length (taken toy_anew (toy_reboot (fst yv))),
      option_map (fun y2 => (co_status (y_coord y2), map fst (co_servers (y_coord y2)), y_msgs y2, co_clients (y_coord y2), co_keys (y_coord y2)))
          (run_with toy_suite toy_oracle toy_gob toy_anew (toy_reboot (fst yv)))))
      ([], CO_READY_FOR_NEW_ROUND, Some (3, 5, Some 1, Some 3, PBase 9 4, 12), [adA; adB], 12%nat, Some (CO_MESSAGE, [adE], [], [], [8])))
    as (y & V & _ & R & F); [vm_compute; reflexivity|].
  cbn [fst] in F. set (w := toy_anew) in *. clearbody w. injection F as F1 F2 F3 F4 F5 F6. destruct (client_at_some _ _ _ _ _ _ _ _ F3) as (k & Ek & _ & _ & _ & _ & _ & En).
  destruct (run_with toy_suite toy_oracle toy_gob w (toy_reboot y)) as [y2|] eqn:E2; [|discriminate F6].
  cbn [option_map] in F6. injection F6 as F6 F7 F8 F9 F10.
  exists y, V, (taken w (toy_reboot y)), y2, k. repeat (split; [assumption|]). split; [now apply taken_run|].
  repeat (split; [assumption|]). rewrite F10, En. split; [reflexivity|]. intros [X|[]]. discriminate X.
Qed.

(** The same schedule, without the post of D, in a new service with that coordinator. *)
Definition toy_anew0 : list (sys -> System.action) :=
  [do (ALaunch adE 2 3)] ++ dls 3 ++ [do (ALoop EConfigure)] ++ dls 1 ++ [tbegin [(6, 2)]] ++ dls 3.
Lemma taken_elsewhere y l : (forall f z, In f l -> elsewhere y (f z)) -> forall z, Forall (elsewhere y) (taken l z).
Proof.
  induction l as [|f l IH]; intros F z; cbn [taken]; [constructor|]. constructor; [apply F; now left|].
  destruct (sys_step toy_suite toy_oracle toy_gob z (f z)); [|constructor]. apply IH. intros g t I. apply F. now right.
Qed.
Example C93_instance_fresh : exists y V l z, reach toy_suite toy_oracle toy_gob y V /\ y_msgs y = [] /\ Forall (elsewhere y) l /\
  sys_run toy_suite toy_oracle toy_gob (init_sys toy_suite (co_addr (y_coord y)) 7 toy_fb toy_trap (repeat 3 480%nat)) l = Some z /\
  co_status (y_coord z) = CO_MESSAGE /\ map fst (y_servers z) = [adE] /\ length (y_servers y) = 2%nat.
Proof.
  destruct (toy_run toy_ready1 (fun yv => (y_msgs (fst yv),
      (match mget (y_servers (fst yv)) adE with Some _ => true | None => false end,
       match mget (y_clients (fst yv)) adE with Some _ => true | None => false end), length (y_servers (fst yv)),
      option_map (fun z => (co_status (y_coord z), map fst (y_servers z)))
          (run_with toy_suite toy_oracle toy_gob toy_anew0 (init_sys toy_suite (co_addr (y_coord (fst yv))) 7 toy_fb toy_trap (repeat 3 480%nat)))))
      ([], (false, false), 2%nat, Some (CO_MESSAGE, [adE])))
    as (y & V & _ & R & F); [vm_compute; reflexivity|].
  cbn [fst] in F. assert (EW : forall f t, In f toy_anew0 -> ~ was_there y adE -> elsewhere y (f t)).
  { intros f t I N. unfold toy_anew0, dls in I. cbn [repeat app In] in I.
    repeat (destruct I as [<-|I]; [first [exact Logic.I|exact N]|]). destruct I. }
  set (w := toy_anew0) in *. clearbody w.
  remember (init_sys toy_suite (co_addr (y_coord y)) 7 toy_fb toy_trap (repeat 3 480%nat)) as z0 eqn:Ez.
  injection F as F1 F2 F3 F4 F5.
  destruct (run_with toy_suite toy_oracle toy_gob w z0) as [z|] eqn:E2; [|discriminate F5].
  cbn [option_map] in F5. injection F5 as F5 F6.
  exists y, V, (taken w z0), z. split; [exact R|]. split; [exact F1|]. rewrite <- Ez. split; [|split; [now apply taken_run|auto]].
  apply taken_elsewhere. intros f t I. apply EW; [exact I|].
  intros [X|X]; apply X; [destruct (mget (y_servers y) adE)|destruct (mget (y_clients y) adE)]; congruence.
Qed.
