(** A server that is started while the service is running, on top of System.v: the state
    its registration leads to (used for C94). *)
From Coq Require Import ZArith Znumtheory Lia List Bool Permutation.
From Coq Require Import Strings.Byte.
From Coq Require String.
From Verif Require Import ZMod Bytes Suite Pedersen ElGamal FujiOkam Equality Codec Maps Net Bridge Client
  Perm SimpleShuffle PairShuffle Server Coordinator History System Restart.
Import ListNotations.
Import String.StringSyntax.
Open Scope Z_scope.
Delimit Scope string_scope with str.

Section Late.
Context (S : suite) (OK : suite_ok S) (H : oracle) (G : gob).

(** What the answer to the registration does at the new server. *)
Lemma reply_effect s p src rn s' out h z : sv_handle S H G s SERVER_REGISTER_REPLY p src rn = Some (s', out) ->
  get_bool p "reply"%str = Some true -> get_str p "prev_server"%str = Some z -> get_bytes p "h"%str = Some (enc_point S h) -> in_group S h ->
  sv_connected s' = true /\ sv_addr s' = sv_addr s /\ sv_prev s' = z /\ sv_next s' = sv_next s /\ sv_keymap s' = sv_keymap s /\ sv_roundkey s' = sv_roundkey s /\
  out = [Msg src UPDATE_PEDERSEN_H [("h"%str, VBytes (enc_point S (pt_mul S h (srKey rn))))] (sv_addr s)].
Proof.
  intros E B0 P B I. change (sv_register_reply S s p src (srKey rn) = Some (s', out)) in E. unfold sv_register_reply in E.
  rewrite B0, B, (dec_enc_point S OK h I), P in E. odestruct E; injection E as <- <-; cbn [sv_prev sv_next sv_keymap sv_roundkey sv_addr sv_connected];
    repeat split.
  unfold has_key, get_str in *. destruct (lookup p "prev_server"%str) as [[]|]; congruence.
Qed.

(** Only the next hop changes at the server that was the last one. *)
Definition hop (s : server) (a : addr) : server :=
  Server (sv_addr s) (sv_coord s) (sv_priv s) (sv_pub s) (sv_G s) (sv_ekeys s) (sv_ecomms s)
    (sv_connected s) a (sv_prev s) (sv_keymap s) (sv_roundkey s) (sv_pb s) (sv_fb s).

Record joined (y : sys) (a z : addr) (rk k s : Z) (y1 : sys) : Prop := {
  jn_coord : y_coord y1 = set_pb (set_servers (y_coord y) (co_servers (y_coord y) ++ [(a, k)]))
    (PBase (pt_mul S (pb_HT (co_pb (y_coord y))) s) (pb_GT (co_pb (y_coord y))));
  jn_clients : y_clients y1 = y_clients y;
  jn_log : y_log y1 = y_log y ++ [(a, s)];
  jn_new : exists t, mget (y_servers y1) a = Some t /\ sv_addr t = a /\ sv_next t = co_addr (y_coord y) /\ sv_prev t = z /\
    sv_keymap t = [] /\ sv_roundkey t = rk /\ sv_connected t = true;
  jn_last : forall t, mget (y_servers y) z = Some t -> mget (y_servers y1) z = Some (hop t a);
  jn_rest : forall x, x <> a -> x <> z -> mget (y_servers y1) x = mget (y_servers y) x
}.

Lemma quiet_run y l y1 : y_msgs y = [] -> Forall is_delivery l -> sys_run S H G y l = Some y1 -> y1 = y.
Proof.
  intros M F E. destruct l as [|b l]; [now injection E as <-|]. inversion F as [|? ? Fb _]; subst.
  destruct b; try destruct Fb. cbn [sys_run sys_step] in E. rewrite M in E. now destruct i.
Qed.

(** The steps of the registration, as one. *)
Lemma deliver_to_coord y i cr sr chal m : nth_error (y_msgs y) i = Some m -> mDst m = co_addr (y_coord y) ->
  sys_step S H G y (ADeliver i cr sr chal) =
  olet (c', out) := co_handle S G (y_coord y) (mType m) (mParams m) (mSrc m) cr in
  Some (Sys c' (y_servers y) (y_clients y) ((firstn i (y_msgs y) ++ skipn (Datatypes.S i) (y_msgs y)) ++ out) (y_log y)).
Proof. intros E D. cbn [sys_step]. rewrite E, D. destruct (keq _ _); [reflexivity|congruence]. Qed.
Lemma deliver_to_server y i cr sr chal m s : nth_error (y_msgs y) i = Some m -> mDst m <> co_addr (y_coord y) ->
  mget (y_servers y) (mDst m) = Some s ->
  sys_step S H G y (ADeliver i cr sr chal) =
  olet (s', out) := sv_handle S H G s (mType m) (mParams m) (mSrc m) sr in
  Some (Sys (y_coord y) (mset (y_servers y) (mDst m) s') (y_clients y) ((firstn i (y_msgs y) ++ skipn (Datatypes.S i) (y_msgs y)) ++ out)
    (y_log y ++ if mType m =? SERVER_REGISTER_REPLY then [(mDst m, srKey sr)] else [])).
Proof. intros E D Es. cbn [sys_step]. rewrite E. destruct (keq _ _); [contradiction|]. now rewrite Es. Qed.

Lemma joins y a z t priv rk l y1 : y_msgs y = [] -> last_server (y_coord y) = Some z -> z <> co_addr (y_coord y) ->
  mget (y_servers y) z = Some t -> in_group S (pb_HT (co_pb (y_coord y))) ->
  Forall is_delivery l -> sys_run S H G y (ALaunch a priv rk :: l) = Some y1 -> y_msgs y1 = [] ->
  exists k s, joined y a z rk k s y1.
Proof.
  intros M0 LZ Nz Et IH F E M1. cbn [sys_run sys_step] in E.
  destruct (keq a (co_addr (y_coord y))) as [|Na]; [discriminate|].
  destruct (mget (y_servers y) a) eqn:Ea; [discriminate|]. destruct (mget (y_clients y) a) eqn:Ea2; [discriminate|].
  rewrite M0 in E. cbn [app] in E. set (s0 := init_server S a (co_addr (y_coord y)) priv rk) in *.
  assert (Naz : a <> z) by (intros ->; congruence).
  destruct l as [|b1 l]; [injection E as <-; discriminate M1|]. inversion F as [|? ? F1 Fl]; subst. clear F.
  destruct b1 as [| |i cr sr chal| |]; try destruct F1. cbn [sys_run] in E.
  destruct i as [|i]; [|cbn [sys_step y_msgs nth_error] in E; now destruct i].
  erewrite deliver_to_coord in E by reflexivity. cbn [y_coord y_msgs mType mParams mSrc sv_register firstn skipn app y_servers y_clients y_log] in E.
  change (co_handle S G ?c SERVER_REGISTER ?p ?s cr) with (co_server_register S c p s) in E.
  unfold co_server_register in E. cbv zeta in E. rewrite LZ in E. cbn [get_bytes lookup String.eqb Ascii.eqb Bool.eqb app] in E.
  set (k := dec_point_unchecked _) in E. set (pr := _ :: _ :: _ :: fobase_params _) in E.
  assert (P0 : get_bool pr "reply"%str = Some true) by reflexivity.
  assert (P1 : get_str pr "prev_server"%str = Some z) by reflexivity.
  assert (P2 : get_bytes pr "h"%str = Some (enc_point S (pb_HT (co_pb (y_coord y))))) by reflexivity.
  clearbody pr. cbn [sv_register mSrc sv_addr s0 init_server] in E. fold s0 in E.
  set (c1 := add_server (y_coord y) a k) in E.
  assert (Ec1 : co_addr c1 = co_addr (y_coord y)) by reflexivity.
  destruct l as [|b2 l]; [injection E as <-; discriminate M1|]. inversion Fl as [|? ? F1 Fl2]; subst. clear Fl.
  destruct b2 as [| |i cr2 sr2 chal2| |]; try destruct F1. cbn [sys_run] in E.
  assert (FIN : forall w, pt_mul S (pb_HT (co_pb (y_coord y))) w = pt_mul S (pb_HT (co_pb (y_coord y))) w -> 
    dec_point S (enc_point S (pt_mul S (pb_HT (co_pb (y_coord y))) w)) = Some (pt_mul S (pb_HT (co_pb (y_coord y))) w)).
  { intros w _. apply (dec_enc_point S OK). now apply (in_group_zexp S OK). }
  destruct i as [|[|i]]; [| |cbn [sys_step y_msgs nth_error] in E; now destruct i].
  - (* the next hop first *)
    erewrite deliver_to_server in E; [|reflexivity|cbn [mDst y_coord]; rewrite Ec1; exact Nz|
      cbn [mDst y_servers]; rewrite mget_mset_ne by exact Naz; exact Et].
    cbn [y_coord y_msgs mType mParams mSrc firstn skipn app y_servers y_clients y_log mDst] in E.
    change (sv_handle S H G t UPDATE_NEXT_HOP ?p ?s sr2) with (Some (hop t a, @nil msg)) in E. cbn iota beta in E.
    change (UPDATE_NEXT_HOP =? SERVER_REGISTER_REPLY) with false in E. cbn iota in E. rewrite !app_nil_r in E.
    destruct l as [|b3 l]; [injection E as <-; discriminate M1|]. inversion Fl2 as [|? ? F1 Fl3]; subst. clear Fl2.
    destruct b3 as [| |i cr3 sr3 chal3| |]; try destruct F1. cbn [sys_run] in E.
    destruct i as [|i]; [|cbn [sys_step y_msgs nth_error] in E; now destruct i].
    erewrite deliver_to_server in E; [|reflexivity|cbn [mDst y_coord]; rewrite Ec1; exact Na|
      cbn [mDst y_servers]; rewrite mget_mset_ne, mget_mset_eq by congruence; reflexivity].
    cbn [y_coord y_msgs mType mParams mSrc firstn skipn app y_servers y_clients y_log mDst] in E.
    destruct (sv_handle S H G s0 SERVER_REGISTER_REPLY pr (co_addr (y_coord y)) sr3) as [[s1 out]|] eqn:EH; [|discriminate].
    destruct (reply_effect _ _ _ _ _ _ _ _ EH P0 P1 P2 IH) as (AC & A0 & A1 & A2 & A3 & A4 & ->).
    destruct l as [|b4 l]; [injection E as <-; discriminate M1|]. inversion Fl3 as [|? ? F1 Fl4]; subst. clear Fl3.
    destruct b4 as [| |i cr4 sr4 chal4| |]; try destruct F1. cbn [sys_run] in E.
    destruct i as [|i]; [|cbn [sys_step y_msgs nth_error app] in E; now destruct i].
    erewrite deliver_to_coord in E by reflexivity. cbn [y_coord y_msgs mType mParams mSrc firstn skipn app y_servers y_clients y_log] in E.
    change (co_handle S G ?c UPDATE_PEDERSEN_H ?p ?s cr4) with (co_pedersen_h S c p) in E. unfold co_pedersen_h in E.
    cbn [get_bytes lookup String.eqb Ascii.eqb Bool.eqb] in E. rewrite FIN in E by reflexivity. cbn [app] in E.
    apply quiet_run in E; [|reflexivity|assumption]. subst y1. exists k, (srKey sr3).
    constructor; cbn [y_coord y_servers y_clients y_log]; try reflexivity.
    + exists s1. rewrite mget_mset_eq. split; [reflexivity|]. rewrite A0, A2, A3, A4. auto 10.
    + intros t' Et'. rewrite Et in Et'. injection Et' as <-. rewrite mget_mset_ne by congruence. now rewrite mget_mset_eq.
    + intros x N1 N2. rewrite !mget_mset_ne by congruence. reflexivity.
  - (* the reply first *)
    erewrite deliver_to_server in E; [|reflexivity|cbn [mDst y_coord]; rewrite Ec1; exact Na|
      cbn [mDst y_servers]; rewrite mget_mset_eq by congruence; reflexivity].
    cbn [y_coord y_msgs mType mParams mSrc firstn skipn app y_servers y_clients y_log mDst] in E.
    destruct (sv_handle S H G s0 SERVER_REGISTER_REPLY pr (co_addr (y_coord y)) sr2) as [[s1 out]|] eqn:EH; [|discriminate].
    destruct (reply_effect _ _ _ _ _ _ _ _ EH P0 P1 P2 IH) as (AC & A0 & A1 & A2 & A3 & A4 & ->).
    destruct l as [|b3 l]; [injection E as <-; discriminate M1|]. inversion Fl2 as [|? ? F1 Fl3]; subst. clear Fl2.
    destruct b3 as [| |i cr3 sr3 chal3| |]; try destruct F1. cbn [sys_run app] in E.
    destruct i as [|[|i]]; [| |cbn [sys_step y_msgs nth_error app] in E; now destruct i].
    + erewrite deliver_to_server in E; [|reflexivity|cbn [mDst y_coord]; rewrite Ec1; exact Nz|
        cbn [mDst y_servers]; rewrite !mget_mset_ne by exact Naz; exact Et].
      cbn [y_coord y_msgs mType mParams mSrc firstn skipn app y_servers y_clients y_log mDst] in E.
      change (sv_handle S H G t UPDATE_NEXT_HOP ?p ?s sr3) with (Some (hop t a, @nil msg)) in E. cbn iota beta in E.
      change (UPDATE_NEXT_HOP =? SERVER_REGISTER_REPLY) with false in E. cbn iota in E. cbn [app] in E. rewrite !app_nil_r in E.
      destruct l as [|b4 l]; [injection E as <-; discriminate M1|]. inversion Fl3 as [|? ? F1 Fl4]; subst. clear Fl3.
      destruct b4 as [| |i cr4 sr4 chal4| |]; try destruct F1. cbn [sys_run] in E.
      destruct i as [|i]; [|cbn [sys_step y_msgs nth_error app] in E; now destruct i].
      erewrite deliver_to_coord in E by reflexivity. cbn [y_coord y_msgs mType mParams mSrc firstn skipn app y_servers y_clients y_log] in E.
      change (co_handle S G ?c UPDATE_PEDERSEN_H ?p ?s cr4) with (co_pedersen_h S c p) in E. unfold co_pedersen_h in E.
      cbn [get_bytes lookup String.eqb Ascii.eqb Bool.eqb] in E. rewrite FIN in E by reflexivity. cbn [app] in E.
      apply quiet_run in E; [|reflexivity|assumption]. subst y1. exists k, (srKey sr2).
      constructor; cbn [y_coord y_servers y_clients y_log]; try reflexivity.
      * exists s1. rewrite mget_mset_ne by congruence. rewrite mget_mset_eq. split; [reflexivity|]. rewrite A0, A2, A3, A4. auto 10.
      * intros t' Et'. rewrite Et in Et'. injection Et' as <-. now rewrite mget_mset_eq.
      * intros x N1 N2. rewrite !mget_mset_ne by congruence. reflexivity.
    + erewrite deliver_to_coord in E by reflexivity. cbn [y_coord y_msgs mType mParams mSrc firstn skipn app y_servers y_clients y_log] in E.
      change (co_handle S G ?c UPDATE_PEDERSEN_H ?p ?s cr3) with (co_pedersen_h S c p) in E. unfold co_pedersen_h in E.
      cbn [get_bytes lookup String.eqb Ascii.eqb Bool.eqb] in E. rewrite FIN in E by reflexivity. cbn [app] in E.
      destruct l as [|b4 l]; [injection E as <-; discriminate M1|]. inversion Fl3 as [|? ? F1 Fl4]; subst. clear Fl3.
      destruct b4 as [| |i cr4 sr4 chal4| |]; try destruct F1. cbn [sys_run] in E.
      destruct i as [|i]; [|cbn [sys_step y_msgs nth_error app] in E; now destruct i].
      erewrite deliver_to_server in E; [|reflexivity|cbn [mDst y_coord]; exact Nz|
        cbn [mDst y_servers]; rewrite !mget_mset_ne by exact Naz; exact Et].
      cbn [y_coord y_msgs mType mParams mSrc firstn skipn app y_servers y_clients y_log mDst] in E.
      change (sv_handle S H G t UPDATE_NEXT_HOP ?p ?s sr4) with (Some (hop t a, @nil msg)) in E. cbn iota beta in E.
      change (UPDATE_NEXT_HOP =? SERVER_REGISTER_REPLY) with false in E. cbn iota in E. cbn [app] in E. rewrite !app_nil_r in E.
      apply quiet_run in E; [|reflexivity|assumption]. subst y1. exists k, (srKey sr2).
      constructor; cbn [y_coord y_servers y_clients y_log]; try reflexivity.
      * exists s1. rewrite mget_mset_ne by congruence. rewrite mget_mset_eq. split; [reflexivity|]. rewrite A0, A2, A3, A4. auto 10.
      * intros t' Et'. rewrite Et in Et'. injection Et' as <-. now rewrite mget_mset_eq.
      * intros x N1 N2. rewrite !mget_mset_ne by congruence. reflexivity.
Qed.

End Late.
