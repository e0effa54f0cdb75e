(** Registration of the servers: C51 (the chain is linked), C05 (every server contributes
    to HT), for every delivery order of the messages. *)
From Coq Require Import ZArith Znumtheory Lia List Bool Permutation.
From Coq Require Import Strings.Byte.
From Coq Require String.
From Verif Require Import ZMod Bytes Suite Pedersen ElGamal FujiOkam Equality Codec Maps Net Bridge Client
  Perm SimpleShuffle PairShuffle Server Coordinator History System.
From Verif Require Prop_FujiOkam Prop_Codec Prop_Bridge Prop_Shuffle Prop_Assign.
Import ListNotations.
Import String.StringSyntax.
Open Scope Z_scope.
Delimit Scope string_scope with str.

(** ** Specification *)
(** The configuration phase: servers are started and messages delivered, nothing else. *)
Definition is_conf (a : action) : Prop :=
  match a with ALaunch _ _ _ => True | ADeliver _ _ _ _ => True | _ => False end.

(** The addresses of the registered servers, in the order of their registration. *)
Definition chain_addrs (y : sys) : list addr := map fst (co_servers (y_coord y)).

(** The neighbours of the i-th element of the cycle coordinator, L, coordinator. *)
Definition after (L : list addr) (self : addr) (i : nat) : addr := nth (Datatypes.S i) L self.
Definition before (L : list addr) (self : addr) (i : nat) : addr :=
  match i with O => self | Datatypes.S j => nth j L self end.

Definition linked (self : addr) (y : sys) : Prop :=
  forall i a, nth_error (chain_addrs y) i = Some a ->
  exists s, mget (y_servers y) a = Some s /\
    sv_next s = after (chain_addrs y) self i /\ sv_prev s = before (chain_addrs y) self i.

(** ** The invariant *)
Definition reply_msg (S : suite) (c : coord) (a prev : addr) (h : Z) : msg :=
  Msg a SERVER_REGISTER_REPLY
    (("reply"%str, VBool true) :: ("prev_server"%str, VStr prev) ::
     ("h"%str, VBytes (enc_point S h)) :: fobase_params (co_fb c)) (co_addr c).
Definition hop_msg (c : coord) (a b : addr) : msg :=
  Msg a UPDATE_NEXT_HOP [("reply"%str, VBool true); ("next_hop"%str, VStr b)] (co_addr c).
Definition ped_msg (S : suite) (c : coord) (a : addr) (h : Z) : msg :=
  Msg (co_addr c) UPDATE_PEDERSEN_H [("h"%str, VBytes (enc_point S h))] a.
Definition reg_msg (c : coord) (a : addr) (b : bytes) : msg :=
  Msg (co_addr c) SERVER_REGISTER [("public_key"%str, VBytes b)] a.

Inductive cfg_msg (S : suite) (c : coord) (L : list addr) (sv : amap addr server) : msg -> Prop :=
| cm_reg a b s : mget sv a = Some s -> cfg_msg S c L sv (reg_msg c a b)
| cm_reply i a h : nth_error L i = Some a -> in_group S h ->
    cfg_msg S c L sv (reply_msg S c a (before L (co_addr c) i) h)
| cm_hop i a b : nth_error L i = Some a -> nth_error L (Datatypes.S i) = Some b -> cfg_msg S c L sv (hop_msg c a b)
| cm_ped a h : in_group S h -> cfg_msg S c L sv (ped_msg S c a h).

Definition is_reg (m : msg) : bool := mType m =? SERVER_REGISTER.
Definition regs (l : list msg) : list addr := map mSrc (filter is_reg l).

Record cinv (S : suite) (st : costatic) (y : sys) : Prop := {
  i_static : co_static (y_coord y) = st;
  i_self : mget (y_servers y) (cs_addr st) = None;
  i_in : forall a, In a (chain_addrs y) -> exists s, mget (y_servers y) a = Some s;
  i_nd : NoDup (chain_addrs y ++ regs (y_msgs y));
  i_ht : in_group S (pb_HT (co_pb (y_coord y)));
  i_msgs : Forall (cfg_msg S (y_coord y) (chain_addrs y) (y_servers y)) (y_msgs y);
  i_srv : forall a s, mget (y_servers y) a = Some s ->
    (sv_next s = cs_addr st /\ sv_prev s = cs_addr st /\ In a (regs (y_msgs y))) \/
    exists i, nth_error (chain_addrs y) i = Some a /\
      (sv_next s = after (chain_addrs y) (cs_addr st) i \/
       sv_next s = cs_addr st /\ exists b, nth_error (chain_addrs y) (Datatypes.S i) = Some b /\
         In (hop_msg (y_coord y) a b) (y_msgs y)) /\
      (sv_prev s = before (chain_addrs y) (cs_addr st) i \/
       exists h, In (reply_msg S (y_coord y) a (before (chain_addrs y) (cs_addr st) i) h) (y_msgs y))
}.

Lemma pick_split {A} i (l : list A) m : nth_error l i = Some m ->
  exists l1 l2, l = l1 ++ m :: l2 /\ firstn i l ++ skipn (Datatypes.S i) l = l1 ++ l2.
Proof.
  revert i. induction l as [|x l IH]; intros [|i] E; try discriminate; cbn [nth_error] in E.
  - injection E as ->. exists [], l. split; reflexivity.
  - destruct (IH i E) as (l1 & l2 & -> & E2). exists (x :: l1), l2. cbn [app firstn skipn].
    split; [reflexivity|]. now f_equal.
Qed.

Lemma regs_app l1 l2 : regs (l1 ++ l2) = regs l1 ++ regs l2.
Proof. unfold regs. now rewrite filter_app, map_app. Qed.

Lemma in_rest {A} (x m : A) l1 l2 out : In x (l1 ++ m :: l2) -> x = m \/ In x ((l1 ++ l2) ++ out).
Proof. rewrite !in_app_iff. cbn [In]. intros [?|[?|?]]; auto. Qed.

Lemma last_server_nil c : co_servers c = [] -> last_server c = None.
Proof. unfold last_server. now intros ->. Qed.
Lemma last_server_app c l a pk : co_servers c = l ++ [(a, pk)] -> last_server c = Some a.
Proof. unfold last_server. intros ->. now rewrite rev_app_distr. Qed.

Lemma before_app L self i x : (i < length L)%nat -> before (L ++ [x]) self i = before L self i.
Proof. intros Hi. destruct i as [|j]; cbn [before]; [reflexivity|]. apply app_nth1. lia. Qed.
Lemma after_app L self i x : (Datatypes.S i < length L)%nat -> after (L ++ [x]) self i = after L self i.
Proof. intros Hi. unfold after. now apply app_nth1. Qed.

Lemma nth_error_lt {A} (l : list A) i x : nth_error l i = Some x -> (i < length l)%nat.
Proof. intros E. apply nth_error_Some. congruence. Qed.
Lemma nth_error_snoc {A} (l : list A) i x y : nth_error l i = Some x -> nth_error (l ++ [y]) i = Some x.
Proof. intros E. rewrite nth_error_app1; [assumption|]. now apply nth_error_lt in E. Qed.

Lemma read_fobase_some fb a b c : exists f, read_fobase (("reply"%str, VBool a) :: ("prev_server"%str, VStr b) ::
  ("h"%str, VBytes c) :: fobase_params fb) = Some f.
Proof. eexists. unfold read_fobase, fobase_params, get_bytes. cbn [lookup String.eqb Ascii.eqb Bool.eqb]. reflexivity. Qed.

Lemma NoDup_app_disjoint {A} (l1 l2 : list A) : NoDup (l1 ++ l2) -> forall x, In x l1 -> In x l2 -> False.
Proof.
  induction l1 as [|a l1 IH]; intros ND x H1 H2; [destruct H1|]. cbn [app] in ND. inversion ND as [|? ? NI ND']; subst.
  destruct H1 as [<-|H1]; [apply NI, in_or_app; now right|]. now apply (IH ND' x).
Qed.
Lemma NoDup_app_remove_r {A} (l1 l2 : list A) : NoDup (l1 ++ l2) -> NoDup l1.
Proof.
  induction l1 as [|a l1 IH]; intros ND; [constructor|]. cbn [app] in ND. inversion ND as [|? ? NI ND']; subst.
  constructor; [|now apply IH]. intros HI. apply NI, in_or_app. now left.
Qed.

Section Topology.
Context (S : suite) (OK : suite_ok S) (H : oracle) (G : gob).

(** What a server does with a registration reply. *)
Lemma reply_step s c a prev h rn : in_group S h ->
  exists s', sv_handle S H G s SERVER_REGISTER_REPLY (mParams (reply_msg S c a prev h)) (co_addr c) rn
    = Some (s', [ped_msg S c (sv_addr s) (pt_mul S h (srKey rn))]) /\
  sv_next s' = sv_next s /\ sv_prev s' = prev.
Proof.
  intros Hh. unfold sv_handle. rewrite Z.eqb_refl. unfold sv_register_reply, reply_msg. cbn [mParams].
  destruct (read_fobase_some (co_fb c) true prev (enc_point S h)) as (f & Ef). rewrite Ef.
  unfold get_bool, has_key, get_str, get_bytes. cbn [lookup String.eqb Ascii.eqb Bool.eqb].
  rewrite (dec_enc_point S OK h Hh). eexists. split; [reflexivity|]. split; reflexivity.
Qed.

Lemma hop_step s c a b rn :
  exists s', sv_handle S H G s UPDATE_NEXT_HOP (mParams (hop_msg c a b)) (co_addr c) rn = Some (s', []) /\
  sv_next s' = b /\ sv_prev s' = sv_prev s.
Proof.
  unfold sv_handle, hop_msg. cbn [mParams].
  unfold SERVER_REGISTER_REPLY, ANNOUNCEMENT, ANNOUNCEMENT_FINALIZE, SIGN_ASSIGNMENTS, UPDATE_NEXT_HOP. cbn [Z.eqb Pos.eqb].
  eexists. split; [reflexivity|]. split; reflexivity.
Qed.

Lemma ped_step c a h rn : in_group S h ->
  co_handle S G c UPDATE_PEDERSEN_H (mParams (ped_msg S c a h)) a rn = Some (set_pb c (PBase h (pb_GT (co_pb c))), []).
Proof.
  intros Hh. unfold co_handle, SERVER_REGISTER, UPDATE_PEDERSEN_H. cbn [Z.eqb Pos.eqb].
  unfold co_pedersen_h, ped_msg, get_bytes. cbn [mParams lookup String.eqb Ascii.eqb Bool.eqb].
  now rewrite (dec_enc_point S OK h Hh).
Qed.

Definition link_out (c : coord) (a : addr) : list msg :=
  match last_server c with Some l => [hop_msg c l a] | None => [] end.
Lemma reg_step c a b rn :
  co_handle S G c SERVER_REGISTER (mParams (reg_msg c a b)) a rn =
  Some (add_server c a (dec_point_unchecked b),
        link_out c a ++ [reply_msg S c a (match last_server c with Some l => l | None => co_addr c end) (pb_HT (co_pb c))]).
Proof.
  unfold co_handle. rewrite Z.eqb_refl. unfold co_server_register, reg_msg, get_bytes.
  cbn [mParams lookup String.eqb Ascii.eqb Bool.eqb]. reflexivity.
Qed.

Lemma cfg_msg_mono c c' L L' sv sv' m : co_static c' = co_static c ->
  (forall a, mget sv a <> None -> mget sv' a <> None) ->
  (L' = L \/ exists x, L' = L ++ [x]) -> cfg_msg S c L sv m -> cfg_msg S c' L' sv' m.
Proof.
  intros Es Hs HL C.
  assert (EA : co_addr c' = co_addr c) by (unfold co_addr; now rewrite Es).
  assert (EF : co_fb c' = co_fb c) by (unfold co_fb; now rewrite Es).
  assert (HN : forall i a, nth_error L i = Some a -> nth_error L' i = Some a /\ before L' (co_addr c) i = before L (co_addr c) i).
  { intros i a Hi. destruct HL as [->|[x ->]]; [auto|]. split; [now apply nth_error_snoc|].
    apply before_app. now apply nth_error_lt in Hi. }
  destruct C as [a b s Ha|i a h Hi Hh|i a b Hi Hj|a h Hh].
  - replace (reg_msg c a b) with (reg_msg c' a b) by (unfold reg_msg; now rewrite EA).
    destruct (mget sv' a) eqn:E; [now apply cm_reg with s0|].
    exfalso. apply (Hs a); [congruence|assumption].
  - destruct (HN _ _ Hi) as [Hi' Hb].
    replace (reply_msg S c a _ h) with (reply_msg S c' a (before L' (co_addr c') i) h)
      by (unfold reply_msg; now rewrite EA, EF, Hb).
    now apply cm_reply.
  - destruct (HN _ _ Hi) as [Hi' _], (HN _ _ Hj) as [Hj' _].
    replace (hop_msg c a b) with (hop_msg c' a b) by (unfold hop_msg; now rewrite EA).
    now apply cm_hop with i.
  - replace (ped_msg S c a h) with (ped_msg S c' a h) by (unfold ped_msg; now rewrite EA). now apply cm_ped.
Qed.

Lemma regs_perm_remove l1 m l2 : is_reg m = false -> regs (l1 ++ m :: l2) = regs (l1 ++ l2).
Proof. intros E. rewrite !regs_app. unfold regs at 2. cbn [filter]. rewrite E. reflexivity. Qed.

Lemma mset_some {K V} {E : EqK K} (m : amap K V) k v a : mget m a <> None -> mget (mset m k v) a <> None.
Proof. intros N. rewrite mget_mset. destruct (keq a k); [discriminate|assumption]. Qed.

Lemma launch_inv st y a priv rk y' : cinv S st y -> sys_step S H G y (ALaunch a priv rk) = Some y' -> cinv S st y'.
Proof.
  intros [I1 I2 I3 I4 I5 I6 I7] E. cbn [sys_step] in E.
  destruct (keq a (co_addr (y_coord y))) as [|Na]; [discriminate|].
  destruct (mget (y_servers y) a) eqn:Ea; [discriminate|].
  destruct (mget (y_clients y) a); [discriminate|]. injection E as <-.
  assert (EA : co_addr (y_coord y) = cs_addr st) by (unfold co_addr; now rewrite I1).
  set (s := init_server S a (co_addr (y_coord y)) priv rk).
  assert (ER : regs (y_msgs y ++ [sv_register S s]) = regs (y_msgs y) ++ [a]) by now rewrite regs_app.
  constructor; cbn [y_coord y_servers y_msgs]; try assumption.
  - rewrite mget_mset_ne; [assumption|]. congruence.
  - intros b Hb. destruct (I3 b Hb) as (sb & Hsb). rewrite mget_mset. destruct (keq b a); eauto.
  - unfold chain_addrs in *. cbn [y_coord] in *. rewrite ER, app_assoc.
    rewrite <- (rev_involutive (_ ++ [a])). apply NoDup_rev. rewrite rev_app_distr. cbn [rev app].
    constructor; [|now apply NoDup_rev]. rewrite <- in_rev, in_app_iff. intros [HI|HI].
    + destruct (I3 a HI). congruence.
    + apply in_map_iff in HI. destruct HI as (m & Em & Hm). apply filter_In in Hm. destruct Hm as [Hm Hr].
      rewrite Forall_forall in I6. specialize (I6 m Hm). destruct I6; cbn in Hr; try discriminate. cbn in Em. subst.
      congruence.
  - unfold chain_addrs in *. cbn [y_coord] in *. apply Forall_app. split.
    + eapply Forall_impl; [|exact I6]. intros m. apply cfg_msg_mono; auto. intros b. apply mset_some.
    + constructor; [|constructor]. unfold sv_register, s. cbn [sv_coord sv_addr init_server].
      apply (cm_reg S (y_coord y) _ _ a _ s). apply mget_mset_eq.
  - intros b sb Hb. unfold chain_addrs in *. cbn [y_coord] in *. rewrite ER.
    rewrite mget_mset in Hb. destruct (keq b a) as [->|Nb].
    + injection Hb as <-. left. cbn [sv_next sv_prev s init_server]. rewrite EA, in_app_iff. cbn [In]. auto.
    + destruct (I7 b sb Hb) as [(A1 & A2 & A3)|(i & B1 & B2 & B3)].
      * left. rewrite in_app_iff. auto.
      * right. exists i. split; [assumption|]. split.
        -- destruct B2 as [B2|(B2 & d & B4 & B5)]; [now left|]. right. split; [assumption|]. exists d.
           rewrite in_app_iff. auto.
        -- destruct B3 as [B3|(h & B3)]; [now left|]. right. exists h. rewrite in_app_iff. auto.
Qed.

Lemma last_before c : match last_server c with Some l => l | None => co_addr c end
  = before (map fst (co_servers c) ++ []) (co_addr c) (length (map fst (co_servers c))).
Proof.
  rewrite app_nil_r. destruct (co_servers c) as [|x l _] eqn:E using rev_ind; [now rewrite (last_server_nil c E)|].
  destruct x as [a pk]. rewrite (last_server_app c l a pk E), map_app, app_length, map_length. cbn [map length fst].
  rewrite Nat.add_1_r. cbn [before]. rewrite app_nth2; rewrite map_length; [|lia]. now rewrite Nat.sub_diag.
Qed.

Lemma last_cases c : (map fst (co_servers c) = [] /\ last_server c = None) \/
  exists l x, map fst (co_servers c) = l ++ [x] /\ last_server c = Some x.
Proof.
  destruct (co_servers c) as [|x l _] eqn:E using rev_ind; [left; split; [reflexivity|now apply last_server_nil]|].
  right. destruct x as [a pk]. exists (map fst l), a. rewrite map_app. split; [reflexivity|].
  now apply last_server_app with l pk.
Qed.

Lemma in_mid {A} (x : A) l1 l2 : In x (l1 ++ x :: l2).
Proof. apply in_or_app. right. now left. Qed.

Lemma deliver_ok st y i m cr sr chal : cinv S st y -> nth_error (y_msgs y) i = Some m ->
  exists y', sys_step S H G y (ADeliver i cr sr chal) = Some y' /\ cinv S st y'.
Proof.
  intros [I1 I2 I3 I4 I5 I6 I7] Em.
  assert (EA : co_addr (y_coord y) = cs_addr st) by (unfold co_addr; now rewrite I1).
  destruct (pick_split i _ m Em) as (l1 & l2 & EM & ER).
  cbn [sys_step]. rewrite Em, ER. unfold chain_addrs in *.
  assert (C : cfg_msg S (y_coord y) (map fst (co_servers (y_coord y))) (y_servers y) m).
  { rewrite Forall_forall in I6. apply I6. rewrite EM. apply in_mid. }
  assert (IR : Forall (cfg_msg S (y_coord y) (map fst (co_servers (y_coord y))) (y_servers y)) (l1 ++ l2)).
  { rewrite EM in I6. rewrite Forall_app in *. destruct I6 as [F1 F2]. inversion F2; subst. auto. }
  rewrite EM in I4, I7. set (c := y_coord y) in *. set (L := map fst (co_servers c)) in *.
  destruct C as [a b sa Ha|j a h Hj Hh|j a b Hj Hj2|a h Hh].
  - (* SERVER_REGISTER *)
    cbn [reg_msg mDst mType mSrc]. destruct (keq (co_addr c) (co_addr c)) as [_|N]; [|congruence].
    rewrite (reg_step c a b cr). eexists. split; [reflexivity|].
    set (c' := add_server c a (dec_point_unchecked b)).
    assert (EL : map fst (co_servers c') = L ++ [a]) by (unfold c', add_server, set_servers; cbn [co_servers]; rewrite map_app; reflexivity).
    assert (EH : forall x y, hop_msg c' x y = hop_msg c x y) by reflexivity.
    assert (EP : forall x y z, reply_msg S c' x y z = reply_msg S c x y z) by reflexivity.
    assert (ER2 : regs ((l1 ++ l2) ++ link_out c a ++ [reply_msg S c a
        match last_server c with Some l => l | None => co_addr c end (pb_HT (co_pb c))]) = regs (l1 ++ l2)).
    { rewrite !regs_app. unfold link_out. destruct (last_server c); cbn; now rewrite app_nil_r. }
    assert (ER3 : regs (l1 ++ reg_msg c a b :: l2) = regs l1 ++ a :: regs l2) by (rewrite regs_app; reflexivity).
    rewrite ER3 in I4.
    assert (NI : ~ In a (L ++ regs l1 ++ regs l2)).
    { rewrite app_assoc in I4. apply NoDup_remove_2 in I4. now rewrite <- app_assoc in I4. }
    assert (LB : match last_server c with Some l => l | None => co_addr c end = before (L ++ [a]) (co_addr c) (length L)).
    { rewrite last_before. fold L. rewrite app_nil_r. destruct (length L) as [|n] eqn:EN; [reflexivity|].
      cbn [before]. symmetry. apply app_nth1. lia. }
    constructor; unfold chain_addrs; cbn [y_coord y_servers y_msgs]; fold c'; try rewrite EL; try rewrite ER2; try assumption.
    + intros d Hd. apply in_app_or in Hd. destruct Hd as [Hd|[<-|[]]]; eauto.
    + rewrite <- app_assoc. cbn [app]. rewrite regs_app.
      apply Permutation_NoDup with (L ++ regs l1 ++ a :: regs l2); [|assumption].
      apply Permutation_app_head. symmetry. apply Permutation_middle.
    + apply Forall_app; split; [|apply Forall_app; split].
      * eapply Forall_impl; [|exact IR]. intros m0. apply cfg_msg_mono; [reflexivity|auto|]. right. now exists a.
      * unfold link_out. destruct (last_cases c) as [[Es ->]|(l & x & Es & ->)]; [constructor|].
        fold L in Es. constructor; [|constructor]. rewrite <- EH. apply cm_hop with (length l).
        -- rewrite Es, <- app_assoc, nth_error_app2 by lia. now rewrite Nat.sub_diag.
        -- rewrite Es, nth_error_app2; rewrite app_length; cbn [length]; [|lia].
           now replace (Datatypes.S (length l) - (length l + 1))%nat with 0%nat by lia.
      * constructor; [|constructor]. rewrite LB, <- EP. apply (cm_reply S c' (L ++ [a]) (y_servers y) (length L)); [|assumption].
        rewrite nth_error_app2 by lia. now rewrite Nat.sub_diag.
    + intros d sd Hd. destruct (I7 d sd Hd) as [(A1 & A2 & A3)|(k & B1 & B2 & B3)].
      * rewrite ER3 in A3. destruct (keq d a) as [->|Nd].
        -- right. exists (length L). split; [rewrite nth_error_app2 by lia; now rewrite Nat.sub_diag|]. split.
           ++ left. unfold after. rewrite nth_overflow; [assumption|]. rewrite app_length. cbn. lia.
           ++ right. exists (pb_HT (co_pb c)). rewrite EP. apply in_or_app. right. apply in_or_app. right. left.
              now rewrite LB, EA.
        -- left. split; [assumption|]. split; [assumption|]. rewrite regs_app. rewrite in_app_iff in *. cbn [In] in A3.
           destruct A3 as [?|[?|?]]; auto. congruence.
      * right. exists k. pose proof (nth_error_lt _ _ _ B1) as Hk. split; [now apply nth_error_snoc|]. split.
        -- destruct B2 as [B2|(B2 & e & B4 & B5)].
           ++ destruct (Nat.eq_dec (Datatypes.S k) (length L)) as [Ek|Nk].
              ** right. unfold after in B2. rewrite nth_overflow in B2 by lia. split; [assumption|]. exists a.
                 split; [rewrite Ek, nth_error_app2 by lia; now rewrite Nat.sub_diag|].
                 rewrite EH. apply in_or_app. right. apply in_or_app. left. unfold link_out.
                 assert (LS : last_server c = Some d).
                 { destruct (last_cases c) as [[Es ->]|(l & x & Es & ->)]; fold L in Es; rewrite Es in Hk, Ek, B1; [cbn in Hk; lia|].
                   f_equal. rewrite app_length in Ek. cbn [length] in Ek. rewrite nth_error_app2 in B1 by lia.
                   replace (k - length l)%nat with 0%nat in B1 by lia. cbn in B1. now injection B1 as ->. }
                 rewrite LS. now left.
              ** left. rewrite after_app by lia. assumption.
           ++ right. split; [assumption|]. exists e. split; [now apply nth_error_snoc|]. rewrite EH.
              destruct (in_rest _ _ _ _ (link_out c a ++ [reply_msg S c a
                match last_server c with Some l => l | None => co_addr c end (pb_HT (co_pb c))]) B5) as [X|X]; [discriminate|exact X].
        -- rewrite before_app by assumption. destruct B3 as [B3|(h & B3)]; [now left|]. right. exists h. rewrite EP.
           destruct (in_rest _ _ _ _ (link_out c a ++ [reply_msg S c a
                match last_server c with Some l => l | None => co_addr c end (pb_HT (co_pb c))]) B3) as [X|X]; [discriminate|exact X].
  - (* SERVER_REGISTER_REPLY *)
    destruct (I3 a ltac:(eapply nth_error_In; exact Hj)) as (s & Hs).
    unfold reply_msg at 1. cbn [mDst]. destruct (keq a (co_addr c)) as [->|Na]; [congruence|].
    cbn [reply_msg mDst mType mSrc]. rewrite Hs.
    destruct (reply_step s c a (before L (co_addr c) j) h sr Hh) as (s' & Es & N1 & N2). rewrite Es.
    eexists. split; [reflexivity|].
    set (out := [ped_msg S c (sv_addr s) (pt_mul S h (srKey sr))]).
    assert (ER2 : regs ((l1 ++ l2) ++ out) = regs (l1 ++ l2)) by (rewrite regs_app; cbn; now rewrite app_nil_r).
    rewrite regs_perm_remove in I4 by reflexivity.
    rewrite (regs_perm_remove l1 _ l2) in I7 by reflexivity.
    constructor; unfold chain_addrs; cbn [y_coord y_servers y_msgs]; fold c; fold L; fold out; try rewrite ER2; try assumption.
    + rewrite mget_mset_ne; [assumption|]. congruence.
    + intros d Hd. rewrite mget_mset. destruct (keq d a); eauto.
    + rewrite Forall_app. split.
      * eapply Forall_impl; [|exact IR]. intros m0. apply cfg_msg_mono; auto. intros d. apply mset_some.
      * constructor; [|constructor]. apply cm_ped. unfold pt_mul. in_grp.
    + intros d sd Hd. rewrite mget_mset in Hd. destruct (keq d a) as [->|Nd].
      * injection Hd as <-. destruct (I7 a s Hs) as [(A1 & A2 & A3)|(k & B1 & B2 & B3)].
        { exfalso. apply nth_error_In in Hj. apply (NoDup_app_disjoint _ _ I4 a Hj A3). }
        right. exists j. split; [assumption|]. split; [|left; now rewrite <- EA].
        assert (k = j) as ->.
        { apply (NoDup_nth_error L); [now apply NoDup_app_remove_r in I4|now apply nth_error_lt in B1|congruence]. }
        rewrite N1. destruct B2 as [B2|(B2 & e & B4 & B5)]; [now left|]. right. split; [assumption|]. exists e.
        split; [assumption|]. destruct (in_rest _ _ _ _ out B5) as [X|X]; [discriminate|exact X].
      * destruct (I7 d sd Hd) as [A|(k & B1 & B2 & B3)]; [now left|]. right. exists k. split; [assumption|]. split.
        -- destruct B2 as [B2|(B2 & e & B4 & B5)]; [now left|]. right. split; [assumption|]. exists e.
           split; [assumption|]. destruct (in_rest _ _ _ _ out B5) as [X|X]; [discriminate|exact X].
        -- destruct B3 as [B3|(h' & B3)]; [now left|]. right. exists h'.
           destruct (in_rest _ _ _ _ out B3) as [X|X]; [|exact X]. unfold reply_msg in X. congruence.
  - (* UPDATE_NEXT_HOP *)
    destruct (I3 a ltac:(eapply nth_error_In; exact Hj)) as (s & Hs).
    unfold hop_msg at 1. cbn [mDst]. destruct (keq a (co_addr c)) as [->|Na]; [congruence|].
    cbn [hop_msg mDst mType mSrc]. rewrite Hs.
    destruct (hop_step s c a b sr) as (s' & Es & N1 & N2). rewrite Es.
    eexists. split; [reflexivity|]. rewrite app_nil_r.
    rewrite regs_perm_remove in I4 by reflexivity.
    rewrite (regs_perm_remove l1 _ l2) in I7 by reflexivity.
    assert (IN : forall x, In x (l1 ++ hop_msg c a b :: l2) -> x = hop_msg c a b \/ In x (l1 ++ l2)).
    { intros x Hx. apply in_rest with (out := []) in Hx. now rewrite app_nil_r in Hx. }
    constructor; unfold chain_addrs; cbn [y_coord y_servers y_msgs]; fold c; fold L; try assumption.
    + rewrite mget_mset_ne; [assumption|]. congruence.
    + intros d Hd. rewrite mget_mset. destruct (keq d a); eauto.
    + eapply Forall_impl; [|exact IR]. intros m0. apply cfg_msg_mono; auto. intros d. apply mset_some.
    + intros d sd Hd. rewrite mget_mset in Hd. destruct (keq d a) as [->|Nd].
      * injection Hd as <-. destruct (I7 a s Hs) as [(A1 & A2 & A3)|(k & B1 & B2 & B3)].
        { exfalso. apply nth_error_In in Hj. apply (NoDup_app_disjoint _ _ I4 a Hj A3). }
        right. exists j. split; [assumption|].
        assert (k = j) as ->.
        { apply (NoDup_nth_error L); [now apply NoDup_app_remove_r in I4|now apply nth_error_lt in B1|congruence]. }
        split; [left; rewrite N1; unfold after; symmetry; now apply nth_error_nth|].
        rewrite N2. destruct B3 as [B3|(h & B3)]; [now left|]. right. exists h.
        destruct (IN _ B3) as [X|X]; [discriminate|exact X].
      * destruct (I7 d sd Hd) as [A|(k & B1 & B2 & B3)]; [now left|]. right. exists k. split; [assumption|]. split.
        -- destruct B2 as [B2|(B2 & e & B4 & B5)]; [now left|]. right. split; [assumption|]. exists e.
           split; [assumption|]. destruct (IN _ B5) as [X|X]; [|exact X]. unfold hop_msg in X. congruence.
        -- destruct B3 as [B3|(h' & B3)]; [now left|]. right. exists h'.
           destruct (IN _ B3) as [X|X]; [discriminate|exact X].
  - (* UPDATE_PEDERSEN_H *)
    cbn [ped_msg mDst mType mSrc]. destruct (keq (co_addr c) (co_addr c)) as [_|N]; [|congruence].
    rewrite (ped_step c a h cr Hh). eexists. split; [reflexivity|]. rewrite app_nil_r.
    rewrite regs_perm_remove in I4 by reflexivity.
    rewrite (regs_perm_remove l1 _ l2) in I7 by reflexivity.
    set (c' := set_pb c (PBase h (pb_GT (co_pb c)))).
    assert (EL : map fst (co_servers c') = L) by reflexivity.
    assert (IN : forall x, In x (l1 ++ ped_msg S c a h :: l2) -> x = ped_msg S c a h \/ In x (l1 ++ l2)).
    { intros x Hx. apply in_rest with (out := []) in Hx. now rewrite app_nil_r in Hx. }
    constructor; unfold chain_addrs; cbn [y_coord y_servers y_msgs]; fold c'; rewrite ?EL; try assumption.
    + eapply Forall_impl; [|exact IR]. intros m0. apply cfg_msg_mono; auto.
    + intros d sd Hd. destruct (I7 d sd Hd) as [A|(k & B1 & B2 & B3)]; [now left|]. right. exists k. split; [assumption|]. split.
      * destruct B2 as [B2|(B2 & e & B4 & B5)]; [now left|]. right. split; [assumption|]. exists e.
        split; [assumption|]. destruct (IN _ B5) as [X|X]; [discriminate|exact X].
      * destruct B3 as [B3|(h' & B3)]; [now left|]. right. exists h'.
        destruct (IN _ B3) as [X|X]; [discriminate|exact X].
Qed.
End Topology.

(** ** C51 *)
Lemma init_cinv S (OK : suite_ok S) self a fb trap gammas :
  cinv S (co_static (y_coord (init_sys S self a fb trap gammas))) (init_sys S self a fb trap gammas).
Proof.
  assert (E : co_servers (y_coord (init_sys S self a fb trap gammas)) = [] /\
              co_pb (y_coord (init_sys S self a fb trap gammas)) = ped_minimal_base S).
  { unfold init_sys, init_coord. cbn [y_coord]. destruct (gn_generate_all fb gammas). split; reflexivity. }
  destruct E as [E1 E2].
  constructor; unfold chain_addrs; rewrite ?E1; cbn [y_servers y_msgs init_sys mget map]; try discriminate.
  - reflexivity.
  - reflexivity.
  - intros b [].
  - constructor.
  - rewrite E2. apply (ped_minimal_ok S OK).
  - constructor.
Qed.

Lemma conf_run_inv S (OK : suite_ok S) H G self a fb trap gammas l y : Forall is_conf l ->
  sys_run S H G (init_sys S self a fb trap gammas) l = Some y ->
  cinv S (co_static (y_coord (init_sys S self a fb trap gammas))) y.
Proof.
  intros F. set (st := co_static _).
  assert (P : forall l y0 y, Forall is_conf l -> cinv S st y0 -> sys_run S H G y0 l = Some y -> cinv S st y).
  { clear l y F. induction l as [|x l IH]; intros y0 y F I E; cbn [sys_run] in E; [now injection E as <-|].
    inversion F as [|? ? Fx Fl]; subst. destruct (sys_step S H G y0 x) as [y1|] eqn:E1; [|discriminate].
    apply (IH y1 y Fl); [|assumption]. destruct x as [b p r|?|i cr sr ch|?|?]; try destruct Fx.
    - eapply launch_inv; eauto.
    - destruct (nth_error (y_msgs y0) i) as [m|] eqn:Em; [|cbn [sys_step] in E1; rewrite Em in E1; discriminate].
      destruct (deliver_ok S OK H G st y0 i m cr sr ch I Em) as (y2 & E2 & I2). congruence. }
  intros E. eapply P; eauto. now apply init_cinv.
Qed.

Lemma init_addr S self a fb trap gammas : cs_addr (co_static (y_coord (init_sys S self a fb trap gammas))) = self.
Proof. unfold init_sys, init_coord. cbn [y_coord]. now destruct (gn_generate_all fb gammas). Qed.

(** When all messages of the configuration phase have been delivered, in whatever order,
    every started server is registered once and the chain is linked. *)
Theorem C51_chain_linked S (OK : suite_ok S) H G self a fb trap gammas l y :
  Forall is_conf l -> sys_run S H G (init_sys S self a fb trap gammas) l = Some y -> y_msgs y = [] ->
  NoDup (chain_addrs y) /\
  (forall x, In x (chain_addrs y) <-> mget (y_servers y) x <> None) /\
  linked self y.
Proof.
  intros F E M. destruct (conf_run_inv S OK H G self a fb trap gammas l y F E) as [I1 I2 I3 I4 I5 I6 I7].
  rewrite init_addr in *. rewrite M in *. cbn [regs filter map] in *. rewrite app_nil_r in I4.
  split; [assumption|]. split.
  - intros x. split; [intros Hx; destruct (I3 x Hx); congruence|]. intros Hx.
    destruct (mget (y_servers y) x) as [s|] eqn:Ex; [|congruence].
    destruct (I7 x s Ex) as [(_ & _ & [])|(i & B & _)]. now apply nth_error_In in B.
  - intros i x Hi. destruct (I3 x (nth_error_In _ _ Hi)) as (s & Hs). exists s. split; [assumption|].
    destruct (I7 x s Hs) as [(_ & _ & [])|(j & B1 & B2 & B3)].
    assert (j = i) as -> by (apply (NoDup_nth_error (chain_addrs y)); [assumption|now apply nth_error_lt in B1|congruence]).
    split.
    + destruct B2 as [B2|(_ & ? & _ & [])]; assumption.
    + destruct B3 as [B3|(? & [])]; assumption.
Qed.

(** No message of the configuration phase stops its receiver. *)
Theorem C51_progress S (OK : suite_ok S) H G self a fb trap gammas l y :
  Forall is_conf l -> sys_run S H G (init_sys S self a fb trap gammas) l = Some y ->
  forall i cr sr chal, (i < length (y_msgs y))%nat -> exists y', sys_step S H G y (ADeliver i cr sr chal) = Some y'.
Proof.
  intros F E i cr sr chal Hi. pose proof (conf_run_inv S OK H G self a fb trap gammas l y F E) as I.
  destruct (nth_error (y_msgs y) i) as [m|] eqn:Em; [|apply nth_error_None in Em; lia].
  destruct (deliver_ok S OK H G _ y i m cr sr chal I Em) as (y' & E' & _). eauto.
Qed.

(** ** C05 *)
(** Messages of a registration that is not finished. *)
Definition is_pend (m : msg) : bool := (mType m =? SERVER_REGISTER_REPLY) || (mType m =? UPDATE_PEDERSEN_H).

(** A SERVER_REGISTER is only handled when no earlier registration is under way. *)
Fixpoint one_by_one (S : suite) (H : oracle) (G : gob) (y : sys) (l : list action) : bool :=
  match l with
  | [] => true
  | a :: r =>
      match a with
      | ADeliver i _ _ _ =>
          match nth_error (y_msgs y) i with
          | Some m => if mType m =? SERVER_REGISTER then negb (existsb is_pend (y_msgs y)) else true
          | None => true
          end
      | _ => true
      end &&
      match sys_step S H G y a with Some y' => one_by_one S H G y' r | None => true end
  end.

(** The drawn secrets are not negative. *)
Definition sane (a : action) : Prop :=
  match a with ADeliver _ _ sr _ => 0 <= srKey sr | _ => True end.

Definition product (l : list Z) : Z := fold_right Z.mul 1 l.
Lemma product_snoc l x : product (l ++ [x]) = product l * x.
Proof. unfold product. induction l as [|a l IH]; cbn [app fold_right]; [lia|]. rewrite IH. lia. Qed.
Lemma product_nonneg l : Forall (fun x => 0 <= x) l -> 0 <= product l.
Proof. unfold product. induction 1; cbn [fold_right]; [lia|]. nia. Qed.

Record seqinv (S : suite) (y : sys) : Prop := {
  q_gt : pb_GT (co_pb (y_coord y)) = pt_mul_base S 1;
  q_nn : Forall (fun x => 0 <= x) (map snd (y_log y));
  q_st :
    (filter is_pend (y_msgs y) = [] /\ map fst (y_log y) = chain_addrs y /\
     pb_HT (co_pb (y_coord y)) = pt_mul_base S (product (map snd (y_log y)))) \/
    (exists a prev, filter is_pend (y_msgs y) = [reply_msg S (y_coord y) a prev (pb_HT (co_pb (y_coord y)))] /\
     map fst (y_log y) ++ [a] = chain_addrs y /\
     pb_HT (co_pb (y_coord y)) = pt_mul_base S (product (map snd (y_log y)))) \/
    (exists a, filter is_pend (y_msgs y) = [ped_msg S (y_coord y) a (pt_mul_base S (product (map snd (y_log y))))] /\
     map fst (y_log y) = chain_addrs y)
}.

Section Seq.
Context (S : suite) (OK : suite_ok S) (H : oracle) (G : gob).

Lemma filter_one {A} (f : A -> bool) l1 m l2 x : f m = true -> filter f (l1 ++ m :: l2) = [x] ->
  m = x /\ filter f (l1 ++ l2) = [].
Proof.
  intros Fm E. rewrite filter_app in *. cbn [filter] in E. rewrite Fm in E.
  destruct (filter f l1) as [|b r]; cbn [app] in E.
  - injection E as -> E2. rewrite E2. auto.
  - injection E as _ E2. destruct r; discriminate.
Qed.
Lemma filter_zero {A} (f : A -> bool) l1 m l2 : f m = true -> filter f (l1 ++ m :: l2) <> [].
Proof. intros Fm E. rewrite filter_app in E. cbn [filter] in E. rewrite Fm in E. now destruct (filter f l1). Qed.
Lemma filter_skip {A} (f : A -> bool) l1 m l2 : f m = false -> filter f (l1 ++ m :: l2) = filter f (l1 ++ l2).
Proof. intros Fm. rewrite !filter_app. cbn [filter]. now rewrite Fm. Qed.
Lemma existsb_filter {A} (f : A -> bool) l : existsb f l = false -> filter f l = [].
Proof.
  induction l as [|a l IH]; cbn [existsb filter]; [reflexivity|]. destruct (f a); [discriminate|exact IH].
Qed.

Lemma pt_mul_product l x : pt_mul S (pt_mul_base S (product l)) x = pt_mul_base S (product (l ++ [x])).
Proof.
  rewrite product_snoc. unfold pt_mul_base, pt_mul. apply zexp_mul; [apply OK|]. apply (in_group_unit S OK), OK.
Qed.

Lemma seq_step st y a y' : cinv S st y -> seqinv S y -> is_conf a -> sane a ->
  one_by_one S H G y [a] = true -> sys_step S H G y a = Some y' -> seqinv S y'.
Proof.
  intros I [Q1 Q2 Q3] C Sa O E. destruct a as [a priv rk|?|i cr sr ch|?|?]; try destruct C.
  - cbn [sys_step] in E. destruct (keq a _); [discriminate|]. destruct (mget (y_servers y) a); [discriminate|].
    destruct (mget (y_clients y) a); [discriminate|]. injection E as <-.
    constructor; cbn [y_coord y_log y_msgs]; try assumption. unfold chain_addrs in *. cbn [y_coord].
    rewrite filter_app. cbn [filter]. unfold is_pend at 2 4 6. cbn [sv_register mType Z.eqb Pos.eqb orb SERVER_REGISTER SERVER_REGISTER_REPLY UPDATE_PEDERSEN_H].
    rewrite app_nil_r. exact Q3.
  - cbn [one_by_one] in O. cbn [sane] in Sa.
    destruct (nth_error (y_msgs y) i) as [m|] eqn:Em; [|cbn [sys_step] in E; rewrite Em in E; discriminate].
    destruct (pick_split i _ m Em) as (l1 & l2 & EM & ER).
    assert (C : cfg_msg S (y_coord y) (chain_addrs y) (y_servers y) m).
    { destruct I as [_ _ _ _ _ I6 _]. rewrite Forall_forall in I6. apply I6. rewrite EM. apply in_mid. }
    cbn [sys_step] in E. rewrite Em, ER in E. set (c := y_coord y) in *.
    apply andb_prop in O. destruct O as [O _].
    destruct C as [a b sa Ha|j a h Hj Hh|j a b Hj Hj2|a h Hh].
    + cbn [reg_msg mDst mType mSrc] in E, O. destruct (keq (co_addr c) (co_addr c)) as [_|N]; [|congruence].
      rewrite Z.eqb_refl in O. apply negb_true_iff, existsb_filter in O.
      rewrite (reg_step S G c a b cr) in E. injection E as <-.
      rewrite O in Q3. destruct Q3 as [(_ & L1 & L2)|[(? & ? & X & _)|(? & X & _)]]; try discriminate.
      constructor; cbn [y_coord y_log y_msgs]; try assumption. right. left.
      exists a, (match last_server c with Some l => l | None => co_addr c end). split; [|split; [|assumption]].
      * rewrite EM in O. rewrite filter_skip in O by reflexivity. rewrite filter_app, O, filter_app. unfold link_out.
        destruct (last_server c); reflexivity.
      * unfold chain_addrs in *. cbn [y_coord co_servers add_server set_servers]. rewrite map_app. fold c in L1. now rewrite L1.
    + destruct I as [I1 I2 I3 _ _ _ _]. destruct (I3 a ltac:(eapply nth_error_In; exact Hj)) as (s & Hs).
      unfold reply_msg at 1 in E. cbn [mDst] in E.
      destruct (keq a (co_addr c)) as [->|Na].
      { exfalso. unfold co_addr in Hs. unfold c in Hs. rewrite I1 in Hs. congruence. }
      cbn [reply_msg mDst mType mSrc] in E. rewrite Hs in E.
      destruct (reply_step S OK H G s c a (before (chain_addrs y) (co_addr c) j) h sr Hh) as (s' & Es & N1 & N2).
      rewrite Es in E. rewrite Z.eqb_refl in E. injection E as <-.
      rewrite EM in Q3. destruct Q3 as [(X & _)|[(a1 & p1 & X & L1 & L2)|(a1 & X & _)]].
      * exfalso. now apply (filter_zero is_pend l1 (reply_msg S c a (before (chain_addrs y) (co_addr c) j) h) l2) in X.
      * apply filter_one in X; [|reflexivity]. destruct X as [X1 X2].
        assert (a1 = a) as -> by (unfold reply_msg in X1; congruence).
        assert (h = pb_HT (co_pb c)) as ->.
        { assert (X3 : enc_point S h = enc_point S (pb_HT (co_pb c))) by (unfold reply_msg in X1; congruence).
          rewrite <- (dec_enc_unchecked S h Hh), X3. apply dec_enc_unchecked. rewrite L2. unfold pt_mul_base, pt_mul. in_grp. }
        constructor; cbn [y_coord y_log y_msgs]; try assumption.
        -- rewrite map_app, Forall_app. split; [assumption|]. constructor; [exact Sa|constructor].
        -- right. right. exists (sv_addr s). rewrite filter_app, X2, !map_app. cbn [map fst snd app]. split.
           ++ rewrite L2, pt_mul_product. reflexivity.
           ++ exact L1.
      * apply filter_one in X; [|reflexivity]. destruct X as [X _]. discriminate.
    + destruct I as [I1 I2 I3 _ _ _ _]. destruct (I3 a ltac:(eapply nth_error_In; exact Hj)) as (s & Hs).
      unfold hop_msg at 1 in E. cbn [mDst] in E.
      destruct (keq a (co_addr c)) as [->|Na].
      { exfalso. unfold co_addr in Hs. unfold c in Hs. rewrite I1 in Hs. congruence. }
      cbn [hop_msg mDst mType mSrc] in E. rewrite Hs in E.
      destruct (hop_step S H G s c a b sr) as (s' & Es & N1 & N2). rewrite Es in E.
      cbn [Z.eqb Pos.eqb UPDATE_NEXT_HOP SERVER_REGISTER_REPLY] in E. rewrite !app_nil_r in E. injection E as <-.
      constructor; cbn [y_coord y_log y_msgs]; try assumption. rewrite EM, filter_skip in Q3 by reflexivity. exact Q3.
    + cbn [ped_msg mDst mType mSrc] in E. destruct (keq (co_addr c) (co_addr c)) as [_|N]; [|congruence].
      rewrite (ped_step S OK G c a h cr Hh) in E. rewrite app_nil_r in E. injection E as <-.
      rewrite EM in Q3. destruct Q3 as [(X & _)|[(a1 & p1 & X & L1 & L2)|(a1 & X & L1)]].
      * exfalso. now apply (filter_zero is_pend l1 (ped_msg S c a h) l2) in X.
      * apply filter_one in X; [|reflexivity]. destruct X as [X _]. discriminate.
      * apply filter_one in X; [|reflexivity]. destruct X as [X1 X2].
        constructor; cbn [y_coord y_log y_msgs co_pb set_pb pb_GT]; try assumption. left. split; [assumption|].
        split; [assumption|]. cbn [pb_HT]. assert (X3 : enc_point S h = enc_point S (pt_mul_base S (product (map snd (y_log y))))) by (unfold ped_msg in X1; congruence).
        rewrite <- (dec_enc_unchecked S h Hh), X3. apply dec_enc_unchecked. unfold pt_mul_base, pt_mul. in_grp.
Qed.
End Seq.

Theorem C05_sequential S (OK : suite_ok S) H G self a fb trap gammas l y :
  Forall is_conf l -> Forall sane l ->
  one_by_one S H G (init_sys S self a fb trap gammas) l = true ->
  sys_run S H G (init_sys S self a fb trap gammas) l = Some y ->
  existsb is_pend (y_msgs y) = false ->
  map fst (y_log y) = chain_addrs y /\
  pb_HT (co_pb (y_coord y)) = (sG S ^ product (map snd (y_log y))) mod sP S /\
  pb_GT (co_pb (y_coord y)) = sG S.
Proof.
  intros F1 F2 O E M. set (y0 := init_sys S self a fb trap gammas) in *. pose (st := co_static (y_coord y0)).
  assert (P : forall l y0 y, Forall is_conf l -> Forall sane l -> cinv S st y0 -> seqinv S y0 ->
    one_by_one S H G y0 l = true -> sys_run S H G y0 l = Some y -> seqinv S y).
  { clear - OK. clearbody st. clear y0. intros l. induction l as [|x l IH]; intros y0 y F1 F2 I Q O E; cbn [sys_run] in E; [now injection E as <-|].
    inversion F1 as [|? ? Fx Fl]; inversion F2 as [|? ? Gx Gl]; subst.
    destruct (sys_step S H G y0 x) as [y1|] eqn:E1; [|discriminate].
    cbn [one_by_one] in O. rewrite E1 in O. apply andb_prop in O. destruct O as [O1 O2].
    apply (IH y1 y Fl Gl); [| |assumption|assumption].
    - destruct x as [b p r|?|i cr sr ch|?|?]; try destruct Fx.
      + eapply launch_inv; eauto.
      + destruct (nth_error (y_msgs y0) i) as [m|] eqn:Em; [|cbn [sys_step] in E1; rewrite Em in E1; discriminate].
        destruct (deliver_ok S OK H G st y0 i m cr sr ch I Em) as (y2 & E2 & I2). congruence.
    - eapply (seq_step S OK H G st y0 x y1); eauto. cbn [one_by_one]. rewrite E1, O1. reflexivity. }
  assert (Q0 : seqinv S y0).
  { assert (Ei : co_servers (y_coord y0) = [] /\ co_pb (y_coord y0) = ped_minimal_base S).
    { unfold y0, init_sys, init_coord. cbn [y_coord]. destruct (gn_generate_all fb gammas). split; reflexivity. }
    destruct Ei as [E1 E2]. constructor; rewrite ?E2; cbn [y_log y0 init_sys map]; [reflexivity|constructor|].
    left. unfold chain_addrs. rewrite E1. repeat split. }
  destruct (P l y0 y F1 F2 (init_cinv S OK self a fb trap gammas) Q0 O E) as [Q1 Q2 Q3].
  apply existsb_filter in M. rewrite M in Q3. destruct Q3 as [(_ & L1 & L2)|[(? & ? & X & _)|(? & X & _)]]; try discriminate.
  split; [assumption|]. pose proof (ok_P S OK). split.
  - rewrite L2. unfold pt_mul_base, pt_mul. apply zexp_pos; [lia|]. now apply product_nonneg.
  - rewrite Q1. unfold pt_mul_base, pt_mul. rewrite zexp_1 by lia. apply Z.mod_small. destruct (ok_G S OK). lia.
Qed.

(** ** Concrete runs *)
Import Prop_FujiOkam Prop_Codec Prop_Bridge Prop_Shuffle Prop_Assign.
Definition toy_sr (k : Z) : sv_rand := SvRand 3 toy_u [7; 2; 5] toy_ps k.
Definition toy_y0 : sys := init_sys toy_suite adC 5 toy_fb toy_trap [1; 2; 3].
Definition dl (i : nat) (k : Z) : action := ADeliver i toy_rand (toy_sr k) [].
Definition adD : addr := [x44]%byte.

(** Three servers; registrations one after the other, links delivered late and in reverse. *)
Definition toy_seq : list action :=
  [ALaunch adA 2 3; ALaunch adB 3 5; dl 1 0; dl 1 2; dl 1 0; ALaunch adD 4 6;
   dl 0 0; dl 2 7; dl 2 0; dl 0 0; dl 2 3; dl 2 0; dl 1 0; dl 0 0].
Example C51_instance : exists y, sys_run toy_suite toy_oracle toy_gob toy_y0 toy_seq = Some y /\
  Forall is_conf toy_seq /\ y_msgs y = [] /\ chain_addrs y = [adB; adA; adD] /\
  map (fun kv => (sv_next (snd kv), sv_prev (snd kv))) (y_servers y) = [(adD, adB); (adA, adC); (adC, adA)].
Proof.
  eexists. split; [vm_compute; reflexivity|]. split; [repeat constructor|]. repeat split; vm_compute; reflexivity.
Qed.
Example C05_instance : exists y, sys_run toy_suite toy_oracle toy_gob toy_y0 toy_seq = Some y /\
  Forall sane toy_seq /\ one_by_one toy_suite toy_oracle toy_gob toy_y0 toy_seq = true /\
  existsb is_pend (y_msgs y) = false /\
  y_log y = [(adB, 2); (adA, 7); (adD, 3)] /\ pb_HT (co_pb (y_coord y)) = (4 ^ (2 * 7 * 3)) mod 23.
Proof.
  eexists. split; [vm_compute; reflexivity|]. split; [repeat constructor; cbn; lia|]. repeat split; vm_compute; reflexivity.
Qed.

(** Without the restriction a contribution is lost: both servers get the first HT. *)
Definition toy_overlap : list action :=
  [ALaunch adA 2 3; ALaunch adB 3 5; dl 0 0; dl 0 0; dl 0 2; dl 0 0; dl 0 7; dl 0 0; dl 0 0].
Theorem C05_overlap_refuted :
  ~ (forall S (OK : suite_ok S) H G self a fb trap gammas l y,
     Forall is_conf l -> Forall sane l ->
     sys_run S H G (init_sys S self a fb trap gammas) l = Some y ->
     y_msgs y = [] ->
     pb_HT (co_pb (y_coord y)) = (sG S ^ product (map snd (y_log y))) mod sP S).
Proof.
  intros C. destruct (sys_run toy_suite toy_oracle toy_gob toy_y0 toy_overlap) as [y|] eqn:E; [|vm_compute in E; discriminate].
  specialize (C toy_suite toy_ok toy_oracle toy_gob adC 5 toy_fb toy_trap [1; 2; 3] toy_overlap y
    ltac:(repeat constructor) ltac:(repeat constructor; cbn; lia) E).
  assert (X : y_msgs y = [] /\ pb_HT (co_pb (y_coord y)) = 8 /\ map snd (y_log y) = [2; 7] ).
  { vm_compute in E. injection E as <-. repeat split; vm_compute; reflexivity. }
  destruct X as (X1 & X2 & X3). specialize (C X1). rewrite X2, X3 in C. clear - C. vm_compute in C. discriminate C.
Qed.

Print Assumptions C51_chain_linked.
Print Assumptions C51_progress.
Print Assumptions C05_sequential.
Print Assumptions C05_overlap_refuted.
