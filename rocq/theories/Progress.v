(** The messages of the round protocol in flight are well formed: what they carry decodes,
    their proofs verify, and the servers' key maps lead every key of the table back to the
    key the server before it had. *)
From Coq Require Import ZArith Znumtheory Lia List Bool Permutation.
From Coq Require Import Strings.Byte.
From Coq Require String.
From Verif Require Import ZMod Bytes Suite Spec Pedersen ElGamal FujiOkam Equality Codec Maps Net Bridge Client
  Perm SimpleShuffle PairShuffle Server Coordinator History System Chain Prop_Pedersen Prop_Codec Prop_Topology Prop_Chain Round RoundInv
  Prop_Round Session Signing.
Import ListNotations.
Import String.StringSyntax.
Open Scope Z_scope.
Delimit Scope string_scope with str.

Section Progress.
Context (S : suite) (OK : suite_ok S) (H : oracle) (G : gob) (GOK : gob_ok G).

(** ** Key maps *)
(** The key maps of the servers [r], the last one first, lead from [x] to a key. *)
Fixpoint back (sv : amap addr server) (r : list addr) (x : Z) : Prop :=
  match r with
  | [] => True
  | a :: r => exists s x', mget sv a = Some s /\ mget (sv_keymap s) x = Some x' /\ back sv r x'
  end.
(** The first [i] servers of the chain. *)
Definition kback (c : coord) (sv : amap addr server) (i : nat) (x : Z) : Prop :=
  back sv (rev (firstn i (map fst (co_servers c)))) x.

Lemma kback_0 c sv x : kback c sv 0 x.
Proof. exact I. Qed.
Lemma kback_succ c sv i a x : nth_error (map fst (co_servers c)) i = Some a ->
  kback c sv (Datatypes.S i) x <-> exists s x', mget sv a = Some s /\ mget (sv_keymap s) x = Some x' /\ kback c sv i x'.
Proof. intros E. unfold kback. rewrite (firstn_snoc _ _ _ E), rev_app_distr. reflexivity. Qed.

Lemma back_other sv a s' r : ~ In a r -> forall x, back sv r x -> back (mset sv a s') r x.
Proof.
  induction r as [|b r IH]; intros N x Hx; [exact I|]. cbn [back] in *. destruct Hx as (s & x' & E1 & E2 & E3).
  exists s, x'. split; [|split; [assumption|]].
  - rewrite mget_mset_ne; [assumption|]. intros ->. apply N. now left.
  - apply IH; [|assumption]. intros I. apply N. now right.
Qed.

Lemma not_in_firstn {A} (l : list A) : forall i j a, NoDup l -> nth_error l j = Some a -> (i <= j)%nat -> ~ In a (rev (firstn i l)).
Proof.
  intros i j a ND E L I. apply in_rev in I. revert i j ND E L I. induction l as [|b l IH]; intros [|i] [|j] ND E L I; cbn in *; try lia; try contradiction.
  inversion ND as [|? ? N ND']; subst. destruct I as [->|I].
  - apply N. now apply nth_error_In in E.
  - apply (IH i j); try assumption. lia.
Qed.

Lemma kback_low c sv a s' j i x : NoDup (map fst (co_servers c)) -> nth_error (map fst (co_servers c)) j = Some a -> (i <= j)%nat ->
  kback c sv i x -> kback c (mset sv a s') i x.
Proof. intros ND E L. apply back_other. now apply not_in_firstn with j. Qed.

Lemma kback_mono c sv a s s' j : NoDup (map fst (co_servers c)) -> nth_error (map fst (co_servers c)) j = Some a ->
  mget sv a = Some s ->
  (forall x x', mget (sv_keymap s) x = Some x' -> mget (sv_keymap s') x = Some x') ->
  forall i x, kback c sv i x -> kback c (mset sv a s') i x.
Proof.
  intros ND E Es H1. induction i as [|i IH]; intros x Hx; [exact I|].
  destruct (nth_error (map fst (co_servers c)) i) as [b|] eqn:Ei.
  2:{ apply nth_error_None in Ei. unfold kback in *. rewrite (firstn_all2 (n := Datatypes.S i)) in * by lia.
      rewrite firstn_all2 in IH by lia. now apply IH. }
  apply (kback_succ _ _ _ _ _ Ei) in Hx. apply (kback_succ _ _ _ _ _ Ei). destruct Hx as (sb & x' & B1 & B2 & B3).
  destruct (keq b a) as [->|N].
  - assert (sb = s) by congruence. subst sb. exists s', x'. rewrite mget_mset_eq. auto.
  - exists sb, x'. rewrite mget_mset_ne by congruence. split; [assumption|]. split; [assumption|]. now apply IH.
Qed.
(** A key map that only grew holds what it held: its entries are determined by the round key. *)
Lemma km_grow s s' : server_ok S s -> server_ok S s' -> sv_roundkey s' = sv_roundkey s ->
  (forall x, mget (sv_keymap s) x <> None -> mget (sv_keymap s') x <> None) ->
  forall x x', mget (sv_keymap s) x = Some x' -> mget (sv_keymap s') x = Some x'.
Proof.
  intros [_ R1 K1] [_ R2 K2] ER GR x x' E. destruct (mget (sv_keymap s') x) as [x2|] eqn:E2; [|exfalso; apply (GR x); congruence].
  destruct (K1 _ _ E) as [G1 X1]. destruct (K2 _ _ E2) as [G2 X2]. f_equal. rewrite ER in X2.
  apply (pt_mul_inj S OK _ _ (sv_roundkey s)); try assumption. congruence.
Qed.

Lemma kback_same c sv a s s' : mget sv a = Some s -> sv_keymap s' = sv_keymap s ->
  forall i x, kback c sv i x -> kback c (mset sv a s') i x.
Proof.
  intros Es EK i x. unfold kback. generalize (rev (firstn i (map fst (co_servers c)))). intros r. revert x.
  induction r as [|b r IH]; intros x Hx; [exact I|]. cbn [back] in *. destruct Hx as (sb & x' & B1 & B2 & B3).
  rewrite mget_mset. destruct (keq b a) as [->|N].
  - assert (sb = s) by congruence. subst. exists s', x'. rewrite EK. auto.
  - exists sb, x'. auto.
Qed.

Lemma kback_co c c' sv i x : co_servers c' = co_servers c -> kback c sv i x -> kback c' sv i x.
Proof. intros E. unfold kback. now rewrite E. Qed.

(** ** Messages *)
Definition chain (c : coord) : list addr := map fst (co_servers c).
Definition keys_back (c : coord) (sv : amap addr server) (i : nat) (p : params) : Prop :=
  forall bk keys, get_bytes p "keys"%str = Some bk -> dec_points S bk = Some keys -> Forall (kback c sv i) keys.

Record msg_ext (c : coord) (sv : amap addr server) (cl : amap addr client) (m : msg) : Prop := {
  x_h : mType m = BCAST_PEDERSEN_H -> exists h, get_bytes (mParams m) "h"%str = Some (enc_point S h) /\ in_group S h;
  x_rd : mType m = BCAST_PEDERSEN_RDIFF -> exists keys rs, get_bytes (mParams m) "keys"%str = Some (enc_points S keys) /\
    Forall (in_group S) keys /\ get_bytes (mParams m) "rDiffs"%str = Some (enc_secrets S rs) /\ Forall (is_secret S) rs /\
    length rs = length keys;
  x_re : mType m = Net.ROUND_END ->
    (mget cl (mDst m) <> None /\ exists keys f, get_bytes (mParams m) "keys"%str = Some (enc_points S keys) /\
       Forall (in_group S) keys /\ get_bytes (mParams m) "diffs"%str = Some (genc_ints G (map f keys))) \/
    (exists n, (n <= length (co_servers c))%nat /\ mDst m = before (chain c) (co_addr c) n /\
       (has_key (mParams m) "is_start"%str = true \/ verify_neff S H (mParams m) = Some tt) /\ keys_back c sv n (mParams m));
  x_an : mType m = ANNOUNCEMENT -> exists i, (i <= length (co_servers c))%nat /\ mDst m = nth i (chain c) (co_addr c) /\
    ((i = 0%nat /\ has_key (mParams m) "g"%str = false) \/ (has_key (mParams m) "g"%str = true /\ verify_neff S H (mParams m) = Some tt)) /\ keys_back c sv i (mParams m);
  x_fin : mType m = ANNOUNCEMENT_FINALIZE -> In (mDst m) (chain c) \/ exists k g keys, mget cl (mDst m) = Some k /\
    get_bytes (mParams m) "g"%str = Some (enc_point S g) /\ get_bytes (mParams m) "keys"%str = Some (enc_points S keys) /\
    Forall (in_group S) keys /\ in_group S g /\ In (pt_mul S g (cl_priv k)) keys;
  x_reg : mType m = CLIENT_REGISTER_SERVERSIDE -> exists i, (i <= length (co_servers c))%nat /\
    mDst m = nth i (chain c) (co_addr c) /\ kback c sv i (pget (mParams m) "public_key"%str)
}.

Definition privs_kept (cl cl' : amap addr client) : Prop :=
  forall a k, mget cl a = Some k -> exists k', mget cl' a = Some k' /\ cl_priv k' = cl_priv k.
Lemma privs_refl cl : privs_kept cl cl.
Proof. intros a k E. now exists k. Qed.
Lemma privs_mset cl a k k' : mget cl a = Some k -> cl_priv k' = cl_priv k -> privs_kept cl (mset cl a k').
Proof.
  intros E P b kb Eb. rewrite mget_mset. destruct (keq b a) as [->|N]; [|now exists kb]. exists k'. split; [reflexivity|congruence].
Qed.

Lemma ext_mono c c' sv sv' cl cl' m : co_servers c' = co_servers c -> co_addr c' = co_addr c ->
  (forall i x, kback c sv i x -> kback c sv' i x) -> privs_kept cl cl' -> msg_ext c sv cl m -> msg_ext c' sv' cl' m.
Proof.
  intros E1 E2 KB PK [X1 X2 X3 X4 X5 X6].
  assert (KB' : forall i x, kback c sv i x -> kback c' sv' i x) by (intros i x Hx; apply kback_co with c; auto).
  assert (EC : chain c' = chain c) by (unfold chain; now rewrite E1).
  assert (KK : forall i p, keys_back c sv i p -> keys_back c' sv' i p).
  { intros i p K bk keys A1 A2. eapply Forall_impl; [|exact (K _ _ A1 A2)]. intros x. apply KB'. }
  constructor; rewrite ?EC, ?E1, ?E2; try assumption.
  - intros T. destruct (X3 T) as [[N X]|(n & N1 & N2 & N3 & N4)]; [left|right].
    + split; [|exact X]. destruct (mget cl (mDst m)) as [k|] eqn:Ek; [|congruence]. destruct (PK _ _ Ek) as (k' & -> & _). discriminate.
    + exists n. auto.
  - intros T. destruct (X4 T) as (i & N1 & N2 & N3 & N4). exists i. auto.
  - intros T. destruct (X5 T) as [X|(k & g & keys & Ek & N1 & N2 & N3 & N4 & N5)]; [now left|right].
    destruct (PK _ _ Ek) as (k' & Ek' & EP). exists k', g, keys. rewrite EP. auto 10.
  - intros T. destruct (X6 T) as (i & N1 & N2 & N3). exists i. auto.
Qed.

(** Messages of other types have nothing to satisfy. *)
Definition plain_types : list Z := inert_types ++ [CLIENT_REGISTER_CONTROLLERSIDE; INIT_PEDERSEN_R].
Lemma ext_plain c sv cl m : In (mType m) plain_types -> msg_ext c sv cl m.
Proof.
  intros I. constructor; intros T; rewrite T in I; exfalso; clear - I; cbn in I;
    repeat (destruct I as [I|I]; [discriminate I|]); destruct I.
Qed.
Lemma ext_inert c sv cl M : Forall (fun m => inert m = true) M -> Forall (msg_ext c sv cl) M.
Proof. intros F. eapply Forall_impl; [|exact F]. intros m X. apply ext_plain. apply in_or_app. left. now apply inert_in. Qed.

(** ** The invariant *)
Definition no_end (M : list msg) : Prop := forall m, In m M -> mType m <> Net.ROUND_END.
Definition tab_back (c : coord) (sv : amap addr server) : Prop :=
  forall x, In x (mkeys (co_ecomms c) ++ map fst (co_buffer c)) -> kback c sv (length (co_servers c)) x.
Definition xst (c : coord) (sv : amap addr server) (cl : amap addr client) (M : list msg) : Prop :=
  Forall (msg_ext c sv cl) M /\ (co_status c = CO_MESSAGE -> no_end M -> tab_back c sv).

Lemma Forall_mono c c' sv sv' cl cl' M : co_servers c' = co_servers c -> co_addr c' = co_addr c ->
  (forall i x, kback c sv i x -> kback c sv' i x) -> privs_kept cl cl' -> Forall (msg_ext c sv cl) M -> Forall (msg_ext c' sv' cl') M.
Proof. intros E1 E2 KB PK F. eapply Forall_impl; [|exact F]. intros m. now apply ext_mono. Qed.

(** Positions in the chain are unique. *)
Lemma pos_self c sv cl V i : base S c sv cl V -> (i <= length (co_servers c))%nat -> nth i (chain c) (co_addr c) = co_addr c ->
  i = length (co_servers c).
Proof.
  intros B L E. destruct (nth_chain S c sv cl V i B L) as [[X _]|(a & s & X & _ & _ & N & _)]; [assumption|].
  unfold chain in E. congruence.
Qed.
Lemma pos_server c sv cl V i j a : base S c sv cl V -> (i <= length (co_servers c))%nat -> nth i (chain c) (co_addr c) = a ->
  nth_error (chain c) j = Some a -> i = j.
Proof.
  intros B L E Ej. assert (Ia : In a (map fst (co_servers c))) by (now apply nth_error_In in Ej).
  destruct (in_chain _ _ _ _ _ _ B Ia) as (NS & _).
  destruct (nth_chain S c sv cl V i B L) as [[_ X]|(b & s & X & X2 & _)]; unfold chain in *; [congruence|].
  eapply NoDup_nth_error; [exact (b_nd _ _ _ _ _ B)|apply nth_error_Some; congruence|congruence].
Qed.
Lemma end_pos_server c sv cl V n j a : base S c sv cl V -> (n <= length (co_servers c))%nat -> before (chain c) (co_addr c) n = a ->
  nth_error (chain c) j = Some a -> n = Datatypes.S j.
Proof.
  intros B L E Ej. assert (Ia : In a (map fst (co_servers c))) by (now apply nth_error_In in Ej).
  destruct (in_chain _ _ _ _ _ _ B Ia) as (NS & _). destruct n as [|n]; cbn [before] in E; [congruence|].
  f_equal. apply (pos_server c sv cl V n j a B); try assumption. lia.
Qed.

(** ** Preservation *)
Lemma handle_quiet k ty p chal k' out : cl_handle S G k ty p chal = Some (k', out) ->
  cl_priv k' = cl_priv k /\ Forall (fun m => inert m = true) out.
Proof.
  unfold cl_handle. repeat (destruct (_ =? _); [|]); intros E;
  unfold cl_register_confirmation, cl_init_r, cl_honesty_answer, cl_announce_final, cl_got_signatures, cl_vote_start,
    cl_round_end, cl_rdiff, cl_vote_reply in E; cbv zeta in E; odestruct E; injection E as <- <-; (split; [reflexivity|repeat constructor]).
Qed.

Lemma table_keys c sv i p q keys vals GT HT : lookup p "keys"%str = None -> Forall (in_group S) keys -> Forall (kback c sv i) keys ->
  keys_back c sv i (p ++ table_params S keys vals GT HT ++ q).
Proof.
  intros N F K bk ks E1 E2. unfold get_bytes in E1. rewrite (lookup_app _ _ _ N) in E1. cbn [table_params app lookup String.eqb Ascii.eqb Bool.eqb] in E1.
  assert (bk = enc_points S keys) by congruence. subst bk. rewrite (dec_enc_points S OK _ F) in E2. injection E2 as <-. exact K.
Qed.

Lemma extra_verify p extra : extra_ok S H extra ->
  (forall k, In k ["xbar"%str; "ybar"%str; "proof"%str; "prev_keys"%str; "prev_vals"%str; "shuffled"%str; "public_key"%str] -> lookup p k = None) ->
  verify_neff S H (p ++ extra) = Some tt.
Proof. intros X N. now apply X. Qed.

Lemma keys_of_combine (fk fv keys vals : list Z) (f : Z -> Z) (g : Z -> Z) x : length fv = length fk ->
  Permutation (combine fk fv) (map (fun kv => (f (fst kv), g (snd kv))) (combine keys vals)) -> In x fk ->
  exists k, In k keys /\ x = f k.
Proof.
  intros L P I. rewrite <- (combine_keys fk fv L) in I. apply in_map_iff in I. destruct I as ([a b] & <- & I).
  apply (Permutation_in _ P) in I. apply in_map_iff in I. destruct I as ([k v] & E & I). injection E as <- <-.
  exists k. split; [now apply in_combine_l in I|reflexivity].
Qed.

Lemma x_server c sv cl V m L s sr s' out : base S c sv cl V -> phase S G c sv cl (m :: core L) V -> xst c sv cl (m :: L) ->
  mget sv (mDst m) = Some s -> rel_prime (srKey sr) (sQ S) ->
  sv_handle S H G s (mType m) (mParams m) (mSrc m) sr = Some (s', out) -> xst c (mset sv (mDst m) s') cl (L ++ out).
Proof.
  intros B P [XF XT] Hs RP E.
  destruct (core_server S OK H G c sv cl V m (core L) s sr s' out B P Hs RP E) as [B' _].
  assert (Id : In (mDst m) (map fst (co_servers c))) by (apply (b_srv _ _ _ _ _ B); congruence).
  destruct (in_chain _ _ _ _ _ _ B Id) as (NS & NC & _).
  inversion XF as [|? ? XM XL]; subst. clear XF.
  assert (SAME : sv_keymap s' = sv_keymap s -> mType m <> Net.ROUND_END -> Forall (fun m => inert m = true) out -> xst c (mset sv (mDst m) s') cl (L ++ out)).
  { intros EK NT IO. split.
    - apply Forall_app. split; [|now apply ext_inert]. apply Forall_mono with c sv cl; auto; [|apply privs_refl]. now apply kback_same with s.
    - intros ST NE x Hx. apply kback_same with s; try assumption. apply XT; try assumption. intros m0 [<-|I0]; [assumption|]. apply NE. apply in_or_app. now left. }
  destruct P as [T A|T i p keys vals GT HT A|T0 T1 K A|T n M1 p keys vals GT HT A].
  - destruct A as [A1 A2 A3 A4 A5 A6 A7]. inversion A7 as [|? ? [[X _]|[[_ X]|[_ X]]] F']; subst; [|congruence|congruence].
    rewrite X in E. change (sv_handle S H G s BCAST_PEDERSEN_H (mParams m) (mSrc m) sr) with (sv_pedersen_h S s (mParams m)) in E.
    unfold sv_pedersen_h in E. odestruct E. injection E as <- <-. apply SAME; [reflexivity|rewrite X; discriminate|constructor].
  - pose proof (p2_M _ _ _ _ _ _ _ _ _ _ _ _ _ _ A) as [src EM].
    assert (Em : m = Msg (nth i (map fst (co_servers c)) (co_addr c)) ANNOUNCEMENT p src) by congruence. subst m. clear EM. cbn [mDst mType mParams mSrc] in *.
    destruct (nth_chain S c sv cl V i B (p2_i _ _ _ _ _ _ _ _ _ _ _ _ _ _ A)) as [[-> E1]|(a & s0 & E1 & Ei & _)]; [congruence|].
    change (sv_handle S H G s ANNOUNCEMENT p src sr) with (sv_announcement S H s p sr) in E. rewrite E1 in *.
    destruct (x_an _ _ _ _ XM eq_refl) as (i' & L1 & L2 & _ & KB). cbn [mDst mParams] in *.
    assert (i' = i) by (apply (pos_server c sv cl V i' i a B); auto). subst i'.
    destruct A as [A1 A2 A3 A4 A5 A6 A7 A8 A9 A10 A11].
    destruct (b_link S c sv cl V B i a s Ei Hs) as (K1 & K2 & SO).
    assert (Gg : in_group S (pt_mul_base S (prod_of (firstn i (exps c sv))))) by (unfold pt_mul_base, pt_mul; in_grp).
    destruct (ann_step S OK H s p sr _ keys vals GT HT s' out SO A6 A7 Gg A8 E)
      as (fk & fv & extra & -> & P1 & T1 & X1 & _ & SO' & RK & KM & KG & _).
    destruct (carries_dec S OK p keys vals GT HT A6 A8) as (bk & _ & _ & _ & D1 & D2 & _).
    pose proof (KB _ _ D1 D2) as KK.
    assert (MONO : forall i0 x, kback c sv i0 x -> kback c (mset sv a s') i0 x).
    { apply (kback_mono c sv a s s' i); try assumption; [apply (b_nd _ _ _ _ _ B)|]. now apply km_grow. }
    split.
    + apply Forall_app. split; [apply Forall_mono with c sv cl; auto; apply privs_refl|]. constructor; [|constructor].
      constructor; cbn [mType mDst mParams]; try discriminate. intros _. exists (Datatypes.S i). split; [|split; [|split]].
      * apply nth_error_lt in Ei. rewrite map_length in Ei. lia.
      * rewrite K1. reflexivity.
      * right. split; [reflexivity|]. apply (extra_verify (("g"%str, _) :: table_params S fk fv _ _)); [assumption|].
        intros k Hk. clear - Hk. cbn in Hk. repeat (destruct Hk as [<-|Hk]; [reflexivity|]). destruct Hk.
      * apply (table_keys c (mset sv a s') (Datatypes.S i) [("g"%str, _)] extra fk fv); [reflexivity|apply T1|].
        apply Forall_forall. intros x Hx. destruct (keys_of_combine fk fv keys vals (fun k => pt_mul S k (sv_roundkey s)) (fun v => pt_mul S v (srE sr)) x (t_len _ _ _ _ _ T1) P1 Hx) as (k & Ik & ->).
        apply (kback_succ _ _ _ _ _ Ei). exists s', k. rewrite mget_mset_eq. split; [reflexivity|]. split; [now apply KM|].
        apply MONO. rewrite Forall_forall in KK. now apply KK.
    + intros ST. rewrite A1 in ST. discriminate ST.
  - pose proof (p3_msg _ _ _ _ _ _ _ _ _ A) as F. inversion F as [|? ? D _]; subst.
    destruct D as [b p src D1 D2|b kb D1|b d kb pc src D1 D2 D3|b kb r g src D1 D2 D3 D4]; cbn [mDst mType mParams mSrc cl_register] in *.
    + change (sv_finalize S s p = Some (s', out)) in E. unfold sv_finalize in E. odestruct E. injection E as <- <-.
      apply SAME; [reflexivity|discriminate|constructor].
    + exfalso. destruct (b_cl _ _ _ _ _ B b kb D1) as (_ & _ & X & _). congruence.
    + destruct (x_reg _ _ _ _ XM eq_refl) as (i & L1 & L2 & KB). cbn [mDst mParams] in *.
      destruct (nth_chain S c sv cl V i B L1) as [[-> E1]|(a & s0 & E1 & Ei & _)]; [unfold chain in *; congruence|].
      unfold chain in L2. rewrite E1 in L2. subst b.
      destruct (b_link S c sv cl V B i a s Ei Hs) as (K1 & K2 & SO).
      destruct (b_link S c _ cl V B' i a s' Ei (mget_mset_eq _ _ _)) as (_ & _ & SO').
      assert (EP : pget [("public_key"%str, VBytes (enc_point S kb)); ("addr"%str, VStr d); ("pcomm"%str, VBytes (enc_point S pc))] "public_key"%str = kb).
      { unfold pget, get_bytes. cbn [lookup String.eqb Ascii.eqb Bool.eqb]. apply (dec_enc_unchecked S _ D2). }
      rewrite EP in KB.
      match type of E with sv_handle S H G s _ ?pp _ _ = _ => change (sv_client_register S s pp = Some (s', out)) in E end.
      unfold sv_client_register, get_bytes, get_str in E. cbn [lookup String.eqb Ascii.eqb Bool.eqb] in E.
      rewrite (dec_enc_point S OK _ D2) in E. injection E as <- <-.
      set (s1 := Server _ _ _ _ _ _ _ _ _ _ _ _ _ _) in *. set (nk := pt_mul S kb (sv_roundkey s)) in *.
      assert (Gn : in_group S nk) by (unfold nk, pt_mul; in_grp).
      assert (MONO : forall i0 x, kback c sv i0 x -> kback c (mset sv a s1) i0 x).
      { apply (kback_mono c sv a s s1 i); try assumption; [apply (b_nd _ _ _ _ _ B)|]. apply km_grow; try assumption; [reflexivity|].
        intros x Nx. cbn [s1 sv_keymap]. now apply mset_some. }
      split.
      * apply Forall_app. split; [apply Forall_mono with c sv cl; auto; apply privs_refl|]. constructor; [|constructor].
        constructor; cbn [mType mDst mParams]; try discriminate. intros _. exists (Datatypes.S i). split; [|split].
        -- apply nth_error_lt in Ei. rewrite map_length in Ei. lia.
        -- rewrite K1. reflexivity.
        -- unfold pget, get_bytes. cbn [lookup String.eqb Ascii.eqb Bool.eqb]. rewrite (dec_enc_unchecked S _ Gn).
           apply (kback_succ _ _ _ _ _ Ei). exists s1, kb. rewrite mget_mset_eq. split; [reflexivity|]. split; [apply mget_mset_eq|]. now apply MONO.
      * intros ST NE x Hx. apply MONO. apply XT; try assumption. intros m0 [<-|I0]; [discriminate|]. apply NE. apply in_or_app. now left.
    + congruence.
  - destruct (end_token _ _ _ _ _ _ _ _ _ _ _ _ _ _ _ _ B A NC) as (src & -> & PM). cbn [mDst mType mParams mSrc] in *.
    destruct (before_chain S c sv cl V n B (p4_n _ _ _ _ _ _ _ _ _ _ _ _ _ _ _ A)) as [[-> E1]|(j & a & s0 & -> & E1 & Ej & _)]; [congruence|].
    change (sv_handle S H G s Net.ROUND_END p src sr) with (sv_round_end S H s p sr) in E. rewrite E1 in *.
    destruct (x_re _ _ _ _ XM eq_refl) as [[X _]|(n & L1 & L2 & _ & KB)]; cbn [mDst mParams] in *; [congruence|].
    assert (n = Datatypes.S j) by (apply (end_pos_server c sv cl V n j a B); auto). subst n.
    destruct A as [A1 A2 A3 A4 A5 A6 A7 A8 A9 A10 A11].
    destruct (b_link S c sv cl V B j a s Ej Hs) as (K1 & K2 & SO).
    pose proof (T_group S T V A9 (b_Vg _ _ _ _ _ B)) as TG. rewrite Forall_forall in TG.
    assert (EF : firstn (Datatypes.S j) (exps c sv) = firstn j (exps c sv) ++ [sv_roundkey s]).
    { apply firstn_snoc. now apply exps_nth with a. }
    set (e := prod_of (firstn j (exps c sv))) in *.
    rewrite EF, prod_snoc in A8. fold e in A8.
    set (okeys := map (fun t : entry => pt_mul S (fst t) e) T).
    assert (EO : keys = map (fun k => pt_mul S k (sv_roundkey s)) okeys).
    { rewrite <- (combine_keys keys vals (t_len _ _ _ _ _ A7)), A8. unfold okeys. rewrite !map_map. apply map_ext_in. intros t Ht.
      unfold ent. cbn [fst]. now rewrite (pt_mul_mul S OK) by (apply TG; now apply in_map). }
    assert (FO : Forall (in_group S) okeys).
    { apply Forall_forall. intros k Hk. apply in_map_iff in Hk. destruct Hk as (t & <- & Ht).
      assert (in_group S (fst t)) by (apply TG; now apply in_map). unfold pt_mul. in_grp. }
    destruct (end_step S OK H s p sr keys vals GT HT okeys s' out SO A6 A7 RP FO EO E)
      as (fk & fv & extra & -> & P1 & T1 & X1 & _).
    destruct (carries_dec S OK p keys vals GT HT A6 A7) as (bk & _ & _ & _ & D1 & D2 & _).
    pose proof (KB _ _ D1 D2) as KK. rewrite Forall_forall in KK, FO.
    split.
    + apply Forall_app. split.
      * apply Forall_forall. intros m0 I0. destruct (inert m0) eqn:IM.
        { apply ext_plain, in_or_app. left. now apply inert_in. }
        assert (I1 : In m0 M1) by (eapply Permutation_in; [exact PM|]; apply core_in; now split).
        rewrite Forall_forall in A5. destruct (A5 m0 I1) as [TY _]. rewrite Forall_forall in XL.
        constructor; try (intros TT; rewrite TY in TT; discriminate TT). apply (XL m0 I0).
      * constructor; [|constructor]. constructor; cbn [mType mDst mParams]; try discriminate. intros _. right. exists j. split; [|split; [|split]].
        -- lia.
        -- rewrite K2. reflexivity.
        -- right. apply (extra_verify (table_params S fk fv _ _)); [assumption|].
           intros k Hk. clear - Hk. cbn in Hk. repeat (destruct Hk as [<-|Hk]; [reflexivity|]). destruct Hk.
        -- apply (table_keys c (mset sv a s') j [] extra fk fv); [reflexivity|apply T1|].
           apply Forall_forall. intros x Hx.
           destruct (keys_of_combine fk fv okeys vals (fun k => k) (fun v => pt_mul S v (srE sr)) x (t_len _ _ _ _ _ T1) P1 Hx) as (k & Ik & ->).
           apply (kback_low c sv a s' j j); [apply (b_nd _ _ _ _ _ B)|assumption|lia|].
           assert (Kk : kback c sv (Datatypes.S j) (pt_mul S k (sv_roundkey s))) by (apply KK; rewrite EO; now apply (in_map (fun k => pt_mul S k (sv_roundkey s)))).
           apply (kback_succ _ _ _ _ _ Ej) in Kk. destruct Kk as (s2 & x' & Y1 & Y2 & Y3). assert (s2 = s) by congruence. subst s2.
           destruct SO as [_ SR SK]. destruct (SK _ _ Y2) as [Z1 Z2]. apply (pt_mul_inj S OK) in Z2; try assumption; [now subst x'|now apply FO].
    + intros _ NE. exfalso. apply (NE (Msg (sv_prev s) Net.ROUND_END (table_params S fk fv (pt_mul S GT (srE sr)) (pt_mul S HT (srE sr)) ++ extra) (sv_addr s))); [|reflexivity].
      apply in_or_app. right. now left.
Qed.

Lemma x_coord c sv cl V m L cr c' out : base S c sv cl V -> phase S G c sv cl (m :: core L) V -> xst c sv cl (m :: L) ->
  mDst m = co_addr c -> is_secret S (crR cr) -> range_order (crDiffs cr) (co_diffs c) ->
  co_handle S G c (mType m) (mParams m) (mSrc m) cr = Some (c', out) -> xst c' sv cl (L ++ out).
Proof.
  intros B P [XF XT] Hd SR RO E. pose proof (self_not_cl _ _ _ _ _ B) as NC.
  inversion XF as [|? ? XM XL]; subst. clear XF.
  destruct P as [T A|T i p keys vals GT HT A|T0 T1 K A|T n M1 p keys vals GT HT A].
  - exfalso. pose proof (p1_msg _ _ _ _ _ _ _ A) as F. inversion F as [|? ? [[_ X]|[[_ X]|[_ X]]] _]; subst; rewrite Hd in X; [|congruence|congruence].
    apply (in_chain _ _ _ _ _ _ B) in X. destruct X. congruence.
  - pose proof (p2_M _ _ _ _ _ _ _ _ _ _ _ _ _ _ A) as [src EM].
    assert (Em : m = Msg (nth i (map fst (co_servers c)) (co_addr c)) ANNOUNCEMENT p src) by congruence. subst m. clear EM. cbn [mDst mType mParams mSrc] in *.
    destruct (nth_chain S c sv cl V i B (p2_i _ _ _ _ _ _ _ _ _ _ _ _ _ _ A)) as [[-> E1]|(a & s & E1 & _ & _ & E2 & _)]; [|congruence].
    change (co_handle S G c ANNOUNCEMENT p src cr) with (co_announcement S c p) in E.
    destruct (x_an _ _ _ _ XM eq_refl) as (i' & L1 & L2 & _ & KB). cbn [mDst mParams] in *. rewrite E1 in L2.
    assert (i' = length (co_servers c)) by (apply (pos_self c sv cl V i' B); auto). subst i'.
    destruct A as [A1 A2 A3 A4 A5 A6 A7 A8 A9 A10 A11].
    destruct (carries_dec S OK p keys vals GT HT A6 A8) as (bk & bv & bG & bH & D1 & D2 & D3 & D4 & D5 & D6 & D7 & D8).
    assert (EK : firstn (length (co_servers c)) (exps c sv) = exps c sv) by (rewrite <- (exps_length c sv); apply firstn_all).
    rewrite EK in A7, A9. set (K := prod_of (exps c sv)) in *.
    assert (Gg : in_group S (pt_mul_base S K)) by (unfold pt_mul_base, pt_mul; in_grp).
    unfold co_announcement in E. rewrite D1, D2, D3, D4, D5, D6, D7, D8 in E.
    destruct A7 as [[A7 _]|[_ A7]].
    { exfalso. unfold has_key in A7. unfold get_bytes in E. destruct (lookup p "g"%str); [discriminate|discriminate]. }
    rewrite A7, (dec_enc_point S OK _ Gg) in E.
    destruct (ending_map keys keys) as [ek|] eqn:EE1; [|discriminate].
    destruct (ending_map keys vals) as [ec|] eqn:EE2; [|discriminate].
    injection E as <- <-. set (pm := [("g"%str, _); _; _; _; _]). set (c3 := set_status _ CO_MESSAGE).
    split.
    + apply Forall_app. split; [apply Forall_mono with c sv cl; auto; apply privs_refl|]. apply Forall_app. split; apply Forall_forall; intros m Hm.
      * destruct (to_clients_inv S c sv cl V _ _ _ B Hm) as (a & k & -> & Ek & _).
        constructor; cbn [mType mDst mParams]; try discriminate. intros _. right. exists k, (pt_mul_base S K), keys.
        split; [assumption|]. split; [reflexivity|]. split; [|split; [apply A8|split; [assumption|]]].
        -- unfold pm, get_bytes. cbn [lookup String.eqb Ascii.eqb Bool.eqb]. destruct A6 as [C1 _]. congruence.
        -- destruct (b_cl _ _ _ _ _ B a k Ek) as (EP & _). rewrite (nym_comm S OK k K EP).
           destruct (A11 a k Ek) as (_ & v & r & R & IT & _).
           rewrite <- (combine_keys keys vals (t_len _ _ _ _ _ A8)), A9, map_map.
           apply (in_map (fun x : entry => fst (ent S (PBase HT GT) K x)) T _ IT).
      * destruct (to_servers_inv _ _ _ _ Hm) as (a & -> & Ha). constructor; cbn [mType mDst mParams]; try discriminate. intros _. now left.
    + intros _ _ x Hx. apply in_app_or in Hx. destruct Hx as [Hx|Hx].
      * cbn [c3 co_ecomms set_status set_G set_keys set_diffs set_ecomms] in Hx. apply (ending_map_in _ _ _ _ EE2) in Hx.
        pose proof (KB _ _ D1 D2) as KK. rewrite Forall_forall in KK. now apply KK.
      * cbn [c3 co_buffer set_status set_G set_keys set_diffs set_ecomms set_ekeys set_pb] in Hx. rewrite A3 in Hx. destruct Hx.
  - pose proof (p3_msg _ _ _ _ _ _ _ _ _ A) as F. inversion F as [|? ? D _]; subst.
    destruct D as [b p src D1 D2|b kb D1|b d kb pc src D1 D2 D3|b kb r g src D1 D2 D3 D4]; cbn [mDst mType mParams mSrc cl_register] in *.
    + exfalso. subst b. destruct D2 as [D2|D2]; [|congruence]. apply (in_chain _ _ _ _ _ _ B) in D2. destruct D2. congruence.
    + match type of E with co_handle S G c _ ?pp ?ss _ = _ => change (co_client_register S c pp ss cr = Some (c', out)) in E end.
      unfold co_client_register, get_bytes in E. cbn [lookup String.eqb Ascii.eqb Bool.eqb] in E.
      destruct (ped_commit S (co_pb c) (sec_of_int S starting_credit) (crR cr)) as [pc r].
      unfold send in E. destruct (first_server c) as [fa|] eqn:EF; [|discriminate]. destruct (co_G c) as [g|]; [|discriminate]. injection E as <- <-.
      split.
      * apply Forall_app. split; [apply Forall_mono with c sv cl; auto; apply privs_refl|]. constructor; [|constructor; [apply ext_plain; cbn; tauto|constructor]].
        constructor; cbn [mType mDst mParams]; try discriminate. intros _. exists 0%nat. split; [lia|]. split; [|exact I].
        unfold first_server in EF. unfold chain. cbn [set_clients co_servers]. destruct (co_servers c) as [|[a0 pk0] l0]; [discriminate|]. cbn in EF |- *. congruence.
      * intros ST NE. apply XT; [assumption|]. intros m0 [<-|I0]; [discriminate|]. apply NE. apply in_or_app. now left.
    + destruct (x_reg _ _ _ _ XM eq_refl) as (i & L1 & L2 & KB). cbn [mDst mParams] in *. subst b.
      assert (i = length (co_servers c)) by (apply (pos_self c sv cl V i B); auto). subst i.
      match type of E with co_handle S G c _ ?pp ?ss _ = _ => change (co_client_confirm S G c pp = Some (c', out)) in E end.
      unfold co_client_confirm in E. unfold pget in KB. unfold get_bytes, get_str in *. cbn [lookup String.eqb Ascii.eqb Bool.eqb] in E, KB.
      rewrite (dec_enc_point S OK _ D3) in E. injection E as <- <-. split.
      * apply Forall_app. split; [apply Forall_mono with c sv cl; auto; apply privs_refl|]. constructor; [apply ext_plain; cbn; tauto|constructor].
      * intros ST NE x Hx. cbn [add_buffer set_buffer co_ecomms co_buffer] in Hx. rewrite map_app, app_assoc in Hx. apply in_app_or in Hx. destruct Hx as [Hx|[<-|[]]]; [|exact KB].
        apply XT; try assumption. intros m0 [<-|I0]; [discriminate|]. apply NE. apply in_or_app. now left.
    + congruence.
  - destruct (end_token _ _ _ _ _ _ _ _ _ _ _ _ _ _ _ _ B A) as (src & -> & PM); [now rewrite Hd|]. cbn [mDst mType mParams mSrc] in *.
    change (co_handle S G c Net.ROUND_END p src cr) with (co_round_end S G c p cr) in E.
    unfold co_round_end in E. cbv zeta in E. 
    destruct (non_nil (map (fun k => mget (co_ekeys c) k) (crDiffs cr))) as [dk|] eqn:ED; [|odestruct E; discriminate].
    destruct (non_nil_id S _ _ _ (p4_ek _ _ _ _ _ _ _ _ _ _ _ _ _ _ _ A) ED) as [-> GD].
    odestruct E. injection E as <- <-. split; [|intros ST; discriminate ST].
    apply Forall_app. split; [apply Forall_mono with c sv cl; auto; apply privs_refl|]. apply Forall_forall. intros m Hm.
    destruct (to_clients_inv S c sv cl V _ _ _ B Hm) as (ca & k & -> & Ek & _).
    constructor; cbn [mType mDst mParams]; try discriminate. intros _. left. split; [congruence|]. exists (crDiffs cr), (rep_diff c). auto.
Qed.

Definition ext_inv (y : sys) : Prop := xst (y_coord y) (y_servers y) (y_clients y) (y_msgs y).

Lemma xst_pick c sv cl l1 m l2 : xst c sv cl (l1 ++ m :: l2) -> xst c sv cl (m :: l1 ++ l2).
Proof.
  intros [A B]. assert (P : Permutation (l1 ++ m :: l2) (m :: l1 ++ l2)) by (symmetry; apply Permutation_middle). split.
  - now apply (Permutation_Forall P).
  - intros ST NE. apply B; [assumption|]. intros m0 I0. apply NE. now apply (Permutation_in _ P).
Qed.

Lemma deliver_ext y V i cr sr chal y' : inv S G y V -> ext_inv y -> guard S y V (ADeliver i cr sr chal) ->
  sys_step S H G y (ADeliver i cr sr chal) = Some y' -> ext_inv y'.
Proof.
  intros I X (G1 & _ & G3 & G4 & _) E. pose proof I as [B P]. cbn [sys_step] in E.
  destruct (nth_error (y_msgs y) i) as [m|] eqn:EM; [|discriminate]. cbn zeta in E.
  destruct (pick_split i _ m EM) as (l1 & l2 & EL & ER). rewrite ER in E. unfold ext_inv in X. rewrite EL in P, X. apply xst_pick in X.
  destruct (inert m) eqn:IM.
  - pose proof (proj1 (inert_in m) IM) as IT. destruct X as [XF XT]. inversion XF as [|? ? _ XL]; subst.
    assert (NR : forall out, no_end ((l1 ++ l2) ++ out) -> no_end (m :: l1 ++ l2)).
    { intros out NE m0 [<-|I0]; [|apply NE; apply in_or_app; now left]. intros T. rewrite T in IT. clear - IT. cbn in IT.
      repeat (destruct IT as [IT|IT]; [discriminate IT|]). destruct IT. }
    destruct (keq (mDst m) (co_addr (y_coord y))) as [Ed|Nd].
    + destruct (co_handle _ _ _ _ _ _ _) as [[c' out]|] eqn:EH; [|discriminate]. injection E as <-.
      destruct (co_inert _ _ _ _ _ _ _ _ _ IT EH) as (CS & _ & IO). unfold ext_inv. cbn [y_coord y_servers y_clients y_msgs].
      assert (C1 : co_static c' = co_static (y_coord y)) by (apply (CS FStatic); cbn; tauto).
      assert (C2 : co_servers c' = co_servers (y_coord y)) by (apply (CS FServers); cbn; tauto).
      assert (C3 : co_status c' = co_status (y_coord y)) by (apply (CS FStatus); cbn; tauto).
      assert (C4 : co_ecomms c' = co_ecomms (y_coord y)) by (apply (CS FEComms); cbn; tauto).
      assert (C5 : co_buffer c' = co_buffer (y_coord y)) by (apply (CS FBuffer); cbn; tauto).
      split.
      * apply Forall_app. split; [|now apply ext_inert]. apply Forall_mono with (y_coord y) (y_servers y) (y_clients y); auto; [now apply same_addr|apply privs_refl].
      * rewrite C3. intros ST NE x. rewrite C4, C5, C2. intros Hx. apply kback_co with (y_coord y); [assumption|]. apply XT; eauto.
    + destruct (mget (y_servers y) (mDst m)) as [s|] eqn:ES.
      * destruct (sv_handle _ _ _ _ _ _ _ _) as [[s' out]|] eqn:EH; [|discriminate]. injection E as <-.
        destruct (sv_inert _ _ _ _ _ _ _ _ _ _ IT EH) as (-> & IO). unfold ext_inv. cbn [y_coord y_servers y_clients y_msgs]. split.
        -- apply Forall_app. split; [|now apply ext_inert]. apply Forall_mono with (y_coord y) (y_servers y) (y_clients y); auto; [now apply kback_same with s|apply privs_refl].
        -- intros ST NE x Hx. apply kback_same with s; auto. apply XT; eauto.
      * destruct (mget (y_clients y) (mDst m)) as [k|] eqn:EK; [|discriminate].
        destruct (cl_handle _ _ _ _ _ _) as [[k' out]|] eqn:EH; [|discriminate]. injection E as <-.
        destruct (handle_quiet _ _ _ _ _ _ EH) as (KP & IO). unfold ext_inv. cbn [y_coord y_servers y_clients y_msgs]. split.
        -- apply Forall_app. split; [|now apply ext_inert]. apply Forall_mono with (y_coord y) (y_servers y) (y_clients y); auto. now apply privs_mset with k.
        -- intros ST NE x Hx. apply XT; eauto.
  - assert (P' : phase S G (y_coord y) (y_servers y) (y_clients y) (m :: core (l1 ++ l2)) V).
    { eapply phase_perm; [|exact P]. rewrite !core_app. unfold core at 2. cbn [filter]. rewrite IM. cbn [negb]. symmetry. apply Permutation_middle. }
    destruct (keq (mDst m) (co_addr (y_coord y))) as [Ed|Nd].
    + destruct (co_handle _ _ _ _ _ _ _) as [[c' out]|] eqn:EH; [|discriminate]. injection E as <-.
      unfold ext_inv. cbn [y_coord y_servers y_clients y_msgs]. now apply (x_coord (y_coord y) (y_servers y) (y_clients y) V m _ cr c' out B P').
    + destruct (mget (y_servers y) (mDst m)) as [s|] eqn:ES.
      * destruct (sv_handle _ _ _ _ _ _ _ _) as [[s' out]|] eqn:EH; [|discriminate]. injection E as <-.
        unfold ext_inv. cbn [y_coord y_servers y_clients y_msgs]. now apply (x_server (y_coord y) (y_servers y) (y_clients y) V m _ s sr s' out B P').
      * destruct (mget (y_clients y) (mDst m)) as [k|] eqn:EK; [|discriminate].
        destruct (cl_handle _ _ _ _ _ _) as [[k' out]|] eqn:EH; [|discriminate]. injection E as <-.
        destruct (handle_quiet _ _ _ _ _ _ EH) as (KP & IO). unfold ext_inv. cbn [y_coord y_servers y_clients y_msgs].
        destruct X as [XF XT]. inversion XF as [|? ? _ XL]; subst. split.
        -- apply Forall_app. split; [|now apply ext_inert]. apply Forall_mono with (y_coord y) (y_servers y) (y_clients y); auto. now apply privs_mset with k.
        -- intros ST NE x Hx. apply XT; try assumption. intros m0 [<-|I0] T0; [|apply (NE m0); [apply in_or_app; now left|assumption]].
           assert (IN : In m (y_msgs y)) by (now apply nth_error_In in EM).
           destruct (round_end_to S G y V m I) as [Y|Y]; auto. split; [assumption|]. now exists m.
Qed.

Lemma mid_group c sv cl V T0 T1 K : base S c sv cl V -> mid_ph S c sv cl [] V T0 T1 K ->
  forall x, In x (mkeys (co_ecomms c) ++ map fst (co_buffer c)) -> in_group S x.
Proof.
  intros B A. pose proof (p3_V _ _ _ _ _ _ _ _ _ A) as PV. pose proof (p3_tab _ _ _ _ _ _ _ _ _ A) as TT. pose proof (p3_buf _ _ _ _ _ _ _ _ _ A) as PB.
  cbn [filter map] in PV, PB. rewrite app_nil_r in PV, PB.
  pose proof (T_group S _ V PV (b_Vg _ _ _ _ _ B)) as TG. rewrite Forall_forall in TG.
  assert (X : forall x, In x (map fst (map (ent S (co_pb c) K) (T0 ++ T1))) -> in_group S x).
  { intros x Hx. rewrite map_map in Hx. apply in_map_iff in Hx. destruct Hx as (t & <- & It). cbn [ent fst].
    assert (in_group S (fst t)) by (apply TG; now apply in_map). unfold pt_mul. in_grp. }
  intros x Hx. apply X. rewrite map_app, map_app. apply in_app_or in Hx. apply in_or_app. destruct Hx as [Hx|Hx].
  - left. unfold mkeys in Hx. now rewrite TT in Hx.
  - right. eapply Permutation_in; [apply Permutation_map; exact PB|assumption].
Qed.

(** The messages with which a round ends. *)
Lemma end_ext c sv cl V T0 T1 K ord rs c' out L : base S c sv cl V -> mid_ph S c sv cl [] V T0 T1 K -> tab_back c sv ->
  Permutation ord (mkeys (co_ecomms c) ++ map fst (co_buffer c)) -> length rs = length ord -> Forall (is_secret S) rs ->
  round_end S c ord rs = Some (c', out) -> Forall (msg_ext c sv cl) L -> xst c' sv cl (L ++ out).
Proof.
  intros B A TB PO LR FR E FL.
  assert (E0 : co_step S G c (EEnd ord rs) = Some (c', out)) by exact E.
  pose proof (step_static S H G _ _ _ _ E0) as S1. assert (S2 : co_servers c' = co_servers c) by (apply (co_servers_step S H G c _ c' out E0); discriminate).
  pose proof (p3_V _ _ _ _ _ _ _ _ _ A) as PV. pose proof (p3_tab _ _ _ _ _ _ _ _ _ A) as TT. pose proof (p3_buf _ _ _ _ _ _ _ _ _ A) as PB.
  cbn [filter map] in PV, PB. rewrite app_nil_r in PV, PB.
  assert (NE : NoDup (map fst (co_ecomms c ++ co_buffer c))).
  { eapply Permutation_NoDup; [symmetry; apply Permutation_map; rewrite TT; apply Permutation_app_head; exact PB|]. rewrite <- map_app.
    apply (ent_keys_nodup S OK); [rewrite (p3_K _ _ _ _ _ _ _ _ _ A); apply (exps_unit _ _ _ _ _ B)|exact (T_group S _ V PV (b_Vg _ _ _ _ _ B))|exact (T_nodup _ V PV (b_V _ _ _ _ _ B))]. }
  pose proof (mid_group c sv cl V T0 T1 K B A) as GR.
  assert (FO : Forall (in_group S) ord).
  { apply Forall_forall. intros x Hx. apply GR. now apply (Permutation_in _ PO). }
  unfold round_end in E. destruct (last_server c) as [la|] eqn:EL.
  2:{ exfalso. pose proof (b_ne _ _ _ _ _ B) as X. unfold last_server in EL. destruct (rev (co_servers c)) eqn:ER; [|discriminate].
      apply X. rewrite <- (rev_involutive (co_servers c)), ER. reflexivity. }
  destruct (add_endings_spec (co_buffer c) c) as (_ & _ & _ & _ & S9 & S10); [now rewrite map_app in NE|exact (p3_keys _ _ _ _ _ _ _ _ _ A)|].
  set (c1 := fold_left _ (co_buffer c) c) in *.
  destruct (non_nil (map (fun k => mget (co_ekeys c1) k) ord)) as [keys|] eqn:EK; [|discriminate].
  destruct (non_nil (map (fun k => mget (co_ecomms c1) k) ord)) as [vs|] eqn:EV; [|discriminate].
  destruct (dec_keys _ _ _ _ S10 EK) as [-> _]. clear EK. injection E as <- <-.
  assert (RS : tab (length ord) (at_ rs) = rs) by (unfold tab; rewrite <- LR; apply map_at_seq).
  rewrite RS. set (tok := Msg la Net.ROUND_END _ _). set (c' := clear_bridges c1) in *.
  split.
  - apply Forall_app. split; [apply Forall_mono with c sv cl; auto; [now apply same_addr|apply privs_refl]|]. constructor.
    + constructor; try discriminate. intros _. right. exists (length (co_servers c')). split; [lia|]. split; [|split; [now left|]].
      * unfold chain. rewrite S2, (same_addr _ _ S1). cbn [tok mDst]. symmetry. now apply last_chain.
      * cbn [tok mParams]. apply (table_keys c' sv _ [] [("is_start"%str, VBool true)]); [reflexivity|assumption|].
        apply Forall_forall. intros x Hx. rewrite S2. apply kback_co with c; [assumption|]. apply TB. now apply (Permutation_in _ PO).
    + apply Forall_forall. intros m Hm. apply in_map_iff in Hm. destruct Hm as ([p a] & <- & _).
      constructor; cbn [mType mDst mParams]; try discriminate. intros _. exists ord, rs. auto.
  - intros _ NN. exfalso. apply (NN tok); [|reflexivity]. apply in_or_app. right. now left.
Qed.

Lemma step_ext y V a y' : inv S G y V -> ext_inv y -> guard S y V a -> sys_step S H G y a = Some y' -> ext_inv y'.
Proof.
  intros I X GU E. destruct a as [a priv rk|a priv s|i cr sr chal|e|a cmd].
  - destruct GU.
  - cbn [sys_step] in E. destruct (keq a _); [discriminate|]. destruct (mget (y_servers y) a); [discriminate|].
    destruct (mget (y_clients y) a) eqn:EC; [discriminate|]. injection E as <-. destruct X as [XF XT]. unfold ext_inv. cbn [y_coord y_servers y_clients y_msgs]. split.
    + apply Forall_app. split; [|constructor; [apply ext_plain; cbn; tauto|constructor]]. apply Forall_mono with (y_coord y) (y_servers y) (y_clients y); auto.
      intros b kb Eb. exists kb. split; [|reflexivity]. rewrite mget_mset_ne; [assumption|congruence].
    + intros ST NE. apply XT; [assumption|]. intros m Im. apply NE. apply in_or_app. now left.
  - eapply deliver_ext; eassumption.
  - cbn [sys_step] in E. destruct e as [ty p src rn| |fakes ord| |ord rs]; try (destruct GU; fail).
    + cbn [is_loop] in E. destruct (co_step _ _ _ _) as [[c' out]|] eqn:ES; [|discriminate]. injection E as <-.
      pose proof (step_static S H G _ _ _ _ ES) as S1. assert (S2 : co_servers c' = co_servers (y_coord y)) by (apply (co_servers_step S H G _ _ c' out ES); discriminate).
      destruct X as [XF XT]. destruct I as [B P]. unfold ext_inv. cbn [y_coord y_servers y_clients y_msgs].
      cbn [co_step] in ES. unfold begin_round in ES. destruct (negb _); [discriminate|]. unfold announce in ES. cbv zeta in ES.
      set (c1 := set_status _ CO_ANNOUNCE) in ES.
      destruct (first_server c1) as [fa|] eqn:EF.
      2:{ exfalso. injection ES as <- _. apply (b_ne _ _ _ _ _ B). rewrite <- S2. unfold first_server in EF. change (co_servers (set_status c1 CO_MESSAGE)) with (co_servers c1).
          destruct (co_servers c1); [reflexivity|discriminate]. }
      destruct (non_nil (map (fun k => mget (co_bkeys c1) k) ord)) as [keys|] eqn:EK; [|discriminate].
      destruct (non_nil (map (fun k => mget (co_bcomms c1) k) ord)) as [vs|] eqn:EV; [|discriminate]. injection ES as <- <-. split.
      * apply Forall_app. split; [apply Forall_mono with (y_coord y) (y_servers y) (y_clients y); auto; [now apply same_addr|apply privs_refl]|].
        constructor; [|constructor]. constructor; cbn [mType mDst mParams]; try discriminate. intros _. exists 0%nat. split; [lia|]. split; [|split; [left; split; reflexivity|]].
        -- unfold first_server in EF. unfold chain. destruct (co_servers c1) as [|[a0 pk0] l0]; [discriminate|]. cbn in EF |- *. congruence.
        -- intros bk ks _ _. apply Forall_forall. intros x _. apply kback_0.
      * intros ST. discriminate ST.
    + cbn [is_loop co_step begin_vote] in E. injection E as <-. destruct X as [XF XT]. unfold ext_inv. cbn [y_coord y_servers y_clients y_msgs]. split.
      * apply Forall_app. split; [apply Forall_mono with (y_coord y) (y_servers y) (y_clients y); auto; apply privs_refl|].
        apply Forall_forall. intros m Hm. apply ext_plain. rewrite (to_clients_type _ _ _ _ Hm). cbn. tauto.
      * intros ST NE. apply XT; [assumption|]. intros m Im. apply NE. apply in_or_app. now left.
    + cbn [is_loop] in E. destruct (co_step _ _ _ _) as [[c' out]|] eqn:ES; [|discriminate]. injection E as <-. cbn [co_step] in ES.
      destruct GU as (G1 & G2 & G3 & G4 & G5). unfold settled in G2. destruct I as [B P]. rewrite G2 in P. destruct X as [XF XT].
      unfold ext_inv. cbn [y_coord y_servers y_clients y_msgs].
      destruct P as [T A|T i p keys vals GT HT A|T0 T1 K A|T n M1 p keys vals GT HT A].
      * exfalso. pose proof (p1_status _ _ _ _ _ _ _ A) as X. rewrite G1 in X. discriminate.
      * exfalso. pose proof (p2_status _ _ _ _ _ _ _ _ _ _ _ _ _ _ A) as X. rewrite G1 in X. discriminate.
      * apply (end_ext (y_coord y) (y_servers y) (y_clients y) V T0 T1 K ord rs c' out); try assumption. apply XT; [assumption|].
        intros m Im Tm. assert (IC : In m (core (y_msgs y))) by (apply core_in; split; [assumption|unfold inert; rewrite Tm; reflexivity]). rewrite G2 in IC. destruct IC.
      * exfalso. destruct (p4_M _ _ _ _ _ _ _ _ _ _ _ _ _ _ _ A) as [src P]. now apply Permutation_nil in P.
  - cbn [sys_step] in E. destruct (mget (y_clients y) a) as [k|]; [|discriminate].
    destruct (cl_command S G k cmd) as [out|] eqn:EC; [|discriminate]. injection E as <-. apply command_inert in EC.
    destruct X as [XF XT]. unfold ext_inv. cbn [y_coord y_servers y_clients y_msgs]. split.
    + apply Forall_app. split; [assumption|now apply ext_inert].
    + intros ST NE. apply XT; [assumption|]. intros m Im. apply NE. apply in_or_app. now left.
Qed.

Theorem reach_ext y V : reach S H G y V -> ext_inv y.
Proof.
  induction 1 as [self a fb trap gammas l y1 y2 F E M NE E2|y V a y' R IH GU E].
  - pose proof (start_inv S OK H G self a fb trap gammas l y1 y2 F E M NE E2) as [B _].
    cbn [sys_step is_loop co_step co_configure] in E2. injection E2 as <-. unfold ext_inv. cbn [y_coord y_servers y_clients y_msgs] in *.
    rewrite M. cbn [app]. split; [|intros ST; discriminate ST].
    apply Forall_forall. intros m Hm. destruct (to_servers_inv _ _ _ _ Hm) as (b & -> & _).
    constructor; cbn [mType mDst mParams]; try discriminate. intros _. exists (pb_HT (co_pb (y_coord y1))). split; [reflexivity|].
    apply (b_pb _ _ _ _ _ B).
  - apply (step_ext y V a y'); try assumption. now apply (reach_inv S OK H G GOK).
Qed.
End Progress.
