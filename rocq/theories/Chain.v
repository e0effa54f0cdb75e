(** What one server does to the table in an announcement and in a round end, and the
    chain of all servers. *)
From Coq Require Import ZArith Znumtheory Lia List Bool Permutation.
From Coq Require Import Strings.Byte.
From Coq Require String.
From Verif Require Import ZMod Bytes Suite Pedersen ElGamal FujiOkam Equality Codec Maps Net Bridge Client
  Perm SimpleShuffle PairShuffle Server.
Import ListNotations.
Import String.StringSyntax.
Open Scope Z_scope.
Delimit Scope string_scope with str.

(** The message parameters hold this table and base. *)
Definition carries (S : suite) (p : params) (keys vals : list Z) (GT HT : Z) : Prop :=
  get_bytes p "keys"%str = Some (enc_points S keys) /\ get_bytes p "vals"%str = Some (enc_points S vals) /\
  get_bytes p "GT"%str = Some (enc_point S GT) /\ get_bytes p "HT"%str = Some (enc_point S HT).
(** The generator in an announcement; the first server gets none and uses the suite's. *)
Definition carries_g (S : suite) (p : params) (g : Z) : Prop :=
  (has_key p "g"%str = false /\ g = sG S) \/
  (has_key p "g"%str = true /\ get_bytes p "g"%str = Some (enc_point S g)).

(** A table of distinct keys. *)
Record table_ok (S : suite) (keys vals : list Z) (GT HT : Z) : Prop := {
  t_keys : Forall (in_group S) keys;
  t_vals : Forall (in_group S) vals;
  t_nd : NoDup keys;
  t_len : length vals = length keys;
  t_GT : in_group S GT;
  t_HT : in_group S HT
}.

(** Fields a server never changes while a table passes through it. *)
Definition keeps (s s' : server) : Prop :=
  sv_addr s' = sv_addr s /\ sv_coord s' = sv_coord s /\ sv_priv s' = sv_priv s /\ sv_pub s' = sv_pub s /\
  sv_next s' = sv_next s /\ sv_prev s' = sv_prev s.

(** A server whose key map holds only keys it has itself raised to its round key. *)
Record server_ok (S : suite) (s : server) : Prop := {
  s_pub : sv_pub s = pt_mul_base S (sv_priv s);
  s_rk : rel_prime (sv_roundkey s) (sQ S);
  s_km : forall a b, mget (sv_keymap s) a = Some b -> in_group S b /\ a = pt_mul S b (sv_roundkey s)
}.

Lemma lookup_table_params S keys vals GT HT extra p :
  (forall k, In k ["keys"%str; "vals"%str; "GT"%str; "HT"%str] -> lookup p k = None) ->
  carries S (p ++ table_params S keys vals GT HT ++ extra) keys vals GT HT.
Proof.
  intros Hp. unfold carries, get_bytes.
  rewrite (lookup_app p _ "keys"%str), (lookup_app p _ "vals"%str), (lookup_app p _ "GT"%str), (lookup_app p _ "HT"%str)
    by (apply Hp; cbn; tauto). repeat split; reflexivity.
Qed.

Lemma combine_map {A B C D} (f : A -> C) (g : B -> D) l l' :
  combine (map f l) (map g l') = map (fun kv => (f (fst kv), g (snd kv))) (combine l l').
Proof. revert l'. induction l as [|a l IH]; intros [|b l']; cbn; try reflexivity. now rewrite IH. Qed.

Lemma combine_nth_map (ks vs : list Z) pi : length vs = length ks -> (forall j, In j pi -> (j < length ks)%nat) ->
  combine (map (at_ ks) pi) (map (at_ vs) pi) = map (fun j => nth j (combine ks vs) (0, 0)) pi.
Proof.
  intros L Hp. induction pi as [|j r IH]; cbn [map combine]; [reflexivity|].
  rewrite IH by (intros; apply Hp; now right). f_equal. symmetry. unfold at_. apply combine_nth. now symmetry.
Qed.

Lemma perm_combine (ks vs : list Z) pi : length vs = length ks -> Permutation pi (seq 0 (length ks)) ->
  Permutation (combine (map (at_ ks) pi) (map (at_ vs) pi)) (combine ks vs).
Proof.
  intros L HP. rewrite combine_nth_map; [|assumption|].
  - apply Permutation_trans with (map (fun j => nth j (combine ks vs) (0, 0)) (seq 0 (length ks))); [now apply Permutation_map|].
    replace (length ks) with (length (combine ks vs)) by (rewrite combine_length; lia).
    generalize (combine ks vs). clear. intros l.
    replace (map (fun j => nth j l (0, 0)) (seq 0 (length l))) with l; [reflexivity|].
    apply (nth_ext _ _ (0, 0) (0, 0)); [now rewrite map_length, seq_length|]. intros n Hn.
    rewrite nth_indep with (n := n) (d' := nth 0 l (0, 0)) (l := map _ _) by (now rewrite map_length, seq_length).
    rewrite (map_nth (fun j => nth j l (0, 0))), seq_nth by assumption. reflexivity.
  - intros j Hj. apply (Permutation_in _ HP) in Hj. apply in_seq in Hj. lia.
Qed.

Lemma scale_vals_spec S n vals E : length vals = n ->
  scale_vals S n vals E = Some (map (fun v => pt_mul S v E) vals).
Proof.
  intros <-. unfold scale_vals. rewrite Nat.ltb_irrefl. f_equal. unfold tab.
  transitivity (map (fun v => pt_mul S v E) (map (at_ vals) (seq 0 (length vals)))); [now rewrite map_map|now rewrite map_at_seq].
Qed.

Lemma fold_mset_other (ks vs : list Z) a : forall is m, ~ In a (map (at_ ks) is) ->
  mget (fold_left (fun m i => mset m (at_ ks i) (at_ vs i)) is m) a = mget m a.
Proof.
  induction is as [|i r IH]; intros m N; cbn [fold_left]; [reflexivity|]. cbn [map In] in N.
  rewrite IH by tauto. apply mget_mset_ne. tauto.
Qed.

Lemma ending_map_combine {A} (keys : list Z) (vals : list A) : NoDup keys -> length vals = length keys ->
  ending_map keys vals = Some (combine keys vals).
Proof.
  intros ND L. unfold ending_map. rewrite L, Nat.ltb_irrefl. f_equal.
  assert (X : forall (ks : list Z) (vs : list A) m, length vs = length ks -> NoDup (mkeys m ++ ks) ->
    fold_left (fun m kv => mset m (fst kv) (snd kv)) (combine ks vs) m = m ++ combine ks vs).
  { clear. induction ks as [|k ks IH]; intros [|v vs] m L ND; cbn in L; try lia; cbn [combine fold_left]; [now rewrite app_nil_r|].
    cbn [fst snd]. rewrite mkeys_mset_new.
    - rewrite IH; [now rewrite <- app_assoc|lia|]. unfold mkeys in *. rewrite map_app, <- app_assoc. exact ND.
    - intros HI. apply NoDup_remove_2 in ND. apply ND. apply in_or_app. now left. }
  now apply X.
Qed.

Section Chain.
Context (S : suite) (OK : suite_ok S) (H : oracle).

Lemma NoDup_pt_mul keys k : rel_prime k (sQ S) -> Forall (in_group S) keys -> NoDup keys ->
  NoDup (map (fun x => pt_mul S x k) keys).
Proof.
  intros RP F ND. induction ND as [|a l NI ND IH]; cbn [map]; [constructor|].
  inversion F as [|? ? Fa Fl]; subst. constructor; [|now apply IH].
  rewrite in_map_iff. intros (b & E & Hb). apply NI. rewrite Forall_forall in Fl.
  apply (pt_mul_inj S OK) in E; auto. now subst.
Qed.

Lemma Forall_pt_mul l k : Forall (in_group S) l -> Forall (in_group S) (map (fun x => pt_mul S x k) l).
Proof. intros F. apply Forall_map. eapply Forall_impl; [|exact F]. intros a Ha. unfold pt_mul. in_grp. Qed.

Lemma carries_dec p keys vals GT HT : carries S p keys vals GT HT -> table_ok S keys vals GT HT ->
  exists bk bv bG bH,
  get_bytes p "keys"%str = Some bk /\ dec_points S bk = Some keys /\
  get_bytes p "vals"%str = Some bv /\ dec_points S bv = Some vals /\
  get_bytes p "GT"%str = Some bG /\ dec_point S bG = Some GT /\
  get_bytes p "HT"%str = Some bH /\ dec_point S bH = Some HT.
Proof.
  intros (C1 & C2 & C3 & C4) [T1 T2 T3 T4 T5 T6]. do 4 eexists.
  rewrite C1, C2, C3, C4. split; [reflexivity|]. split; [now apply dec_enc_points|].
  split; [reflexivity|]. split; [now apply dec_enc_points|]. split; [reflexivity|]. split; [now apply dec_enc_point|].
  split; [reflexivity|now apply dec_enc_point].
Qed.

Lemma perm_table_ok keys vals GT HT fk fv : table_ok S keys vals GT HT ->
  length fk = length keys -> length fv = length keys ->
  Permutation (combine fk fv) (combine keys vals) -> table_ok S fk fv GT HT.
Proof.
  intros [T1 T2 T3 T4 T5 T6] L1 L2 HP.
  assert (M1 : forall k v : list Z, length v = length k -> map fst (combine k v) = k).
  { clear. induction k as [|a k IH]; intros [|b v] L; cbn in *; try lia; [reflexivity|]. f_equal. apply IH. lia. }
  assert (M2 : forall k v : list Z, length v = length k -> map snd (combine k v) = v).
  { clear. induction k as [|a k IH]; intros [|b v] L; cbn in *; try lia; [reflexivity|]. f_equal. apply IH. lia. }
  assert (P1 : Permutation fk keys).
  { rewrite <- (M1 fk fv), <- (M1 keys vals) by lia. now apply Permutation_map. }
  assert (P2 : Permutation fv vals).
  { rewrite <- (M2 fk fv), <- (M2 keys vals) by lia. now apply Permutation_map. }
  constructor; try assumption.
  - eapply Permutation_Forall; [symmetry; exact P1|assumption].
  - eapply Permutation_Forall; [symmetry; exact P2|assumption].
  - eapply Permutation_NoDup; [symmetry; exact P1|assumption].
  - lia.
Qed.

Lemma mix_table s keys vals GT HT rn fk fv extra : sv_pub s = pt_mul_base S (sv_priv s) ->
  table_ok S keys vals GT HT -> mix S H s keys vals rn = Some (fk, fv, extra) ->
  Permutation (combine fk fv) (combine keys vals) /\ table_ok S fk fv GT HT /\ extra_ok S H extra.
Proof.
  intros Hp T E. destruct T as [T1 T2 T3 T4 T5 T6] eqn:ET.
  destruct (mix_spec S OK H s keys vals rn fk fv extra) as (X & pi & HP & E1 & E2); try assumption.
  - rewrite Hp. unfold pt_mul_base, pt_mul. in_grp.
  - now apply all_group_forall.
  - assert (PC : Permutation (combine fk fv) (combine keys vals)) by (subst; now apply perm_combine).
    split; [assumption|]. split; [|assumption]. apply (perm_table_ok keys vals); try assumption.
    + subst. rewrite map_length, (Permutation_length HP), seq_length. reflexivity.
    + subst. rewrite map_length, (Permutation_length HP), seq_length. reflexivity.
Qed.

(** One server, announcement: AnonServerHandler.go:240-336. *)
Lemma ann_step s p rn g keys vals GT HT s' out :
  server_ok S s -> carries S p keys vals GT HT -> carries_g S p g -> in_group S g -> table_ok S keys vals GT HT ->
  sv_announcement S H s p rn = Some (s', out) ->
  exists fk fv extra,
    out = [Msg (sv_next s) ANNOUNCEMENT (("g"%str, VBytes (enc_point S (pt_mul S g (sv_roundkey s)))) ::
             table_params S fk fv (pt_mul S GT (srE rn)) (pt_mul S HT (srE rn)) ++ extra) (sv_addr s)] /\
    Permutation (combine fk fv)
      (map (fun kv => (pt_mul S (fst kv) (sv_roundkey s), pt_mul S (snd kv) (srE rn))) (combine keys vals)) /\
    table_ok S fk fv (pt_mul S GT (srE rn)) (pt_mul S HT (srE rn)) /\ extra_ok S H extra /\
    keeps s s' /\ server_ok S s' /\ sv_roundkey s' = sv_roundkey s /\
    (forall k, In k keys -> mget (sv_keymap s') (pt_mul S k (sv_roundkey s)) = Some k) /\
    (forall a, mget (sv_keymap s) a <> None -> mget (sv_keymap s') a <> None) /\
    sv_G s' = sv_G s /\ sv_pb s' = sv_pb s /\ sv_ekeys s' = sv_ekeys s /\ sv_ecomms s' = sv_ecomms s.
Proof.
  intros [O1 O2 O3] C Cg Hg T E. destruct (carries_dec p keys vals GT HT C T) as (bk & bv & bG & bH & A1 & A2 & A3 & A4 & A5 & A6 & A7 & A8).
  unfold sv_announcement in E. rewrite A1, A2, A3, A4, A5, A6, A7, A8 in E.
  assert (EG : (if has_key p "g"%str
     then match get_bytes p "g"%str with Some bg => match verify_neff S H p with
        | Some _ => Some (pt_mul S (dec_point_unchecked bg) (sv_roundkey s)) | None => None end | None => None end
     else Some (pt_mul_base S (sv_roundkey s))) = None \/
     (if has_key p "g"%str
     then match get_bytes p "g"%str with Some bg => match verify_neff S H p with
        | Some _ => Some (pt_mul S (dec_point_unchecked bg) (sv_roundkey s)) | None => None end | None => None end
     else Some (pt_mul_base S (sv_roundkey s))) = Some (pt_mul S g (sv_roundkey s))).
  { destruct Cg as [[-> ->]|[-> ->]]; [now right|]. destruct (verify_neff S H p); [right|now left].
    now rewrite (dec_enc_unchecked S g Hg). }
  destruct EG as [EG|EG]; rewrite EG in E; [discriminate|]. clear EG.
  destruct T as [T1 T2 T3 T4 T5 T6].
  rewrite (scale_vals_spec S (length keys) vals (srE rn) T4) in E.
  set (nk := map (fun k => pt_mul S k (sv_roundkey s)) keys) in *.
  set (nv := map (fun v => pt_mul S v (srE rn)) vals) in *.
  destruct (mix S H s nk nv rn) as [[[fk fv] extra]|] eqn:EM; [|discriminate]. injection E as <- <-.
  assert (TN : table_ok S nk nv (pt_mul S GT (srE rn)) (pt_mul S HT (srE rn))).
  { constructor.
    - now apply Forall_pt_mul.
    - now apply Forall_pt_mul.
    - now apply NoDup_pt_mul.
    - unfold nk, nv. rewrite !map_length. assumption.
    - unfold pt_mul. in_grp.
    - unfold pt_mul. in_grp. }
  destruct (mix_table s nk nv _ _ rn fk fv extra O1 TN EM) as (P1 & P2 & P3).
  exists fk, fv, extra. split; [reflexivity|]. split; [now rewrite <- (combine_map (fun k => pt_mul S k (sv_roundkey s)) (fun v => pt_mul S v (srE rn)))|]. split; [assumption|]. split; [assumption|].
  assert (LN : length nk = length keys) by apply map_length.
  assert (AT : forall i, (i < length keys)%nat -> at_ nk i = pt_mul S (at_ keys i) (sv_roundkey s)).
  { intros i Hi. unfold nk, at_. rewrite nth_indep with (d' := (fun k => pt_mul S k (sv_roundkey s)) 0) by (now rewrite map_length).
    exact (map_nth (fun k => pt_mul S k (sv_roundkey s)) keys 0 i). }
  assert (KM : forall k, In k keys -> mget (fold_left (fun m i => mset m (at_ nk i) (at_ keys i)) (seq 0 (length keys)) (sv_keymap s))
     (pt_mul S k (sv_roundkey s)) = Some k).
  { intros k Hk. destruct (In_nth _ _ 0 Hk) as (i & Hi & Ei). fold (at_ keys i) in Ei. rewrite <- Ei at 1. rewrite <- AT by assumption.
    rewrite fold_mset_get; [now rewrite Ei| |apply in_seq; lia].
    rewrite <- LN, map_at_seq. apply TN. }
  assert (KO : forall a, ~ In a nk -> mget (fold_left (fun m i => mset m (at_ nk i) (at_ keys i)) (seq 0 (length keys)) (sv_keymap s)) a
     = mget (sv_keymap s) a).
  { intros a Ha. apply fold_mset_other. now rewrite <- LN, map_at_seq. }
  assert (KC : forall a, In a nk -> exists k, In k keys /\ a = pt_mul S k (sv_roundkey s)).
  { intros a Ha. apply in_map_iff in Ha. destruct Ha as (k & <- & Hk). eauto. }
  split; [repeat split|]. split.
  { constructor; cbn [sv_pub sv_priv sv_roundkey sv_keymap]; try assumption. intros a b Eab.
    destruct (in_dec Z.eq_dec a nk) as [Ha|Ha].
    - destruct (KC a Ha) as (k & Hk & ->). rewrite KM in Eab by assumption. injection Eab as <-.
      rewrite Forall_forall in T1. split; [now apply T1|reflexivity].
    - rewrite KO in Eab by assumption. now apply O3. }
  cbn [sv_roundkey sv_keymap]. split; [reflexivity|]. split; [assumption|]. split; [|repeat split].
  intros a Ha. destruct (in_dec Z.eq_dec a nk) as [Hn|Hn].
  - destruct (KC a Hn) as (k & Hk & ->). now rewrite KM.
  - now rewrite KO.
Qed.

(** One server, round end: AnonServerHandler.go:80-175. *)
Lemma end_step s p rn keys vals GT HT okeys s' out :
  server_ok S s -> carries S p keys vals GT HT -> table_ok S keys vals GT HT ->
  rel_prime (srKey rn) (sQ S) ->
  Forall (in_group S) okeys -> keys = map (fun k => pt_mul S k (sv_roundkey s)) okeys ->
  sv_round_end S H s p rn = Some (s', out) ->
  exists fk fv extra,
    out = [Msg (sv_prev s) ROUND_END
             (table_params S fk fv (pt_mul S GT (srE rn)) (pt_mul S HT (srE rn)) ++ extra) (sv_addr s)] /\
    Permutation (combine fk fv)
      (map (fun kv => (fst kv, pt_mul S (snd kv) (srE rn))) (combine okeys vals)) /\
    table_ok S fk fv (pt_mul S GT (srE rn)) (pt_mul S HT (srE rn)) /\ extra_ok S H extra /\
    keeps s s' /\ server_ok S s' /\ sv_roundkey s' = srKey rn /\ sv_keymap s' = [] /\
    sv_G s' = sv_G s /\ sv_pb s' = sv_pb s /\ sv_ekeys s' = sv_ekeys s /\ sv_ecomms s' = sv_ecomms s.
Proof.
  intros [O1 O2 O3] C T RP FO EK E. destruct (carries_dec p keys vals GT HT C T) as (bk & bv & bG & bH & A1 & A2 & A3 & A4 & A5 & A6 & A7 & A8).
  unfold sv_round_end in E. rewrite A1, A2, A3, A4, A5, A6, A7, A8 in E.
  destruct (if has_key p "is_start"%str then Some tt else verify_neff S H p); [|discriminate].
  destruct T as [T1 T2 T3 T4 T5 T6].
  rewrite (scale_vals_spec S (length keys) vals (srE rn) T4) in E.
  set (nv := map (fun v => pt_mul S v (srE rn)) vals) in *.
  destruct (non_nil (map (fun k => mget (sv_keymap s) k) keys)) as [nk|] eqn:EN; [|discriminate].
  assert (NK : nk = okeys).
  { unfold non_nil in EN. apply dec_all_spec in EN. clear - OK EN EK O2 O3 FO. subst keys. rewrite map_map in EN.
    revert nk EN. induction okeys as [|k l IH]; intros nk EN; inversion EN as [|? b ? nk' E1 E2]; subst; [reflexivity|].
    inversion FO as [|? ? Fk Fl]; subst. f_equal; [|now apply IH].
    destruct (O3 _ _ E1) as [Gb Eb]. symmetry. now apply (pt_mul_inj S OK) in Eb. }
  subst nk. destruct (mix S H s okeys nv rn) as [[[fk fv] extra]|] eqn:EM; [|discriminate]. injection E as <- <-.
  assert (TN : table_ok S okeys nv (pt_mul S GT (srE rn)) (pt_mul S HT (srE rn))).
  { constructor.
    - assumption.
    - now apply Forall_pt_mul.
    - subst keys. now apply NoDup_map_inv in T3.
    - unfold nv. subst keys. rewrite !map_length in *. assumption.
    - unfold pt_mul. in_grp.
    - unfold pt_mul. in_grp. }
  destruct (mix_table s okeys nv _ _ rn fk fv extra O1 TN EM) as (P1 & P2 & P3).
  exists fk, fv, extra. split; [reflexivity|]. split.
  { rewrite <- (combine_map (fun k => k) (fun v => pt_mul S v (srE rn))). now rewrite map_id. }
  split; [assumption|]. split; [assumption|]. split; [repeat split|]. split; [|repeat split].
  constructor; cbn [sv_pub sv_priv sv_roundkey sv_keymap]; try assumption. discriminate.
Qed.
End Chain.
