(** No message of the round protocol stops the process that handles it, and rounds get
    done: what a delivery needs, and how many there can be. *)
From Coq Require Import ZArith Znumtheory Lia List Bool Permutation.
From Coq Require Import Strings.Byte.
From Coq Require String.
From Verif Require Import ZMod Bytes Suite Spec Pedersen ElGamal FujiOkam Equality Codec Maps Net Bridge Client
  Perm SimpleShuffle PairShuffle Server Coordinator History System Chain Prop_Pedersen Prop_Codec Prop_Coord Prop_Topology Prop_Chain Round RoundInv
  Prop_Round Session Signing Progress.
Import ListNotations.
Import String.StringSyntax.
Open Scope Z_scope.
Delimit Scope string_scope with str.

(** ** Specification *)
(** The keys the server mixes when it handles the table in [m]: raised to its round key
    on the way down, looked up in its key map on the way back. *)
Definition mixed_keys (S : suite) (s : server) (m : msg) : list Z :=
  match (olet bk := get_bytes (mParams m) "keys"%str in dec_points S bk) with
  | Some keys => if mType m =? ANNOUNCEMENT then map (fun k => pt_mul S k (sv_roundkey s)) keys
                 else map (fun k => or0 (mget (sv_keymap s) k)) keys
  | None => []
  end.
(** The server's draws let it finish the proof of its shuffle: what C32 says about when
    they do. *)
Definition proof_made (S : suite) (H : oracle) (s : server) (m : msg) (sr : sv_rand) : Prop :=
  let Y := mixed_keys S s m in let k := length Y in
  (k <= 1)%nat \/ ps_prove S H k (draw_perm (srU sr) k) (sG S) (sv_pub s) (srBeta sr)
                    (tab k (fun _ => pt_mul_base S (sv_priv s))) Y (srPs sr) <> None.
Definition draws_ok (S : suite) (H : oracle) (y : sys) (m : msg) (sr : sv_rand) : Prop :=
  (mType m = ANNOUNCEMENT \/ mType m = Net.ROUND_END) ->
  forall s, mget (y_servers y) (mDst m) = Some s -> proof_made S H s m sr.
(** Votes were only cast for pseudonyms of the round's table. *)
Definition votes_in_table (c : coord) : Prop :=
  forall nym, mget (co_diffs c) nym <> None -> mget (co_ekeys c) nym <> None.

Section Live.
Context (S : suite) (OK : suite_ok S) (H : oracle) (G : gob) (GOK : gob_ok G).

Lemma mix_made s nk nv rn : in_group S (sv_pub s) -> all_group S nk -> NoDup nk -> length nv = length nk ->
  ((length nk <= 1)%nat \/ ps_prove S H (length nk) (draw_perm (srU rn) (length nk)) (sG S) (sv_pub s) (srBeta rn)
      (tab (length nk) (fun _ => pt_mul_base S (sv_priv s))) nk (srPs rn) <> None) ->
  mix S H s nk nv rn <> None.
Proof.
  intros Hpub GK ND LV PM. unfold mix. destruct (Nat.leb_spec (length nk) 1) as [L1|L1]; [discriminate|].
  destruct PM as [PM|PM]; [lia|]. set (k := length nk) in *. set (Xori := tab k (fun _ => pt_mul_base S (sv_priv s))) in *.
  assert (LX : length Xori = k) by apply tab_length.
  assert (HG : in_group S (sG S)) by (now apply in_group_G).
  destruct (shuffle S (sG S) (sv_pub s) Xori nk (srU rn) (srBeta rn)) as [sh|] eqn:ES.
  2:{ unfold shuffle in ES. rewrite LX in ES. fold k in ES. rewrite Nat.eqb_refl in ES. cbn [negb] in ES. destruct (Nat.leb_spec k 1); [lia|discriminate]. }
  destruct (shuffle_spec S _ _ _ _ _ _ _ HG Hpub ES) as (HP & LY & K & Epi & _). rewrite LX in *. rewrite Epi.
  destruct (ps_prove _ _ _ _ _ _ _ _ _ _) as [pf|]; [|congruence].
  rewrite (convert_spec S OK _ _ _ _ _ _ _ HG Hpub GK ES).
  rewrite rebind_perm by assumption. unfold non_nil.
  rewrite (dec_all_fun _ (fun o => match o with Some v => v | None => 0 end)); [discriminate|].
  intros x Hx. apply in_map_iff in Hx. destruct Hx as (j & <- & _). reflexivity.
Qed.

Lemma non_nil_all {A} (f : A -> option Z) l : (forall x, In x l -> f x <> None) -> non_nil (map f l) <> None.
Proof.
  intros F. unfold non_nil. induction l as [|a l IH]; cbn [map dec_all]; [discriminate|].
  destruct (f a) as [v|] eqn:E; [|exfalso; apply (F a); [now left|assumption]].
  destruct (dec_all (fun x => x) (map f l)); [discriminate|]. exfalso. apply IH; [|reflexivity]. intros x Hx. apply F. now right.
Qed.

Lemma find_index_None {A} (keys : list Z) (vals : list A) nym : length vals = length keys -> 0 <= find_index keys nym ->
  nth_error vals (Z.to_nat (find_index keys nym)) <> None.
Proof.
  intros L I. apply find_index_in in I. apply Prop_Coord.find_index_nth in I. apply nth_error_lt in I.
  apply nth_error_Some. lia.
Qed.

(** ** Every handler *)
Lemma live_coord c sv cl V m L cr : base S c sv cl V -> phase S G c sv cl (m :: L) V -> msg_ext S H G c sv cl m ->
  mDst m = co_addr c -> range_order (crDiffs cr) (co_diffs c) -> (mType m = Net.ROUND_END -> votes_in_table c) ->
  co_handle S G c (mType m) (mParams m) (mSrc m) cr <> None.
Proof.
  intros B P XM Hd RO VT. pose proof (self_not_cl _ _ _ _ _ B) as NC.
  destruct P as [T A|T i p keys vals GT HT A|T0 T1 K A|T n M1 p keys vals GT HT A].
  - exfalso. pose proof (p1_msg _ _ _ _ _ _ _ A) as F. inversion F as [|? ? [[_ X]|[[_ X]|[_ X]]] _]; subst; rewrite Hd in X; [|congruence|congruence].
    apply (in_chain _ _ _ _ _ _ B) in X. destruct X. congruence.
  - pose proof (p2_M _ _ _ _ _ _ _ _ _ _ _ _ _ _ A) as [src EM].
    assert (Em : m = Msg (nth i (map fst (co_servers c)) (co_addr c)) ANNOUNCEMENT p src) by congruence. subst m. clear EM. cbn [mDst mType mParams mSrc] in *.
    destruct (nth_chain S c sv cl V i B (p2_i _ _ _ _ _ _ _ _ _ _ _ _ _ _ A)) as [[-> E1]|(a & s & E1 & _ & _ & E2 & _)]; [|congruence].
    change (co_handle S G c ANNOUNCEMENT p src cr) with (co_announcement S c p).
    destruct (x_an _ _ _ _ _ _ _ XM eq_refl) as (i' & L1 & L2 & HK & _). cbn [mDst mParams] in *. unfold chain in *. rewrite E1 in L2.
    assert (i' = length (co_servers c)) by (apply (pos_self S c sv cl V i' B); auto). subst i'.
    assert (HG : has_key p "g"%str = true).
    { destruct HK as [[Z _]|[HK _]]; [|assumption]. exfalso. apply (b_ne _ _ _ _ _ B). now apply length_zero_iff_nil. }
    destruct A as [A1 A2 A3 A4 A5 A6 A7 A8 A9 A10 A11].
    destruct (carries_dec S OK p keys vals GT HT A6 A8) as (bk & bv & bG & bH & D1 & D2 & D3 & D4 & D5 & D6 & D7 & D8).
    unfold co_announcement. rewrite D1, D2, D3, D4, D5, D6, D7, D8.
    destruct A7 as [[A7 _]|[_ A7]]; [congruence|]. rewrite A7, (dec_enc_point S OK) by (unfold pt_mul_base, pt_mul; in_grp).
    unfold ending_map. rewrite (t_len _ _ _ _ _ A8). rewrite (proj2 (Nat.ltb_ge _ _) (Nat.le_refl _)). discriminate.
  - pose proof (p3_msg _ _ _ _ _ _ _ _ _ A) as F. inversion F as [|? ? D _]; subst.
    destruct D as [b p src D1 D2|b kb D1|b d kb pc src D1 D2 D3|b kb r g src D1 D2 D3 D4]; cbn [mDst mType mParams mSrc cl_register] in *.
    + exfalso. subst b. destruct D2 as [D2|D2]; [|congruence]. apply (in_chain _ _ _ _ _ _ B) in D2. destruct D2. congruence.
    + match goal with |- co_handle S G c _ ?pp ?ss _ <> _ => change (co_client_register S c pp ss cr <> None) end.
      unfold co_client_register, get_bytes. cbn [lookup String.eqb Ascii.eqb Bool.eqb].
      destruct (ped_commit S (co_pb c) (sec_of_int S starting_credit) (crR cr)) as [pc r].
      unfold send, first_server. pose proof (b_ne _ _ _ _ _ B) as NE. destruct (co_servers c) as [|[a0 pk0] l0]; [congruence|].
      rewrite (p3_G _ _ _ _ _ _ _ _ _ A). discriminate.
    + match goal with |- co_handle S G c _ ?pp ?ss _ <> _ => change (co_client_confirm S G c pp <> None) end.
      unfold co_client_confirm. unfold get_bytes, get_str. cbn [lookup String.eqb Ascii.eqb Bool.eqb].
      rewrite (dec_enc_point S OK _ D3). discriminate.
    + congruence.
  - destruct (end_token _ _ _ _ _ _ _ _ _ _ _ _ _ _ _ _ B A) as (src & -> & PM); [now rewrite Hd|]. cbn [mDst mType mParams mSrc] in *.
    change (co_handle S G c Net.ROUND_END p src cr) with (co_round_end S G c p cr).
    destruct A as [A1 A2 A3 A4 A5 A6 A7 A8 A9 A10 A11].
    destruct (carries_dec S OK p keys vals GT HT A6 A7) as (bk & bv & bG & bH & D1 & D2 & D3 & D4 & D5 & D6 & D7 & D8).
    unfold co_round_end. rewrite D1, D2, D3, D4, D5, D6, D7, D8.
    unfold ending_map. rewrite (t_len _ _ _ _ _ A7). rewrite (proj2 (Nat.ltb_ge _ _) (Nat.le_refl _)).
    pose proof (non_nil_all (fun k => mget (co_ekeys c) k) (crDiffs cr)) as X. cbv zeta.
    destruct (non_nil (map (fun k => mget (co_ekeys c) k) (crDiffs cr))); [discriminate|]. exfalso. apply X; [|reflexivity].
    intros x Hx. apply VT; [reflexivity|]. apply (Permutation_in _ RO) in Hx. destruct (keys_mget _ _ Hx) as (v & ->). discriminate.
Qed.

Lemma live_server c sv cl V m L s sr : base S c sv cl V -> phase S G c sv cl (m :: L) V -> msg_ext S H G c sv cl m ->
  mget sv (mDst m) = Some s -> (mType m = ANNOUNCEMENT \/ mType m = Net.ROUND_END -> proof_made S H s m sr) ->
  sv_handle S H G s (mType m) (mParams m) (mSrc m) sr <> None.
Proof.
  intros B P XM Hs PM.
  assert (NC : mget cl (mDst m) = None).
  { destruct (mget cl (mDst m)) as [k|] eqn:Ek; [|reflexivity]. exfalso.
    pose proof (cl_not_sv S c sv cl V (mDst m) B) as X. rewrite X in Hs; [discriminate|congruence]. }
  assert (NS : mDst m <> co_addr c) by (intros E; pose proof (b_self _ _ _ _ _ B); congruence).
  destruct P as [T A|T i p keys vals GT HT A|T0 T1 K A|T n M1 p keys vals GT HT A].
  - pose proof (p1_msg _ _ _ _ _ _ _ A) as F. inversion F as [|? ? [[TY _]|[[_ X]|[_ X]]] _]; subst; [|congruence|congruence].
    destruct (x_h _ _ _ _ _ _ _ XM TY) as (h & E1 & Gh). rewrite TY.
    change (sv_handle S H G s BCAST_PEDERSEN_H (mParams m) (mSrc m) sr) with (sv_pedersen_h S s (mParams m)).
    unfold sv_pedersen_h. rewrite E1, (dec_enc_point S OK _ Gh). discriminate.
  - pose proof (p2_M _ _ _ _ _ _ _ _ _ _ _ _ _ _ A) as [src EM].
    assert (Em : m = Msg (nth i (map fst (co_servers c)) (co_addr c)) ANNOUNCEMENT p src) by congruence. subst m. clear EM. cbn [mDst mType mParams mSrc] in *.
    destruct (nth_chain S c sv cl V i B (p2_i _ _ _ _ _ _ _ _ _ _ _ _ _ _ A)) as [[_ E1]|(a & s0 & E1 & Ei & _)]; [congruence|].
    change (sv_handle S H G s ANNOUNCEMENT p src sr) with (sv_announcement S H s p sr). rewrite E1 in *.
    destruct (b_link S c sv cl V B i a s Ei Hs) as (_ & _ & [SP SR _]).
    destruct (x_an _ _ _ _ _ _ _ XM eq_refl) as (i' & L1 & L2 & HK & _). cbn [mDst mParams] in *.
    destruct A as [A1 A2 A3 A4 A5 A6 A7 A8 A9 A10 A11].
    destruct (carries_dec S OK p keys vals GT HT A6 A8) as (bk & bv & bG & bH & D1 & D2 & D3 & D4 & D5 & D6 & D7 & D8).
    specialize (PM (or_introl eq_refl)). unfold proof_made, mixed_keys in PM. cbn [mParams mType] in PM. rewrite D1, D2 in PM.
    change (ANNOUNCEMENT =? ANNOUNCEMENT) with true in PM. cbv zeta iota in PM.
    unfold sv_announcement. rewrite D1, D2, D3, D4, D5, D6, D7, D8. cbv zeta.
    assert (X : exists g, (if has_key p "g"%str then olet bg := get_bytes p "g"%str in olet _ := verify_neff S H p in
        Some (pt_mul S (dec_point_unchecked bg) (sv_roundkey s)) else Some (pt_mul_base S (sv_roundkey s))) = Some g).
    { destruct HK as [[_ ->]|[HK VN]]; [eauto|]. rewrite HK, VN. destruct A7 as [[A7 _]|[_ A7]]; [congruence|]. rewrite A7. eauto. }
    destruct X as (g & ->). unfold scale_vals. rewrite (t_len _ _ _ _ _ A8). rewrite (proj2 (Nat.ltb_ge _ _) (Nat.le_refl _)).
    match goal with |- context [mix S H s ?nk ?nv sr] => pose proof (mix_made s nk nv sr) as MM; destruct (mix S H s nk nv sr) as [[[fk fv] ex]|]; [discriminate|exfalso; apply MM; try reflexivity] end.
    + rewrite SP. unfold pt_mul_base, pt_mul. in_grp.
    + apply all_group_forall. apply Forall_forall. intros x Hx. apply in_map_iff in Hx. destruct Hx as (k & <- & Ik).
      pose proof (t_keys _ _ _ _ _ A8) as FK. rewrite Forall_forall in FK. specialize (FK k Ik). unfold pt_mul. in_grp.
    + apply (NoDup_pt_mul S OK); auto; apply A8.
    + now rewrite tab_length, map_length.
    + exact PM.
  - pose proof (p3_msg _ _ _ _ _ _ _ _ _ A) as F. inversion F as [|? ? D _]; subst.
    destruct D as [b p src D1 D2|b kb D1|b d kb pc src D1 D2 D3|b kb r g src D1 D2 D3 D4]; cbn [mDst mType mParams mSrc cl_register] in *.
    + change (sv_finalize S s p <> None). destruct D1 as (keys & vals & g & F1 & F2 & F3 & F4 & F5 & F6).
      destruct (carries_dec S OK p keys vals _ _ F3 F4) as (bk & bv & bG & bH & Q1 & Q2 & Q3 & Q4 & Q5 & Q6 & Q7 & Q8).
      unfold sv_finalize. rewrite F2, Q1, Q2, Q3, Q4, Q5, Q6, Q7, Q8.
      rewrite (p3_G _ _ _ _ _ _ _ _ _ A) in F1. injection F1 as <-.
      rewrite (dec_enc_point S OK) by (unfold pt_mul_base, pt_mul; in_grp).
      unfold ending_map. rewrite (t_len _ _ _ _ _ F4). rewrite (proj2 (Nat.ltb_ge _ _) (Nat.le_refl _)). discriminate.
    + exfalso. destruct (b_cl _ _ _ _ _ B b kb D1) as (_ & _ & X & _). congruence.
    + match goal with |- sv_handle S H G s _ ?pp _ _ <> _ => change (sv_client_register S s pp <> None) end.
      unfold sv_client_register, get_bytes, get_str. cbn [lookup String.eqb Ascii.eqb Bool.eqb].
      rewrite (dec_enc_point S OK _ D2). discriminate.
    + congruence.
  - destruct (end_token _ _ _ _ _ _ _ _ _ _ _ _ _ _ _ _ B A NC) as (src & -> & _). cbn [mDst mType mParams mSrc] in *.
    destruct (before_chain S c sv cl V n B (p4_n _ _ _ _ _ _ _ _ _ _ _ _ _ _ _ A)) as [[-> E1]|(j & a & s0 & -> & E1 & Ej & _)]; [congruence|].
    change (sv_handle S H G s Net.ROUND_END p src sr) with (sv_round_end S H s p sr). rewrite E1 in *.
    destruct (x_re _ _ _ _ _ _ _ XM eq_refl) as [[X _]|(n & L1 & L2 & VN & KB)]; cbn [mDst mParams] in *; [congruence|].
    assert (n = Datatypes.S j) by (apply (end_pos_server S c sv cl V n j a B); auto). subst n.
    destruct A as [A1 A2 A3 A4 A5 A6 A7 A8 A9 A10 A11].
    destruct (b_link S c sv cl V B j a s Ej Hs) as (_ & _ & SO).
    destruct (carries_dec S OK p keys vals GT HT A6 A7) as (bk & bv & bG & bH & D1 & D2 & D3 & D4 & D5 & D6 & D7 & D8).
    pose proof (KB _ _ D1 D2) as KK. rewrite Forall_forall in KK.
    assert (KM : forall k, In k keys -> exists k', mget (sv_keymap s) k = Some k' /\ in_group S k' /\ k = pt_mul S k' (sv_roundkey s)).
    { intros k Ik. specialize (KK k Ik). apply (kback_succ _ _ _ _ _ Ej) in KK. destruct KK as (s2 & k' & Y1 & Y2 & _).
      assert (s2 = s) by congruence. subst s2. exists k'. destruct SO as [_ _ SK]. destruct (SK _ _ Y2). auto. }
    set (nk := map (fun k => or0 (mget (sv_keymap s) k)) keys).
    assert (EN : non_nil (map (fun k => mget (sv_keymap s) k) keys) = Some nk).
    { unfold non_nil, nk. rewrite (dec_all_fun _ or0).
      - now rewrite map_map.
      - intros x Hx. apply in_map_iff in Hx. destruct Hx as (k & <- & Ik). destruct (KM k Ik) as (k' & -> & _). reflexivity. }
    assert (BK : map (fun k => pt_mul S k (sv_roundkey s)) nk = keys).
    { unfold nk. rewrite map_map. rewrite <- (map_id keys) at 2. apply map_ext_in. intros k Ik. destruct (KM k Ik) as (k' & -> & _ & ->). reflexivity. }
    specialize (PM (or_intror eq_refl)). unfold proof_made, mixed_keys in PM. cbn [mParams mType] in PM. rewrite D1, D2 in PM.
    change (Net.ROUND_END =? ANNOUNCEMENT) with false in PM. cbv zeta iota in PM. fold nk in PM.
    unfold sv_round_end. rewrite D1, D2, D3, D4, D5, D6, D7, D8. cbv zeta.
    assert (X : (if has_key p "is_start"%str then Some tt else verify_neff S H p) = Some tt).
    { destruct VN as [->| ->]; [reflexivity|now destruct (has_key p "is_start"%str)]. }
    rewrite X. unfold scale_vals. rewrite (t_len _ _ _ _ _ A7). rewrite (proj2 (Nat.ltb_ge _ _) (Nat.le_refl _)). rewrite EN.
    match goal with |- context [mix S H s ?nk ?nv sr] => pose proof (mix_made s nk nv sr) as MM; destruct (mix S H s nk nv sr) as [[[fk fv] ex]|]; [discriminate|exfalso; apply MM; try reflexivity] end.
    + destruct SO as [SP _ _]. rewrite SP. unfold pt_mul_base, pt_mul. in_grp.
    + apply all_group_forall. apply Forall_forall. intros x Hx. unfold nk in Hx. apply in_map_iff in Hx. destruct Hx as (k & <- & Ik).
      destruct (KM k Ik) as (k' & -> & Gk & _). exact Gk.
    + apply (NoDup_map_inv (fun k => pt_mul S k (sv_roundkey s))). rewrite BK. apply A7.
    + unfold nk. now rewrite tab_length, map_length.
    + exact PM.
Qed.

Lemma live_client c sv cl V m L k chal : base S c sv cl V -> phase S G c sv cl (m :: L) V -> msg_ext S H G c sv cl m ->
  mget cl (mDst m) = Some k -> cl_handle S G k (mType m) (mParams m) chal <> None.
Proof.
  intros B P XM Hk.
  assert (NS : mget sv (mDst m) = None) by (apply (cl_not_sv _ _ _ _ _ _ B); congruence).
  assert (NO : mDst m <> co_addr c) by (intros E; pose proof (self_not_cl _ _ _ _ _ B); congruence).
  assert (RD : mType m = BCAST_PEDERSEN_RDIFF -> cl_R k <> None -> cl_handle S G k (mType m) (mParams m) chal <> None).
  { intros TY HR. rewrite TY, handle_rdiff. destruct (x_rd _ _ _ _ _ _ _ XM TY) as (keys & rs & E1 & E2 & E3 & E4 & E5).
    unfold cl_rdiff. rewrite E1, (dec_enc_points S OK) by assumption. rewrite E3, (dec_enc_secs S OK) by assumption.
    destruct (Z.ltb_spec (find_index keys (cl_nym k)) 0) as [|LE]; [discriminate|].
    pose proof (find_index_None keys rs (cl_nym k) E5 LE) as X. destruct (nth_error rs _); [|congruence]. destruct (cl_R k); [discriminate|congruence]. }
  destruct P as [T A|T i p keys vals GT HT A|T0 T1 K A|T n M1 p keys vals GT HT A].
  - destruct (p1_cl _ _ _ _ _ _ _ A _ _ Hk) as (_ & v & r & R & _ & ER & _).
    pose proof (p1_msg _ _ _ _ _ _ _ A) as F. inversion F as [|? ? [[TY X]|[[TY _]|[TY _]]] _]; subst.
    + exfalso. apply (chain_not_cl _ _ _ _ _ _ B X). congruence.
    + apply RD; [assumption|congruence].
    + rewrite TY, handle_cre. destruct (x_re _ _ _ _ _ _ _ XM TY) as [(_ & keys & f & E1 & E2 & E3)|(n & L1 & L2 & _)].
      * unfold cl_round_end. rewrite E1, (dec_enc_points S OK) by assumption. rewrite E3, (g_ints _ GOK), find_int_map. discriminate.
      * exfalso. unfold chain in L2. destruct (before_chain S c sv cl V n B L1) as [[_ E1]|(j & a & s0 & _ & E1 & _ & E2 & _)]; congruence.
  - exfalso. pose proof (p2_M _ _ _ _ _ _ _ _ _ _ _ _ _ _ A) as [src EM].
    assert (Em : m = Msg (nth i (map fst (co_servers c)) (co_addr c)) ANNOUNCEMENT p src) by congruence. subst m. cbn [mDst] in *.
    destruct (nth_chain S c sv cl V i B (p2_i _ _ _ _ _ _ _ _ _ _ _ _ _ _ A)) as [[_ E1]|(a & s0 & E1 & _ & E2 & _)]; congruence.
  - pose proof (p3_msg _ _ _ _ _ _ _ _ _ A) as F. inversion F as [|? ? D _]; subst.
    destruct D as [b p src D1 D2|b kb D1|b d kb pc src D1 D2 D3|b kb r g src D1 D2 D3 D4]; cbn [mDst mType mParams mSrc cl_register] in *.
    + change (cl_announce_final S k p <> None). destruct D1 as (keys & vals & g & F1 & F2 & F3 & F4 & F5 & F6).
      destruct (carries_dec S OK p keys vals _ _ F3 F4) as (bk & bv & bG & bH & Q1 & Q2 & Q3 & Q4 & Q5 & Q6 & Q7 & Q8).
      destruct (x_fin _ _ _ _ _ _ _ XM eq_refl) as [X|(k0 & g0 & ks & X1 & X2 & X3 & X4 & X5 & X6)]; cbn [mDst mParams] in *.
      { exfalso. apply (chain_not_cl _ _ _ _ _ _ B X). congruence. }
      assert (k0 = k) by congruence. subst k0.
      assert (EK : ks = keys). { rewrite Q1 in X3. injection X3 as ->. rewrite (dec_enc_points S OK) in Q2 by assumption. congruence. }
      subst ks. unfold cl_announce_final. rewrite X2, (dec_enc_unchecked S _ X5), Q1, Q2, Q3, Q4.
      apply find_index_in in X6. destruct (Z.ltb_spec (find_index keys (pt_mul S g0 (cl_priv k))) 0) as [|LE]; [lia|].
      pose proof (find_index_None keys vals _ (t_len _ _ _ _ _ F4) LE) as X. destruct (nth_error vals _); [|congruence].
      rewrite Q5, Q6, Q7, Q8. discriminate.
    + exfalso. destruct (b_cl _ _ _ _ _ B b kb D1) as (_ & _ & X & _). congruence.
    + exfalso. destruct D1 as [D1|D1]; [|congruence]. apply (chain_not_cl _ _ _ _ _ _ B D1). congruence.
    + match goal with |- cl_handle S G k _ ?pp _ <> _ => change (cl_init_r S k pp <> None) end.
      unfold cl_init_r, get_bytes. cbn [lookup String.eqb Ascii.eqb Bool.eqb]. rewrite (dec_enc_secret S _ D2).
      rewrite (p3_G _ _ _ _ _ _ _ _ _ A) in D4. injection D4 as <-.
      rewrite (dec_enc_point S OK) by (unfold pt_mul_base, pt_mul; in_grp). discriminate.
  - destruct (p4_cl _ _ _ _ _ _ _ _ _ _ _ _ _ _ _ A _ _ Hk) as (_ & v & r & R & _ & ER & _).
    destruct (p4_M _ _ _ _ _ _ _ _ _ _ _ _ _ _ _ A) as [src PM].
    assert (IM : In m (Msg (before (map fst (co_servers c)) (co_addr c) n) Net.ROUND_END p src :: M1)) by (eapply Permutation_in; [exact PM|now left]).
    destruct IM as [<-|IM].
    + exfalso. cbn [mDst] in *. destruct (before_chain S c sv cl V n B (p4_n _ _ _ _ _ _ _ _ _ _ _ _ _ _ _ A)) as [[_ E1]|(j & a & s0 & _ & E1 & _ & E2 & _)]; congruence.
    + pose proof (p4_M1 _ _ _ _ _ _ _ _ _ _ _ _ _ _ _ A) as F. rewrite Forall_forall in F. destruct (F m IM) as [TY _]. apply RD; [assumption|congruence].
Qed.

Theorem core_live y V i m cr sr chal : reach S H G y V -> nth_error (y_msgs y) i = Some m -> inert m = false ->
  guard S y V (ADeliver i cr sr chal) -> draws_ok S H y m sr ->
  (mType m = Net.ROUND_END -> mDst m = co_addr (y_coord y) -> votes_in_table (y_coord y)) ->
  sys_step S H G y (ADeliver i cr sr chal) <> None.
Proof.
  intros R EM IM (_ & _ & G3 & _) DR VT. pose proof (reach_inv S OK H G GOK y V R) as [B P].
  destruct (reach_ext S OK H G GOK y V R) as [XF _].
  assert (XM : msg_ext S H G (y_coord y) (y_servers y) (y_clients y) m).
  { rewrite Forall_forall in XF. apply XF. now apply nth_error_In in EM. }
  destruct (pick_split i _ m EM) as (l1 & l2 & EL & ER). rewrite EL in P.
  assert (P' : phase S G (y_coord y) (y_servers y) (y_clients y) (m :: core (l1 ++ l2)) V).
  { eapply phase_perm; [|exact P]. rewrite !core_app. unfold core at 2. cbn [filter]. rewrite IM. cbn [negb]. symmetry. apply Permutation_middle. }
  cbn [sys_step]. rewrite EM. cbv zeta.
  destruct (keq (mDst m) (co_addr (y_coord y))) as [Ed|Nd].
  - pose proof (live_coord _ _ _ V m _ cr B P' XM Ed G3 (fun T => VT T Ed)) as X.
    destruct (co_handle _ _ _ _ _ _ _) as [[c' out]|]; [discriminate|congruence].
  - destruct (mget (y_servers y) (mDst m)) as [s|] eqn:ES.
    + pose proof (live_server _ _ _ V m _ s sr B P' XM ES (fun T => DR T s ES)) as X.
      destruct (sv_handle _ _ _ _ _ _ _ _) as [[s' out]|]; [discriminate|congruence].
    + destruct (mget (y_clients y) (mDst m)) as [k|] eqn:EK.
      * pose proof (live_client _ _ _ V m _ k chal B P' XM EK) as X.
        destruct (cl_handle _ _ _ _ _ _) as [[k' out]|]; [discriminate|congruence].
      * exfalso. assert (MC : forall a, In a (map fst (co_servers (y_coord y))) -> mDst m <> a).
        { intros a Ia E. apply (in_chain _ _ _ _ _ _ B) in Ia. destruct Ia as (_ & _ & s & X). congruence. }
        destruct P' as [T A|T j p keys vals GT HT A|T0 T1 K A|T n M1 p keys vals GT HT A].
        -- pose proof (p1_msg _ _ _ _ _ _ _ A) as F. inversion F as [|? ? [[_ X]|[[_ X]|[_ X]]] _]; subst; [now apply (MC _ X)|congruence|congruence].
        -- pose proof (p2_M _ _ _ _ _ _ _ _ _ _ _ _ _ _ A) as [src E]. assert (Em : m = Msg (nth j (map fst (co_servers (y_coord y))) (co_addr (y_coord y))) ANNOUNCEMENT p src) by congruence. subst m. cbn [mDst] in *.
           destruct (nth_chain S _ _ _ V j B (p2_i _ _ _ _ _ _ _ _ _ _ _ _ _ _ A)) as [[_ E1]|(a & s0 & E1 & _ & E2 & _)]; congruence.
        -- pose proof (p3_msg _ _ _ _ _ _ _ _ _ A) as F. inversion F as [|? ? D _]; subst.
           destruct D as [b p src D1 D2|b kb D1|b d kb pc src D1 D2 D3|b kb r g src D1 D2 D3 D4]; cbn [mDst cl_register] in *.
           ++ destruct D2 as [D2|D2]; [now apply (MC _ D2)|congruence].
           ++ destruct (b_cl _ _ _ _ _ B b kb D1) as (_ & _ & X & _). congruence.
           ++ destruct D1 as [D1|D1]; [now apply (MC _ D1)|congruence].
           ++ congruence.
        -- destruct (end_token _ _ _ _ _ _ _ _ _ _ _ _ _ _ _ _ B A EK) as (src & -> & _). cbn [mDst] in *.
           destruct (before_chain S _ _ _ V n B (p4_n _ _ _ _ _ _ _ _ _ _ _ _ _ _ _ A)) as [[_ E1]|(j & a & s0 & _ & E1 & _ & E2 & _)]; congruence.
Qed.

Lemma add_fakes_agree l : forall c, agree_keys (co_bkeys c) (co_bcomms c) -> agree_keys (co_bkeys (add_fakes S c l)) (co_bcomms (add_fakes S c l)).
Proof.
  induction l as [|[sk r] l IH]; intros c AK; [assumption|]. unfold add_fakes in *. cbn [fold_left]. apply IH.
  intros q. cbn [add_rep set_bcomms set_bkeys co_bcomms co_bkeys]. rewrite !mget_mset. destruct (keq q _) as [->|]; [reflexivity|apply AK].
Qed.

Lemma agree_nil (ks cs : amap Z Z) ord : agree_keys ks cs -> (forall k, In k ord -> In k (mkeys cs)) ->
  non_nil (map (fun k => mget ks k) ord) <> None /\ non_nil (map (fun k => mget cs k) ord) <> None.
Proof.
  intros AK IN. assert (X : forall k, In k ord -> mget cs k <> None).
  { intros k Ik. destruct (keys_mget _ _ (IN k Ik)) as (v & ->). discriminate. }
  split; apply non_nil_all; intros k Ik; specialize (X k Ik); [|assumption]. rewrite AK. destruct (mget cs k); [discriminate|congruence].
Qed.

Theorem begin_live y V fakes ord : reach S H G y V -> co_status (y_coord y) = CO_READY_FOR_NEW_ROUND ->
  guard S y V (ALoop (EBegin fakes ord)) -> sys_step S H G y (ALoop (EBegin fakes ord)) <> None.
Proof.
  intros R ST (SE & _ & RO). pose proof (reach_inv S OK H G GOK y V R) as [B P]. unfold settled in SE. rewrite SE in P.
  destruct P as [T A|T j p keys vals GT HT A|T0 T1 K A|T n M1 p keys vals GT HT A].
  2:{ pose proof (p2_status _ _ _ _ _ _ _ _ _ _ _ _ _ _ A) as X. rewrite ST in X. discriminate. }
  2:{ pose proof (p3_status _ _ _ _ _ _ _ _ _ A) as X. rewrite ST in X. discriminate. }
  2:{ pose proof (p4_status _ _ _ _ _ _ _ _ _ _ _ _ _ _ _ A) as X. rewrite ST in X. discriminate. }
  cbn [sys_step is_loop co_step]. unfold begin_round. rewrite ST. change (CO_READY_FOR_NEW_ROUND =? CO_READY_FOR_NEW_ROUND) with true. cbn [negb].
  set (c1 := if co_first (y_coord y) then set_first (add_fakes S (y_coord y) fakes) false else y_coord y). unfold announce.
  change (first_server (set_status (clear_buffer c1) CO_ANNOUNCE)) with (first_server c1).
  destruct (first_server c1) as [fa|]; [|discriminate].
  change (co_bkeys (set_status (clear_buffer c1) CO_ANNOUNCE)) with (co_bkeys c1). change (co_bcomms (set_status (clear_buffer c1) CO_ANNOUNCE)) with (co_bcomms c1).
  assert (AK : agree_keys (co_bkeys c1) (co_bcomms c1)).
  { unfold c1. pose proof (p1_keys _ _ _ _ _ _ _ A). destruct (co_first _); [|assumption].
    change (agree_keys (co_bkeys (add_fakes S (y_coord y) fakes)) (co_bcomms (add_fakes S (y_coord y) fakes))). now apply add_fakes_agree. }
  assert (RO' : range_order ord (co_bcomms c1)) by (unfold c1; destruct (co_first _); exact RO).
  destruct (agree_nil _ _ ord AK) as [X1 X2]; [intros k Ik; now apply (Permutation_in _ RO')|].
  destruct (non_nil (map (fun k => mget (co_bkeys c1) k) ord)); [|congruence].
  destruct (non_nil (map (fun k => mget (co_bcomms c1) k) ord)); [discriminate|congruence].
Qed.

Theorem end_live y V ord rs : reach S H G y V -> guard S y V (ALoop (EEnd ord rs)) -> sys_step S H G y (ALoop (EEnd ord rs)) <> None.
Proof.
  intros R (ST & SE & PO & _ & _). pose proof (reach_inv S OK H G GOK y V R) as [B P]. unfold settled in SE. rewrite SE in P.
  destruct P as [T A|T j p keys vals GT HT A|T0 T1 K A|T n M1 p keys vals GT HT A].
  1:{ pose proof (p1_status _ _ _ _ _ _ _ A) as X. rewrite ST in X. discriminate. }
  1:{ pose proof (p2_status _ _ _ _ _ _ _ _ _ _ _ _ _ _ A) as X. rewrite ST in X. discriminate. }
  2:{ destruct (p4_M _ _ _ _ _ _ _ _ _ _ _ _ _ _ _ A) as [src X]. now apply Permutation_nil in X. }
  cbn [sys_step is_loop co_step]. unfold round_end. destruct (last_server _) as [la|]; [|discriminate].
  pose proof (p3_V _ _ _ _ _ _ _ _ _ A) as PV. pose proof (p3_tab _ _ _ _ _ _ _ _ _ A) as TT. pose proof (p3_buf _ _ _ _ _ _ _ _ _ A) as PB.
  cbn [filter map] in PV, PB. rewrite app_nil_r in PV, PB. set (c := y_coord y) in *.
  assert (NE : NoDup (map fst (co_ecomms c ++ co_buffer c))).
  { eapply Permutation_NoDup; [symmetry; apply Permutation_map; rewrite TT; apply Permutation_app_head; exact PB|]. rewrite <- map_app.
    apply (ent_keys_nodup S OK); [rewrite (p3_K _ _ _ _ _ _ _ _ _ A); apply (exps_unit _ _ _ _ _ B)|exact (T_group S _ V PV (b_Vg _ _ _ _ _ B))|exact (T_nodup _ V PV (b_V _ _ _ _ _ B))]. }
  destruct (add_endings_spec (co_buffer c) c) as (_ & _ & _ & _ & S9 & S10); [now rewrite map_app in NE|exact (p3_keys _ _ _ _ _ _ _ _ _ A)|].
  set (c1 := fold_left _ (co_buffer c) c) in *. cbv zeta.
  destruct (agree_nil _ _ ord S10) as [X1 X2].
  { intros k Ik. rewrite S9. unfold mkeys. rewrite map_app. now apply (Permutation_in _ PO). }
  destruct (non_nil (map (fun k => mget (co_ekeys c1) k) ord)); [|congruence].
  destruct (non_nil (map (fun k => mget (co_ecomms c1) k) ord)); [discriminate|congruence].
Qed.

(** ** How much there is to deliver *)
(** The number of servers from [a] on; 0 when [a] is no server. *)
Definition hops (c : coord) (a : addr) : nat := length (drop_to a (map fst (co_servers c))).
(** The number of deliveries a message of the round protocol can lead to, itself included. *)
Definition cost (c : coord) (m : msg) : nat :=
  let n := length (co_servers c) in let q := length (co_clients c) in
  if inert m then 0%nat
  else if mType m =? ANNOUNCEMENT then (hops c (mDst m) + 1 + (q + n))%nat
  else if mType m =? CLIENT_REGISTER_CONTROLLERSIDE then (n + 3)%nat
  else if mType m =? CLIENT_REGISTER_SERVERSIDE then (hops c (mDst m) + 1)%nat
  else if mType m =? Net.ROUND_END then
    (if keq (mDst m) (co_addr c) then 1 + q else if Nat.eqb (hops c (mDst m)) 0 then 1 else (n + 1 - hops c (mDst m)) + 1 + q)%nat
  else 1%nat.
Definition work (c : coord) (M : list msg) : nat := list_sum (map (cost c) M).

Lemma work_app c l1 l2 : work c (l1 ++ l2) = (work c l1 + work c l2)%nat.
Proof. unfold work. now rewrite map_app, list_sum_app. Qed.
Lemma work_inert c l : Forall (fun m => inert m = true) l -> work c l = 0%nat.
Proof. unfold work. induction 1 as [|m l Hm _ IH]; cbn [map list_sum fold_right]; [reflexivity|]. unfold cost at 1. rewrite Hm. exact IH. Qed.
Lemma cost_pos c m : inert m = false -> (1 <= cost c m)%nat.
Proof.
  intros IM. unfold cost. rewrite IM. repeat match goal with |- context [if ?b then _ else _] => destruct b end; lia.
Qed.
Lemma work_each c l : Forall (fun m => cost c m = 1%nat) l -> work c l = length l.
Proof. unfold work. induction 1 as [|m l Hm _ IH]; cbn [map list_sum fold_right length]; [reflexivity|]. rewrite Hm. unfold list_sum in IH. rewrite IH. reflexivity. Qed.
Lemma cost_same c c' m : co_servers c' = co_servers c -> co_addr c' = co_addr c -> length (co_clients c') = length (co_clients c) -> cost c' m = cost c m.
Proof. intros E1 E2 E3. unfold cost, hops. now rewrite E1, E2, E3. Qed.
Lemma work_same c c' l : co_servers c' = co_servers c -> co_addr c' = co_addr c -> length (co_clients c') = length (co_clients c) -> work c' l = work c l.
Proof. intros E1 E2 E3. unfold work. f_equal. apply map_ext. intros m. now apply cost_same. Qed.

Lemma hops_nth c sv cl V i a : base S c sv cl V -> nth_error (map fst (co_servers c)) i = Some a -> hops c a = (length (co_servers c) - i)%nat.
Proof.
  intros B E. unfold hops. rewrite (drop_to_nth _ i a (b_nd _ _ _ _ _ B) E). cbn [length]. rewrite skipn_length, map_length.
  apply nth_error_lt in E. rewrite map_length in E. lia.
Qed.
Lemma hops_none c a : ~ In a (map fst (co_servers c)) -> hops c a = 0%nat.
Proof. intros N. unfold hops. now rewrite drop_to_none. Qed.
Lemma hops_self c sv cl V : base S c sv cl V -> hops c (co_addr c) = 0%nat.
Proof. intros B. apply hops_none. intros I. destruct (in_chain _ _ _ _ _ _ B I) as [X _]. congruence. Qed.
Lemma hops_client c sv cl V a k : base S c sv cl V -> mget cl a = Some k -> hops c a = 0%nat.
Proof. intros B E. apply hops_none. intros I. apply (chain_not_cl _ _ _ _ _ _ B I). congruence. Qed.
Lemma hops_pos c sv cl V i : base S c sv cl V -> (i <= length (co_servers c))%nat ->
  hops c (nth i (map fst (co_servers c)) (co_addr c)) = (length (co_servers c) - i)%nat.
Proof.
  intros B L. destruct (nth_chain S c sv cl V i B L) as [[-> ->]|(a & s & -> & E & _)].
  - rewrite (hops_self _ _ _ _ B). lia.
  - now apply (hops_nth c sv cl V i a B).
Qed.

Lemma ann_out s p sr s' out : sv_announcement S H s p sr = Some (s', out) -> exists p', out = [Msg (sv_next s) ANNOUNCEMENT p' (sv_addr s)].
Proof.
  unfold sv_announcement. cbv zeta. intros E.
  repeat match type of E with match ?x with _ => _ end = _ => destruct x as [?|]; [|discriminate E] end.
  match type of E with (let (_, _) := ?q in _) = _ => destruct q as [[fk fv] ex] end. injection E as _ <-. eauto.
Qed.
Lemma end_out s p sr s' out : sv_round_end S H s p sr = Some (s', out) -> exists p', out = [Msg (sv_prev s) Net.ROUND_END p' (sv_addr s)].
Proof.
  unfold sv_round_end. cbv zeta. intros E.
  repeat match type of E with match ?x with _ => _ end = _ => destruct x as [?|]; [|discriminate E] end.
  match type of E with (let (_, _) := ?q in _) = _ => destruct q as [[fk fv] ex] end. injection E as _ <-. eauto.
Qed.

Lemma work_server c sv cl V m L s sr s' out : base S c sv cl V -> phase S G c sv cl (m :: L) V -> inert m = false ->
  mget sv (mDst m) = Some s -> sv_handle S H G s (mType m) (mParams m) (mSrc m) sr = Some (s', out) -> (Datatypes.S (work c out) = cost c m)%nat.
Proof.
  intros B P IM Hs E. 
  assert (NC : mget cl (mDst m) = None).
  { destruct (mget cl (mDst m)) as [k|] eqn:Ek; [|reflexivity]. exfalso.
    pose proof (cl_not_sv S c sv cl V (mDst m) B) as X. rewrite X in Hs; [discriminate|congruence]. }
  assert (NS : mDst m <> co_addr c) by (intros X; pose proof (b_self _ _ _ _ _ B); congruence).
  destruct P as [T A|T i p keys vals GT HT A|T0 T1 K A|T n M1 p keys vals GT HT A].
  - pose proof (p1_msg _ _ _ _ _ _ _ A) as F. inversion F as [|? ? [[TY _]|[[_ X]|[_ X]]] _]; subst; [|congruence|congruence].
    rewrite TY in E. change (sv_handle S H G s BCAST_PEDERSEN_H (mParams m) (mSrc m) sr) with (sv_pedersen_h S s (mParams m)) in E.
    destruct (sv_h_same S s _ s' out E) as (-> & _). unfold cost. rewrite IM, TY. reflexivity.
  - pose proof (p2_M _ _ _ _ _ _ _ _ _ _ _ _ _ _ A) as [src EM].
    assert (Em : m = Msg (nth i (map fst (co_servers c)) (co_addr c)) ANNOUNCEMENT p src) by congruence. subst m. clear EM. cbn [mDst mType mParams mSrc] in *.
    pose proof (p2_i _ _ _ _ _ _ _ _ _ _ _ _ _ _ A) as Li.
    pose proof (hops_pos c sv cl V i B Li) as HP.
    destruct (nth_chain S c sv cl V i B Li) as [[_ E1]|(a & s0 & E1 & Ei & _)]; [congruence|].
    change (sv_handle S H G s ANNOUNCEMENT p src sr) with (sv_announcement S H s p sr) in E. rewrite E1 in *.
    destruct (b_link S c sv cl V B i a s Ei Hs) as (K1 & _). destruct (ann_out _ _ _ _ _ E) as (p' & ->).
    assert (Lt : (i < length (co_servers c))%nat) by (apply nth_error_lt in Ei; now rewrite map_length in Ei).
    unfold work. cbn [map list_sum fold_right]. unfold cost, inert. cbn [mType mDst]. change (existsb (Z.eqb ANNOUNCEMENT) inert_types) with false.
    change (ANNOUNCEMENT =? ANNOUNCEMENT) with true. cbv iota zeta. rewrite K1, HP.
    change (after (map fst (co_servers c)) (co_addr c) i) with (nth (Datatypes.S i) (map fst (co_servers c)) (co_addr c)).
    rewrite (hops_pos c sv cl V (Datatypes.S i) B) by lia. lia.
  - pose proof (p3_msg _ _ _ _ _ _ _ _ _ A) as F. inversion F as [|? ? D _]; subst.
    destruct D as [b p src D1 D2|b kb D1|b d kb pc src D1 D2 D3|b kb r g src D1 D2 D3 D4]; cbn [mDst mType mParams mSrc cl_register] in *.
    + change (sv_finalize S s p = Some (s', out)) in E. unfold sv_finalize in E. odestruct E. injection E as <- <-. reflexivity.
    + exfalso. destruct (b_cl _ _ _ _ _ B b kb D1) as (_ & _ & X & _). congruence.
    + match type of E with sv_handle S H G s _ ?pp _ _ = _ => change (sv_client_register S s pp = Some (s', out)) in E end.
      unfold sv_client_register, get_bytes, get_str in E. cbn [lookup String.eqb Ascii.eqb Bool.eqb] in E.
      rewrite (dec_enc_point S OK _ D2) in E. injection E as <- <-.
      destruct D1 as [D1|D1]; [|congruence]. apply In_nth_error in D1. destruct D1 as [i Ei].
      destruct (b_link S c sv cl V B i b s Ei Hs) as (K1 & _).
      assert (Lt : (i < length (co_servers c))%nat) by (apply nth_error_lt in Ei; now rewrite map_length in Ei).
      unfold work. cbn [map list_sum fold_right]. unfold cost, inert. cbn [mType mDst]. change (existsb (Z.eqb CLIENT_REGISTER_SERVERSIDE) inert_types) with false.
      change (CLIENT_REGISTER_SERVERSIDE =? ANNOUNCEMENT) with false. change (CLIENT_REGISTER_SERVERSIDE =? CLIENT_REGISTER_CONTROLLERSIDE) with false.
      change (CLIENT_REGISTER_SERVERSIDE =? CLIENT_REGISTER_SERVERSIDE) with true. cbv iota zeta. rewrite K1, (hops_nth c sv cl V i b B Ei).
      change (after (map fst (co_servers c)) (co_addr c) i) with (nth (Datatypes.S i) (map fst (co_servers c)) (co_addr c)).
      rewrite (hops_pos c sv cl V (Datatypes.S i) B) by lia. lia.
    + congruence.
  - destruct (end_token _ _ _ _ _ _ _ _ _ _ _ _ _ _ _ _ B A NC) as (src & -> & _). cbn [mDst mType mParams mSrc] in *.
    destruct (before_chain S c sv cl V n B (p4_n _ _ _ _ _ _ _ _ _ _ _ _ _ _ _ A)) as [[-> E1]|(j & a & s0 & -> & E1 & Ej & _)]; [congruence|].
    change (sv_handle S H G s Net.ROUND_END p src sr) with (sv_round_end S H s p sr) in E. rewrite E1 in *.
    destruct (b_link S c sv cl V B j a s Ej Hs) as (_ & K2 & _). destruct (end_out _ _ _ _ _ E) as (p' & ->).
    assert (Lt : (j < length (co_servers c))%nat) by (apply nth_error_lt in Ej; now rewrite map_length in Ej).
    unfold work. cbn [map list_sum fold_right]. unfold cost, inert. cbn [mType mDst]. change (existsb (Z.eqb Net.ROUND_END) inert_types) with false.
    change (Net.ROUND_END =? ANNOUNCEMENT) with false. change (Net.ROUND_END =? CLIENT_REGISTER_CONTROLLERSIDE) with false.
    change (Net.ROUND_END =? CLIENT_REGISTER_SERVERSIDE) with false. change (Net.ROUND_END =? Net.ROUND_END) with true. cbv iota zeta.
    destruct (keq a (co_addr c)) as [X|_]; [congruence|]. rewrite (hops_nth c sv cl V j a B Ej), K2.
    destruct (Nat.eqb_spec (length (co_servers c) - j) 0) as [X|_]; [lia|].
    destruct j as [|j]; cbn [before].
    + destruct (keq (co_addr c) (co_addr c)) as [_|X]; [lia|congruence].
    + destruct (nth_chain S c sv cl V j B ltac:(lia)) as [[X _]|(b & sb & E3 & E4 & _ & E5 & _)]; [lia|]. rewrite E3.
      destruct (keq b (co_addr c)) as [X|_]; [congruence|]. rewrite (hops_nth c sv cl V j b B E4).
      destruct (Nat.eqb_spec (length (co_servers c) - j) 0) as [X|_]; lia.
Qed.

Lemma work_client c sv cl V m L k chal k' out : base S c sv cl V -> phase S G c sv cl (m :: L) V -> inert m = false ->
  mget cl (mDst m) = Some k -> cl_handle S G k (mType m) (mParams m) chal = Some (k', out) -> (Datatypes.S (work c out) = cost c m)%nat.
Proof.
  intros B P IM Hk E. destruct (handle_quiet S G _ _ _ _ _ _ E) as (_ & IO). rewrite (work_inert c out IO).
  pose proof (hops_client _ _ _ _ _ _ B Hk) as HC.
  assert (NO : mDst m <> co_addr c) by (intros X; pose proof (self_not_cl _ _ _ _ _ B); congruence).
  assert (X : In (mType m) [BCAST_PEDERSEN_RDIFF; Net.ROUND_END; ANNOUNCEMENT_FINALIZE; INIT_PEDERSEN_R]).
  { destruct P as [T A|T i p keys vals GT HT A|T0 T1 K A|T n M1 p keys vals GT HT A].
    - pose proof (p1_msg _ _ _ _ _ _ _ A) as F. inversion F as [|? ? [[TY X]|[[TY _]|[TY _]]] _]; subst; [|rewrite TY; cbn; tauto|rewrite TY; cbn; tauto].
      exfalso. apply (chain_not_cl _ _ _ _ _ _ B X). congruence.
    - exfalso. pose proof (p2_M _ _ _ _ _ _ _ _ _ _ _ _ _ _ A) as [src EM].
      assert (Em : m = Msg (nth i (map fst (co_servers c)) (co_addr c)) ANNOUNCEMENT p src) by congruence. subst m. cbn [mDst] in *.
      destruct (nth_chain S c sv cl V i B (p2_i _ _ _ _ _ _ _ _ _ _ _ _ _ _ A)) as [[_ E1]|(a & s0 & E1 & _ & _ & _ & E2)]; congruence.
    - pose proof (p3_msg _ _ _ _ _ _ _ _ _ A) as F. inversion F as [|? ? D _]; subst.
      destruct D as [b p src D1 D2|b kb D1|b d kb pc src D1 D2 D3|b kb r g src D1 D2 D3 D4]; cbn [mDst mType mParams mSrc cl_register] in *; try (cbn; tauto).
      + exfalso. destruct (b_cl _ _ _ _ _ B b kb D1) as (_ & _ & X & _). congruence.
      + exfalso. destruct D1 as [D1|D1]; [|congruence]. apply (chain_not_cl _ _ _ _ _ _ B D1). congruence.
    - destruct (p4_M _ _ _ _ _ _ _ _ _ _ _ _ _ _ _ A) as [src PM].
      assert (I0 : In m (Msg (before (map fst (co_servers c)) (co_addr c) n) Net.ROUND_END p src :: M1)) by (eapply Permutation_in; [exact PM|now left]).
      destruct I0 as [<-|I0]; [cbn; tauto|].
      pose proof (p4_M1 _ _ _ _ _ _ _ _ _ _ _ _ _ _ _ A) as F. rewrite Forall_forall in F. destruct (F m I0) as [TY _]. rewrite TY. cbn. tauto. }
  unfold cost. rewrite IM, HC. destruct (keq (mDst m) (co_addr c)) as [?|_]; [contradiction|]. change (Nat.eqb 0 0) with true. cbv iota zeta.
  repeat (destruct X as [<-|X]; [reflexivity|]). destruct X.
Qed.

Lemma work_coord c sv cl V m L cr c' out : base S c sv cl V -> phase S G c sv cl (m :: core L) V -> inert m = false -> mDst m = co_addr c ->
  co_handle S G c (mType m) (mParams m) (mSrc m) cr = Some (c', out) -> (Datatypes.S (work c' (L ++ out)) = cost c m + work c L)%nat.
Proof.
  intros B P IM Hd E. pose proof (self_not_cl _ _ _ _ _ B) as NC.
  assert (STA : co_addr c' = co_addr c).
  { apply same_addr. exact (step_static S H G c (EMsg (mType m) (mParams m) (mSrc m) cr) c' out E). }
  assert (CLN : co_servers c' = co_servers c -> length (co_clients c') = length (co_clients c) -> (Datatypes.S (work c out) = cost c m)%nat -> (Datatypes.S (work c' (L ++ out)) = cost c m + work c L)%nat).
  { intros E1 E2 W. rewrite (work_same c c') by assumption. rewrite work_app. lia. }
  destruct P as [T A|T i p keys vals GT HT A|T0 T1 K A|T n M1 p keys vals GT HT A].
  - exfalso. pose proof (p1_msg _ _ _ _ _ _ _ A) as F. inversion F as [|? ? [[_ X]|[[_ X]|[_ X]]] _]; subst; rewrite Hd in X; [|congruence|congruence].
    apply (in_chain _ _ _ _ _ _ B) in X. destruct X. congruence.
  - pose proof (p2_M _ _ _ _ _ _ _ _ _ _ _ _ _ _ A) as [src EM].
    assert (Em : m = Msg (nth i (map fst (co_servers c)) (co_addr c)) ANNOUNCEMENT p src) by congruence. subst m. clear EM. cbn [mDst mType mParams mSrc] in *.
    change (co_handle S G c ANNOUNCEMENT p src cr) with (co_announcement S c p) in E. unfold co_announcement in E. cbv zeta in E.
    odestruct E. injection E as <- <-. apply CLN; [reflexivity|reflexivity|].
    unfold cost, inert. cbn [mType mDst]. change (existsb (Z.eqb ANNOUNCEMENT) inert_types) with false.
    change (ANNOUNCEMENT =? ANNOUNCEMENT) with true. cbv iota zeta. rewrite Hd, (hops_self _ _ _ _ B).
    rewrite work_each.
    + rewrite app_length. unfold to_clients, to_servers. rewrite !map_length. lia.
    + apply Forall_app. split; apply Forall_forall; intros m Hm; unfold to_clients, to_servers in Hm; apply in_map_iff in Hm; destruct Hm as (q & <- & _); reflexivity.
  - pose proof (p3_msg _ _ _ _ _ _ _ _ _ A) as F. inversion F as [|? ? D FL]; subst.
    destruct D as [b p src D1 D2|b kb D1|b d kb pc src D1 D2 D3|b kb r g src D1 D2 D3 D4]; cbn [mDst mType mParams mSrc cl_register] in *.
    + exfalso. subst b. destruct D2 as [D2|D2]; [|congruence]. apply (in_chain _ _ _ _ _ _ B) in D2. destruct D2. congruence.
    + match type of E with co_handle S G c _ ?pp ?ss _ = _ => change (co_client_register S c pp ss cr = Some (c', out)) in E end.
      unfold co_client_register, get_bytes in E. cbn [lookup String.eqb Ascii.eqb Bool.eqb] in E.
      destruct (ped_commit S (co_pb c) (sec_of_int S starting_credit) (crR cr)) as [pc r].
      unfold send in E. destruct (first_server c) as [fa|] eqn:EF; [|discriminate]. destruct (co_G c) as [g|]; [|discriminate]. injection E as <- <-.
      set (c1 := set_clients c _) in *. rewrite work_app.
      assert (W1 : work c1 L = work c L).
      { clear - FL. induction L as [|m L IH]; [reflexivity|]. unfold work in *. cbn [map list_sum fold_right]. unfold core in FL. cbn [filter] in FL. unfold list_sum in IH.
        destruct (inert m) eqn:IM; cbn [negb] in FL.
        - unfold cost at 1 3. rewrite IM. cbn. now apply IH.
        - inversion FL as [|? ? D FL']; subst. rewrite (IH FL'). f_equal. destruct D; reflexivity. }
      rewrite W1. unfold first_server in EF. destruct (co_servers c) as [|[a0 pk0] l0] eqn:ES; [discriminate|]. cbn in EF. injection EF as ->.
      assert (HF : hops c1 fa = length (co_servers c)).
      { unfold hops. change (co_servers c1) with (co_servers c). rewrite ES. cbn [map fst drop_to]. destruct (keq fa fa); [|congruence]. cbn [length]. now rewrite map_length. }
      generalize (work c L). intros W. unfold work. cbn [map list_sum fold_right]. unfold cost, inert. cbn [mType mDst].
      repeat match goal with |- context [existsb ?f inert_types] => change (existsb f inert_types) with false end.
      repeat match goal with |- context [?a =? ?b] => let v := eval compute in (a =? b) in change (a =? b) with v end. cbv iota zeta.
      rewrite HF, ES. cbn [length]. lia.
    + match type of E with co_handle S G c _ ?pp ?ss _ = _ => change (co_client_confirm S G c pp = Some (c', out)) in E end.
      unfold co_client_confirm in E. unfold get_bytes, get_str in E. cbn [lookup String.eqb Ascii.eqb Bool.eqb] in E.
      rewrite (dec_enc_point S OK _ D3) in E. injection E as <- <-. apply CLN; [reflexivity|reflexivity|].
      rewrite work_inert by (repeat constructor). unfold cost, inert. cbn [mType mDst]. change (existsb (Z.eqb CLIENT_REGISTER_SERVERSIDE) inert_types) with false.
      repeat match goal with |- context [?a =? ?b] => let v := eval compute in (a =? b) in change (a =? b) with v end. cbv iota zeta. subst b. now rewrite (hops_self _ _ _ _ B).
    + congruence.
  - destruct (end_token _ _ _ _ _ _ _ _ _ _ _ _ _ _ _ _ B A) as (src & -> & PM); [now rewrite Hd|]. cbn [mDst mType mParams mSrc] in *.
    change (co_handle S G c Net.ROUND_END p src cr) with (co_round_end S G c p cr) in E.
    unfold co_round_end in E. cbv zeta in E. odestruct E. injection E as <- <-. apply CLN; [reflexivity|reflexivity|].
    unfold cost, inert. cbn [mType mDst]. change (existsb (Z.eqb Net.ROUND_END) inert_types) with false.
    repeat match goal with |- context [?a =? ?b] => let v := eval compute in (a =? b) in change (a =? b) with v end. cbv iota zeta. rewrite Hd.
    destruct (keq (co_addr c) (co_addr c)) as [_|X]; [|congruence]. rewrite work_each.
    + unfold to_clients. rewrite map_length. lia.
    + apply Forall_forall. intros m Hm. destruct (to_clients_inv S c sv cl V _ _ _ B Hm) as (ca & k & -> & Ek & _).
      unfold cost, inert. cbn [mType mDst]. change (existsb (Z.eqb Net.ROUND_END) inert_types) with false.
      repeat match goal with |- context [?a =? ?b] => let v := eval compute in (a =? b) in change (a =? b) with v end. cbv iota zeta.
      destruct (keq ca (co_addr c)) as [X|_]; [congruence|]. rewrite (hops_client c sv cl V ca k B Ek). reflexivity.
Qed.

(** ** Runs *)
(** [a] delivers a message of the round protocol. *)
Definition is_core (y : sys) (a : action) : bool :=
  match a with
  | ADeliver i _ _ _ => match nth_error (y_msgs y) i with Some m => negb (inert m) | None => false end
  | _ => false
  end.
Definition due (y : sys) : nat := work (y_coord y) (y_msgs y).

Lemma work_mid c l1 m l2 : work c (l1 ++ m :: l2) = (cost c m + work c (l1 ++ l2))%nat.
Proof. rewrite !work_app. unfold work. cbn [map list_sum fold_right]. unfold list_sum. lia. Qed.

Lemma due_deliver y V i cr sr chal y' : inv S G y V -> sys_step S H G y (ADeliver i cr sr chal) = Some y' ->
  due y = (due y' + if is_core y (ADeliver i cr sr chal) then 1 else 0)%nat.
Proof.
  intros [B P] E. cbn [sys_step is_core] in *. destruct (nth_error (y_msgs y) i) as [m|] eqn:EM; [|discriminate]. cbn zeta in E.
  destruct (pick_split i _ m EM) as (l1 & l2 & EL & ER). rewrite ER in E. unfold due. rewrite EL, work_mid. rewrite EL in P.
  destruct (inert m) eqn:IM; cbn [negb].
  - pose proof (proj1 (inert_in m) IM) as IT. assert (C0 : cost (y_coord y) m = 0%nat) by (unfold cost; now rewrite IM). rewrite C0.
    destruct (keq (mDst m) (co_addr (y_coord y))) as [Ed|Nd].
    + destruct (co_handle _ _ _ _ _ _ _) as [[c' out]|] eqn:EH; [|discriminate]. injection E as <-.
      destruct (co_inert _ _ _ _ _ _ _ _ _ IT EH) as (CS & _ & IO). cbn [y_coord y_msgs].
      assert (C1 : co_static c' = co_static (y_coord y)) by (apply (CS FStatic); cbn; tauto).
      assert (C2 : co_servers c' = co_servers (y_coord y)) by (apply (CS FServers); cbn; tauto).
      assert (C3 : co_clients c' = co_clients (y_coord y)) by (apply (CS FClients); cbn; tauto).
      rewrite (work_same (y_coord y) c'); [|assumption|now apply same_addr|now rewrite C3]. rewrite (work_app _ (l1 ++ l2)), (work_inert _ out IO). lia.
    + destruct (mget (y_servers y) (mDst m)) as [s|] eqn:ES.
      * destruct (sv_handle _ _ _ _ _ _ _ _) as [[s' out]|] eqn:EH; [|discriminate]. injection E as <-.
        destruct (sv_inert _ _ _ _ _ _ _ _ _ _ IT EH) as (_ & IO). cbn [y_coord y_msgs]. rewrite (work_app _ (l1 ++ l2)), (work_inert _ out IO). lia.
      * destruct (mget (y_clients y) (mDst m)) as [k|] eqn:EK; [|discriminate].
        destruct (cl_handle _ _ _ _ _ _) as [[k' out]|] eqn:EH; [|discriminate]. injection E as <-.
        destruct (handle_quiet S G _ _ _ _ _ _ EH) as (_ & IO). cbn [y_coord y_msgs]. rewrite (work_app _ (l1 ++ l2)), (work_inert _ out IO). lia.
  - assert (P' : phase S G (y_coord y) (y_servers y) (y_clients y) (m :: core (l1 ++ l2)) V).
    { eapply phase_perm; [|exact P]. rewrite !core_app. unfold core at 2. cbn [filter]. rewrite IM. cbn [negb]. symmetry. apply Permutation_middle. }
    destruct (keq (mDst m) (co_addr (y_coord y))) as [Ed|Nd].
    + destruct (co_handle _ _ _ _ _ _ _) as [[c' out]|] eqn:EH; [|discriminate]. injection E as <-. cbn [y_coord y_msgs].
      pose proof (work_coord _ _ _ V m _ cr c' out B P' IM Ed EH). lia.
    + destruct (mget (y_servers y) (mDst m)) as [s|] eqn:ES.
      * destruct (sv_handle _ _ _ _ _ _ _ _) as [[s' out]|] eqn:EH; [|discriminate]. injection E as <-. cbn [y_coord y_msgs].
        pose proof (work_server _ _ _ V m _ s sr s' out B P' IM ES EH). rewrite (work_app _ (l1 ++ l2)). lia.
      * destruct (mget (y_clients y) (mDst m)) as [k|] eqn:EK; [|discriminate].
        destruct (cl_handle _ _ _ _ _ _) as [[k' out]|] eqn:EH; [|discriminate]. injection E as <-. cbn [y_coord y_msgs].
        pose proof (work_client _ _ _ V m _ k chal k' out B P' IM EK EH). rewrite (work_app _ (l1 ++ l2)). lia.
Qed.

Lemma settled_due y : settled y <-> due y = 0%nat.
Proof.
  unfold settled, due. induction (y_msgs y) as [|m l IH]; [split; reflexivity|].
  change (m :: l) with ([] ++ m :: l). rewrite work_mid. cbn [app]. unfold core. cbn [filter]. fold (core l). destruct (inert m) eqn:IM; cbn [negb].
  - unfold cost. rewrite IM. cbn [Nat.add]. exact IH.
  - pose proof (cost_pos (y_coord y) m IM). split; [discriminate|lia].
Qed.

(** Nothing else sends messages of the round protocol, but a client that joins and the
    loop when it starts and ends a round. *)
Lemma due_other y V a y' : guard S y V a -> sys_step S H G y a = Some y' ->
  match a with
  | AJoin _ _ _ => due y' = (due y + (length (co_servers (y_coord y)) + 3))%nat
  | ACommand _ _ | ALoop EVotePhase => due y' = due y
  | _ => True
  end.
Proof.
  intros GU E. destruct a as [a priv rk|a priv s|i cr sr chal|e|a cmd]; try exact I; cbn [sys_step] in E.
  - destruct (keq a _); [discriminate|]. destruct (mget (y_servers y) a); [discriminate|].
    destruct (mget (y_clients y) a) eqn:EC; [discriminate|]. injection E as <-. unfold due. cbn [y_coord y_msgs]. rewrite work_app. f_equal.
    unfold work. cbn [map list_sum fold_right]. unfold cost, inert, cl_register. cbn [mType mDst].
    change (existsb (Z.eqb CLIENT_REGISTER_CONTROLLERSIDE) inert_types) with false.
    change (CLIENT_REGISTER_CONTROLLERSIDE =? ANNOUNCEMENT) with false. change (CLIENT_REGISTER_CONTROLLERSIDE =? CLIENT_REGISTER_CONTROLLERSIDE) with true. cbv iota zeta. lia.
  - destruct e; try exact I. cbn [is_loop co_step begin_vote] in E. injection E as <-. unfold due. cbn [y_coord y_msgs].
    rewrite work_app, (work_inert _ (to_clients _ _ _)).
    + rewrite Nat.add_0_r. apply work_same; reflexivity.
    + apply Forall_forall. intros m Hm. apply inert_in. rewrite (to_clients_type _ _ _ _ Hm). cbn. tauto.
  - destruct (mget (y_clients y) a) as [k|]; [|discriminate].
    destruct (cl_command S G k cmd) as [out|] eqn:EC; [|discriminate]. injection E as <-. apply command_inert in EC.
    unfold due. cbn [y_coord y_msgs]. rewrite work_app, (work_inert _ out EC). lia.
Qed.

Lemma due_begin y V fakes ord y' : inv S G y V -> guard S y V (ALoop (EBegin fakes ord)) -> sys_step S H G y (ALoop (EBegin fakes ord)) = Some y' ->
  due y' = (2 * length (co_servers (y_coord y)) + length (co_clients (y_coord y)) + 1)%nat /\
  co_servers (y_coord y') = co_servers (y_coord y) /\ co_clients (y_coord y') = co_clients (y_coord y) /\
  co_status (y_coord y') = CO_ANNOUNCE /\ no_end (y_msgs y').
Proof.
  intros [B P] (SE & _) E. pose proof (proj1 (settled_due y) SE) as D0. cbn [sys_step is_loop] in E.
  destruct (co_step _ _ _ _) as [[c' out]|] eqn:ES; [|discriminate]. injection E as <-.
  destruct (co_step_frame S G _ _ _ _ ES) as [FR _].
  pose proof (step_static S H G _ _ _ _ ES) as S1. assert (S2 : co_servers c' = co_servers (y_coord y)) by (apply (co_servers_step S H G _ _ c' out ES); discriminate).
  assert (S3 : co_clients c' = co_clients (y_coord y)) by (apply (FR FClients); cbn; intuition discriminate).
  unfold due. cbn [y_coord y_msgs]. split; [|split; [assumption|split; [assumption|]]].
  - rewrite (work_same (y_coord y) c'); [|assumption|now apply same_addr|now rewrite S3]. rewrite work_app. unfold due in D0. rewrite D0. cbn [Nat.add].
    cbn [co_step] in ES. unfold begin_round in ES. destruct (negb _); [discriminate|]. unfold announce in ES. cbv zeta in ES.
    set (c1 := set_status _ CO_ANNOUNCE) in ES.
    destruct (first_server c1) as [fa|] eqn:EF.
    2:{ exfalso. injection ES as <- _. apply (b_ne _ _ _ _ _ B). rewrite <- S2. unfold first_server in EF. change (co_servers (set_status c1 CO_MESSAGE)) with (co_servers c1).
        destruct (co_servers c1); [reflexivity|discriminate]. }
    odestruct ES. injection ES as <- <-. unfold work. cbn [map list_sum fold_right]. unfold cost, inert. cbn [mType mDst].
    change (existsb (Z.eqb ANNOUNCEMENT) inert_types) with false. change (ANNOUNCEMENT =? ANNOUNCEMENT) with true. cbv iota zeta.
    assert (HF : hops (y_coord y) fa = length (co_servers (y_coord y))).
    { unfold first_server in EF. unfold hops. rewrite <- S2. destruct (co_servers c1) as [|[a0 pk0] ls0]; [discriminate|]. cbn in EF. injection EF as ->.
      cbn [map fst drop_to]. destruct (keq fa fa); [|congruence]. cbn [length]. now rewrite map_length. }
    rewrite HF. lia.
  - cbn [co_step] in ES. unfold begin_round in ES. destruct (negb _); [discriminate|]. unfold announce in ES. cbv zeta in ES.
    set (c1 := set_status _ CO_ANNOUNCE) in ES.
    destruct (first_server c1) as [fa|] eqn:EF.
    2:{ exfalso. injection ES as <- _. apply (b_ne _ _ _ _ _ B). rewrite <- S2. unfold first_server in EF. change (co_servers (set_status c1 CO_MESSAGE)) with (co_servers c1).
        destruct (co_servers c1); [reflexivity|discriminate]. }
    odestruct ES. injection ES as <- <-. split; [reflexivity|]. intros m Im T. apply in_app_or in Im. destruct Im as [Im|[<-|[]]]; [|discriminate T].
    unfold settled in SE. assert (X : In m (core (y_msgs y))) by (apply core_in; split; [assumption|unfold inert; rewrite T; reflexivity]). rewrite SE in X. destruct X.
Qed.

Lemma due_end y V ord rs y' : inv S G y V -> guard S y V (ALoop (EEnd ord rs)) -> sys_step S H G y (ALoop (EEnd ord rs)) = Some y' ->
  due y' = (length (co_servers (y_coord y)) + 2 * length (co_clients (y_coord y)) + 1)%nat /\
  co_servers (y_coord y') = co_servers (y_coord y) /\ co_clients (y_coord y') = co_clients (y_coord y) /\ ending y'.
Proof.
  intros [B P] (ST & SE & _) E. pose proof (proj1 (settled_due y) SE) as D0. cbn [sys_step is_loop] in E.
  destruct (co_step _ _ _ _) as [[c' out]|] eqn:ES; [|discriminate]. injection E as <-.
  destruct (co_step_frame S G _ _ _ _ ES) as [FR _].
  pose proof (step_static S H G _ _ _ _ ES) as S1. assert (S2 : co_servers c' = co_servers (y_coord y)) by (apply (co_servers_step S H G _ _ c' out ES); discriminate).
  assert (S3 : co_clients c' = co_clients (y_coord y)) by (apply (FR FClients); cbn; intuition discriminate).
  unfold due. cbn [y_coord y_msgs]. split; [|split; [assumption|split; [assumption|]]].
  - rewrite (work_same (y_coord y) c'); [|assumption|now apply same_addr|now rewrite S3]. rewrite work_app. unfold due in D0. rewrite D0. cbn [Nat.add].
    cbn [co_step] in ES. unfold round_end in ES. destruct (last_server (y_coord y)) as [la|] eqn:EL.
    2:{ exfalso. pose proof (b_ne _ _ _ _ _ B) as X. unfold last_server in EL. destruct (rev (co_servers (y_coord y))) eqn:ER; [|discriminate].
        apply X. rewrite <- (rev_involutive (co_servers (y_coord y))), ER. reflexivity. }
    cbv zeta in ES. odestruct ES. injection ES as <- <-. change (?a :: ?l) with ([a] ++ l). rewrite work_app, (work_each _ (to_clients _ _ _)).
    2:{ apply Forall_forall. intros m Hm. unfold to_clients in Hm. apply in_map_iff in Hm. destruct Hm as (q & <- & _). reflexivity. }
    unfold to_clients. rewrite map_length. change (co_clients (clear_bridges ?c)) with (co_clients c) in S3. rewrite S3.
    assert (HL : hops (y_coord y) la = 1%nat /\ la <> co_addr (y_coord y)).
    { pose proof (last_chain _ _ EL) as LC. pose proof (b_ne _ _ _ _ _ B) as NE.
      destruct (before_chain S _ _ _ V (length (co_servers (y_coord y))) B (Nat.le_refl _)) as [[Z _]|(j & a & s & Ej & E1 & E2 & _ & E3 & _)].
      - exfalso. apply NE. now apply length_zero_iff_nil.
      - assert (Ea : a = la) by congruence. rewrite Ea in *. split; [|assumption]. rewrite (hops_nth _ _ _ V j la B E2). lia. }
    destruct HL as [HL HN]. unfold work. cbn [map list_sum fold_right]. unfold cost, inert. cbn [mType mDst].
    change (existsb (Z.eqb Net.ROUND_END) inert_types) with false.
    repeat match goal with |- context [?a =? ?b] => let v := eval compute in (a =? b) in change (a =? b) with v end. cbv iota zeta.
    destruct (keq la (co_addr (y_coord y))) as [?|_]; [contradiction|]. rewrite HL. change (Nat.eqb 1 0) with false. cbv iota. lia.
  - assert (S4 : co_status c' = co_status (y_coord y)).
    { cbn [co_step] in ES. unfold round_end in ES. destruct (last_server (y_coord y)) as [la|] eqn:EL.
      2:{ exfalso. pose proof (b_ne _ _ _ _ _ B) as X. unfold last_server in EL. destruct (rev (co_servers (y_coord y))) eqn:ER; [|discriminate].
          apply X. rewrite <- (rev_involutive (co_servers (y_coord y))), ER. reflexivity. }
      cbv zeta in ES. odestruct ES. injection ES as <- <-. change (co_status (clear_bridges ?c)) with (co_status c).
      assert (X : forall l c, co_status (fold_left (fun c kv => add_ending c (fst kv) (snd kv)) l c) = co_status c).
      { intros lb. induction lb as [|q lb IH]; intros c; [reflexivity|]. cbn [fold_left]. now rewrite IH. }
      apply X. }
    split; [cbn [y_coord]; congruence|]. cbn [y_msgs].
    cbn [co_step] in ES. unfold round_end in ES. destruct (last_server (y_coord y)) as [la|] eqn:EL.
    2:{ exfalso. pose proof (b_ne _ _ _ _ _ B) as X. unfold last_server in EL. destruct (rev (co_servers (y_coord y))) eqn:ER; [|discriminate].
        apply X. rewrite <- (rev_involutive (co_servers (y_coord y))), ER. reflexivity. }
    cbv zeta in ES. odestruct ES. injection ES as <- <-. eexists. split; [apply in_or_app; right; left; reflexivity|reflexivity].
Qed.

(** ** The stages of a round *)
(** A round has been announced and is not at its end. *)
Definition opening (y : sys) : Prop := co_status (y_coord y) <> CO_READY_FOR_NEW_ROUND /\ no_end (y_msgs y).
(** A round is at its end or over. *)
Definition closing (y : sys) : Prop := co_status (y_coord y) = CO_READY_FOR_NEW_ROUND \/ ending y.
Definition is_begin (a : action) : bool := match a with ALoop (EBegin _ _) => true | _ => false end.

Lemma co_status_step c ty p src rn c' out : co_handle S G c ty p src rn = Some (c', out) -> ty <> Net.ROUND_END ->
  (co_status c' = co_status c \/ (ty = ANNOUNCEMENT /\ co_status c' = CO_MESSAGE)) /\ (forall m, In m out -> mType m <> Net.ROUND_END).
Proof.
  intros E N. destruct (co_step_frame S G c (EMsg ty p src rn) c' out E) as [FR EM]. cbn [writes_ev emits_ev] in *. split.
  - destruct (Z.eqb_spec ty ANNOUNCEMENT) as [->|NA].
    + right. split; [reflexivity|]. change (co_handle S G c ANNOUNCEMENT p src rn) with (co_announcement S c p) in E. unfold co_announcement in E. cbv zeta in E.
      odestruct E. injection E as <- <-. reflexivity.
    + left. apply (FR FStatus). unfold writes. apply Z.eqb_neq in NA, N. rewrite NA, N.
      repeat match goal with |- context [if ?b then _ else _] => destruct b end; cbn; intuition discriminate.
  - intros m Im T. specialize (EM m Im). rewrite T in EM. unfold emits in EM. apply Z.eqb_neq in N. rewrite N in EM. revert EM.
    repeat match goal with |- context [if ?b then _ else _] => destruct b end; cbn; intuition discriminate.
Qed.

Lemma opening_step y V a y' : opening y -> guard S y V a -> is_end a = false -> sys_step S H G y a = Some y' -> opening y'.
Proof.
  intros [O1 O2] GU NE E. destruct a as [a priv rk|a priv s|i cr sr chal|e|a cmd]; cbn [sys_step] in E.
  - destruct GU.
  - destruct (keq a _); [discriminate|]. destruct (mget (y_servers y) a); [discriminate|].
    destruct (mget (y_clients y) a); [discriminate|]. injection E as <-. split; [assumption|]. cbn [y_msgs].
    intros m Im. apply in_app_or in Im. destruct Im as [Im|[<-|[]]]; [now apply O2|discriminate].
  - destruct (nth_error (y_msgs y) i) as [m|] eqn:EM; [|discriminate]. cbn zeta in E.
    destruct (pick_split i _ m EM) as (l1 & l2 & EL & ER). rewrite ER in E.
    assert (NM : mType m <> Net.ROUND_END) by (apply O2; now apply nth_error_In in EM).
    assert (NR : forall m0, In m0 (l1 ++ l2) -> mType m0 <> Net.ROUND_END).
    { intros m0 I0. apply O2. rewrite EL. apply in_app_or in I0. apply in_or_app. destruct I0; [now left|right; now right]. }
    destruct (keq (mDst m) (co_addr (y_coord y))) as [Ed|Nd].
    + destruct (co_handle _ _ _ _ _ _ _) as [[c' out]|] eqn:EH; [|discriminate]. injection E as <-.
      destruct (co_status_step _ _ _ _ _ _ _ EH NM) as [S1 S2]. split; cbn [y_coord y_msgs].
      * destruct S1 as [->|[_ ->]]; [assumption|discriminate].
      * intros m0 I0. apply in_app_or in I0. destruct I0; auto.
    + destruct (mget (y_servers y) (mDst m)) as [s|] eqn:ES.
      * destruct (sv_handle _ _ _ _ _ _ _ _) as [[s' out]|] eqn:EH; [|discriminate]. injection E as <-. split; [assumption|]. cbn [y_msgs].
        destruct (C60_server_frame S H G _ _ _ _ _ _ _ EH) as [_ SO]. intros m0 I0. apply in_app_or in I0. destruct I0 as [I0|I0]; [auto|].
        intros T. specialize (SO m0 I0). rewrite T in SO. clear - SO NM. cbn [In] in SO.
        repeat (destruct SO as [SO|SO]; [injection SO; intros; congruence || discriminate|]). destruct SO.
      * destruct (mget (y_clients y) (mDst m)) as [k|] eqn:EK; [|discriminate].
        destruct (cl_handle _ _ _ _ _ _) as [[k' out]|] eqn:EH; [|discriminate]. injection E as <-. split; [assumption|]. cbn [y_msgs].
        destruct (handle_quiet S G _ _ _ _ _ _ EH) as (_ & IO). rewrite Forall_forall in IO. intros m0 I0 T. apply in_app_or in I0. destruct I0 as [I0|I0]; [now apply (NR m0)|].
        specialize (IO m0 I0). unfold inert in IO. rewrite T in IO. discriminate IO.
  - destruct e as [ty p src rn| |fakes ord| |ord rs]; try (destruct GU; fail); try discriminate NE.
    + destruct GU as (SE & _). cbn [is_loop co_step] in E. destruct (begin_round _ _ _ _) as [[c' out]|] eqn:ES; [|discriminate]. exfalso.
      unfold begin_round in ES. destruct (Z.eqb_spec (co_status (y_coord y)) CO_READY_FOR_NEW_ROUND) as [X|X]; [contradiction|discriminate ES].
    + cbn [is_loop co_step begin_vote] in E. injection E as <-. split; [assumption|]. cbn [y_msgs]. intros m I0. apply in_app_or in I0. destruct I0 as [I0|I0]; [auto|].
      rewrite (to_clients_type _ _ _ _ I0). discriminate.
  - destruct (mget (y_clients y) a) as [k|]; [|discriminate].
    destruct (cl_command S G k cmd) as [out|] eqn:EC; [|discriminate]. injection E as <-. apply command_inert in EC. split; [assumption|]. cbn [y_msgs].
    intros m I0 T. apply in_app_or in I0. destruct I0 as [I0|I0]; [now apply (O2 m)|]. rewrite Forall_forall in EC. specialize (EC m I0). unfold inert in EC. rewrite T in EC. discriminate EC.
Qed.

Lemma closing_step y V a y' : inv S G y V -> closing y -> guard S y V a -> is_begin a = false -> sys_step S H G y a = Some y' -> closing y'.
Proof.
  intros I C GU NB E.
  assert (KEEP : co_status (y_coord y') = co_status (y_coord y) -> (forall m, In m (y_msgs y) -> mType m = Net.ROUND_END -> exists m', In m' (y_msgs y') /\ mType m' = Net.ROUND_END) -> closing y').
  { intros E1 E2. destruct C as [C|(C1 & m & C2 & C3)]; [left; congruence|right]. split; [congruence|]. eauto. }
  destruct a as [a priv rk|a priv s|i cr sr chal|e|a cmd]; cbn [sys_step] in E.
  - destruct GU.
  - destruct (keq a _); [discriminate|]. destruct (mget (y_servers y) a); [discriminate|].
    destruct (mget (y_clients y) a); [discriminate|]. injection E as <-. apply KEEP; [reflexivity|]. intros m Im T. exists m. split; [|assumption]. apply in_or_app. now left.
  - pose proof I as [B P]. destruct (nth_error (y_msgs y) i) as [m|] eqn:EM; [|discriminate]. cbn zeta in E.
    destruct (pick_split i _ m EM) as (l1 & l2 & EL & ER). rewrite ER in E.
    assert (RE : mType m <> Net.ROUND_END -> forall out m0, In m0 (y_msgs y) -> mType m0 = Net.ROUND_END -> exists m', In m' ((l1 ++ l2) ++ out) /\ mType m' = Net.ROUND_END).
    { intros NM out m0 I0 T. exists m0. split; [|assumption]. rewrite EL in I0. apply in_or_app. left. apply in_app_or in I0. apply in_or_app.
      destruct I0 as [I0|[<-|I0]]; [now left|contradiction|now right]. }
    destruct (keq (mDst m) (co_addr (y_coord y))) as [Ed|Nd].
    + destruct (co_handle _ _ _ _ _ _ _) as [[c' out]|] eqn:EH; [|discriminate]. injection E as <-.
      destruct (Z.eq_dec (mType m) Net.ROUND_END) as [T|NT].
      * left. cbn [y_coord]. rewrite T in EH. change (co_handle S G (y_coord y) Net.ROUND_END (mParams m) (mSrc m) cr) with (co_round_end S G (y_coord y) (mParams m) cr) in EH.
        unfold co_round_end in EH. cbv zeta in EH. odestruct EH. injection EH as <- <-. reflexivity.
      * destruct (co_status_step _ _ _ _ _ _ _ EH NT) as [[S1|[T S1]] _]; [now apply KEEP; [|apply RE]|]. exfalso.
        assert (IC : In m (core (y_msgs y))) by (apply core_in; split; [now apply nth_error_In in EM|unfold inert; rewrite T; reflexivity]).
        destruct C as [C|(C1 & mr & C2 & C3)]; destruct P as [T' A|T' j p keys vals GT HT A|T0 T1 K A|T' n M1 p keys vals GT HT A].
        -- pose proof (p1_msg _ _ _ _ _ _ _ A) as F. rewrite Forall_forall in F. destruct (F m IC) as [[X _]|[[X _]|[X _]]]; rewrite T in X; discriminate X.
        -- pose proof (p2_status _ _ _ _ _ _ _ _ _ _ _ _ _ _ A) as X. rewrite C in X. discriminate.
        -- pose proof (p3_status _ _ _ _ _ _ _ _ _ A) as X. rewrite C in X. discriminate.
        -- pose proof (p4_status _ _ _ _ _ _ _ _ _ _ _ _ _ _ _ A) as X. rewrite C in X. discriminate.
        -- pose proof (p1_status _ _ _ _ _ _ _ A) as X. rewrite C1 in X. discriminate.
        -- pose proof (p2_status _ _ _ _ _ _ _ _ _ _ _ _ _ _ A) as X. rewrite C1 in X. discriminate.
        -- pose proof (p3_msg _ _ _ _ _ _ _ _ _ A) as F. rewrite Forall_forall in F. destruct (F m IC); discriminate T.
        -- destruct (p4_M _ _ _ _ _ _ _ _ _ _ _ _ _ _ _ A) as [src PM]. apply (Permutation_in _ PM) in IC. destruct IC as [<-|IC]; [discriminate T|].
           pose proof (p4_M1 _ _ _ _ _ _ _ _ _ _ _ _ _ _ _ A) as F. rewrite Forall_forall in F. destruct (F m IC) as [X _]. rewrite T in X. discriminate X.
    + destruct (mget (y_servers y) (mDst m)) as [s|] eqn:ES.
      * destruct (sv_handle _ _ _ _ _ _ _ _) as [[s' out]|] eqn:EH; [|discriminate]. injection E as <-. apply KEEP; [reflexivity|]. cbn [y_msgs].
        destruct (Z.eq_dec (mType m) Net.ROUND_END) as [T|NT]; [|now apply RE]. intros _ _ _. rewrite T in EH.
        change (sv_handle S H G s Net.ROUND_END (mParams m) (mSrc m) sr) with (sv_round_end S H s (mParams m) sr) in EH. destruct (end_out _ _ _ _ _ EH) as (p' & ->).
        eexists. split; [apply in_or_app; right; left; reflexivity|reflexivity].
      * destruct (mget (y_clients y) (mDst m)) as [k|] eqn:EK; [|discriminate].
        destruct (cl_handle _ _ _ _ _ _) as [[k' out]|] eqn:EH; [|discriminate]. injection E as <-.
        destruct (Z.eq_dec (mType m) Net.ROUND_END) as [T|NT]; [|now apply KEEP; [|apply RE]].
        destruct C as [C|C]; [now left|]. exfalso.
        destruct (round_end_to S G y V m I) as [Y|Y]; auto. now apply nth_error_In in EM.
  - destruct e as [ty p src rn| |fakes ord| |ord rs]; try (destruct GU; fail); try discriminate NB.
    + cbn [is_loop co_step begin_vote] in E. injection E as <-. apply KEEP; [reflexivity|]. intros m Im T. exists m. split; [|assumption]. apply in_or_app. now left.
    + exfalso. destruct GU as (G1 & G2 & _). destruct C as [C|(_ & m & C2 & C3)]; [rewrite C in G1; discriminate|].
      unfold settled in G2. assert (X : In m (core (y_msgs y))) by (apply core_in; split; [assumption|unfold inert; rewrite C3; reflexivity]). rewrite G2 in X. destruct X.
  - destruct (mget (y_clients y) a) as [k|]; [|discriminate].
    destruct (cl_command S G k cmd) as [out|] eqn:EC; [|discriminate]. injection E as <-. apply KEEP; [reflexivity|]. intros m Im T. exists m. split; [|assumption]. apply in_or_app. now left.
Qed.

Lemma opening_settled y V : inv S G y V -> opening y -> settled y -> open_round y.
Proof.
  intros [B P] [O1 O2] SE. unfold settled in SE. rewrite SE in P.
  assert (ST : co_status (y_coord y) = CO_MESSAGE).
  { destruct P as [T A|T j p keys vals GT HT A|T0 T1 K A|T n M1 p keys vals GT HT A].
    - exfalso. apply O1. apply A.
    - destruct (p2_M _ _ _ _ _ _ _ _ _ _ _ _ _ _ A) as [src X]. discriminate X.
    - apply A.
    - apply A. }
  split; [assumption|]. split.
  - intros (_ & m & Im & T). now apply (O2 m).
  - intros m Im T. assert (X : In m (core (y_msgs y))) by (apply core_in; split; [assumption|unfold inert; rewrite T; reflexivity]). rewrite SE in X. destruct X.
Qed.
Lemma closing_settled y : closing y -> settled y -> co_status (y_coord y) = CO_READY_FOR_NEW_ROUND.
Proof.
  intros [C|(_ & m & Im & T)] SE; [assumption|]. exfalso. unfold settled in SE.
  assert (X : In m (core (y_msgs y))) by (apply core_in; split; [assumption|unfold inert; rewrite T; reflexivity]). rewrite SE in X. destruct X.
Qed.
(** ** Every schedule *)
Lemma drop_core y V i cr sr chal y' m : inv S G y V -> nth_error (y_msgs y) i = Some m -> inert m = false ->
  sys_step S H G y (ADeliver i cr sr chal) = Some y' -> due y = Datatypes.S (due y').
Proof. intros I EM IM E. pose proof (due_deliver _ _ _ _ _ _ _ I E) as D. cbn [is_core] in D. rewrite EM, IM in D. cbn [negb] in D. lia. Qed.

Lemma due_core y : due y <> 0%nat -> exists i m, nth_error (y_msgs y) i = Some m /\ inert m = false.
Proof.
  intros N. destruct (core (y_msgs y)) as [|m l] eqn:E; [exfalso; apply N; now apply settled_due|].
  assert (IC : In m (core (y_msgs y))) by (rewrite E; now left). apply core_in in IC. destruct IC as [I0 I1]. apply In_nth_error in I0. destruct I0 as [i I0]. exists i, m. now split.
Qed.

(** The votes stay as they are while the table is on its way back. *)
Lemma votes_keep y V i m cr sr chal y' : inv S G y V -> closing y -> guard S y V (ADeliver i cr sr chal) -> nth_error (y_msgs y) i = Some m -> inert m = false ->
  (ending y -> votes_in_table (y_coord y)) -> sys_step S H G y (ADeliver i cr sr chal) = Some y' -> ending y' -> votes_in_table (y_coord y').
Proof.
  intros I C GU EM IM VT E EN. pose proof (closing_step _ _ _ _ I C GU eq_refl E) as C'. cbn [sys_step] in E. rewrite EM in E. cbn zeta in E.
  destruct (pick_split i _ m EM) as (l1 & l2 & EL & ER). rewrite ER in E.
  assert (ENM : co_status (y_coord y) <> CO_READY_FOR_NEW_ROUND -> ending y) by (destruct C; tauto).
  destruct (keq (mDst m) (co_addr (y_coord y))) as [Ed|Nd].
  - destruct (co_handle _ _ _ _ _ _ _) as [[c' out]|] eqn:EH; [|discriminate]. injection E as <-. exfalso. destruct EN as [EN _]. cbn [y_coord] in EN.
    destruct I as [B P]. pose proof (self_not_cl _ _ _ _ _ B) as NC.
    assert (IC : In m (core (y_msgs y))) by (apply core_in; split; [now apply nth_error_In in EM|assumption]).
    destruct P as [T A|T j p keys vals GT HT A|T0 T1 K A|T n M1 p keys vals GT HT A].
    + pose proof (p1_msg _ _ _ _ _ _ _ A) as F. rewrite Forall_forall in F. destruct (F m IC) as [[_ X]|[[_ X]|[_ X]]]; rewrite Ed in X; [|congruence|congruence].
      apply (in_chain _ _ _ _ _ _ B) in X. destruct X. congruence.
    + pose proof (p2_status _ _ _ _ _ _ _ _ _ _ _ _ _ _ A) as X. destruct C as [C|[C _]]; rewrite C in X; discriminate X.
    + pose proof (p3_status _ _ _ _ _ _ _ _ _ A) as X. destruct C as [C|(_ & mr & C2 & C3)]; [rewrite C in X; discriminate X|].
      pose proof (p3_msg _ _ _ _ _ _ _ _ _ A) as F. rewrite Forall_forall in F.
      assert (IR : In mr (core (y_msgs y))) by (apply core_in; split; [assumption|unfold inert; rewrite C3; reflexivity]). destruct (F mr IR); discriminate C3.
    + destruct (p4_M _ _ _ _ _ _ _ _ _ _ _ _ _ _ _ A) as [src PM]. apply (Permutation_in _ PM) in IC. destruct IC as [<-|IC].
      * change (co_round_end S G (y_coord y) p cr = Some (c', out)) in EH. unfold co_round_end in EH. cbv zeta in EH. odestruct EH. injection EH as <- <-. cbn [co_status] in EN. discriminate EN.
      * pose proof (p4_M1 _ _ _ _ _ _ _ _ _ _ _ _ _ _ _ A) as F. rewrite Forall_forall in F. destruct (F m IC) as [_ X]. rewrite Ed in X. apply X. exact NC.
  - assert (EC : y_coord y' = y_coord y).
    { destruct (mget (y_servers y) (mDst m)); [destruct (sv_handle _ _ _ _ _ _ _ _) as [[? ?]|]; [|discriminate]; now injection E as <-|].
      destruct (mget (y_clients y) (mDst m)); [|discriminate]. destruct (cl_handle _ _ _ _ _ _) as [[? ?]|]; [|discriminate]; now injection E as <-. }
    rewrite EC. apply VT, ENM. destruct EN as [EN _]. rewrite EC in EN. intros X. rewrite X in EN. discriminate EN.
Qed.

Lemma votes_end y V ord rs y' : inv S G y V -> votes_in_table (y_coord y) -> sys_step S H G y (ALoop (EEnd ord rs)) = Some y' -> votes_in_table (y_coord y').
Proof.
  intros [B _] VT E. cbn [sys_step is_loop] in E. destruct (co_step _ _ _ _) as [[c' out]|] eqn:ES; [|discriminate]. injection E as <-. cbn [y_coord].
  destruct (co_step_frame S G _ _ _ _ ES) as [FR _].
  assert (S3 : co_diffs c' = co_diffs (y_coord y)) by (apply (FR FDiffs); cbn; intuition discriminate).
  intros nym N. rewrite S3 in N. specialize (VT nym N).
  cbn [co_step] in ES. unfold round_end in ES. destruct (last_server (y_coord y)) as [la|] eqn:EL; [|injection ES as <- <-; assumption].
  cbv zeta in ES. odestruct ES. injection ES as <- <-. change (co_ekeys (clear_bridges ?c)) with (co_ekeys c).
  assert (X : forall l c, mget (co_ekeys c) nym <> None -> mget (co_ekeys (fold_left (fun c kv => add_ending c (fst kv) (snd kv)) l c)) nym <> None).
  { intros lb. induction lb as [|q lb IH]; intros c N0; [assumption|]. cbn [fold_left]. apply IH. unfold add_ending.
    change (co_ekeys (set_ecomms ?c ?v)) with (co_ekeys c). change (co_ekeys (set_ekeys ?c ?v)) with v.
    destruct (Z.eq_dec nym (fst q)) as [->|Nq]; [rewrite mget_mset_eq; discriminate|rewrite mget_mset_ne; [assumption|congruence]]. }
  now apply X.
Qed.
End Live.
