(** Tables on their way through the servers: C38, C39, C40. *)
From Coq Require Import ZArith Znumtheory Lia List Bool Permutation.
From Coq Require Import Strings.Byte.
From Coq Require String.
From Verif Require Import ZMod Bytes Suite Spec Pedersen ElGamal FujiOkam Equality Codec Maps Net Bridge Client
  Perm SimpleShuffle PairShuffle Server Coordinator History Chain.
From Verif Require Prop_FujiOkam Prop_Codec Prop_Bridge Prop_Shuffle Prop_Assign.
Import ListNotations.
Import String.StringSyntax.
Open Scope Z_scope.
Delimit Scope string_scope with str.

(** ** The chain *)
(** An announcement handed from server to server (each with its own random values); the
    servers afterwards and the parameters of the last message. *)
Fixpoint chain_announce (S : suite) (H : oracle) (l : list (server * sv_rand)) (p : params)
  : option (list server * params) :=
  match l with
  | [] => Some ([], p)
  | (s, rn) :: r =>
      match sv_announcement S H s p rn with
      | Some (s', [m]) => olet (ss, p') := chain_announce S H r (mParams m) in Some (s' :: ss, p')
      | _ => None
      end
  end.
(** The registration of a client handed from server to server. *)
Fixpoint chain_register (S : suite) (l : list server) (p : params) : option (list server * params) :=
  match l with
  | [] => Some ([], p)
  | s :: r =>
      match sv_client_register S s p with
      | Some (s', [m]) => olet (ss, p') := chain_register S r (mParams m) in Some (s' :: ss, p')
      | _ => None
      end
  end.

Definition prod_of (l : list Z) : Z := fold_right Z.mul 1 l.
Definition round_keys (l : list (server * sv_rand)) : Z := prod_of (map (fun x => sv_roundkey (fst x)) l).
Definition factors (l : list (server * sv_rand)) : Z := prod_of (map (fun x => srE (snd x)) l).

Lemma prod_of_nonneg l : Forall (fun x => 0 <= x) l -> 0 <= prod_of l.
Proof. unfold prod_of. induction 1; cbn [fold_right]; [lia|]. nia. Qed.
Lemma prod_of_perm l l' : Permutation l l' -> prod_of l = prod_of l'.
Proof. unfold prod_of. induction 1; cbn [fold_right]; lia. Qed.

Section Chain.
Context (S : suite) (OK : suite_ok S) (H : oracle).

Lemma pt_mul_mul a x y : in_group S a -> pt_mul S (pt_mul S a x) y = pt_mul S a (x * y).
Proof. intros Ha. unfold pt_mul. apply zexp_mul; [apply OK|now apply (in_group_unit S OK)]. Qed.
Lemma pt_mul_1 a : in_group S a -> pt_mul S a 1 = a.
Proof.
  intros Ha. pose proof (ok_P S OK). unfold pt_mul. rewrite zexp_1 by lia. apply Z.mod_small. destruct Ha. lia.
Qed.
Lemma pt_mul_pow a x : 0 <= x -> pt_mul S a x = (a ^ x) mod sP S.
Proof. intros Hx. pose proof (ok_P S OK). unfold pt_mul. now apply zexp_pos; [lia|]. Qed.

Lemma carries_next g fk fv GT HT extra :
  carries S (("g"%str, VBytes (enc_point S g)) :: table_params S fk fv GT HT ++ extra) fk fv GT HT /\
  carries_g S (("g"%str, VBytes (enc_point S g)) :: table_params S fk fv GT HT ++ extra) g.
Proof.
  split; [|right; split; reflexivity].
  apply (lookup_table_params S fk fv GT HT extra [("g"%str, VBytes (enc_point S g))]).
  intros k Hk. repeat (destruct Hk as [<-|Hk]; [reflexivity|]). destruct Hk.
Qed.

Lemma combine_keys (k v : list Z) : length v = length k -> map fst (combine k v) = k.
Proof.
  revert v. induction k as [|a k IH]; intros [|b v] L; cbn in *; try lia; [reflexivity|]. f_equal. apply IH. lia.
Qed.

Lemma map_pair_in (f f' : Z * Z -> Z * Z) (k v : list Z) :
  (forall x, In (fst x) k -> In (snd x) v -> f x = f' x) -> map f (combine k v) = map f' (combine k v).
Proof.
  intros E. apply map_ext_in. intros [a b] Hab. apply E; cbn; [now apply in_combine_l in Hab|now apply in_combine_r in Hab].
Qed.

(** The servers' registered state: correct key pair, invertible round key. *)
Definition ready (x : server * sv_rand) : Prop := server_ok S (fst x).

Lemma chain_announce_spec : forall l p g keys vals GT HT ss p',
  Forall ready l -> carries S p keys vals GT HT -> carries_g S p g -> in_group S g -> table_ok S keys vals GT HT ->
  chain_announce S H l p = Some (ss, p') ->
  exists fk fv, carries S p' fk fv (pt_mul S GT (factors l)) (pt_mul S HT (factors l)) /\
    carries_g S p' (pt_mul S g (round_keys l)) /\
    table_ok S fk fv (pt_mul S GT (factors l)) (pt_mul S HT (factors l)) /\
    Permutation (combine fk fv)
      (map (fun kv => (pt_mul S (fst kv) (round_keys l), pt_mul S (snd kv) (factors l))) (combine keys vals)) /\
    map sv_roundkey ss = map (fun x => sv_roundkey (fst x)) l /\ Forall (server_ok S) ss.
Proof.
  induction l as [|[s rn] l IH]; intros p g keys vals GT HT ss p' R C Cg Hg T E; cbn [chain_announce] in E.
  - injection E as <- <-. exists keys, vals. unfold factors, round_keys. cbn [map prod_of fold_right].
    pose proof T as T0. destruct T as [T1 T2 T3 T4 T5 T6].
    rewrite !pt_mul_1 by assumption. repeat (split; [assumption|]). split; [|split; constructor].
    rewrite <- (map_id (combine keys vals)) at 1. apply Permutation_refl'. apply map_pair_in.
    intros [a b] Ha Hb. cbn [fst snd] in *. rewrite Forall_forall in T1, T2. rewrite !pt_mul_1 by auto. reflexivity.
  - inversion R as [|? ? Rs Rl]; subst. cbn [ready fst] in Rs.
    destruct (sv_announcement S H s p rn) as [[s' out]|] eqn:E1; [|discriminate].
    destruct (ann_step S OK H s p rn g keys vals GT HT s' out Rs C Cg Hg T E1)
      as (fk & fv & extra & -> & P1 & T1 & _ & _ & OKs & RK & _).
    cbn [mParams] in E.
    destruct (chain_announce S H l _) as [[ss' p1]|] eqn:E2; [|discriminate]. injection E as <- <-.
    destruct (carries_next (pt_mul S g (sv_roundkey s)) fk fv (pt_mul S GT (srE rn)) (pt_mul S HT (srE rn)) extra) as [C1 C2].
    destruct (IH _ (pt_mul S g (sv_roundkey s)) fk fv _ _ ss' p1 Rl C1 C2 ltac:(unfold pt_mul; in_grp) T1 E2)
      as (fk' & fv' & D1 & D2 & D3 & D4 & D5 & D6).
    exists fk', fv'. destruct T as [TA TB TC TD TE TF].
    rewrite (pt_mul_mul GT), (pt_mul_mul HT) in D1, D3 by assumption. rewrite (pt_mul_mul g) in D2 by assumption.
    unfold factors, round_keys in *. cbn [map prod_of fold_right fst snd].
    split; [exact D1|]. split; [exact D2|]. split; [exact D3|]. split; [|split; [cbn [map]; now rewrite RK, D5|now constructor]].
    eapply Permutation_trans; [exact D4|].
    eapply Permutation_trans; [apply Permutation_map; exact P1|]. rewrite map_map. apply Permutation_refl'. apply map_pair_in.
    intros [a b] Ha Hb. cbn [fst snd] in *. rewrite Forall_forall in TA, TB. rewrite !pt_mul_mul by auto. reflexivity.
Qed.

Lemma chain_register_spec : forall l k a pc ss p',
  in_group S k -> Forall (server_ok S) l ->
  chain_register S l [("public_key"%str, VBytes (enc_point S k)); ("addr"%str, VStr a); ("pcomm"%str, VBytes pc)]
    = Some (ss, p') ->
  p' = [("public_key"%str, VBytes (enc_point S (pt_mul S k (prod_of (map sv_roundkey l))))); ("addr"%str, VStr a);
        ("pcomm"%str, VBytes pc)].
Proof.
  induction l as [|s l IH]; intros k a pc ss p' Hk F E; cbn [chain_register] in E.
  - injection E as <- <-. cbn [map prod_of fold_right]. now rewrite pt_mul_1.
  - inversion F as [|? ? Fs Fl]; subst.
    unfold sv_client_register, get_bytes, get_str in E. cbn [lookup String.eqb Ascii.eqb Bool.eqb] in E.
    rewrite (dec_enc_point S OK k Hk) in E. cbn [mParams] in E.
    destruct (chain_register S l _) as [[ss' p1]|] eqn:E2; [|discriminate]. injection E as <- <-.
    apply IH in E2; [|unfold pt_mul; in_grp|assumption]. rewrite E2.
    cbn [map prod_of fold_right]. now rewrite pt_mul_mul.
Qed.

(** [announce] sends the table in the iteration order of the map. *)
Lemma announce_spec c ord c' out : (forall k, mget (co_bkeys c) k = option_map (fun _ => k) (mget (co_bcomms c) k)) ->
  range_order ord (co_bcomms c) -> announce S c ord = Some (c', out) -> co_servers c <> [] ->
  c' = c /\ exists vals a,
    out = [Msg a ANNOUNCEMENT (table_params S ord vals (pb_GT (co_pb c)) (pb_HT (co_pb c))) (co_addr c)] /\
    nth_error (map fst (co_servers c)) 0 = Some a /\
    Forall2 (fun k v => mget (co_bcomms c) k = Some v) ord vals.
Proof.
  intros HB HO E NE. unfold announce in E. unfold first_server in E.
  destruct (co_servers c) as [|[a pk] srv]; [congruence|]. cbn [nth_error option_map fst] in E.
  unfold non_nil in E.
  destruct (dec_all (fun o => o) (map (fun k => mget (co_bkeys c) k) ord)) as [keys|] eqn:E1; [|discriminate].
  destruct (dec_all (fun o => o) (map (fun k => mget (co_bcomms c) k) ord)) as [vals|] eqn:E2; [|discriminate].
  injection E as <- <-. split; [reflexivity|].
  apply dec_all_spec in E1, E2.
  assert (G1 : forall ord vals (f : Z -> option Z), Forall2 (fun o b => o = Some b) (map f ord) vals ->
    Forall2 (fun k v => f k = Some v) ord vals).
  { clear. induction ord as [|k l IH]; intros vals f F; inversion F; subst; constructor; auto. }
  apply G1 in E1, E2.
  assert (keys = ord) as ->.
  { clear - E1 HB. induction E1 as [|k b l l' E F IH]; [reflexivity|]. f_equal; [|exact IH].
    rewrite HB in E. destruct (mget (co_bcomms c) k); [|discriminate]. now injection E as <-. }
  exists vals, a. split; [reflexivity|]. split; [reflexivity|assumption].
Qed.
End Chain.

(** ** C40 *)
(** [announce], the servers in the order of the chain, [handleAnnouncement]: the table is
    the old one, in some order, with every key raised to the product K of the round keys
    and every commitment to the product E of the servers' factors; so are GT and HT. *)
Theorem C40_table_preserved : forall S, suite_ok S -> forall H c ord c1 m l ss p' c2 out2,
  (* the coordinator's beginning tables: the same distinct group elements as keys *)
  mwf (co_bcomms c) -> (forall k, mget (co_bkeys c) k = option_map (fun _ => k) (mget (co_bcomms c) k)) ->
  Forall (in_group S) (map fst (co_bcomms c)) -> Forall (in_group S) (map snd (co_bcomms c)) ->
  in_group S (pb_GT (co_pb c)) -> in_group S (pb_HT (co_pb c)) ->
  (* the servers, with secrets as picked *)
  Forall (fun x => server_ok S (fst x) /\ 0 <= sv_roundkey (fst x) /\ 0 <= srE (snd x)) l ->
  range_order ord (co_bcomms c) ->
  announce S c ord = Some (c1, [m]) ->
  chain_announce S H l (mParams m) = Some (ss, p') ->
  co_announcement S c1 p' = Some (c2, out2) ->
  let K := round_keys l in let E := factors l in
  Permutation (co_ecomms c2)
    (map (fun kv => ((fst kv ^ K) mod sP S, (snd kv ^ E) mod sP S)) (co_bcomms c)) /\
  pb_GT (co_pb c2) = (pb_GT (co_pb c) ^ E) mod sP S /\
  pb_HT (co_pb c2) = (pb_HT (co_pb c) ^ E) mod sP S /\
  co_G c2 = Some ((sG S ^ K) mod sP S).
Proof.
  intros S OK H c ord c1 m l ss p' c2 out2 W HB FK FV HG HH FL HO E1 E2 E3 K E.
  assert (NE : co_servers c <> []).
  { intros N. unfold announce, first_server in E1. rewrite N in E1. discriminate. }
  destruct (announce_spec S c ord c1 [m] HB HO E1 NE) as (-> & vals & a & Em & _ & F2). injection Em as ->.
  assert (LV : length vals = length ord) by (clear - F2; induction F2; cbn; congruence).
  assert (PT : Permutation (combine ord vals) (co_bcomms c)).
  { apply NoDup_Permutation_bis.
    - apply (NoDup_map_inv fst). rewrite combine_keys by assumption. eapply Permutation_NoDup; [symmetry; exact HO|exact W].
    - rewrite combine_length. pose proof (Permutation_length HO) as X. unfold mkeys in X. rewrite map_length in X. lia.
    - intros [k v] Hkv. apply mget_In. clear - F2 Hkv. revert Hkv.
      induction F2 as [|k0 v0 ks vs Ek F IH]; intros Hkv; [destruct Hkv|]. destruct Hkv as [Ekv|Hkv]; [|now apply IH].
      injection Ekv as <- <-. exact Ek. }
  assert (T : table_ok S ord vals (pb_GT (co_pb c)) (pb_HT (co_pb c))).
  { constructor; try assumption.
    - eapply Permutation_Forall; [symmetry; exact HO|exact FK].
    - rewrite Forall_forall in *. intros v Hv. apply FV.
      destruct (In_nth _ _ 0 Hv) as (i & Hi & Ei). apply (in_map snd) with (x := (nth i ord 0, v)).
      apply (Permutation_in _ PT). rewrite <- Ei. rewrite <- combine_nth by (now symmetry).
      apply nth_In. rewrite combine_length. lia.
    - eapply Permutation_NoDup; [symmetry; exact HO|exact W]. }
  destruct (chain_announce_spec S OK H l (table_params S ord vals (pb_GT (co_pb c)) (pb_HT (co_pb c))) (sG S) ord vals
    (pb_GT (co_pb c)) (pb_HT (co_pb c)) ss p') as (fk & fv & D1 & D2 & D3 & D4 & D5 & D6); try assumption.
  - eapply Forall_impl; [|exact FL]. intros x (X & _). exact X.
  - rewrite <- (app_nil_r (table_params _ _ _ _ _)). apply (lookup_table_params S ord vals _ _ [] []). reflexivity.
  - left. split; reflexivity.
  - apply OK.
  - fold K E in D1, D2, D3, D4.
    assert (KN : 0 <= K).
    { apply prod_of_nonneg. apply Forall_map. eapply Forall_impl; [|exact FL]. intros x (_ & X & _). exact X. }
    assert (EN : 0 <= E).
    { apply prod_of_nonneg. apply Forall_map. eapply Forall_impl; [|exact FL]. intros x (_ & _ & X). exact X. }
    destruct (carries_dec S OK p' fk fv _ _ D1 D3) as (bk & bv & bG & bH & A1 & A2 & A3 & A4 & A5 & A6 & A7 & A8).
    unfold co_announcement in E3. rewrite A1, A2, A3, A4, A5, A6, A7, A8 in E3.
    destruct D2 as [[D2 _]|[_ D2]].
    { exfalso. unfold has_key in D2. unfold get_bytes in E3. destruct (lookup p' "g"%str); discriminate. }
    rewrite D2 in E3. rewrite (dec_enc_point S OK) in E3 by (unfold pt_mul; pose proof (in_group_G S OK); in_grp).
    destruct D3 as [F1 F3 F4 F5 F6 F7]. rewrite !ending_map_combine in E3 by (assumption || reflexivity).
    injection E3 as <- <-. cbn [co_ecomms co_pb co_G set_status set_G set_keys set_diffs set_ecomms set_ekeys set_pb pb_GT pb_HT].
    rewrite <- !(pt_mul_pow S OK) by assumption. split; [|split; [reflexivity|split; reflexivity]].
    eapply Permutation_trans; [exact D4|]. eapply Permutation_trans; [apply Permutation_map; exact PT|].
    apply Permutation_refl'. apply map_ext. intros [k v]. cbn [fst snd]. now rewrite !(pt_mul_pow S OK).
Qed.

(** ** C39 *)
(** The pseudonym of a client with private key x, whether its key is in the announced table,
    or it registers in the round, is g^x for the announced generator g. *)
Theorem C39_same_pseudonym : forall S, suite_ok S -> forall H l keys vals GT HT ss p' x,
  Forall (fun s => server_ok S (fst s) /\ 0 <= sv_roundkey (fst s)) l -> l <> [] ->
  table_ok S keys vals GT HT -> 0 <= x ->
  chain_announce S H l (table_params S keys vals GT HT) = Some (ss, p') ->
  exists g, get_bytes p' "g"%str = Some (enc_point S g) /\ in_group S g /\
    g = (sG S ^ round_keys l) mod sP S /\
    (* table: the entry of the client's key has become g^x *)
    (In ((sG S ^ x) mod sP S) keys -> exists fk fv, carries S p' fk fv (pt_mul S GT (factors l)) (pt_mul S HT (factors l)) /\
       In ((g ^ x) mod sP S) fk) /\
    (* registration in the round *)
    (forall a pc ss' p1,
       chain_register S ss [("public_key"%str, VBytes (enc_point S ((sG S ^ x) mod sP S))); ("addr"%str, VStr a);
         ("pcomm"%str, VBytes pc)] = Some (ss', p1) ->
       get_bytes p1 "public_key"%str = Some (enc_point S ((g ^ x) mod sP S))) /\
    (* what the client computes *)
    (forall c p c' out, cl_priv c = x -> get_bytes p "g"%str = Some (enc_point S g) ->
       cl_init_r S c p = Some (c', out) \/ cl_announce_final S c p = Some (c', out) -> cl_nym c' = (g ^ x) mod sP S).
Proof.
  intros S OK H l keys vals GT HT ss p' x FL NE T Hx E.
  assert (KN : 0 <= round_keys l).
  { apply prod_of_nonneg. apply Forall_map. eapply Forall_impl; [|exact FL]. intros s (_ & X). exact X. }
  pose proof (in_group_G S OK) as HG. pose proof (ok_P S OK) as HP.
  destruct (chain_announce_spec S OK H l (table_params S keys vals GT HT) (sG S) keys vals GT HT ss p')
    as (fk & fv & D1 & D2 & D3 & D4 & D5 & D6); try assumption.
  - eapply Forall_impl; [|exact FL]. intros s (X & _). exact X.
  - rewrite <- (app_nil_r (table_params _ _ _ _ _)). apply (lookup_table_params S keys vals _ _ [] []). reflexivity.
  - left. split; reflexivity.
  - set (g := pt_mul S (sG S) (round_keys l)) in *.
    assert (Hg : in_group S g) by (unfold g, pt_mul; in_grp).
    assert (CO : forall y, 0 <= y -> pt_mul S ((sG S ^ y) mod sP S) (round_keys l) = (g ^ y) mod sP S).
    { intros y Hy. rewrite <- (pt_mul_pow S OK (sG S)), <- (pt_mul_pow S OK g) by assumption. unfold g.
      rewrite !(pt_mul_mul S OK) by assumption. f_equal. lia. }
    assert (GG : get_bytes p' "g"%str = Some (enc_point S g)).
    { destruct D2 as [[D2 Eg]|[_ D2]]; [|exact D2]. exfalso.
      (* the last server has put a g *)
      assert (XX : forall l p ss p', l <> [] -> chain_announce S H l p = Some (ss, p') -> has_key p' "g"%str = true).
      { clear. induction l as [|[s rn] l IH]; intros p ss p' NE E; [congruence|]. cbn [chain_announce] in E.
        destruct (sv_announcement S H s p rn) as [[s' [|m [|? ?]]]|] eqn:E1; try discriminate.
        destruct (chain_announce S H l (mParams m)) as [[ss1 p1]|] eqn:E2; [|discriminate]. injection E as <- <-.
        destruct l as [|y l]; [|apply (IH (mParams m) ss1 p1); [discriminate|exact E2]].
        cbn [chain_announce] in E2. injection E2 as <- <-. unfold sv_announcement in E1.
        repeat match type of E1 with (match ?t with _ => _ end) = _ => destruct t; try discriminate end.
        all: injection E1 as _ <-; reflexivity. }
      rewrite (XX l _ ss p' NE E) in D2. discriminate. }
    exists g. split; [assumption|]. split; [assumption|]. split; [unfold g; now apply (pt_mul_pow S OK)|]. split; [|split].
    + intros Hin. exists fk, fv. split; [assumption|]. rewrite <- CO by assumption.
      assert (PK : Permutation fk (map (fun k => pt_mul S k (round_keys l)) keys)).
      { rewrite <- (combine_keys fk fv) by apply D3. eapply Permutation_trans; [apply Permutation_map; exact D4|].
        rewrite map_map. cbn [fst]. rewrite <- (combine_keys keys vals) at 2 by apply T. rewrite map_map. reflexivity. }
      apply (Permutation_in _ (Permutation_sym PK)). now apply (in_map (fun k => pt_mul S k (round_keys l))).
    + intros a pc ss' p1 E1. apply (chain_register_spec S OK) in E1; try assumption.
      * rewrite E1. unfold get_bytes. cbn [lookup String.eqb Ascii.eqb Bool.eqb]. rewrite D5. fold (round_keys l). now rewrite CO.
      * rewrite <- (pt_mul_pow S OK) by assumption. unfold pt_mul. in_grp.
    + intros c p c' out Ex Ep [E1|E1].
      * unfold cl_init_r in E1. rewrite Ep, (dec_enc_point S OK g Hg) in E1.
        destruct (get_bytes p "r"%str); [|discriminate]. destruct (dec_secret S b); [|discriminate].
        injection E1 as <- _. cbn [cl_nym]. rewrite Ex. now apply (pt_mul_pow S OK).
      * unfold cl_announce_final in E1. rewrite Ep, (dec_enc_unchecked S g Hg) in E1.
        repeat match type of E1 with (match ?t with _ => _ end) = _ => destruct t; try discriminate
               | (if ?t then _ else _) = _ => destruct t; try discriminate end.
        injection E1 as <- _. cbn [cl_nym]. rewrite Ex. now apply (pt_mul_pow S OK).
Qed.
(** The order of the servers does not matter. *)
Theorem C39_any_order : forall l l', Permutation l l' -> round_keys l = round_keys l' /\ factors l = factors l'.
Proof. intros l l' HP. split; apply prod_of_perm, Permutation_map; assumption. Qed.

(** ** C38 *)
(** The verification reads seven fields, and neither keys nor vals is one of them. *)
Theorem C38_reads_only : forall S H p p',
  (forall k, In k ["shuffled"%str; "xbar"%str; "ybar"%str; "prev_keys"%str; "prev_vals"%str; "public_key"%str; "proof"%str] ->
     lookup p k = lookup p' k) ->
  verify_neff S H p = verify_neff S H p'.
Proof.
  intros S H p p' E. unfold verify_neff, has_key, get_bytes.
  rewrite !E by (cbn; tauto). reflexivity.
Qed.
(** So an accepted message is still accepted with any other table in it... *)
Theorem C38_other_table : forall S H p bk bv,
  verify_neff S H (("keys"%str, VBytes bk) :: ("vals"%str, VBytes bv) :: p) = verify_neff S H p.
Proof.
  intros. apply C38_reads_only. intros k Hk. repeat (destruct Hk as [<-|Hk]; [reflexivity|]). destruct Hk.
Qed.
(** ... and so is every message that does not say that it was shuffled. *)
Theorem C38_unshuffled : forall S H p, lookup p "shuffled"%str = None -> verify_neff S H p = Some tt.
Proof. intros S H p E. unfold verify_neff, has_key. now rewrite E. Qed.

(** What is verified: a server that acts on a message that says it was shuffled, and that is
    not the first of its chain, has found the proof in it to be valid for the shuffle in it. *)
Theorem C38_proof_checked : forall S H G s ty p src rn r,
  (ty = ANNOUNCEMENT /\ lookup p "g"%str <> None \/ ty = Net.ROUND_END /\ lookup p "is_start"%str = None) ->
  lookup p "shuffled"%str <> None ->
  sv_handle S H G s ty p src rn = Some r ->
  exists bx by_ bk bv bp proof xbar ybar pk pv,
    get_bytes p "xbar"%str = Some bx /\ get_bytes p "ybar"%str = Some by_ /\ get_bytes p "prev_keys"%str = Some bk /\
    get_bytes p "prev_vals"%str = Some bv /\ get_bytes p "public_key"%str = Some bp /\ get_bytes p "proof"%str = Some proof /\
    dec_points S bx = Some xbar /\ dec_points S by_ = Some ybar /\ dec_points S bk = Some pk /\ dec_points S bv = Some pv /\
    ps_hash_verify S H (sG S) (dec_point_unchecked bp) pk pv xbar ybar proof = Some true.
Proof.
  intros S H G s ty p src rn r T SH E.
  assert (V : verify_neff S H p = Some tt).
  { destruct T as [[-> T]|[-> T]].
    - change (sv_announcement S H s p rn = Some r) in E. unfold sv_announcement, has_key in E.
      destruct (lookup p "g"%str) as [v|] eqn:Eg; [|now elim T].
      destruct (verify_neff S H p) as [[]|]; [reflexivity|]. exfalso. destruct (get_bytes p "g"%str); odestruct E; discriminate E.
    - change (sv_round_end S H s p rn = Some r) in E. unfold sv_round_end, has_key in E. rewrite T in E.
      destruct (verify_neff S H p) as [[]|]; [reflexivity|]. exfalso. odestruct E; discriminate E. }
  clear E. unfold verify_neff, has_key in V. destruct (lookup p "shuffled"%str); [|now elim SH].
  destruct (get_bytes p "xbar"%str) as [bx|]; [|discriminate]. destruct (dec_points S bx) as [xbar|] eqn:D1; [|discriminate].
  destruct (get_bytes p "ybar"%str) as [by_|]; [|discriminate]. destruct (dec_points S by_) as [ybar|] eqn:D2; [|discriminate].
  destruct (get_bytes p "prev_keys"%str) as [bk|]; [|discriminate]. destruct (dec_points S bk) as [pk|] eqn:D3; [|discriminate].
  destruct (get_bytes p "prev_vals"%str) as [bv|]; [|discriminate]. destruct (dec_points S bv) as [pv|] eqn:D4; [|discriminate].
  destruct (get_bytes p "public_key"%str) as [bp|]; [|discriminate]. destruct (get_bytes p "proof"%str) as [pr|]; [|discriminate].
  cbv zeta in V. destruct (ps_hash_verify S H (sG S) (dec_point_unchecked bp) pk pv xbar ybar pr) as [[|]|] eqn:EV; try discriminate V.
  exists bx, by_, bk, bv, bp, pr, xbar, ybar, pk, pv. repeat (split; [assumption || reflexivity|]). assumption.
Qed.

Import Prop_FujiOkam Prop_Codec Prop_Bridge Prop_Shuffle Prop_Assign.

Definition toy_sA : server := init_server toy_suite adA adC 3 5.
Definition toy_sB : server := init_server toy_suite adB adC 2 3.
Definition toy_rn3 : sv_rand := SvRand 3 toy_u [7; 2; 5] toy_ps 7.
(** The keys in the message of an honest server are those of the shuffle... *)
Theorem C38_honest_covered : forall S, suite_ok S -> forall H s p rn s' m,
  server_ok S s -> (exists keys vals GT HT g, carries S p keys vals GT HT /\ carries_g S p g /\ in_group S g /\
    table_ok S keys vals GT HT) ->
  sv_announcement S H s p rn = Some (s', [m]) -> has_key (mParams m) "shuffled"%str = true ->
  exists bk bp k pv, get_bytes (mParams m) "keys"%str = Some bk /\ dec_points S bk = Some k /\
    get_bytes (mParams m) "prev_vals"%str = Some bp /\ dec_points S bp = Some pv /\ Permutation k pv /\
    verify_neff S H (mParams m) = Some tt.
Proof.
  intros S OK H s p rn s' m SO (keys & vals & GT & HT & g & C & Cg & Hg & T) E SH.
  pose proof T as T0. destruct T as [TA TB TC TD TE TF].
  pose proof (in_group_G S OK) as HG.
  destruct (carries_dec S OK p keys vals GT HT C T0) as (bk & bv & bG & bH & A1 & A2 & A3 & A4 & A5 & A6 & A7 & A8).
  unfold sv_announcement in E. rewrite A1, A2, A3, A4, A5, A6, A7, A8 in E.
  match type of E with (match ?t with _ => _ end) = _ => destruct t as [g'|] eqn:EG; [|discriminate] end.
  assert (NK : map (fun k => pt_mul S k (sv_roundkey s)) keys <> [] \/ True) by tauto.
  set (nk := map (fun k => pt_mul S k (sv_roundkey s)) keys) in *.
  rewrite (scale_vals_spec S) in E by assumption.
  destruct (mix S H s nk _ rn) as [[[fk fv] extra]|] eqn:EM; [|discriminate].
  injection E as _ <-. cbn [mParams] in *.
  assert (Hpub : in_group S (sv_pub s)) by (rewrite (s_pub S s SO); unfold pt_mul_base, pt_mul; in_grp).
  assert (GK : Forall (in_group S) nk) by (now apply Forall_pt_mul).
  assert (ND : NoDup nk) by (apply (NoDup_pt_mul S OK); [apply SO|assumption..]).
  pose proof EM as EM'. apply (mix_spec S OK) in EM'; [|assumption|now apply all_group_forall|assumption|].
  2:{ unfold nk. rewrite !map_length. lia. }
  destruct EM' as (XO & pi & PP & EK & EV).
  assert (LK : length fk = length nk).
  { rewrite EK, map_length. rewrite (Permutation_length PP). now rewrite seq_length. }
  assert (PK : Permutation fk nk).
  { rewrite EK. eapply Permutation_trans; [apply Permutation_map; exact PP|]. now rewrite map_at_seq. }
  exists (enc_points S fk), (enc_points S nk), fk, nk.
  assert (X2 : get_bytes (("g"%str, VBytes (enc_point S g')) :: table_params S fk fv (pt_mul S GT (srE rn)) (pt_mul S HT (srE rn)) ++ extra)
    "prev_vals"%str = Some (enc_points S nk)).
  { clear - EM SH. unfold mix in EM. destruct (length nk <=? 1)%nat.
    - injection EM as <- <- <-. discriminate SH.
    - repeat match type of EM with (match ?t with _ => _ end) = _ => destruct t; try discriminate end.
      injection EM as _ _ <-. reflexivity. }
  split; [reflexivity|].
  split; [apply (dec_enc_points S OK); eapply Permutation_Forall; [symmetry; exact PK|exact GK]|].
  split; [exact X2|]. split; [now apply (dec_enc_points S OK)|]. split; [exact PK|].
  apply (XO (("g"%str, VBytes (enc_point S g')) :: table_params S fk fv (pt_mul S GT (srE rn)) (pt_mul S HT (srE rn)))).
  intros k Hk. repeat (destruct Hk as [<-|Hk]; [reflexivity|]). destruct Hk.
Qed.
(** ... but a server does not check that: it takes the message of an honest server with the
    keys replaced by others, and works on those. *)
Theorem C38_covered_refuted : ~ (forall S H s p rn s' m bk bp k pv,
  suite_ok S -> server_ok S s -> has_key p "g"%str = true -> has_key p "shuffled"%str = true ->
  sv_announcement S H s p rn = Some (s', [m]) ->
  get_bytes p "keys"%str = Some bk -> dec_points S bk = Some k ->
  get_bytes p "prev_vals"%str = Some bp -> dec_points S bp = Some pv -> Permutation k pv).
Proof.
  intros C.
  destruct (sv_announcement toy_suite toy_oracle toy_sA (table_params toy_suite [2; 3; 8] [9; 12; 13] 4 8) toy_rn3)
    as [[sA' [|m [|? ?]]]|] eqn:E1; try (vm_compute in E1; discriminate E1).
  set (p := ("keys"%str, VBytes (enc_points toy_suite [4; 9; 16])) :: mParams m).
  destruct (sv_announcement toy_suite toy_oracle toy_sB p toy_rn3) as [[sB' [|m' [|? ?]]]|] eqn:E2;
    try (exfalso; vm_compute in E1; injection E1 as _ <-; vm_compute in E2; discriminate E2).
  assert (SO : server_ok toy_suite toy_sB).
  { constructor; [reflexivity| |intros a b X; discriminate X]. apply Zgcd_1_rel_prime. reflexivity. }
  assert (Ep : get_bytes p "prev_vals"%str = Some (enc_points toy_suite (map (fun k => pt_mul toy_suite k 5) [2; 3; 8]))).
  { unfold p. vm_compute in E1. injection E1 as _ <-. vm_compute. reflexivity. }
  assert (X : Permutation [4; 9; 16] (map (fun k => pt_mul toy_suite k 5) [2; 3; 8])).
  { eapply (C toy_suite toy_oracle toy_sB p toy_rn3 sB' m'); try eassumption.
    - exact toy_ok.
    - unfold p. vm_compute in E1. injection E1 as _ <-. reflexivity.
    - unfold p. vm_compute in E1. injection E1 as _ <-. reflexivity.
    - unfold p. reflexivity.
    - vm_compute. reflexivity.
    - vm_compute. reflexivity. }
  assert (Y : In 4 (map (fun k => pt_mul toy_suite k 5) [2; 3; 8])) by (apply (Permutation_in _ X); now left).
  clear - Y. vm_compute in Y. intuition discriminate.
Qed.

(** ** Instances *)
Definition toy_chain : list (server * sv_rand) := [(toy_sA, toy_rn3); (toy_sB, SvRand 2 toy_u [1; 9; 4] toy_ps 4)].
Lemma toy_server_ok a b rk : Z.gcd rk 11 = 1 -> server_ok toy_suite (init_server toy_suite a adC b rk).
Proof. intros G1. constructor; [reflexivity| |intros x y X; discriminate X]. now apply Zgcd_1_rel_prime. Qed.
Lemma toy_table_ok : table_ok toy_suite [2; 3; 8] [9; 12; 13] 4 8.
Proof.
  constructor; [repeat constructor|repeat constructor| |reflexivity|repeat constructor|repeat constructor].
  repeat constructor; cbn; intuition lia.
Qed.
(** The table with three keys goes through two servers. *)
Example C39_instance : exists ss p', Forall (fun s => server_ok toy_suite (fst s) /\ 0 <= sv_roundkey (fst s)) toy_chain /\
  chain_announce toy_suite toy_oracle toy_chain (table_params toy_suite [2; 3; 8] [9; 12; 13] 4 8) = Some (ss, p') /\
  table_ok toy_suite [2; 3; 8] [9; 12; 13] 4 8 /\ In ((4 ^ 7) mod 23) [2; 3; 8] /\
  exists ss' p1, chain_register toy_suite ss [("public_key"%str, VBytes (enc_point toy_suite 9)); ("addr"%str, VStr adB);
    ("pcomm"%str, VBytes [])] = Some (ss', p1).
Proof.
  do 2 eexists. split; [|split; [vm_compute; reflexivity|split; [exact toy_table_ok|split; [cbn; tauto|]]]].
  - repeat (constructor; [split; [apply toy_server_ok; reflexivity|cbn; lia]|]). constructor.
  - do 2 eexists. vm_compute. reflexivity.
Qed.
(** The second server acts on the message of the first, which carries a proof. *)
Example C38_instance : exists ss p r, chain_announce toy_suite toy_oracle [(toy_sA, toy_rn3)] (table_params toy_suite [2; 3; 8] [9; 12; 13] 4 8) = Some (ss, p) /\
  lookup p "g"%str <> None /\ lookup p "shuffled"%str <> None /\
  sv_handle toy_suite toy_oracle toy_gob toy_sB ANNOUNCEMENT p adA toy_rn3 = Some r.
Proof.
  do 3 eexists. split; [vm_compute; reflexivity|]. split; [vm_compute; discriminate|]. split; [vm_compute; discriminate|].
  vm_compute. reflexivity.
Qed.
(** A coordinator with two clients in its table and two servers: the whole announcement. *)
Definition toy_cc : coord :=
  add_server (add_server (set_bcomms (set_bkeys (set_pb toy_c0 (PBase 8 4)) [(2, 2); (3, 3)]) [(2, 9); (3, 12)]) adA 18) adB 16.
Definition toy_ps2 : ps_rand := PsRand [3; 4] [6; 2] [1; 7] 4 5 [1; 2; 3].
Definition toy_chain2 : list (server * sv_rand) := [(toy_sA, SvRand 3 toy_u [7; 2] toy_ps2 7); (toy_sB, SvRand 2 toy_u [1; 9] toy_ps2 4)].
Example C40_instance : exists c1 m ss p' c2 out2,
  mwf (co_bcomms toy_cc) /\ Forall (in_group toy_suite) (map fst (co_bcomms toy_cc)) /\
  Forall (in_group toy_suite) (map snd (co_bcomms toy_cc)) /\
  (forall k, mget (co_bkeys toy_cc) k = option_map (fun _ => k) (mget (co_bcomms toy_cc) k)) /\
  range_order [3; 2] (co_bcomms toy_cc) /\
  announce toy_suite toy_cc [3; 2] = Some (c1, [m]) /\
  chain_announce toy_suite toy_oracle toy_chain2 (mParams m) = Some (ss, p') /\
  co_announcement toy_suite c1 p' = Some (c2, out2) /\ length (co_ecomms c2) = 2%nat.
Proof.
  do 6 eexists. split; [|split; [|split; [|split; [|split; [|split; [vm_compute; reflexivity|
    split; [vm_compute; reflexivity|split; [vm_compute; reflexivity|reflexivity]]]]]]]].
  - repeat constructor; cbn; intuition lia.
  - repeat constructor; cbn; lia.
  - repeat constructor; cbn; lia.
  - intros k. cbn [co_bkeys co_bcomms toy_cc add_server set_bcomms set_bkeys set_pb mget].
    change (mget [(2, 2); (3, 3)] k = option_map (fun _ => k) (mget [(2, 9); (3, 12)] k)). cbn [mget].
    destruct (keq k 2) as [->|]; [reflexivity|]. destruct (keq k 3) as [->|]; reflexivity.
  - vm_compute. apply perm_swap.
Qed.

Print Assumptions C38_reads_only.
Print Assumptions C38_other_table.
Print Assumptions C38_unshuffled.
Print Assumptions C38_honest_covered.
Print Assumptions C38_proof_checked.
Print Assumptions C38_covered_refuted.
Print Assumptions C39_same_pseudonym.
Print Assumptions C39_any_order.
Print Assumptions C40_table_preserved.
