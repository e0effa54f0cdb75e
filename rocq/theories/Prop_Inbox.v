(** C110: in which order a client gets its messages. *)
From Coq Require Import ZArith Znumtheory Lia List Bool Permutation.
From Coq Require Import Strings.Byte.
From Coq Require String.
From Verif Require Import ZMod Bytes Suite Spec Pedersen ElGamal FujiOkam Equality Codec Net Bridge Client
  Prop_ElGamal Prop_FujiOkam Prop_Codec Prop_Bridge.
Import ListNotations.
Import String.StringSyntax.
Open Scope Z_scope.
Delimit Scope string_scope with str.

(** ** Specification *)
(** A message as it reaches a client: type, fields, and the challenge bits the client draws
    if it is a confirmation of its registration. *)
Record note := Note { noTy : Z; noP : params; noChal : list bool }.
(** The client handles [m] and then [m']: its state, and what it sends for each of them.
    None = it stops. *)
Definition handle2 (S : suite) (G : gob) (c : client) (m m' : note) : option (client * list msg * list msg) :=
  match cl_handle S G c (noTy m) (noP m) (noChal m) with
  | None => None
  | Some (c1, o) =>
      match cl_handle S G c1 (noTy m') (noP m') (noChal m') with
      | None => None
      | Some (c2, o') => Some (c2, o, o')
      end
  end.
(** The order of the two does not matter, including whether the client stops. *)
Definition either_order (S : suite) (G : gob) (c : client) (m m' : note) : Prop :=
  handle2 S G c m m' = match handle2 S G c m' m with Some (c2, o', o) => Some (c2, o, o') | None => None end.
(** The types of messages that change a client or depend on it, and the pairs of them whose
    order does not matter.  All others change nothing and depend on nothing. *)
Definition acting : list Z :=
  [CLIENT_REGISTER_CONFIRMATION; INIT_PEDERSEN_R; GN_HONESTY_ANSWER; ANNOUNCEMENT_FINALIZE; GOT_SIGNS; Net.ROUND_END; BCAST_PEDERSEN_RDIFF].
Definition free_pairs : list (Z * Z) :=
  [(CLIENT_REGISTER_CONFIRMATION, INIT_PEDERSEN_R); (CLIENT_REGISTER_CONFIRMATION, Net.ROUND_END); (CLIENT_REGISTER_CONFIRMATION, BCAST_PEDERSEN_RDIFF);
   (INIT_PEDERSEN_R, GN_HONESTY_ANSWER); (INIT_PEDERSEN_R, GOT_SIGNS);
   (GN_HONESTY_ANSWER, GN_HONESTY_ANSWER); (GN_HONESTY_ANSWER, ANNOUNCEMENT_FINALIZE); (GN_HONESTY_ANSWER, GOT_SIGNS);
   (GN_HONESTY_ANSWER, Net.ROUND_END); (GN_HONESTY_ANSWER, BCAST_PEDERSEN_RDIFF);
   (ANNOUNCEMENT_FINALIZE, GOT_SIGNS); (GOT_SIGNS, BCAST_PEDERSEN_RDIFF);
   (Net.ROUND_END, Net.ROUND_END); (Net.ROUND_END, BCAST_PEDERSEN_RDIFF); (BCAST_PEDERSEN_RDIFF, BCAST_PEDERSEN_RDIFF)].
Definition order_free (ty ty' : Z) : Prop :=
  ~ In ty acting \/ ~ In ty' acting \/ In (ty, ty') free_pairs \/ In (ty', ty) free_pairs.

(** A client handles a list of messages: its state, and all it sends.  None = it stops. *)
Fixpoint handle_list (S : suite) (G : gob) (c : client) (l : list note) : option (client * list msg) :=
  match l with
  | [] => Some (c, [])
  | m :: l' =>
      match cl_handle S G c (noTy m) (noP m) (noChal m) with
      | None => None
      | Some (c1, o) => match handle_list S G c1 l' with None => None | Some (c2, os) => Some (c2, o ++ os) end
      end
  end.
(** Same state, same things sent up to their order, or both stop. *)
Definition same_outcome (x y : option (client * list msg)) : Prop :=
  match x, y with
  | Some (c, o), Some (c', o') => c = c' /\ Permutation o o'
  | None, None => True
  | _, _ => False
  end.

(** ** Proofs *)
Section Inbox.
Context (S : suite) (G : gob).

Lemma either_sym c m m' : either_order S G c m m' -> either_order S G c m' m.
Proof. unfold either_order. intros ->. destruct (handle2 S G c m' m) as [[[? ?] ?]|]; reflexivity. Qed.
Lemma idle ty : ~ In ty acting -> forall p b, (forall c, cl_handle S G c ty p b = Some (c, [])) \/ (forall c, cl_handle S G c ty p b = None).
Proof.
  intros N p b. unfold acting in N. cbn [In] in N. unfold cl_handle.
  destruct (Z.eqb_spec ty CLIENT_REGISTER_CONFIRMATION); [exfalso; apply N; auto|].
  destruct (Z.eqb_spec ty INIT_PEDERSEN_R); [exfalso; apply N; auto|].
  destruct (Z.eqb_spec ty GN_HONESTY_ANSWER); [exfalso; apply N; auto|].
  destruct (Z.eqb_spec ty ANNOUNCEMENT_FINALIZE); [exfalso; apply N; auto|].
  destruct (Z.eqb_spec ty GOT_SIGNS); [exfalso; apply N; intuition auto|].
  destruct (Z.eqb_spec ty Net.VOTE); [left; reflexivity|].
  destruct (Z.eqb_spec ty Net.ROUND_END); [exfalso; apply N; intuition auto|].
  destruct (Z.eqb_spec ty BCAST_PEDERSEN_RDIFF); [exfalso; apply N; intuition auto|].
  destruct (Z.eqb_spec ty VOTE_REPLY); [|left; reflexivity].
  unfold cl_vote_reply. destruct (get_bool p "reply"%str); [left|right]; reflexivity.
Qed.
Lemma idle_free c m m' : ~ In (noTy m) acting -> either_order S G c m m'.
Proof.
  intros N. unfold either_order, handle2. destruct (idle _ N (noP m) (noChal m)) as [E|E]; rewrite E.
  - destruct (cl_handle S G c (noTy m') (noP m') (noChal m')) as [[c1 o]|]; [|reflexivity]. now rewrite E.
  - destruct (cl_handle S G c (noTy m') (noP m') (noChal m')) as [[c1 o]|]; [|reflexivity]. now rewrite E.
Qed.

(** What each type does to the fields. *)
Lemma on_confirmation p b : exists f, forall c, cl_handle S G c CLIENT_REGISTER_CONFIRMATION p b =
  match f with
  | None => None
  | Some (fb, hp, pk) => Some (Client (cl_addr c) (cl_coord c) CL_CONNECTED (cl_priv c) (cl_pub c) pk (cl_nym c) (cl_G c)
          (cl_rep c) (cl_keys c) (cl_index c) (cl_assigns c) (cl_PCommr c) (cl_R c) (Some fb) (cl_pb c) hp b,
        [Msg (cl_coord c) GN_HONESTY_CHALLENGE [("honesty_chal"%str, VBytes (enc_bools b))] (cl_addr c)])
  end.
Proof.
  exists (olet fb := read_fobase p in olet bh := get_bytes p "honesty_prf"%str in olet hp := gdec_bigints G bh in
     olet bk := get_bytes p "public_key"%str in olet pk := dec_point S bk in Some (fb, hp, pk)).
  intros c. change (cl_handle S G c CLIENT_REGISTER_CONFIRMATION p b) with (cl_register_confirmation S G c p b). unfold cl_register_confirmation.
  destruct (read_fobase p); [|reflexivity]. destruct (get_bytes p "honesty_prf"%str); [|reflexivity]. destruct (gdec_bigints G b0); [|reflexivity].
  destruct (get_bytes p "public_key"%str); [|reflexivity]. destruct (dec_point S b1); reflexivity.
Qed.
Lemma on_init p b : exists f, forall c, cl_handle S G c INIT_PEDERSEN_R p b =
  match f with
  | None => None
  | Some (r, g) => Some (Client (cl_addr c) (cl_coord c) (cl_status c) (cl_priv c) (cl_pub c) (cl_cpk c)
          (pt_mul S g (cl_priv c)) (Some g) (cl_rep c) (cl_keys c) (cl_index c) (cl_assigns c) (cl_PCommr c) (Some r) (cl_fb c)
          (cl_pb c) (cl_hpub c) (cl_hchal c), [])
  end.
Proof.
  exists (olet br := get_bytes p "r"%str in olet r := dec_secret S br in olet bg := get_bytes p "g"%str in olet g := dec_point S bg in Some (r, g)).
  intros c. change (cl_handle S G c INIT_PEDERSEN_R p b) with (cl_init_r S c p). unfold cl_init_r.
  destruct (get_bytes p "r"%str); [|reflexivity]. destruct (dec_secret S b0); [|reflexivity].
  destruct (get_bytes p "g"%str); [|reflexivity]. destruct (dec_point S b1); reflexivity.
Qed.
Lemma on_answer p b : exists f : option fobase -> list bool -> list Z -> bool, forall c, cl_handle S G c GN_HONESTY_ANSWER p b =
  if f (cl_fb c) (cl_hchal c) (cl_hpub c) then Some (c, []) else None.
Proof.
  exists (fun fb hc hp => match (olet fb := fb in olet ba := get_bytes p "honesty_ans"%str in olet ans := gdec_bigints G ba in gn_check_all fb ans hc hp) with
    Some r => r =? 0 | None => false end).
  intros c. change (cl_handle S G c GN_HONESTY_ANSWER p b) with (cl_honesty_answer G c p). unfold cl_honesty_answer.
  destruct (cl_fb c); [|reflexivity]. destruct (get_bytes p "honesty_ans"%str); [|reflexivity]. destruct (gdec_bigints G b0); [|reflexivity].
  destruct (gn_check_all _ _ _ _); reflexivity.
Qed.
Lemma on_final p b : exists f : Z -> option (Z * Z * list Z * Z * Z * Z * Z), forall c, cl_handle S G c ANNOUNCEMENT_FINALIZE p b =
  match f (cl_priv c) with
  | None => None
  | Some (nym, g, keys, index, pc, HT, GT) => Some (Client (cl_addr c) (cl_coord c) CL_MESSAGE (cl_priv c) (cl_pub c) (cl_cpk c)
            nym (Some g) (cl_rep c) keys index (cl_assigns c) (Some pc) (cl_R c) (cl_fb c) (PBase HT GT) (cl_hpub c) (cl_hchal c), [])
  end.
Proof.
  exists (fun pr => olet bg := get_bytes p "g"%str in let g := dec_point_unchecked bg in let nym := pt_mul S g pr in
    olet bk := get_bytes p "keys"%str in olet keys := dec_points S bk in olet bv := get_bytes p "vals"%str in olet vals := dec_points S bv in
    let index := find_index keys nym in if index <? 0 then None else olet pc := nth_error vals (Z.to_nat index) in
    olet bGT := get_bytes p "GT"%str in olet GT := dec_point S bGT in olet bHT := get_bytes p "HT"%str in olet HT := dec_point S bHT in
    Some (nym, g, keys, index, pc, HT, GT)).
  intros c. change (cl_handle S G c ANNOUNCEMENT_FINALIZE p b) with (cl_announce_final S c p). unfold cl_announce_final.
  destruct (get_bytes p "g"%str); [|reflexivity]. destruct (get_bytes p "keys"%str); [|reflexivity]. destruct (dec_points S b1); [|reflexivity].
  destruct (get_bytes p "vals"%str); [|reflexivity]. destruct (dec_points S b2); [|reflexivity]. cbv zeta. destruct (_ <? 0); [reflexivity|].
  destruct (nth_error _ _); [|reflexivity]. destruct (get_bytes p "GT"%str); [|reflexivity]. destruct (dec_point S b3); [|reflexivity].
  destruct (get_bytes p "HT"%str); [|reflexivity]. destruct (dec_point S b4); reflexivity.
Qed.
Lemma on_got p b : exists f : Z -> option (list (assignment * bytes)), forall c, cl_handle S G c GOT_SIGNS p b =
  match f (cl_cpk c) with
  | None => None
  | Some l => Some (Client (cl_addr c) (cl_coord c) (cl_status c) (cl_priv c) (cl_pub c) (cl_cpk c) (cl_nym c) (cl_G c)
            (cl_rep c) (cl_keys c) (cl_index c) (cl_assigns c ++ l) (cl_PCommr c) (cl_R c) (cl_fb c) (cl_pb c) (cl_hpub c) (cl_hchal c), [])
  end.
Proof.
  exists (fun pk => olet sig := get_bytes p "signature"%str in olet m := msg_got p in if negb (eg_verify S m pk sig (Some pt_new)) then Some [] else
    olet ba := get_bytes p "assignment"%str in olet a := dec_assignment S ba in olet bs := get_bytes p "signatures"%str in Some [(a, bs)]).
  intros c. change (cl_handle S G c GOT_SIGNS p b) with (cl_got_signatures S c p). unfold cl_got_signatures.
  destruct (get_bytes p "signature"%str); [|reflexivity]. destruct (msg_got p); [|reflexivity].
  destruct (negb _); [rewrite app_nil_r; now destruct c|]. destruct (get_bytes p "assignment"%str); [|reflexivity].
  destruct (dec_assignment S b2); [|reflexivity]. destruct (get_bytes p "signatures"%str); reflexivity.
Qed.
Lemma on_end p b : exists f : Z -> option Z, forall c, cl_handle S G c Net.ROUND_END p b =
  match f (cl_nym c) with
  | None => None
  | Some d => Some (Client (cl_addr c) (cl_coord c) CL_CONNECTED (cl_priv c) (cl_pub c) (cl_cpk c) (cl_nym c) (cl_G c)
          (int64 (cl_rep c + d)) (cl_keys c) (cl_index c) [] (cl_PCommr c) (cl_R c) (cl_fb c) (cl_pb c) (cl_hpub c) (cl_hchal c), [])
  end.
Proof.
  exists (fun nym => olet bk := get_bytes p "keys"%str in olet keys := dec_points S bk in olet bd := get_bytes p "diffs"%str in
    olet diffs := gdec_ints G bd in find_int keys diffs nym).
  intros c. change (cl_handle S G c Net.ROUND_END p b) with (cl_round_end S G c p). unfold cl_round_end.
  destruct (get_bytes p "keys"%str); [|reflexivity]. destruct (dec_points S b0); [|reflexivity]. destruct (get_bytes p "diffs"%str); [|reflexivity].
  destruct (gdec_ints G b1); [|reflexivity]. destruct (find_int _ _ _); reflexivity.
Qed.
(** Some None: the client is not in the list. *)
Lemma on_rdiff p b : exists f : Z -> option (option Z), forall c, cl_handle S G c BCAST_PEDERSEN_RDIFF p b =
  match f (cl_nym c) with
  | None => None
  | Some None => Some (c, [])
  | Some (Some d) => match cl_R c with None => None | Some R => Some (Client (cl_addr c) (cl_coord c) (cl_status c) (cl_priv c) (cl_pub c) (cl_cpk c)
            (cl_nym c) (cl_G c) (cl_rep c) (cl_keys c) (cl_index c) (cl_assigns c) (cl_PCommr c) (Some (sec_add S R d))
            (cl_fb c) (cl_pb c) (cl_hpub c) (cl_hchal c), []) end
  end.
Proof.
  exists (fun nym => olet bk := get_bytes p "keys"%str in olet keys := dec_points S bk in olet br := get_bytes p "rDiffs"%str in
    olet rs := dec_secrets S br in let index := find_index keys nym in if index <? 0 then Some None else
    olet rd := nth_error rs (Z.to_nat index) in Some (Some rd)).
  intros c. change (cl_handle S G c BCAST_PEDERSEN_RDIFF p b) with (cl_rdiff S c p). unfold cl_rdiff.
  destruct (get_bytes p "keys"%str); [|reflexivity]. destruct (dec_points S b0); [|reflexivity]. destruct (get_bytes p "rDiffs"%str); [|reflexivity].
  destruct (dec_secrets S b1); [|reflexivity]. cbv zeta. destruct (_ <? 0); [reflexivity|]. destruct (nth_error _ _); reflexivity.
Qed.

Lemma int64_add2 r x y : int64 (int64 (r + x) + y) = int64 (int64 (r + y) + x).
Proof.
  unfold int64. f_equal. rewrite !(Z.add_comm _ (2 ^ 63)). 
  replace (2 ^ 63 + ((2 ^ 63 + (r + x)) mod 2 ^ 64 - 2 ^ 63 + y)) with ((2 ^ 63 + (r + x)) mod 2 ^ 64 + y) by ring.
  replace (2 ^ 63 + ((2 ^ 63 + (r + y)) mod 2 ^ 64 - 2 ^ 63 + x)) with ((2 ^ 63 + (r + y)) mod 2 ^ 64 + x) by ring.
  rewrite !Zplus_mod_idemp_l. f_equal. ring.
Qed.
Lemma sec_add2 R x y : sec_add S (sec_add S R x) y = sec_add S (sec_add S R y) x.
Proof. unfold sec_add. rewrite !Zplus_mod_idemp_l. f_equal. ring. Qed.

(** The order of such a pair of messages does not matter, whatever they contain, for any
    client. *)
Theorem C110_order_free : forall c m m', order_free (noTy m) (noTy m') -> either_order S G c m m'.
Proof.
  intros c [t p b] [t' p' b'] F. cbn [noTy] in F. destruct F as [N|[N|F]].
  - now apply idle_free.
  - now apply either_sym, idle_free.
  - assert (W : forall t p b t' p' b', In (t, t') free_pairs -> either_order S G c (Note t p b) (Note t' p' b')).
    2:{ destruct F as [F|F]; [now apply W|]. apply either_sym. now apply W. }
    clear. intros t p b t' p' b' I. unfold either_order, handle2. cbn [noTy noP noChal].
    destruct (on_confirmation p b) as [f1 F1], (on_confirmation p' b') as [f1' F1'], (on_init p b) as [f2 F2], (on_init p' b') as [f2' F2'],
      (on_answer p b) as [f3 F3], (on_answer p' b') as [f3' F3'], (on_final p b) as [f4 F4], (on_final p' b') as [f4' F4'],
      (on_got p b) as [f5 F5], (on_got p' b') as [f5' F5'], (on_end p b) as [f6 F6], (on_end p' b') as [f6' F6'],
      (on_rdiff p b) as [f7 F7], (on_rdiff p' b') as [f7' F7'].
    unfold free_pairs in I. cbn [In] in I.
    repeat match type of I with _ \/ _ => destruct I as [I|I] end; try contradiction; injection I as <- <-;
    repeat (rewrite ?F1, ?F1', ?F2, ?F2', ?F3, ?F3', ?F4, ?F4', ?F5, ?F5', ?F6, ?F6', ?F7, ?F7';
      cbn [cl_addr cl_coord cl_status cl_priv cl_pub cl_cpk cl_nym cl_G cl_rep cl_keys cl_index cl_assigns cl_PCommr cl_R cl_fb cl_pb cl_hpub cl_hchal];
      try match goal with |- context [match ?x with _ => _ end] => lazymatch x with context [match _ with _ => _ end] => fail | cl_handle _ _ _ _ _ _ => fail | _ => destruct x eqn:? end end); 
    try congruence; try (rewrite sec_add2; congruence); try (rewrite int64_add2; congruence).
Qed.

Lemma same_refl x : same_outcome x x.
Proof. destruct x as [[? ?]|]; cbn; auto. Qed.
Lemma same_trans x y z : same_outcome x y -> same_outcome y z -> same_outcome x z.
Proof. destruct x as [[? ?]|], y as [[? ?]|], z as [[? ?]|]; cbn; try tauto. intros [-> P] [-> Q]. split; [reflexivity|]. now transitivity l0. Qed.
Lemma free_sym t t' : order_free t t' -> order_free t' t.
Proof. unfold order_free. tauto. Qed.

(** Messages whose order does not matter in pairs can come in any order. *)
Theorem C110_any_order : forall l l' c, Permutation l l' -> ForallOrdPairs (fun m m' => order_free (noTy m) (noTy m')) l ->
  same_outcome (handle_list S G c l) (handle_list S G c l').
Proof.
  intros l l' c P. revert c. induction P as [|m l l' P IH|m m' l|l l' l'' P1 IH1 P2 IH2]; intros c F.
  - apply same_refl.
  - inversion F as [|? ? _ F']; subst. cbn. destruct (cl_handle S G c (noTy m) (noP m) (noChal m)) as [[c1 o]|]; [|exact I].
    specialize (IH c1 F'). destruct (handle_list S G c1 l) as [[c2 os]|], (handle_list S G c1 l') as [[c3 os']|]; cbn in IH |- *; try tauto.
    destruct IH as [-> Q]. split; [reflexivity|]. now apply Permutation_app_head.
  - inversion F as [|? ? A _]; subst. inversion A as [|? ? B _]; subst. pose proof (C110_order_free c m' m B) as E.
    unfold either_order, handle2 in E. cbn.
    destruct (cl_handle S G c (noTy m') (noP m') (noChal m')) as [[c1 o]|] eqn:E1.
    + destruct (cl_handle S G c1 (noTy m) (noP m) (noChal m)) as [[c2 o2]|] eqn:E2.
      * destruct (cl_handle S G c (noTy m) (noP m) (noChal m)) as [[c3 o3]|]; [|discriminate].
        destruct (cl_handle S G c3 (noTy m') (noP m') (noChal m')) as [[c4 o4]|]; [|discriminate]. injection E as -> -> ->.
        destruct (handle_list S G c4 l) as [[c5 os]|]; [|exact I]. split; [reflexivity|].
        rewrite !app_assoc. apply Permutation_app_tail, Permutation_app_comm.
      * destruct (cl_handle S G c (noTy m) (noP m) (noChal m)) as [[c3 o3]|]; [|exact I].
        destruct (cl_handle S G c3 (noTy m') (noP m') (noChal m')) as [[c4 o4]|]; [discriminate|exact I].
    + destruct (cl_handle S G c (noTy m) (noP m) (noChal m)) as [[c3 o3]|]; [|exact I].
      destruct (cl_handle S G c3 (noTy m') (noP m') (noChal m')) as [[c4 o4]|]; [discriminate|exact I].
  - eapply same_trans; [now apply IH1|]. apply IH2. clear - F P1. revert F. induction P1; intros F.
    + constructor.
    + inversion F as [|? ? A F']; subst. constructor; [|auto]. eapply Permutation_Forall; eassumption.
    + inversion F as [|? ? A F']; subst. inversion A; subst. inversion F'; subst. constructor; [constructor; [now apply free_sym|assumption]|constructor; assumption].
    + auto.
Qed.
End Inbox.
Print Assumptions C110_any_order.
Print Assumptions C110_order_free.

(** ** All other pairs *)
(** Messages to the client of Prop_Bridge, whose coordinator has the private key 6. *)
Definition ibConf (pk : Z) (chal : list bool) : note :=
  Note CLIENT_REGISTER_CONFIRMATION (fobase_params toy_fb ++ [("honesty_prf"%str, VBytes (genc_bigints toy_gob []));
    ("public_key"%str, VBytes (enc_point toy_suite pk))]) chal.
Definition ibInit (r g : Z) : note :=
  Note INIT_PEDERSEN_R [("r"%str, VBytes (enc_secret toy_suite r)); ("g"%str, VBytes (enc_point toy_suite g))] [].
(** The client after it has drawn its challenge, and the right answer to it. *)
Definition ibAsked : client :=
  Client (cl_addr toy_client) (cl_coord toy_client) (cl_status toy_client) (cl_priv toy_client) (cl_pub toy_client) (cl_cpk toy_client)
    (cl_nym toy_client) (cl_G toy_client) (cl_rep toy_client) (cl_keys toy_client) (cl_index toy_client) (cl_assigns toy_client)
    (cl_PCommr toy_client) (cl_R toy_client) (cl_fb toy_client) (cl_pb toy_client) (snd (gn_generate_all toy_fb (repeat 7 480))) (repeat true 480).
Definition ibAnswer : note :=
  Note GN_HONESTY_ANSWER [("honesty_ans"%str, VBytes (genc_bigints toy_gob
    match gn_answer_all toy_trap (repeat true 480) (fst (gn_generate_all toy_fb (repeat 7 480))) with Some l => l | None => [] end))] [].
Definition ibFinal (g v : Z) : note :=
  Note ANNOUNCEMENT_FINALIZE [("g"%str, VBytes (enc_point toy_suite g)); ("keys"%str, VBytes (enc_points toy_suite [pt_mul toy_suite g 7]));
    ("vals"%str, VBytes (enc_points toy_suite [v])); ("GT"%str, VBytes (enc_point toy_suite 4)); ("HT"%str, VBytes (enc_point toy_suite 8))] [].
Definition ibGotWith (addr sig : bytes) : note :=
  Note GOT_SIGNS [("assignment"%str, VBytes (enc_assignment toy_suite (Assign (Some 4) addr (Some 8)))); ("signatures"%str, VBytes [x07]%byte);
    ("signature"%str, VBytes sig)] [].
Definition ibGot (addr : bytes) : note :=
  ibGotWith addr (eg_sign toy_suite (example_nonce toy_suite) (enc_assignment toy_suite (Assign (Some 4) addr (Some 8)) ++ [x07]%byte) 6 (Some pt_new)).
(** A signature that only the key 2 accepts.  (Those with a second part other than 0 are
    accepted under all keys, see C20.) *)
Definition ibGot2 : note := ibGotWith [x62]%byte (enc_secret toy_suite 2 ++ enc_secret toy_suite 0).
Definition ibEnd (g d : Z) : note :=
  Note Net.ROUND_END [("keys"%str, VBytes (enc_points toy_suite [pt_mul toy_suite g 7])); ("diffs"%str, VBytes (genc_ints toy_gob [d]))] [].
Definition ibRdiff (g d : Z) : note :=
  Note BCAST_PEDERSEN_RDIFF [("keys"%str, VBytes (enc_points toy_suite [pt_mul toy_suite g 7])); ("rDiffs"%str, VBytes (enc_secrets toy_suite [d]))] [].

(** The table is exact: the order of two types of messages never matters only if it is in
    the table. *)
Theorem C110_no_other : forall ty ty',
  (forall c m m', noTy m = ty -> noTy m' = ty' -> either_order toy_suite toy_gob c m m') -> order_free ty ty'.
Proof.
  intros t t' H.
  destruct (in_dec Z.eq_dec t acting) as [I|I]; [|now left].
  destruct (in_dec Z.eq_dec t' acting) as [I'|I']; [|right; now left].
  assert (H' : forall c m m', noTy m = t' -> noTy m' = t -> either_order toy_suite toy_gob c m m')
    by (intros c m m' E E'; apply either_sym; now apply H).
  unfold acting in I, I'. cbn [In] in I, I'.
  Ltac no_at c H m m' := exfalso; specialize (H c m m' eq_refl eq_refl); vm_compute in H; discriminate H.
  Ltac no H m m' := no_at toy_client H m m'.
  repeat match type of I with _ \/ _ => destruct I as [I|I] end; try contradiction; subst t;
  repeat match type of I' with _ \/ _ => destruct I' as [I'|I'] end; try contradiction; subst t';
  try (right; right; left; unfold free_pairs; cbn [In]; repeat (first [left; reflexivity|right]); fail);
  try (right; right; right; unfold free_pairs; cbn [In]; repeat (first [left; reflexivity|right]); fail);
  first
  [ no H (ibConf 2 []) (ibConf 3 []) | no_at ibAsked H (ibConf 2 [true]) ibAnswer | no_at ibAsked H' (ibConf 2 [true]) ibAnswer
  | no H (ibConf 2 []) (ibFinal 8 3) | no H' (ibConf 2 []) (ibFinal 8 3) | no H (ibConf 3 []) ibGot2 | no H' (ibConf 3 []) ibGot2
  | no H (ibInit 1 4) (ibInit 2 8) | no H (ibInit 1 4) (ibFinal 8 3) | no H' (ibInit 1 4) (ibFinal 8 3)
  | no H (ibInit 1 4) (ibEnd 8 1) | no H' (ibInit 1 4) (ibEnd 8 1) | no H (ibInit 1 8) (ibRdiff 8 1) | no H' (ibInit 1 8) (ibRdiff 8 1)
  | no H (ibFinal 4 2) (ibFinal 8 3) | no H (ibFinal 8 3) (ibEnd 8 1) | no H' (ibFinal 8 3) (ibEnd 8 1)
  | no H (ibFinal 4 3) (ibRdiff 8 1) | no H' (ibFinal 4 3) (ibRdiff 8 1)
  | no H (ibGot [x61]%byte) (ibGot [x63]%byte) | no H (ibGot [x61]%byte) (ibEnd 8 1) | no H' (ibGot [x61]%byte) (ibEnd 8 1) ].
Qed.
Print Assumptions C110_no_other.

(** Two ends of rounds: the reputation and the secret are those of both, in any order. *)
Example C110_instance :
  ForallOrdPairs (fun m m' => order_free (noTy m) (noTy m')) [ibEnd 8 3; ibRdiff 8 2; ibRdiff 8 4; ibEnd 8 (-1)] /\
  match handle_list toy_suite toy_gob toy_client [ibRdiff 8 4; ibEnd 8 (-1); ibRdiff 8 2; ibEnd 8 3] with
  | Some (c, []) => cl_rep c = 7 /\ cl_R c = Some 1
  | _ => False
  end.
Proof.
  split; [|vm_compute; auto].
  repeat apply FOP_cons; try apply FOP_nil; repeat apply Forall_cons; try apply Forall_nil; right; right; unfold free_pairs; cbn [noTy ibEnd ibRdiff In]; tauto.
Qed.
Example C110_order_free_instance : either_order toy_suite toy_gob toy_client (ibRdiff 8 2) (ibEnd 8 3) /\
  handle2 toy_suite toy_gob toy_client (ibRdiff 8 2) (ibEnd 8 3) <> None.
Proof.
  split; [|vm_compute; discriminate]. apply C110_order_free. right. right. unfold free_pairs. cbn [noTy ibEnd ibRdiff In]. tauto.
Qed.
