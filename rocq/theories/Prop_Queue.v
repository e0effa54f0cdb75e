(** C111: in which order a server gets its messages. *)
From Coq Require Import ZArith Znumtheory Lia List Bool Permutation.
From Coq Require Import Strings.Byte.
From Coq Require String.
From Verif Require Import ZMod Bytes Suite Spec Pedersen ElGamal FujiOkam Equality Codec Maps Net Bridge Client
  Perm SimpleShuffle PairShuffle Server.
From Verif Require Prop_Pedersen Prop_FujiOkam Prop_Codec Prop_Bridge Prop_Shuffle.
Import ListNotations.
Import String.StringSyntax.
Open Scope Z_scope.
Delimit Scope string_scope with str.

(** ** Specification *)
(** A message as it reaches a server: type, fields, sender, and what the server draws. *)
Record job := Job { jbTy : Z; jbP : params; jbSrc : addr; jbRand : sv_rand }.
(** Two servers that differ at most in how the map from the new to the old pseudonyms is laid
    out. *)
Definition same_server (s s' : server) : Prop :=
  sv_addr s = sv_addr s' /\ sv_coord s = sv_coord s' /\ sv_priv s = sv_priv s' /\ sv_pub s = sv_pub s' /\ sv_G s = sv_G s' /\
  sv_ekeys s = sv_ekeys s' /\ sv_ecomms s = sv_ecomms s' /\ sv_connected s = sv_connected s' /\ sv_next s = sv_next s' /\
  sv_prev s = sv_prev s' /\ sv_roundkey s = sv_roundkey s' /\ sv_pb s = sv_pb s' /\ sv_fb s = sv_fb s' /\
  forall k, mget (sv_keymap s) k = mget (sv_keymap s') k.
(** The server handles [m] and then [m']: its state, and what it sends for each of them.
    None = it stops. *)
Definition serve2 (S : suite) (H : oracle) (G : gob) (s : server) (m m' : job) : option (server * list msg * list msg) :=
  match sv_handle S H G s (jbTy m) (jbP m) (jbSrc m) (jbRand m) with
  | None => None
  | Some (s1, o) =>
      match sv_handle S H G s1 (jbTy m') (jbP m') (jbSrc m') (jbRand m') with
      | None => None
      | Some (s2, o') => Some (s2, o, o')
      end
  end.
(** The order of the two does not matter, including whether the server stops. *)
Definition served_alike (S : suite) (H : oracle) (G : gob) (s : server) (m m' : job) : Prop :=
  match serve2 S H G s m m', serve2 S H G s m' m with
  | Some (a, o, o'), Some (b, q', q) => same_server a b /\ o = q /\ o' = q'
  | None, None => True
  | _, _ => False
  end.
(** The types of messages that a server acts on, and the pairs of them whose order does not
    matter. *)
Definition acted_on : list Z :=
  [SERVER_REGISTER_REPLY; ANNOUNCEMENT; ANNOUNCEMENT_FINALIZE; SIGN_ASSIGNMENTS; UPDATE_NEXT_HOP; CLIENT_REGISTER_SERVERSIDE; Net.ROUND_END; BCAST_PEDERSEN_H].
Definition loose_pairs : list (Z * Z) :=
  [(SERVER_REGISTER_REPLY, ANNOUNCEMENT); (SERVER_REGISTER_REPLY, ANNOUNCEMENT_FINALIZE); (SERVER_REGISTER_REPLY, UPDATE_NEXT_HOP);
   (SERVER_REGISTER_REPLY, CLIENT_REGISTER_SERVERSIDE); (SERVER_REGISTER_REPLY, BCAST_PEDERSEN_H);
   (ANNOUNCEMENT, ANNOUNCEMENT); (ANNOUNCEMENT, ANNOUNCEMENT_FINALIZE); (ANNOUNCEMENT, SIGN_ASSIGNMENTS);
   (ANNOUNCEMENT, CLIENT_REGISTER_SERVERSIDE); (ANNOUNCEMENT, BCAST_PEDERSEN_H);
   (ANNOUNCEMENT_FINALIZE, UPDATE_NEXT_HOP); (ANNOUNCEMENT_FINALIZE, CLIENT_REGISTER_SERVERSIDE); (ANNOUNCEMENT_FINALIZE, Net.ROUND_END);
   (SIGN_ASSIGNMENTS, SIGN_ASSIGNMENTS); (SIGN_ASSIGNMENTS, UPDATE_NEXT_HOP); (SIGN_ASSIGNMENTS, CLIENT_REGISTER_SERVERSIDE);
   (SIGN_ASSIGNMENTS, Net.ROUND_END);
   (UPDATE_NEXT_HOP, Net.ROUND_END); (UPDATE_NEXT_HOP, BCAST_PEDERSEN_H);
   (CLIENT_REGISTER_SERVERSIDE, CLIENT_REGISTER_SERVERSIDE); (CLIENT_REGISTER_SERVERSIDE, BCAST_PEDERSEN_H);
   (Net.ROUND_END, BCAST_PEDERSEN_H)].
Definition loose (ty ty' : Z) : Prop :=
  ~ In ty acted_on \/ ~ In ty' acted_on \/ In (ty, ty') loose_pairs \/ In (ty', ty) loose_pairs.
(** The server handles a list of messages: its state, and all it sends.  None = it stops. *)
Fixpoint serve (S : suite) (H : oracle) (G : gob) (s : server) (l : list job) : option (server * list msg) :=
  match l with
  | [] => Some (s, [])
  | m :: l' =>
      match sv_handle S H G s (jbTy m) (jbP m) (jbSrc m) (jbRand m) with
      | None => None
      | Some (s1, o) => match serve S H G s1 l' with None => None | Some (s2, os) => Some (s2, o ++ os) end
      end
  end.
(** Same state, same things sent up to their order, or both stop. *)
Definition alike (x y : option (server * list msg)) : Prop :=
  match x, y with
  | Some (s, o), Some (s', o') => same_server s s' /\ Permutation o o'
  | None, None => True
  | _, _ => False
  end.
(** A round key that can be undone. *)
Definition usable (S : suite) (r : Z) : Prop := rel_prime r (sQ S).

(** ** Proofs *)
Section Queue.
Context (S : suite) (OK : suite_ok S) (H : oracle) (G : gob).
Notation handle s m := (sv_handle S H G s (jbTy m) (jbP m) (jbSrc m) (jbRand m)).

Lemma same_server_refl s : same_server s s.
Proof. unfold same_server. repeat split. Qed.
Lemma same_server_sym s s' : same_server s s' -> same_server s' s.
Proof. unfold same_server. intuition congruence. Qed.
Lemma alike_sym s m m' : served_alike S H G s m m' -> served_alike S H G s m' m.
Proof.
  unfold served_alike. destruct (serve2 S H G s m m') as [[[? ?] ?]|], (serve2 S H G s m' m) as [[[? ?] ?]|]; try tauto.
  intros (A & -> & ->). split; [now apply same_server_sym|]. auto.
Qed.
Lemma unknown_idle ty : ~ In ty acted_on -> forall s p src rn, sv_handle S H G s ty p src rn = Some (s, []).
Proof.
  intros N s p src rn. unfold acted_on in N. cbn [In] in N. unfold sv_handle.
  repeat match goal with |- context [ty =? ?x] => destruct (Z.eqb_spec ty x); [exfalso; apply N; subst; tauto|] end. reflexivity.
Qed.
Lemma idle_alike s m m' : ~ In (jbTy m) acted_on -> served_alike S H G s m m'.
Proof.
  intros N. unfold served_alike, serve2. rewrite (unknown_idle _ N).
  destruct (handle s m') as [[s1 o]|]; [|exact I]. rewrite (unknown_idle _ N). split; [apply same_server_refl|auto].
Qed.

(** The pseudonyms [ks] enter the map. *)
Definition enter (rk : Z) (ks : list Z) (m : amap Z Z) : amap Z Z := fold_left (fun m k => mset m (pt_mul S k rk) k) ks m.
Lemma enter_app rk a b m : enter rk (a ++ b) m = enter rk b (enter rk a m).
Proof. apply fold_left_app. Qed.
Lemma enter_old rk ks y : (forall k, In k ks -> pt_mul S k rk <> y) -> forall m, mget (enter rk ks m) y = mget m y.
Proof.
  induction ks as [|k ks IH]; intros N m; cbn; [reflexivity|]. change (mget (enter rk ks (mset m (pt_mul S k rk) k)) y = mget m y).
  rewrite IH by (intros; apply N; now right). apply mget_mset_ne. apply N. now left.
Qed.
Lemma enter_new rk ks y k : usable S rk -> Forall (in_group S) ks -> In k ks -> pt_mul S k rk = y -> forall m, mget (enter rk ks m) y = Some k.
Proof.
  intros U F. induction F as [|k' ks G' F IH]; intros I E m; [destruct I|]. change (mget (enter rk ks (mset m (pt_mul S k' rk) k')) y = Some k).
  destruct (in_dec Z.eq_dec k ks) as [J|J]; [now apply IH|]. destruct I as [->|I]; [|contradiction].
  rewrite enter_old; [subst y; apply mget_mset_eq|]. intros k2 J2 E2. apply J. rewrite Forall_forall in F.
  replace k with k2; [exact J2|]. apply (pt_mul_inj S OK k2 k rk); auto. congruence.
Qed.
Lemma enter_ext rk ks : forall m m', (forall k, mget m k = mget m' k) -> forall k, mget (enter rk ks m) k = mget (enter rk ks m') k.
Proof.
  induction ks as [|a ks IH]; intros m m' E k; cbn; [apply E|]. apply IH. intros k'. rewrite !mget_mset. now rewrite E.
Qed.
Lemma enter_swap rk a b m y : usable S rk -> Forall (in_group S) a -> Forall (in_group S) b ->
  mget (enter rk b (enter rk a m)) y = mget (enter rk a (enter rk b m)) y.
Proof.
  intros U A B. destruct (in_dec Z.eq_dec y (map (fun k => pt_mul S k rk) b)) as [I|I].
  - apply in_map_iff in I. destruct I as (k & E & I). rewrite (enter_new rk b y k) by assumption.
    rewrite <- enter_app, (enter_new rk (b ++ a) y k); auto. apply Forall_app. auto. apply in_app_iff. auto.
  - rewrite (enter_old rk b) by (intros k J E; apply I, in_map_iff; eauto).
    destruct (in_dec Z.eq_dec y (map (fun k => pt_mul S k rk) a)) as [J|J].
    + apply in_map_iff in J. destruct J as (k & E & J). now rewrite !(enter_new rk a y k).
    + rewrite !(enter_old rk a) by (intros k K E; apply J, in_map_iff; eauto). symmetry.
      apply enter_old. intros k K E. apply I, in_map_iff; eauto.
Qed.
Lemma enter_seq rk ks m :
  fold_left (fun m i => mset m (at_ (map (fun k => pt_mul S k rk) ks) i) (at_ ks i)) (seq 0 (length ks)) m = enter rk ks m.
Proof.
  revert m. induction ks as [|k ks IH]; intros m; [reflexivity|]. cbn [length seq fold_left]. change (enter rk (k :: ks) m) with (enter rk ks (mset m (pt_mul S k rk) k)).
  rewrite <- seq_shift. rewrite <- IH. change (at_ (map (fun k => pt_mul S k rk) (k :: ks)) 0) with (pt_mul S k rk). change (at_ (k :: ks) 0) with k.
  generalize (mset m (pt_mul S k rk) k). generalize (seq 0 (length ks)). induction l as [|i l IHl]; intros m0; cbn [map fold_left]; [reflexivity|].
  rewrite IHl. reflexivity.
Qed.
Lemma group_of b p : dec_point S b = Some p -> in_group S p.
Proof. unfold dec_point. destruct (pt_valid S (be_to_z b)) eqn:E; [|discriminate]. intros X. injection X as <-. now apply (pt_valid_iff S OK). Qed.
Lemma groups_of b l : dec_points S b = Some l -> Forall (in_group S) l.
Proof.
  unfold dec_points. destruct (pb_parse b) as [fs|]; [|discriminate]. revert l. induction fs as [|[f w] fs IH]; intros l E.
  - cbn in E. injection E as <-. constructor.
  - cbn [dec_repeated] in E. destruct f as [|[?|?|]|?]; try (now apply IH). destruct w as [?|c|?]; try discriminate.
    destruct (dec_point S c) as [x|] eqn:X; [|discriminate]. destruct (dec_repeated (dec_point S) fs) eqn:D; [|discriminate]. injection E as <-.
    constructor; [eapply group_of; eassumption|]. now apply IH.
Qed.

(** What each type does to the fields. *)
Lemma on_reply p src rn : exists f, forall s, sv_handle S H G s SERVER_REGISTER_REPLY p src rn =
  match f with
  | None => None
  | Some (rep, prev, fb, out) => Some (Server (sv_addr s) (sv_coord s) (sv_priv s) (sv_pub s) (sv_G s) (sv_ekeys s) (sv_ecomms s)
          (rep || sv_connected s) (sv_next s) (match prev with Some a => a | None => sv_prev s end) (sv_keymap s) (sv_roundkey s) (sv_pb s) (Some fb),
        [Msg src UPDATE_PEDERSEN_H out (sv_addr s)])
  end.
Proof.
  exists (olet rep := get_bool p "reply"%str in
    olet prev := (if has_key p "prev_server"%str then olet a := get_str p "prev_server"%str in Some (Some a) else Some None) in
    olet fb := read_fobase p in olet bh := get_bytes p "h"%str in olet h := dec_point S bh in
    Some (rep, prev, fb, [("h"%str, VBytes (enc_point S (pt_mul S h (srKey rn))))])).
  intros s. change (sv_handle S H G s SERVER_REGISTER_REPLY p src rn) with (sv_register_reply S s p src (srKey rn)). unfold sv_register_reply.
  destruct (get_bool p "reply"%str); [|reflexivity]. destruct (has_key p "prev_server"%str); [destruct (get_str p "prev_server"%str); [|reflexivity]|];
  (destruct (read_fobase p); [|reflexivity]); (destruct (get_bytes p "h"%str) as [bh|]; [|reflexivity]); (destruct (dec_point S bh); reflexivity).
Qed.
Lemma on_enter ty p src rn : ty = ANNOUNCEMENT \/ ty = CLIENT_REGISTER_SERVERSIDE -> exists f : Z -> Z -> Z -> option (list Z * params),
  (forall a b c ks out, f a b c = Some (ks, out) -> Forall (in_group S) ks) /\
  forall s, sv_handle S H G s ty p src rn =
  match f (sv_priv s) (sv_pub s) (sv_roundkey s) with
  | None => None
  | Some (ks, out) => Some (Server (sv_addr s) (sv_coord s) (sv_priv s) (sv_pub s) (sv_G s) (sv_ekeys s) (sv_ecomms s)
          (sv_connected s) (sv_next s) (sv_prev s) (enter (sv_roundkey s) ks (sv_keymap s)) (sv_roundkey s) (sv_pb s) (sv_fb s),
        [Msg (sv_next s) ty out (sv_addr s)])
  end.
Proof.
  intros [->| ->].
  - exists (fun a b rk => let s := Server [] [] a b None [] [] false [] [] [] rk (PBase 0 0) None in
      olet (_, o) := sv_announcement S H s p rn in olet bk := get_bytes p "keys"%str in olet keys := dec_points S bk in
      match o with [m] => Some (keys, mParams m) | _ => None end).
    split.
    + intros a b rk ks out. cbv zeta. destruct (sv_announcement S H _ p rn) as [[? o]|]; [|discriminate].
      destruct (get_bytes p "keys"%str) as [bk|]; [|discriminate]. destruct (dec_points S bk) eqn:D; [|discriminate].
      destruct o as [|m [|? ?]]; try discriminate. intros X. injection X as <- <-. eapply groups_of; eassumption.
    + intros s. change (sv_handle S H G s ANNOUNCEMENT p src rn) with (sv_announcement S H s p rn). cbv zeta. unfold sv_announcement.
      cbn [sv_priv sv_pub sv_roundkey sv_addr sv_coord sv_G sv_ekeys sv_ecomms sv_connected sv_next sv_prev sv_keymap sv_pb sv_fb].
      destruct (get_bytes p "keys"%str) as [bk|]; [|reflexivity]. destruct (dec_points S bk) as [keys|]; [|reflexivity].
      destruct (get_bytes p "vals"%str) as [bv|]; [|reflexivity]. destruct (dec_points S bv) as [vals|]; [|reflexivity].
      destruct (get_bytes p "GT"%str) as [bG|]; [|reflexivity]. destruct (dec_point S bG) as [GT|]; [|reflexivity].
      destruct (get_bytes p "HT"%str) as [bH|]; [|reflexivity]. destruct (dec_point S bH) as [HT|]; [|reflexivity].
      match goal with |- context [if has_key p "g"%str then ?x else ?y] => destruct (if has_key p "g"%str then x else y) as [g|]; [|reflexivity] end.
      destruct (scale_vals S (length keys) vals (srE rn)) as [nv|]; [|reflexivity].
      change (mix S H (Server [] [] (sv_priv s) (sv_pub s) None [] [] false [] [] [] (sv_roundkey s) (PBase 0 0) None)) with (mix S H s).
      destruct (mix S H s (map (fun k => pt_mul S k (sv_roundkey s)) keys) nv rn) as [[[fk fv] ex]|]; [|reflexivity].
      cbn [mParams]. now rewrite enter_seq.
  - exists (fun _ _ rk => olet bk := get_bytes p "public_key"%str in olet pk := dec_point S bk in olet a := get_str p "addr"%str in
      olet pc := get_bytes p "pcomm"%str in
      Some ([pk], [("public_key"%str, VBytes (enc_point S (pt_mul S pk rk))); ("addr"%str, VStr a); ("pcomm"%str, VBytes pc)])).
    split.
    + intros _ _ rk ks out. destruct (get_bytes p "public_key"%str) as [bk|]; [|discriminate]. destruct (dec_point S bk) eqn:D; [|discriminate].
      destruct (get_str p "addr"%str); [|discriminate]. destruct (get_bytes p "pcomm"%str); [|discriminate]. intros X. injection X as <- <-.
      constructor; [eapply group_of; eassumption|constructor].
    + intros s. change (sv_handle S H G s CLIENT_REGISTER_SERVERSIDE p src rn) with (sv_client_register S s p). unfold sv_client_register.
      destruct (get_bytes p "public_key"%str) as [bk|]; [|reflexivity]. destruct (dec_point S bk); [|reflexivity].
      destruct (get_str p "addr"%str); [|reflexivity]. destruct (get_bytes p "pcomm"%str); reflexivity.
Qed.
Lemma on_final_sv p src rn : exists f, forall s, sv_handle S H G s ANNOUNCEMENT_FINALIZE p src rn =
  match f with
  | None => None
  | Some (g, ek, ec, pb) => Some (Server (sv_addr s) (sv_coord s) (sv_priv s) (sv_pub s) (Some g) ek ec
          (sv_connected s) (sv_next s) (sv_prev s) (sv_keymap s) (sv_roundkey s) pb (sv_fb s), [])
  end.
Proof.
  exists (olet bg := get_bytes p "g"%str in olet g := dec_point S bg in olet bG := get_bytes p "GT"%str in olet GT := dec_point S bG in
    olet bH := get_bytes p "HT"%str in olet HT := dec_point S bH in olet bk := get_bytes p "keys"%str in olet keys := dec_points S bk in
    olet bv := get_bytes p "vals"%str in olet vals := dec_points S bv in olet ek := ending_map keys keys in olet ec := ending_map keys vals in
    Some (g, ek, ec, PBase HT GT)).
  intros s. change (sv_handle S H G s ANNOUNCEMENT_FINALIZE p src rn) with (sv_finalize S s p). unfold sv_finalize.
  repeat match goal with |- match ?x with _ => _ end = _ => destruct x; [|reflexivity] end. reflexivity.
Qed.
Lemma on_sign p src rn : exists f : Z -> option fobase -> pbase -> amap Z Z -> option params, forall s, sv_handle S H G s SIGN_ASSIGNMENTS p src rn =
  match f (sv_priv s) (sv_fb s) (sv_pb s) (sv_ecomms s) with
  | None => None
  | Some out => Some (s, [Msg src GOT_SIGNS out (sv_addr s)])
  end.
Proof.
  exists (fun pr fb pb ec => olet bn := get_bytes p "nym"%str in olet nym := dec_point S bn in olet fb := fb in
    olet ok := verify_ind S G pb fb p (mget ec nym) in if negb ok then Some [("success"%str, VBool false)] else
    olet ba := get_bytes p "assignments"%str in olet l := dec_assignments S G ba in
    Some [("success"%str, VBool true); ("assignments"%str, VBytes ba);
      ("signatures"%str, VBytes (genc_2d G (map (fun a => eg_sign S (example_nonce S) (enc_assignment S a) pr (Some pt_new)) l)))]).
  intros s. change (sv_handle S H G s SIGN_ASSIGNMENTS p src rn) with (sv_sign S G s p src). unfold sv_sign.
  destruct (get_bytes p "nym"%str) as [bn|]; [|reflexivity]. destruct (dec_point S bn); [|reflexivity]. destruct (sv_fb s); [|reflexivity].
  destruct (verify_ind _ _ _ _ _ _) as [[|]|]; cbn [negb]; try reflexivity. destruct (get_bytes p "assignments"%str) as [ba|]; [|reflexivity].
  destruct (dec_assignments S G ba); reflexivity.
Qed.
Lemma on_next p src rn : exists f, forall s, sv_handle S H G s UPDATE_NEXT_HOP p src rn =
  match f with
  | None => None
  | Some a => Some (Server (sv_addr s) (sv_coord s) (sv_priv s) (sv_pub s) (sv_G s) (sv_ekeys s) (sv_ecomms s)
          (sv_connected s) a (sv_prev s) (sv_keymap s) (sv_roundkey s) (sv_pb s) (sv_fb s), [])
  end.
Proof. exists (get_str p "next_hop"%str). intros s. change (sv_handle S H G s UPDATE_NEXT_HOP p src rn) with (sv_update_next s p). reflexivity. Qed.
Lemma on_round_end p src rn : exists f : Z -> Z -> amap Z Z -> option params,
  (forall a b m m', (forall k, mget m k = mget m' k) -> f a b m = f a b m') /\
  forall s, sv_handle S H G s Net.ROUND_END p src rn =
  match f (sv_priv s) (sv_pub s) (sv_keymap s) with
  | None => None
  | Some out => Some (Server (sv_addr s) (sv_coord s) (sv_priv s) (sv_pub s) (sv_G s) (sv_ekeys s) (sv_ecomms s)
          (sv_connected s) (sv_next s) (sv_prev s) [] (srKey rn) (sv_pb s) (sv_fb s), [Msg (sv_prev s) Net.ROUND_END out (sv_addr s)])
  end.
Proof.
  exists (fun a b m => let s := Server [] [] a b None [] [] false [] [] m 0 (PBase 0 0) None in
      olet (_, o) := sv_round_end S H s p rn in match o with [m] => Some (mParams m) | _ => None end).
  split.
  - intros a b m m' E. cbv zeta. unfold sv_round_end. cbn [sv_keymap].
    assert (E' : forall keys, map (fun k => mget m k) keys = map (fun k => mget m' k) keys) by (intros; now apply map_ext).
    change (mix S H (Server [] [] a b None [] [] false [] [] m' 0 (PBase 0 0) None)) with (mix S H (Server [] [] a b None [] [] false [] [] m 0 (PBase 0 0) None)).
    destruct (get_bytes p "keys"%str) as [bk|]; [|reflexivity]. destruct (dec_points S bk) as [keys|]; [|reflexivity]. rewrite E'. reflexivity.
  - intros s. change (sv_handle S H G s Net.ROUND_END p src rn) with (sv_round_end S H s p rn). cbv zeta. unfold sv_round_end.
    cbn [sv_priv sv_pub sv_roundkey sv_addr sv_coord sv_G sv_ekeys sv_ecomms sv_connected sv_next sv_prev sv_keymap sv_pb sv_fb].
    change (mix S H (Server [] [] (sv_priv s) (sv_pub s) None [] [] false [] [] (sv_keymap s) 0 (PBase 0 0) None)) with (mix S H s).
    repeat match goal with |- match ?x with _ => _ end = _ => destruct x; [|reflexivity] end. destruct p0 as [[? ?] ?]. reflexivity.
Qed.
Lemma on_ph p src rn : exists f, forall s, sv_handle S H G s BCAST_PEDERSEN_H p src rn =
  match f with
  | None => None
  | Some h => Some (Server (sv_addr s) (sv_coord s) (sv_priv s) (sv_pub s) (sv_G s) (sv_ekeys s) (sv_ecomms s)
          (sv_connected s) (sv_next s) (sv_prev s) (sv_keymap s) (sv_roundkey s) (PBase h (pb_GT (sv_pb s))) (sv_fb s), [])
  end.
Proof.
  exists (olet bh := get_bytes p "h"%str in dec_point S bh). intros s. change (sv_handle S H G s BCAST_PEDERSEN_H p src rn) with (sv_pedersen_h S s p).
  unfold sv_pedersen_h. destruct (get_bytes p "h"%str) as [bh|]; [|reflexivity]. destruct (dec_point S bh); reflexivity.
Qed.

(** The order of such a pair of messages does not matter, whatever they contain, for any
    server whose round key can be undone. *)
Theorem C111_order_free : forall s m m', usable S (sv_roundkey s) -> loose (jbTy m) (jbTy m') -> served_alike S H G s m m'.
Proof.
  intros s [t p src rn] [t' p' src' rn'] U F. cbn [jbTy] in F. destruct F as [N|[N|F]].
  - now apply idle_alike.
  - now apply alike_sym, idle_alike.
  - assert (W : forall t p src rn t' p' src' rn', In (t, t') loose_pairs -> served_alike S H G s (Job t p src rn) (Job t' p' src' rn')).
    2:{ destruct F as [F|F]; [now apply W|]. apply alike_sym. now apply W. }
    clear - U OK. intros t p src rn t' p' src' rn' I. unfold served_alike, serve2. cbn [jbTy jbP jbSrc jbRand].
    destruct (on_reply p src rn) as [f1 F1], (on_enter ANNOUNCEMENT p src rn (or_introl eq_refl)) as (f2 & V2 & F2),
      (on_enter CLIENT_REGISTER_SERVERSIDE p src rn (or_intror eq_refl)) as (f3 & V3 & F3), (on_final_sv p src rn) as [f4 F4],
      (on_sign p src rn) as [f5 F5], (on_next p src rn) as [f6 F6], (on_round_end p src rn) as (f7 & V7 & F7), (on_ph p src rn) as [f8 F8].
    destruct (on_reply p' src' rn') as [f1' F1'], (on_enter ANNOUNCEMENT p' src' rn' (or_introl eq_refl)) as (f2' & V2' & F2'),
      (on_enter CLIENT_REGISTER_SERVERSIDE p' src' rn' (or_intror eq_refl)) as (f3' & V3' & F3'), (on_final_sv p' src' rn') as [f4' F4'],
      (on_sign p' src' rn') as [f5' F5'], (on_next p' src' rn') as [f6' F6'], (on_round_end p' src' rn') as (f7' & V7' & F7'), (on_ph p' src' rn') as [f8' F8'].
    unfold loose_pairs in I. cbn [In] in I.
    repeat match type of I with _ \/ _ => destruct I as [I|I] end; try contradiction; injection I as <- <-;
    repeat (rewrite ?F1, ?F1', ?F2, ?F2', ?F3, ?F3', ?F4, ?F4', ?F5, ?F5', ?F6, ?F6', ?F7, ?F7', ?F8, ?F8';
      cbn [sv_priv sv_pub sv_roundkey sv_addr sv_coord sv_G sv_ekeys sv_ecomms sv_connected sv_next sv_prev sv_keymap sv_pb sv_fb];
      try match goal with |- context [match ?x with _ => _ end] => lazymatch x with context [match _ with _ => _ end] => fail | sv_handle _ _ _ _ _ _ _ _ => fail | _ => destruct x eqn:? end end);
    try exact Logic.I; try congruence;
    subst; repeat match goal with
      | A : ?x = Some _, B : ?x = Some _ |- _ => rewrite A in B
      | B : Some _ = Some _ |- _ => injection B; clear B; intros; subst
      end;
    try (split; [apply same_server_refl|split; reflexivity]);
    try (split; [|split; reflexivity]; unfold same_server;
      cbn [sv_priv sv_pub sv_roundkey sv_addr sv_coord sv_G sv_ekeys sv_ecomms sv_connected sv_next sv_prev sv_keymap sv_pb sv_fb];
      repeat split; intros k; apply enter_swap; eauto).
Qed.

Lemma same_server_trans a b c : same_server a b -> same_server b c -> same_server a c.
Proof. unfold same_server. intuition congruence. Qed.
Lemma alike_refl x : alike x x.
Proof. destruct x as [[? ?]|]; cbn; auto using same_server_refl. Qed.
Lemma alike_trans x y z : alike x y -> alike y z -> alike x z.
Proof.
  destruct x as [[? ?]|], y as [[? ?]|], z as [[? ?]|]; cbn; try tauto. intros [A P] [B Q].
  split; [now apply same_server_trans with s0|]. now transitivity l0.
Qed.
Lemma loose_sym t t' : loose t t' -> loose t' t.
Proof. unfold loose. tauto. Qed.
Lemma handle_same s s' ty p src rn : same_server s s' ->
  match sv_handle S H G s ty p src rn, sv_handle S H G s' ty p src rn with
  | Some (a, o), Some (b, q) => same_server a b /\ o = q
  | None, None => True
  | _, _ => False
  end.
Proof.
  intros E. destruct (in_dec Z.eq_dec ty acted_on) as [I|N].
  2:{ rewrite !(unknown_idle _ N). auto. }
  destruct (on_reply p src rn) as [f1 F1], (on_enter ANNOUNCEMENT p src rn (or_introl eq_refl)) as (f2 & V2 & F2),
    (on_enter CLIENT_REGISTER_SERVERSIDE p src rn (or_intror eq_refl)) as (f3 & V3 & F3), (on_final_sv p src rn) as [f4 F4],
    (on_sign p src rn) as [f5 F5], (on_next p src rn) as [f6 F6], (on_round_end p src rn) as (f7 & V7 & F7), (on_ph p src rn) as [f8 F8].
  pose proof E as E0. destruct E as (X1 & X2 & X3 & X4 & X5 & X6 & X7 & X8 & X9 & X10 & X11 & X12 & X13 & XK).
  unfold acted_on in I. cbn [In] in I.
  repeat match type of I with _ \/ _ => destruct I as [I|I] end; try contradiction; subst ty;
  rewrite ?F1, ?F2, ?F3, ?F4, ?F5, ?F6, ?F7, ?F8; rewrite <- ?X1, <- ?X2, <- ?X3, <- ?X4, <- ?X5, <- ?X6, <- ?X7, <- ?X8, <- ?X9, <- ?X10, <- ?X11, <- ?X12, <- ?X13;
  rewrite <- ?(V7 (sv_priv s) (sv_pub s) _ _ XK);
  repeat match goal with |- context [match ?x with _ => _ end] => lazymatch x with context [match _ with _ => _ end] => fail | _ => destruct x end end;
  try exact Logic.I; split; try reflexivity; try exact E0; unfold same_server;
  cbn [sv_priv sv_pub sv_roundkey sv_addr sv_coord sv_G sv_ekeys sv_ecomms sv_connected sv_next sv_prev sv_keymap sv_pb sv_fb];
  repeat split; auto; intros; now apply enter_ext.
Qed.
Lemma serve_same l : forall s s', same_server s s' -> alike (serve S H G s l) (serve S H G s' l).
Proof.
  induction l as [|m l IH]; intros s s' E; cbn; [auto|]. pose proof (handle_same s s' (jbTy m) (jbP m) (jbSrc m) (jbRand m) E) as X.
  destruct (handle s m) as [[a o]|], (handle s' m) as [[b q]|]; try tauto. destruct X as [X ->]. specialize (IH a b X).
  destruct (serve S H G a l) as [[? ?]|], (serve S H G b l) as [[? ?]|]; cbn in IH |- *; try tauto. destruct IH as [Y P].
  split; [exact Y|]. now apply Permutation_app_head.
Qed.
Lemma usable_step s m s1 o : usable S (sv_roundkey s) -> (jbTy m = Net.ROUND_END -> usable S (srKey (jbRand m))) ->
  handle s m = Some (s1, o) -> usable S (sv_roundkey s1).
Proof.
  intros U V E. destruct m as [ty p src rn]. cbn [jbTy jbP jbSrc jbRand] in *. destruct (in_dec Z.eq_dec ty acted_on) as [I|N].
  2:{ rewrite (unknown_idle _ N) in E. injection E as <- _. exact U. }
  destruct (on_reply p src rn) as [f1 F1], (on_enter ANNOUNCEMENT p src rn (or_introl eq_refl)) as (f2 & V2 & F2),
    (on_enter CLIENT_REGISTER_SERVERSIDE p src rn (or_intror eq_refl)) as (f3 & V3 & F3), (on_final_sv p src rn) as [f4 F4],
    (on_sign p src rn) as [f5 F5], (on_next p src rn) as [f6 F6], (on_round_end p src rn) as (f7 & V7 & F7), (on_ph p src rn) as [f8 F8].
  unfold acted_on in I. cbn [In] in I.
  repeat match type of I with _ \/ _ => destruct I as [I|I] end; try contradiction; subst ty;
  rewrite ?F1, ?F2, ?F3, ?F4, ?F5, ?F6, ?F7, ?F8 in E;
  repeat match type of E with context [match ?x with _ => _ end] => lazymatch x with context [match _ with _ => _ end] => fail | _ => destruct x end end;
  try discriminate; injection E as <- _; cbn [sv_roundkey]; auto.
Qed.

(** Messages whose order does not matter in pairs can come in any order. *)
Theorem C111_any_order : forall l l' s, Permutation l l' -> usable S (sv_roundkey s) ->
  Forall (fun m => jbTy m = Net.ROUND_END -> usable S (srKey (jbRand m))) l ->
  ForallOrdPairs (fun m m' => loose (jbTy m) (jbTy m')) l ->
  alike (serve S H G s l) (serve S H G s l').
Proof.
  intros l l' s P. revert s. induction P as [|m l l' P IH|m m' l|l l' l'' P1 IH1 P2 IH2]; intros s U K F.
  - apply alike_refl.
  - inversion F as [|? ? _ F']; subst. inversion K as [|? ? K1 K']; subst. cbn.
    destruct (handle s m) as [[s1 o]|] eqn:E1; [|exact I].
    specialize (IH s1 (usable_step _ _ _ _ U K1 E1) K' F'). destruct (serve S H G s1 l) as [[? ?]|], (serve S H G s1 l') as [[? ?]|]; cbn in IH |- *; try tauto.
    destruct IH as [X Q]. split; [exact X|]. now apply Permutation_app_head.
  - inversion F as [|? ? A _]; subst. inversion A as [|? ? B _]; subst. pose proof (C111_order_free s m' m U B) as E.
    unfold served_alike, serve2 in E. cbn.
    destruct (handle s m') as [[s1 o]|].
    + destruct (handle s1 m) as [[s2 o2]|].
      * destruct (handle s m) as [[s3 o3]|]; [|destruct E].
        destruct (handle s3 m') as [[s4 o4]|]; [|destruct E]. destruct E as (X & -> & ->).
        pose proof (serve_same l s2 s4 X) as Y. destruct (serve S H G s2 l) as [[s5 os]|], (serve S H G s4 l) as [[s6 os']|]; cbn in Y |- *; try tauto.
        destruct Y as [Y Q]. split; [exact Y|]. rewrite !app_assoc. apply Permutation_app; [apply Permutation_app_comm|exact Q].
      * destruct (handle s m) as [[s3 o3]|]; [|exact I]. destruct (handle s3 m') as [[s4 o4]|]; [destruct E|exact I].
    + destruct (handle s m) as [[s3 o3]|]; [|exact I]. destruct (handle s3 m') as [[s4 o4]|]; [destruct E|exact I].
  - eapply alike_trans; [now apply IH1|]. apply IH2; [assumption|now apply (Permutation_Forall P1)|]. clear - F P1. revert F. induction P1; intros F.
    + constructor.
    + inversion F as [|? ? A F']; subst. constructor; [|auto]. eapply Permutation_Forall; eassumption.
    + inversion F as [|? ? A F']; subst. inversion A; subst. inversion F'; subst. constructor; [constructor; [now apply loose_sym|assumption]|constructor; assumption].
    + auto.
Qed.
End Queue.
Print Assumptions C111_order_free.
Print Assumptions C111_any_order.

(** ** All other pairs *)
Import Prop_Pedersen Prop_FujiOkam Prop_Codec Prop_Bridge Prop_Shuffle.
Definition quA : addr := [x61]%byte. Definition quB : addr := [x62]%byte.
Definition quRand (k : Z) : sv_rand := SvRand 3 (fun _ => 0) [7; 2] toy_ps k.
Definition quServer : server :=
  Server quA [x63]%byte 3 18 (Some 8) [] [(cl_nym toy_client, ped_commit_r toy_suite toy_base 5 6)] true quB quB [] 5 toy_base (Some toy_fb).
Definition quNew : server := init_server toy_suite quA [x63]%byte 3 5.
Definition quReply (prev : addr) : job :=
  Job SERVER_REGISTER_REPLY ([("reply"%str, VBool true); ("prev_server"%str, VStr prev); ("h"%str, VBytes (enc_point toy_suite 8))] ++ fobase_params toy_fb) [] (quRand 7).
Definition quAnn (k v : Z) : job := Job ANNOUNCEMENT (table_params toy_suite [k] [v] 4 8) [] (quRand 7).
Definition quFinal (g : Z) : job :=
  Job ANNOUNCEMENT_FINALIZE (("g"%str, VBytes (enc_point toy_suite g)) :: table_params toy_suite [4] [9] 9 13) [] (quRand 7).
Definition quSign : job :=
  Job SIGN_ASSIGNMENTS (match cl_request toy_suite toy_gob toy_client 3 toy_rn with Some (Some m) => mParams m | _ => [] end ++
    [("assignments"%str, VBytes (enc_assignments toy_suite toy_gob [Assign (Some 4) [x61]%byte (Some 8)]))]) [] (quRand 7).
Definition quNext (a : addr) : job := Job UPDATE_NEXT_HOP [("next_hop"%str, VStr a)] [] (quRand 7).
Definition quJoin (k : Z) : job :=
  Job CLIENT_REGISTER_SERVERSIDE [("public_key"%str, VBytes (enc_point toy_suite k)); ("addr"%str, VStr quB); ("pcomm"%str, VBytes [])] [] (quRand 7).
Definition quEnd (ks vs : list Z) (rk : Z) : job :=
  Job Net.ROUND_END (table_params toy_suite ks vs 4 8 ++ [("is_start"%str, VBool true)]) [] (quRand rk).
Definition quH (h : Z) : job := Job BCAST_PEDERSEN_H [("h"%str, VBytes (enc_point toy_suite h))] [] (quRand 7).

Lemma five_usable : usable toy_suite 5.
Proof. apply Zgcd_1_rel_prime. reflexivity. Qed.
(** The table is exact: the order of two types of messages never matters only if it is in
    the table. *)
Theorem C111_no_other : forall ty ty',
  (forall s m m', usable toy_suite (sv_roundkey s) -> jbTy m = ty -> jbTy m' = ty' -> served_alike toy_suite toy_oracle toy_gob s m m') -> loose ty ty'.
Proof.
  intros t t' H.
  destruct (in_dec Z.eq_dec t acted_on) as [I|I]; [|now left].
  destruct (in_dec Z.eq_dec t' acted_on) as [I'|I']; [|right; now left].
  assert (H' : forall s m m', usable toy_suite (sv_roundkey s) -> jbTy m = t' -> jbTy m' = t -> served_alike toy_suite toy_oracle toy_gob s m m')
    by (intros s m m' U E E'; apply alike_sym; now apply H).
  unfold acted_on in I, I'. cbn [In] in I, I'.
  Ltac not_at c H m m' := exfalso; specialize (H c m m' five_usable eq_refl eq_refl); vm_compute in H; first [contradiction|decompose [and] H; discriminate].
  Ltac not_ H m m' := not_at quServer H m m'.
  repeat match type of I with _ \/ _ => destruct I as [I|I] end; try contradiction; subst t;
  repeat match type of I' with _ \/ _ => destruct I' as [I'|I'] end; try contradiction; subst t';
  try (right; right; left; unfold loose_pairs; cbn [In]; repeat (first [left; reflexivity|right]); fail);
  try (right; right; right; unfold loose_pairs; cbn [In]; repeat (first [left; reflexivity|right]); fail);
  first
  [ not_ H (quReply quA) (quReply quB) | not_at quNew H (quReply quA) quSign | not_at quNew H' (quReply quA) quSign
  | not_ H (quReply quA) (quEnd [] [] 7) | not_ H' (quReply quA) (quEnd [] [] 7)
  | not_ H (quAnn 4 9) (quNext quA) | not_ H' (quAnn 4 9) (quNext quA) | not_ H (quAnn 4 9) (quEnd [12] [9] 7) | not_ H' (quAnn 4 9) (quEnd [12] [9] 7)
  | not_ H (quFinal 4) (quFinal 8) | not_ H (quFinal 4) quSign | not_ H' (quFinal 4) quSign | not_ H (quFinal 4) (quH 4) | not_ H' (quFinal 4) (quH 4)
  | not_ H quSign (quH 4) | not_ H' quSign (quH 4) | not_ H (quNext quA) (quNext quB) | not_ H (quNext quA) (quJoin 4) | not_ H' (quNext quA) (quJoin 4)
  | not_ H (quJoin 4) (quEnd [12] [9] 7) | not_ H' (quJoin 4) (quEnd [12] [9] 7) | not_ H (quEnd [] [] 7) (quEnd [] [] 3) | not_ H (quH 4) (quH 8) ].
Qed.
Print Assumptions C111_no_other.

(** A client joins while the table of a new round goes around, and another one with it: the
    server knows all of them, whichever it hears of first. *)
Example C111_instance :
  ForallOrdPairs (fun m m' => loose (jbTy m) (jbTy m')) [quJoin 4; quAnn 8 9; quH 3; quJoin 9] /\
  match serve toy_suite toy_oracle toy_gob quServer [quAnn 8 9; quJoin 9; quJoin 4; quH 3] with
  | Some (s, out) => length out = 3%nat /\ map (fun k => mget (sv_keymap s) (pt_mul toy_suite k 5)) [4; 8; 9; 3] = [Some 4; Some 8; Some 9; None]
  | None => False
  end.
Proof.
  split; [|vm_compute; auto].
  repeat apply FOP_cons; try apply FOP_nil; repeat apply Forall_cons; try apply Forall_nil; right; right; unfold loose_pairs;
  cbn [jbTy quJoin quAnn quH In]; tauto.
Qed.
(** With the round key 0 the last one to come takes the place of the others. *)
Example C111_zero_key : exists s, sv_roundkey s = 0 /\ ~ served_alike toy_suite toy_oracle toy_gob s (quJoin 4) (quJoin 8).
Proof.
  exists (init_server toy_suite quA [x63]%byte 3 0). split; [reflexivity|]. intros X. vm_compute in X. decompose [and] X.
  match goal with Y : forall k, _ = _ |- _ => specialize (Y 1); vm_compute in Y; discriminate Y end.
Qed.
