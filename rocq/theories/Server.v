(** The anonymity server: /repo/cmd/server. *)
From Coq Require Import ZArith Znumtheory Lia List Bool Permutation.
From Coq Require Import Strings.Byte.
From Coq Require String.
From Verif Require Import ZMod Bytes Suite Pedersen ElGamal FujiOkam Equality Codec Maps Net Bridge Client
  Perm SimpleShuffle PairShuffle.
Import ListNotations.
Import String.StringSyntax.
Open Scope Z_scope.
Delimit Scope string_scope with str.

(** AnonServer.go:12-44.  OnetimePseudoNym and A are never used.  Points are map keys
    through String(), see Maps.v. *)
Record server := Server {
  sv_addr : addr; sv_coord : addr;
  sv_priv : Z; sv_pub : Z;
  sv_G : option Z;
  sv_ekeys : amap Z Z;             (* EndingKeyMap *)
  sv_ecomms : amap Z Z;            (* EndingCommMap *)
  sv_connected : bool;
  sv_next : addr; sv_prev : addr;
  sv_keymap : amap Z Z;
  sv_roundkey : Z;
  sv_pb : pbase;
  sv_fb : option fobase
}.

(** ServerLauncher.go:58-88 initAnonServer and 94-103 (address); [a] and [rk] are the
    picked secrets. *)
Definition init_server (S : suite) (self coord : addr) (a rk : Z) : server :=
  Server self coord a (pt_mul_base S a) None [] [] false coord coord [] rk (ped_minimal_base S) None.

(** ServerLauncher.go:27-36 serverRegister *)
Definition sv_register (S : suite) (s : server) : msg :=
  Msg (sv_coord s) SERVER_REGISTER [("public_key"%str, VBytes (enc_point S (sv_pub s)))] (sv_addr s).

(** AnonServerHandler.go:181-192 rebindReputation: a key that is not found gives a nil
    point (None). *)
Definition rebind (newKeys newVals finalKeys : list Z) : list (option Z) :=
  let m := fold_left (fun m i => mset m (at_ newKeys i) (at_ newVals i)) (seq 0 (length newKeys)) [] in
  map (fun i => mget m (at_ finalKeys i)) (seq 0 (length newKeys)).

(** AnonServerHandler.go:194-203 convertToOrigin; None = panic in Sub. *)
Definition convert_to_origin (S : suite) (Ybar Ytmp : list Z) : option (list Z) :=
  dec_all (fun i => pt_sub S (at_ Ybar i) (at_ Ytmp i)) (seq 0 (length Ybar)).

(** ProtobufEncodePointList panics on a nil point. *)
Definition non_nil (l : list (option Z)) : option (list Z) := dec_all (fun o => o) l.

(** AnonServerHandler.go:60-78 verifyNeffShuffle; None = panic. *)
Definition verify_neff (S : suite) (H : oracle) (p : params) : option Datatypes.unit :=
  if has_key p "shuffled"%str then
    olet bx := get_bytes p "xbar"%str in olet xbar := dec_points S bx in
    olet by_ := get_bytes p "ybar"%str in olet ybar := dec_points S by_ in
    olet bk := get_bytes p "prev_keys"%str in olet pk := dec_points S bk in
    olet bv := get_bytes p "prev_vals"%str in olet pv := dec_points S bv in
    olet bp := get_bytes p "public_key"%str in
    let pub := dec_point_unchecked bp in
    olet prf := get_bytes p "proof"%str in
    match ps_hash_verify S H (sG S) pub pk pv xbar ybar prf with
    | Some true => Some tt
    | _ => None
    end
  else Some tt.

(** Random values a server draws when it processes a table: E, the swaps and blindings
    of Shuffle, those of the proof, and the next round key. *)
Record sv_rand := SvRand { srE : Z; srU : nat -> Z; srBeta : list Z; srPs : ps_rand; srKey : Z }.

(** AnonServerHandler.go:110-170 / 277-335: the shuffle of the table, or no shuffle for
    size <= 1; the parameters that only a shuffled message has. *)
Definition mix (S : suite) (H : oracle) (s : server) (newKeys newVals : list Z) (rn : sv_rand)
  : option (list Z * list Z * params) :=
  let k := length newKeys in
  if (k <=? 1)%nat then Some (newKeys, newVals, [])
  else
    let Xori := tab k (fun _ => pt_mul_base S (sv_priv s)) in
    olet sh := shuffle S (sG S) (sv_pub s) Xori newKeys (srU rn) (srBeta rn) in
    olet pf := ps_prove S H k (shPi sh) (sG S) (sv_pub s) (srBeta rn) Xori newKeys (srPs rn) in
    olet finalKeys := convert_to_origin S (shY sh) (shTY sh) in
    olet finalVals := non_nil (rebind newKeys newVals finalKeys) in
    Some (finalKeys, finalVals,
      [("xbar"%str, VBytes (enc_points S (shX sh))); ("ybar"%str, VBytes (enc_points S (shY sh)));
       ("proof"%str, VBytes (enc_proof S pf));
       ("prev_keys"%str, VBytes (enc_points S Xori)); ("prev_vals"%str, VBytes (enc_points S newKeys));
       ("shuffled"%str, VBool true); ("public_key"%str, VBytes (enc_point S (sv_pub s)))]).

(** AnonServerHandler.go:100-109, 264-275: newVals[i] = valList[i]^E for every key;
    None = index out of range. *)
Definition scale_vals (S : suite) (size : nat) (vals : list Z) (E : Z) : option (list Z) :=
  if (length vals <? size)%nat then None
  else Some (tab size (fun i => fst (ped_randomize S (at_ vals i) E))).

Definition table_params (S : suite) (keys vals : list Z) (GT HT : Z) : params :=
  [("keys"%str, VBytes (enc_points S keys)); ("vals"%str, VBytes (enc_points S vals));
   ("GT"%str, VBytes (enc_point S GT)); ("HT"%str, VBytes (enc_point S HT))].

(** AnonServerHandler.go:240-336 handleAnnouncement *)
Definition sv_announcement (S : suite) (H : oracle) (s : server) (p : params) (rn : sv_rand)
  : option (server * list msg) :=
  olet bk := get_bytes p "keys"%str in olet keys := dec_points S bk in
  olet bv := get_bytes p "vals"%str in olet vals := dec_points S bv in
  olet bG := get_bytes p "GT"%str in olet GT := dec_point S bG in
  olet bH := get_bytes p "HT"%str in olet HT := dec_point S bH in
  let E := srE rn in
  let GT := pt_mul S GT E in
  let HT := pt_mul S HT E in
  olet g :=
    (if has_key p "g"%str then
       olet bg := get_bytes p "g"%str in
       olet _ := verify_neff S H p in
       Some (pt_mul S (dec_point_unchecked bg) (sv_roundkey s))
     else Some (pt_mul_base S (sv_roundkey s))) in
  let newKeys := map (fun k => pt_mul S k (sv_roundkey s)) keys in
  olet newVals := scale_vals S (length keys) vals E in
  let km := fold_left (fun m i => mset m (at_ newKeys i) (at_ keys i)) (seq 0 (length keys)) (sv_keymap s) in
  olet (fk, fv, extra) := mix S H s newKeys newVals rn in
  Some (Server (sv_addr s) (sv_coord s) (sv_priv s) (sv_pub s) (sv_G s) (sv_ekeys s) (sv_ecomms s)
          (sv_connected s) (sv_next s) (sv_prev s) km (sv_roundkey s) (sv_pb s) (sv_fb s),
        [Msg (sv_next s) ANNOUNCEMENT
           (("g"%str, VBytes (enc_point S g)) :: table_params S fk fv GT HT ++ extra) (sv_addr s)]).

(** AnonServerHandler.go:80-175 handleRoundEnd *)
Definition sv_round_end (S : suite) (H : oracle) (s : server) (p : params) (rn : sv_rand)
  : option (server * list msg) :=
  olet bk := get_bytes p "keys"%str in olet keys := dec_points S bk in
  olet bv := get_bytes p "vals"%str in olet vals := dec_points S bv in
  olet _ := (if has_key p "is_start"%str then Some tt else verify_neff S H p) in
  let E := srE rn in
  olet bG := get_bytes p "GT"%str in olet GT := dec_point S bG in
  olet bH := get_bytes p "HT"%str in olet HT := dec_point S bH in
  let GT := pt_mul S GT E in
  let HT := pt_mul S HT E in
  olet newVals := scale_vals S (length keys) vals E in
  olet newKeys := non_nil (map (fun k => mget (sv_keymap s) k) keys) in
  olet (fk, fv, extra) := mix S H s newKeys newVals rn in
  Some (Server (sv_addr s) (sv_coord s) (sv_priv s) (sv_pub s) (sv_G s) (sv_ekeys s) (sv_ecomms s)
          (sv_connected s) (sv_next s) (sv_prev s) [] (srKey rn) (sv_pb s) (sv_fb s),
        [Msg (sv_prev s) ROUND_END (table_params S fk fv GT HT ++ extra) (sv_addr s)]).

(** AnonServerHandler.go:177-179 handleBroadcastPedersenH *)
Definition sv_pedersen_h (S : suite) (s : server) (p : params) : option (server * list msg) :=
  olet bh := get_bytes p "h"%str in olet h := dec_point S bh in
  Some (Server (sv_addr s) (sv_coord s) (sv_priv s) (sv_pub s) (sv_G s) (sv_ekeys s) (sv_ecomms s)
          (sv_connected s) (sv_next s) (sv_prev s) (sv_keymap s) (sv_roundkey s)
          (PBase h (pb_GT (sv_pb s))) (sv_fb s), []).

(** AnonServerHandler.go:213-232 handleClientRegisterServerSide *)
Definition sv_client_register (S : suite) (s : server) (p : params) : option (server * list msg) :=
  olet bk := get_bytes p "public_key"%str in olet pk := dec_point S bk in
  let newKey := pt_mul S pk (sv_roundkey s) in
  olet a := get_str p "addr"%str in
  olet pc := get_bytes p "pcomm"%str in
  Some (Server (sv_addr s) (sv_coord s) (sv_priv s) (sv_pub s) (sv_G s) (sv_ekeys s) (sv_ecomms s)
          (sv_connected s) (sv_next s) (sv_prev s) (mset (sv_keymap s) newKey pk) (sv_roundkey s)
          (sv_pb s) (sv_fb s),
        [Msg (sv_next s) CLIENT_REGISTER_SERVERSIDE
           [("public_key"%str, VBytes (enc_point S newKey)); ("addr"%str, VStr a); ("pcomm"%str, VBytes pc)]
           (sv_addr s)]).

(** AnonServerHandler.go:234-238 handleUpdateNextHop *)
Definition sv_update_next (s : server) (p : params) : option (server * list msg) :=
  olet a := get_str p "next_hop"%str in
  Some (Server (sv_addr s) (sv_coord s) (sv_priv s) (sv_pub s) (sv_G s) (sv_ekeys s) (sv_ecomms s)
          (sv_connected s) a (sv_prev s) (sv_keymap s) (sv_roundkey s) (sv_pb s) (sv_fb s), []).

(** AnonServerHandler.go:339-362 handleAnnouncementFinalize, AnonServer.go:46-50
    AddIntoEndingMap; index out of range = None. *)
Definition ending_map {A} (keys : list Z) (vals : list A) : option (amap Z A) :=
  if (length vals <? length keys)%nat then None
  else Some (fold_left (fun m kv => mset m (fst kv) (snd kv)) (combine keys vals) []).
Definition sv_finalize (S : suite) (s : server) (p : params) : option (server * list msg) :=
  olet bg := get_bytes p "g"%str in olet g := dec_point S bg in
  olet bG := get_bytes p "GT"%str in olet GT := dec_point S bG in
  olet bH := get_bytes p "HT"%str in olet HT := dec_point S bH in
  olet bk := get_bytes p "keys"%str in olet keys := dec_points S bk in
  olet bv := get_bytes p "vals"%str in olet vals := dec_points S bv in
  olet ek := ending_map keys keys in
  olet ec := ending_map keys vals in
  Some (Server (sv_addr s) (sv_coord s) (sv_priv s) (sv_pub s) (Some g) ek ec
          (sv_connected s) (sv_next s) (sv_prev s) (sv_keymap s) (sv_roundkey s) (PBase HT GT) (sv_fb s), []).

(** AnonServerHandler.go:364-402 handleSignAssignments; a nil FujiOkamBase (before the
    registration reply) counts as a panic at once. *)
Definition sv_sign (S : suite) (G : gob) (s : server) (p : params) (src : addr) : option (server * list msg) :=
  olet bn := get_bytes p "nym"%str in olet nym := dec_point S bn in
  olet fb := sv_fb s in
  olet ok := verify_ind S G (sv_pb s) fb p (mget (sv_ecomms s) nym) in
  if negb ok then Some (s, [Msg src GOT_SIGNS [("success"%str, VBool false)] (sv_addr s)])
  else
    olet ba := get_bytes p "assignments"%str in
    olet l := dec_assignments S G ba in
    let sigs := map (fun a => eg_sign S (example_nonce S) (enc_assignment S a) (sv_priv s) (Some pt_new)) l in
    Some (s, [Msg src GOT_SIGNS
      [("success"%str, VBool true); ("assignments"%str, VBytes ba); ("signatures"%str, VBytes (genc_2d G sigs))]
      (sv_addr s)]).

(** AnonServerHandler.go:405-444 handleServerRegisterReply; [r] is the picked secret. *)
Definition sv_register_reply (S : suite) (s : server) (p : params) (src : addr) (r : Z)
  : option (server * list msg) :=
  olet rep := get_bool p "reply"%str in
  olet prev := (if has_key p "prev_server"%str then get_str p "prev_server"%str else Some (sv_prev s)) in
  olet fb := read_fobase p in
  olet bh := get_bytes p "h"%str in olet h := dec_point S bh in
  Some (Server (sv_addr s) (sv_coord s) (sv_priv s) (sv_pub s) (sv_G s) (sv_ekeys s) (sv_ecomms s)
          (rep || sv_connected s) (sv_next s) prev (sv_keymap s) (sv_roundkey s) (sv_pb s) (Some fb),
        [Msg src UPDATE_PEDERSEN_H [("h"%str, VBytes (enc_point S (pt_mul S h r)))] (sv_addr s)]).

(** AnonServerHandler.go:22-58 Handle *)
Definition sv_handle (S : suite) (H : oracle) (G : gob) (s : server) (ty : Z) (p : params) (src : addr)
    (rn : sv_rand) : option (server * list msg) :=
  if ty =? SERVER_REGISTER_REPLY then sv_register_reply S s p src (srKey rn)
  else if ty =? ANNOUNCEMENT then sv_announcement S H s p rn
  else if ty =? ANNOUNCEMENT_FINALIZE then sv_finalize S s p
  else if ty =? SIGN_ASSIGNMENTS then sv_sign S G s p src
  else if ty =? UPDATE_NEXT_HOP then sv_update_next s p
  else if ty =? CLIENT_REGISTER_SERVERSIDE then sv_client_register S s p
  else if ty =? ROUND_END then sv_round_end S H s p rn
  else if ty =? BCAST_PEDERSEN_H then sv_pedersen_h S s p
  else Some (s, []).

(** ** Lemmas *)
Lemma dec_all_fun {A B} (f : A -> option B) (g : A -> B) l : (forall x, In x l -> f x = Some (g x)) ->
  dec_all f l = Some (map g l).
Proof.
  induction l as [|a l IH]; intros Hf; cbn; [reflexivity|]. rewrite Hf by (now left).
  rewrite IH; [reflexivity|]. intros x Hx. apply Hf. now right.
Qed.

Lemma dec_all_spec {A B} (f : A -> option B) l r : dec_all f l = Some r -> Forall2 (fun a b => f a = Some b) l r.
Proof.
  revert r. induction l as [|a l IH]; intros r E; cbn in E.
  - injection E as <-. constructor.
  - destruct (f a) eqn:Ea; [|discriminate]. destruct (dec_all f l); [|discriminate]. injection E as <-.
    constructor; [assumption|]. now apply IH.
Qed.

Lemma fold_mset_get (ks vs : list Z) : forall is m, NoDup (map (at_ ks) is) ->
  forall j, In j is -> mget (fold_left (fun m i => mset m (at_ ks i) (at_ vs i)) is m) (at_ ks j) = Some (at_ vs j).
Proof.
  induction is as [|i r IH]; intros m ND j Hj; [destruct Hj|]. cbn [map] in ND. inversion ND as [|? ? NI ND']; subst.
  cbn [fold_left]. destruct (in_dec Nat.eq_dec j r) as [Hr|Hr]; [now apply IH|].
  destruct Hj as [<-|?]; [|contradiction].
  assert (G : forall l m, ~ In (at_ ks i) (map (at_ ks) l) ->
    mget (fold_left (fun m i => mset m (at_ ks i) (at_ vs i)) l m) (at_ ks i) = mget m (at_ ks i)).
  { induction l as [|a l IHl]; intros m0 N; cbn [fold_left]; [reflexivity|]. cbn [map In] in N.
    rewrite IHl by tauto. apply mget_mset_ne. tauto. }
  rewrite G by assumption. apply mget_mset_eq.
Qed.

Lemma map_at_seq (l : list Z) : map (at_ l) (seq 0 (length l)) = l.
Proof. apply tab_at. Qed.

(** Keys keep their values through a permutation. *)
Lemma rebind_perm keys vals pi : NoDup keys -> Permutation pi (seq 0 (length keys)) ->
  rebind keys vals (map (at_ keys) pi) = map (fun j => Some (at_ vals j)) pi.
Proof.
  intros ND HP. pose proof (Permutation_length HP) as LP. rewrite seq_length in LP.
  unfold rebind.
  transitivity (map (fun j => Some (at_ vals j)) (map (fun i => nth i pi 0%nat) (seq 0 (length keys))));
    [|now rewrite (map_nth_seq pi (length keys) LP)].
  rewrite map_map. apply map_ext_in. intros i Hi.
  apply in_seq in Hi.
  replace (at_ (map (at_ keys) pi) i) with (at_ keys (nth i pi 0%nat)).
  - apply fold_mset_get; [now rewrite map_at_seq|]. apply in_seq. pose proof (perm_nth_lt pi _ i HP ltac:(lia)). lia.
  - unfold at_ at 2. rewrite nth_indep with (d' := at_ keys 0%nat) by (rewrite map_length; lia). now rewrite map_nth.
Qed.

Section ServerLemmas.
Context (S : suite) (OK : suite_ok S).

Lemma shuffle_spec g h X Y u beta sh : in_group S g -> in_group S h -> shuffle S g h X Y u beta = Some sh ->
  let k := length X in
  Permutation (shPi sh) (seq 0 k) /\ length Y = k /\ (2 <= k)%nat /\ shPi sh = draw_perm u k /\
  length (shX sh) = k /\ length (shY sh) = k /\ length (shTY sh) = k /\
  permuted S g beta X (shX sh) (shPi sh) /\ permuted S h beta Y (shY sh) (shPi sh) /\
  (forall i, (i < k)%nat -> at_ (shTY sh) i = pt_mul S h (at_ beta (nth i (shPi sh) 0%nat)) ).
Proof.
  intros Hg Hh E k. unfold shuffle in E. destruct (Nat.eqb_spec (length X) (length Y)) as [L|]; [|discriminate].
  cbn [negb] in E. destruct (Nat.leb_spec (length X) 1); [discriminate|]. injection E as <-.
  cbn [shPi shX shY shTY]. fold k. split; [apply draw_perm_perm|]. split; [now symmetry|]. split; [unfold k; lia|].
  split; [reflexivity|]. rewrite !tab_length. do 3 (split; [reflexivity|]).
  split; [|split].
  - intros i Hi. now rewrite at_tab by assumption.
  - intros i Hi. rewrite <- L in Hi. now rewrite at_tab by assumption.
  - intros i Hi. now rewrite at_tab by assumption.
Qed.

Lemma convert_spec g h X Y u beta sh : in_group S g -> in_group S h -> all_group S Y ->
  shuffle S g h X Y u beta = Some sh ->
  convert_to_origin S (shY sh) (shTY sh) = Some (map (at_ Y) (shPi sh)).
Proof.
  intros Hg Hh GY E. destruct (shuffle_spec g h X Y u beta sh Hg Hh E) as (HP & LY & K & _ & LX & LYb & LT & _ & PY & HT).
  unfold convert_to_origin. rewrite LYb.
  pose proof (Permutation_length HP) as LP. rewrite seq_length in LP.
  rewrite <- (map_nth_seq (shPi sh) (length X)) by assumption. rewrite map_map.
  apply dec_all_fun. intros i Hi. apply in_seq in Hi. rewrite HT by lia. rewrite PY by lia.
  assert (in_group S (at_ Y (nth i (shPi sh) 0%nat))).
  { apply GY. rewrite LY. apply perm_nth_lt; [assumption|lia]. }
  rewrite pt_sub_group; [|assumption|unfold pt_mul; in_grp]. f_equal. grpS S.
Qed.

Lemma dec_enc_points l : Forall (in_group S) l -> dec_points S (enc_points S l) = Some l.
Proof.
  intros F. apply (repeated_round_trip (dec_point S) (enc_point S)). intros x Hx.
  apply dec_enc_point; [assumption|]. rewrite Forall_forall in F. now apply F.
Qed.

Lemma all_group_forall l : all_group S l <-> Forall (in_group S) l.
Proof.
  split.
  - intros HA. apply Forall_forall. intros x Hx. destruct (In_nth _ _ 0 Hx) as (i & Hi & <-). now apply HA.
  - intros F i Hi. rewrite Forall_forall in F. apply F. now apply nth_In.
Qed.

Lemma dec_enc_unchecked a : in_group S a -> dec_point_unchecked (enc_point S a) = a.
Proof.
  intros Ha. pose proof (in_group_reduced S _ Ha) as R. unfold reduced in R.
  unfold dec_point_unchecked, enc_point. rewrite be_pad. lia.
Qed.

(** The part of a message that describes the shuffle. *)
Definition extra_ok (H : oracle) (extra : params) : Prop :=
  forall p, (forall k, In k ["xbar"%str; "ybar"%str; "proof"%str; "prev_keys"%str; "prev_vals"%str; "shuffled"%str;
    "public_key"%str] -> lookup p k = None) -> verify_neff S H (p ++ extra) = Some tt.

Lemma lookup_app p q k : lookup p k = None -> lookup (p ++ q) k = lookup q k.
Proof.
  induction p as [|[k' v] p IH]; cbn; [reflexivity|]. destruct (String.eqb k k'); [discriminate|exact IH].
Qed.

Lemma mix_spec H s nk nv rn fk fv extra : in_group S (sv_pub s) -> all_group S nk -> NoDup nk ->
  length nv = length nk -> mix S H s nk nv rn = Some (fk, fv, extra) ->
  extra_ok H extra /\ exists pi, Permutation pi (seq 0 (length nk)) /\ fk = map (at_ nk) pi /\ fv = map (at_ nv) pi.
Proof.
  intros Hpub GK ND LV E. unfold mix in E. destruct (Nat.leb_spec (length nk) 1) as [L1|L1].
  - injection E as <- <- <-. split.
    + intros p Hp. rewrite app_nil_r. unfold verify_neff, has_key. rewrite Hp by (cbn; tauto). reflexivity.
    + exists (seq 0 (length nk)). split; [reflexivity|]. split; [now rewrite map_at_seq|]. rewrite <- LV. now rewrite map_at_seq.
  - set (k := length nk) in *. set (Xori := tab k (fun _ => pt_mul_base S (sv_priv s))) in *.
    destruct (shuffle S (sG S) (sv_pub s) Xori nk (srU rn) (srBeta rn)) as [sh|] eqn:ES; [|discriminate].
    destruct (ps_prove S H k (shPi sh) (sG S) (sv_pub s) (srBeta rn) Xori nk (srPs rn)) as [pf|] eqn:EP; [|discriminate].
    assert (HG : in_group S (sG S)) by (now apply in_group_G).
    rewrite (convert_spec _ _ _ _ _ _ _ HG Hpub GK ES) in E.
    assert (LX : length Xori = k) by apply tab_length.
    destruct (shuffle_spec _ _ _ _ _ _ _ HG Hpub ES) as (HP & LY & K & Epi & LXb & LYb & LT & PX & PY & HT).
    rewrite LX in *.
    rewrite rebind_perm in E by assumption. unfold non_nil in E.
    rewrite (dec_all_fun _ (fun o => match o with Some v => v | None => 0 end)) in E.
    2:{ intros x Hx. apply in_map_iff in Hx. destruct Hx as (j & <- & _). reflexivity. }
    rewrite map_map in E. injection E as <- <- <-.
    assert (GX : all_group S Xori).
    { intros i Hi. rewrite LX in Hi. unfold Xori. rewrite at_tab by assumption. unfold pt_mul_base, pt_mul. in_grp. }
    destruct (ps_complete S OK H k (shPi sh) (sG S) (sv_pub s) (srBeta rn) Xori nk (shX sh) (shY sh) (srPs rn) pf) as (WF & V); auto.
    split; [|exists (shPi sh); split; [assumption|split; reflexivity]].
    intros p Hp.
    assert (Hlt : forall i, (i < k)%nat -> (nth i (shPi sh) 0 < k)%nat) by (intros; now apply perm_nth_lt).
    assert (GXb : all_group S (shX sh)).
    { intros i Hi. rewrite PX by lia. assert (in_group S (at_ Xori (nth i (shPi sh) 0%nat))) by (apply GX; rewrite LX; apply Hlt; lia). in_grp. }
    assert (GYb : all_group S (shY sh)).
    { intros i Hi. rewrite PY by lia. assert (in_group S (at_ nk (nth i (shPi sh) 0%nat))) by (apply GK; apply Hlt; lia). in_grp. }
    unfold verify_neff, has_key, get_bytes. rewrite !lookup_app by (apply Hp; cbn; tauto). cbn [lookup String.eqb Ascii.eqb Bool.eqb].
    rewrite !dec_enc_points by (now apply all_group_forall). rewrite dec_enc_unchecked by assumption.
    unfold ps_hash_verify. rewrite LX, LY, LXb, LYb, Nat.eqb_refl. cbn [andb negb].
    destruct (Nat.leb_spec k 1); [lia|].
    rewrite <- (app_nil_r (enc_proof S pf)). rewrite (ps_parse_enc S OK k pf [] WF). rewrite V. reflexivity.
Qed.

End ServerLemmas.
