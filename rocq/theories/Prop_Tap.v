(** C90: what the messages between the servers tell about their shuffles. *)
From Coq Require Import ZArith Znumtheory Lia List Bool Permutation.
From Coq Require Import Strings.Byte.
From Coq Require String.
From Verif Require Import ZMod Bytes Suite Pedersen ElGamal FujiOkam Equality Codec Maps Net Bridge Client
  Perm SimpleShuffle PairShuffle Server Chain Coordinator History System Round RoundInv Session
  Prop_Codec Prop_Pedersen Prop_ElGamal Prop_Bridge Prop_Shuffle Prop_Assign Prop_Topology Prop_Chain Prop_Coord Prop_Round Prop_Client Prop_Live Prop_Spy.
Import ListNotations.
Import String.StringSyntax.
Open Scope Z_scope.
Delimit Scope string_scope with str.

(** ** The wire
    Messages are sent in the clear (Util.go:54-72 SendEvent).  Somebody who listens on the
    network has no state and no secret of any party: all they get is the messages, in the order in
    which they are sent. *)
(** The messages that a step of the system puts on the network. *)
Definition sent (y : sys) (a : System.action) (y' : sys) : list msg :=
  skipn (match a with ADeliver _ _ _ _ => pred (length (y_msgs y)) | _ => length (y_msgs y) end) (y_msgs y').
(** A session with the notes of a listener who hears the messages [ears] lets through. *)
Inductive tapped (S : suite) (H : oracle) (G : gob) {N : Type} (ears : sys -> msg -> bool) (n0 : N) (step : N -> msg -> N)
  : sys -> ledger -> N -> Prop :=
| t_start self a fb trap gammas l y1 y2 :
    Forall (conf_act S) l -> sys_run S H G (init_sys S self a fb trap gammas) l = Some y1 ->
    y_msgs y1 = [] -> co_servers (y_coord y1) <> [] ->
    sys_step S H G y1 (ALoop EConfigure) = Some y2 -> tapped S H G ears n0 step y2 [] n0
| t_step y V n a y' :
    tapped S H G ears n0 step y V n -> guard S y V a -> sys_step S H G y a = Some y' ->
    tapped S H G ears n0 step y' (ledger_step S y V a) (fold_left step (filter (ears y) (sent y a y')) n).
(** Somebody on the network hears everything; the coordinator what it sends and receives. *)
Definition on_the_wire (_ : sys) (_ : msg) : bool := true.
Definition at_coordinator (y : sys) (m : msg) : bool :=
  (if keq (mSrc m) (co_addr (y_coord y)) then true else false) || (if keq (mDst m) (co_addr (y_coord y)) then true else false).

Lemma tapped_reach S H G {N} ears (n0 : N) step y V n : tapped S H G ears n0 step y V n -> reach S H G y V.
Proof. induction 1; [eapply r_start; eassumption|eapply r_step; eassumption]. Qed.

(** ** The listener
    A server sends the keys of its table twice: shuffled as "keys", and, for the proof, as
    "prev_vals", in the order in which it got them (AnonServerHandler.go:281, 328-330).  So the
    i-th key it got has become the i-th of "prev_vals".  A table of one key is not shuffled at
    all.  The notes: for every key of the last table on the wire, in its order, the long-term
    key it belongs to. *)
(** What an announcement shows: the keys; the keys in the order of the server's input (of a
    table that is not shuffled these are the keys); whether it is the first of its round. *)
Record tview (P : Type) := TView { tv_keys : list P; tv_prev : list P; tv_first : bool }.
Arguments TView {P}. Arguments tv_keys {P}. Arguments tv_prev {P}. Arguments tv_first {P}.
Definition points_of (S : suite) (m : msg) (k : String.string) : option (list Z) :=
  olet b := get_bytes (mParams m) k in dec_points S b.
Definition view (S : suite) (m : msg) : option (tview Z) :=
  if mType m =? ANNOUNCEMENT then
    olet ks := points_of S m "keys"%str in
    let first := negb (has_key (mParams m) "g"%str) in
    if has_key (mParams m) "shuffled"%str then
      olet pv := points_of S m "prev_vals"%str in Some (TView ks pv first)
    else Some (TView ks ks first)
  else None.

(** A listener that does no arithmetic: keys are names to it, which it can only compare.  (The
    type of keys is abstract.  A listener that can take discrete logarithms needs no
    shuffle to be broken: the generator of the round is public.) *)
Record listener := Listener {
  l_notes : Type -> Type;
  l_none : forall P, l_notes P;
  l_step : forall P, (P -> P -> bool) -> l_notes P -> tview P -> l_notes P;
  l_guess : forall P, (P -> P -> bool) -> l_notes P -> P -> option P }.
Definition l_hear (S : suite) (L : listener) (n : l_notes L Z) (m : msg) : l_notes L Z :=
  match view S m with Some v => l_step L Z Z.eqb n v | None => n end.

(** The listener of this file. *)
Definition owner {P} (eqb : P -> P -> bool) (w : list (P * P)) (k : P) : P :=
  match find (fun t : P * P => eqb (snd t) k) w with Some t => fst t | None => k end.
Definition listen {P} (eqb : P -> P -> bool) (w : list (P * P)) (v : tview P) : list (P * P) :=
  if tv_first v then map (fun k => (k, k)) (tv_keys v)
  else map (fun k => (owner eqb (combine (map fst w) (tv_prev v)) k, k)) (tv_keys v).
Definition pseudonym {P} (eqb : P -> P -> bool) (w : list (P * P)) (q : P) : option P :=
  option_map snd (find (fun t : P * P => eqb (fst t) q) w).
Definition eavesdropper : listener :=
  Listener (fun P => list (P * P)) (fun P => []) (fun P eqb w v => listen eqb w v) (fun P eqb w q => pseudonym eqb w q).
Definition links := list (Z * Z).
Definition hear (S : suite) (w : links) (m : msg) : links := l_hear S eavesdropper w m.

(** ** One server *)
Lemma find_owner (w : links) t : NoDup (map snd w) -> In t w -> owner Z.eqb w (snd t) = fst t.
Proof.
  unfold owner. induction w as [|x w IH]; intros N I; [destruct I|]. cbn [map] in N. inversion N as [|? ? NI N']; subst. cbn [find].
  destruct (Z.eqb_spec (snd x) (snd t)) as [E|NE].
  - destruct I as [->|I]; [reflexivity|]. exfalso. apply NI. rewrite E. now apply in_map.
  - destruct I as [->|I]; [now elim NE|]. now apply IH.
Qed.
Lemma owners (w : links) ks : NoDup (map snd w) -> Permutation ks (map snd w) -> Permutation (map (fun k => (owner Z.eqb w k, k)) ks) w.
Proof.
  intros N P. rewrite (Permutation_map (fun k => (owner Z.eqb w k, k)) P), map_map.
  apply Permutation_refl'. rewrite <- (map_id w) at 2. apply map_ext_in. intros t I. rewrite find_owner by assumption. now destruct t.
Qed.
Lemma find_link (w : links) q : In q (map fst w) -> exists t, In t w /\ fst t = q /\ pseudonym Z.eqb w q = Some (snd t).
Proof.
  unfold pseudonym. intros I. destruct (find (fun t : Z * Z => fst t =? q) w) as [t|] eqn:F.
  - exists t. apply find_some in F. destruct F as [It E]. apply Z.eqb_eq in E. auto.
  - exfalso. apply in_map_iff in I. destruct I as (t & <- & It). apply (find_none _ _ F) in It. rewrite Z.eqb_refl in It. discriminate.
Qed.

Section Tap.
Context (S : suite) (OK : suite_ok S) (H : oracle) (G : gob) (GOK : gob_ok G).

(** What an announcement says beside the shuffled table. *)
Lemma mix_prev s nk nv rn fk fv extra : mix S H s nk nv rn = Some (fk, fv, extra) ->
  (extra = [] /\ fk = nk) \/ (lookup extra "shuffled"%str = Some (VBool true) /\ lookup extra "prev_vals"%str = Some (VBytes (enc_points S nk))).
Proof.
  unfold mix. intros E. destruct (length nk <=? 1)%nat; [injection E as <- <- <-; now left|]. right.
  repeat match type of E with (match ?t with _ => _ end) = _ => destruct t; try discriminate end.
  injection E as _ _ <-. split; reflexivity.
Qed.
Lemma ann_prev s p rn keys bk s' out : get_bytes p "keys"%str = Some bk -> dec_points S bk = Some keys ->
  sv_announcement S H s p rn = Some (s', out) ->
  exists m, out = [m] /\ mType m = ANNOUNCEMENT /\ mDst m = sv_next s /\ has_key (mParams m) "g"%str = true /\
    let nk := map (fun k => pt_mul S k (sv_roundkey s)) keys in
    if has_key (mParams m) "shuffled"%str then get_bytes (mParams m) "prev_vals"%str = Some (enc_points S nk)
    else get_bytes (mParams m) "keys"%str = Some (enc_points S nk).
Proof.
  intros E1 E2 E. unfold sv_announcement in E. rewrite E1, E2 in E. cbv zeta in E.
  set (nk := map (fun k => pt_mul S k (sv_roundkey s)) keys) in *. odestruct E. injection E as _ <-. eexists. split; [reflexivity|].
  split; [reflexivity|]. split; [reflexivity|]. split; [reflexivity|]. cbv zeta. cbn [mParams].
  match goal with EM : mix S H s _ _ _ = Some _ |- _ => apply mix_prev in EM; destruct EM as [[-> ->]|[M1 M2]] end.
  - reflexivity.
  - unfold has_key, get_bytes, table_params. cbn [app lookup String.eqb Ascii.eqb Bool.eqb]. now rewrite M1, M2.
Qed.

Definition tied (e : Z) (w : links) : Prop := Forall (fun t => in_group S (fst t) /\ snd t = pt_mul S (fst t) e) w.
Lemma tied_group e w : tied e w -> Forall (in_group S) (map snd w).
Proof.
  intros L. apply Forall_map. eapply Forall_impl; [|exact L]. intros [a b] (Ga & Eb). cbn [fst snd] in *. rewrite Eb. unfold pt_mul. in_grp.
Qed.
Lemma enc_points_inj k k' : Forall (in_group S) k -> Forall (in_group S) k' -> enc_points S k = enc_points S k' -> k = k'.
Proof. intros F F' E. apply (f_equal (dec_points S)) in E. rewrite !(dec_enc_points S OK) in E by assumption. congruence. Qed.

(** A listener who knows which long-term keys belong to the table that a server gets knows it of
    the table that the server sends. *)
Lemma hear_server s p rn e w vals GT HT s' out m :
  server_ok S s -> carries S p (map snd w) vals GT HT -> carries_g S p (pt_mul_base S e) -> table_ok S (map snd w) vals GT HT ->
  tied e w -> sv_announcement S H s p rn = Some (s', out) -> In m out ->
  exists ks, get_bytes (mParams m) "keys"%str = Some (enc_points S ks) /\ map snd (hear S w m) = ks /\
    Permutation (map fst (hear S w m)) (map fst w) /\ tied (e * sv_roundkey s) (hear S w m) /\
    carries_g S (mParams m) (pt_mul_base S (e * sv_roundkey s)).
Proof.
  intros SO C Cg T L E I. pose proof (in_group_G S OK) as HG.
  destruct (ann_step S OK H s p rn _ (map snd w) vals GT HT s' out SO C Cg) as (fk & fv & extra & EO & P1 & T1 & _); try assumption.
  { unfold pt_mul_base, pt_mul. in_grp. }
  assert (DP : dec_points S (enc_points S (map snd w)) = Some (map snd w)) by (apply (dec_enc_points S OK), T).
  destruct C as (C1 & C2 & C3 & C4). destruct (ann_prev s p rn (map snd w) _ s' out C1 DP E) as (m' & EO' & Ty & _ & Kg & Pv).
  rewrite EO' in I. destruct I as [<-|[]]. cbv zeta in Pv.
  assert (KS : get_bytes (mParams m') "keys"%str = Some (enc_points S fk)) by (rewrite EO in EO'; injection EO' as <-; reflexivity).
  assert (GK : Forall (in_group S) fk) by apply T1.
  assert (LK : length fv = length fk) by apply T1.
  set (nk := map (fun k => pt_mul S k (sv_roundkey s)) (map snd w)) in *.
  assert (PK : Permutation fk nk).
  { apply (Permutation_map fst) in P1. rewrite (combine_keys fk fv LK), map_map in P1. cbn [fst] in P1. rewrite P1. unfold nk.
    rewrite <- (combine_keys (map snd w) vals) at 2 by apply T. now rewrite map_map. }
  assert (GN : Forall (in_group S) nk) by (eapply Permutation_Forall; [exact PK|exact GK]).
  assert (W1 : combine (map fst w) nk = map (fun t => (fst t, pt_mul S (snd t) (sv_roundkey s))) w).
  { unfold nk. rewrite map_map. clear. induction w as [|t w IH]; [reflexivity|]. cbn [map combine]. now rewrite IH. }
  assert (HW : hear S w m' = map (fun k => (owner Z.eqb (combine (map fst w) nk) k, k)) fk).
  { unfold hear, l_hear, view, points_of. rewrite Ty, Z.eqb_refl, KS, (dec_enc_points S OK fk GK), Kg.
    destruct (has_key (mParams m') "shuffled"%str); rewrite Pv in *.
    - rewrite (dec_enc_points S OK nk GN). reflexivity.
    - injection KS as KS. apply enc_points_inj in KS; try assumption. now rewrite KS. }
  assert (S1 : map snd (combine (map fst w) nk) = nk) by (rewrite W1, map_map; unfold nk; now rewrite map_map).
  assert (N1 : NoDup nk) by (eapply Permutation_NoDup; [exact PK|apply T1]).
  assert (PW : Permutation (hear S w m') (combine (map fst w) nk)) by (rewrite HW; apply owners; rewrite S1; assumption).
  exists fk. split; [assumption|]. split; [rewrite HW, map_map; apply map_id|]. split; [|split].
  - rewrite (Permutation_map fst PW), W1, map_map. reflexivity.
  - unfold tied. eapply Permutation_Forall; [symmetry; exact PW|]. rewrite W1. apply Forall_map. eapply Forall_impl; [|exact L].
    intros [a b] (Ga & Eb). cbn [fst snd] in *. split; [assumption|]. now rewrite Eb, (pt_mul_mul S OK).
  - right. split; [assumption|]. rewrite EO in EO'. injection EO' as <-. cbn [mParams]. unfold get_bytes. cbn [lookup String.eqb Ascii.eqb Bool.eqb].
    unfold pt_mul_base. now rewrite (pt_mul_mul S OK).
Qed.

(** ** Sessions *)
Definition J (y : sys) (w : links) : Prop :=
  let c := y_coord y in
  (co_status c = CO_ANNOUNCE \/ co_status c = CO_MESSAGE -> Permutation (map fst w) (mkeys (co_bcomms c))) /\
  (co_status c = CO_ANNOUNCE -> forall m, In m (y_msgs y) -> mType m = ANNOUNCEMENT ->
     exists e ks, get_bytes (mParams m) "keys"%str = Some (enc_points S ks) /\ map snd w = ks /\ tied e w /\
       carries_g S (mParams m) (pt_mul_base S e)) /\
  (co_status c = CO_MESSAGE -> exists e, co_G c = Some (pt_mul_base S e) /\ tied e w).

Lemma sent_deliver y i m cr sr chal y' out : nth_error (y_msgs y) i = Some m ->
  y_msgs y' = (firstn i (y_msgs y) ++ skipn (Datatypes.S i) (y_msgs y)) ++ out -> sent y (ADeliver i cr sr chal) y' = out.
Proof.
  intros E EY. unfold sent. rewrite EY. destruct (pick_split i _ m E) as (l1 & l2 & EL & ER). rewrite ER, EL.
  replace (pred (length (l1 ++ m :: l2))) with (length (l1 ++ l2)) by (rewrite !app_length; cbn [length]; lia).
  rewrite skipn_app, skipn_all, Nat.sub_diag. reflexivity.
Qed.
Lemma sent_other y a y' out : (forall i cr sr chal, a <> ADeliver i cr sr chal) -> y_msgs y' = y_msgs y ++ out -> sent y a y' = out.
Proof.
  intros N EY. unfold sent. rewrite EY. replace (match a with ADeliver _ _ _ _ => _ | _ => _ end) with (length (y_msgs y)).
  - rewrite skipn_app, skipn_all, Nat.sub_diag. reflexivity.
  - destruct a; try reflexivity. exfalso. exact (N _ _ _ _ eq_refl).
Qed.
Lemma fold_hear_none l w : (forall m, In m l -> mType m <> ANNOUNCEMENT) -> fold_left (hear S) l w = w.
Proof.
  revert w. induction l as [|m l IH]; intros w N; [reflexivity|]. cbn [fold_left]. unfold hear at 2, l_hear, view.
  destruct (Z.eqb_spec (mType m) ANNOUNCEMENT) as [E|_]; [exfalso; exact (N m (or_introl eq_refl) E)|].
  apply IH. intros x I. apply N. now right.
Qed.
Lemma fold_hear_filter f l : forall w, (forall m, In m l -> mType m = ANNOUNCEMENT -> f m = true) -> fold_left (hear S) (filter f l) w = fold_left (hear S) l w.
Proof.
  induction l as [|m l IH]; intros w N; [reflexivity|]. cbn [filter fold_left].
  assert (IH' : forall v, fold_left (hear S) (filter f l) v = fold_left (hear S) l v) by (intros v; apply IH; intros x I; apply N; now right).
  destruct (f m) eqn:E; cbn [fold_left]; [apply IH'|]. rewrite IH'. f_equal. unfold hear, l_hear, view.
  destruct (Z.eqb_spec (mType m) ANNOUNCEMENT) as [ET|_]; [|reflexivity]. rewrite (N m (or_introl eq_refl) ET) in E. discriminate.
Qed.

(** Nothing the notes depend on has changed. *)
Lemma J_same y w y' : J y w -> co_status (y_coord y') = co_status (y_coord y) -> co_bcomms (y_coord y') = co_bcomms (y_coord y) ->
  co_G (y_coord y') = co_G (y_coord y) ->
  (forall m, In m (y_msgs y') -> mType m = ANNOUNCEMENT -> In m (y_msgs y)) -> J y' w.
Proof.
  intros (J1 & J2 & J3) E1 E2 E3 I. unfold J. rewrite E1, E2, E3. split; [assumption|]. split; [|assumption].
  intros ST m Im Tm. apply J2; auto.
Qed.
Lemma pick_in {A} (l : list A) i m x : nth_error l i = Some m -> In x (firstn i l ++ skipn (Datatypes.S i) l) -> In x l.
Proof.
  intros E I. destruct (pick_split i l m E) as (l1 & l2 & EL & ER). rewrite ER in I. rewrite EL. apply in_app_or in I. apply in_or_app.
  destruct I; [now left|right; now right].
Qed.
Lemma announced y V m : inv S G y V -> In m (y_msgs y) -> mType m = ANNOUNCEMENT ->
  exists T i p keys vals GT HT src, m = Msg (nth i (map fst (co_servers (y_coord y))) (co_addr (y_coord y))) ANNOUNCEMENT p src /\
    core (y_msgs y) = [m] /\
    ann_ph S G (y_coord y) (y_servers y) (y_clients y) [m] V T i p keys vals GT HT.
Proof.
  intros [B P] I T. assert (IC : In m (core (y_msgs y))).
  { apply core_in. split; [assumption|]. unfold inert. now rewrite T. }
  destruct P as [T' A|T' i p keys vals GT HT A|T0 T1 K A|T' n M1 p keys vals GT HT A].
  - exfalso. pose proof (p1_msg _ _ _ _ _ _ _ A) as F. rewrite Forall_forall in F. destruct (F m IC) as [[X _]|[[X _]|[X _]]]; rewrite T in X; discriminate X.
  - pose proof (p2_M _ _ _ _ _ _ _ _ _ _ _ _ _ _ A) as [src X]. rewrite X in IC. destruct IC as [<-|[]].
    exists T', i, p, keys, vals, GT, HT, src. split; [reflexivity|]. split; [exact X|]. rewrite <- X. exact A.
  - exfalso. pose proof (p3_msg _ _ _ _ _ _ _ _ _ A) as F. rewrite Forall_forall in F. destruct (F m IC); discriminate T.
  - exfalso. destruct (p4_M _ _ _ _ _ _ _ _ _ _ _ _ _ _ _ A) as [src X]. apply (Permutation_in _ X) in IC. destruct IC as [<-|IC]; [discriminate T|].
    pose proof (p4_M1 _ _ _ _ _ _ _ _ _ _ _ _ _ _ _ A) as F. rewrite Forall_forall in F. destruct (F m IC) as [Y _]. rewrite T in Y. discriminate Y.
Qed.
Lemma core_one l m x : core l = [m] -> In x l -> mType x = ANNOUNCEMENT -> x = m.
Proof.
  intros E I T. assert (IC : In x (core l)) by (apply core_in; split; [assumption|unfold inert; now rewrite T]).
  rewrite E in IC. destruct IC as [<-|[]]. reflexivity.
Qed.
Lemma core_rest l i m x : core l = [m] -> nth_error l i = Some m -> inert m = false ->
  In x (firstn i l ++ skipn (Datatypes.S i) l) -> mType x <> ANNOUNCEMENT.
Proof.
  intros E N IM I T. destruct (pick_split i l m N) as (l1 & l2 & EL & ER). rewrite ER in I.
  assert (IC : In x (core (l1 ++ l2))) by (apply core_in; split; [assumption|unfold inert; now rewrite T]).
  rewrite EL in E. rewrite core_app in *. unfold core at 2 in E. cbn [filter] in E. rewrite IM in E. cbn [negb] in E. fold (core l2) in E.
  destruct (core l1) as [|u [|v q]]; cbn [app] in *.
  - injection E as E. rewrite E in IC. destruct IC.
  - discriminate E.
  - discriminate E.
Qed.

Lemma round_end_status c p cr c' out : co_round_end S G c p cr = Some (c', out) -> co_status c' = CO_READY_FOR_NEW_ROUND.
Proof. unfold co_round_end. intros E. cbv zeta in E. odestruct E. injection E as <- _. reflexivity. Qed.

Lemma begin_sends y V fakes ord c' out : inv S G y V -> guard S y V (ALoop (EBegin fakes ord)) ->
  begin_round S (y_coord y) fakes ord = Some (c', out) ->
  Forall (in_group S) ord /\ Permutation ord (mkeys (co_bcomms c')) /\ co_status c' = CO_ANNOUNCE /\
  exists a vals GT HT, out = [Msg a ANNOUNCEMENT (table_params S ord vals GT HT) (co_addr (y_coord y))].
Proof.
  intros [B P] (G1 & NF & RO) E.
  assert (ST : co_status (y_coord y) = CO_READY_FOR_NEW_ROUND).
  { unfold begin_round in E. destruct (Z.eqb_spec (co_status (y_coord y)) CO_READY_FOR_NEW_ROUND); [assumption|discriminate]. }
  unfold settled in G1. rewrite G1 in P. set (c := y_coord y) in *.
  destruct P as [T A|T i p keys vals GT HT A|T0 T1 K A|T n M1 p keys vals GT HT A].
  2: { exfalso. pose proof (p2_status _ _ _ _ _ _ _ _ _ _ _ _ _ _ A) as X. rewrite ST in X. discriminate. }
  2: { exfalso. pose proof (p3_status _ _ _ _ _ _ _ _ _ A) as X. rewrite ST in X. discriminate. }
  2: { exfalso. pose proof (p4_status _ _ _ _ _ _ _ _ _ _ _ _ _ _ _ A) as X. rewrite ST in X. discriminate. }
  destruct A as [A1 A2 A3 A4 A5 A6 A7].
  unfold begin_round in E. rewrite ST in E. cbn [CO_READY_FOR_NEW_ROUND Z.eqb Pos.eqb negb] in E.
  set (c1 := if co_first c then set_first (add_fakes S c fakes) false else c) in E.
  assert (X : exists T', beg_same c c1 /\ co_bcomms c1 = map (ent S (co_pb c) 1) T' /\ agree_keys (co_bkeys c1) (co_bcomms c1) /\
    Forall (in_group S) (map fst T') /\ range_order ord (co_bcomms c1)).
  { unfold c1 in *. pose proof (T_group S T V A5 (b_Vg _ _ _ _ _ B)) as TG.
    destruct (co_first c) eqn:EF.
    - specialize (A2 eq_refl). specialize (NF eq_refl). subst V. apply Permutation_sym, Permutation_nil in A5.
      destruct T as [|t T]; [|discriminate].
      destruct (add_fakes_spec S OK fakes c [] (b_pb _ _ _ _ _ B) A3 A4 (Forall_nil _) NF) as (I1 & I2 & I3).
      exists (map (fake_entry S) fakes). split; [exact I1|]. split; [exact I2|]. split; [exact I3|]. split; [|exact RO].
      apply Forall_map, Forall_map. apply Forall_forall. intros f _. apply (group_base S OK).
    - exists T. repeat (split; [first [assumption|repeat split]|]). assumption. }
  destruct X as (T' & (S1 & S2 & S3 & S4 & S5) & I2 & I3 & TG & RO').
  set (c2 := set_status (clear_buffer c1) CO_ANNOUNCE) in *.
  assert (NE : co_servers c2 <> []) by (change (co_servers c2) with (co_servers c1); rewrite S2; apply B).
  destruct (announce_spec S c2 ord c' out I3 RO' E NE) as (-> & vals & a & -> & _ & _).
  split; [|split; [exact RO'|split; [reflexivity|]]].
  - eapply Permutation_Forall; [symmetry; exact RO'|]. rewrite I2. unfold mkeys. rewrite map_map. apply Forall_map.
    rewrite Forall_map in TG. eapply Forall_impl; [|exact TG]. intros t Gt. unfold ent. cbn [fst]. cbn beta in Gt. unfold pt_mul. in_grp.
  - exists a, vals, (pb_GT (co_pb c2)), (pb_HT (co_pb c2)). do 2 f_equal.
    change (co_addr c2) with (co_addr c1). unfold co_addr. now rewrite S1.
Qed.

(** Where announcements are sent from. *)
Definition from_round (y : sys) (m : msg) : Prop :=
  mSrc m = co_addr (y_coord y) \/
  exists i a s, nth_error (map fst (co_servers (y_coord y))) i = Some a /\ mget (y_servers y) a = Some s /\ mDst m = sv_next s.

Lemma not_announcement_writes ty : ty <> ANNOUNCEMENT -> ty <> Net.ROUND_END -> ~ In FStatus (writes ty) /\ ~ In FG (writes ty) /\ ~ In FBComms (writes ty).
Proof.
  intros N1 N2. unfold writes.
  repeat match goal with |- context [ty =? ?b] => destruct (Z.eqb_spec ty b); [first [contradiction|cbn [In]; repeat split; intuition discriminate]|] end.
  cbn [In]. tauto.
Qed.
Lemma emits_none ty : ~ In ANNOUNCEMENT (emits ty).
Proof.
  unfold emits. repeat match goal with |- context [ty =? ?b] => destruct (ty =? b); [cbn [In]; intuition discriminate|] end. cbn [In]. tauto.
Qed.
Lemma round_end_ev_status c ord rs c' out : round_end S c ord rs = Some (c', out) ->
  co_status c' = CO_READY_FOR_NEW_ROUND \/ co_status c' = co_status c.
Proof.
  unfold round_end. intros E. destruct (last_server c); [|injection E as <- _; now left]. right. cbv zeta in E.
  do 2 (match type of E with match ?t with _ => _ end = _ => destruct t; [|discriminate] end). injection E as <- _.
  change (co_status (clear_bridges ?x)) with (co_status x).
  assert (F : forall l c, co_status (fold_left (fun c kv => add_ending c (fst kv) (snd kv)) l c) = co_status c).
  { clear. induction l as [|kv l IH]; intros c0; cbn [fold_left]; [reflexivity|]. rewrite IH. reflexivity. }
  apply F.
Qed.

Lemma tap_step y V w a y' : inv S G y V -> guard S y V a -> sys_step S H G y a = Some y' -> J y w ->
  J y' (fold_left (hear S) (sent y a y') w) /\ (forall m, In m (sent y a y') -> mType m = ANNOUNCEMENT -> from_round y m).
Proof.
  intros I GU E HJ. pose proof I as [B _].
  destruct a as [a priv rk|a priv s|i cr sr chal|e|a cmd].
  - destruct GU.
  - (* a client registers *)
    cbn [sys_step] in E. odestruct E. injection E as <-.
    erewrite (sent_other y) by (try discriminate; reflexivity).
    assert (NA : forall m, In m [cl_register S (init_client S a (co_addr (y_coord y)) priv s)] -> mType m <> ANNOUNCEMENT) by (intros m [<-|[]]; discriminate).
    rewrite fold_hear_none by assumption. split; [|intros m Im Tm; now elim (NA m Im)].
    apply (J_same y); try reflexivity; [assumption|]. cbn [y_msgs]. intros m Im Tm. apply in_app_or in Im. destruct Im as [|Im]; [assumption|now elim (NA m Im)].
  - (* a message is delivered *)
    cbn [sys_step] in E. destruct (nth_error (y_msgs y) i) as [m|] eqn:EM; [|discriminate]. cbv zeta in E.
    assert (OTH : forall out, sent y (ADeliver i cr sr chal) y' = out -> (forall x, In x out -> mType x <> ANNOUNCEMENT) ->
       J y' w -> J y' (fold_left (hear S) (sent y (ADeliver i cr sr chal) y') w) /\
         (forall x, In x (sent y (ADeliver i cr sr chal) y') -> mType x = ANNOUNCEMENT -> from_round y x)).
    { intros out -> NA J'. rewrite fold_hear_none by assumption. split; [assumption|]. intros x Ix Tx. now elim (NA x Ix). }
    assert (REST : forall out, y_msgs y' = (firstn i (y_msgs y) ++ skipn (Datatypes.S i) (y_msgs y)) ++ out -> (forall x, In x out -> mType x <> ANNOUNCEMENT) ->
       forall x, In x (y_msgs y') -> mType x = ANNOUNCEMENT -> In x (y_msgs y)).
    { intros out -> NA x Ix Tx. apply in_app_or in Ix. destruct Ix as [Ix|Ix]; [exact (pick_in _ _ _ _ EM Ix)|now elim (NA x Ix)]. }
    destruct (keq (mDst m) (co_addr (y_coord y))) as [Ed|Nd].
    + destruct (co_handle _ _ _ _ _ _ _) as [[c' out]|] eqn:EH; [|discriminate]. injection E as <-.
      destruct (C60_coordinator_frame S G (y_coord y) (EMsg (mType m) (mParams m) (mSrc m) cr) c' out EH) as [FW FE].
      assert (NA : forall x, In x out -> mType x <> ANNOUNCEMENT).
      { intros x Ix X. specialize (FE x Ix). rewrite X in FE. exact (emits_none _ FE). }
      apply (OTH out); [eapply sent_deliver; [exact EM|reflexivity]|assumption|]. clear OTH.
      destruct (Z.eq_dec (mType m) ANNOUNCEMENT) as [TA|NTA]; [|destruct (Z.eq_dec (mType m) Net.ROUND_END) as [TR|NTR]].
      * (* the table comes back *)
        destruct (announced y V m I (nth_error_In _ _ EM) TA) as (T & j & p & keys & vals & GT & HT & src & Em & CO & A).
        pose proof (p2_status _ _ _ _ _ _ _ _ _ _ _ _ _ _ A) as ST. destruct HJ as (J1 & J2 & _).
        destruct (J2 ST m (nth_error_In _ _ EM) TA) as (e & ks & _ & _ & LK & CG).
        rewrite TA in EH. cbn in EH. assert (EB : agree FBComms (y_coord y) c') by (apply FW; rewrite TA; vm_compute; intuition discriminate).
        cbn [agree] in EB. unfold co_announcement in EH. cbv zeta in EH.
        destruct (get_bytes (mParams m) "g"%str) as [bg|] eqn:Eg; [|discriminate].
        destruct (dec_point S bg) as [g|] eqn:Dg; [|discriminate].
        odestruct EH. injection EH as <- _. split; [|split].
        -- intros _. rewrite <- EB in J1. apply J1. now left.
        -- intros X. exfalso. discriminate X.
        -- intros _. exists e. split; [|assumption]. cbn. f_equal. destruct CG as [[X _]|[_ X]].
           ++ unfold has_key in X. unfold get_bytes in Eg. destruct (lookup (mParams m) "g"%str); discriminate.
           ++ rewrite Eg in X. injection X as ->. rewrite (dec_enc_point S OK) in Dg by apply (group_base S OK). congruence.
      * (* the round is over *)
        rewrite TR in EH. apply round_end_status in EH. unfold J. cbn [y_coord]. rewrite EH. split; [intros [X|X]; discriminate X|]. split; intros X; discriminate X.
      * destruct (not_announcement_writes (mType m) NTA NTR) as (W1 & W2 & W3).
        apply (J_same y w); [assumption|exact (FW _ W1)|exact (FW _ W3)|exact (FW _ W2)|exact (REST out eq_refl NA)].
    + destruct (mget (y_servers y) (mDst m)) as [s|] eqn:ES.
      * destruct (sv_handle _ _ _ _ _ _ _ _) as [[s' out]|] eqn:EH; [|discriminate]. injection E as <-.
        destruct (Z.eq_dec (mType m) ANNOUNCEMENT) as [TA|NTA].
        -- (* a server shuffles *)
           destruct (announced y V m I (nth_error_In _ _ EM) TA) as (T & j & p & keys & vals & GT & HT & src & Em & CO & A).
           pose proof (p2_status _ _ _ _ _ _ _ _ _ _ _ _ _ _ A) as ST. destruct HJ as (J1 & J2 & J3).
           destruct (J2 ST m (nth_error_In _ _ EM) TA) as (e & ks & EK & EW & LK & CG).
           pose proof (p2_car _ _ _ _ _ _ _ _ _ _ _ _ _ _ A) as CA. pose proof (p2_tab _ _ _ _ _ _ _ _ _ _ _ _ _ _ A) as TO.
           assert (EP : mParams m = p) by (rewrite Em; reflexivity). rewrite EP in *.
           assert (KE : keys = map snd w).
           { apply enc_points_inj; [apply TO|exact (tied_group e w LK)|]. rewrite EW. destruct CA as (CA & _). rewrite EK in CA. congruence. }
           rewrite KE in *.
           destruct (nth_chain S _ _ _ V j B (p2_i _ _ _ _ _ _ _ _ _ _ _ _ _ _ A)) as [[_ X]|(b & s0 & X & Eb & Es & _)].
           { exfalso. apply Nd. rewrite Em. exact X. }
           assert (Db : mDst m = b) by (rewrite Em; exact X). rewrite Db, Es in ES. injection ES as ->.
           destruct (b_link _ _ _ _ _ B j b s Eb Es) as (NX & _ & SO).
           rewrite TA in EH. change (sv_announcement S H s p sr = Some (s', out)) in EH.
           erewrite (sent_deliver y i m) by (try exact EM; reflexivity).
           assert (DP : dec_points S (enc_points S (map snd w)) = Some (map snd w)) by (apply (dec_enc_points S OK), TO).
           destruct (ann_prev s p sr (map snd w) _ s' out (proj1 CA) DP EH) as (m' & -> & Ty & Dm & _).
           destruct (hear_server s p sr e w vals GT HT s' [m'] m' SO CA CG TO LK EH (or_introl eq_refl)) as (ks' & K1 & K2 & K3 & K4 & K5).
           cbn [fold_left]. split; [|intros x [<-|[]] _; right; exists j, b, s; auto].
           split; [|split]; cbn [y_coord y_msgs].
           ++ intros Y. eapply Permutation_trans; [exact K3|]. now apply J1.
           ++ intros _ x Ix Tx. apply in_app_or in Ix. destruct Ix as [Ix|[<-|[]]].
              ** exfalso. refine (core_rest (y_msgs y) i m x CO EM _ Ix Tx). unfold inert. now rewrite TA.
              ** exists (e * sv_roundkey s), ks'. auto.
           ++ intros Y. rewrite ST in Y. discriminate Y.
        -- assert (NA : forall x, In x out -> mType x <> ANNOUNCEMENT).
           { intros x Ix X. destruct (C60_server_frame S H G _ _ _ _ _ _ _ EH) as [_ F]. specialize (F x Ix). rewrite X in F. clear - F NTA.
             cbn [In] in F. repeat (destruct F as [F|F]; [first [discriminate F|congruence]|]). destruct F. }
           apply (OTH out); [eapply sent_deliver; [exact EM|reflexivity]|assumption|].
           apply (J_same y w); try reflexivity; [assumption|exact (REST out eq_refl NA)].
      * destruct (mget (y_clients y) (mDst m)) as [k|]; [|discriminate].
        destruct (cl_handle _ _ _ _ _ _) as [[k' out]|] eqn:EH; [|discriminate]. injection E as <-.
        assert (NA : forall x, In x out -> mType x <> ANNOUNCEMENT) by (intros x Ix; rewrite (cl_out S G _ _ _ _ _ _ EH x Ix); discriminate).
        apply (OTH out); [eapply sent_deliver; [exact EM|reflexivity]|assumption|].
        apply (J_same y w); try reflexivity; [assumption|exact (REST out eq_refl NA)].
  - (* the main loop *)
    cbn [sys_step] in E. destruct (is_loop e) eqn:IL; [|discriminate].
    destruct (co_step S G (y_coord y) e) as [[c' out]|] eqn:EC; [|discriminate]. injection E as <-.
    erewrite (sent_other y) by (try discriminate; reflexivity).
    destruct (C60_coordinator_frame S G (y_coord y) e c' out EC) as [FW FE].
    assert (OTH : (forall x, In x out -> mType x <> ANNOUNCEMENT) -> J (Sys c' (y_servers y) (y_clients y) (y_msgs y ++ out) (y_log y)) w ->
       J (Sys c' (y_servers y) (y_clients y) (y_msgs y ++ out) (y_log y)) (fold_left (hear S) out w) /\
       (forall x, In x out -> mType x = ANNOUNCEMENT -> from_round y x)).
    { intros NA J'. rewrite fold_hear_none by assumption. split; [assumption|]. intros x Ix Tx. now elim (NA x Ix). }
    destruct e as [ty p src rn| |fakes ord| |ord rs]; try (destruct GU; fail).
    + (* the round begins *)
      cbn [co_step] in EC. destruct (begin_sends y V fakes ord c' out I GU EC) as (GO & PO & ST & a & vals & GT & HT & ->).
      split; [|intros x [<-|[]] _; now left].
      set (m := Msg a ANNOUNCEMENT (table_params S ord vals GT HT) (co_addr (y_coord y))).
      assert (HW : hear S w m = map (fun k => (k, k)) ord).
      { unfold hear, l_hear, view, points_of. change (mType m =? ANNOUNCEMENT) with true. cbn iota.
        change (get_bytes (mParams m) "keys"%str) with (Some (enc_points S ord)). cbn iota. rewrite (dec_enc_points S OK ord GO). reflexivity. }
      cbn [fold_left]. rewrite HW. unfold J. cbn [y_coord y_msgs]. rewrite ST, !map_map. cbn [fst snd]. rewrite map_id.
      split; [intros _; exact PO|]. split; [|intros X; discriminate X].
      intros _ x Ix Tx. destruct GU as (SE & _). apply in_app_or in Ix. destruct Ix as [Ix|[<-|[]]].
      * exfalso. assert (Y : In x (core (y_msgs y))) by (apply core_in; split; [assumption|unfold inert; now rewrite Tx]). unfold settled in SE. rewrite SE in Y. destruct Y.
      * exists 1, ord. split; [reflexivity|]. split; [reflexivity|]. split.
        -- apply Forall_map. eapply Forall_impl; [|exact GO]. intros k Gk. cbn [fst snd]. split; [assumption|]. now rewrite (pt_mul_1 S OK).
        -- left. split; [reflexivity|]. apply (pt_mul_1 S OK). apply (in_group_G S OK).
    + apply OTH; [intros x Ix X; specialize (FE x Ix); rewrite X in FE; cbn in FE; intuition discriminate|].
      apply (J_same y w); try reflexivity; [assumption| | | |]; cbn [y_coord y_msgs].
      * apply (FW FStatus). cbn. intuition discriminate.
      * apply (FW FBComms). cbn. intuition discriminate.
      * apply (FW FG). cbn. intuition discriminate.
      * intros x Ix Tx. apply in_app_or in Ix. destruct Ix as [|Ix]; [assumption|]. exfalso. specialize (FE x Ix). rewrite Tx in FE. cbn in FE. intuition discriminate.
    + assert (NA : forall x, In x out -> mType x <> ANNOUNCEMENT) by (intros x Ix X; specialize (FE x Ix); rewrite X in FE; cbn in FE; intuition discriminate).
      apply OTH; [assumption|]. destruct (round_end_ev_status _ _ _ _ _ EC) as [X|X].
      * unfold J. cbn [y_coord]. rewrite X. split; [intros [Y|Y]; discriminate Y|]. split; intros Y; discriminate Y.
      * apply (J_same y w); [assumption|exact X| | |]; cbn [y_coord y_msgs].
        -- apply (FW FBComms). cbn. intuition discriminate.
        -- apply (FW FG). cbn. intuition discriminate.
        -- intros x Ix Tx. apply in_app_or in Ix. destruct Ix as [|Ix]; [assumption|]. now elim (NA x Ix).
  - (* a client's command *)
    cbn [sys_step] in E. odestruct E. injection E as <-.
    match goal with EC : cl_command _ _ _ _ = Some ?o |- _ => pose proof (command_inert _ _ _ _ _ EC) as CI; set (out := o) in * end.
    erewrite (sent_other y _ _ out) by (try discriminate; reflexivity).
    assert (NA : forall x, In x out -> mType x <> ANNOUNCEMENT).
    { rewrite Forall_forall in CI. intros x Ix X. specialize (CI x Ix). unfold inert in CI. rewrite X in CI. discriminate CI. }
    rewrite fold_hear_none by assumption. split; [|intros x Ix Tx; now elim (NA x Ix)].
    apply (J_same y w); try reflexivity; [assumption|]. cbn [y_msgs]. intros x Ix Tx. apply in_app_or in Ix. destruct Ix as [|Ix]; [assumption|now elim (NA x Ix)].
Qed.

Lemma tap_J ears (P : nat -> Prop) y V w :
  (forall y V m, reach S H G y V -> P (length (co_servers (y_coord y))) -> from_round y m -> ears y m = true) ->
  tapped S H G ears [] (hear S) y V w -> P (length (co_servers (y_coord y))) -> J y w.
Proof.
  intros EA. induction 1 as [self a fb trap gammas l y1 y2 CF E1 EM NS E2|y V w a y' T IH GU E]; intros HP.
  - cbn [sys_step is_loop co_step] in E2. unfold co_configure in E2. injection E2 as <-. unfold J. cbn [y_coord].
    split; [intros [X|X]; discriminate X|]. split; intros X; discriminate X.
  - pose proof (tapped_reach _ _ _ _ _ _ _ _ _ T) as R. pose proof (reach_inv S OK H G GOK y V R) as I.
    rewrite (servers_step S H G y V a y' I GU E) in HP. destruct (tap_step y V w a y' I GU E (IH HP)) as [J' AN].
    rewrite fold_hear_filter; [assumption|]. intros m Im Tm. exact (EA y V m R HP (AN m Im Tm)).
Qed.
(** In the middle of a round the notes name everybody. *)
Lemma J_names y V w a k : reach S H G y V -> J y w -> co_status (y_coord y) = CO_MESSAGE -> settled y ->
  mget (y_clients y) a = Some k -> In (cl_pub k) (mkeys (co_bcomms (y_coord y))) -> pseudonym Z.eqb w (cl_pub k) = Some (cl_nym k).
Proof.
  intros R (J1 & _ & J3) ST SE EK IN. destruct (J3 ST) as (e & EG & L).
  pose proof (reach_inv S OK H G GOK y V R) as [B P]. unfold settled in SE. rewrite SE in P.
  destruct P as [T A|T i p keys vals GT HT A|T0 T1 K A|T n M1 p keys vals GT HT A].
  - exfalso. pose proof (p1_status _ _ _ _ _ _ _ A) as X. rewrite ST in X. discriminate.
  - exfalso. pose proof (p2_status _ _ _ _ _ _ _ _ _ _ _ _ _ _ A) as X. rewrite ST in X. discriminate.
  - destruct (p3_cl _ _ _ _ _ _ _ _ _ A a k EK) as [[[] _]|(_ & v' & r' & _ & _ & [(m & [] & _)|(R' & _ & _ & [(m & [] & _)|[X _]])])].
    pose proof (p3_G _ _ _ _ _ _ _ _ _ A) as EG'. rewrite EG in EG'. injection EG' as EG'.
    destruct (b_cl _ _ _ _ _ B a k EK) as (PK & _).
    apply (Permutation_in _ (Permutation_sym (J1 (or_intror ST)))) in IN. apply find_link in IN. destruct IN as (t & It & Et & ->). f_equal. unfold tied in L. rewrite Forall_forall in L. destruct (L t It) as (_ & ->).
    rewrite X, Et, PK. unfold pt_mul_base in *. pose proof (in_group_G S OK) as HG.
    rewrite !(pt_mul_mul S OK), !(Z.mul_comm (cl_priv k)), <- !(pt_mul_mul S OK) by assumption. now rewrite EG'.
  - exfalso. destruct (p4_M _ _ _ _ _ _ _ _ _ _ _ _ _ _ _ A) as [src X]. now apply Permutation_nil_cons in X.
Qed.

(** ** C90 *)
(** What a server sends lets everybody put its input beside its output. *)
Theorem C90_server_linked : forall s p rn keys bk s' out,
  get_bytes p "keys"%str = Some bk -> dec_points S bk = Some keys -> Forall (in_group S) keys ->
  sv_announcement S H s p rn = Some (s', out) -> forall v, (exists m, In m out /\ view S m = Some v) ->
  tv_prev v = map (fun k => pt_mul S k (sv_roundkey s)) keys.
Proof.
  intros s p rn keys bk s' out E1 E2 FK E v (m & Im & Ev). destruct (ann_prev s p rn keys bk s' out E1 E2 E) as (m' & -> & Ty & _ & _ & Pv).
  destruct Im as [<-|[]]. cbv zeta in Pv. set (nk := map _ keys) in *.
  assert (GN : Forall (in_group S) nk).
  { apply Forall_map. eapply Forall_impl; [|exact FK]. intros k Gk. unfold pt_mul. in_grp. }
  unfold view, points_of in Ev. rewrite Ty, Z.eqb_refl in Ev.
  destruct (has_key (mParams m') "shuffled"%str); rewrite Pv, (dec_enc_points S OK nk GN) in Ev.
  - destruct (get_bytes (mParams m') "keys"%str) as [b|]; [|discriminate]. destruct (dec_points S b); [|discriminate]. now injection Ev as <-.
  - injection Ev as <-. reflexivity.
Qed.

(** Somebody on the network names the pseudonym of every client of the round's table. *)
Theorem C90_wire_names_all : forall y V w a k,
  tapped S H G on_the_wire (l_none eavesdropper Z) (l_hear S eavesdropper) y V w ->
  co_status (y_coord y) = CO_MESSAGE -> settled y -> mget (y_clients y) a = Some k ->
  In (cl_pub k) (mkeys (co_bcomms (y_coord y))) ->
  l_guess eavesdropper Z Z.eqb w (cl_pub k) = Some (cl_nym k).
Proof.
  intros y V w a k T. apply (J_names y V w a k).
  - exact (tapped_reach _ _ _ _ _ _ _ _ _ T).
  - refine (tap_J on_the_wire (fun _ => True) y V w _ T I). reflexivity.
Qed.
(** With one server the coordinator does, from what it sends and receives itself. *)
Theorem C90_one_server : forall y V w a k,
  tapped S H G at_coordinator (l_none eavesdropper Z) (l_hear S eavesdropper) y V w ->
  length (co_servers (y_coord y)) = 1%nat ->
  co_status (y_coord y) = CO_MESSAGE -> settled y -> mget (y_clients y) a = Some k ->
  In (cl_pub k) (mkeys (co_bcomms (y_coord y))) ->
  l_guess eavesdropper Z Z.eqb w (cl_pub k) = Some (cl_nym k).
Proof.
  intros y V w a k T L1. apply (J_names y V w a k).
  - exact (tapped_reach _ _ _ _ _ _ _ _ _ T).
  - refine (tap_J at_coordinator (fun n => n = 1%nat) y V w _ T L1). clear y V w a k T L1.
    intros y V m R L [E|(i & a & s & Ei & Es & Ed)]; unfold at_coordinator.
    + rewrite E. destruct (keq _ _) as [_|X]; [reflexivity|now elim X].
    + destruct (reach_inv S OK H G GOK y V R) as [B _]. destruct (b_link _ _ _ _ _ B i a s Ei Es) as (NX & _).
      rewrite Ed, NX. unfold after. rewrite nth_overflow by (rewrite map_length; lia).
      destruct (keq (co_addr (y_coord y)) _) as [_|X]; [apply orb_true_r|now elim X].
Qed.
End Tap.

(** The property: nobody who only compares the keys they see learns the pseudonyms. *)
Definition pseudonyms_hidden (S : suite) (H : oracle) (G : gob) (ears : sys -> msg -> bool) (where_ : sys -> Prop) : Prop :=
  ~ exists L : listener, forall y V n a k, tapped S H G ears (l_none L Z) (l_hear S L) y V n -> where_ y ->
      co_status (y_coord y) = CO_MESSAGE -> settled y -> mget (y_clients y) a = Some k ->
      In (cl_pub k) (mkeys (co_bcomms (y_coord y))) ->
      l_guess L Z Z.eqb n (cl_pub k) = Some (cl_nym k).
Theorem C90_hidden_refuted : forall S H G, suite_ok S -> gob_ok G -> ~ pseudonyms_hidden S H G on_the_wire (fun _ => True).
Proof.
  intros S H G OK GOK HH. apply HH. exists eavesdropper. intros y V n a k T _. exact (C90_wire_names_all S OK H G GOK y V n a k T).
Qed.
Theorem C90_one_server_hidden_refuted : forall S H G, suite_ok S -> gob_ok G ->
  ~ pseudonyms_hidden S H G at_coordinator (fun y => length (co_servers (y_coord y)) = 1%nat).
Proof.
  intros S H G OK GOK HH. apply HH. exists eavesdropper. exact (C90_one_server S OK H G GOK).
Qed.


(** ** Instances *)
Import Prop_FujiOkam Prop_Codec Prop_Bridge Prop_Shuffle Prop_Assign.
Fixpoint wplay (ears : sys -> msg -> bool) (l : list (sys -> System.action)) (y : sys) (V : ledger) (w : links)
  : option (sys * ledger * links) :=
  match l with
  | [] => Some (y, V, w)
  | f :: r =>
      let a := f y in
      if okb toy_suite false y V a then
        olet y' := sys_step toy_suite toy_oracle toy_gob y a in
        wplay ears r y' (ledger_step toy_suite y V a) (fold_left (hear toy_suite) (filter (ears y) (sent y a y')) w)
      else None
  end.
Definition toy_tapped ears := tapped toy_suite toy_oracle toy_gob ears (l_none eavesdropper Z) (l_hear toy_suite eavesdropper).
Lemma wplay_tapped ears l : forall y V w y' V' w', toy_tapped ears y V w -> wplay ears l y V w = Some (y', V', w') -> toy_tapped ears y' V' w'.
Proof.
  induction l as [|f l IH]; cbn [wplay]; intros y V w y' V' w' N E; [now injection E as <- <- <-|].
  destruct (okb toy_suite false y V (f y)) eqn:EO; [|discriminate].
  destruct (sys_step toy_suite toy_oracle toy_gob y (f y)) as [y1|] eqn:ES; [|discriminate].
  refine (IH _ _ _ _ _ _ _ E). exact (t_step _ _ _ _ _ _ y V w (f y) y1 N (proj2 (okb_guard _ _ _ _ _ EO) eq_refl) ES).
Qed.
Lemma toy_s_tapped ears : toy_tapped ears toy_s [] [].
Proof.
  destruct (sys_run toy_suite toy_oracle toy_gob toy_z0 toy_conf) as [y1|] eqn:E1; [|vm_compute in E1; discriminate].
  destruct (sys_step toy_suite toy_oracle toy_gob y1 (ALoop EConfigure)) as [y2|] eqn:E2.
  2:{ exfalso. vm_compute in E1. injection E1 as <-. vm_compute in E2. discriminate E2. }
  assert (ES : toy_s = y2) by (unfold toy_s, toy_started; now rewrite E1, E2). rewrite ES.
  eapply (t_start toy_suite toy_oracle toy_gob ears [] (hear toy_suite) adC 5 toy_fb toy_trap (repeat 3 480) toy_conf y1 y2); try assumption.
  - repeat (constructor; [exact I || (cbn; unfold rel_prime; apply Zis_gcd_intro; [apply Z.divide_1_l| apply Z.divide_1_l| ]; intros x Hx Hy)|]); try constructor.
    + apply (Z.divide_sub_r _ (4 * 3) 11); [now apply Z.divide_mul_r|assumption].
    + apply (Z.divide_sub_r _ 11 (2 * 5)); [assumption|now apply Z.divide_mul_r].
  - vm_compute in E1. injection E1 as <-. reflexivity.
  - vm_compute in E1. injection E1 as <-. discriminate.
Qed.
(** The same with one server. *)
Definition toy_conf1 : list System.action := [ALaunch adA 2 3; dl 0 2; dl 0 2; dl 0 2].
Definition toy_o : sys :=
  match (olet y := sys_run toy_suite toy_oracle toy_gob toy_z0 toy_conf1 in sys_step toy_suite toy_oracle toy_gob y (ALoop EConfigure)) with
  | Some y => y | None => toy_z0 end.
Lemma toy_o_tapped ears : toy_tapped ears toy_o [] [].
Proof.
  destruct (sys_run toy_suite toy_oracle toy_gob toy_z0 toy_conf1) as [y1|] eqn:E1; [|vm_compute in E1; discriminate].
  destruct (sys_step toy_suite toy_oracle toy_gob y1 (ALoop EConfigure)) as [y2|] eqn:E2.
  2:{ exfalso. vm_compute in E1. injection E1 as <-. vm_compute in E2. discriminate E2. }
  assert (ES : toy_o = y2) by (unfold toy_o; now rewrite E1, E2). rewrite ES.
  eapply (t_start toy_suite toy_oracle toy_gob ears [] (hear toy_suite) adC 5 toy_fb toy_trap (repeat 3 480) toy_conf1 y1 y2); try assumption.
  - repeat (constructor; [exact I || (cbn; unfold rel_prime; apply Zis_gcd_intro; [apply Z.divide_1_l| apply Z.divide_1_l| ]; intros x Hx Hy)|]); try constructor.
    apply (Z.divide_sub_r _ (4 * 3) 11); [now apply Z.divide_mul_r|assumption].
  - vm_compute in E1. injection E1 as <-. reflexivity.
  - vm_compute in E1. injection E1 as <-. discriminate.
Qed.
(** A server that swaps the two entries of its table. *)
Definition sdl (y : sys) : System.action :=
  ADeliver 0 (CoRand 3 (mkeys (co_clients (y_coord y))) (fun _ => [[x62; x32]]%byte) (mkeys (co_diffs (y_coord y))))
    (SvRand 3 (fun _ => 0) [7; 2] toy_ps2 2) (repeat true 480).
Definition show (r : sys * ledger * links) := let '(y, V, w) := r in
  (co_status (y_coord y), core (y_msgs y), length (co_servers (y_coord y)), w, mkeys (co_bcomms (y_coord y)), client_at adD y).

(** The client D, whose long-term key is 3, is in the second round's table, which the first of
    two servers swaps. *)
Definition toy_swapped : list (sys -> System.action) := toy_ready1 ++ [tbegin []] ++ [sdl] ++ dls 5.
Example C90_instance : exists y V w k, toy_tapped on_the_wire y V w /\ co_status (y_coord y) = CO_MESSAGE /\ settled y /\
  mget (y_clients y) adD = Some k /\ In (cl_pub k) (mkeys (co_bcomms (y_coord y))) /\
  mkeys (co_bcomms (y_coord y)) = [2; 3] /\ w = [(3, 12); (2, 16)] /\ cl_pub k = 3 /\ cl_nym k = 12.
Proof.
  destruct (wplay on_the_wire toy_swapped toy_s [] []) as [[[y V] w]|] eqn:E; [|vm_compute in E; discriminate E].
  pose proof (wplay_tapped _ _ _ _ _ _ _ _ (toy_s_tapped on_the_wire) E) as N.
  assert (F : option_map show (wplay on_the_wire toy_swapped toy_s [] []) =
    Some (3, [], 2%nat, [(3, 12); (2, 16)], [2; 3], Some (3, 5, Some 1, Some 3, PBase 13 18, 12))) by (vm_compute; reflexivity).
  rewrite E in F. cbn [option_map show] in F. injection F as F1 F2 F3 F4 F5 F6.
  destruct (client_at_some _ _ _ _ _ _ _ _ F6) as (k & EK & E1 & E2 & E3 & E4 & E5 & E6).
  exists y, V, w, k. do 4 (split; [assumption|]). split; [rewrite F5, E1; cbn; tauto|]. auto.
Qed.
Definition toy_one : list (sys -> System.action) :=
  dls 1 ++ [tbegin [(6, 2)]] ++ dls 3 ++ [do (AJoin adD 4 8)] ++ dls 7 ++ [tend] ++ dls 4 ++ [tbegin []] ++ [sdl] ++ dls 3.
Example C90_instance_one : exists y V w k, toy_tapped at_coordinator y V w /\ length (co_servers (y_coord y)) = 1%nat /\
  co_status (y_coord y) = CO_MESSAGE /\ settled y /\
  mget (y_clients y) adD = Some k /\ In (cl_pub k) (mkeys (co_bcomms (y_coord y))) /\
  mkeys (co_bcomms (y_coord y)) = [2; 3] /\ w = [(3, 9); (2, 4)] /\ cl_pub k = 3 /\ cl_nym k = 9.
Proof.
  destruct (wplay at_coordinator toy_one toy_o [] []) as [[[y V] w]|] eqn:E; [|vm_compute in E; discriminate E].
  pose proof (wplay_tapped _ _ _ _ _ _ _ _ (toy_o_tapped at_coordinator) E) as N.
  assert (F : option_map show (wplay at_coordinator toy_one toy_o [] []) =
    Some (3, [], 1%nat, [(3, 9); (2, 4)], [2; 3], Some (3, 5, Some 1, Some 16, PBase 6 12, 9))) by (vm_compute; reflexivity).
  rewrite E in F. cbn [option_map show] in F. injection F as F1 F2 F3 F4 F5 F6.
  destruct (client_at_some _ _ _ _ _ _ _ _ F6) as (k & EK & E1 & E2 & E3 & E4 & E5 & E6).
  exists y, V, w, k. do 5 (split; [assumption|]). split; [rewrite F5, E1; cbn; tauto|]. auto.
Qed.

Print Assumptions C90_server_linked.
Print Assumptions C90_wire_names_all.
Print Assumptions C90_one_server.
Print Assumptions C90_hidden_refuted.
Print Assumptions C90_one_server_hidden_refuted.
