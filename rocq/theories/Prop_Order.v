(** C105: the order in which posts and votes arrive. *)
From Coq Require Import ZArith Znumtheory Lia List Bool Permutation.
From Coq Require Import Strings.Byte.
From Coq Require String.
From Verif Require Import ZMod Bytes Suite Spec Pedersen ElGamal FujiOkam Maps Codec Net Bridge Client Perm SimpleShuffle PairShuffle Server Coordinator History Prop_ElGamal Prop_Codec Prop_Bridge Prop_Assign Prop_Coord Prop_Outsider.
Import ListNotations.
Import String.StringSyntax.
Open Scope Z_scope.
Delimit Scope string_scope with str.

(** ** Specification *)
(** A post or a vote arrives at the coordinator, from whomever, valid or not. *)
Definition post_or_vote (e : event) : Prop :=
  match e with EMsg ty _ _ _ => ty = POST_BRIDGE \/ ty = Net.VOTE | _ => False end.
(** The address a post names. *)
Definition posted (e : event) : list bytes :=
  match e with
  | EMsg ty p _ _ => if ty =? POST_BRIDGE then match get_str p "bridge_addr"%str with Some a => [a] | None => [] end else []
  | _ => []
  end.
(** Two states of the coordinator that differ at most in the order in which the entries of
    the tables of bridges and of reputation differences were made (which a Go map does not
    show). *)
Definition same_state (c c' : coord) : Prop :=
  (forall f, f <> FBridges -> f <> FDiffs -> agree f c c') /\
  (forall a, mget (co_bridges c') a = mget (co_bridges c) a) /\
  (forall nym, mget (co_diffs c') nym = mget (co_diffs c) nym).

(** ** What a post or a vote does *)
Inductive eff := Nothing | Offer (a : bytes) (nym : Z) | Count (nym f : Z).
Definition post_eff (S : suite) (g : option Z) (p : params) : option eff :=
  olet a := get_str p "bridge_addr"%str in
  olet sig := get_bytes p "signature"%str in
  olet bn := get_bytes p "nym"%str in olet nym := dec_point S bn in
  olet m := msg_post p in
  if negb (eg_verify S m nym sig g) then Some Nothing else Some (Offer a nym).
Definition vote_eff (S : suite) (G : gob) (g : option Z) (ks : list Z) (pks : list Z) (p : params) : option eff :=
  olet bn := get_bytes p "nym"%str in olet nym := dec_point S bn in
  let index := find_index ks nym in
  if index <? 0 then Some Nothing
  else
    olet pk := nth_error ks (Z.to_nat index) in
    olet sig := get_bytes p "signature"%str in
    olet m := msg_vote p in
    if negb (eg_verify S m pk sig g) then Some Nothing
    else
      olet bs := get_bytes p "signatures"%str in olet sigs := gdec_2d G bs in
      olet ba := get_bytes p "assignment"%str in olet a := dec_assignment S ba in
      olet ok := check_sigs S ba pks sigs in
      if negb ok then Some Nothing
      else olet target := asNym a in olet f := get_int p "feedback"%str in Some (Count target f).
Definition ev_eff (S : suite) (G : gob) (c : coord) (e : event) : option eff :=
  match e with
  | EMsg ty p _ _ => if ty =? POST_BRIDGE then post_eff S (co_G c) p
                     else vote_eff S G (co_G c) (co_keys c) (map snd (co_servers c) ++ [co_pub c]) p
  | _ => None
  end.
Definition apply (c : coord) (x : eff) : coord :=
  match x with
  | Nothing => c
  | Offer a nym => add_bridge c a nym
  | Count nym f => set_diffs c (mset (co_diffs c) nym (int64 (rep_diff c nym + f)))
  end.
Definition offered (x : eff) : list bytes := match x with Offer a _ => [a] | _ => [] end.

Lemma step_eff S G c e : post_or_vote e -> co_step S G c e = option_map (fun x => (apply c x, [])) (ev_eff S G c e).
Proof.
  destruct e as [ty p src rn| | | |]; cbn [post_or_vote]; try contradiction. intros [->| ->]; cbn [co_step ev_eff].
  - change (co_handle S G c POST_BRIDGE p src rn) with (co_post S c p). change (POST_BRIDGE =? POST_BRIDGE) with true. cbn iota. unfold co_post, post_eff.
    destruct (get_str p _); [|reflexivity]. destruct (get_bytes p _); [|reflexivity]. destruct (get_bytes p _); [|reflexivity].
    destruct (dec_point S _); [|reflexivity]. destruct (msg_post p); [|reflexivity]. destruct (negb _); reflexivity.
  - change (co_handle S G c Net.VOTE p src rn) with (co_vote S G c p). change (Net.VOTE =? POST_BRIDGE) with false. cbn iota. unfold co_vote, vote_eff.
    destruct (get_bytes p _); [|reflexivity]. destruct (dec_point S _); [|reflexivity]. destruct (_ <? 0); [reflexivity|].
    destruct (nth_error _ _); [|reflexivity]. destruct (get_bytes p _); [|reflexivity]. destruct (msg_vote p); [|reflexivity].
    destruct (negb _); [reflexivity|]. destruct (get_bytes p _); [|reflexivity]. destruct (gdec_2d G _); [|reflexivity].
    destruct (get_bytes p _); [|reflexivity]. destruct (dec_assignment S _); [|reflexivity]. destruct (check_sigs S _ _ _) as [ok|]; [|reflexivity].
    destruct (negb ok); [reflexivity|]. destruct (asNym _); [|reflexivity]. destruct (get_int p _); reflexivity.
Qed.
Lemma eff_apply S G c x e : ev_eff S G (apply c x) e = ev_eff S G c e.
Proof. destruct x; reflexivity. Qed.
Lemma eff_offered S G c e x : ev_eff S G c e = Some x -> post_or_vote e -> incl (offered x) (posted e).
Proof.
  destruct e as [ty p src rn| | | |]; cbn [post_or_vote]; try contradiction. intros E [->| ->]; cbn [ev_eff posted] in *.
  - change (POST_BRIDGE =? POST_BRIDGE) with true in *. cbn iota in *. unfold post_eff in E. destruct (get_str p _) as [a|]; [|discriminate].
    destruct (get_bytes p _); [|discriminate]. destruct (get_bytes p _); [|discriminate]. destruct (dec_point S _); [|discriminate].
    destruct (msg_post p); [|discriminate]. destruct (negb _); injection E as <-; intros y Iy; [destruct Iy|exact Iy].
  - change (Net.VOTE =? POST_BRIDGE) with false in *. cbn iota in *. unfold vote_eff in E.
    destruct x as [|a n|n f]; [intros y []| |intros y []].
    repeat match type of E with
    | match ?y with _ => _ end = _ => destruct y; try discriminate E
    end.
Qed.
Lemma Forall2_imp {A B} (R R' : A -> B -> Prop) : (forall a b, R a b -> R' a b) -> forall l l', Forall2 R l l' -> Forall2 R' l l'.
Proof. intros I. induction 1; constructor; auto. Qed.
Lemma exec_eff S G : forall l c t c', (forall e, In e l -> post_or_vote e) ->
  exec S G c l = Some (t, c') -> exists xs, Forall2 (fun e x => ev_eff S G c e = Some x) l xs /\ c' = fold_left apply xs c.
Proof.
  induction l as [|e l IH]; intros c t c' P E.
  - cbn in E. injection E as _ <-. exists []. split; [constructor|reflexivity].
  - cbn [exec] in E. rewrite step_eff in E by (apply P; now left). destruct (ev_eff S G c e) as [x|] eqn:X; [|discriminate]. cbn [option_map] in E.
    destruct (exec S G (apply c x) l) as [[t1 c1]|] eqn:E1; [|discriminate]. injection E as _ <-.
    destruct (IH _ _ _ (fun e' I => P e' (or_intror I)) E1) as (xs & F & ->). exists (x :: xs). split; [|reflexivity].
    constructor; [exact X|]. eapply Forall2_imp; [|exact F]. cbn. intros e' x'. now rewrite eff_apply.
Qed.
Lemma eff_exec S G : forall l c xs, (forall e, In e l -> post_or_vote e) ->
  Forall2 (fun e x => ev_eff S G c e = Some x) l xs -> exists t, exec S G c l = Some (t, fold_left apply xs c).
Proof.
  induction l as [|e l IH]; intros c xs P F; inversion F as [|? x ? xs' X F']; subst; [now exists []|].
  cbn [exec fold_left]. rewrite step_eff by (apply P; now left). rewrite X. cbn [option_map].
  destruct (IH (apply c x) xs' (fun e' I => P e' (or_intror I))) as (t & E).
  - eapply Forall2_imp; [|exact F']. cbn. intros e' x'. now rewrite eff_apply.
  - rewrite E. now eexists.
Qed.

(** ** Effects commute *)
Lemma same_refl c : same_state c c.
Proof. split; [intros; apply agree_refl|]. now split. Qed.
Lemma same_trans c1 c2 c3 : same_state c1 c2 -> same_state c2 c3 -> same_state c1 c3.
Proof.
  intros (A1 & B1 & D1) (A2 & B2 & D2). split; [|split].
  - intros f N1 N2. eapply agree_trans; [now apply A1|now apply A2].
  - intros a. now rewrite B2, B1.
  - intros n. now rewrite D2, D1.
Qed.
Lemma apply_same c c' x : same_state c c' -> same_state (apply c x) (apply c' x).
Proof.
  intros (A & B & D). destruct x as [|a n|n f]; cbn [apply]; [now split| |].
  - split; [|split].
    + intros f0 N1 N2. pose proof (A f0 N1 N2) as X. destruct f0; try exact X; now contradiction N1.
    + intros a'. cbn. rewrite !mget_mset. now rewrite B.
    + exact D.
  - split; [|split].
    + intros f0 N1 N2. pose proof (A f0 N1 N2) as X. destruct f0; try exact X; now contradiction N2.
    + exact B.
    + intros n'. cbn. rewrite !mget_mset. unfold rep_diff. now rewrite !D.
Qed.
Lemma int64_add a b f : int64 (int64 (a + b) + f) = int64 (int64 (a + f) + b).
Proof.
  unfold int64. f_equal.
  replace ((a + b + 2 ^ 63) mod 2 ^ 64 - 2 ^ 63 + f + 2 ^ 63) with ((a + b + 2 ^ 63) mod 2 ^ 64 + f) by ring.
  replace ((a + f + 2 ^ 63) mod 2 ^ 64 - 2 ^ 63 + b + 2 ^ 63) with ((a + f + 2 ^ 63) mod 2 ^ 64 + b) by ring.
  rewrite !Zplus_mod_idemp_l. f_equal. ring.
Qed.
Lemma apply_swap c x y : NoDup (offered x ++ offered y) -> same_state (apply (apply c x) y) (apply (apply c y) x).
Proof.
  intros N. destruct x as [|a n|n f], y as [|b m|m g]; cbn [apply offered app] in *; try apply same_refl.
  - assert (NE : a <> b) by (intros ->; inversion N as [|? ? X _]; apply X; now left).
    split; [|split]; [intros f0 N1 N2; destruct f0; try reflexivity; now contradiction N1| |reflexivity].
    intros a'. cbn. rewrite !mget_mset. destruct (keq a' a), (keq a' b); congruence.
  - split; [|split]; [intros f0 N1 N2; destruct f0; try reflexivity; now contradiction N2|reflexivity|].
    intros n'. cbn. unfold rep_diff. cbn. rewrite !mget_mset. destruct (keq n' n) as [E1|E1], (keq n' m) as [E2|E2]; try reflexivity.
    + destruct (keq m n) as [_|X]; [|congruence]. destruct (keq n m) as [_|X]; [|congruence].
      replace n with m by congruence. f_equal. apply int64_add.
    + destruct (keq n m) as [X|_]; [congruence|reflexivity].
    + destruct (keq m n) as [X|_]; [congruence|reflexivity].
Qed.
Lemma fold_same xs : forall c c', same_state c c' -> same_state (fold_left apply xs c) (fold_left apply xs c').
Proof. induction xs as [|x xs IH]; intros c c' E; [exact E|]. cbn [fold_left]. apply IH. now apply apply_same. Qed.
Lemma fold_perm xs ys : Permutation xs ys -> forall c, NoDup (flat_map offered xs) ->
  same_state (fold_left apply xs c) (fold_left apply ys c).
Proof.
  induction 1 as [|x xs ys P IH|x y xs|xs ys zs P1 IH1 P2 IH2]; intros c N.
  - apply same_refl.
  - cbn [fold_left]. apply IH. cbn [flat_map] in N. clear -N. induction (offered x) as [|a l IHl]; [exact N|]. inversion N; subst. auto.
  - cbn [fold_left]. apply fold_same. apply apply_swap. cbn [flat_map] in N. rewrite app_assoc in N.
    clear -N. revert N. generalize (offered y ++ offered x). intros l N. induction l as [|a l IHl]; [constructor|]. cbn in N. inversion N as [|? ? X N']; subst.
    constructor; [|now apply IHl]. intros I. apply X. apply in_app_iff. now left.
  - eapply same_trans; [now apply IH1|]. apply IH2. eapply Permutation_NoDup; [|exact N]. now apply Permutation_flat_map.
Qed.

Lemma Forall2_perm {A B} (R : A -> B -> Prop) : forall l l', Permutation l l' -> forall xs, Forall2 R l xs ->
  exists xs', Permutation xs xs' /\ Forall2 R l' xs'.
Proof.
  induction 1 as [|x l l' P IH|x y l|l l' l'' P1 IH1 P2 IH2]; intros xs F.
  - exists xs. now split.
  - inversion F as [|? b ? bs Hb F']; subst. destruct (IH bs F') as (bs' & Q & F2). exists (b :: bs'). split; [now constructor|now constructor].
  - inversion F as [|? b ? bs Hb F']; subst. inversion F' as [|? d ? ds Hd F'']; subst. exists (d :: b :: ds). split; [constructor|now repeat constructor].
  - destruct (IH1 xs F) as (ys & Q1 & F1). destruct (IH2 ys F1) as (zs & Q2 & F2). exists zs. split; [now transitivity ys|exact F2].
Qed.
Lemma NoDup_incl_app {A} (l1 l2 r1 r2 : list A) : NoDup (l1 ++ l2) -> NoDup r1 -> NoDup r2 -> incl r1 l1 -> incl r2 l2 -> NoDup (r1 ++ r2).
Proof.
  intros N N1 N2 I1 I2. induction r1 as [|a r1 IH]; [exact N2|]. inversion N1 as [|? ? X N1']; subst. cbn. constructor.
  - intros I. apply in_app_iff in I. destruct I as [I|I]; [exact (X I)|]. assert (Y : In a l1) by (apply I1; now left). apply in_split in Y. destruct Y as (u & v & ->).
    rewrite <- app_assoc in N. cbn in N. apply NoDup_remove_2 in N. apply N. rewrite !in_app_iff. right. right. now apply I2.
  - apply IH; [exact N1'|]. intros y Iy. apply I1. now right.
Qed.
Lemma effs_distinct S G c : forall l xs, (forall e, In e l -> post_or_vote e) -> Forall2 (fun e x => ev_eff S G c e = Some x) l xs ->
  NoDup (flat_map posted l) -> NoDup (flat_map offered xs) /\ incl (flat_map offered xs) (flat_map posted l).
Proof.
  induction l as [|e l IH]; intros xs P F N; inversion F as [|? x ? xs' X F']; subst; [split; [constructor|intros y []]|].
  cbn [flat_map] in *. assert (N2 : NoDup (flat_map posted l)).
  { clear -N. induction (posted e) as [|a r IHr]; [exact N|]. inversion N; subst. auto. }
  destruct (IH xs' (fun e' I => P e' (or_intror I)) F' N2) as [D I].
  pose proof (eff_offered S G c e x X (P e (or_introl eq_refl))) as J. split.
  - eapply NoDup_incl_app; [exact N| |exact D|exact J|exact I]. destruct x; cbn; repeat constructor; auto.
  - intros y Iy. apply in_app_iff. apply in_app_iff in Iy. destruct Iy as [Iy|Iy]; [left; now apply J|right; now apply I].
Qed.
Lemma exec_quiet S G : forall l c t c', (forall e, In e l -> post_or_vote e) -> exec S G c l = Some (t, c') ->
  forall st, In st t -> stOut st = [].
Proof.
  induction l as [|e l IH]; intros c t c' P E st I; cbn [exec] in E.
  - injection E as <- _. destruct I.
  - rewrite step_eff in E by (apply P; now left). destruct (ev_eff S G c e) as [x|]; [|discriminate]. cbn [option_map] in E.
    destruct (exec S G (apply c x) l) as [[t1 c1]|] eqn:E1; [|discriminate]. injection E as <- _.
    destruct I as [<-|I]; [reflexivity|]. exact (IH _ _ _ (fun e' J => P e' (or_intror J)) E1 st I).
Qed.

(** ** C105 *)
(** Any two orders of the same posts and votes (from anyone, valid or not, any number of
    votes on any pseudonyms; no address posted twice) leave the coordinator in the same
    state, and nothing is sent: in every state, and if one order does not stop the
    coordinator, then neither does the other. *)
Theorem C105_order : forall S G c l l' t c1, Permutation l l' -> (forall e, In e l -> post_or_vote e) ->
  NoDup (flat_map posted l) -> exec S G c l = Some (t, c1) ->
  exists t' c2, exec S G c l' = Some (t', c2) /\ same_state c1 c2 /\ (forall st, In st (t ++ t') -> stOut st = []).
Proof.
  intros S G c l l' t c1 P V N E. pose proof (exec_eff S G l c t c1 V E) as (xs & F & ->).
  destruct (Forall2_perm _ l l' P xs F) as (ys & Q & F').
  assert (V' : forall e, In e l' -> post_or_vote e) by (intros e I; apply V; eapply Permutation_in; [symmetry; exact P|exact I]).
  destruct (eff_exec S G l' c ys V' F') as (t' & E'). exists t', (fold_left apply ys c). split; [exact E'|]. split.
  - apply fold_perm; [exact Q|]. exact (proj1 (effs_distinct S G c l xs V F N)).
  - intros st I. apply in_app_iff in I. destruct I as [I|I]; [exact (exec_quiet S G l c t _ V E st I)|exact (exec_quiet S G l' c t' _ V' E' st I)].
Qed.

(** States that are the same in this sense close the round with the same messages: the same
    table of reputations to the last server and the same broadcast. *)
Lemma ending_same c c' k v : same_state c c' -> same_state (add_ending c k v) (add_ending c' k v).
Proof.
  intros (A & B & D). split; [|split; [exact B|exact D]]. intros f N1 N2. pose proof (A f N1 N2) as X.
  destruct f; try exact X; cbn in *; now rewrite X.
Qed.
Lemma endings_same l : forall c c', same_state c c' ->
  same_state (fold_left (fun c kv => add_ending c (fst kv) (snd kv)) l c) (fold_left (fun c kv => add_ending c (fst kv) (snd kv)) l c').
Proof. induction l as [|[k v] l IH]; intros c c' E; [exact E|]. cbn [fold_left]. apply IH. now apply ending_same. Qed.
Theorem C105_same_close : forall S G c c' ord rs c1 out, same_state c c' ->
  co_step S G c (EEnd ord rs) = Some (c1, out) ->
  exists c2, co_step S G c' (EEnd ord rs) = Some (c2, out) /\ same_state c1 c2.
Proof.
  intros S G c c' ord rs c1 out E R. cbn [co_step] in *. pose proof E as (A & B & D).
  pose proof (A FServers ltac:(discriminate) ltac:(discriminate)) as As. pose proof (A FBuffer ltac:(discriminate) ltac:(discriminate)) as Ab.
  pose proof (A FStatic ltac:(discriminate) ltac:(discriminate)) as Ast.
  cbn [agree] in As, Ab, Ast. unfold round_end in *. unfold last_server in *. rewrite As.
  destruct (option_map fst (nth_error (rev (co_servers c)) 0)) as [a|].
  2:{ injection R as <- <-. eexists. split; [reflexivity|]. split; [|split; [exact B|exact D]]. intros f N1 N2. pose proof (A f N1 N2) as X. destruct f; try exact X. reflexivity. }
  rewrite Ab. pose proof (endings_same (co_buffer c) c c' E) as E1.
  set (d := fold_left _ (co_buffer c) c) in *. set (d' := fold_left _ (co_buffer c) c') in *. clearbody d d'.
  destruct E1 as (A1 & B1 & D1).
  pose proof (A1 FEKeys ltac:(discriminate) ltac:(discriminate)) as Ek. pose proof (A1 FEComms ltac:(discriminate) ltac:(discriminate)) as Ec.
  pose proof (A1 FPB ltac:(discriminate) ltac:(discriminate)) as Ep. pose proof (A1 FClients ltac:(discriminate) ltac:(discriminate)) as El.
  pose proof (A1 FStatic ltac:(discriminate) ltac:(discriminate)) as Es. cbn [agree] in Ek, Ec, Ep, El, Es.
  rewrite Ek, Ec. destruct (non_nil _) as [keys|]; [|discriminate]. destruct (non_nil _) as [vs|]; [|discriminate].
  injection R as <- <-. eexists. split.
  - f_equal. f_equal. rewrite Ep. unfold to_clients, co_addr in *. rewrite El, Es, Ast.
    replace (tab (length ord) (fun i => ped_add S (at_ vs i) (fst (ped_commit S (co_pb d) (sec_of_int S (rep_diff d' (at_ ord i))) (at_ rs i)))))
      with (tab (length ord) (fun i => ped_add S (at_ vs i) (fst (ped_commit S (co_pb d) (sec_of_int S (rep_diff d (at_ ord i))) (at_ rs i))))); [reflexivity|].
    unfold tab. apply map_ext. intros i. unfold rep_diff. now rewrite D1.
  - split; [|split; [reflexivity|exact D1]]. intros f N1 N2. pose proof (A1 f N1 N2) as X. destruct f; try exact X; now contradiction N1.
Qed.

(** Without the condition on addresses the order decides who is credited: of two posts of
    the same address under two pseudonyms, the later one wins. *)
Definition order_free (S : suite) (G : gob) : Prop :=
  forall self a0 fb trap gammas t c, run S G (init_coord S self a0 fb trap gammas) t c ->
  forall e e' t1 c1 t2 c2, post_or_vote e -> post_or_vote e' ->
  exec S G c [e; e'] = Some (t1, c1) -> exec S G c [e'; e] = Some (t2, c2) -> same_state c1 c2.
Lemma toy_race : exists t c t1 c1 t2 c2, exec toy_suite toy_gob toy_c0 toy_setup = Some (t, c) /\
  exec toy_suite toy_gob c [toy_outsider [x62; x31]%byte; nth 5 toy_setup EConfigure] = Some (t1, c1) /\
  exec toy_suite toy_gob c [nth 5 toy_setup EConfigure; toy_outsider [x62; x31]%byte] = Some (t2, c2) /\
  on_offer c1 [x62; x31]%byte (cl_nym toy_client) /\ on_offer c2 [x62; x31]%byte 18 /\ cl_nym toy_client <> 18.
Proof. do 6 eexists. repeat (split; [vm_compute; reflexivity|]). vm_compute. discriminate. Qed.
Theorem C105_order_refuted : ~ (forall S G, suite_ok S -> gob_ok G -> order_free S G).
Proof.
  intros H. destruct toy_race as (t & c & t1 & c1 & t2 & c2 & E0 & E1 & E2 & O1 & O2 & NE).
  pose proof (H toy_suite toy_gob toy_ok toy_gob_ok _ _ _ _ _ _ _ (exec_run _ _ _ _ _ _ E0)
    (toy_outsider [x62; x31]%byte) (nth 5 toy_setup EConfigure) _ _ _ _ (or_introl eq_refl) (or_introl eq_refl) E1 E2) as (_ & B & _).
  unfold on_offer in *. rewrite (B _), O1 in O2. apply NE. congruence.
Qed.

(** A concrete case of the first theorem: three votes and two posts. *)
Definition toy_mixed : list event :=
  [EMsg Net.VOTE toy_forged adA toy_rand; toy_outsider [x62; x33]%byte;
   EMsg Net.VOTE (forge_vote toy_suite toy_gob 2 8 7 5 (sG toy_suite) [x7a]%byte (cl_nym toy_client) (-30)) adA toy_rand;
   EMsg Net.VOTE (forge_vote toy_suite toy_gob 2 8 7 5 (sG toy_suite) [x7a]%byte 2 1) adA toy_rand;
   nth 5 toy_setup EConfigure].
Example C105_instance : exists t c t1 c1, exec toy_suite toy_gob toy_c0 toy_setup = Some (t, c) /\
  exec toy_suite toy_gob c toy_mixed = Some (t1, c1) /\ (forall e, In e toy_mixed -> post_or_vote e) /\
  NoDup (flat_map posted toy_mixed) /\ flat_map posted toy_mixed = [[x62; x33]; [x62; x31]]%byte /\
  rep_diff c1 (cl_nym toy_client) = 70 /\ on_offer c1 [x62; x33]%byte 18 /\
  exists d out, co_step toy_suite toy_gob c1 (EEnd [12] [3]) = Some (d, out) /\ out <> [].
Proof.
  do 4 eexists. split; [vm_compute; reflexivity|]. split; [vm_compute; reflexivity|]. split.
  { intros e I. repeat destruct I as [<-|I]; try destruct I; vm_compute; auto. }
  split. { vm_compute. repeat constructor; cbn; intuition congruence. }
  split; [vm_compute; reflexivity|]. split; [vm_compute; reflexivity|]. split; [vm_compute; reflexivity|].
  do 2 eexists. split; [vm_compute; reflexivity|discriminate].
Qed.

Print Assumptions C105_order.
Print Assumptions C105_same_close.
Print Assumptions C105_order_refuted.
