(** C109: messages about different concerns can arrive in any order. *)
From Coq Require Import ZArith Znumtheory Lia List Bool Permutation.
From Coq Require Import Strings.Byte.
From Coq Require String.
From Verif Require Import ZMod Bytes Suite Spec Pedersen ElGamal FujiOkam Maps Codec Net Bridge Client Perm SimpleShuffle PairShuffle Server Coordinator History Launcher Race
  Prop_ElGamal Prop_FujiOkam Prop_Codec Prop_Bridge Prop_Assign Prop_Coord.
Import ListNotations.
Import String.StringSyntax.
Open Scope Z_scope.
Delimit Scope string_scope with str.

(** ** Specification *)
(** What a message to the coordinator is about, if it is one of those that arrive while a
    round is open: a client asks to join; the servers confirm a client; bridges (posts,
    requests, signatures of the servers); votes; a client checks the coordinator's base. *)
Inductive concern := Joining | Confirming | Bridges | Voting | Checking.
Definition concern_of (e : event) : option concern :=
  match e with
  | EMsg ty _ _ _ =>
      if ty =? CLIENT_REGISTER_CONTROLLERSIDE then Some Joining
      else if ty =? CLIENT_REGISTER_SERVERSIDE then Some Confirming
      else if (ty =? POST_BRIDGE) || (ty =? REQUEST_BRIDGES) || (ty =? GOT_SIGNS) then Some Bridges
      else if ty =? Net.VOTE then Some Voting
      else if ty =? GN_HONESTY_CHALLENGE then Some Checking
      else None
  | _ => None
  end.
Definition concern_eq (k k' : concern) : {k = k'} + {k <> k'}.
Proof. decide equality. Defined.
Definition about (k : concern) (e : event) : bool := match concern_of e with Some k' => if concern_eq k k' then true else false | None => false end.
(** The messages sent for the events of one concern, event by event. *)
Definition sent_about (k : concern) (t : list step) : list (list msg) := map stOut (filter (fun st => about k (stEvent st)) t).
(** [es'] is another order of [es] that keeps the order within each concern. *)
Definition reordered (es es' : list event) : Prop :=
  (forall e, In e es -> concern_of e <> None) /\ (forall e, In e es' -> concern_of e <> None) /\
  forall k, filter (about k) es' = filter (about k) es.
(** The property for any two messages. *)
Definition any_order (S : suite) (G : gob) : Prop :=
  forall self a0 fb trap gammas t c e1 e2 c1 o1 c2 o2, run S G (init_coord S self a0 fb trap gammas) t c ->
  concern_of e1 <> None -> concern_of e2 <> None ->
  co_step S G c e1 = Some (c1, o1) -> co_step S G c1 e2 = Some (c2, o2) ->
  exists d, co_step S G c e2 = Some (d, o2) /\ co_step S G d e1 = Some (c2, o1).

(** ** Two steps *)
Section Concerns.
Context (S : suite) (G : gob).

Lemma coord_ext c d : (forall f, agree f c d) -> d = c.
Proof.
  intros A. destruct c, d.
  assert (X0 := A FStatic); assert (X := A FServers); assert (X1 := A FStatus); assert (X2 := A FFirst); assert (X3 := A FG); assert (X4 := A FClients);
  assert (X5 := A FBKeys); assert (X6 := A FBComms); assert (X7 := A FBuffer); assert (X8 := A FMsgLog); assert (X9 := A FASigs);
  assert (X10 := A FReqs); assert (Y := A FVotes); assert (Y1 := A FBridges); assert (Y2 := A FEKeys); assert (Y3 := A FEComms);
  assert (Y4 := A FDiffs); assert (Y5 := A FKeys); assert (Y6 := A FPB). clear A. cbn in *. now subst.
Qed.
Lemma field_dec (x y : field) : {x = y} + {x <> y}.
Proof. decide equality. Defined.
Lemma agree_sym f c d : agree f c d -> agree f d c.
Proof. destruct f; cbn; intros; now symmetry. Qed.
Lemma agree_trans f c d e : agree f c d -> agree f d e -> agree f c e.
Proof. destruct f; cbn; congruence. Qed.

Definition apart (ty1 ty2 : Z) : Prop := forall f, In f (writes ty1) -> ~ In f (msg_reads ty2) /\ ~ In f (writes ty2).
Lemma no_static ty : ~ In FStatic (writes ty).
Proof. unfold writes. repeat match goal with |- context [?a =? ?b] => destruct (a =? b); [cbn; intuition discriminate|] end. intros []. Qed.
Lemma commute ty1 p1 s1 r1 ty2 p2 s2 r2 c c1 o1 c2 o2 : apart ty1 ty2 -> apart ty2 ty1 ->
  co_handle S G c ty1 p1 s1 r1 = Some (c1, o1) -> co_handle S G c1 ty2 p2 s2 r2 = Some (c2, o2) ->
  exists d, co_handle S G c ty2 p2 s2 r2 = Some (d, o2) /\ co_handle S G d ty1 p1 s1 r1 = Some (c2, o1).
Proof.
  intros A12 A21 E1 E2.
  destruct (co_step_frame S G c (EMsg ty1 p1 s1 r1) c1 o1 E1) as [F1 _]. destruct (co_step_frame S G c1 (EMsg ty2 p2 s2 r2) c2 o2 E2) as [F2 _].
  cbn [writes_ev] in F1, F2.
  pose proof (dep_handle S G ty2 p2 s2 r2 c1 c) as D2. cbv beta in D2. rewrite E2 in D2.
  specialize (D2 (agree_sym FStatic _ _ (F1 FStatic (no_static ty1)))).
  assert (R2 : forall f, In f (msg_reads ty2) -> agree f c1 c) by (intros f I; apply agree_sym, F1; intros J; now destruct (A12 f J)).
  specialize (D2 R2). destruct (co_handle S G c ty2 p2 s2 r2) as [[d od]|] eqn:E3; [|contradiction]. destruct D2 as [<- W2].
  destruct (co_step_frame S G c (EMsg ty2 p2 s2 r2) d o2 E3) as [F3 _]. cbn [writes_ev] in F3.
  pose proof (dep_handle S G ty1 p1 s1 r1 c d) as D1. cbv beta in D1. rewrite E1 in D1. specialize (D1 (F3 FStatic (no_static ty2))).
  assert (R1 : forall f, In f (msg_reads ty1) -> agree f c d) by (intros f I; apply F3; intros J; now destruct (A21 f J)).
  specialize (D1 R1). destruct (co_handle S G d ty1 p1 s1 r1) as [[d2 od]|] eqn:E4; [|contradiction]. destruct D1 as [<- W1].
  destruct (co_step_frame S G d (EMsg ty1 p1 s1 r1) d2 o1 E4) as [F4 _]. cbn [writes_ev] in F4.
  exists d. split; [reflexivity|]. rewrite E4. do 2 f_equal. apply coord_ext. intros f.
  destruct (in_dec field_dec f (writes ty1)) as [I1|N1].
  - apply agree_trans with c1; [apply agree_sym, F2; intros J; now destruct (A12 f I1)|now apply W1].
  - apply agree_trans with d; [|now apply F4]. destruct (in_dec field_dec f (writes ty2)) as [I2|N2]; [now apply W2|].
    apply agree_trans with c; [|now apply F3]. apply agree_trans with c1; [now apply agree_sym, F2|now apply agree_sym, F1].
Qed.

Lemma concern_type e k : concern_of e = Some k -> exists ty p src rn, e = EMsg ty p src rn /\
  match k with
  | Joining => ty = CLIENT_REGISTER_CONTROLLERSIDE
  | Confirming => ty = CLIENT_REGISTER_SERVERSIDE
  | Bridges => ty = POST_BRIDGE \/ ty = REQUEST_BRIDGES \/ ty = GOT_SIGNS
  | Voting => ty = Net.VOTE
  | Checking => ty = GN_HONESTY_CHALLENGE
  end.
Proof.
  destruct e as [ty p src rn| | | |]; try discriminate. cbn [concern_of]. intros E. exists ty, p, src, rn. split; [reflexivity|].
  destruct (Z.eqb_spec ty CLIENT_REGISTER_CONTROLLERSIDE); [injection E as <-; assumption|].
  destruct (Z.eqb_spec ty CLIENT_REGISTER_SERVERSIDE); [injection E as <-; assumption|].
  destruct (Z.eqb_spec ty POST_BRIDGE); [injection E as <-; now left|].
  destruct (Z.eqb_spec ty REQUEST_BRIDGES); [injection E as <-; right; now left|].
  destruct (Z.eqb_spec ty GOT_SIGNS); [injection E as <-; right; now right|]. cbn [orb] in E.
  destruct (Z.eqb_spec ty Net.VOTE); [injection E as <-; assumption|].
  destruct (Z.eqb_spec ty GN_HONESTY_CHALLENGE); [injection E as <-; assumption|discriminate].
Qed.

(** Two messages about different concerns can be handled in either order. *)
Theorem C109_two : forall c e1 e2 k1 k2 c1 o1 c2 o2, concern_of e1 = Some k1 -> concern_of e2 = Some k2 -> k1 <> k2 ->
  co_step S G c e1 = Some (c1, o1) -> co_step S G c1 e2 = Some (c2, o2) ->
  exists d, co_step S G c e2 = Some (d, o2) /\ co_step S G d e1 = Some (c2, o1).
Proof.
  intros c e1 e2 k1 k2 c1 o1 c2 o2 K1 K2 NK E1 E2.
  destruct (concern_type e1 k1 K1) as (t1 & p1 & s1 & r1 & -> & T1). destruct (concern_type e2 k2 K2) as (t2 & p2 & s2 & r2 & -> & T2).
  cbn [co_step] in *. refine (commute t1 p1 s1 r1 t2 p2 s2 r2 c c1 o1 c2 o2 _ _ E1 E2);
    destruct k1, k2; try congruence; clear - T1 T2; repeat match goal with H : _ \/ _ |- _ => destruct H end; subst;
    intros f; vm_compute; intuition congruence.
Qed.

(** ** Any number of messages *)
Lemma about_eq k e : about k e = true <-> concern_of e = Some k.
Proof. unfold about. destruct (concern_of e) as [k'|]; [|now split]. destruct (concern_eq k k') as [->|N]; split; congruence. Qed.
Lemma about_ne k k' e : concern_of e = Some k -> k' <> k -> about k' e = false.
Proof. intros E N. destruct (about k' e) eqn:A; [|reflexivity]. apply about_eq in A. congruence. Qed.
Lemma sent_cons k st t : sent_about k (st :: t) = if about k (stEvent st) then stOut st :: sent_about k t else sent_about k t.
Proof. unfold sent_about. cbn [filter]. now destruct (about k (stEvent st)). Qed.

Lemma pull k e l2 : concern_of e = Some k -> forall l1 c t c', (forall x, In x l1 -> concern_of x <> None /\ concern_of x <> Some k) ->
  exec S G c (l1 ++ e :: l2) = Some (t, c') ->
  exists c1 o t2, co_step S G c e = Some (c1, o) /\ exec S G c1 (l1 ++ l2) = Some (t2, c') /\
    sent_about k t = o :: sent_about k t2 /\ forall k', k' <> k -> sent_about k' t = sent_about k' t2.
Proof.
  intros K. induction l1 as [|x l1 IH]; intros c t c' N E; cbn [app exec] in E.
  - destruct (co_step S G c e) as [[c1 o]|] eqn:E1; [|discriminate]. destruct (exec S G c1 l2) as [[t2 c2]|] eqn:E2; [|discriminate].
    injection E as <- <-. exists c1, o, t2. split; [reflexivity|]. split; [exact E2|]. split.
    + rewrite sent_cons. cbn [stEvent stOut]. now rewrite (proj2 (about_eq k e) K).
    + intros k' NK. rewrite sent_cons. cbn [stEvent]. now rewrite (about_ne k k' e K NK).
  - destruct (co_step S G c x) as [[cx ox]|] eqn:Ex; [|discriminate]. destruct (exec S G cx (l1 ++ e :: l2)) as [[t' c2]|] eqn:E2; [|discriminate].
    injection E as <- <-. destruct (IH cx t' c2 (fun y I => N y (or_intror I)) E2) as (c1 & o & t2 & F1 & F2 & F3 & F4).
    destruct (N x (or_introl eq_refl)) as [Kx NK]. destruct (concern_of x) as [kx|] eqn:EK; [|congruence].
    assert (NK' : kx <> k) by congruence.
    destruct (C109_two c x e kx k cx ox c1 o EK K NK' Ex F1) as (d & D1 & D2).
    exists d, o, (Step d x c1 ox :: t2). split; [exact D1|]. cbn [app exec]. rewrite D2, F2. split; [reflexivity|].
    assert (Ax : about k x = false) by (apply (about_ne kx); [exact EK|congruence]).
    split.
    + rewrite !sent_cons. cbn [stEvent stOut]. now rewrite Ax.
    + intros k' NE. rewrite !sent_cons. cbn [stEvent stOut]. now rewrite (F4 k' NE).
Qed.
Lemma first_about k e r : forall es, filter (about k) es = e :: r ->
  exists l1 l2, es = l1 ++ e :: l2 /\ filter (about k) l1 = [] /\ filter (about k) l2 = r.
Proof.
  induction es as [|x es IH]; [discriminate|]. cbn [filter]. destruct (about k x) eqn:A.
  - intros [= -> <-]. exists [], es. auto.
  - intros E. destruct (IH E) as (l1 & l2 & -> & F1 & F2). exists (x :: l1), l2. cbn [app filter]. now rewrite A.
Qed.
Lemma filter_none {A} (f : A -> bool) l : filter f l = [] -> forall x, In x l -> f x = false.
Proof.
  intros E x I. destruct (f x) eqn:F; [|reflexivity]. assert (X : In x (filter f l)) by (apply filter_In; auto). rewrite E in X. destruct X.
Qed.

(** The messages of each concern may be interleaved in any way: the state in the end is the
    same, and every event causes the same messages. *)
Theorem C109_any_interleaving : forall es' es c t c', reordered es es' -> exec S G c es = Some (t, c') ->
  exists t', exec S G c es' = Some (t', c') /\ forall k, sent_about k t' = sent_about k t.
Proof.
  induction es' as [|e r IH]; intros es c t c' (N & N' & FL) E.
  - destruct es as [|x es].
    + injection E as <- <-. exists []. split; reflexivity.
    + exfalso. destruct (concern_of x) as [k|] eqn:EK; [|exact (N x (or_introl eq_refl) EK)]. specialize (FL k).
      cbn [filter] in FL. rewrite (proj2 (about_eq k x) EK) in FL. discriminate.
  - destruct (concern_of e) as [k|] eqn:EK; [|now destruct (N' e (or_introl eq_refl))].
    pose proof (FL k) as FK. cbn [filter] in FK. rewrite (proj2 (about_eq k e) EK) in FK. symmetry in FK.
    destruct (first_about k e _ es FK) as (l1 & l2 & -> & F1 & F2).
    destruct (pull k e l2 EK l1 c t c') as (c1 & o & t2 & P1 & P2 & P3 & P4); [|exact E|].
    { intros x I. split; [apply N, in_or_app; now left|]. intros X. apply about_eq in X. rewrite (filter_none _ _ F1 x I) in X. discriminate. }
    destruct (IH (l1 ++ l2) c1 t2 c') as (t' & Q1 & Q2); [|exact P2|].
    { split; [intros x I; apply N, in_or_app; apply in_app_or in I; destruct I; [now left|right; now right]|].
      split; [intros x I; apply N'; now right|]. intros k'. specialize (FL k'). cbn [filter] in FL. rewrite filter_app in FL |- *. cbn [filter] in FL.
      destruct (concern_eq k' k) as [->|NK].
      - rewrite F1, F2. reflexivity.
      - rewrite (about_ne k k' e EK NK) in FL. exact FL. }
    cbn [exec]. rewrite P1, Q1. eexists. split; [reflexivity|]. intros k'. rewrite sent_cons. cbn [stEvent stOut].
    destruct (concern_eq k' k) as [->|NK].
    + rewrite (proj2 (about_eq k e) EK), P3, Q2. reflexivity.
    + rewrite (about_ne k k' e EK NK), P4, Q2 by assumption. reflexivity.
Qed.
End Concerns.

(** ** Within one concern the order matters *)
(** A request that comes before the posts is given no bridge. *)
Theorem C109_any_order_refuted : ~ (forall S G, suite_ok S -> gob_ok G -> any_order S G).
Proof.
  intros A. specialize (A toy_suite toy_gob toy_ok toy_gob_ok).
  set (es := removelast (removelast toy_setup)). set (post := ev_of (cl_post toy_suite toy_client [x62; x31]%byte)).
  destruct (exec toy_suite toy_gob toy_c0 es) as [[t c]|] eqn:E; [|vm_compute in E; discriminate].
  pose proof (exec_run_from toy_suite toy_gob _ toy_c0 [] toy_c0 _ _ (run_nil _ _ _) E) as R. cbn [app] in R.
  destruct (co_step toy_suite toy_gob c post) as [[c1 o1]|] eqn:E1; [|vm_compute in E; injection E as _ <-; vm_compute in E1; discriminate].
  destruct (co_step toy_suite toy_gob c1 toy_request) as [[c2 o2]|] eqn:E2.
  2:{ vm_compute in E; injection E as _ <-; vm_compute in E1; injection E1 as <- _; vm_compute in E2; discriminate. }
  destruct (A adC 5 toy_fb toy_trap [1; 2; 3] t c post toy_request c1 o1 c2 o2 R ltac:(discriminate) ltac:(vm_compute; discriminate) E1 E2) as (d & D1 & _).
  vm_compute in E; injection E as _ <-; vm_compute in E1; injection E1 as <- _; vm_compute in E2; injection E2 as _ <-. vm_compute in D1. discriminate.
Qed.

(** A concrete case: a client asks to join while another one posts, asks for a bridge and
    gets the signatures, in two orders. *)
Definition toy_join : event := EMsg CLIENT_REGISTER_CONTROLLERSIDE [("public_key"%str, VBytes (enc_point toy_suite 3))] adA toy_rand.
Example C109_instance : exists t0 c t c', exec toy_suite toy_gob toy_c0 toy_setup = Some (t0, c) /\
  exec toy_suite toy_gob c [toy_request; toy_got adA [x05]%byte; toy_join; toy_got adB [x07]%byte] = Some (t, c') /\
  reordered [toy_request; toy_got adA [x05]%byte; toy_join; toy_got adB [x07]%byte]
            [toy_join; toy_request; toy_got adA [x05]%byte; toy_got adB [x07]%byte] /\
  length (concat (sent_about Bridges t)) = 3%nat /\ length (concat (sent_about Joining t)) = 2%nat.
Proof.
  destruct (exec toy_suite toy_gob toy_c0 toy_setup) as [[t0 c]|] eqn:E0; [|vm_compute in E0; discriminate].
  destruct (exec toy_suite toy_gob c [toy_request; toy_got adA [x05]%byte; toy_join; toy_got adB [x07]%byte]) as [[t c']|] eqn:E1.
  2:{ vm_compute in E0. injection E0 as _ <-. vm_compute in E1. discriminate. }
  exists t0, c, t, c'. split; [reflexivity|]. split; [exact E1|]. split.
  - split; [|split].
    + intros e I. repeat (destruct I as [<-|I]; [vm_compute; discriminate|]). destruct I.
    + intros e I. repeat (destruct I as [<-|I]; [vm_compute; discriminate|]). destruct I.
    + intros k. destruct k; vm_compute; reflexivity.
  - vm_compute in E0. injection E0 as _ <-. vm_compute in E1. injection E1 as <- _. split; reflexivity.
Qed.

Print Assumptions C109_two.
Print Assumptions C109_any_interleaving.
Print Assumptions C109_any_order_refuted.
