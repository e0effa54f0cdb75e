(** C86: a step of the coordinator's main loop while its listener handles messages. *)
From Coq Require Import ZArith Lia List Bool Permutation.
From Coq Require Import Strings.Byte.
From Coq Require String.
From Verif Require Import ZMod Bytes Suite Pedersen ElGamal FujiOkam Equality Codec Maps Net Bridge Client
  Perm SimpleShuffle PairShuffle Server Coordinator History System Round RoundInv
  Prop_FujiOkam Prop_Codec Prop_Bridge Prop_Shuffle Prop_Assign Prop_Topology Prop_Round Launcher.
Import ListNotations.
Import String.StringSyntax.
Open Scope Z_scope.
Delimit Scope string_scope with str.

(** ** Specification *)

(** Both runs stop, or both reach the same state (ReputationDiffMap has no order) having sent
    the same messages. *)
Definition same_end (r r' : option (coord * list msg)) : Prop :=
  match r, r' with
  | None, None => True
  | Some (c, o), Some (c', o') =>
      c' = set_diffs c (co_diffs c') /\ (forall k, mget (co_diffs c) k = mget (co_diffs c') k) /\ Permutation o o'
  | _, _ => False
  end.

(** The step [e] of the main loop, taken while the messages of [s] are handled, acts as if some
    of them had been handled before it and the others after it. *)
Definition acts_between (S : suite) (G : gob) (c : coord) (e : event) (s : schedule) : Prop :=
  exists before after, Permutation (before ++ after) (heard_in s) /\
    same_end (during S G c e s) (events S G c (map hear_event before ++ [e] ++ map hear_event after)).

(** A step of the main loop; the keys of a Go map are distinct. *)
Definition is_main_step (e : event) : Prop :=
  match e with EMsg _ _ _ _ => False | EEnd ord _ => NoDup ord | _ => True end.

(** The messages of clients, and of servers to which the coordinator has written. *)
Definition of_the_round (ty : Z) : Prop :=
  ty <> SERVER_REGISTER /\ ty <> UPDATE_PEDERSEN_H /\ ty <> Net.ROUND_END /\ ty <> ANNOUNCEMENT.

(** ** Theorems *)

(** With no message in between, it is the step. *)
Theorem C86_alone S G c e s : is_main_step e -> heard_in s = [] -> during S G c e s = co_step S G c e.
Proof.
  intros M N. unfold during.
  replace (weave S G (actions S e) s) with (actions S e).
  - apply alone. destruct e; [contradiction|exact I..].
  - generalize (actions S e). induction s as [|[n|] s IH]; intros ops; cbn [weave heard_in] in *; [reflexivity|discriminate|].
    destruct ops; now rewrite <- IH.
Qed.

Theorem C86_acts_between S G c e s : is_main_step e -> Forall (fun n => of_the_round (he_ty n)) (heard_in s) ->
  (match e with EEnd _ _ => requests_apart S c (heard_in s) | _ => True end) ->
  acts_between S G c e s.
Proof.
  intros M F A. destruct (during_settles S G c e s) as (b & a & P & R).
  - exact M.
  - eapply Forall_impl; [|exact F]. intros n (N1 & N2 & N3 & N4). unfold is_spare.
    apply Z.eqb_neq in N1, N2, N3, N4. now rewrite N1, N2, N3, N4.
  - destruct e; try contradiction. intros _. exact A.
  - exists b, a. split; [exact P|]. unfold same_end.
    destruct (during S G c e s) as [[c1 o1]|], (events S G c _) as [[c2 o2]|]; cbn in R; try contradiction; [|exact I].
    destruct R as [[R1 R2] R3]. auto.
Qed.

(** C86, as one would want it: whatever messages of an honest session are handled meanwhile. *)
Definition heard_of (rn : co_rand) (m : msg) : heard := Heard (mType m) (mParams m) (mSrc m) rn.
Definition always_between : Prop :=
  forall S H G, suite_ok S -> gob_ok G -> forall self a fb trap gs l y,
  sys_run S H G (init_sys S self a fb trap gs) l = Some y ->
  forall e s, is_main_step e ->
  (exists rn ms, incl ms (y_msgs y) /\ NoDup ms /\ Forall (fun m => mDst m = co_addr (y_coord y)) ms /\ heard_in s = map (heard_of rn) ms) ->
  acts_between S G (y_coord y) e s.

(** The operator presses ENTER while the second server registers: it is told of the h to which
    the first server contributed, and then is sent the one before that. *)
Definition hurried : list System.action := [ALaunch adA 2 3; dl 0 2; dl 0 2; ALaunch adB 3 5].
Definition no_draws : co_rand := CoRand 0 [] (fun _ => []) [].
Definition with_h (ty : Z) (h : Z) (m : msg) : bool :=
  (mType m =? ty) && (if keq (mDst m) adB then true else false) &&
  match get_bytes (mParams m) "h"%str with Some b => if keq b (enc_point toy_suite h) then true else false | None => false end.
Lemma existsb_perm {A} (f : A -> bool) l l' : Permutation l l' -> existsb f l = existsb f l'.
Proof.
  intros P. apply Bool.eq_iff_eq_true. rewrite !existsb_exists. split; intros (x & I & E); exists x; (split; [|exact E]).
  - now apply (Permutation_in x P).
  - now apply (Permutation_in x (Permutation_sym P)).
Qed.

Theorem C86_always_between_refuted : ~ always_between.
Proof.
  intros X. destruct (sys_run toy_suite toy_oracle toy_gob toy_z0 hurried) as [y|] eqn:E; [|vm_compute in E; discriminate].
  assert (F : y_msgs y = [nth 0 (y_msgs y) (Msg [] 0 [] []); nth 1 (y_msgs y) (Msg [] 0 [] [])] /\
    mType (nth 0 (y_msgs y) (Msg [] 0 [] [])) = UPDATE_PEDERSEN_H /\ mType (nth 1 (y_msgs y) (Msg [] 0 [] [])) = SERVER_REGISTER /\
    Forall (fun m => mDst m = co_addr (y_coord y)) (y_msgs y)).
  { vm_compute in E. injection E as <-. repeat split; try reflexivity. repeat constructor. }
  destruct F as (F & T1 & T2 & D). set (m1 := nth 0 (y_msgs y) (Msg [] 0 [] [])) in *. set (m2 := nth 1 (y_msgs y) (Msg [] 0 [] [])) in *.
  assert (W : forall l, (l = [m1; m2] \/ l = [m2; m1]) -> forall i,
    match events toy_suite toy_gob (y_coord y) (map hear_event (map (heard_of no_draws) (firstn i l)) ++ [EConfigure] ++
      map hear_event (map (heard_of no_draws) (skipn i l))) with
    | Some (_, o) => existsb (with_h SERVER_REGISTER_REPLY 16) o && existsb (with_h BCAST_PEDERSEN_H 4) o = false
    | None => True
    end).
  { unfold m1, m2. clear - E. vm_compute in E. injection E as <-.
    intros l [-> | ->] [|[|[|i]]]; vm_compute; try reflexivity. }
  destruct (X toy_suite toy_oracle toy_gob toy_ok toy_gob_ok _ _ _ _ _ _ _ E EConfigure
    [None; Some (heard_of no_draws m1); Some (heard_of no_draws m2)] I) as (b & a & P & R).
  { exists no_draws, [m1; m2]. rewrite <- F. split; [apply incl_refl|]. split; [|split; [exact D|]].
    - rewrite F. constructor; [|constructor; [intros []|constructor]]. intros [Q|[]]. rewrite Q in T2. rewrite T1 in T2. discriminate T2.
    - rewrite F. reflexivity. }
  assert (Q : exists c o, during toy_suite toy_gob (y_coord y) EConfigure [None; Some (heard_of no_draws m1); Some (heard_of no_draws m2)] = Some (c, o) /\
    existsb (with_h SERVER_REGISTER_REPLY 16) o && existsb (with_h BCAST_PEDERSEN_H 4) o = true).
  { unfold m1, m2. clear - E. vm_compute in E. injection E as <-. eexists _, _. split; [vm_compute; reflexivity|]. vm_compute. reflexivity. }
  destruct Q as (c & o & Ed & Q). rewrite Ed in R. clear Ed X E T1 T2 D F.
  cbn [heard_in] in P. change [heard_of no_draws m1; heard_of no_draws m2] with (map (heard_of no_draws) [m1; m2]) in P.
  assert (L : exists l i, (l = [m1; m2] \/ l = [m2; m1]) /\ b = map (heard_of no_draws) (firstn i l) /\ a = map (heard_of no_draws) (skipn i l)).
  { apply Permutation_sym, Permutation_length_2_inv in P. destruct P as [P|P].
    - exists [m1; m2], (length b). split; [now left|]. rewrite <- firstn_map, <- skipn_map. cbn [map]. rewrite <- P.
      rewrite firstn_app, skipn_app, Nat.sub_diag, firstn_all, skipn_all. cbn. now rewrite app_nil_r.
    - exists [m2; m1], (length b). split; [now right|]. rewrite <- firstn_map, <- skipn_map. cbn [map]. rewrite <- P.
      rewrite firstn_app, skipn_app, Nat.sub_diag, firstn_all, skipn_all. cbn. now rewrite app_nil_r. }
  destruct L as (l & i & Hl & -> & ->). specialize (W l Hl i). unfold same_end in R.
  destruct (events _ _ _ _) as [[c' o']|]; [|exact R]. destruct R as (_ & _ & R).
  rewrite (existsb_perm _ _ _ R), (existsb_perm (with_h BCAST_PEDERSEN_H 4) _ _ R), W in Q. discriminate Q.
Qed.

(** ** Instance: a vote is handled while the round ends, after its target's row was read *)
Example C86_instance : exists y V m, reach toy_suite toy_oracle toy_gob y V /\ y_msgs y = [m] /\ mType m = Net.VOTE /\
  let e := EEnd [16; 12] [5; 9] in
  let late := [None; None; None; None; Some (heard_of no_draws m)] in
  let early := [None; None; None; Some (heard_of no_draws m)] in
  is_main_step e /\ Forall (fun n => of_the_round (he_ty n)) (heard_in late) /\ requests_apart toy_suite (y_coord y) (heard_in late) /\
  (* read too late: the vote is not in the table that is sent, and kept in the map *)
  option_map (fun r => (co_diffs (fst r), length (snd r))) (during toy_suite toy_gob (y_coord y) e late) = Some ([(12, 1)], 2%nat) /\
  during toy_suite toy_gob (y_coord y) e late = events toy_suite toy_gob (y_coord y) [e; hear_event (heard_of no_draws m)] /\
  (* in time *)
  during toy_suite toy_gob (y_coord y) e early = events toy_suite toy_gob (y_coord y) [hear_event (heard_of no_draws m); e] /\
  during toy_suite toy_gob (y_coord y) e early <> during toy_suite toy_gob (y_coord y) e late.
Proof.
  destruct (tplay false toy_upto_vote toy_s []) as [[y V]|] eqn:E; [|vm_compute in E; discriminate].
  pose proof (toy_reach _ _ _ E) as R. exists y, V, (nth 0 (y_msgs y) (Msg [] 0 [] [])).
  split; [exact R|]. clear R.
  assert (F : y_msgs y = [nth 0 (y_msgs y) (Msg [] 0 [] [])] /\ mType (nth 0 (y_msgs y) (Msg [] 0 [] [])) = Net.VOTE).
  { vm_compute in E. injection E as <- _. split; reflexivity. }
  destruct F as [F T]. split; [exact F|]. split; [exact T|]. cbv zeta. split.
  { cbn. repeat constructor; cbn; intuition lia. }
  split.
  { cbn [heard_in]. constructor; [|constructor]. cbn [heard_of he_ty]. rewrite T. repeat split; discriminate. }
  split.
  { cbn [heard_in]. intros n k [<-|[]]. cbn [heard_of he_ty]. rewrite T. discriminate. }
  clear F T. vm_compute in E. injection E as <- _.
  split; [vm_compute; reflexivity|]. split; [vm_compute; reflexivity|]. split; [vm_compute; reflexivity|]. vm_compute. discriminate.
Qed.

Print Assumptions C86_alone.
Print Assumptions C86_acts_between.
Print Assumptions C86_always_between_refuted.
