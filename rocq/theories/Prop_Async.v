(** C112: what a session comes to depends only on what each process gets in which order. *)
From Coq Require Import ZArith Znumtheory Lia List Bool Permutation.
From Coq Require Import Strings.Byte.
From Coq Require String.
From Verif Require Import ZMod Bytes Suite Spec Pedersen ElGamal FujiOkam Equality Codec Maps Net Bridge Client
  Perm SimpleShuffle PairShuffle Server Coordinator History System Session.
Import ListNotations.
Import String.StringSyntax.
Open Scope Z_scope.
Delimit Scope string_scope with str.

(** ** Specification *)
(** The coordinator, or the server or client at an address. *)
Inductive proc := PCoord | PAt (a : addr).
Lemma proc_dec (p q : proc) : {p = q} + {p <> q}.
Proof. decide equality. apply keq. Defined.
(** What can happen at a process: it gets a message (with the random values it draws then),
    the main loop of the coordinator takes a step, a user enters a command, it is started. *)
Inductive occ :=
| OCoord (m : msg) (cr : co_rand)
| OGets (m : msg) (sr : sv_rand) (chal : list bool)
| OLoop (e : event)
| OCommand (cmd : command)
| OServer (priv rk : Z)
| OClient (priv s : Z).
(** What an action is, and where. *)
Definition occurs (y : sys) (a : action) : option (proc * occ) :=
  match a with
  | ALaunch a priv rk => Some (PAt a, OServer priv rk)
  | AJoin a priv s => Some (PAt a, OClient priv s)
  | ADeliver i cr sr chal =>
      match nth_error (y_msgs y) i with
      | None => None
      | Some m => Some (if keq (mDst m) (co_addr (y_coord y)) then (PCoord, OCoord m cr) else (PAt (mDst m), OGets m sr chal))
      end
  | ALoop e => Some (PCoord, OLoop e)
  | ACommand a cmd => Some (PAt a, OCommand cmd)
  end.
(** What happened in a run, and the part of it that happened at one process. *)
Fixpoint happened (S : suite) (H : oracle) (G : gob) (y : sys) (l : list action) : list (proc * occ) :=
  match l with
  | [] => []
  | a :: r => match occurs y a, sys_step S H G y a with Some o, Some y' => o :: happened S H G y' r | _, _ => [] end
  end.
Fixpoint at_proc {A} (p : proc) (t : list (proc * A)) : list A :=
  match t with
  | [] => []
  | (q, x) :: r => if proc_dec q p then x :: at_proc p r else at_proc p r
  end.
(** All processes are in the same state and the same messages are in flight. *)
Definition same_system (y y' : sys) : Prop :=
  y_coord y = y_coord y' /\ (forall a, mget (y_servers y) a = mget (y_servers y') a) /\
  (forall a, mget (y_clients y) a = mget (y_clients y') a) /\ Permutation (y_msgs y) (y_msgs y').

(** ** Proofs *)
Lemma at_app {A} p (a b : list (proc * A)) : at_proc p (a ++ b) = at_proc p a ++ at_proc p b.
Proof. induction a as [|[u z] a IHa]; cbn; [reflexivity|]. destruct (proc_dec u p); cbn; congruence. Qed.
Lemma at_perm {A} (l : list (proc * A)) : forall l', (forall p, at_proc p l = at_proc p l') -> Permutation l l'.
Proof.
  induction l as [|[p x] l IH]; intros l' E.
  - destruct l' as [|[q x] l']; [constructor|]. specialize (E q). cbn in E. destruct (proc_dec q q); [discriminate|congruence].
  - assert (X : exists l1 l2, l' = l1 ++ (p, x) :: l2 /\ at_proc p l1 = []).
    { specialize (E p). cbn in E. destruct (proc_dec p p) as [_|N]; [|congruence]. clear IH. revert E. generalize (at_proc p l). intros r E.
      induction l' as [|[q z] l' IH']; [discriminate|]. cbn in E. destruct (proc_dec q p) as [->|N].
      - injection E as <- _. exists [], l'. auto.
      - destruct (IH' E) as (l1 & l2 & -> & Z1). exists ((q, z) :: l1), l2. split; [reflexivity|]. cbn. destruct (proc_dec q p); congruence. }
    destruct X as (l1 & l2 & -> & Z1).
    apply Permutation_cons_app. apply IH. intros q. specialize (E q). rewrite !at_app in *. cbn in E. destruct (proc_dec p q) as [->|N]; [|exact E].
    rewrite Z1 in *. cbn in *. congruence.
Qed.

Section Async.
Context (S : suite) (H : oracle) (G : gob).

Definition get (y : sys) (a : addr) : option server * option client := (mget (y_servers y) a, mget (y_clients y) a).
(** One process alone. *)
Definition loc_co (c : coord) (o : occ) : option (coord * list msg) :=
  match o with
  | OCoord m cr => co_handle S G c (mType m) (mParams m) (mSrc m) cr
  | OLoop e => if is_loop e then co_step S G c e else None
  | _ => None
  end.
Definition loc_at (ca a : addr) (x : option server * option client) (o : occ) : option ((option server * option client) * list msg) :=
  match o, x with
  | OServer priv rk, (None, None) => let s := init_server S a ca priv rk in Some ((Some s, None), [sv_register S s])
  | OClient priv s, (None, None) => let c := init_client S a ca priv s in Some ((None, Some c), [cl_register S c])
  | OGets m sr chal, (Some s, c) => olet (s', out) := sv_handle S H G s (mType m) (mParams m) (mSrc m) sr in Some ((Some s', c), out)
  | OGets m sr chal, (None, Some c) => olet (c', out) := cl_handle S G c (mType m) (mParams m) chal in Some ((None, Some c'), out)
  | OCommand cmd, (s, Some c) => olet out := cl_command S G c cmd in Some ((s, Some c), out)
  | _, _ => None
  end.
Definition taken (o : occ) : list msg := match o with OCoord m _ => [m] | OGets m _ _ => [m] | _ => [] end.

(** What an action does to the process it is at, and that it does nothing to the others. *)
Definition local_step (y : sys) (p : proc) (o : occ) (y' : sys) (out : list msg) : Prop :=
  co_addr (y_coord y') = co_addr (y_coord y) /\
  match p with
  | PCoord => loc_co (y_coord y) o = Some (y_coord y', out) /\ y_servers y' = y_servers y /\ y_clients y' = y_clients y
  | PAt a => loc_at (co_addr (y_coord y)) a (get y a) o = Some (get y' a, out) /\ y_coord y' = y_coord y /\
      forall b, b <> a -> get y' b = get y b
  end /\
  Permutation (y_msgs y ++ out) (taken o ++ y_msgs y').

Lemma take_nth {A} (l : list A) i m : nth_error l i = Some m -> Permutation l (m :: firstn i l ++ skipn (Datatypes.S i) l).
Proof.
  revert i. induction l as [|a l IH]; intros [|i] E; cbn in E; try discriminate.
  - injection E as ->. cbn. reflexivity.
  - cbn. rewrite (IH i E) at 1. apply perm_swap.
Qed.
Lemma get_set_s y a s c b l g : b <> a -> get (Sys c (mset (y_servers y) a s) (y_clients y) l g) b = get y b.
Proof. intros N. unfold get. cbn. now rewrite mget_mset_ne by congruence. Qed.
Lemma get_set_c y a k c b l g : b <> a -> get (Sys c (y_servers y) (mset (y_clients y) a k) l g) b = get y b.
Proof. intros N. unfold get. cbn. now rewrite mget_mset_ne by congruence. Qed.

Lemma step_local y a y' : sys_step S H G y a = Some y' -> exists p o out, occurs y a = Some (p, o) /\ local_step y p o y' out.
Proof.
  intros E. destruct a as [a priv rk|a priv s|i cr sr chal|e|a cmd]; cbn [sys_step occurs] in *.
  - destruct (keq a (co_addr (y_coord y))); [discriminate|]. destruct (mget (y_servers y) a) eqn:M1; [discriminate|].
    destruct (mget (y_clients y) a) eqn:M2; [discriminate|]. injection E as <-. do 3 eexists. split; [reflexivity|].
    split; [reflexivity|]. split.
    + unfold get at 1 2. cbn [y_servers y_clients y_coord]. rewrite M1, M2, mget_mset_eq. split; [reflexivity|]. split; [reflexivity|]. intros. now apply get_set_s.
    + reflexivity.
  - destruct (keq a (co_addr (y_coord y))); [discriminate|]. destruct (mget (y_servers y) a) eqn:M1; [discriminate|].
    destruct (mget (y_clients y) a) eqn:M2; [discriminate|]. injection E as <-. do 3 eexists. split; [reflexivity|].
    split; [reflexivity|]. split.
    + unfold get at 1 2. cbn [y_servers y_clients y_coord]. rewrite M1, M2, mget_mset_eq. split; [reflexivity|]. split; [reflexivity|]. intros. now apply get_set_c.
    + reflexivity.
  - destruct (nth_error (y_msgs y) i) as [m|] eqn:N; [|discriminate].
    assert (P : forall out, Permutation (y_msgs y ++ out) (m :: (firstn i (y_msgs y) ++ skipn (Datatypes.S i) (y_msgs y)) ++ out)).
    { intros out. change (m :: (firstn i (y_msgs y) ++ skipn (Datatypes.S i) (y_msgs y)) ++ out)
        with ((m :: firstn i (y_msgs y) ++ skipn (Datatypes.S i) (y_msgs y)) ++ out). apply Permutation_app_tail. now apply take_nth. }
    destruct (keq (mDst m) (co_addr (y_coord y))) as [D|D].
    + destruct (co_handle S G (y_coord y) (mType m) (mParams m) (mSrc m) cr) as [[c' out]|] eqn:X; [|discriminate]. injection E as <-.
      do 3 eexists. split; [reflexivity|]. split; [|split; [split; [exact X|split; reflexivity]|apply P]].
      unfold co_addr. cbn [y_coord]. now rewrite (step_static S H G (y_coord y) (EMsg (mType m) (mParams m) (mSrc m) cr) c' out X).
    + destruct (mget (y_servers y) (mDst m)) as [s|] eqn:M1.
      * destruct (sv_handle S H G s (mType m) (mParams m) (mSrc m) sr) as [[s' out]|] eqn:X; [|discriminate]. injection E as <-.
        do 3 eexists. split; [reflexivity|]. split; [reflexivity|]. split; [|apply P].
        unfold get at 1 2. cbn [y_servers y_clients y_coord loc_at]. rewrite M1, mget_mset_eq, X. split; [reflexivity|]. split; [reflexivity|].
        intros. now apply get_set_s.
      * destruct (mget (y_clients y) (mDst m)) as [c|] eqn:M2; [|discriminate].
        destruct (cl_handle S G c (mType m) (mParams m) chal) as [[c' out]|] eqn:X; [|discriminate]. injection E as <-.
        do 3 eexists. split; [reflexivity|]. split; [reflexivity|]. split; [|apply P].
        unfold get at 1 2. cbn [y_servers y_clients y_coord loc_at]. rewrite M1, M2, mget_mset_eq, X. split; [reflexivity|]. split; [reflexivity|].
        intros. now apply get_set_c.
  - destruct (is_loop e) eqn:L; [|discriminate]. destruct (co_step S G (y_coord y) e) as [[c' out]|] eqn:X; [|discriminate]. injection E as <-.
    do 3 eexists. split; [reflexivity|]. split; [|split; [cbn; rewrite L; split; [exact X|split; reflexivity]|reflexivity]].
    unfold co_addr. cbn [y_coord]. now rewrite (step_static S H G (y_coord y) e c' out X).
  - destruct (mget (y_clients y) a) as [c|] eqn:M2; [|discriminate]. destruct (cl_command S G c cmd) as [out|] eqn:X; [|discriminate]. injection E as <-.
    exists (PAt a), (OCommand cmd), out. split; [reflexivity|]. split; [reflexivity|]. split; [|reflexivity].
    unfold get at 1 2. cbn [y_servers y_clients y_coord loc_at]. rewrite M2. destruct (mget (y_servers y) a); rewrite X; (split; [reflexivity|]; split; [reflexivity|]; reflexivity).
Qed.

(** A process alone, over all that happens at it. *)
Fixpoint locs_co (c : coord) (l : list occ) : option (coord * list msg) :=
  match l with [] => Some (c, []) | o :: r => olet (c1, out) := loc_co c o in olet (c2, outs) := locs_co c1 r in Some (c2, out ++ outs) end.
Fixpoint locs_at (ca a : addr) (x : option server * option client) (l : list occ) : option ((option server * option client) * list msg) :=
  match l with [] => Some (x, []) | o :: r => olet (x1, out) := loc_at ca a x o in olet (x2, outs) := locs_at ca a x1 r in Some (x2, out ++ outs) end.

Lemma at_map {A B} p q (f : A -> B) (l : list A) : at_proc p (map (fun x => (q, f x)) l) = if proc_dec q p then map f l else [].
Proof. induction l as [|x l IH]; cbn; [now destruct (proc_dec q p)|]. rewrite IH. destruct (proc_dec q p); reflexivity. Qed.

Lemma run_local l : forall y y1, sys_run S H G y l = Some y1 -> exists sent : list (proc * msg),
  locs_co (y_coord y) (at_proc PCoord (happened S H G y l)) = Some (y_coord y1, at_proc PCoord sent) /\
  (forall a, locs_at (co_addr (y_coord y)) a (get y a) (at_proc (PAt a) (happened S H G y l)) = Some (get y1 a, at_proc (PAt a) sent)) /\
  Permutation (y_msgs y ++ map snd sent) (flat_map (fun e => taken (snd e)) (happened S H G y l) ++ y_msgs y1).
Proof.
  induction l as [|a l IH]; intros y y1 E.
  - cbn in E. injection E as <-. exists []. cbn. rewrite app_nil_r. auto.
  - cbn [sys_run] in E. destruct (sys_step S H G y a) as [y'|] eqn:E1; [|discriminate].
    destruct (step_local _ _ _ E1) as (p & o & out & OC & EA & L & P). destruct (IH _ _ E) as (sent & A & B & C).
    cbn [happened]. rewrite OC, E1. exists (map (fun m => (p, m)) out ++ sent). cbn [at_proc fst snd flat_map map].
    split; [|split].
    + rewrite at_app, at_map, map_id. destruct p as [|b].
      * destruct L as (L & _ & _). destruct (proc_dec PCoord PCoord) as [_|N]; [|congruence]. cbn [locs_co]. rewrite L, A. reflexivity.
      * destruct L as (_ & L & _). destruct (proc_dec (PAt b) PCoord) as [N|_]; [discriminate|]. cbn [app]. rewrite <- L. exact A.
    + intros b. rewrite at_app, at_map, map_id. specialize (B b). rewrite EA in B. destruct p as [|b'].
      * destruct L as (_ & L1 & L2). destruct (proc_dec PCoord (PAt b)) as [N|_]; [discriminate|]. cbn [app].
        replace (get y b) with (get y' b); [exact B|]. unfold get. now rewrite L1, L2.
      * destruct L as (L & _ & O). destruct (proc_dec (PAt b') (PAt b)) as [X|N].
        -- injection X as ->. cbn [locs_at]. rewrite L, B. reflexivity.
        -- cbn [app]. rewrite <- (O b) by congruence. exact B.
    + rewrite map_app, map_map. cbn [snd]. rewrite map_id. rewrite app_assoc. rewrite P. rewrite <- !app_assoc. apply Permutation_app_head. exact C.
Qed.

(** Two runs in which the same happens at every process in the same order lead to the same
    states of all processes and the same messages in flight, however the processes take
    turns. *)
Theorem C112_determined : forall y l l' y1 y2, sys_run S H G y l = Some y1 -> sys_run S H G y l' = Some y2 ->
  (forall p, at_proc p (happened S H G y l) = at_proc p (happened S H G y l')) -> same_system y1 y2.
Proof.
  intros y l l' y1 y2 E1 E2 T. destruct (run_local _ _ _ E1) as (s1 & A1 & B1 & C1), (run_local _ _ _ E2) as (s2 & A2 & B2 & C2).
  rewrite <- T in A2. rewrite A1 in A2. injection A2 as X1 Z1.
  assert (B : forall a, get y1 a = get y2 a /\ at_proc (PAt a) s1 = at_proc (PAt a) s2).
  { intros a. specialize (B1 a). specialize (B2 a). rewrite <- T in B2. rewrite B1 in B2. injection B2 as X Y Z. split; [|exact Z]. unfold get. congruence. }
  split; [exact X1|]. split; [intros a; destruct (B a) as [X _]; now injection X|]. split; [intros a; destruct (B a) as [X _]; now injection X|].
  assert (PS : Permutation s1 s2) by (apply at_perm; intros [|a]; [exact Z1|apply B]).
  pose proof (at_perm _ _ T) as PT. apply (Permutation_map snd) in PS. apply (Permutation_flat_map (fun e => taken (snd e))) in PT.
  apply (Permutation_app_inv_l (flat_map (fun e => taken (snd e)) (happened S H G y l'))).
  transitivity (y_msgs y ++ map snd s2); [|exact C2]. transitivity (y_msgs y ++ map snd s1); [|now apply Permutation_app_head].
  rewrite C1. now apply Permutation_app_tail.
Qed.

Lemma later y a y1 p oa b y2 q ob : sys_step S H G y a = Some y1 -> occurs y a = Some (p, oa) -> sys_step S H G y b = Some y2 -> occurs y b = Some (q, ob) ->
  p <> q -> exists b' z, sys_step S H G y1 b' = Some z /\ occurs y1 b' = Some (q, ob).
Proof.
  intros EA OA EB OB N. destruct (step_local _ _ _ EA) as (p' & oa' & out & OA' & CA & L & P).
  rewrite OA in OA'. injection OA' as <- <-.
  assert (QC : q = PCoord -> y_coord y1 = y_coord y) by (intros ->; destruct p; [congruence|apply L]).
  assert (QA : forall d, q = PAt d -> mget (y_servers y1) d = mget (y_servers y) d /\ mget (y_clients y1) d = mget (y_clients y) d).
  { intros d ->. destruct p as [|d'].
    - destruct L as (_ & -> & ->). auto.
    - destruct L as (_ & _ & L). specialize (L d ltac:(congruence)). now injection L. }
  destruct b as [d priv rk|d priv s|j cr sr chal|e|d cmd]; cbn [sys_step occurs] in EB, OB.
  - injection OB as <- <-. destruct (QA d eq_refl) as [Q1 Q2]. exists (ALaunch d priv rk). eexists. split; [|reflexivity].
    cbn [sys_step]. rewrite CA, Q1, Q2. destruct (keq d (co_addr (y_coord y))); [discriminate|]. destruct (mget (y_servers y) d), (mget (y_clients y) d); try discriminate. reflexivity.
  - injection OB as <- <-. destruct (QA d eq_refl) as [Q1 Q2]. exists (AJoin d priv s). eexists. split; [|reflexivity].
    cbn [sys_step]. rewrite CA, Q1, Q2. destruct (keq d (co_addr (y_coord y))); [discriminate|]. destruct (mget (y_servers y) d), (mget (y_clients y) d); try discriminate. reflexivity.
  - destruct (nth_error (y_msgs y) j) as [m|] eqn:NJ; [|discriminate].
    assert (IM : In m (y_msgs y1)).
    { assert (I1 : In m (taken oa ++ y_msgs y1)) by (apply (Permutation_in m P), in_app_iff; left; eapply nth_error_In; eassumption).
      apply in_app_iff in I1. destruct I1 as [I1|I1]; [exfalso|exact I1]. apply N. clear - OA OB I1.
      destruct a as [| |i cr' sr' chal'| |]; cbn [occurs] in OA; try (injection OA as <- <-; destruct I1).
      destruct (nth_error (y_msgs y) i) as [m'|]; [|discriminate].
      destruct (keq (mDst m') (co_addr (y_coord y))) as [D|D]; injection OA as <- <-; destruct I1 as [->|[]];
      destruct (keq (mDst m) (co_addr (y_coord y))); try contradiction; now injection OB. }
    apply In_nth_error in IM. destruct IM as [k K]. exists (ADeliver k cr sr chal). cbn [sys_step occurs]. rewrite K, CA.
    destruct (keq (mDst m) (co_addr (y_coord y))) as [D|D]; injection OB as <- <-.
    + rewrite (QC eq_refl). destruct (co_handle _ _ _ _ _ _ _) as [[? ?]|]; [|discriminate]. eauto.
    + destruct (QA _ eq_refl) as [-> ->]. destruct (mget (y_servers y) (mDst m)).
      * destruct (sv_handle _ _ _ _ _ _ _ _) as [[? ?]|]; [|discriminate]. eauto.
      * destruct (mget (y_clients y) (mDst m)); [|discriminate]. destruct (cl_handle _ _ _ _ _ _) as [[? ?]|]; [|discriminate]. eauto.
  - injection OB as <- <-. exists (ALoop e). cbn [sys_step occurs]. rewrite (QC eq_refl). destruct (is_loop e); [|discriminate].
    destruct (co_step _ _ _ _) as [[? ?]|]; [|discriminate]. eauto.
  - injection OB as <- <-. destruct (QA d eq_refl) as [Q1 Q2]. exists (ACommand d cmd). cbn [sys_step occurs]. rewrite Q2.
    destruct (mget (y_clients y) d); [|discriminate]. destruct (cl_command _ _ _ _); [|discriminate]. eauto.
Qed.

(** Two things that can happen next at different processes can happen one after the other in
    both orders, with the same result. *)
Theorem C112_swap : forall y a b y1 y2 p oa q ob, sys_step S H G y a = Some y1 -> sys_step S H G y b = Some y2 ->
  occurs y a = Some (p, oa) -> occurs y b = Some (q, ob) -> p <> q ->
  exists a' b' z1 z2, sys_run S H G y [a; b'] = Some z1 /\ happened S H G y [a; b'] = [(p, oa); (q, ob)] /\
    sys_run S H G y [b; a'] = Some z2 /\ happened S H G y [b; a'] = [(q, ob); (p, oa)] /\ same_system z1 z2.
Proof.
  intros y a b y1 y2 p oa q ob EA EB OA OB N.
  destruct (later _ _ _ _ _ _ _ _ _ EA OA EB OB N) as (b' & z1 & SB & HB).
  destruct (later _ _ _ _ _ _ _ _ _ EB OB EA OA ltac:(congruence)) as (a' & z2 & SA & HA).
  assert (R1 : sys_run S H G y [a; b'] = Some z1) by (cbn [sys_run]; rewrite EA; cbn [sys_run]; now rewrite SB).
  assert (R2 : sys_run S H G y [b; a'] = Some z2) by (cbn [sys_run]; rewrite EB; cbn [sys_run]; now rewrite SA).
  assert (T1 : happened S H G y [a; b'] = [(p, oa); (q, ob)]) by (cbn [happened]; now rewrite OA, EA, HB, SB).
  assert (T2 : happened S H G y [b; a'] = [(q, ob); (p, oa)]) by (cbn [happened]; now rewrite OB, EB, HA, SA).
  exists a', b', z1, z2. repeat (split; [assumption|]). apply (C112_determined y [a; b'] [b; a'] z1 z2 R1 R2).
  intros r. rewrite T1, T2. cbn [at_proc]. destruct (proc_dec p r), (proc_dec q r); congruence.
Qed.

(** What stops a process, stops it also after something has happened at another one. *)
Theorem C112_stops : forall y a y1 p oa b b' q ob, sys_step S H G y a = Some y1 -> occurs y a = Some (p, oa) -> p <> q ->
  occurs y b = Some (q, ob) -> occurs y1 b' = Some (q, ob) -> (sys_step S H G y b = None <-> sys_step S H G y1 b' = None).
Proof.
  intros y a y1 p oa b b' q ob EA OA N OB OB'. destruct (step_local _ _ _ EA) as (p' & oa' & out & OA' & CA & L & P).
  rewrite OA in OA'. injection OA' as <- <-.
  assert (QC : q = PCoord -> y_coord y1 = y_coord y) by (intros ->; destruct p; [congruence|apply L]).
  assert (QA : forall d, q = PAt d -> mget (y_servers y1) d = mget (y_servers y) d /\ mget (y_clients y1) d = mget (y_clients y) d).
  { intros d ->. destruct p as [|d'].
    - destruct L as (_ & -> & ->). auto.
    - destruct L as (_ & _ & L). specialize (L d ltac:(congruence)). now injection L. }
  destruct ob as [m cr|m sr chal|e|cmd|priv rk|priv s0].
  - assert (X : forall y b, occurs y b = Some (q, OCoord m cr) -> q = PCoord /\
      (sys_step S H G y b = None <-> co_handle S G (y_coord y) (mType m) (mParams m) (mSrc m) cr = None)).
    { clear. intros y b O. destruct b as [| |i cr' sr' chal'| |]; cbn [occurs sys_step] in *; try discriminate.
      destruct (nth_error (y_msgs y) i) as [m'|]; [|discriminate]. destruct (keq (mDst m') (co_addr (y_coord y))); [|discriminate].
      injection O as <- -> ->. split; [reflexivity|]. destruct (co_handle _ _ _ _ _ _ _) as [[? ?]|]; intuition discriminate. }
    destruct (X _ _ OB) as [-> ->]. destruct (X _ _ OB') as [_ ->]. now rewrite (QC eq_refl).
  - assert (X : forall y b, occurs y b = Some (q, OGets m sr chal) -> q = PAt (mDst m) /\
      (sys_step S H G y b = None <-> match mget (y_servers y) (mDst m), mget (y_clients y) (mDst m) with
        | Some s, _ => sv_handle S H G s (mType m) (mParams m) (mSrc m) sr = None
        | None, Some c => cl_handle S G c (mType m) (mParams m) chal = None
        | None, None => True end)).
    { clear. intros y b O. destruct b as [| |i cr' sr' chal'| |]; cbn [occurs sys_step] in *; try discriminate.
      destruct (nth_error (y_msgs y) i) as [m'|]; [|discriminate]. destruct (keq (mDst m') (co_addr (y_coord y))); [discriminate|].
      injection O as <- -> -> ->. split; [reflexivity|]. destruct (mget (y_servers y) (mDst m)).
      - destruct (sv_handle _ _ _ _ _ _ _ _) as [[? ?]|]; intuition discriminate.
      - destruct (mget (y_clients y) (mDst m)); [|tauto]. destruct (cl_handle _ _ _ _ _ _) as [[? ?]|]; intuition discriminate. }
    destruct (X _ _ OB) as [Q ->]. destruct (X _ _ OB') as [_ ->]. destruct (QA _ Q) as [-> ->]. reflexivity.
  - assert (X : forall y b, occurs y b = Some (q, OLoop e) -> q = PCoord /\ b = ALoop e).
    { clear. intros y b O. destruct b as [| |i cr' sr' chal'| |]; cbn [occurs] in O; try discriminate; [|injection O as <- ->; auto].
      destruct (nth_error (y_msgs y) i) as [m'|]; [|discriminate]. destruct (keq (mDst m') (co_addr (y_coord y))); discriminate. }
    destruct (X _ _ OB) as [-> ->]. destruct (X _ _ OB') as [_ ->]. cbn [sys_step]. rewrite (QC eq_refl). destruct (is_loop e); [|tauto].
    destruct (co_step _ _ _ _) as [[? ?]|]; intuition discriminate.
  - assert (X : forall y b, occurs y b = Some (q, OCommand cmd) -> exists d, q = PAt d /\ b = ACommand d cmd).
    { clear. intros y b O. destruct b as [| |i cr' sr' chal'| |]; cbn [occurs] in O; try discriminate; [|injection O as <- ->; eauto].
      destruct (nth_error (y_msgs y) i) as [m'|]; [|discriminate]. destruct (keq (mDst m') (co_addr (y_coord y))); discriminate. }
    destruct (X _ _ OB) as (d & -> & ->). destruct (X _ _ OB') as (d' & Q & ->). injection Q as <-. cbn [sys_step]. destruct (QA _ eq_refl) as [_ ->].
    destruct (mget (y_clients y) d); [|tauto]. destruct (cl_command _ _ _ _); intuition discriminate.
  - assert (X : forall y b, occurs y b = Some (q, OServer priv rk) -> exists d, q = PAt d /\ b = ALaunch d priv rk).
    { clear. intros y b O. destruct b as [| |i cr' sr' chal'| |]; cbn [occurs] in O; try discriminate; [injection O as <- -> ->; eauto|].
      destruct (nth_error (y_msgs y) i) as [m'|]; [|discriminate]. destruct (keq (mDst m') (co_addr (y_coord y))); discriminate. }
    destruct (X _ _ OB) as (d & -> & ->). destruct (X _ _ OB') as (d' & Q & ->). injection Q as <-. cbn [sys_step]. destruct (QA _ eq_refl) as [-> ->]. rewrite CA.
    destruct (keq d (co_addr (y_coord y))); [tauto|]. destruct (mget (y_servers y) d), (mget (y_clients y) d); intuition discriminate.
  - assert (X : forall y b, occurs y b = Some (q, OClient priv s0) -> exists d, q = PAt d /\ b = AJoin d priv s0).
    { clear. intros y b O. destruct b as [| |i cr' sr' chal'| |]; cbn [occurs] in O; try discriminate; [injection O as <- -> ->; eauto|].
      destruct (nth_error (y_msgs y) i) as [m'|]; [|discriminate]. destruct (keq (mDst m') (co_addr (y_coord y))); discriminate. }
    destruct (X _ _ OB) as (d & -> & ->). destruct (X _ _ OB') as (d' & Q & ->). injection Q as <-. cbn [sys_step]. destruct (QA _ eq_refl) as [-> ->]. rewrite CA.
    destruct (keq d (co_addr (y_coord y))); [tauto|]. destruct (mget (y_servers y) d), (mget (y_clients y) d); intuition discriminate.
Qed.
End Async.
Print Assumptions C112_determined.
Print Assumptions C112_swap.
Print Assumptions C112_stops.

(** ** Instances *)
From Verif Require Import Prop_Codec Prop_Shuffle Prop_Round.
(** After the configuration both servers are sent the new base; a client joins meanwhile.
    All orders in which the three processes take their turns come to the same. *)
Definition asA : list (sys -> action) := [tdl 0; tdl 0; do (AJoin [x64]%byte 4 8)].
Definition asB : list (sys -> action) := [do (AJoin [x64]%byte 4 8); tdl 1; tdl 0].
Fixpoint as_actions (y : sys) (l : list (sys -> action)) : list action :=
  match l with
  | [] => []
  | f :: r => match sys_step toy_suite toy_oracle toy_gob y (f y) with Some y' => f y :: as_actions y' r | None => [] end
  end.
Example C112_instance : exists y1 y2,
  sys_run toy_suite toy_oracle toy_gob toy_s (as_actions toy_s asA) = Some y1 /\ length (as_actions toy_s asA) = 3%nat /\
  sys_run toy_suite toy_oracle toy_gob toy_s (as_actions toy_s asB) = Some y2 /\ length (as_actions toy_s asB) = 3%nat /\
  map fst (happened toy_suite toy_oracle toy_gob toy_s (as_actions toy_s asA)) = [PAt [x41]; PAt [x42]; PAt [x64]]%byte /\
  map fst (happened toy_suite toy_oracle toy_gob toy_s (as_actions toy_s asB)) = [PAt [x64]; PAt [x42]; PAt [x41]]%byte /\
  same_system y1 y2.
Proof.
  destruct (sys_run toy_suite toy_oracle toy_gob toy_s (as_actions toy_s asA)) as [y1|] eqn:E1; [|vm_compute in E1; discriminate].
  destruct (sys_run toy_suite toy_oracle toy_gob toy_s (as_actions toy_s asB)) as [y2|] eqn:E2; [|vm_compute in E2; discriminate].
  exists y1, y2. split; [reflexivity|]. split; [vm_compute; reflexivity|]. split; [reflexivity|]. split; [vm_compute; reflexivity|].
  split; [vm_compute; reflexivity|]. split; [vm_compute; reflexivity|].
  apply (C112_determined toy_suite toy_oracle toy_gob toy_s _ _ y1 y2 E1 E2).
  assert (T : exists a b c, happened toy_suite toy_oracle toy_gob toy_s (as_actions toy_s asA) = [(PAt [x41], a); (PAt [x42], b); (PAt [x64], c)]%byte /\
    happened toy_suite toy_oracle toy_gob toy_s (as_actions toy_s asB) = [(PAt [x64], c); (PAt [x42], b); (PAt [x41], a)]%byte).
  { do 3 eexists. split; vm_compute; reflexivity. }
  destruct T as (a & b & c & -> & ->). intros p. cbn [at_proc].
  destruct (proc_dec (PAt [x41]%byte) p) as [<-|]; [reflexivity|]. destruct (proc_dec (PAt [x42]%byte) p) as [<-|]; [reflexivity|].
  destruct (proc_dec (PAt [x64]%byte) p) as [<-|]; [reflexivity|]. reflexivity.
Qed.
