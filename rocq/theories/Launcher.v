(** The two goroutines of the coordinator: the main loop (CoordinatorLauncher.go:230-290) and
    the listener it starts (CoordinatorLauncher.go:25-40, 240), which handles one message after
    the other.  Nothing orders the two, so messages can be handled in the middle of a step of
    the main loop.

    Here a step of the main loop is cut into its reads, writes and sends; the handling of one
    message remains one step.  A map is read as a whole when a loop over it starts, except
    that the loop of roundEnd reads the three maps once for every key.  Go promises neither
    that a field is read and written as a whole nor that writes become visible in program
    order, and stops the process when it notices that one map is used by two goroutines at
    once, so the schedules here are among those of the program. *)
From Coq Require Import ZArith Lia List Bool Permutation.
From Coq Require Import Strings.Byte.
From Coq Require String.
From Verif Require Import ZMod Bytes Suite Pedersen ElGamal FujiOkam Equality Codec Maps Net Bridge Client
  Perm SimpleShuffle PairShuffle Server Coordinator History.
Import ListNotations.
Import String.StringSyntax.
Open Scope Z_scope.
Delimit Scope string_scope with str.

(** ** The steps of the main loop, cut up *)

(** The local variables of the main goroutine: the server to send to, the parameters of the
    event to broadcast, the rows (key, value) of the table read so far. *)
Record locals := Loc { lo_srv : option addr; lo_par : params; lo_rows : list (option Z * option Z) }.
Definition no_locals : locals := Loc None [] [].

(** One action of either goroutine: None = the process stops. *)
Definition place := (coord * locals)%type.
Definition action := place -> option (place * list msg).

(** A write. *)
Definition op_write (w : coord -> coord) : action := fun s => Some ((w (fst s), snd s), []).

(** CoordinatorLauncher.go:84-89: the h to broadcast. *)
Definition op_read_h (S : suite) : action := fun '(c, l) =>
  Some ((c, Loc (lo_srv l) [("h"%str, VBytes (enc_point S (pb_HT (co_pb c))))] (lo_rows l)), []).
(** CoordinatorLauncher.go:92-94 *)
Definition op_to_servers (ty : Z) : action := fun '(c, l) => Some ((c, l), to_servers c ty (lo_par l)).
(** CoordinatorLauncher.go:191-193 and 207-209 *)
Definition op_to_clients (ty : Z) : action := fun '(c, l) => Some ((c, l), to_clients c ty (lo_par l)).

(** CoordinatorLauncher.go:255-257 (the code waits) and 267-270 (the code stops). *)
Definition op_ready : action := fun '(c, l) =>
  if co_status c =? CO_READY_FOR_NEW_ROUND then Some ((c, l), []) else None.
(** CoordinatorLauncher.go:260-263 *)
Definition op_fakes (S : suite) (fakes : list (Z * Z)) : action :=
  op_write (fun c => if co_first c then set_first (add_fakes S c fakes) false else c).
(** CoordinatorLauncher.go:113-117 *)
Definition op_first_server : action := fun '(c, l) =>
  match first_server c with
  | None => Some ((set_status c CO_MESSAGE, l), [])
  | Some a => Some ((c, Loc (Some a) (lo_par l) (lo_rows l)), [])
  end.
(** CoordinatorLauncher.go:118-137: no handler except those of ROUND_END, ANNOUNCEMENT and
    UPDATE_PEDERSEN_H writes what is read here; it is left as one action. *)
Definition op_announce (S : suite) (ord : list Z) : action := fun '(c, l) =>
  match lo_srv l with
  | None => Some ((c, l), [])
  | Some a =>
      olet keys := non_nil (map (fun k => mget (co_bkeys c) k) ord) in
      olet vals := non_nil (map (fun k => mget (co_bcomms c) k) ord) in
      Some ((c, l), [Msg a ANNOUNCEMENT (table_params S keys vals (pb_GT (co_pb c)) (pb_HT (co_pb c))) (co_addr c)])
  end.

(** CoordinatorLauncher.go:145-149 *)
Definition op_last_server : action := fun '(c, l) =>
  match last_server c with
  | None => Some ((set_status c CO_READY_FOR_NEW_ROUND, l), [])
  | Some a => Some ((c, Loc (Some a) (lo_par l) (lo_rows l)), [])
  end.
(** The rest of roundEnd is left out when it has returned at line 148. *)
Definition if_server (f : addr -> action) : action := fun s =>
  match lo_srv (snd s) with None => Some (s, []) | Some a => f a s end.
(** CoordinatorLauncher.go:151-153 *)
Definition op_new_clients : action :=
  if_server (fun _ => op_write (fun c => fold_left (fun c kv => add_ending c (fst kv) (snd kv)) (co_buffer c) c)).
(** CoordinatorLauncher.go:161-170: one turn of the loop. *)
Definition op_row (S : suite) (k r : Z) : action :=
  if_server (fun _ '(c, l) =>
    let comm := fst (ped_commit S (co_pb c) (sec_of_int S (rep_diff c k)) r) in
    Some ((c, Loc (lo_srv l) (lo_par l)
      (lo_rows l ++ [(mget (co_ekeys c) k, option_map (fun v => ped_add S v comm) (mget (co_ecomms c) k))])), [])).
(** CoordinatorLauncher.go:171-189 *)
Definition op_table (S : suite) (rs : list Z) : action :=
  if_server (fun a '(c, l) =>
    olet keys := non_nil (map fst (lo_rows l)) in
    olet vals := non_nil (map snd (lo_rows l)) in
    Some ((c, Loc (lo_srv l)
        [("keys"%str, VBytes (enc_points S keys));
         ("rDiffs"%str, VBytes (enc_secrets S (tab (length (lo_rows l)) (at_ rs))))] (lo_rows l)),
      [Msg a Net.ROUND_END
        (table_params S keys vals (pb_GT (co_pb c)) (pb_HT (co_pb c)) ++ [("is_start"%str, VBool true)]) (co_addr c)])).

(** The actions of each step of the main loop, in program order. *)
Definition actions (S : suite) (e : event) : list action :=
  match e with
  | EMsg _ _ _ _ => []
  | EConfigure => [op_read_h S; op_to_servers BCAST_PEDERSEN_H; op_write (fun c => set_status c CO_READY_FOR_NEW_ROUND)]
  | EBegin fakes ord =>
      [op_ready; op_fakes S fakes; op_write (fun c => set_buffer c []); op_write (fun c => set_msglog c []);
       op_write (fun c => set_reqs c (Some [])); op_ready; op_write (fun c => set_status c CO_ANNOUNCE);
       op_first_server; op_announce S ord]
  | EVotePhase => [op_write clear_votes; op_to_clients Net.VOTE]
  | EEnd ord rs =>
      [op_last_server; op_new_clients] ++
      tab (length ord) (fun i => op_row S (at_ ord i) (at_ rs i)) ++
      [op_table S rs; if_server (fun _ => op_to_clients BCAST_PEDERSEN_RDIFF); if_server (fun _ => op_write clear_bridges)]
  end.

(** ** Schedules *)

(** A message as the listener gets it, with the draws of its handler. *)
Record heard := Heard { he_ty : Z; he_par : params; he_src : addr; he_rn : co_rand }.
Definition hear_event (n : heard) : event := EMsg (he_ty n) (he_par n) (he_src n) (he_rn n).
Definition hear (S : suite) (G : gob) (n : heard) : action := fun '(c, l) =>
  olet r := co_handle S G c (he_ty n) (he_par n) (he_src n) (he_rn n) in
  Some ((fst r, l), snd r).

Fixpoint perform (l : list action) (s : place) : option (place * list msg) :=
  match l with
  | [] => Some (s, [])
  | a :: rest => olet r := a s in olet r' := perform rest (fst r) in Some (fst r', snd r ++ snd r')
  end.

(** A schedule: None = the main goroutine takes its next action, Some n = the listener handles
    the message n.  When the main goroutine has none left, its turns are empty. *)
Definition schedule := list (option heard).
Fixpoint weave (S : suite) (G : gob) (ops : list action) (s : schedule) : list action :=
  match s with
  | [] => ops
  | Some n :: s' => hear S G n :: weave S G ops s'
  | None :: s' => match ops with [] => weave S G [] s' | a :: ops' => a :: weave S G ops' s' end
  end.
Fixpoint heard_in (s : schedule) : list heard :=
  match s with [] => [] | Some n :: s' => n :: heard_in s' | None :: s' => heard_in s' end.

(** A step of the main loop while the listener handles messages. *)
Definition during (S : suite) (G : gob) (c : coord) (e : event) (s : schedule) : option (coord * list msg) :=
  olet r := perform (weave S G (actions S e) s) (c, no_locals) in Some (fst (fst r), snd r).

(** Whole events, one after the other. *)
Fixpoint events (S : suite) (G : gob) (c : coord) (l : list event) : option (coord * list msg) :=
  match l with
  | [] => Some (c, [])
  | e :: rest => olet r := co_step S G c e in olet r' := events S G (fst r) rest in Some (fst r', snd r ++ snd r')
  end.

(** ** Without messages the actions are the step *)

Lemma perform_app a b s : perform (a ++ b) s =
  olet r := perform a s in olet r' := perform b (fst r) in Some (fst r', snd r ++ snd r').
Proof.
  revert s. induction a as [|x a IH]; intros s; cbn [app perform].
  - cbn. destruct (perform b s) as [[s' o]|]; reflexivity.
  - destruct (x s) as [[s1 o1]|]; [|reflexivity]. cbn [fst snd]. rewrite IH.
    destruct (perform a s1) as [[s2 o2]|]; [|reflexivity]. cbn [fst snd].
    destruct (perform b s2) as [[s3 o3]|]; [|reflexivity]. cbn [fst snd]. now rewrite app_assoc.
Qed.

Lemma tab_S {A} n (f : nat -> A) : tab (Datatypes.S n) f = f 0%nat :: tab n (fun i => f (Datatypes.S i)).
Proof. unfold tab. cbn [seq map]. f_equal. rewrite <- seq_shift, map_map. reflexivity. Qed.

Lemma tab_ext {A} n (f g : nat -> A) : (forall i, (i < n)%nat -> f i = g i) -> tab n f = tab n g.
Proof. intros E. unfold tab. apply map_ext_in. intros i Hi. apply in_seq in Hi. apply E. lia. Qed.

Lemma non_nil_tab n (g : nat -> Z -> Z) (h : nat -> option Z) :
  non_nil (tab n (fun i => option_map (g i) (h i))) =
  option_map (fun vs => tab n (fun i => g i (at_ vs i))) (non_nil (tab n h)).
Proof.
  unfold non_nil. revert g h. induction n as [|n IH]; intros g h; [reflexivity|].
  rewrite !tab_S. cbn [dec_all]. destruct (h 0%nat) as [v|]; [|reflexivity]. cbn [option_map].
  rewrite (IH (fun i => g (Datatypes.S i)) (fun i => h (Datatypes.S i))).
  destruct (dec_all _ (tab n (fun i => h (Datatypes.S i)))) as [r|]; [|reflexivity].
  cbn [option_map]. rewrite tab_S. reflexivity.
Qed.

Lemma map_tab {A B} n (f : nat -> A) (g : A -> B) : map g (tab n f) = tab n (fun i => g (f i)).
Proof. unfold tab. apply map_map. Qed.

Definition row_of (S : suite) (c : coord) (k r : Z) : option Z * option Z :=
  (mget (co_ekeys c) k,
   option_map (fun v => ped_add S v (fst (ped_commit S (co_pb c) (sec_of_int S (rep_diff c k)) r))) (mget (co_ecomms c) k)).

Lemma perform_rows S (ks rs : nat -> Z) n c a p rows :
  perform (tab n (fun i => op_row S (ks i) (rs i))) (c, Loc (Some a) p rows) =
  Some ((c, Loc (Some a) p (rows ++ tab n (fun i => row_of S c (ks i) (rs i)))), []).
Proof.
  revert ks rs rows. induction n as [|n IH]; intros ks rs rows.
  - cbn. now rewrite app_nil_r.
  - rewrite !tab_S. cbn [perform]. unfold op_row at 1, if_server. cbn [snd lo_srv lo_par lo_rows fst].
    rewrite (IH (fun i => ks (Datatypes.S i)) (fun i => rs (Datatypes.S i))). cbn [fst snd app].
    rewrite <- app_assoc. reflexivity.
Qed.
Lemma perform_rows_none S (ks rs : nat -> Z) n c p rows :
  perform (tab n (fun i => op_row S (ks i) (rs i))) (c, Loc None p rows) = Some ((c, Loc None p rows), []).
Proof.
  revert ks rs. induction n as [|n IH]; intros ks rs; [reflexivity|].
  rewrite !tab_S. cbn [perform]. unfold op_row at 1, if_server. cbn [snd lo_srv fst].
  rewrite (IH (fun i => ks (Datatypes.S i)) (fun i => rs (Datatypes.S i))). reflexivity.
Qed.

Lemma add_endings_static l : forall c, let c1 := fold_left (fun c kv => add_ending c (fst kv) (snd kv)) l c in
  co_static c1 = co_static c /\ co_clients c1 = co_clients c /\ co_servers c1 = co_servers c.
Proof.
  induction l as [|x l IH]; intros c; cbn; [auto|]. destruct (IH (add_ending c (fst x) (snd x))) as (A & B & D).
  rewrite A, B, D. auto.
Qed.

(** A step of the main loop is its actions, one after the other. *)
Lemma alone S G c e : match e with EMsg _ _ _ _ => False | _ => True end ->
  (olet r := perform (actions S e) (c, no_locals) in Some (fst (fst r), snd r)) = co_step S G c e.
Proof.
  destruct e as [ty p src rn| |fakes ord| |ord rs]; intros T; [contradiction| | | |]; clear T.
  - cbn. now rewrite app_nil_r.
  - cbn [actions perform co_step]. unfold begin_round, op_ready at 1.
    destruct (co_status c =? CO_READY_FOR_NEW_ROUND) eqn:E; [|reflexivity]. cbn [negb fst snd app].
    unfold op_fakes, op_write. cbn [fst snd app].
    set (c1 := if co_first c then set_first (add_fakes S c fakes) false else c).
    assert (E1 : co_status c1 = co_status c).
    { unfold c1. destruct (co_first c); [|reflexivity]. unfold add_fakes. cbn [set_first co_status].
      clear E c1. revert c. induction fakes as [|x l IH]; intros c; [reflexivity|]. cbn [fold_left]. now rewrite IH. }
    clearbody c1. unfold op_ready. cbn [co_status set_reqs set_msglog set_buffer]. rewrite E1, E. cbn [fst snd app].
    unfold op_first_server, announce, first_server. cbn [co_servers set_status clear_buffer set_reqs set_msglog set_buffer].
    destruct (option_map fst (nth_error (co_servers c1) 0)) as [a|]; cbn [fst snd app].
    + unfold op_announce. cbn [lo_srv].
      change (co_bkeys (set_status (clear_buffer c1) CO_ANNOUNCE)) with (co_bkeys c1).
      cbn [co_bkeys co_bcomms set_status clear_buffer set_reqs set_msglog set_buffer co_pb].
      destruct (non_nil _); [|reflexivity]. destruct (non_nil _); reflexivity.
    + reflexivity.
  - cbn. now rewrite app_nil_r.
  - cbn [actions co_step]. unfold round_end, no_locals. rewrite !perform_app. cbn [perform]. unfold op_last_server at 1.
    destruct (last_server c) as [a|] eqn:L.
    2:{ cbn [fst snd]. unfold op_new_clients, if_server. cbn [snd fst lo_srv app].
        rewrite perform_app, (perform_rows_none S (at_ ord) (at_ rs)). cbn [fst snd app perform]. unfold op_table, if_server. reflexivity. }
    cbn [fst snd]. unfold op_new_clients, if_server. cbn [snd fst lo_srv app lo_par lo_rows]. unfold op_write at 1.
    cbn [fst snd app].
    pose proof (add_endings_static (co_buffer c) c) as (St & Cl & Sv). cbv zeta in St, Cl, Sv.
    set (c1 := fold_left _ (co_buffer c) c) in *. clearbody c1.
    rewrite perform_app, (perform_rows S (at_ ord) (at_ rs)). cbn [fst snd app perform]. unfold op_table, if_server. cbn [snd fst lo_srv lo_rows].
    rewrite !map_tab. cbn [row_of fst snd].
    rewrite (non_nil_tab (length ord) (fun i v => ped_add S v
      (fst (ped_commit S (co_pb c1) (sec_of_int S (rep_diff c1 (at_ ord i))) (at_ rs i))))
      (fun i => mget (co_ecomms c1) (at_ ord i))).
    replace (tab (length ord) (fun i => mget (co_ekeys c1) (at_ ord i))) with (map (fun k => mget (co_ekeys c1) k) ord)
      by (rewrite <- (map_tab (length ord) (at_ ord)); now rewrite tab_at).
    replace (tab (length ord) (fun i => mget (co_ecomms c1) (at_ ord i))) with (map (fun k => mget (co_ecomms c1) k) ord)
      by (rewrite <- (map_tab (length ord) (at_ ord)); now rewrite tab_at).
    destruct (non_nil (map (fun k => mget (co_ekeys c1) k) ord)) as [keys|]; [|reflexivity].
    destruct (non_nil (map (fun k => mget (co_ecomms c1) k) ord)) as [vs|]; [|reflexivity].
    cbn [option_map fst snd app lo_srv lo_par op_to_clients op_write]. rewrite tab_length, app_nil_r.
    unfold co_addr. rewrite St. reflexivity.
Qed.

(** ** Reordering *)

(** The same state, up to the order in which ReputationDiffMap (a Go map, without order) holds
    its entries. *)
Definition same (c d : coord) : Prop :=
  d = set_diffs c (co_diffs d) /\ forall k, mget (co_diffs c) k = mget (co_diffs d) k.
Definition same_place (s t : place) : Prop := same (fst s) (fst t) /\ snd s = snd t.

Lemma same_refl c : same c c.
Proof. split; [now destruct c|reflexivity]. Qed.
Lemma same_trans a b c : same a b -> same b c -> same a c.
Proof.
  intros [A1 A2] [B1 B2]. split; [|intros k; now rewrite A2].
  rewrite B1, A1. reflexivity.
Qed.
Lemma same_sym a b : same a b -> same b a.
Proof. intros [A1 A2]. split; [rewrite A1; now destruct a|intros k; now rewrite A2]. Qed.

Definition rel {X} (R : X -> X -> Prop) (r r' : option (X * list msg)) : Prop :=
  match r, r' with
  | None, None => True
  | Some (s, o), Some (s', o') => R s s' /\ Permutation o o'
  | _, _ => False
  end.

Lemma sp_refl s : same_place s s.
Proof. split; [apply same_refl|reflexivity]. Qed.
Lemma sp_trans a b c : same_place a b -> same_place b c -> same_place a c.
Proof. intros [A1 A2] [B1 B2]. split; [eapply same_trans; eassumption|congruence]. Qed.
Lemma rel_refl r : rel same_place r r.
Proof. destruct r as [[s o]|]; cbn; [split; [apply sp_refl|reflexivity]|exact I]. Qed.
Lemma rel_trans a b c : rel same_place a b -> rel same_place b c -> rel same_place a c.
Proof.
  destruct a as [[s o]|], b as [[s' o']|], c as [[s'' o'']|]; cbn; try tauto.
  intros [A1 A2] [B1 B2]. split; [eapply sp_trans; eassumption|now rewrite A2].
Qed.

Definition respects (a : action) : Prop := forall s t, same_place s t -> rel same_place (a s) (a t).
Definition swap_at (x y : action) (s : place) : Prop := rel same_place (perform [x; y] s) (perform [y; x] s).

Lemma perform_respects l : Forall respects l -> respects (perform l).
Proof.
  induction l as [|a l IH]; intros F s t E; [cbn; split; [exact E|reflexivity]|].
  inversion F as [|? ? Ra Rl]; subst. cbn [perform]. specialize (Ra _ _ E).
  destruct (a s) as [[s1 o1]|], (a t) as [[t1 p1]|]; cbn in Ra; try contradiction; [|exact I].
  destruct Ra as [R1 P1]. specialize (IH Rl _ _ R1). cbn [fst snd].
  destruct (perform l s1) as [[s2 o2]|], (perform l t1) as [[t2 p2]|]; cbn in IH |- *; try contradiction; [|exact I].
  destruct IH as [R2 P2]. split; [exact R2|]. now apply Permutation_app.
Qed.

Section Sort.
Variable inv : place -> Prop.
Definition keeps (a : action) : Prop := forall s s' o, inv s -> a s = Some (s', o) -> inv s'.
Definition swaps (x y : action) : Prop := forall s, inv s -> swap_at x y s.

Lemma cons_rel a r r' s : respects a -> keeps a -> inv s ->
  (forall s', inv s' -> rel same_place (perform r s') (perform r' s')) ->
  rel same_place (perform (a :: r) s) (perform (a :: r') s).
Proof.
  intros Ra Ka J H. cbn [perform]. destruct (a s) as [[s1 o1]|] eqn:E; [|exact I].
  specialize (H s1 (Ka _ _ _ J E)). cbn [fst snd].
  destruct (perform r s1) as [[s2 o2]|], (perform r' s1) as [[t2 p2]|]; cbn in H |- *; try contradiction; [|exact I].
  destruct H as [R P]. split; [exact R|]. now apply Permutation_app.
Qed.

(** An action moved behind actions it swaps with. *)
Lemma move_right x u w : respects x -> keeps x -> Forall respects u -> Forall keeps u -> Forall respects w ->
  (forall y, In y u -> swaps x y) ->
  forall s, inv s -> rel same_place (perform (x :: u ++ w) s) (perform (u ++ x :: w) s).
Proof.
  intros Rx Kx Ru Ku Rw. revert Ru Ku. induction u as [|y u IH]; intros Ru Ku Sw s J; [apply rel_refl|].
  inversion Ru as [|? ? Ry Ru']; subst. inversion Ku as [|? ? Ky Ku']; subst.
  apply rel_trans with (perform (y :: x :: u ++ w) s).
  - change (x :: (y :: u) ++ w) with ([x; y] ++ (u ++ w)). change (y :: x :: u ++ w) with ([y; x] ++ (u ++ w)).
    rewrite !perform_app. pose proof (Sw y (or_introl eq_refl) s J) as E. unfold swap_at in E.
    destruct (perform [x; y] s) as [[s1 o1]|], (perform [y; x] s) as [[t1 p1]|]; cbn in E; try contradiction; [|exact I].
    destruct E as [E P]. cbn [fst snd].
    assert (Ruw : Forall respects (u ++ w)) by (apply Forall_app; split; assumption).
    pose proof (perform_respects _ Ruw _ _ E) as E2.
    destruct (perform (u ++ w) s1) as [[s2 o2]|], (perform (u ++ w) t1) as [[t2 p2]|]; cbn in E2 |- *; try contradiction; [|exact I].
    destruct E2 as [E2 P2]. split; [exact E2|]. now apply Permutation_app.
  - apply cons_rel; [assumption|assumption|assumption|]. intros s' J'.
    apply IH; [assumption|assumption| |assumption]. intros z Hz. apply Sw. now right.
Qed.

(** Actions of three classes: those of class 0 brought to the front, those of class 2 to the
    back.  Only pairs that change places must swap. *)
Definition of_class (k : nat) (t : list (nat * action)) : list action :=
  map snd (filter (fun x => Nat.eqb (fst x) k) t).
Fixpoint inversions_swap (t : list (nat * action)) : Prop :=
  match t with
  | [] => True
  | x :: t' => (forall y, In y t' -> (fst y < fst x)%nat -> swaps (snd x) (snd y)) /\ inversions_swap t'
  end.

Lemma in_class k t a : In a (of_class k t) -> In (k, a) t.
Proof.
  intros H. apply in_map_iff in H as ((k', a') & <- & H). apply filter_In in H as [H E].
  apply Nat.eqb_eq in E. cbn in E. now subst.
Qed.

Lemma sort_run t : (forall x, In x t -> (fst x <= 2)%nat) ->
  (forall x, In x t -> respects (snd x) /\ keeps (snd x)) -> inversions_swap t ->
  forall s, inv s -> rel same_place (perform (map snd t) s)
    (perform (of_class 0 t ++ of_class 1 t ++ of_class 2 t) s).
Proof.
  induction t as [|[k a] t IH]; intros C F V s J; [apply rel_refl|].
  cbn [inversions_swap fst snd] in V. destruct V as [V1 V2].
  destruct (F _ (or_introl eq_refl)) as [Ra Ka]. cbn [snd] in Ra, Ka.
  assert (F' : forall x, In x t -> respects (snd x) /\ keeps (snd x)) by (intros x Hx; apply F; now right).
  assert (C' : forall x, In x t -> (fst x <= 2)%nat) by (intros x Hx; apply C; now right).
  pose proof (C _ (or_introl eq_refl)) as Ck. cbn [fst] in Ck.
  assert (Rk : forall j, Forall respects (of_class j t)).
  { intros j. apply Forall_forall. intros b Hb. apply in_class in Hb. exact (proj1 (F' _ Hb)). }
  assert (Kk : forall j, Forall keeps (of_class j t)).
  { intros j. apply Forall_forall. intros b Hb. apply in_class in Hb. exact (proj2 (F' _ Hb)). }
  apply rel_trans with (perform (a :: of_class 0 t ++ of_class 1 t ++ of_class 2 t) s).
  { cbn [map]. apply cons_rel; [assumption|assumption|assumption|]. intros s' J'. now apply IH. }
  destruct k as [|[|[|k]]]; [| | |lia]; unfold of_class; cbn [filter fst Nat.eqb map snd]; fold (of_class 0 t);
    fold (of_class 1 t); fold (of_class 2 t).
  - apply rel_refl.
  - apply move_right; try assumption; [apply Rk|apply Kk| |].
    + apply Forall_app. split; apply Rk.
    + intros y Hy. apply in_class in Hy. apply (V1 _ Hy). cbn. lia.
  - rewrite app_assoc. change (of_class 0 t ++ of_class 1 t ++ a :: of_class 2 t) with (of_class 0 t ++ (of_class 1 t ++ a :: of_class 2 t)).
    rewrite (app_assoc (of_class 0 t)).
    apply move_right; try assumption; [| |apply Rk|].
    + apply Forall_app. split; apply Rk.
    + apply Forall_app. split; apply Kk.
    + intros y Hy. apply in_app_or in Hy as [Hy|Hy]; apply in_class in Hy; apply (V1 _ Hy); cbn; lia.
Qed.
End Sort.

Lemma swaps_sym inv x y : swaps inv x y -> swaps inv y x.
Proof.
  intros H s J. specialize (H s J). unfold swap_at in *.
  destruct (perform [x; y] s) as [[[c l] o]|], (perform [y; x] s) as [[[c' l'] o']|]; cbn in *; try contradiction; [|exact I].
  destruct H as [[A B] P]. split; [split; [now apply same_sym|cbn in *; now symmetry]|now symmetry].
Qed.

(** Where a message acts: the number of the action it cannot be moved across (None: it can be
    moved across all). *)
Definition after_point (pt : heard -> option nat) (i : nat) (n : heard) : bool :=
  match pt n with Some j => Nat.ltb j i | None => false end.
Fixpoint tag (S : suite) (G : gob) (pt : heard -> option nat) (i : nat) (ops : list action) (s : schedule)
  : list (nat * action) :=
  match s with
  | [] => map (fun a => (1%nat, a)) ops
  | Some n :: s' => ((if after_point pt i n then 2 else 0)%nat, hear S G n) :: tag S G pt i ops s'
  | None :: s' => match ops with [] => tag S G pt i [] s' | a :: ops' => (1%nat, a) :: tag S G pt (Datatypes.S i) ops' s' end
  end.
Fixpoint early (pt : heard -> option nat) (i : nat) (ops : list action) (s : schedule) (late : bool) : list heard :=
  match s with
  | [] => []
  | Some n :: s' => (if Bool.eqb (after_point pt i n) late then [n] else []) ++ early pt i ops s' late
  | None :: s' => match ops with [] => early pt i [] s' late | a :: ops' => early pt (Datatypes.S i) ops' s' late end
  end.

Lemma tag_weave S G pt s : forall i ops, map snd (tag S G pt i ops s) = weave S G ops s.
Proof.
  induction s as [|[n|] s IH]; intros i ops; cbn [tag weave map snd].
  - rewrite map_map. now rewrite map_id.
  - now rewrite IH.
  - destruct ops as [|a ops]; cbn [map snd]; now rewrite IH.
Qed.
Lemma tag_ops S G pt s : forall i ops, of_class 1 (tag S G pt i ops s) = ops.
Proof.
  unfold of_class. induction s as [|[n|] s IH]; intros i ops; cbn [tag].
  - induction ops as [|a ops IHo]; [reflexivity|]. cbn. now rewrite IHo.
  - destruct (after_point pt i n); cbn [filter fst Nat.eqb]; apply IH.
  - destruct ops as [|a ops]; [apply IH|]. cbn [filter fst Nat.eqb map snd]. now rewrite IH.
Qed.
Lemma tag_heard S G pt s (late : bool) : forall i ops,
  of_class (if late then 2 else 0) (tag S G pt i ops s) = map (hear S G) (early pt i ops s late).
Proof.
  unfold of_class. induction s as [|[n|] s IH]; intros i ops; cbn [tag early].
  - induction ops as [|a ops IHo]; [reflexivity|]. destruct late; exact IHo.
  - rewrite map_app, <- IH. destruct (after_point pt i n), late; reflexivity.
  - destruct ops as [|a ops]; [apply IH|]. rewrite <- (IH (Datatypes.S i) ops). destruct late; reflexivity.
Qed.
Lemma early_perm pt s : forall i ops, Permutation (early pt i ops s false ++ early pt i ops s true) (heard_in s).
Proof.
  induction s as [|[n|] s IH]; intros i ops; cbn [early heard_in].
  - reflexivity.
  - destruct (after_point pt i n); cbn [Bool.eqb app].
    + rewrite <- Permutation_middle. constructor. apply IH.
    + constructor. apply IH.
  - destruct ops; apply IH.
Qed.

Lemma tag_after S G pt s : forall i ops x, In x (tag S G pt i ops s) ->
  (fst x = 1%nat /\ exists j, nth_error ops j = Some (snd x)) \/
  (exists n, In n (heard_in s) /\ snd x = hear S G n /\ (fst x = 2%nat \/ (fst x = 0%nat /\ (forall j, pt n = Some j -> (i <= j)%nat)))).
Proof.
  induction s as [|[n|] s IH]; intros i ops x; cbn [tag heard_in].
  - intros H. apply in_map_iff in H as (a & <- & H). left. split; [reflexivity|]. now apply In_nth_error.
  - intros [<- | H].
    + right. exists n. split; [now left|]. split; [reflexivity|]. cbn [fst]. unfold after_point.
      destruct (pt n) as [j|] eqn:E; [|right; split; [reflexivity|congruence]].
      destruct (Nat.ltb j i) eqn:L; [now left|]. right. split; [reflexivity|]. intros j' E'. injection E' as <-.
      apply Nat.ltb_ge in L. exact L.
    + destruct (IH _ _ _ H) as [H1|(n' & I1 & H1)]; [now left|]. right. exists n'. split; [now right|exact H1].
  - destruct ops as [|a ops].
    + intros H. apply IH in H. exact H.
    + intros [<- | H]; [left; split; [reflexivity|now exists 0%nat]|].
      destruct (IH _ _ _ H) as [(K & j & H1)|(n' & I1 & H1 & H2)]; [left; split; [exact K|now exists (Datatypes.S j)]|].
      right. exists n'. split; [exact I1|]. split; [exact H1|]. destruct H2 as [H2|[H2 H3]]; [now left|right].
      split; [exact H2|]. intros j E. specialize (H3 j E). lia.
Qed.

(** If every message swaps with every action but the one at its point, and messages with
    different points swap with each other, then the step acts as if the messages that came
    before their point had come before the step and the others after it. *)
Theorem settle S G (inv : place -> Prop) pt ops s st :
  inv st ->
  Forall (fun a => respects a /\ keeps inv a) ops ->
  Forall (fun n => respects (hear S G n) /\ keeps inv (hear S G n)) (heard_in s) ->
  (forall j a n, nth_error ops j = Some a -> In n (heard_in s) -> pt n <> Some j -> swaps inv a (hear S G n)) ->
  (forall n n', In n (heard_in s) -> In n' (heard_in s) -> pt n <> pt n' -> swaps inv (hear S G n) (hear S G n')) ->
  exists before after, Permutation (before ++ after) (heard_in s) /\
    rel same_place (perform (weave S G ops s) st)
      (perform (map (hear S G) before ++ ops ++ map (hear S G) after) st).
Proof.
  intros J Fo Fn So Sn.
  exists (early pt 0 ops s false), (early pt 0 ops s true). split; [apply early_perm|].
  rewrite <- (tag_weave S G pt s 0 ops), <- !(tag_heard S G pt s).
  rewrite <- (tag_ops S G pt s 0 ops) at 3.
  apply (sort_run inv); [| | |exact J].
  - intros x Hx. apply tag_after in Hx as [[-> _]|(n & _ & _ & [-> | [-> _]])]; lia.
  - rewrite Forall_forall in Fo, Fn. intros x Hx. apply tag_after in Hx as [[_ (j & E)]|(n & I1 & -> & _)].
    + apply Fo. eapply nth_error_In. exact E.
    + now apply Fn.
  - clear st J Fo Fn.
    assert (W : forall ms i rest, incl (heard_in ms) (heard_in s) ->
      (forall j a, nth_error rest j = Some a -> nth_error ops (i + j) = Some a) ->
      inversions_swap inv (tag S G pt i rest ms)).
    { clear - So Sn. induction ms as [|[n|] ms IH]; intros i rest Inc At; cbn [tag].
      - induction rest as [|a rest IHr]; cbn [map inversions_swap]; [exact I|]. split.
        + intros y Hy L. cbn in L. apply in_map_iff in Hy as (b & <- & _). cbn in L. lia.
        + clear - rest. induction rest as [|b rest IHr]; cbn [map inversions_swap]; [exact I|]. split; [|exact IHr].
          intros y Hy L. cbn in L. apply in_map_iff in Hy as (b' & <- & _). cbn in L. lia.
      - cbn [inversions_swap heard_in] in *. split.
        + intros y Hy L. cbn [fst snd] in *. unfold after_point in L.
          destruct (pt n) as [j0|] eqn:E; [|lia]. destruct (Nat.ltb j0 i) eqn:L0; [|lia]. apply Nat.ltb_lt in L0.
          apply tag_after in Hy as [[K (j & Ej)]|(n' & I1 & -> & [K|[K P]])]; [| |].
          * apply swaps_sym. apply (So (i + j)%nat); [now apply At|apply Inc; now left|]. rewrite E. intros H. injection H as ->. lia.
          * lia.
          * apply Sn; [apply Inc; now left|apply Inc; now right|]. rewrite E. intros H. symmetry in H. specialize (P _ H). lia.
        + apply IH; [|exact At]. intros m Hm. apply Inc. now right.
      - cbn [heard_in] in Inc. destruct rest as [|a rest].
        + apply IH; [exact Inc|]. intros [|j] a; discriminate.
        + cbn [inversions_swap]. split.
          * intros y Hy L. cbn [fst snd] in *. apply tag_after in Hy as [[K _]|(n' & I1 & -> & [K|[K P]])]; [lia|lia|].
            apply (So i); [|now apply Inc|].
            -- rewrite <- (Nat.add_0_r i). now apply At.
            -- intros H. specialize (P _ H). lia.
          * apply IH; [exact Inc|]. intros j b E. rewrite Nat.add_succ_comm. now apply At. }
    apply W; [apply incl_refl|]. intros j a E. exact E.
Qed.

(** ** What the handlers touch *)

(** The parts of the coordinator that messages of one kind write.  All read the fields that
    only registrations of servers, ANNOUNCEMENT, ROUND_END and UPDATE_PEDERSEN_H write. *)
Inductive kind := KBook | KVote | KConf | KReg | KNone.
Definition kind_of (ty : Z) : kind :=
  if (ty =? POST_BRIDGE) || (ty =? REQUEST_BRIDGES) || (ty =? GOT_SIGNS) then KBook
  else if ty =? Net.VOTE then KVote
  else if ty =? CLIENT_REGISTER_SERVERSIDE then KConf
  else if ty =? CLIENT_REGISTER_CONTROLLERSIDE then KReg
  else KNone.

(** The part of that kind, taken from [v]. *)
Definition put (k : kind) (v c : coord) : coord :=
  match k with
  | KBook => set_asigs (set_reqs (set_bridges c (co_bridges v)) (co_reqs v)) (co_asigs v)
  | KVote => set_diffs c (co_diffs v)
  | KConf => set_buffer c (co_buffer v)
  | KReg => set_clients c (co_clients v)
  | KNone => c
  end.
(** Everything messages of that kind neither read nor write, taken from [v]. *)
Definition fill (k : kind) (v c : coord) : coord :=
  put k c (Coord (co_static c) (co_servers c) (co_status v) (co_first v) (co_G c) (co_clients v) (co_bkeys v)
    (co_bcomms v) (co_buffer v) (co_msglog v) (co_asigs v) (co_reqs v) (co_votes v) (co_bridges v) (co_ekeys v)
    (co_ecomms v) (co_diffs v) (co_keys c) (co_pb c)).

Definition lift (f : coord -> coord) (r : option (coord * list msg)) : option (coord * list msg) :=
  option_map (fun x => (f (fst x), snd x)) r.

(** The pseudonym a request is made under. *)
Definition req_nym (S : suite) (p : params) : option Z := olet bn := get_bytes p "nym"%str in dec_point S bn.

Ltac split_all := repeat match goal with
  | |- context [match ?x with _ => _ end] => lazymatch x with context [match _ with _ => _ end] => fail | _ => destruct x end
  end.

Lemma post_frame S p v c : co_post S (fill KBook v c) p = lift (fill KBook v) (co_post S c p).
Proof. unfold co_post. change (co_G (fill KBook v c)) with (co_G c). split_all; reflexivity. Qed.

Lemma add_asig_fr v c a i sig : add_asig (fill KBook v c) a i sig = option_map (fill KBook v) (add_asig c a i sig).
Proof. unfold add_asig. change (co_asigs (fill KBook v c)) with (co_asigs c). split_all; reflexivity. Qed.

Lemma open_fr S v l : forall c, open_assignments S (fill KBook v c) l = option_map (fill KBook v) (open_assignments S c l).
Proof.
  induction l as [|a l IH]; intros c; [reflexivity|]. cbn [open_assignments].
  change (co_sign S (fill KBook v c)) with (co_sign S c). change (co_servers (fill KBook v c)) with (co_servers c).
  change (init_asigs (fill KBook v c) (asAddr a)) with (fill KBook v (init_asigs c (asAddr a))).
  rewrite add_asig_fr. destruct (add_asig (init_asigs c (asAddr a)) _ _ _); [apply IH|reflexivity].
Qed.

Lemma request_frame S G p src rn v c :
  (forall nym, req_nym S p = Some nym -> mget (co_ecomms v) nym = mget (co_ecomms c) nym) ->
  co_request S G (fill KBook v c) p src rn = lift (fill KBook v) (co_request S G c p src rn).
Proof.
  intros N. unfold co_request, req_nym in *.
  destruct (get_int p "ind"%str); [|reflexivity]. destruct (get_bytes p "signature"%str); [|reflexivity].
  destruct (get_bytes p "nym"%str); [|reflexivity]. destruct (dec_point S b0) as [nymR|]; [|reflexivity].
  change (co_ecomms (fill KBook v c)) with (co_ecomms v). rewrite (N nymR eq_refl).
  destruct (msg_request p); [|reflexivity]. change (co_G (fill KBook v c)) with (co_G c).
  destruct (negb _); [reflexivity|]. change (co_pb (fill KBook v c)) with (co_pb c).
  change (co_fb (fill KBook v c)) with (co_fb c). destruct (verify_ind _ _ _ _ _ _); [|reflexivity].
  destruct (negb _); [reflexivity|]. change (co_reqs (fill KBook v c)) with (co_reqs c).
  destruct (co_reqs c); [|reflexivity]. unfold assign_bridges.
  change (co_bridges (set_reqs (fill KBook v c) (Some (mset a nymR src)))) with (co_bridges (set_reqs c (Some (mset a nymR src)))).
  destruct (get_bridges _ _ _) as [brs m]. destruct (map _ brs) as [|x l]; [reflexivity|].
  change (set_bridges (set_reqs (fill KBook v c) (Some (mset a nymR src))) m)
    with (fill KBook v (set_bridges (set_reqs c (Some (mset a nymR src))) m)).
  rewrite open_fr. destruct (open_assignments _ _ _); [|reflexivity]. cbn [option_map].
  split_all; reflexivity.
Qed.

Lemma got_fr S G v j rq l : forall sigs c out,
  got_loop S G (fill KBook v c) j rq sigs l out = lift (fill KBook v) (got_loop S G c j rq sigs l out).
Proof.
  induction l as [|a l IH]; intros sigs c out; [reflexivity|]. cbn [got_loop].
  destruct (nth_error sigs 0); [|reflexivity]. rewrite add_asig_fr. destruct (add_asig c _ _ _) as [c1|]; [|reflexivity].
  cbn [option_map]. change (asigs_done (fill KBook v c1)) with (asigs_done c1). destruct (asigs_done c1 (asAddr a)); [|apply IH].
  change (co_bridges (fill KBook v c1)) with (co_bridges c1).
  set (m := mset (co_bridges c1) _ _). change (set_bridges (fill KBook v c1) m) with (fill KBook v (set_bridges c1 m)).
  change (get_asigs (fill KBook v (set_bridges c1 m))) with (get_asigs (set_bridges c1 m)).
  change (co_sign S (fill KBook v (set_bridges c1 m))) with (co_sign S (set_bridges c1 m)).
  change (co_addr (fill KBook v c)) with (co_addr c).
  destruct (msg_got _); [|reflexivity]. destruct (send _ _ _ _); [|reflexivity]. apply IH.
Qed.

Lemma got_frame S G p src v c : co_got S G (fill KBook v c) p src = lift (fill KBook v) (co_got S G c p src).
Proof.
  unfold co_got. change (server_index (fill KBook v c)) with (server_index c).
  change (co_reqs (fill KBook v c)) with (co_reqs c).
  destruct (get_bool _ _); [|reflexivity]. destruct (negb _); [reflexivity|].
  destruct (server_index _ _); [|reflexivity]. destruct (get_bytes _ _); [|reflexivity].
  destruct (dec_assignments _ _ _); [|reflexivity]. destruct (get_bytes _ _); [|reflexivity].
  destruct (gdec_2d _ _); [|reflexivity]. destruct (nth_error _ _); [|reflexivity].
  destruct (asNymR _); [|reflexivity]. apply got_fr.
Qed.

Lemma vote_frame S G p v c : co_vote S G (fill KVote v c) p = lift (fill KVote v) (co_vote S G c p).
Proof.
  unfold co_vote. change (co_keys (fill KVote v c)) with (co_keys c). change (co_G (fill KVote v c)) with (co_G c).
  change (co_servers (fill KVote v c)) with (co_servers c). change (co_pub (fill KVote v c)) with (co_pub c).
  destruct (get_bytes p "nym"%str); [|reflexivity]. destruct (dec_point _ _); [|reflexivity]. cbv zeta.
  destruct (_ <? 0); [reflexivity|]. destruct (nth_error _ _); [|reflexivity]. destruct (get_bytes _ _); [|reflexivity].
  destruct (msg_vote _); [|reflexivity]. destruct (negb _); [reflexivity|]. destruct (get_bytes _ _); [|reflexivity].
  destruct (gdec_2d _ _); [|reflexivity]. destruct (get_bytes _ _); [|reflexivity]. destruct (dec_assignment _ _); [|reflexivity].
  destruct (check_sigs _ _ _ _); [|reflexivity]. destruct (negb _); [reflexivity|]. destruct (asNym _); [|reflexivity].
  destruct (get_int _ _); reflexivity.
Qed.
Lemma confirm_frame S G p v c : co_client_confirm S G (fill KConf v c) p = lift (fill KConf v) (co_client_confirm S G c p).
Proof. unfold co_client_confirm. split_all; reflexivity. Qed.
Lemma register_frame S p src rn v c :
  co_client_register S (fill KReg v c) p src rn = lift (fill KReg v) (co_client_register S c p src rn).
Proof.
  unfold co_client_register. destruct (get_bytes _ _); [|reflexivity].
  change (co_pb (fill KReg v c)) with (co_pb c). destruct (ped_commit _ _ _ _).
  change (first_server (fill KReg v c)) with (first_server c). change (co_addr (fill KReg v c)) with (co_addr c).
  change (co_G (fill KReg v c)) with (co_G c). destruct (send _ _ _ _); [|reflexivity]. destruct (co_G c); reflexivity.
Qed.
Lemma honesty_frame G p src v c : co_honesty G (fill KNone v c) p src = lift (fill KNone v) (co_honesty G c p src).
Proof.
  unfold co_honesty. change (co_static (fill KNone v c)) with (co_static c). change (co_addr (fill KNone v c)) with (co_addr c).
  split_all; reflexivity.
Qed.

(** The messages a running round consists of. *)
Definition is_spare (ty : Z) : bool :=
  negb ((ty =? SERVER_REGISTER) || (ty =? UPDATE_PEDERSEN_H) || (ty =? Net.ROUND_END) || (ty =? ANNOUNCEMENT)).

Lemma handle_frame S G n v c : is_spare (he_ty n) = true ->
  (he_ty n = REQUEST_BRIDGES -> forall nym, req_nym S (he_par n) = Some nym -> mget (co_ecomms v) nym = mget (co_ecomms c) nym) ->
  let k := kind_of (he_ty n) in
  co_handle S G (fill k v c) (he_ty n) (he_par n) (he_src n) (he_rn n) =
  lift (fill k v) (co_handle S G c (he_ty n) (he_par n) (he_src n) (he_rn n)).
Proof.
  destruct n as [ty p src rn]. cbn [he_ty he_par he_src he_rn]. intros Sp N. unfold is_spare in Sp.
  apply negb_true_iff in Sp. apply orb_false_iff in Sp as [Sp S4]. apply orb_false_iff in Sp as [Sp S3].
  apply orb_false_iff in Sp as [S1 S2]. unfold co_handle, kind_of. rewrite S1, S2, S3, S4.
  destruct (ty =? CLIENT_REGISTER_CONTROLLERSIDE) eqn:E1.
  { apply Z.eqb_eq in E1 as ->. apply register_frame. }
  destruct (ty =? CLIENT_REGISTER_SERVERSIDE) eqn:E2.
  { apply Z.eqb_eq in E2 as ->. apply confirm_frame. }
  destruct (ty =? GN_HONESTY_CHALLENGE) eqn:E3.
  { apply Z.eqb_eq in E3 as ->. apply honesty_frame. }
  destruct (ty =? POST_BRIDGE) eqn:E4; [apply post_frame|].
  destruct (ty =? REQUEST_BRIDGES) eqn:E5; [apply Z.eqb_eq in E5; cbn [orb]; apply request_frame; now apply N|].
  destruct (ty =? GOT_SIGNS) eqn:E6; [apply got_frame|].
  destruct (ty =? Net.VOTE) eqn:E7; [apply vote_frame|]. reflexivity.
Qed.

(** A handler writes nothing else. *)
Definition part (k : kind) : list field :=
  match k with
  | KBook => [FReqs; FBridges; FASigs] | KVote => [FDiffs] | KConf => [FBuffer] | KReg => [FClients] | KNone => []
  end.
Lemma part_put k c c' : (forall f, ~ In f (part k) -> agree f c c') -> c' = put k c' c.
Proof.
  intros A. destruct k; cbn [part] in A.
  - assert (T : forall f, match f with FReqs | FBridges | FASigs => False | _ => True end -> agree f c c')
      by (intros f H; apply A; cbn; intros N; repeat (destruct N as [<- | N]; [exact H|]); exact N).
    clear A.
    pose proof (T FStatic I) as B0. pose proof (T FServers I) as B1. pose proof (T FStatus I) as B2. pose proof (T FFirst I) as B3.
    pose proof (T FG I) as B4. pose proof (T FClients I) as B5. pose proof (T FBKeys I) as B6. pose proof (T FBComms I) as B7.
    pose proof (T FBuffer I) as B8. pose proof (T FMsgLog I) as B9. pose proof (T FVotes I) as B10. pose proof (T FEKeys I) as B11.
    pose proof (T FEComms I) as B12. pose proof (T FDiffs I) as B13. pose proof (T FKeys I) as B14. pose proof (T FPB I) as B15.
    clear T. destruct c, c'. cbn in B0, B1, B2, B3, B4, B5, B6, B7, B8, B9, B10, B11, B12, B13, B14, B15. subst. reflexivity.
  - assert (T : forall f, match f with FDiffs => False | _ => True end -> agree f c c')
      by (intros f H; apply A; cbn; intros N; repeat (destruct N as [<- | N]; [exact H|]); exact N).
    clear A.
    pose proof (T FStatic I) as B0. pose proof (T FServers I) as B1. pose proof (T FStatus I) as B2. pose proof (T FFirst I) as B3.
    pose proof (T FG I) as B4. pose proof (T FClients I) as B5. pose proof (T FBKeys I) as B6. pose proof (T FBComms I) as B7.
    pose proof (T FBuffer I) as B8. pose proof (T FMsgLog I) as B9. pose proof (T FASigs I) as B10. pose proof (T FReqs I) as B11.
    pose proof (T FVotes I) as B12. pose proof (T FBridges I) as B13. pose proof (T FEKeys I) as B14. pose proof (T FEComms I) as B15.
    pose proof (T FKeys I) as B16. pose proof (T FPB I) as B17.
    clear T. destruct c, c'. cbn in B0, B1, B2, B3, B4, B5, B6, B7, B8, B9, B10, B11, B12, B13, B14, B15, B16, B17. subst. reflexivity.
  - assert (T : forall f, match f with FBuffer => False | _ => True end -> agree f c c')
      by (intros f H; apply A; cbn; intros N; repeat (destruct N as [<- | N]; [exact H|]); exact N).
    clear A.
    pose proof (T FStatic I) as B0. pose proof (T FServers I) as B1. pose proof (T FStatus I) as B2. pose proof (T FFirst I) as B3.
    pose proof (T FG I) as B4. pose proof (T FClients I) as B5. pose proof (T FBKeys I) as B6. pose proof (T FBComms I) as B7.
    pose proof (T FMsgLog I) as B8. pose proof (T FASigs I) as B9. pose proof (T FReqs I) as B10. pose proof (T FVotes I) as B11.
    pose proof (T FBridges I) as B12. pose proof (T FEKeys I) as B13. pose proof (T FEComms I) as B14. pose proof (T FDiffs I) as B15.
    pose proof (T FKeys I) as B16. pose proof (T FPB I) as B17.
    clear T. destruct c, c'. cbn in B0, B1, B2, B3, B4, B5, B6, B7, B8, B9, B10, B11, B12, B13, B14, B15, B16, B17. subst. reflexivity.
  - assert (T : forall f, match f with FClients => False | _ => True end -> agree f c c')
      by (intros f H; apply A; cbn; intros N; repeat (destruct N as [<- | N]; [exact H|]); exact N).
    clear A.
    pose proof (T FStatic I) as B0. pose proof (T FServers I) as B1. pose proof (T FStatus I) as B2. pose proof (T FFirst I) as B3.
    pose proof (T FG I) as B4. pose proof (T FBKeys I) as B5. pose proof (T FBComms I) as B6. pose proof (T FBuffer I) as B7.
    pose proof (T FMsgLog I) as B8. pose proof (T FASigs I) as B9. pose proof (T FReqs I) as B10. pose proof (T FVotes I) as B11.
    pose proof (T FBridges I) as B12. pose proof (T FEKeys I) as B13. pose proof (T FEComms I) as B14. pose proof (T FDiffs I) as B15.
    pose proof (T FKeys I) as B16. pose proof (T FPB I) as B17.
    clear T. destruct c, c'. cbn in B0, B1, B2, B3, B4, B5, B6, B7, B8, B9, B10, B11, B12, B13, B14, B15, B16, B17. subst. reflexivity.
  - assert (T : forall f, match f with _ => True end -> agree f c c')
      by (intros f H; apply A; cbn; intros N; repeat (destruct N as [<- | N]; [exact H|]); exact N).
    clear A.
    pose proof (T FStatic I) as B0. pose proof (T FServers I) as B1. pose proof (T FStatus I) as B2. pose proof (T FFirst I) as B3.
    pose proof (T FG I) as B4. pose proof (T FClients I) as B5. pose proof (T FBKeys I) as B6. pose proof (T FBComms I) as B7.
    pose proof (T FBuffer I) as B8. pose proof (T FMsgLog I) as B9. pose proof (T FASigs I) as B10. pose proof (T FReqs I) as B11.
    pose proof (T FVotes I) as B12. pose proof (T FBridges I) as B13. pose proof (T FEKeys I) as B14. pose proof (T FEComms I) as B15.
    pose proof (T FDiffs I) as B16. pose proof (T FKeys I) as B17. pose proof (T FPB I) as B18.
    clear T. destruct c, c'. cbn in B0, B1, B2, B3, B4, B5, B6, B7, B8, B9, B10, B11, B12, B13, B14, B15, B16, B17, B18. subst. reflexivity.
Qed.
Lemma writes_part ty : is_spare ty = true -> incl (History.writes ty) (part (kind_of ty)).
Proof.
  intros Sp. unfold is_spare in Sp.
  apply negb_true_iff in Sp. apply orb_false_iff in Sp as [Sp S4]. apply orb_false_iff in Sp as [Sp S3].
  apply orb_false_iff in Sp as [S1 S2]. unfold History.writes, kind_of. rewrite S1, S2, S3, S4.
  destruct (ty =? CLIENT_REGISTER_CONTROLLERSIDE) eqn:E1; [apply Z.eqb_eq in E1 as ->; cbn; intros f; auto|].
  destruct (ty =? CLIENT_REGISTER_SERVERSIDE) eqn:E2; [apply Z.eqb_eq in E2 as ->; cbn; intros f; auto|].
  destruct (ty =? POST_BRIDGE); [cbn; intros f; cbn; tauto|].
  destruct (ty =? REQUEST_BRIDGES); [cbn; intros f; cbn; tauto|].
  destruct (ty =? GOT_SIGNS); [cbn; intros f; cbn; tauto|].
  destruct (ty =? Net.VOTE); [cbn; intros f; auto|]. intros f [].
Qed.
Lemma handle_put S G n c c' o : is_spare (he_ty n) = true ->
  co_handle S G c (he_ty n) (he_par n) (he_src n) (he_rn n) = Some (c', o) -> c' = put (kind_of (he_ty n)) c' c.
Proof.
  intros Sp E. destruct (co_step_frame S G c (hear_event n) c' o E) as [A _]. apply part_put.
  intros f N. apply A. intros W. apply N. now apply writes_part.
Qed.

Lemma put_fill k k' v c : k <> k' -> put k v c = fill k' (put k v c) c.
Proof. destruct c, k, k'; intros N; try contradiction; reflexivity. Qed.
Lemma put_fill_none k v c : put KNone v c = fill k (put KNone v c) c.
Proof. destruct c, k; reflexivity. Qed.
Lemma put_ecomms k v c : co_ecomms (put k v c) = co_ecomms c.
Proof. destruct k; reflexivity. Qed.

(** Messages of different kinds may be handled in either order. *)
Lemma hear_swap S G inv n n' : is_spare (he_ty n) = true -> is_spare (he_ty n') = true ->
  kind_of (he_ty n) <> kind_of (he_ty n') -> swaps inv (hear S G n) (hear S G n').
Proof.
  intros Sp Sp' Kd [c l] _. unfold swap_at, perform, hear. cbn [fst snd].
  set (k := kind_of (he_ty n)) in *. set (k' := kind_of (he_ty n')) in *.
  destruct (co_handle S G c (he_ty n) _ _ _) as [[c1 o1]|] eqn:E1; destruct (co_handle S G c (he_ty n') _ _ _) as [[c2 o2]|] eqn:E2;
    cbn [fst snd].
  - pose proof (handle_put _ _ _ _ _ _ Sp E1) as P1. pose proof (handle_put _ _ _ _ _ _ Sp' E2) as P2. fold k in P1. fold k' in P2.
    assert (F1 : c1 = fill k' c1 c) by (rewrite P1; now apply put_fill).
    assert (F2 : c2 = fill k c2 c) by (rewrite P2; apply put_fill; congruence).
    assert (H1 : co_handle S G c1 (he_ty n') (he_par n') (he_src n') (he_rn n') = Some (fill k' c1 c2, o2)).
    { rewrite F1 at 1. unfold k'. rewrite handle_frame; [now rewrite E2|assumption|]. intros _ nym _. rewrite P1. now rewrite put_ecomms. }
    assert (H2 : co_handle S G c2 (he_ty n) (he_par n) (he_src n) (he_rn n) = Some (fill k c2 c1, o1)).
    { rewrite F2 at 1. unfold k. rewrite handle_frame; [now rewrite E1|assumption|]. intros _ nym _. rewrite P2. now rewrite put_ecomms. }
    rewrite H1, H2. cbn [fst snd rel]. split.
    + split; [|reflexivity]. cbn [fst]. replace (fill k c2 c1) with (fill k' c1 c2); [apply same_refl|].
      rewrite P1, P2. clearbody k k'. clear - Kd. destruct c, k, k'; try contradiction; reflexivity.
    + rewrite !app_nil_r. apply Permutation_app_comm.
  - assert (H1 : co_handle S G c1 (he_ty n') (he_par n') (he_src n') (he_rn n') = None); [|now rewrite H1].
    pose proof (handle_put _ _ _ _ _ _ Sp E1) as P1. fold k in P1.
    assert (F1 : c1 = fill k' c1 c) by (rewrite P1; now apply put_fill).
    rewrite F1 at 1. unfold k'. rewrite handle_frame; [now rewrite E2|assumption|]. intros _ nym _. rewrite P1. now rewrite put_ecomms.
  - assert (H2 : co_handle S G c2 (he_ty n) (he_par n) (he_src n) (he_rn n) = None); [|now rewrite H2].
    pose proof (handle_put _ _ _ _ _ _ Sp' E2) as P2. fold k' in P2.
    assert (F2 : c2 = fill k c2 c) by (rewrite P2; apply put_fill; congruence).
    rewrite F2 at 1. unfold k. rewrite handle_frame; [now rewrite E1|assumption|]. intros _ nym _. rewrite P2. now rewrite put_ecomms.
  - exact I.
Qed.

Definition reads (k : kind) : list field := [FStatic; FServers; FG; FKeys; FPB] ++ part k.
Lemma fill_agree k c c1 : (forall f, In f (reads k) -> agree f c c1) -> c1 = fill k c1 c.
Proof.
  intros A. pose proof (A FStatic (or_introl eq_refl)) as B1. pose proof (A FServers (or_intror (or_introl eq_refl))) as B2.
  assert (B3 : agree FG c c1) by (apply A; cbn; tauto). assert (B4 : agree FKeys c c1) by (apply A; cbn; tauto).
  assert (B5 : agree FPB c c1) by (apply A; cbn; tauto).
  destruct k.
  - assert (B6 : agree FReqs c c1) by (apply A; cbn; tauto). assert (B7 : agree FBridges c c1) by (apply A; cbn; tauto).
    assert (B8 : agree FASigs c c1) by (apply A; cbn; tauto). clear A. destruct c, c1; cbn in *. subst. reflexivity.
  - assert (B6 : agree FDiffs c c1) by (apply A; cbn; tauto). clear A. destruct c, c1; cbn in *. subst. reflexivity.
  - assert (B6 : agree FBuffer c c1) by (apply A; cbn; tauto). clear A. destruct c, c1; cbn in *. subst. reflexivity.
  - assert (B6 : agree FClients c c1) by (apply A; cbn; tauto). clear A. destruct c, c1; cbn in *. subst. reflexivity.
  - clear A. destruct c, c1; cbn in *. subst. reflexivity.
Qed.

(** ** Votes *)

(** The pseudonym a vote is for. *)
Definition vote_target (S : suite) (p : params) : option Z :=
  olet ba := get_bytes p "assignment"%str in olet a := dec_assignment S ba in asNym a.

Definition diff_of (m : amap Z Z) (k : Z) : Z := match mget m k with Some v => v | None => 0 end.
Definition voted (c : coord) (r : option (option (Z * Z))) (x : amap Z Z) : option (coord * list msg) :=
  match r with
  | None => None
  | Some None => Some (set_diffs c x, [])
  | Some (Some (t, f)) => Some (set_diffs c (mset x t (int64 (diff_of x t + f))), [])
  end.
Lemma vote_form S G c p : exists r, (forall x, co_vote S G (set_diffs c x) p = voted c r x) /\
  (forall t f, r = Some (Some (t, f)) -> vote_target S p = Some t).
Proof.
  unfold co_vote, vote_target.
  cbn [co_keys set_diffs co_G co_servers]. change (fun x => co_pub (set_diffs c x)) with (fun _ : amap Z Z => co_pub c).
  destruct (get_bytes p "nym"%str); [|exists None; split; [reflexivity|discriminate]].
  destruct (dec_point _ _); [|exists None; split; [reflexivity|discriminate]]. cbv zeta.
  destruct (_ <? 0); [exists (Some None); split; [reflexivity|discriminate]|].
  destruct (nth_error _ _); [|exists None; split; [reflexivity|discriminate]].
  destruct (get_bytes p "signature"%str); [|exists None; split; [reflexivity|discriminate]].
  destruct (msg_vote _); [|exists None; split; [reflexivity|discriminate]].
  destruct (negb _); [exists (Some None); split; [reflexivity|discriminate]|].
  destruct (get_bytes p "signatures"%str); [|exists None; split; [reflexivity|discriminate]].
  destruct (gdec_2d _ _); [|exists None; split; [reflexivity|discriminate]].
  destruct (get_bytes p "assignment"%str); [|exists None; split; [reflexivity|discriminate]].
  destruct (dec_assignment _ _) as [a|]; [|exists None; split; [reflexivity|discriminate]].
  change (fun x => co_pub (set_diffs c x)) with (fun _ : amap Z Z => co_pub c).
  destruct (check_sigs S b3 (map snd (co_servers c) ++ [co_pub c]) l) as [ok|] eqn:Ck;
    [|exists None; split; [intros x; change (co_pub (set_diffs c x)) with (co_pub c); now rewrite Ck|discriminate]].
  destruct ok; cbn [negb];
    [|exists (Some None); split; [intros x; change (co_pub (set_diffs c x)) with (co_pub c); now rewrite Ck|discriminate]].
  destruct (asNym a) as [t|];
    [|exists None; split; [intros x; change (co_pub (set_diffs c x)) with (co_pub c); now rewrite Ck|discriminate]].
  destruct (get_int p "feedback"%str) as [f|];
    [|exists None; split; [intros x; change (co_pub (set_diffs c x)) with (co_pub c); now rewrite Ck|discriminate]].
  exists (Some (Some (t, f))). split; [|congruence].
  intros x. change (co_pub (set_diffs c x)) with (co_pub c). rewrite Ck. reflexivity.
Qed.

Lemma handle_vote S G n c : he_ty n = Net.VOTE ->
  co_handle S G c (he_ty n) (he_par n) (he_src n) (he_rn n) = co_vote S G c (he_par n).
Proof. intros ->. reflexivity. Qed.
Lemma kind_vote ty : kind_of ty = KVote -> ty = Net.VOTE.
Proof.
  unfold kind_of. destruct ((ty =? POST_BRIDGE) || (ty =? REQUEST_BRIDGES) || (ty =? GOT_SIGNS)); [intros H; discriminate H|].
  destruct (ty =? Net.VOTE) eqn:E; [intros _; now apply Z.eqb_eq|].
  destruct (ty =? CLIENT_REGISTER_SERVERSIDE); [intros H; discriminate H|].
  destruct (ty =? CLIENT_REGISTER_CONTROLLERSIDE); intros H; discriminate H.
Qed.
Lemma own_diffs c : set_diffs c (co_diffs c) = c.
Proof. now destruct c. Qed.

(** Votes for different pseudonyms may be handled in either order. *)
Lemma vote_swap S G inv n n' : he_ty n = Net.VOTE -> he_ty n' = Net.VOTE ->
  (forall t, vote_target S (he_par n) = Some t -> vote_target S (he_par n') <> Some t) ->
  swaps inv (hear S G n) (hear S G n').
Proof.
  intros T T' D [c l] _. unfold swap_at, perform, hear. rewrite !(handle_vote S G _ _ T), !(handle_vote S G _ _ T').
  destruct (vote_form S G c (he_par n)) as (r & F & Ft). destruct (vote_form S G c (he_par n')) as (r' & F' & Ft').
  rewrite <- (own_diffs c). rewrite F, F'.
  destruct r as [[[t f]|]|], r' as [[[t' f']|]|]; cbn [voted fst snd];
    rewrite ?(handle_vote S G _ _ T), ?(handle_vote S G _ _ T'), ?F, ?F'; cbn [voted fst snd rel]; try exact I;
    try (split; [apply sp_refl|reflexivity]).
  pose proof (Ft _ _ eq_refl) as Et. pose proof (Ft' _ _ eq_refl) as Et'.
  assert (N : t <> t') by (intros ->; exact (D _ Et Et')).
  split; [|reflexivity]. split; [|reflexivity]. cbn [fst]. split; [reflexivity|]. intros k.
  cbn [co_diffs set_diffs]. unfold diff_of. rewrite (mget_mset_ne (co_diffs c) t' t), (mget_mset_ne (co_diffs c) t t') by congruence.
  destruct (Z.eq_dec k t) as [->|Nt]; [|destruct (Z.eq_dec k t') as [->|Nt']].
  - rewrite (mget_mset_ne _ _ t) by congruence. now rewrite !mget_mset_eq.
  - rewrite (mget_mset_ne _ t t') by congruence. now rewrite !mget_mset_eq.
  - now rewrite !mget_mset_ne by congruence.
Qed.

(** ** Messages and actions *)

Lemma hear_respects S G n : is_spare (he_ty n) = true -> respects (hear S G n).
Proof.
  intros Sp [c l] [d l'] [[E D] E']. cbn [fst snd] in *. subst l'. unfold hear.
  destruct (kind_of (he_ty n)) as [| | | |] eqn:K.
  2:{ apply kind_vote in K. rewrite !(handle_vote S G n _ K).
      destruct (vote_form S G c (he_par n)) as (r & F & _). rewrite E, <- (own_diffs c), F.
      cbn [co_diffs set_diffs].
      change (set_diffs (set_diffs c (co_diffs c)) (co_diffs d)) with (set_diffs c (co_diffs d)). rewrite F.
      destruct r as [[[t f]|]|]; cbn [voted fst snd rel]; [| |exact I].
      - split; [|reflexivity]. split; [|reflexivity]. cbn [fst]. split; [reflexivity|]. intros k. cbn [co_diffs set_diffs].
        unfold diff_of. rewrite D. rewrite !mget_mset. now rewrite D.
      - split; [|reflexivity]. split; [|reflexivity]. cbn [fst]. split; [reflexivity|]. exact D. }
  all: assert (Fd : d = fill (kind_of (he_ty n)) d c) by (rewrite K, E; destruct c; reflexivity).
  all: rewrite Fd; rewrite handle_frame; [|assumption|intros _ nym _; now rewrite E].
  all: destruct (co_handle S G c _ _ _ _) as [[c' o]|] eqn:H; [|exact I].
  all: apply (handle_put S G n c c' o Sp) in H; rewrite K in H |- *; cbn [lift option_map fst snd rel].
  all: split; [|reflexivity]; split; [|reflexivity]; cbn [fst]; rewrite H, E; split; [now destruct c|exact D].
Qed.

(** No client in NewClientsBuffer under a key of [R]. *)
Definition buffered_apart (R : Z -> Prop) (s : place) : Prop := forall kv, In kv (co_buffer (fst s)) -> ~ R (fst kv).
(** The key a confirmation puts into NewClientsBuffer. *)
Definition conf_key (p : params) : option Z := option_map dec_point_unchecked (get_bytes p "public_key"%str).

Lemma hear_keeps S G R n : is_spare (he_ty n) = true ->
  (he_ty n = CLIENT_REGISTER_SERVERSIDE -> forall k, conf_key (he_par n) = Some k -> ~ R k) ->
  keeps (buffered_apart R) (hear S G n).
Proof.
  intros Sp C [c l] [c' l'] o J E. unfold hear in E.
  destruct (co_handle S G c _ _ _ _) as [[c1 o1]|] eqn:H; [|discriminate]. cbn [fst snd] in E. injection E as <- <- <-.
  unfold buffered_apart in *. cbn [fst] in *.
  destruct (Z.eq_dec (he_ty n) CLIENT_REGISTER_SERVERSIDE) as [T|T].
  - rewrite T in H. unfold co_handle in H. cbn in H. unfold co_client_confirm, conf_key in *. specialize (C T).
    destruct (get_bytes (he_par n) "public_key"%str) as [bk|]; [|discriminate].
    destruct (get_bytes (he_par n) "pcomm"%str) as [bc|]; [|discriminate].
    destruct (dec_point S bc) as [pc|]; [|discriminate]. destruct (get_str (he_par n) "addr"%str); [|discriminate].
    injection H as <- _. cbn [co_buffer add_buffer set_buffer]. intros kv Hk. apply in_app_or in Hk as [Hk|[<- |[]]]; [now apply J|].
    cbn [fst]. now apply C.
  - pose proof (co_step_frame S G c (hear_event n) c1 o1 H) as [A _]. cbn [hear_event writes_ev] in A.
    assert (B : agree FBuffer c c1).
    { apply A. intros W. apply writes_part in W; [|assumption].
      unfold kind_of in W. destruct ((_ =? POST_BRIDGE) || _ || _); [cbn in W; intuition discriminate|].
      destruct (_ =? Net.VOTE); [cbn in W; intuition discriminate|].
      destruct (_ =? CLIENT_REGISTER_SERVERSIDE) eqn:E2; [apply Z.eqb_eq in E2; contradiction|].
      destruct (he_ty n =? CLIENT_REGISTER_CONTROLLERSIDE); cbn in W; intuition discriminate. }
    cbn in B. rewrite B. exact J.
Qed.

(** When an action and the handling of a message may change places: the action writes nothing
    the handler touches, and does the same on what the handler leaves behind. *)
Lemma op_swap S G (inv : place -> Prop) (op : action) n : is_spare (he_ty n) = true ->
  let k := kind_of (he_ty n) in
  (forall c l c1 l1 o, inv (c, l) -> op (c, l) = Some ((c1, l1), o) ->
     (forall f, In f (reads k) -> agree f c c1) /\
     (he_ty n = REQUEST_BRIDGES -> forall nym, req_nym S (he_par n) = Some nym -> mget (co_ecomms c1) nym = mget (co_ecomms c) nym)) ->
  (forall c l c' o, co_handle S G c (he_ty n) (he_par n) (he_src n) (he_rn n) = Some (c', o) ->
     op (c', l) = option_map (fun r => ((put k c' (fst (fst r)), snd (fst r)), snd r)) (op (c, l))) ->
  swaps inv op (hear S G n).
Proof.
  intros Sp k A B [c l] J. unfold swap_at, perform. 
  destruct (op (c, l)) as [[[c1 l1] o1]|] eqn:E1; unfold hear; cbn [fst snd].
  - destruct (A _ _ _ _ _ J E1) as [A1 A2]. pose proof (fill_agree k c c1 A1) as F1.
    assert (H1 : co_handle S G c1 (he_ty n) (he_par n) (he_src n) (he_rn n) =
      lift (fill k c1) (co_handle S G c (he_ty n) (he_par n) (he_src n) (he_rn n))).
    { rewrite F1 at 1. apply handle_frame; [assumption|exact A2]. }
    rewrite H1. destruct (co_handle S G c _ _ _ _) as [[c' o]|] eqn:E; [|exact I]. cbn [lift option_map fst snd].
    rewrite (B _ _ _ _ E), E1. cbn [option_map fst snd rel]. split; [|rewrite !app_nil_r; apply Permutation_app_comm].
    split; [|reflexivity]. cbn [fst]. pose proof (handle_put _ _ _ _ _ _ Sp E) as P. fold k in P.
    replace (fill k c1 c') with (put k c' c1); [apply same_refl|].
    rewrite P. rewrite F1. clear. clearbody k. destruct c, k; reflexivity.
  - destruct (co_handle S G c _ _ _ _) as [[c' o]|] eqn:E; [|exact I]. cbn [fst snd].
    rewrite (B _ _ _ _ E), E1. exact I.
Qed.

Definition plain (k : kind) (op : action) : Prop :=
  (forall c l c1 l1 o, op (c, l) = Some ((c1, l1), o) ->
     (forall f, In f (reads k) -> agree f c c1) /\ co_ecomms c1 = co_ecomms c) /\
  (forall v c l, op (put k v c, l) = option_map (fun r => ((put k v (fst (fst r)), snd (fst r)), snd r)) (op (c, l))).

Lemma plain_swap S G inv op n : is_spare (he_ty n) = true -> plain (kind_of (he_ty n)) op -> swaps inv op (hear S G n).
Proof.
  intros Sp [A B]. apply op_swap; [assumption| |].
  - intros c l c1 l1 o _ E. destruct (A _ _ _ _ _ E) as [A1 A2]. split; [exact A1|]. intros _ nym _. now rewrite A2.
  - intros c l c' o E. apply (handle_put _ _ _ _ _ _ Sp) in E. rewrite E at 1. apply B.
Qed.

(** Actions that do not read ReputationDiffMap. *)
Lemma plain_respects op : (forall v c l, op (put KVote v c, l) =
    option_map (fun r => ((put KVote v (fst (fst r)), snd (fst r)), snd r)) (op (c, l))) ->
  (forall c l c1 l1 o, op (c, l) = Some ((c1, l1), o) -> co_diffs c1 = co_diffs c) -> respects op.
Proof.
  intros B A [c l] [d l'] [[E D] E']. cbn [fst snd] in *. subst l'. rewrite E.
  change (set_diffs c (co_diffs d)) with (put KVote d c). rewrite B.
  destruct (op (c, l)) as [[[c1 l1] o]|] eqn:H; [|exact I]. cbn [option_map fst snd rel]. split; [|reflexivity].
  split; [|reflexivity]. cbn [fst put]. split; [reflexivity|]. intros k. cbn [co_diffs set_diffs]. rewrite (A _ _ _ _ _ H). apply D.
Qed.
Lemma plain_vote_respects op : plain KVote op -> respects op.
Proof.
  intros [A B]. apply plain_respects; [exact B|]. intros c l c1 l1 o E. destruct (A _ _ _ _ _ E) as [A1 _].
  apply (A1 FDiffs). cbn. tauto.
Qed.

Definition quiet_buffer (op : action) : Prop :=
  forall c l c1 l1 o, op (c, l) = Some ((c1, l1), o) -> co_buffer c1 = co_buffer c \/ co_buffer c1 = [].
Lemma quiet_keeps R op : quiet_buffer op -> keeps (buffered_apart R) op.
Proof.
  intros Q [c l] [c1 l1] o J E. unfold buffered_apart in *. cbn [fst] in *.
  destruct (Q _ _ _ _ _ E) as [-> | ->]; [exact J|]. intros kv [].
Qed.

(** *** The actions one by one *)
Lemma write_plain k w : (forall c f, In f (reads k) -> agree f c (w c)) -> (forall c, co_ecomms (w c) = co_ecomms c) ->
  (forall v c, w (put k v c) = put k v (w c)) -> plain k (op_write w).
Proof.
  intros A B C. split; unfold op_write; cbn [fst snd].
  - intros c l c1 l1 o E. injection E as <- <- <-. split; [apply A|apply B].
  - intros v c l. now rewrite C.
Qed.
Lemma write_quiet w : (forall c, co_buffer (w c) = co_buffer c \/ co_buffer (w c) = []) -> quiet_buffer (op_write w).
Proof. intros A c l c1 l1 o E. injection E as <- <- <-. apply A. Qed.

Ltac plain_reader := split; [intros c l c1 l1 o E; cbn in E; injection E as <- <- <-; split; [intros; apply agree_refl|reflexivity]
  | intros v c l; match goal with k : kind |- _ => destruct k end; reflexivity].

Lemma read_h_plain S k : plain k (op_read_h S).
Proof. plain_reader. Qed.
Lemma to_servers_plain k ty : plain k (op_to_servers ty).
Proof. plain_reader. Qed.
Lemma to_clients_plain k ty : k <> KReg -> plain k (op_to_clients ty).
Proof.
  intros N. split; [intros c l c1 l1 o E; cbn in E; injection E as <- <- <-; split; [intros; apply agree_refl|reflexivity]|].
  intros v c l. destruct k; try contradiction; reflexivity.
Qed.
Lemma ready_plain k : plain k op_ready.
Proof.
  split.
  - intros c l c1 l1 o E. unfold op_ready in E. destruct (_ =? _); [|discriminate]. injection E as <- <- <-.
    split; [intros; apply agree_refl|reflexivity].
  - intros v c l. unfold op_ready. replace (co_status (put k v c)) with (co_status c) by (destruct k; reflexivity).
    destruct (_ =? _); reflexivity.
Qed.
Lemma status_plain k x : plain k (op_write (fun c => set_status c x)).
Proof.
  apply write_plain; [|reflexivity|intros v c; destruct k; reflexivity].
  intros c f H. destruct k; cbn in H; destruct f; cbn; try reflexivity; intuition discriminate.
Qed.
Lemma msglog_plain k : plain k (op_write (fun c => set_msglog c [])).
Proof.
  apply write_plain; [|reflexivity|intros v c; destruct k; reflexivity].
  intros c f H. destruct k; cbn in H; destruct f; cbn; try reflexivity; intuition discriminate.
Qed.
Lemma votes_plain k : plain k (op_write clear_votes).
Proof.
  apply write_plain; [|reflexivity|intros v c; destruct k; reflexivity].
  intros c f H. destruct k; cbn in H; destruct f; cbn; try reflexivity; intuition discriminate.
Qed.
Lemma buffer_plain k : k <> KConf -> plain k (op_write (fun c => set_buffer c [])).
Proof.
  intros N. apply write_plain; [|reflexivity|intros v c; destruct k; try contradiction; reflexivity].
  intros c f H. destruct k; try contradiction; cbn in H; destruct f; cbn; try reflexivity; intuition discriminate.
Qed.
Lemma reqs_plain k : k <> KBook -> plain k (op_write (fun c => set_reqs c (Some []))).
Proof.
  intros N. apply write_plain; [|reflexivity|intros v c; destruct k; try contradiction; reflexivity].
  intros c f H. destruct k; try contradiction; cbn in H; destruct f; cbn; try reflexivity; intuition discriminate.
Qed.
Lemma bridges_plain k : k <> KBook -> plain k (op_write clear_bridges).
Proof.
  intros N. apply write_plain; [|reflexivity|intros v c; destruct k; try contradiction; reflexivity].
  intros c f H. destruct k; try contradiction; cbn in H; destruct f; cbn; try reflexivity; intuition discriminate.
Qed.

Lemma add_fakes_put S k v l : forall c, add_fakes S (put k v c) l = put k v (add_fakes S c l).
Proof.
  unfold add_fakes. induction l as [|x l IH]; intros c; [reflexivity|]. cbn [fold_left]. rewrite <- IH. f_equal.
  destruct k; reflexivity.
Qed.
Lemma fakes_plain S k fakes : plain k (op_fakes S fakes).
Proof.
  apply write_plain.
  - intros c f H. destruct (co_first c); [|apply agree_refl].
    apply agree_trans with (add_fakes S c fakes).
    + apply add_fakes_frame. intros W. destruct k; cbn in H, W; intuition (subst; discriminate).
    + destruct k; cbn in H; destruct f; cbn; try reflexivity; intuition discriminate.
  - intros c. destruct (co_first c); [|reflexivity]. cbn [set_first co_ecomms].
    apply (add_fakes_frame S fakes c FEComms). cbn. intuition discriminate.
  - intros v c. replace (co_first (put k v c)) with (co_first c) by (destruct k; reflexivity).
    destruct (co_first c); [|reflexivity]. rewrite add_fakes_put. destruct k; reflexivity.
Qed.
Lemma fakes_quiet S fakes : quiet_buffer (op_fakes S fakes).
Proof.
  apply write_quiet. intros c. left. destruct (co_first c); [|reflexivity]. cbn [set_first co_buffer].
  apply (add_fakes_frame S fakes c FBuffer). cbn. intuition discriminate.
Qed.

Lemma first_server_plain k : plain k op_first_server.
Proof.
  split.
  - intros c l c1 l1 o E. unfold op_first_server in E.
    destruct (first_server c); injection E as <- <- <-; (split; [|reflexivity]); [intros; apply agree_refl|].
    intros f H. destruct k; cbn in H; destruct f; cbn; try reflexivity; intuition discriminate.
  - intros v c l. unfold op_first_server. replace (first_server (put k v c)) with (first_server c) by (destruct k; reflexivity).
    destruct (first_server c); destruct k; reflexivity.
Qed.
Lemma last_server_plain k : plain k op_last_server.
Proof.
  split.
  - intros c l c1 l1 o E. unfold op_last_server in E.
    destruct (last_server c); injection E as <- <- <-; (split; [|reflexivity]); [intros; apply agree_refl|].
    intros f H. destruct k; cbn in H; destruct f; cbn; try reflexivity; intuition discriminate.
  - intros v c l. unfold op_last_server. replace (last_server (put k v c)) with (last_server c) by (destruct k; reflexivity).
    destruct (last_server c); destruct k; reflexivity.
Qed.
Lemma announce_plain S k ord : plain k (op_announce S ord).
Proof.
  split.
  - intros c l c1 l1 o E. unfold op_announce in E.
    assert (W : c1 = c). { destruct (lo_srv l); [|congruence]. destruct (non_nil _); [|discriminate]. destruct (non_nil _); [|discriminate]. congruence. }
    subst c1. split; [intros; apply agree_refl|reflexivity].
  - intros v c l. unfold op_announce. destruct (lo_srv l); [|destruct k; reflexivity].
    replace (co_bkeys (put k v c)) with (co_bkeys c) by (destruct k; reflexivity).
    replace (co_bcomms (put k v c)) with (co_bcomms c) by (destruct k; reflexivity).
    replace (co_pb (put k v c)) with (co_pb c) by (destruct k; reflexivity).
    replace (co_addr (put k v c)) with (co_addr c) by (destruct k; reflexivity).
    destruct (non_nil _); [|reflexivity]. destruct (non_nil _); reflexivity.
Qed.
Lemma table_plain S k rs : plain k (op_table S rs).
Proof.
  split.
  - intros c l c1 l1 o E. unfold op_table, if_server in E. cbn [snd] in E.
    assert (W : c1 = c). { destruct (lo_srv l); [|congruence]. destruct (non_nil _); [|discriminate]. destruct (non_nil _); [|discriminate]. congruence. }
    subst c1. split; [intros; apply agree_refl|reflexivity].
  - intros v c l. unfold op_table, if_server. cbn [snd]. destruct (lo_srv l); [|destruct k; reflexivity].
    replace (co_pb (put k v c)) with (co_pb c) by (destruct k; reflexivity).
    replace (co_addr (put k v c)) with (co_addr c) by (destruct k; reflexivity).
    destruct (non_nil _); [|reflexivity]. destruct (non_nil _); reflexivity.
Qed.
Lemma if_server_plain k op : plain k op -> plain k (if_server (fun _ => op)).
Proof.
  intros [A B]. split; unfold if_server; cbn [snd].
  - intros c l c1 l1 o E. destruct (lo_srv l); [now apply (A c l c1 l1 o)|]. injection E as <- <- <-.
    split; [intros; apply agree_refl|reflexivity].
  - intros v c l. destruct (lo_srv l); [apply B|reflexivity].
Qed.
Lemma row_plain S k key r : k <> KVote -> plain k (op_row S key r).
Proof.
  intros N. split; unfold op_row, if_server; cbn [snd].
  - intros c l c1 l1 o E. destruct (lo_srv l); injection E as <- <- <-; (split; [intros; apply agree_refl|reflexivity]).
  - intros v c l. destruct (lo_srv l); destruct k; try contradiction; reflexivity.
Qed.

Lemma row_respects S key r : respects (op_row S key r).
Proof.
  intros [c l] [d l'] [[E D] E']. cbn [fst snd] in *. subst l'. unfold op_row, if_server. cbn [snd].
  destruct (lo_srv l); cbn [rel]; [|split; [split; [split; assumption|reflexivity]|reflexivity]].
  split; [|reflexivity]. split; [split; assumption|]. cbn [snd]. unfold rep_diff. rewrite D. rewrite E. reflexivity.
Qed.
Lemma row_vote_swap S G (inv : place -> Prop) key r n : he_ty n = Net.VOTE -> vote_target S (he_par n) <> Some key ->
  swaps inv (op_row S key r) (hear S G n).
Proof.
  intros T N. assert (Sp : is_spare (he_ty n) = true) by (rewrite T; reflexivity).
  assert (K : kind_of (he_ty n) = KVote) by (rewrite T; reflexivity).
  apply op_swap; [assumption| |].
  - intros c l c1 l1 o _ E. unfold op_row, if_server in E. cbn [snd] in E.
    destruct (lo_srv l); injection E as <- <- <-; (split; [intros; apply agree_refl|reflexivity]).
  - intros c l c' o E. rewrite (handle_vote S G n c T) in E.
    destruct (vote_form S G c (he_par n)) as (q & F & Ft). rewrite <- (own_diffs c), F in E.
    rewrite K. unfold op_row, if_server. cbn [snd].
    assert (W : exists x, c' = set_diffs c x /\ mget x key = mget (co_diffs c) key).
    { destruct q as [[[t f]|]|]; cbn [voted] in E; [| |discriminate]; injection E as <- _; eexists; (split; [reflexivity|]); [|reflexivity].
      apply mget_mset_ne. intros ->. apply N. now apply (Ft _ _ eq_refl). }
    destruct W as (x & -> & W). destruct (lo_srv l); [|now destruct c].
    cbn [option_map fst snd put]. unfold rep_diff. cbn [co_diffs set_diffs]. rewrite W. now destruct c.
Qed.

Lemma add_endings_put k v l : forall c,
  fold_left (fun c (kv : Z * Z) => add_ending c (fst kv) (snd kv)) l (put k v c) =
  put k v (fold_left (fun c (kv : Z * Z) => add_ending c (fst kv) (snd kv)) l c).
Proof. induction l as [|x l IH]; intros c; [reflexivity|]. cbn [fold_left]. rewrite <- IH. f_equal. destruct k; reflexivity. Qed.
Lemma add_endings_ecomms l key : forall c, (forall kv, In kv l -> fst kv <> key) ->
  mget (co_ecomms (fold_left (fun c (kv : Z * Z) => add_ending c (fst kv) (snd kv)) l c)) key = mget (co_ecomms c) key.
Proof.
  induction l as [|x l IH]; intros c N; [reflexivity|]. cbn [fold_left]. rewrite IH by (intros kv H; apply N; now right).
  cbn [add_ending co_ecomms set_ecomms]. apply mget_mset_ne. apply N. now left.
Qed.
Lemma new_clients_put k v c l : k <> KConf -> op_new_clients (put k v c, l) =
  option_map (fun r => ((put k v (fst (fst r)), snd (fst r)), snd r)) (op_new_clients (c, l)).
Proof.
  intros N. unfold op_new_clients, if_server. cbn [snd]. destruct (lo_srv l); [|reflexivity].
  unfold op_write. cbn [fst snd option_map].
  replace (co_buffer (put k v c)) with (co_buffer c) by (destruct k; try contradiction; reflexivity).
  now rewrite add_endings_put.
Qed.
Lemma new_clients_frame c l c1 l1 o : op_new_clients (c, l) = Some ((c1, l1), o) ->
  forall f, ~ In f [FEKeys; FEComms] -> agree f c c1.
Proof.
  unfold op_new_clients, if_server. cbn [snd]. destruct (lo_srv l); unfold op_write; cbn [fst snd]; intros E; injection E as <- <- <-;
    intros f Hf; [now apply fold_ending_frame|apply agree_refl].
Qed.
Lemma new_clients_respects : respects op_new_clients.
Proof.
  apply plain_respects; [intros; now apply new_clients_put|]. intros c l c1 l1 o E.
  apply (new_clients_frame _ _ _ _ _ E FDiffs). cbn. intuition discriminate.
Qed.
Lemma new_clients_quiet : quiet_buffer op_new_clients.
Proof.
  intros c l c1 l1 o E. left. apply (new_clients_frame _ _ _ _ _ E FBuffer). cbn. intuition discriminate.
Qed.
Lemma new_clients_swap S G (R : Z -> Prop) n : is_spare (he_ty n) = true -> kind_of (he_ty n) <> KConf ->
  (he_ty n = REQUEST_BRIDGES -> forall nym, req_nym S (he_par n) = Some nym -> R nym) ->
  swaps (buffered_apart R) op_new_clients (hear S G n).
Proof.
  intros Sp K Q. apply op_swap; [assumption| |].
  - intros c l c1 l1 o J E. split.
    + intros f Hf. apply (new_clients_frame _ _ _ _ _ E). intros W.
      destruct (kind_of (he_ty n)); cbn in Hf, W; intuition (subst; discriminate).
    + intros T nym Hn. unfold op_new_clients, if_server in E. cbn [snd] in E.
      destruct (lo_srv l); unfold op_write in E; cbn [fst snd] in E; injection E as <- <- <-; [|reflexivity].
      apply add_endings_ecomms. intros kv Hk Ek. apply (J kv Hk). rewrite Ek. now apply Q.
  - intros c l c' o E. apply (handle_put _ _ _ _ _ _ Sp) in E. rewrite E at 1. now apply new_clients_put.
Qed.

Ltac quiet_reader := let E := fresh in intros c l c1 l1 o E; left;
  unfold op_ready, op_first_server, op_last_server, op_announce, op_table, op_row, op_read_h, op_to_servers, op_to_clients, if_server in E; cbn [snd] in E;
  repeat match type of E with context [match ?x with _ => _ end] => destruct x; try discriminate E end; injection E as <- <- <-; reflexivity.
Lemma if_server_quiet op : quiet_buffer op -> quiet_buffer (if_server (fun _ => op)).
Proof. intros Q c l c1 l1 o E. unfold if_server in E. cbn [snd] in E. destruct (lo_srv l); [eapply Q; exact E|]. injection E as <- <- <-. now left. Qed.

(** ** Where the messages act *)
Fixpoint position (l : list Z) (k : Z) : option nat :=
  match l with [] => None | x :: r => if x =? k then Some 0%nat else option_map Datatypes.S (position r k) end.
Lemma position_nth l k : NoDup l -> forall i, (i < length l)%nat -> at_ l i = k -> position l k = Some i.
Proof.
  unfold at_. induction l as [|x l IH]; intros D i L E; cbn in L; [lia|]. inversion D as [|? ? Nx D']; subst x0 l0. cbn [position].
  destruct i as [|i]; cbn [nth] in E.
  - subst k. now rewrite Z.eqb_refl.
  - destruct (Z.eqb_spec x k) as [->|_]; [exfalso; apply Nx; rewrite <- E; apply nth_In; lia|].
    rewrite (IH D' i ltac:(lia) E). reflexivity.
Qed.

Definition point (S : suite) (e : event) (n : heard) : option nat :=
  match e, kind_of (he_ty n) with
  | EBegin _ _, KConf => Some 2%nat
  | EBegin _ _, KBook => Some 4%nat
  | EVotePhase, KReg => Some 1%nat
  | EEnd _ _, KConf => Some 1%nat
  | EEnd ord _, KVote =>
      olet t := vote_target S (he_par n) in option_map (fun i => (2 + i)%nat) (position ord t)
  | EEnd ord _, KReg => Some (3 + length ord)%nat
  | EEnd ord _, KBook => Some (4 + length ord)%nat
  | _, _ => None
  end.

(** No request is made under the key of a client that waits in NewClientsBuffer or is put there
    meanwhile. *)
Definition requests_apart (S : suite) (c : coord) (l : list heard) : Prop :=
  forall n k, In n l -> he_ty n = REQUEST_BRIDGES -> req_nym S (he_par n) = Some k ->
    (forall kv, In kv (co_buffer c) -> fst kv <> k) /\
    (forall n', In n' l -> he_ty n' = CLIENT_REGISTER_SERVERSIDE -> conf_key (he_par n') <> Some k).

Definition main_step (e : event) : Prop :=
  match e with EMsg _ _ _ _ => False | EEnd ord _ => NoDup ord | _ => True end.

Lemma actions_fine S e R : main_step e -> Forall (fun a => respects a /\ keeps (buffered_apart R) a) (actions S e).
Proof.
  assert (P : forall op, plain KVote op -> quiet_buffer op -> respects op /\ keeps (buffered_apart R) op).
  { intros op A B. split; [now apply plain_vote_respects|now apply quiet_keeps]. }
  destruct e as [ty p src rn| |fakes ord| |ord rs]; intros M; [contradiction| | | |]; cbn [actions].
  - apply Forall_forall. intros a Ha.
    repeat (destruct Ha as [<- | Ha]; [apply P|]); try contradiction;
      try apply read_h_plain; try apply to_servers_plain; try apply status_plain; try (apply write_quiet; intros c; cbn; tauto);
      quiet_reader.
  - apply Forall_forall. intros a Ha.
    repeat (destruct Ha as [<- | Ha]; [apply P|]); try contradiction;
      try apply ready_plain; try apply fakes_plain; try apply msglog_plain; try apply status_plain; try apply first_server_plain;
      try apply announce_plain; try (apply buffer_plain; discriminate); try (apply reqs_plain; discriminate);
      try apply fakes_quiet; try (apply write_quiet; intros c; cbn; tauto); quiet_reader.
  - apply Forall_forall. intros a Ha.
    repeat (destruct Ha as [<- | Ha]; [apply P|]); try contradiction;
      try apply votes_plain; try (apply to_clients_plain; discriminate); try (apply write_quiet; intros c; cbn; tauto); quiet_reader.
  - apply Forall_app. split; [|apply Forall_app; split].
    + constructor; [apply P; [apply last_server_plain|quiet_reader]|]. constructor; [|constructor].
      split; [apply new_clients_respects|apply quiet_keeps, new_clients_quiet].
    + apply Forall_forall. intros a Ha. unfold tab in Ha. apply in_map_iff in Ha as (i & <- & _).
      split; [apply row_respects|apply quiet_keeps; quiet_reader].
    + constructor; [apply P; [apply table_plain|quiet_reader]|].
      constructor; [apply P; [apply if_server_plain, to_clients_plain; discriminate|apply if_server_quiet; quiet_reader]|].
      constructor; [|constructor].
      apply P; [apply if_server_plain, bridges_plain; discriminate|apply if_server_quiet, write_quiet; intros c; cbn; tauto].
Qed.

Lemma settle_step S G R e s c :
  main_step e -> Forall (fun n => is_spare (he_ty n) = true) (heard_in s) -> buffered_apart R (c, no_locals) ->
  (forall n, In n (heard_in s) -> he_ty n = CLIENT_REGISTER_SERVERSIDE -> forall k, conf_key (he_par n) = Some k -> ~ R k) ->
  (match e with EEnd _ _ => True | _ => False end ->
   forall n, In n (heard_in s) -> he_ty n = REQUEST_BRIDGES -> forall k, req_nym S (he_par n) = Some k -> R k) ->
  exists before after, Permutation (before ++ after) (heard_in s) /\
    rel same_place (perform (weave S G (actions S e) s) (c, no_locals))
      (perform (map (hear S G) before ++ actions S e ++ map (hear S G) after) (c, no_locals)).
Proof.
  intros M Sp J Cf Rq. rewrite Forall_forall in Sp. apply (settle S G (buffered_apart R) (point S e)).
  - exact J.
  - now apply actions_fine.
  - apply Forall_forall. intros n Hn. split; [apply hear_respects; now apply Sp|]. apply hear_keeps; [now apply Sp|]. now apply Cf.
  - intros j a n Ej Hn Np. specialize (Sp n Hn). unfold point in Np.
    destruct e as [ty p src rn| |fakes ord| |ord rs]; [contradiction| | | |]; cbn [actions] in Ej.
    + destruct j as [|[|[|j]]]; cbn in Ej; [| | |destruct j; discriminate]; injection Ej as <-; apply plain_swap; try assumption;
        [apply read_h_plain|apply to_servers_plain|apply status_plain].
    + destruct j as [|[|[|[|[|[|[|[|[|j]]]]]]]]]; cbn in Ej; try (destruct j; discriminate); injection Ej as <-;
        apply plain_swap; try assumption;
        try apply ready_plain; try apply fakes_plain; try apply msglog_plain; try apply status_plain; try apply first_server_plain;
        try apply announce_plain; try (apply buffer_plain); try (apply reqs_plain);
        intros K; rewrite K in Np; now apply Np.
    + destruct j as [|[|j]]; cbn in Ej; try (destruct j; discriminate); injection Ej as <-; apply plain_swap; try assumption;
        [apply votes_plain|apply to_clients_plain]. intros K; rewrite K in Np; now apply Np.
    + assert (Hj : (j = 0 \/ j = 1 \/ (2 <= j < 2 + length ord) \/ 2 + length ord <= j)%nat) by lia.
      destruct Hj as [-> |[-> |[Hj|Hj]]].
      * cbn in Ej. injection Ej as <-. apply plain_swap; [assumption|apply last_server_plain].
      * cbn in Ej. injection Ej as <-. apply new_clients_swap; [assumption| |].
        -- intros K. rewrite K in Np. now apply Np.
        -- intros T k Hk. now apply (Rq I n Hn T).
      * rewrite nth_error_app2 in Ej by (cbn; lia). rewrite nth_error_app1 in Ej by (rewrite tab_length; cbn; lia).
        cbn [length] in Ej. unfold tab in Ej. rewrite nth_error_map in Ej.
        rewrite (nth_error_nth' _ 0%nat) in Ej by (rewrite seq_length; lia). cbn [option_map] in Ej.
        rewrite seq_nth in Ej by lia. injection Ej as <-. cbn [plus].
        destruct (kind_of (he_ty n)) eqn:K; try (apply plain_swap; [assumption|rewrite K; apply row_plain; discriminate]).
        apply row_vote_swap; [now apply kind_vote|]. intros T. rewrite T in Np.
        rewrite (position_nth ord _ M (j - 2) ltac:(lia) eq_refl) in Np. apply Np. cbn. f_equal. lia.
      * rewrite nth_error_app2 in Ej by (cbn; lia). rewrite nth_error_app2 in Ej by (rewrite tab_length; cbn; lia).
        rewrite tab_length in Ej. cbn [length] in Ej.
        destruct (j - 2 - length ord)%nat as [|[|[|i]]] eqn:Ei; cbn in Ej; try (destruct i; discriminate); injection Ej as <-;
          apply plain_swap; try assumption.
        -- apply table_plain.
        -- apply if_server_plain, to_clients_plain. intros K. rewrite K in Np. apply Np. f_equal. lia.
        -- apply if_server_plain, bridges_plain. intros K. rewrite K in Np. apply Np. f_equal. lia.
  - intros n n' Hn Hn' Np. pose proof (Sp n Hn) as S1. pose proof (Sp n' Hn') as S2.
    assert (D : kind_of (he_ty n) <> kind_of (he_ty n') \/ (kind_of (he_ty n) = kind_of (he_ty n'))).
    { destruct (kind_of (he_ty n)), (kind_of (he_ty n')); auto; left; discriminate. }
    destruct D as [D|D]; [now apply hear_swap|].
    unfold point in Np. rewrite <- D in Np.
    destruct e as [ty p src rn| |fakes ord| |ord rs]; [contradiction| | | |]; try (destruct (kind_of (he_ty n)); exfalso; now apply Np).
    destruct (kind_of (he_ty n)) eqn:K; try (exfalso; now apply Np).
    apply vote_swap; [now apply kind_vote|apply kind_vote; congruence|].
    intros t E E'. rewrite E, E' in Np. now apply Np.
Qed.

(** ** Back to whole events *)
Lemma perform_hears S G l c lo : perform (map (hear S G) l) (c, lo) =
  olet r := events S G c (map hear_event l) in Some ((fst r, lo), snd r).
Proof.
  revert c. induction l as [|n l IH]; intros c; [reflexivity|]. cbn [map perform events]. unfold hear at 1. cbn [co_step hear_event].
  destruct (co_handle S G c _ _ _ _) as [[c1 o1]|]; [|reflexivity]. cbn [fst snd]. rewrite IH.
  destruct (events S G c1 _) as [[c2 o2]|]; reflexivity.
Qed.
Lemma events_app S G a b c : events S G c (a ++ b) =
  olet r := events S G c a in olet r' := events S G (fst r) b in Some (fst r', snd r ++ snd r').
Proof.
  revert c. induction a as [|x a IH]; intros c; cbn [app events].
  - cbn. destruct (events S G c b) as [[s' o]|]; reflexivity.
  - destruct (co_step S G c x) as [[s1 o1]|]; [|reflexivity]. cbn [fst snd]. rewrite IH.
    destruct (events S G s1 a) as [[s2 o2]|]; [|reflexivity]. cbn [fst snd].
    destruct (events S G s2 b) as [[s3 o3]|]; [|reflexivity]. cbn [fst snd]. now rewrite app_assoc.
Qed.

Lemma perform_whole S G e before after c : main_step e ->
  (olet r := perform (map (hear S G) before ++ actions S e ++ map (hear S G) after) (c, no_locals) in Some (fst (fst r), snd r)) =
  events S G c (map hear_event before ++ [e] ++ map hear_event after).
Proof.
  intros M. rewrite perform_app, perform_hears, !events_app.
  destruct (events S G c (map hear_event before)) as [[c1 o1]|]; [|reflexivity]. cbn [fst snd].
  rewrite perform_app, events_app. cbn [events]. rewrite <- (alone S G c1 e) by (destruct e; [contradiction|exact I..]).
  destruct (perform (actions S e) (c1, no_locals)) as [[[c2 l2] o2]|]; [|reflexivity]. cbn [fst snd app].
  rewrite perform_hears, app_nil_r. destruct (events S G c2 _) as [[c3 o3]|]; reflexivity.
Qed.

Lemma during_settles S G c e s :
  main_step e -> Forall (fun n => is_spare (he_ty n) = true) (heard_in s) ->
  (match e with EEnd _ _ => True | _ => False end -> requests_apart S c (heard_in s)) ->
  exists before after, Permutation (before ++ after) (heard_in s) /\
    rel same (during S G c e s) (events S G c (map hear_event before ++ [e] ++ map hear_event after)).
Proof.
  intros M Sp Ra.
  set (R := fun k => match e with EEnd _ _ => True | _ => False end /\
    exists n, In n (heard_in s) /\ he_ty n = REQUEST_BRIDGES /\ req_nym S (he_par n) = Some k).
  destruct (settle_step S G R e s c M Sp) as (b & a & P & H).
  - intros kv Hk [T (n & Hn & Tn & En)]. destruct (Ra T n _ Hn Tn En) as [A _]. now apply (A kv Hk).
  - intros n Hn Tn k Ek [T (n' & Hn' & Tn' & En')]. destruct (Ra T n' _ Hn' Tn' En') as [_ B]. exact (B n Hn Tn Ek).
  - intros T n Hn Tn k Ek. split; [exact T|]. exists n. auto.
  - exists b, a. split; [exact P|]. rewrite <- perform_whole by assumption. unfold during.
    destruct (perform (weave _ _ _ _) _) as [[[c1 l1] o1]|], (perform (map _ b ++ _) _) as [[[c2 l2] o2]|]; cbn in H |- *; try contradiction; [|exact I].
    destruct H as [[H _] Po]. split; assumption.
Qed.
