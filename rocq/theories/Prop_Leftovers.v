(** C108: what earlier rounds leave behind at the coordinator. *)
From Coq Require Import ZArith Znumtheory Lia List Bool Permutation.
From Coq Require Import Strings.Byte.
From Coq Require String.
From Verif Require Import ZMod Bytes Suite Spec Pedersen ElGamal FujiOkam Maps Codec Net Bridge Client Perm SimpleShuffle PairShuffle Server Coordinator History Launcher Race
  Prop_ElGamal Prop_FujiOkam Prop_Codec Prop_Bridge Prop_Assign Prop_Coord Prop_Replies.
Import ListNotations.
Import String.StringSyntax.
Open Scope Z_scope.
Delimit Scope string_scope with str.

(** ** Specification *)
(** The bridge [a] can be given out. *)
Definition free (c : coord) (a : bytes) : Prop := exists nym, mget (co_bridges c) a = Some (nym, false).
(** The step is a request, and the bridge [a] is given out for it. *)
Definition takes (st : step) (a : bytes) : Prop :=
  exists p src rn, stEvent st = EMsg REQUEST_BRIDGES p src rn /\ free (stBefore st) a /\ ~ free (stAfter st) a.
(** The step is a server's reply about assignments, [a] among them. *)
Definition answers (S : suite) (G : gob) (st : step) (a : bytes) : Prop :=
  exists p src rn ba l, stEvent st = EMsg GOT_SIGNS p src rn /\
    get_bytes p "assignments"%str = Some ba /\ dec_assignments S G ba = Some l /\ In a (map asAddr l).
(** In the history [t] the servers reply only about bridges that were given out in it. *)
Definition timely (S : suite) (G : gob) (t : list step) : Prop :=
  forall t1 st t2 a, t = t1 ++ st :: t2 -> answers S G st a -> exists st0, In st0 t1 /\ takes st0 a.
(** The coordinator keeps signatures on an assignment of the bridge [a]. *)
Definition in_log (c : coord) (a : bytes) : Prop := mget (co_asigs c) a <> None.
(** The property that a round is forgotten: the coordinator keeps signatures only for bridges
    given out since the latest end of a round. *)
Definition forgets (S : suite) (G : gob) : Prop :=
  forall self a0 fb trap gammas t c, run S G (init_coord S self a0 fb trap gammas) t c -> forall a, in_log c a ->
  exists t1 t2, t = t1 ++ t2 /\ (forall st, In st t2 -> forall ord rs, stEvent st <> EEnd ord rs) /\ exists st, In st t2 /\ takes st a.

(** ** The log of signatures *)
Section Log.
Context (S : suite) (G : gob).
Notation log := (amap bytes (list (option bytes) * Z)).

Lemma asigs_id c : set_asigs c (co_asigs c) = c.
Proof. now destruct c. Qed.
Lemma same_but_log c d : co_static d = co_static c -> (forall f, f <> FASigs -> agree f c d) -> d = set_asigs c (co_asigs d).
Proof.
  intros E A. destruct c, d.
  assert (X := A FServers ltac:(discriminate)); assert (X1 := A FStatus ltac:(discriminate)); assert (X2 := A FFirst ltac:(discriminate));
  assert (X3 := A FG ltac:(discriminate)); assert (X4 := A FClients ltac:(discriminate)); assert (X5 := A FBKeys ltac:(discriminate));
  assert (X6 := A FBComms ltac:(discriminate)); assert (X7 := A FBuffer ltac:(discriminate)); assert (X8 := A FMsgLog ltac:(discriminate));
  assert (X9 := A FReqs ltac:(discriminate)); assert (Y := A FVotes ltac:(discriminate)); assert (Y1 := A FBridges ltac:(discriminate));
  assert (Y2 := A FEKeys ltac:(discriminate)); assert (Y3 := A FEComms ltac:(discriminate)); assert (Y4 := A FDiffs ltac:(discriminate));
  assert (Y5 := A FKeys ltac:(discriminate)); assert (Y6 := A FPB ltac:(discriminate)). clear A. cbn in *. unfold set_asigs. cbn. subst. reflexivity.
Qed.

(** Steps other than requests and replies do not look at the log. *)
Lemma fakes_log M l : forall c, add_fakes S (set_asigs c M) l = set_asigs (add_fakes S c l) M.
Proof. induction l as [|x l IH]; intros c; [reflexivity|]. cbn [add_fakes fold_left]. exact (IH (add_rep c _ _)). Qed.
Lemma endings_log M l : forall c, fold_left (fun c kv => add_ending c (fst kv) (snd kv)) l (set_asigs c M) =
  set_asigs (fold_left (fun c (kv : Z * Z) => add_ending c (fst kv) (snd kv)) l c) M.
Proof. induction l as [|x l IH]; intros c; [reflexivity|]. cbn [fold_left]. exact (IH (add_ending c _ _)). Qed.
Lemma announce_log M ord c : announce S (set_asigs c M) ord = lift (fun c => set_asigs c M) (announce S c ord).
Proof.
  unfold announce. change (first_server (set_asigs c M)) with (first_server c). destruct (first_server c); [|reflexivity].
  change (co_bkeys (set_asigs c M)) with (co_bkeys c). change (co_bcomms (set_asigs c M)) with (co_bcomms c).
  destruct (non_nil _); [|reflexivity]. destruct (non_nil _); reflexivity.
Qed.
Lemma end_log M ord rs c : round_end S (set_asigs c M) ord rs = lift (fun c => set_asigs c M) (round_end S c ord rs).
Proof.
  unfold round_end. change (last_server (set_asigs c M)) with (last_server c). destruct (last_server c); [|reflexivity].
  change (co_buffer (set_asigs c M)) with (co_buffer c). cbv zeta. rewrite endings_log.
  set (c1 := fold_left _ (co_buffer c) c). change (co_ekeys (set_asigs c1 M)) with (co_ekeys c1).
  change (co_ecomms (set_asigs c1 M)) with (co_ecomms c1). destruct (non_nil _); [|reflexivity]. destruct (non_nil _); reflexivity.
Qed.
Lemma begin_log M fakes ord c : begin_round S (set_asigs c M) fakes ord = lift (fun c => set_asigs c M) (begin_round S c fakes ord).
Proof.
  unfold begin_round. change (co_status (set_asigs c M)) with (co_status c). destruct (negb _); [reflexivity|].
  change (co_first (set_asigs c M)) with (co_first c). cbv zeta. destruct (co_first c).
  - rewrite fakes_log. set (c1 := add_fakes S c fakes).
    exact (announce_log M ord (set_status (clear_buffer (set_first c1 false)) CO_ANNOUNCE)).
  - exact (announce_log M ord (set_status (clear_buffer c) CO_ANNOUNCE)).
Qed.
Definition uses_log (e : event) : Prop := match e with EMsg ty _ _ _ => ty = REQUEST_BRIDGES \/ ty = GOT_SIGNS | _ => False end.
Lemma plain_log M c e c' out : ~ uses_log e -> co_step S G c e = Some (c', out) ->
  co_step S G (set_asigs c M) e = Some (set_asigs c' M, out) /\ co_asigs c' = co_asigs c.
Proof.
  intros N E. assert (NW : ~ In FASigs (writes_ev e)).
  { destruct e as [ty p src rn| |fakes ord| |ord rs]; cbn [writes_ev uses_log] in *.
    - unfold writes. repeat match goal with |- context [?a =? ?b] => destruct (Z.eqb_spec a b) as [->|?]; [cbn; try (intuition discriminate)|] end; cbn; tauto.
    - cbn; intuition discriminate.
    - cbn; intuition discriminate.
    - cbn; intuition discriminate.
    - cbn; intuition discriminate. }
  split; [|exact (proj1 (co_step_frame S G c e c' out E) FASigs NW)].
  destruct e as [ty p src rn| |fakes ord| |ord rs]; cbn [co_step uses_log writes_ev] in *.
  - pose proof (dep_handle S G ty p src rn c (set_asigs c M) eq_refl) as D.
    assert (NR : ~ In FASigs (msg_reads ty)).
    { unfold msg_reads. repeat match goal with |- context [?a =? ?b] => destruct (Z.eqb_spec a b) as [->|?]; [cbn; try (intuition discriminate)|] end; cbn; tauto. }
    assert (D1 := D ltac:(intros f I; destruct f; try reflexivity; contradiction)). clear D. cbv beta in D1. rewrite E in D1.
    destruct (co_handle S G (set_asigs c M) ty p src rn) as [[d' od]|] eqn:ED; [|contradiction]. destruct D1 as [<- AW].
    destruct (co_step_frame S G c (EMsg ty p src rn) c' out E) as [F _].
    destruct (co_step_frame S G (set_asigs c M) (EMsg ty p src rn) d' out ED) as [F' _]. cbn [writes_ev] in F, F'.
    do 2 f_equal. replace M with (co_asigs d') by exact (F' FASigs NW).
    assert (ALL : forall f, f <> FASigs -> agree f c' d').
    { intros f NF. destruct (in_dec (fun x y : field => ltac:(decide equality) : {x = y} + {x <> y}) f (writes ty)) as [I|NI]; [now apply AW|].
      pose proof (F f NI) as A1. pose proof (F' f NI) as A2. destruct f; cbn in *; congruence. }
    apply same_but_log; [exact (ALL FStatic ltac:(discriminate))|exact ALL].
  - injection E as <- <-. reflexivity.
  - rewrite begin_log, E. reflexivity.
  - injection E as <- <-. reflexivity.
  - rewrite end_log, E. reflexivity.
Qed.

(** Requests write the entries of the bridges they take. *)
Lemma open_log l : forall c M c3, open_assignments S c l = Some c3 ->
  exists M3, open_assignments S (set_asigs c M) l = Some (set_asigs c3 M3) /\
    (forall a, In a (map asAddr l) -> mget M3 a = mget (co_asigs c3) a /\ mget M3 a <> None) /\
    (forall a, ~ In a (map asAddr l) -> mget M3 a = mget M a /\ mget (co_asigs c3) a = mget (co_asigs c) a).
Proof.
  induction l as [|x l IH]; intros c M c3 E; cbn [open_assignments] in *.
  - injection E as <-. exists M. split; [reflexivity|]. split; [intros a []|auto].
  - change (co_sign S (set_asigs c M)) with (co_sign S c). rewrite open_one in E. change (co_sign S c (enc_assignment S x)) with (co_sign S (set_asigs c M) (enc_assignment S x)).
    change (length (co_servers c)) with (length (co_servers (set_asigs c M))). rewrite open_one. change (co_asigs (set_asigs c M)) with M. change (co_servers (set_asigs c M)) with (co_servers c).
    change (co_sign S (set_asigs c M)) with (co_sign S c).
    match type of E with open_assignments S (set_asigs c ?m) l = _ => set (C1 := m) in * end.
    match goal with |- context [open_assignments S (set_asigs (set_asigs c M) ?m) l] => set (M1 := m) in * end.
    destruct (IH (set_asigs c C1) M1 c3 E) as (M3 & E3 & I3 & O3). change (set_asigs (set_asigs c C1) M1) with (set_asigs c M1) in E3.
    exists M3. change (set_asigs (set_asigs c M) M1) with (set_asigs c M1). split; [exact E3|].
    change (co_asigs (set_asigs c C1)) with C1 in O3. split.
    + intros a [<-|I]; [|now apply I3]. destruct (in_dec keq (asAddr x) (map asAddr l)) as [I|NI]; [now apply I3|].
      destruct (O3 _ NI) as [-> ->]. unfold M1, C1. rewrite !mget_mset_eq. split; [reflexivity|discriminate].
    + intros a NI. cbn [map In] in NI. destruct (O3 a ltac:(tauto)) as [-> ->]. unfold M1, C1. rewrite !mget_mset_ne by (intros Q; apply NI; left; congruence). auto.
Qed.
Lemma request_log M c p src rn c' out : co_request S G c p src rn = Some (c', out) ->
  exists M' L, co_request S G (set_asigs c M) p src rn = Some (set_asigs c' M', out) /\
    (forall a, In a L -> mget M' a = mget (co_asigs c') a /\ mget M' a <> None) /\
    (forall a, ~ In a L -> mget M' a = mget M a /\ mget (co_asigs c') a = mget (co_asigs c) a) /\
    (forall a, In a L <-> free c a /\ ~ free c' a).
Proof.
  intros E.
  assert (QUIET : c' = c -> co_request S G (set_asigs c M) p src rn = Some (set_asigs c M, out) ->
    exists M' L, co_request S G (set_asigs c M) p src rn = Some (set_asigs c' M', out) /\
    (forall a, In a L -> mget M' a = mget (co_asigs c') a /\ mget M' a <> None) /\
    (forall a, ~ In a L -> mget M' a = mget M a /\ mget (co_asigs c') a = mget (co_asigs c) a) /\
    (forall a, In a L <-> free c a /\ ~ free c' a)).
  { intros -> X. exists M, []. split; [exact X|]. split; [intros a []|]. split; [auto|]. intros a. cbn. tauto. }
  unfold co_request in *.
  destruct (get_int p "ind"%str) as [ind|]; [|discriminate].
  destruct (get_bytes p "signature"%str) as [sig|]; [|discriminate].
  destruct (get_bytes p "nym"%str) as [bn|]; [|discriminate].
  destruct (dec_point S bn) as [nymR|]; [|discriminate].
  destruct (msg_request p) as [m|]; [|discriminate]. cbv zeta in *.
  change (co_G (set_asigs c M)) with (co_G c) in *. change (co_pb (set_asigs c M)) with (co_pb c) in *.
  change (co_fb (set_asigs c M)) with (co_fb c) in *. change (co_ecomms (set_asigs c M)) with (co_ecomms c) in *.
  change (co_reqs (set_asigs c M)) with (co_reqs c) in *.
  destruct (negb (eg_verify S m nymR sig (co_G c))); [injection E as <- <-; now apply QUIET|].
  destruct (verify_ind S G (co_pb c) (co_fb c) p (mget (co_ecomms c) nymR)) as [ok|]; [|discriminate].
  destruct (negb ok); [injection E as <- <-; now apply QUIET|]. clear QUIET.
  destruct (co_reqs c) as [reqs|]; [|discriminate]. unfold assign_bridges in *.
  change (co_bridges (set_reqs (set_asigs c M) (Some (mset reqs nymR src)))) with (co_bridges c).
  change (co_bridges (set_reqs c (Some (mset reqs nymR src)))) with (co_bridges c) in E.
  destruct (get_bridges (Z.to_nat ind) (crBridges rn) (co_bridges c)) as [brs mp] eqn:EB.
  destruct (get_bridges_spec _ _ _ _ _ EB) as (ND & _ & I1 & O1 & _).
  assert (FR : forall x a, In a (map fst brs) <-> free c a /\ ~ free (set_asigs (set_bridges (set_reqs c (Some (mset reqs nymR src))) mp) x) a).
  { intros x a. unfold free. cbn [co_bridges set_asigs set_bridges]. split.
    - intros I. apply in_map_iff in I. destruct I as ((b & n) & <- & I). destruct (I1 _ _ I) as [A1 A2]. cbn [fst]. split; [eauto|].
      intros (n' & X). congruence.
    - intros [(n & A1) A2]. destruct (in_dec keq a (map fst brs)) as [I|NI]; [assumption|]. exfalso. apply A2. exists n. now rewrite O1. }
  change (set_bridges (set_reqs (set_asigs c M) (Some (mset reqs nymR src))) mp) with (set_asigs (set_bridges (set_reqs c (Some (mset reqs nymR src))) mp) M).
  set (l := map _ brs) in *. assert (AL : map asAddr l = map fst brs) by (unfold l; rewrite map_map; reflexivity).
  destruct l as [|a0 l0] eqn:El.
  - injection E as <- <-. exists M, []. split; [reflexivity|]. split; [intros a []|]. split; [auto|].
    intros a. cbn in AL. rewrite AL. apply (FR (co_asigs c)).
  - destruct (open_assignments S _ (a0 :: l0)) as [c3|] eqn:E3 in E; [|discriminate].
    destruct (open_log _ _ M _ E3) as (M3 & EM & J1 & J2). rewrite EM.
    assert (C3 : exists x, c3 = set_asigs (set_bridges (set_reqs c (Some (mset reqs nymR src))) mp) x).
    { match type of E3 with open_assignments S ?d ?k = _ => destruct (open_total S k d) as (x & X) end. rewrite X in E3. injection E3 as <-. eauto. }
    destruct C3 as (x3 & ->). exists M3, (map asAddr (a0 :: l0)).
    assert (EO : c' = set_asigs (set_bridges (set_reqs c (Some (mset reqs nymR src))) mp) x3) by (odestruct E; now injection E).
    split; [|split; [|split]].
    + odestruct E. injection E as <- <-. reflexivity.
    + rewrite EO. exact J1.
    + rewrite EO. exact J2.
    + intros a. rewrite AL, EO. apply FR.
Qed.

(** Replies use the entries of the bridges they are about. *)
Lemma got_loop_same j rq l : forall c M sigs o c' out, got_loop S G c j rq sigs l o = Some (c', out) ->
  (forall a, In a (map asAddr l) -> mget M a = mget (co_asigs c) a) ->
  exists M', got_loop S G (set_asigs c M) j rq sigs l o = Some (set_asigs c' M', out) /\
    (forall a, mget M a = mget (co_asigs c) a -> mget M' a = mget (co_asigs c') a) /\
    (forall a, mget (co_asigs c') a <> None <-> mget (co_asigs c) a <> None).
Proof.
  induction l as [|x l IH]; intros c M sigs o c' out E A; cbn [got_loop] in *.
  - injection E as <- <-. exists M. split; [reflexivity|]. split; [auto|tauto].
  - destruct (nth_error sigs 0) as [sig|]; [|discriminate]. unfold add_asig in *.
    change (co_asigs (set_asigs c M)) with M. rewrite (A (asAddr x)) by (now left).
    destruct (mget (co_asigs c) (asAddr x)) as [[sl n]|] eqn:EX; [|discriminate]. destruct (set_nth sl j (Some sig)) as [sl'|]; [|discriminate].
    set (v := (sl', n + 1)) in *.
    assert (AG : forall a, mget M a = mget (co_asigs c) a -> mget (mset M (asAddr x) v) a = mget (mset (co_asigs c) (asAddr x) v) a).
    { intros a Q. rewrite !mget_mset. now destruct (keq a (asAddr x)). }
    assert (LG : forall a, mget (mset (co_asigs c) (asAddr x) v) a <> None <-> mget (co_asigs c) a <> None).
    { intros a. rewrite mget_mset. destruct (keq a (asAddr x)) as [->|_]; [|tauto]. rewrite EX. split; discriminate. }
    unfold asigs_done in *. change (co_asigs (set_asigs c (mset (co_asigs c) (asAddr x) v))) with (mset (co_asigs c) (asAddr x) v) in *.
    change (co_asigs (set_asigs (set_asigs c M) (mset M (asAddr x) v))) with (mset M (asAddr x) v).
    rewrite mget_mset_eq in *. unfold v at 1 in E. unfold v at 1.
    change (co_servers (set_asigs (set_asigs c M) (mset M (asAddr x) v))) with (co_servers c).
    change (co_servers (set_asigs c (mset (co_asigs c) (asAddr x) v))) with (co_servers c) in E.
    destruct (n + 1 =? Z.of_nat (length (co_servers c)) + 1).
    + cbv zeta in *. change (co_bridges (set_asigs (set_asigs c M) (mset M (asAddr x) v))) with (co_bridges c).
      change (co_bridges (set_asigs c (mset (co_asigs c) (asAddr x) v))) with (co_bridges c) in E.
      set (br := mset (co_bridges c) (asAddr x) _) in *.
      change (set_bridges (set_asigs (set_asigs c M) (mset M (asAddr x) v)) br) with (set_asigs (set_bridges c br) (mset M (asAddr x) v)).
      change (set_bridges (set_asigs c (mset (co_asigs c) (asAddr x) v)) br) with (set_asigs (set_bridges c br) (mset (co_asigs c) (asAddr x) v)) in E.
      assert (GA : get_asigs (set_asigs (set_bridges c br) (mset M (asAddr x) v)) (asAddr x) =
                   get_asigs (set_asigs (set_bridges c br) (mset (co_asigs c) (asAddr x) v)) (asAddr x)).
      { unfold get_asigs. cbn [co_asigs set_asigs]. now rewrite !mget_mset_eq. }
      rewrite GA. change (co_sign S (set_asigs (set_bridges c br) (mset M (asAddr x) v))) with (co_sign S (set_asigs (set_bridges c br) (mset (co_asigs c) (asAddr x) v))).
      change (co_addr (set_asigs c M)) with (co_addr c).
      destruct (msg_got _) as [mg|]; [|discriminate]. destruct (send _ _ _ _) as [ms|]; [|discriminate].
      destruct (IH (set_asigs (set_bridges c br) (mset (co_asigs c) (asAddr x) v)) (mset M (asAddr x) v) _ _ _ _ E) as (M' & E' & S1 & S2).
      { intros a I. apply AG, A. now right. }
      exists M'. split; [exact E'|]. split; [intros a Q; apply S1, AG, Q|]. intros a. rewrite S2. apply LG.
    + destruct (IH (set_asigs c (mset (co_asigs c) (asAddr x) v)) (mset M (asAddr x) v) _ _ _ _ E) as (M' & E' & S1 & S2).
      { intros a I. apply AG, A. now right. }
      exists M'. split; [exact E'|]. split; [intros a Q; apply S1, AG, Q|]. intros a. rewrite S2. apply LG.
Qed.
Lemma got_same M c p src rn c' out : co_got S G c p src = Some (c', out) ->
  (forall a, answers S G (Step c (EMsg GOT_SIGNS p src rn) c' out) a -> mget M a = mget (co_asigs c) a) ->
  exists M', co_got S G (set_asigs c M) p src = Some (set_asigs c' M', out) /\
    (forall a, mget M a = mget (co_asigs c) a -> mget M' a = mget (co_asigs c') a) /\
    (forall a, mget (co_asigs c') a <> None <-> mget (co_asigs c) a <> None).
Proof.
  intros E A. unfold co_got in *. change (server_index (set_asigs c M)) with (server_index c). change (co_reqs (set_asigs c M)) with (co_reqs c).
  destruct (get_bool p "success"%str) as [ok|]; [|discriminate].
  assert (ID : Some (c, @nil msg) = Some (c', out) -> exists M', Some (set_asigs c M, @nil msg) = Some (set_asigs c' M', out) /\
    (forall a, mget M a = mget (co_asigs c) a -> mget M' a = mget (co_asigs c') a) /\
    (forall a, mget (co_asigs c') a <> None <-> mget (co_asigs c) a <> None)).
  { intros [= <- <-]. exists M. split; [reflexivity|]. split; [auto|tauto]. }
  destruct (negb ok); [now apply ID|]. destruct (server_index c src) as [j|]; [|now apply ID]. clear ID.
  destruct (get_bytes p "assignments"%str) as [ba|] eqn:EA; [|discriminate].
  destruct (dec_assignments S G ba) as [l|] eqn:EL; [|discriminate].
  destruct (get_bytes p "signatures"%str); [|discriminate]. destruct (gdec_2d G b) as [sigs|]; [|discriminate].
  destruct (nth_error l 0); [|discriminate]. destruct (asNymR a); [|discriminate].
  apply got_loop_same; [exact E|]. intros x I. apply A. do 5 eexists. split; [reflexivity|]. eauto.
Qed.

(** ** One step *)
Lemma uses_log_dec e : {uses_log e} + {~ uses_log e}.
Proof. destruct e; cbn; try (right; tauto). destruct (Z.eq_dec ty REQUEST_BRIDGES), (Z.eq_dec ty GOT_SIGNS); tauto. Qed.
Lemma log_step M c e c' out : co_step S G c e = Some (c', out) ->
  (forall a, answers S G (Step c e c' out) a -> mget M a = mget (co_asigs c) a) ->
  exists M', co_step S G (set_asigs c M) e = Some (set_asigs c' M', out) /\
    (forall a, mget M a = mget (co_asigs c) a \/ takes (Step c e c' out) a -> mget M' a = mget (co_asigs c') a) /\
    (forall a, in_log c' a <-> in_log c a \/ takes (Step c e c' out) a).
Proof.
  intros E A. destruct (uses_log_dec e) as [U|N].
  2:{ destruct (plain_log M c e c' out N E) as [E1 E2]. exists M. split; [exact E1|].
      assert (NT : forall a, ~ takes (Step c e c' out) a) by (intros a (p & src & rn & X & _); cbn in X; subst e; apply N; cbn; auto).
      split; [intros a [Q|T]; [now rewrite E2|now apply NT in T]|]. intros a. unfold in_log. rewrite E2. specialize (NT a). tauto. }
  destruct e as [ty p src rn| |fakes ord| |ord rs]; cbn [uses_log] in U; try contradiction. destruct U as [->| ->]; cbn [co_step] in *.
  - destruct (request_log M c p src rn c' out E) as (M' & L & E' & I1 & O1 & FR). exists M'. split; [exact E'|].
    assert (T : forall a, takes (Step c (EMsg REQUEST_BRIDGES p src rn) c' out) a <-> In a L).
    { intros a. rewrite FR. split; [intros (p' & s' & r' & _ & X); exact X|intros X; now exists p, src, rn]. }
    split.
    + intros a Q. destruct (in_dec keq a L) as [I|NI]; [now apply I1|]. destruct (O1 a NI) as [-> ->]. destruct Q as [Q|Q]; [exact Q|]. now apply T in Q.
    + intros a. rewrite T. unfold in_log. destruct (in_dec keq a L) as [I|NI].
      * destruct (I1 a I) as [Q1 Q2]. rewrite <- Q1. tauto.
      * destruct (O1 a NI) as [_ ->]. tauto.
  - destruct (got_same M c p src rn c' out E A) as (M' & E' & S1 & S2). exists M'. split; [exact E'|].
    assert (NT : forall a, ~ takes (Step c (EMsg GOT_SIGNS p src rn) c' out) a) by (intros a (p' & s' & r' & X & _); discriminate X).
    split; [intros a [Q|T]; [now apply S1|now apply NT in T]|]. intros a. unfold in_log. rewrite S2. specialize (NT a). tauto.
Qed.

(** ** The theorems *)
(** The coordinator keeps the signatures of every bridge it has ever given out, whatever
    happens, and of no other. *)
Theorem C108_log_exact : forall self a0 fb trap gammas t c, run S G (init_coord S self a0 fb trap gammas) t c ->
  forall a, in_log c a <-> exists st, In st t /\ takes st a.
Proof.
  intros self a0 fb trap gammas t c R. induction R as [|t c e c' out R IH E]; intros a.
  - split; [intros X; now destruct X|intros (st & [] & _)].
  - destruct (log_step (co_asigs c) c e c' out E ltac:(reflexivity)) as (_ & _ & _ & L). rewrite L, IH. split.
    + intros [(st & I & T)|T]; [exists st; split; [apply in_or_app; now left|exact T]|]. eexists. split; [apply in_or_app; right; now left|exact T].
    + intros (st & I & T). apply in_app_or in I. destruct I as [I|[<-|[]]]; [left; eauto|now right].
Qed.

(** From any state on, as long as the servers reply only about bridges given out from then on,
    the signatures kept at the start make no difference: with any others in their place the
    same events lead to the same messages and the same state, but for the signatures kept. *)
Lemma harmless : forall es c M t c' (K : bytes -> Prop), exec S G c es = Some (t, c') ->
  (forall a, K a -> mget M a = mget (co_asigs c) a) ->
  (forall t1 st t2 a, t = t1 ++ st :: t2 -> answers S G st a -> K a \/ exists st0, In st0 t1 /\ takes st0 a) ->
  exists t' M', exec S G (set_asigs c M) es = Some (t', set_asigs c' M') /\ map stOut t' = map stOut t.
Proof.
  induction es as [|e es IH]; intros c M t c' K E HK HT; cbn [exec] in *.
  - injection E as <- <-. exists [], M. split; reflexivity.
  - destruct (co_step S G c e) as [[c1 out]|] eqn:E1; [|discriminate]. destruct (exec S G c1 es) as [[t1 c2]|] eqn:E2; [|discriminate].
    injection E as <- <-.
    destruct (log_step M c e c1 out E1) as (M1 & F1 & F2 & _).
    { intros a A. apply HK. destruct (HT [] _ t1 a eq_refl A) as [X|(st0 & [] & _)]. exact X. }
    rewrite F1. destruct (IH c1 M1 t1 c2 (fun a => K a \/ takes (Step c e c1 out) a) E2) as (t' & M' & G1 & G2).
    + intros a Q. apply F2. destruct Q as [Q|Q]; [left; now apply HK|now right].
    + intros u1 st u2 a -> A. destruct (HT (Step c e c1 out :: u1) st u2 a eq_refl A) as [X|(st0 & [<-|I] & T)]; [left; now left|left; now right|right; eauto].
    + rewrite G1. do 2 eexists. split; [reflexivity|]. cbn [map stOut]. now rewrite G2.
Qed.
Theorem C108_leftovers_harmless : forall c M es t c', exec S G c es = Some (t, c') -> timely S G t ->
  exists t' M', exec S G (set_asigs c M) es = Some (t', set_asigs c' M') /\ map stOut t' = map stOut t.
Proof.
  intros c M es t c' E T. apply (harmless es c M t c' (fun _ => False) E); [tauto|].
  intros t1 st t2 a Q A. right. exact (T t1 st t2 a Q A).
Qed.
End Log.

(** ** The log is never emptied *)
Definition toy_b1 : bytes := [x62; x31]%byte.
Lemma toy_takes : exists t c p src out c', exec toy_suite toy_gob toy_c0 toy_setup = Some (t, c) /\
  toy_request = EMsg REQUEST_BRIDGES p src toy_rand /\ co_step toy_suite toy_gob c toy_request = Some (c', out) /\
  takes (Step c toy_request c' out) toy_b1.
Proof.
  do 6 eexists. split; [vm_compute; reflexivity|]. split; [vm_compute; reflexivity|]. split; [vm_compute; reflexivity|].
  do 3 eexists. split; [vm_compute; reflexivity|]. split.
  - eexists. vm_compute. reflexivity.
  - intros (n & X). vm_compute in X. discriminate.
Qed.
Theorem C108_forgets_refuted : ~ (forall S G, suite_ok S -> gob_ok G -> forgets S G).
Proof.
  intros F. specialize (F toy_suite toy_gob toy_ok toy_gob_ok).
  destruct (exec toy_suite toy_gob toy_c0 (toy_setup ++ [toy_request; EEnd [] []])) as [[t c]|] eqn:E; [|vm_compute in E; discriminate].
  pose proof (exec_run_from toy_suite toy_gob _ toy_c0 [] toy_c0 _ _ (run_nil _ _ _) E) as R. cbn [app] in R.
  destruct (F adC 5 toy_fb toy_trap [1; 2; 3] t c R toy_b1) as (t1 & t2 & Et & NE & st & I & _).
  - replace c with (match exec toy_suite toy_gob toy_c0 (toy_setup ++ [toy_request; EEnd [] []]) with Some (_, c) => c | None => toy_c0 end) by (now rewrite E).
    unfold in_log. vm_compute. discriminate.
  - destruct (exists_last (l := t2)) as (u & z & ->); [intros ->; destruct I|].
    assert (L : last t (Step toy_c0 EConfigure toy_c0 []) = z) by (rewrite Et, app_assoc; apply last_last).
    apply (NE z (in_elt z u []) [] []). rewrite <- L.
    replace t with (match exec toy_suite toy_gob toy_c0 (toy_setup ++ [toy_request; EEnd [] []]) with Some (t, _) => t | None => [] end) by (now rewrite E).
    vm_compute. reflexivity.
Qed.

(** ** Why the replies must be timely *)
(** One reply of one of the two servers.  With the entry the request has made it is only
    noted.  With none it stops the coordinator.  With an entry that a signature of an earlier
    round has been added to, it releases the assignment, with that signature. *)
Theorem C108_stale_reply_matters : exists t c M M' sent,
  exec toy_suite toy_gob toy_c0 (toy_setup ++ [toy_request]) = Some (t, c) /\
  (exists c', co_step toy_suite toy_gob c (toy_got adB [x07]%byte) = Some (c', [])) /\
  co_step toy_suite toy_gob (set_asigs c M) (toy_got adB [x07]%byte) = None /\
  mget M' toy_b1 = Some ([Some [x05]; None; Some []]%byte, 2) /\
  (exists c', co_step toy_suite toy_gob (set_asigs c M') (toy_got adB [x07]%byte) = Some (c', [sent])) /\
  releases toy_suite toy_gob sent toy_b1 [[x05]; [x07]; []]%byte.
Proof.
  do 2 eexists. exists [], [(toy_b1, ([Some [x05]; None; Some []]%byte, 2))]. eexists.
  split; [vm_compute; reflexivity|]. split; [eexists; vm_compute; reflexivity|]. split; [vm_compute; reflexivity|].
  split; [reflexivity|]. split; [eexists; vm_compute; reflexivity|].
  split; [reflexivity|]. do 3 eexists. repeat (split; [vm_compute; reflexivity|]). vm_compute. reflexivity.
Qed.

(** A concrete case: the request of a client, with the replies of both servers. *)
Example C108_instance : exists t0 c t c', exec toy_suite toy_gob toy_c0 toy_setup = Some (t0, c) /\
  exec toy_suite toy_gob c [toy_request; toy_got adA [x05]%byte; toy_got adB [x07]%byte] = Some (t, c') /\
  timely toy_suite toy_gob t /\ length (concat (map stOut t)) = 3%nat /\ (exists st, In st t /\ takes st toy_b1) /\
  exists a, in_log c' a.
Proof.
  destruct toy_takes as (t0 & c & p & src & out & c1 & E0 & ER & E1 & T).
  exists t0, c. destruct (exec toy_suite toy_gob c1 [toy_got adA [x05]%byte; toy_got adB [x07]%byte]) as [[t c']|] eqn:E2.
  2:{ exfalso. vm_compute in E0. injection E0 as _ <-. vm_compute in E1. injection E1 as <- _. vm_compute in E2. discriminate. }
  exists (Step c toy_request c1 out :: t), c'. split; [exact E0|]. split; [|split; [|split; [|split]]].
  - cbn [exec] in *. rewrite E1. now rewrite E2.
  - intros u1 st u2 a Q A. destruct u1 as [|s1 u1]; cbn [app] in Q; injection Q as Q1 Q2.
    + subst st. destruct A as (p' & s' & r' & ba & l & X & _). cbn in X. rewrite ER in X. discriminate.
    + subst s1. exists (Step c toy_request c1 out). split; [now left|].
      replace a with toy_b1; [exact T|]. destruct A as (p' & s' & r' & ba & l & X & B1 & B2 & I).
      assert (EV : stEvent st = toy_got adA [x05]%byte \/ stEvent st = toy_got adB [x07]%byte).
      { cbn [exec] in E2. destruct (co_step _ _ c1 _) as [[d1 o1]|]; [|discriminate]. destruct (co_step _ _ d1 _) as [[d2 o2]|]; [|discriminate].
        injection E2 as <- _. destruct u1 as [|s1 u1]; cbn [app] in Q2; injection Q2 as Q2 Q3; [left; now subst st|].
        destruct u1 as [|s2 u1]; cbn [app] in Q3; injection Q3 as Q3 Q4; [right; now subst st|]. destruct u1; discriminate. }
      destruct EV as [EV|EV]; rewrite EV in X; injection X as <- _ _; vm_compute in B1; injection B1 as <-; vm_compute in B2; injection B2 as <-;
        destruct I as [<-|[]]; reflexivity.
  - vm_compute in E0. injection E0 as _ <-. vm_compute in E1. injection E1 as <- <-. vm_compute in E2. injection E2 as <- _. reflexivity.
  - eexists. split; [now left|exact T].
  - exists toy_b1. vm_compute in E0. injection E0 as _ <-. vm_compute in E1. injection E1 as <- _. vm_compute in E2. injection E2 as _ <-. unfold in_log. vm_compute. discriminate.
Qed.

Print Assumptions C108_log_exact.
Print Assumptions C108_leftovers_harmless.
Print Assumptions C108_forgets_refuted.
Print Assumptions C108_stale_reply_matters.
