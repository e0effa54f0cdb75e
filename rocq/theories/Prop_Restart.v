(** C92: a server that is stopped and started again takes its place again.  Refuted: it
    is listed a second time, the links form a loop, and no round is ever closed again. *)
From Coq Require Import ZArith Znumtheory Lia List Bool Permutation.
From Coq Require Import Strings.Byte.
From Coq Require String.
From Verif Require Import ZMod Bytes Suite Spec Pedersen ElGamal FujiOkam Equality Codec Maps Net Bridge Client
  Perm SimpleShuffle PairShuffle Server Coordinator History System Chain Prop_Topology Prop_Chain Round RoundInv
  Prop_Pedersen Prop_ElGamal Prop_FujiOkam Prop_Shuffle Prop_Codec Prop_Bridge Prop_Assign Prop_Coord Prop_Round Restart.
Import ListNotations.
Import String.StringSyntax.
Open Scope Z_scope.
Delimit Scope string_scope with str.

(** ** Specification *)
(** The server at [a] is stopped and started again in [y], and everything that is sent
    because of its registration is delivered, in whatever order: [y1]. *)
Definition rejoins (S : suite) (H : oracle) (G : gob) (y : sys) (a : addr) (y1 : sys) : Prop :=
  exists priv rk l, Forall is_delivery l /\ sys_run S H G (restart S y a priv rk) l = Some y1 /\ y_msgs y1 = [].

(** A round begins. *)
Definition begins (a : action) : bool := match a with ALoop (EBegin _ _) => true | _ => false end.

(** The property: a service that is waiting for its next round can, after the restart of
    one server, still go through a round, i.e. begin the round and later the next one. *)
Definition recovers (S : suite) (H : oracle) (G : gob) : Prop :=
  forall y V a y1, reach S H G y V -> y_msgs y = [] -> In a (chain_addrs y) ->
  co_status (y_coord y) = CO_READY_FOR_NEW_ROUND -> rejoins S H G y a y1 ->
  exists l y2, Forall ordinary l /\ sys_run S H G y1 l = Some y2 /\ (2 <= length (filter begins l))%nat.

Section Restart.
Context (S : suite) (OK : suite_ok S) (H : oracle) (G : gob) (GOK : gob_ok G).

(** The facts about the state before that the rest depends on. *)
Lemma chain_facts y V : reach S H G y V ->
  let L := chain_addrs y in
  NoDup L /\ L <> [] /\ ~ In (co_addr (y_coord y)) L /\
  (forall i a, nth_error L i = Some a -> exists s, mget (y_servers y) a = Some s /\
    sv_next s = after L (co_addr (y_coord y)) i /\ sv_prev s = before L (co_addr (y_coord y)) i).
Proof.
  intros R L. destruct (reach_inv S OK H G GOK y V R) as [B _].
  split; [apply (b_nd _ _ _ _ _ B)|]. split; [|split].
  - unfold L, chain_addrs. pose proof (b_ne _ _ _ _ _ B). now destruct (co_servers (y_coord y)).
  - intros I. apply (b_srv _ _ _ _ _ B) in I. now apply I, (b_self _ _ _ _ _ B).
  - intros i a E. pose proof (proj1 (b_srv _ _ _ _ _ B a) (nth_error_In _ _ E)) as N.
    destruct (mget (y_servers y) a) as [s|] eqn:Es; [|congruence]. exists s. split; [reflexivity|].
    destruct (b_link _ _ _ _ _ B i a s E Es) as (A1 & A2 & _). auto.
Qed.

Lemma last_server_last c d : co_servers c <> [] -> last_server c = Some (last (map fst (co_servers c)) d).
Proof.
  intros N. unfold last_server. destruct (exists_last N) as (l & x & ->). rewrite rev_app_distr, map_app. cbn. now rewrite last_last.
Qed.

Lemma last_nth {A} (l : list A) d : l <> [] -> nth_error l (length l - 1) = Some (last l d).
Proof.
  intros N. destruct (exists_last N) as (r & x & ->). rewrite last_last, app_length. cbn [length].
  rewrite nth_error_app2 by lia. replace (length r + 1 - 1 - length r)%nat with 0%nat by lia. reflexivity.
Qed.

(** ** The links after the restart *)
(** The server is listed twice.  The server that was the last one hands everything on to
    the restarted one, which hands everything on to the coordinator; the restarted server
    returns the tables of a round end to the server that was the last one; everything
    else is as before. *)
Theorem C92_links : forall y V a y1, reach S H G y V -> y_msgs y = [] -> In a (chain_addrs y) -> rejoins S H G y a y1 ->
  let L := chain_addrs y in let self := co_addr (y_coord y) in let z := last L self in
  chain_addrs y1 = L ++ [a] /\ co_addr (y_coord y1) = self /\
  co_status (y_coord y1) = co_status (y_coord y) /\ y_clients y1 = y_clients y /\
  forall i x, nth_error L i = Some x -> exists s, mget (y_servers y1) x = Some s /\
    sv_prev s = (if keq x a then z else before L self i) /\
    sv_next s = (if keq x z then a else if keq x a then self else after L self i).
Proof.
  intros y V a y1 R M I (priv & rk & l & Fl & E & M1) L self z.
  destruct (chain_facts y V R) as (ND & NE & NS & LK). fold L self in ND, NE, NS, LK.
  assert (LZ : last_server (y_coord y) = Some z).
  { apply last_server_last. intros X. apply NE. unfold L, chain_addrs. now rewrite X. }
  assert (IZ : In z L) by (eapply nth_error_In; apply (last_nth L self NE)).
  assert (SV : forall x, In x L -> mget (y_servers y) x <> None).
  { intros x Ix. apply In_nth_error in Ix. destruct Ix as (i & Ei). destruct (LK i x Ei) as (s & -> & _). discriminate. }
  destruct (rejoined S H G y a z priv rk l y1 M LZ) as ((k & E1) & E2 & E3 & E4 & E5); auto; try (intros ->; now apply NS).
  split; [unfold chain_addrs; rewrite E1, map_app; reflexivity|]. repeat (split; [assumption|]).
  intros i x Ei. destruct (LK i x Ei) as (s & Es & N & P). destruct (E5 x s Es) as (s1 & Es1 & P1 & N1).
  exists s1. split; [assumption|]. rewrite P1, N1, P, N. split; reflexivity.
Qed.

Lemma nodup_index {A} (L : list A) i j x : NoDup L -> nth_error L i = Some x -> nth_error L j = Some x -> i = j.
Proof. intros ND Ei Ej. apply (NoDup_nth_error L); [assumption| |congruence]. apply nth_error_Some. congruence. Qed.

(** ** Round ends *)
(** The servers from the restarted one to the end of the list. *)
Definition behind (L : list addr) (a x : addr) : Prop :=
  exists i j, nth_error L i = Some a /\ nth_error L j = Some x /\ (i <= j)%nat.

Lemma restart_back y V a y1 : reach S H G y V -> y_msgs y = [] -> In a (chain_addrs y) -> rejoins S H G y a y1 ->
  flow true (behind (chain_addrs y) a) (fun _ => False) y1.
Proof.
  intros R M I RJ. destruct (C92_links y V a y1 R M I RJ) as (E1 & E2 & E3 & E4 & E5).
  destruct (chain_facts y V R) as (ND & NE & NS & _). set (L := chain_addrs y) in *.
  destruct (In_nth_error _ _ I) as (i & Ei).
  assert (M1 : y_msgs y1 = []) by (destruct RJ as (? & ? & ? & _ & _ & X); exact X).
  constructor.
  - exists a. split; [|exists i, i; auto]. unfold enter, last_server. unfold chain_addrs in E1.
    assert (X : nth_error (rev (map fst (co_servers (y_coord y1)))) 0 = Some a) by (rewrite E1, rev_app_distr; reflexivity).
    rewrite <- map_rev in X. destruct (rev (co_servers (y_coord y1))); cbn in X |- *; [discriminate|assumption].
  - rewrite E2. intros (? & j & _ & X & _). apply NS. eapply nth_error_In; eassumption.
  - intros x [].
  - intros x (i' & j & Ei' & Ej & LE). rewrite (nodup_index L i' i a ND Ei' Ei) in LE. clear i' Ei'.
    destruct (E5 j x Ej) as (s & Es & P & _). exists s. split; [assumption|]. left. cbn [link]. rewrite P.
    destruct (keq x a) as [->|N].
    + exists i, (length L - 1)%nat. split; [assumption|]. split; [now apply last_nth|].
      assert (i < length L)%nat by (apply nth_error_Some; congruence). lia.
    + destruct j as [|j]; [replace i with 0%nat in Ei by lia; congruence|]. cbn [before].
      assert (J : (j < length L)%nat) by (assert (Datatypes.S j < length L)%nat by (apply nth_error_Some; congruence); lia).
      exists i, j. split; [assumption|]. split; [now apply nth_error_nth'|].
      destruct (Nat.eq_dec i (Datatypes.S j)) as [->|]; [congruence|lia].
  - rewrite M1. intros m [].
  - rewrite M1. intros m [].
Qed.

Lemma begins_bound Q : forall l y y', Forall ordinary l -> flow true Q (fun _ => False) y -> sys_run S H G y l = Some y' ->
  (length (filter begins l) <= if (co_status (y_coord y) =? CO_READY_FOR_NEW_ROUND)%Z then 1 else 0)%nat.
Proof.
  induction l as [|b l IH]; intros y y' O F E; cbn [sys_run filter] in *; [destruct (_ =? _); cbn; lia|].
  inversion O; subst. destruct (sys_step S H G y b) as [y1|] eqn:E1; [|discriminate].
  assert (F1 : flow true Q (fun _ => False) y1) by (apply (flow_step S H G true Q _ y b y1); auto).
  specialize (IH y1 y' ltac:(assumption) F1 E).
  destruct (flow_back_step S H G Q y b y1 ltac:(assumption) F E1) as [ST _].
  destruct b as [x pv rk|x pv s|i cr sr chal|e|x cmd]; cbn [begins];
    try (destruct (Z.eqb_spec (co_status (y_coord y1)) CO_READY_FOR_NEW_ROUND) as [U|U];
         [rewrite (ST U), Z.eqb_refl; exact IH|destruct (_ =? _); lia]).
  destruct e as [ty p src rn| |fakes ord| |ord rs]; cbn [begins];
    try (destruct (Z.eqb_spec (co_status (y_coord y1)) CO_READY_FOR_NEW_ROUND) as [U|U];
         [rewrite (ST U), Z.eqb_refl; exact IH|destruct (_ =? _); lia]).
  cbn [length sys_step is_loop co_step] in *. unfold begin_round in E1.
  destruct (Z.eqb_spec (co_status (y_coord y)) CO_READY_FOR_NEW_ROUND) as [U|U]; [|discriminate]. cbn [negb] in E1.
  destruct (announce S _ ord) as [[c' out]|] eqn:EA; [|discriminate]. injection E1 as <-.
  assert (X : co_status c' <> CO_READY_FOR_NEW_ROUND).
  { unfold announce in EA. destruct (first_server _); [odestruct EA|]; injection EA as <- _; cbn; discriminate. }
  cbn [y_coord] in IH. destruct (Z.eqb_spec (co_status c') CO_READY_FOR_NEW_ROUND); [contradiction|]. lia.
Qed.

(** Whatever happens after the restart of a server: at most one more round begins (none if
    a round is under way), no round that is under way is ever closed, no table of a round
    end ever gets back to the coordinator, and no client's reputation ever changes. *)
Theorem C92_no_round_closes : forall y V a y1 l y2, reach S H G y V -> y_msgs y = [] -> In a (chain_addrs y) ->
  rejoins S H G y a y1 -> Forall ordinary l -> sys_run S H G y1 l = Some y2 ->
  (length (filter begins l) <= 1)%nat /\
  (co_status (y_coord y) <> CO_READY_FOR_NEW_ROUND ->
     length (filter begins l) = 0%nat /\ co_status (y_coord y2) <> CO_READY_FOR_NEW_ROUND) /\
  (forall m, In m (y_msgs y2) -> mType m = ROUND_END -> In (mDst m) (chain_addrs y)) /\
  (forall x k, mget (y_clients y) x = Some k -> exists k2, mget (y_clients y2) x = Some k2 /\ cl_rep k2 = cl_rep k).
Proof.
  intros y V a y1 l y2 R M I RJ O E. pose proof (restart_back y V a y1 R M I RJ) as F.
  destruct (C92_links y V a y1 R M I RJ) as (_ & _ & ES & EC & _).
  pose proof (begins_bound _ l y1 y2 O F E) as BB. rewrite ES in BB.
  destruct (flow_back_run S H G _ l y1 y2 O F E) as [ST CL]. rewrite ES in ST. rewrite EC in CL.
  split; [destruct (_ =? _); lia|]. split; [|split; [|exact CL]].
  - intros N. destruct (Z.eqb_spec (co_status (y_coord y)) CO_READY_FOR_NEW_ROUND); [contradiction|]. split; [lia|tauto].
  - intros m Im T. assert (F2 : flow true (behind (chain_addrs y) a) (fun _ => False) y2).
    { apply (flow_run S H G true _ _ (fun _ _ X => X) l y1 y2); auto. }
    destruct (fl_msgs _ _ _ _ F2 m Im) as [(? & j & _ & X & _)|[]]; [now rewrite T|]. eapply nth_error_In; eassumption.
Qed.

(** ** Announcements and registrations of clients *)
(** If the restarted server was not the last one: the servers behind it never see an
    announcement or the registration of a client again. *)
Theorem C92_servers_left_out : forall y V a y1 i j b l y2, reach S H G y V -> y_msgs y = [] ->
  nth_error (chain_addrs y) i = Some a -> nth_error (chain_addrs y) j = Some b -> (i < j)%nat ->
  rejoins S H G y a y1 -> Forall ordinary l -> sys_run S H G y1 l = Some y2 ->
  forall m, In m (y_msgs y2) -> mType m = ANNOUNCEMENT \/ mType m = CLIENT_REGISTER_SERVERSIDE -> mDst m <> b.
Proof.
  intros y V a y1 i j b l y2 R M Ei Ej LT RJ O E m Im T.
  assert (I : In a (chain_addrs y)) by (eapply nth_error_In; eassumption).
  destruct (C92_links y V a y1 R M I RJ) as (E1 & E2 & E3 & E4 & E5).
  destruct (chain_facts y V R) as (ND & NE & NS & _). set (L := chain_addrs y) in *. set (self := co_addr (y_coord y)) in *.
  assert (M1 : y_msgs y1 = []) by (destruct RJ as (? & ? & ? & _ & _ & X); exact X).
  set (Q := fun x => exists n, nth_error L n = Some x /\ (n <= i)%nat).
  assert (F : flow false Q (fun x => x = self) y1).
  { constructor.
    - destruct L as [|x0 L0] eqn:EL; [congruence|]. exists x0. split; [|exists 0%nat; split; [reflexivity|lia]].
      unfold enter, first_server. unfold chain_addrs in E1. destruct (co_servers (y_coord y1)); cbn in E1 |- *; congruence.
    - rewrite E2. intros (n & X & _). apply NS. eapply nth_error_In; eassumption.
    - intros x ->. now rewrite E2.
    - intros x (n & En & LE). destruct (E5 n x En) as (s & Es & _ & N). exists s. split; [assumption|]. cbn [link]. rewrite N.
      assert (JL : (j < length L)%nat) by (apply nth_error_Some; congruence).
      destruct (keq x (last L self)) as [X|X].
      { exfalso. rewrite X in En. pose proof (nodup_index L _ _ _ ND En (last_nth L self NE)). lia. }
      destruct (keq x a) as [|Xa]; [now right|]. left. exists (Datatypes.S n).
      assert (n <> i) by (intros ->; congruence). split; [|lia]. unfold after. apply nth_error_nth'. lia.
    - rewrite M1. intros w [].
    - rewrite M1. intros w []. }
  pose proof (flow_run S H G false Q (fun x => x = self) ltac:(discriminate) l y1 y2 O F E) as F2. intros D.
  destruct (fl_msgs _ _ _ _ F2 m Im) as [(n & En & LE)|X].
  - destruct T as [T|T]; now rewrite T.
  - rewrite D in En. pose proof (nodup_index L n j b ND En Ej). lia.
  - rewrite D in X. apply NS. rewrite <- X. eapply nth_error_In; eassumption.
Qed.

(** If it was the last one: no announcement and no registration of a client ever gets back
    to the coordinator, so no client joins, and no round gets to the phase in which
    bridges are posted and requested. *)
Theorem C92_last_server : forall y V y1 l y2, reach S H G y V -> y_msgs y = [] ->
  rejoins S H G y (last (chain_addrs y) (co_addr (y_coord y))) y1 -> Forall ordinary l -> sys_run S H G y1 l = Some y2 ->
  forall m, In m (y_msgs y2) -> mType m = ANNOUNCEMENT \/ mType m = CLIENT_REGISTER_SERVERSIDE ->
  mDst m <> co_addr (y_coord y) /\ In (mDst m) (chain_addrs y).
Proof.
  intros y V y1 l y2 R M RJ O E m Im T.
  destruct (chain_facts y V R) as (ND & NE & NS & _).
  set (z := last _ _) in *.
  assert (I : In z (chain_addrs y)) by (eapply nth_error_In; apply (last_nth _ _ NE)).
  destruct (C92_links y V z y1 R M I RJ) as (E1 & E2 & E3 & E4 & E5).
  set (L := chain_addrs y) in *. set (self := co_addr (y_coord y)) in *.
  assert (M1 : y_msgs y1 = []) by (destruct RJ as (? & ? & ? & _ & _ & X); exact X).
  assert (F : flow false (fun x => In x L) (fun _ => False) y1).
  { constructor.
    - destruct L as [|x0 L0] eqn:EL; [congruence|]. exists x0. split; [|now left].
      unfold enter, first_server. unfold chain_addrs in E1. destruct (co_servers (y_coord y1)); cbn in E1 |- *; congruence.
    - now rewrite E2.
    - intros x [].
    - intros x Ix. destruct (In_nth_error _ _ Ix) as (n & En). destruct (E5 n x En) as (s & Es & _ & N).
      exists s. split; [assumption|]. left. cbn [link]. rewrite N. fold z. destruct (keq x z) as [|X]; [assumption|].
      unfold after. apply nth_In. assert (n < length L)%nat by (apply nth_error_Some; congruence).
      destruct (Nat.eq_dec n (length L - 1)) as [Y|]; [|lia]. exfalso. apply X. rewrite Y, (last_nth L self NE) in En. now injection En.
    - rewrite M1. intros w [].
    - rewrite M1. intros w []. }
  pose proof (flow_run S H G false (fun x => In x L) (fun _ => False) ltac:(discriminate) l y1 y2 O F E) as F2.
  destruct (fl_msgs _ _ _ _ F2 m Im) as [X|[]].
  - destruct T as [T|T]; now rewrite T.
  - split; [|assumption]. intros D. rewrite D in X. contradiction.
Qed.

End Restart.
Print Assumptions C92_links.
Print Assumptions C92_no_round_closes.
Print Assumptions C92_servers_left_out.
Print Assumptions C92_last_server.

(** ** The property is refuted *)
(** Two servers A and B, between the first and the second round; one of them is
    restarted. *)
Definition toy_again (a : addr) (y : sys) : option sys :=
  sys_run toy_suite toy_oracle toy_gob (restart toy_suite y a 2 5) [dl 0 3; dl 0 3; dl 0 3; dl 0 3].

Lemma toy_rejoins a y y1 : toy_again a y = Some y1 -> y_msgs y1 = [] -> rejoins toy_suite toy_oracle toy_gob y a y1.
Proof.
  intros E M. exists 2, 5, [dl 0 3; dl 0 3; dl 0 3; dl 0 3]. split; [repeat constructor|]. split; [exact E|exact M].
Qed.

Theorem C92_recovers_refuted : ~ (forall S H G, suite_ok S -> gob_ok G -> recovers S H G).
Proof.
  intros C. specialize (C toy_suite toy_oracle toy_gob toy_ok toy_gob_ok).
  destruct (toy_run toy_ready1 (fun yv => (y_msgs (fst yv), chain_addrs (fst yv), co_status (y_coord (fst yv)),
      option_map (fun y1 => y_msgs y1) (toy_again adA (fst yv)))) ([], [adA; adB], CO_READY_FOR_NEW_ROUND, Some []))
    as (y & V & _ & R & F); [vm_compute; reflexivity|].
  cbn [fst] in F. injection F as F1 F2 F3 F4. destruct (toy_again adA y) as [y1|] eqn:E1; [|discriminate F4].
  cbn [option_map] in F4. injection F4 as F4.
  assert (I : In adA (chain_addrs y)) by (rewrite F2; now left).
  pose proof (toy_rejoins adA y y1 E1 F4) as RJ.
  destruct (C y V adA y1 R F1 I F3 RJ) as (l & y2 & O & E & B).
  destruct (C92_no_round_closes toy_suite toy_ok toy_oracle toy_gob toy_gob_ok y V adA y1 l y2 R F1 I RJ O E) as [X _]. lia.
Qed.
Print Assumptions C92_recovers_refuted.

(** Runs whose actions depend on the state, and the actions they take. *)
Fixpoint taken (l : list (sys -> action)) (y : sys) : list action :=
  match l with
  | [] => []
  | f :: r => f y :: match sys_step toy_suite toy_oracle toy_gob y (f y) with Some y1 => taken r y1 | None => [] end
  end.
Lemma taken_run l : forall y y', run_with toy_suite toy_oracle toy_gob l y = Some y' ->
  sys_run toy_suite toy_oracle toy_gob y (taken l y) = Some y'.
Proof.
  induction l as [|f l IH]; intros y y' E; [exact E|]. cbn [run_with taken sys_run] in *.
  destruct (sys_step toy_suite toy_oracle toy_gob y (f y)) as [y1|]; [|discriminate]. now apply IH.
Qed.
Lemma taken_ordinary l : forall y, Forall (fun f => forall z, ordinary (f z)) l -> Forall ordinary (taken l y).
Proof.
  induction l as [|f l IH]; intros y F; cbn [taken]; [constructor|]. inversion F; subst. constructor; [auto|].
  destruct (sys_step toy_suite toy_oracle toy_gob y (f y)); [now apply IH|constructor].
Qed.

(** A is restarted: the next round begins without B, and the table of its end goes from A
    to B, which has no entry for any of its keys and stops. *)
Example C92_instance : exists y V y1 l y2, reach toy_suite toy_oracle toy_gob y V /\ y_msgs y = [] /\
  chain_addrs y = [adA; adB] /\ co_status (y_coord y) = CO_READY_FOR_NEW_ROUND /\
  rejoins toy_suite toy_oracle toy_gob y adA y1 /\ chain_addrs y1 = [adA; adB; adA] /\
  Forall ordinary l /\ sys_run toy_suite toy_oracle toy_gob y1 l = Some y2 /\
  length (filter begins l) = 1%nat /\ co_status (y_coord y2) = CO_MESSAGE /\
  map (fun m => (mType m, mDst m)) (y_msgs y2) = [(ROUND_END, adB)] /\
  sys_step toy_suite toy_oracle toy_gob y2 (tdl 0 y2) = None.
Proof.
  set (l := [tbegin []] ++ dls 6 ++ [tend] ++ dls 2).
  assert (OL : Forall (fun f => forall z, ordinary (f z)) l)
    by (unfold l, dls; cbn [repeat app]; repeat (constructor; [exact (fun _ => Logic.I)|]); constructor).
  destruct (toy_run toy_ready1 (fun yv => (y_msgs (fst yv), chain_addrs (fst yv), co_status (y_coord (fst yv)),
      option_map (fun y1 => (y_msgs y1, chain_addrs y1, length (filter begins (taken l y1)),
        option_map (fun y2 => (co_status (y_coord y2), map (fun m => (mType m, mDst m)) (y_msgs y2), stops0 y2))
          (run_with toy_suite toy_oracle toy_gob l y1))) (toy_again adA (fst yv))))
      ([], [adA; adB], CO_READY_FOR_NEW_ROUND, Some ([], [adA; adB; adA], 1%nat, Some (CO_MESSAGE, [(ROUND_END, adB)], true))))
    as (y & V & _ & R & F); [vm_compute; reflexivity|].
  clearbody l. cbn [fst] in F. injection F as F1 F2 F3 F4. destruct (toy_again adA y) as [y1|] eqn:E1; [|discriminate F4].
  cbn [option_map] in F4. injection F4 as F4 F5 F6 F7.
  destruct (run_with toy_suite toy_oracle toy_gob l y1) as [y2|] eqn:E2; [|discriminate F7].
  cbn [option_map] in F7. injection F7 as F7 F8 F9.
  exists y, V, y1, (taken l y1), y2. repeat (split; [assumption|]). split; [now apply (toy_rejoins adA y y1)|].
  split; [assumption|]. split.
  { now apply taken_ordinary. }
  split; [now apply taken_run|]. repeat (split; [assumption|]).
  unfold stops0 in F9. now destruct (sys_step toy_suite toy_oracle toy_gob y2 (tdl 0 y2)).
Qed.

(** B is restarted: the announcement of the next round goes round at B. *)
Example C92_instance_last : exists y V y1 l y2, reach toy_suite toy_oracle toy_gob y V /\ y_msgs y = [] /\
  last (chain_addrs y) (co_addr (y_coord y)) = adB /\ rejoins toy_suite toy_oracle toy_gob y adB y1 /\
  Forall ordinary l /\ sys_run toy_suite toy_oracle toy_gob y1 l = Some y2 /\ length l = 7%nat /\
  map (fun m => (mType m, mDst m)) (y_msgs y2) = [(ANNOUNCEMENT, adB)].
Proof.
  set (l := [tbegin []] ++ dls 6).
  assert (OL : Forall (fun f => forall z, ordinary (f z)) l)
    by (unfold l, dls; cbn [repeat app]; repeat (constructor; [exact (fun _ => Logic.I)|]); constructor).
  destruct (toy_run toy_ready1 (fun yv => (y_msgs (fst yv), last (chain_addrs (fst yv)) (co_addr (y_coord (fst yv))),
      option_map (fun y1 => (y_msgs y1, length (taken l y1),
        option_map (fun y2 => map (fun m => (mType m, mDst m)) (y_msgs y2))
          (run_with toy_suite toy_oracle toy_gob l y1))) (toy_again adB (fst yv))))
      ([], adB, Some ([], 7%nat, Some [(ANNOUNCEMENT, adB)])))
    as (y & V & _ & R & F); [vm_compute; reflexivity|].
  clearbody l. cbn [fst] in F. injection F as F1 F2 F4. destruct (toy_again adB y) as [y1|] eqn:E1; [|discriminate F4].
  cbn [option_map] in F4. injection F4 as F4 F5 F7.
  destruct (run_with toy_suite toy_oracle toy_gob l y1) as [y2|] eqn:E2; [|discriminate F7].
  cbn [option_map] in F7. injection F7 as F7.
  exists y, V, y1, (taken l y1), y2. repeat (split; [assumption|]). split; [now apply (toy_rejoins adB y y1)|]. split.
  { now apply taken_ordinary. }
  split; [now apply taken_run|]. split; assumption.
Qed.
