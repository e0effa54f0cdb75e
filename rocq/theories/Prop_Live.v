(** C65 (the round protocol's own messages) and C66: no message of the round protocol stops
    the process that handles it, and every schedule gets a round opened and closed. *)
From Coq Require Import ZArith Znumtheory Lia List Bool Permutation.
From Coq Require Import Strings.Byte.
From Coq Require String.
From Verif Require Import ZMod Bytes Suite Spec Pedersen ElGamal FujiOkam Equality Codec Maps Net Bridge Client
  Perm SimpleShuffle PairShuffle Server Coordinator History System Chain Prop_Pedersen Prop_Codec Prop_Coord Prop_Topology Prop_Chain Round RoundInv
  Prop_Round Session Signing Progress Live.
Import ListNotations.
Import String.StringSyntax.
Open Scope Z_scope.
Delimit Scope string_scope with str.

(** ** Specification *)
(** The messages of the round protocol are those that are not [inert]: registration,
    announcement, its end, the round's end and the broadcast of the new base.  [surely n P]:
    in whatever order the messages of the round protocol are delivered, with whatever draws
    (that finish the shuffle proofs), nobody stops, after exactly [n] deliveries none is
    left, and then [P] holds. *)
Fixpoint surely (S : suite) (H : oracle) (G : gob) (n : nat) (P : sys -> Prop) (y : sys) (V : ledger) : Prop :=
  match n with
  | O => settled y /\ P y
  | Datatypes.S n' =>
      (exists i m, nth_error (y_msgs y) i = Some m /\ inert m = false) /\
      (forall i m cr sr chal, nth_error (y_msgs y) i = Some m -> inert m = false ->
         guard S y V (ADeliver i cr sr chal) -> draws_ok S H y m sr ->
         exists y', sys_step S H G y (ADeliver i cr sr chal) = Some y' /\
                    surely S H G n' P y' (ledger_step S y V (ADeliver i cr sr chal)))
  end.
(** How many of the actions [l] from [y] deliver a message of the round protocol. *)
Fixpoint round_deliveries (S : suite) (H : oracle) (G : gob) (y : sys) (l : list action) : nat :=
  match l with
  | [] => 0
  | a :: l' => ((if is_core y a then 1 else 0) +
                match sys_step S H G y a with Some y' => round_deliveries S H G y' l' | None => 0 end)%nat
  end.
Definition is_join (a : action) : bool := match a with AJoin _ _ _ => true | _ => false end.
Definition joins (l : list action) : nat := length (filter is_join l).
Definition n_servers (y : sys) : nat := length (co_servers (y_coord y)).
Definition n_clients (y : sys) : nat := length (co_clients (y_coord y)).
Definition round_over (y : sys) : Prop := co_status (y_coord y) = CO_READY_FOR_NEW_ROUND.

Section Live.
Context (S : suite) (OK : suite_ok S) (H : oracle) (G : gob) (GOK : gob_ok G).

(** *** C65 *)
(** Full property: no schedule of honest actions stops a process (refuted as stated, see
    Prop_Signing).  Proved here: the messages of the round protocol never do; missing: the
    requests of clients, whose handlers stop on votes and posts for unknown pseudonyms. *)
Theorem C65_round_messages_handled_partial y V a : reach S H G y V -> guard S y V a ->
  match a with
  | ADeliver i _ sr _ => exists m, nth_error (y_msgs y) i = Some m /\ inert m = false /\ draws_ok S H y m sr /\
      (mType m = Net.ROUND_END -> mDst m = co_addr (y_coord y) -> votes_in_table (y_coord y))
  | ALoop (EBegin _ _) => round_over y
  | ALoop _ => True
  | _ => False
  end -> sys_step S H G y a <> None.
Proof.
  intros R GU C. destruct a as [a priv rk|a priv s|i cr sr chal|e|a cmd]; try (destruct C; fail).
  - destruct C as (m & C1 & C2 & C3 & C4). exact (core_live S OK H G GOK y V i m cr sr chal R C1 C2 GU C3 C4).
  - destruct e as [ty p src rn| |fakes ord| |ord rs]; try (destruct GU; fail).
    + exact (begin_live S OK H G GOK y V fakes ord R C GU).
    + cbn [sys_step is_loop co_step begin_vote]. discriminate.
    + exact (end_live S OK H G GOK y V ord rs R GU).
Qed.

(** *** C66 *)
Lemma surely_by (Q P : sys -> Prop) :
  (forall y V i m cr sr chal, reach S H G y V -> Q y -> nth_error (y_msgs y) i = Some m -> inert m = false ->
     guard S y V (ADeliver i cr sr chal) -> draws_ok S H y m sr ->
     exists y', sys_step S H G y (ADeliver i cr sr chal) = Some y' /\ Q y') ->
  (forall y V, reach S H G y V -> Q y -> settled y -> P y) ->
  forall n y V, reach S H G y V -> Q y -> due y = n -> surely S H G n P y V.
Proof.
  intros ST FI. induction n as [|n IH]; intros y V R HQ D; cbn [surely].
  - assert (SE : settled y) by (now apply settled_due). split; [assumption|]. exact (FI y V R HQ SE).
  - split; [apply due_core; lia|]. intros i m cr sr chal EM IM GU DR.
    destruct (ST y V i m cr sr chal R HQ EM IM GU DR) as (y' & E & HQ'). exists y'. split; [assumption|].
    apply IH; [exact (r_step S H G y V _ y' R GU E)|assumption|].
    pose proof (drop_core S OK H G y V i cr sr chal y' m (reach_inv S OK H G GOK y V R) EM IM E). lia.
Qed.

Theorem C66_round_opens y V fakes ord : reach S H G y V -> round_over y -> guard S y V (ALoop (EBegin fakes ord)) ->
  exists y1, sys_step S H G y (ALoop (EBegin fakes ord)) = Some y1 /\
    surely S H G (2 * n_servers y + n_clients y + 1) open_round y1 (ledger_step S y V (ALoop (EBegin fakes ord))).
Proof.
  intros R ST GU. pose proof (begin_live S OK H G GOK y V fakes ord R ST GU) as L. pose proof (reach_inv S OK H G GOK y V R) as I.
  destruct (sys_step S H G y (ALoop (EBegin fakes ord))) as [y1|] eqn:E; [|contradiction]. exists y1. split; [reflexivity|].
  destruct (due_begin S H G y V fakes ord y1 I GU E) as (D & _ & _ & D2 & D3).
  apply (surely_by (fun y => opening y)).
  - intros y2 V2 i m cr sr chal R2 O2 EM IM GU2 DR.
    assert (L2 : sys_step S H G y2 (ADeliver i cr sr chal) <> None).
    { apply (core_live S OK H G GOK y2 V2 i m cr sr chal R2 EM IM GU2 DR). intros T _. exfalso. destruct O2 as [_ O2]. apply (O2 m); [now apply nth_error_In in EM|assumption]. }
    destruct (sys_step S H G y2 (ADeliver i cr sr chal)) as [y3|] eqn:E2; [|contradiction]. exists y3. split; [reflexivity|].
    exact (opening_step S H G y2 V2 _ y3 O2 GU2 eq_refl E2).
  - intros y2 V2 R2 O2 SE. exact (opening_settled S G y2 V2 (reach_inv S OK H G GOK y2 V2 R2) O2 SE).
  - exact (r_step S H G y V _ y1 R GU E).
  - split; [|assumption]. intros X. rewrite X in D2. discriminate D2.
  - exact D.
Qed.

Theorem C66_round_closes y V ord rs : reach S H G y V -> guard S y V (ALoop (EEnd ord rs)) -> votes_in_table (y_coord y) ->
  exists y1, sys_step S H G y (ALoop (EEnd ord rs)) = Some y1 /\
    surely S H G (n_servers y + 2 * n_clients y + 1) round_over y1 (ledger_step S y V (ALoop (EEnd ord rs))).
Proof.
  intros R GU VT. pose proof (end_live S OK H G GOK y V ord rs R GU) as L. pose proof (reach_inv S OK H G GOK y V R) as I.
  destruct (sys_step S H G y (ALoop (EEnd ord rs))) as [y1|] eqn:E; [|contradiction]. exists y1. split; [reflexivity|].
  destruct (due_end S H G y V ord rs y1 I GU E) as (D & _ & _ & D2).
  apply (surely_by (fun y => closing y /\ (ending y -> votes_in_table (y_coord y)))).
  - intros y2 V2 i m cr sr chal R2 [O2 O3] EM IM GU2 DR. pose proof (reach_inv S OK H G GOK y2 V2 R2) as I2.
    assert (L2 : sys_step S H G y2 (ADeliver i cr sr chal) <> None).
    { apply (core_live S OK H G GOK y2 V2 i m cr sr chal R2 EM IM GU2 DR). intros T Ed. apply O3. destruct O2 as [O2|O2]; [|assumption]. exfalso.
      destruct I2 as [B P]. assert (IC : In m (core (y_msgs y2))) by (apply core_in; split; [now apply nth_error_In in EM|assumption]).
      destruct P as [T' A|T' j p keys vals GT HT A|T0 T1 K A|T' n M1 p keys vals GT HT A].
      - pose proof (self_not_cl _ _ _ _ _ B) as NC. pose proof (p1_msg _ _ _ _ _ _ _ A) as F. rewrite Forall_forall in F.
        destruct (F m IC) as [[_ X]|[[_ X]|[_ X]]]; rewrite Ed in X; [|congruence|congruence]. apply (in_chain _ _ _ _ _ _ B) in X. destruct X. congruence.
      - pose proof (p2_status _ _ _ _ _ _ _ _ _ _ _ _ _ _ A) as X. rewrite O2 in X. discriminate.
      - pose proof (p3_status _ _ _ _ _ _ _ _ _ A) as X. rewrite O2 in X. discriminate.
      - pose proof (p4_status _ _ _ _ _ _ _ _ _ _ _ _ _ _ _ A) as X. rewrite O2 in X. discriminate. }
    destruct (sys_step S H G y2 (ADeliver i cr sr chal)) as [y3|] eqn:E2; [|contradiction]. exists y3. split; [reflexivity|]. split.
    + exact (closing_step S H G y2 V2 _ y3 I2 O2 GU2 eq_refl E2).
    + exact (votes_keep S H G y2 V2 i m cr sr chal y3 I2 O2 GU2 EM IM O3 E2).
  - intros y2 V2 R2 [O2 _] SE. exact (closing_settled y2 O2 SE).
  - exact (r_step S H G y V _ y1 R GU E).
  - split; [now right|]. intros _. exact (votes_end S H G y V ord rs y1 I VT E).
  - exact D.
Qed.

Lemma servers_step y V a y' : inv S G y V -> guard S y V a -> sys_step S H G y a = Some y' -> co_servers (y_coord y') = co_servers (y_coord y).
Proof.
  intros I GU E. destruct a as [a priv rk|a priv s|i cr sr chal|e|a cmd]; cbn [sys_step] in E.
  - destruct GU.
  - destruct (keq a _); [discriminate|]. destruct (mget (y_servers y) a); [discriminate|].
    destruct (mget (y_clients y) a); [discriminate|]. now injection E as <-.
  - destruct (nth_error (y_msgs y) i) as [m|] eqn:EM; [|discriminate]. cbn zeta in E.
    destruct (keq (mDst m) (co_addr (y_coord y))) as [Ed|Nd].
    + destruct (co_handle _ _ _ _ _ _ _) as [[c' out]|] eqn:EH; [|discriminate]. injection E as <-. cbn [y_coord].
      apply (co_servers_step S H G (y_coord y) (EMsg (mType m) (mParams m) (mSrc m) cr) c' out EH). intros ty p src rn X. injection X as <- _ _ _.
      pose proof (inv_types S H G y V I) as F. rewrite Forall_forall in F. apply nth_error_In in EM. specialize (F m EM). intros T. rewrite T in F. clear - F.
      cbn [In app round_types inert_types] in F. intuition discriminate.
    + destruct (mget (y_servers y) (mDst m)); [destruct (sv_handle _ _ _ _ _ _ _ _) as [[? ?]|]; [|discriminate]; now injection E as <-|].
      destruct (mget (y_clients y) (mDst m)); [|discriminate]. destruct (cl_handle _ _ _ _ _ _) as [[? ?]|]; [|discriminate]; now injection E as <-.
  - destruct e; try (destruct GU; fail); cbn [is_loop] in E; (destruct (co_step _ _ _ _) as [[c' out]|] eqn:ES; [|discriminate]); injection E as <-; cbn [y_coord];
      apply (co_servers_step S H G _ _ c' out ES); discriminate.
  - destruct (mget (y_clients y) a); [|discriminate]. destruct (cl_command _ _ _ _); [|discriminate]. now injection E as <-.
Qed.

(** Along any schedule at all, whatever else happens in between. *)
Lemma run_count y V l y' V' : goes S H G y V l y' V' -> reach S H G y V ->
  existsb is_begin l = false -> existsb is_end l = false ->
  (round_deliveries S H G y l + due y' = due y + joins l * (n_servers y + 3))%nat /\
  (opening y -> opening y') /\ (closing y -> closing y').
Proof.
  induction 1 as [y V|y V a y1 l y2 V2 GU E _ IH]; intros R NB NE.
  { unfold joins. cbn [round_deliveries filter length]. split; [lia|tauto]. }
  cbn [existsb] in NB, NE. apply orb_false_elim in NB, NE. destruct NB as [NB1 NB2], NE as [NE1 NE2].
  pose proof (reach_inv S OK H G GOK y V R) as I. pose proof (r_step S H G y V a y1 R GU E) as R1.
  destruct (IH R1 NB2 NE2) as (D & O & C). cbn [round_deliveries]. rewrite E. clear IH.
  assert (NS : n_servers y1 = n_servers y).
  { unfold n_servers. f_equal. exact (servers_step y V a y1 I GU E). }
  split; [|split].
  - rewrite NS in D. unfold joins in *. cbn [filter]. pose proof (due_other S H G y V a y1 GU E) as DO.
    destruct a as [a priv rk|a priv s|i cr sr chal|e|a cmd]; cbn [is_join is_core length] in *; try (destruct GU; fail).
    + fold (n_servers y) in DO. lia.
    + pose proof (due_deliver S OK H G y V i cr sr chal y1 I E) as DD. cbn [is_core] in DD. lia.
    + destruct e; try (destruct GU; fail); try discriminate. lia.
    + lia.
  - intros OP. apply O. exact (opening_step S H G y V a y1 OP GU NE1 E).
  - intros CL. apply C. exact (closing_step S H G y V a y1 I CL GU NB1 E).
Qed.

Theorem C66_opening_deliveries y V fakes ord y1 l y2 V2 : reach S H G y V -> guard S y V (ALoop (EBegin fakes ord)) ->
  sys_step S H G y (ALoop (EBegin fakes ord)) = Some y1 ->
  goes S H G y1 (ledger_step S y V (ALoop (EBegin fakes ord))) l y2 V2 -> existsb is_begin l = false -> existsb is_end l = false ->
  let total := (2 * n_servers y + n_clients y + 1 + joins l * (n_servers y + 3))%nat in
  (round_deliveries S H G y1 l <= total)%nat /\
  (round_deliveries S H G y1 l = total <-> settled y2) /\ (settled y2 -> open_round y2).
Proof.
  intros R GU E GO NB NE total. pose proof (reach_inv S OK H G GOK y V R) as I. pose proof (r_step S H G y V _ y1 R GU E) as R1.
  destruct (due_begin S H G y V fakes ord y1 I GU E) as (D & D1 & _ & D2 & D3).
  destruct (run_count _ _ _ _ _ GO R1 NB NE) as (C & O & _).
  assert (O1 : opening y1) by (split; [intros X; rewrite X in D2; discriminate D2|assumption]).
  assert (NS : n_servers y1 = n_servers y) by (unfold n_servers; now rewrite D1). rewrite NS in C. fold (n_servers y) (n_clients y) in D.
  split; [lia|]. split; [rewrite settled_due; lia|]. intros SE.
  exact (opening_settled S G y2 V2 (reach_inv S OK H G GOK y2 V2 (goes_reach _ _ _ _ _ _ _ _ GO R1)) (O O1) SE).
Qed.

Theorem C66_closing_deliveries y V ord rs y1 l y2 V2 : reach S H G y V -> guard S y V (ALoop (EEnd ord rs)) ->
  sys_step S H G y (ALoop (EEnd ord rs)) = Some y1 ->
  goes S H G y1 (ledger_step S y V (ALoop (EEnd ord rs))) l y2 V2 -> existsb is_begin l = false -> existsb is_end l = false ->
  let total := (n_servers y + 2 * n_clients y + 1 + joins l * (n_servers y + 3))%nat in
  (round_deliveries S H G y1 l <= total)%nat /\
  (round_deliveries S H G y1 l = total <-> settled y2) /\ (settled y2 -> round_over y2).
Proof.
  intros R GU E GO NB NE total. pose proof (reach_inv S OK H G GOK y V R) as I. pose proof (r_step S H G y V _ y1 R GU E) as R1.
  destruct (due_end S H G y V ord rs y1 I GU E) as (D & D1 & _ & D2).
  destruct (run_count _ _ _ _ _ GO R1 NB NE) as (C & _ & O).
  assert (NS : n_servers y1 = n_servers y) by (unfold n_servers; now rewrite D1). rewrite NS in C. fold (n_servers y) (n_clients y) in D.
  split; [lia|]. split; [rewrite settled_due; lia|]. intros SE. exact (closing_settled y2 (O (or_intror D2)) SE).
Qed.
End Live.

(** ** Non-vacuity *)
Import Prop_FujiOkam Prop_Codec Prop_Bridge Prop_Shuffle Prop_Assign.
Definition draws_okb (S : suite) (H : oracle) (y : sys) (a : action) : bool :=
  match a with
  | ADeliver i _ sr _ =>
      match nth_error (y_msgs y) i with
      | Some m => match mget (y_servers y) (mDst m) with
                  | Some s => let Y := mixed_keys S s m in let k := length Y in
                      Nat.leb k 1 || match ps_prove S H k (draw_perm (srU sr) k) (sG S) (sv_pub s) (srBeta sr)
                                             (tab k (fun _ => pt_mul_base S (sv_priv s))) Y (srPs sr) with Some _ => true | None => false end
                  | None => true
                  end
      | None => false
      end
  | _ => true
  end.
Lemma draws_okb_ok S H y i m cr sr chal : nth_error (y_msgs y) i = Some m -> draws_okb S H y (ADeliver i cr sr chal) = true -> draws_ok S H y m sr.
Proof.
  intros EM E _ s ES. unfold draws_okb in E. rewrite EM, ES in E. cbv zeta in E. unfold proof_made. cbv zeta. apply orb_true_iff in E. destruct E as [E|E].
  - left. now apply Nat.leb_le.
  - right. destruct (ps_prove _ _ _ _ _ _ _ _ _ _); discriminate.
Qed.
(** One particular order of deliveries, with draws that finish the proofs. *)
Fixpoint one_way (S : suite) (H : oracle) (G : gob) (n : nat) (y : sys) (V : ledger) : option sys :=
  match n with
  | O => Some y
  | Datatypes.S n' =>
      let a := tdl 0 y in
      if okb S false y V a && draws_okb S H y a && is_core y a then
        olet y' := sys_step S H G y a in one_way S H G n' y' (ledger_step S y V a)
      else None
  end.
(** [surely] speaks of that order. *)
Lemma one_way_surely S H G n P : forall y V y', surely S H G n P y V -> one_way S H G n y V = Some y' -> settled y' /\ P y'.
Proof.
  induction n as [|n IH]; cbn [surely one_way]; intros y V y' SU E; [injection E as <-; assumption|]. cbv zeta in E.
  destruct (okb S false y V (tdl 0 y) && draws_okb S H y (tdl 0 y) && is_core y (tdl 0 y)) eqn:EO; [|discriminate].
  apply andb_true_iff in EO. destruct EO as [EO E3]. apply andb_true_iff in EO. destruct EO as [E1 E2].
  apply okb_guard in E1. destruct E1 as [_ E1]. specialize (E1 eq_refl). unfold tdl in *. cbn [is_core] in E3.
  destruct (nth_error (y_msgs y) 0) as [m|] eqn:EM; [|discriminate E3]. apply negb_true_iff in E3.
  destruct SU as [_ SU]. destruct (SU _ _ _ _ _ EM E3 E1 (draws_okb_ok _ _ _ _ _ _ _ _ EM E2)) as (y1 & ES & SU1). rewrite ES in E. eapply IH; eassumption.
Qed.

(** Two servers and one client (with a fake one in the table): the round opens after six
    deliveries and closes after five. *)
Example C66_instance_opens : exists y V ord y1 y2, reach toy_suite toy_oracle toy_gob y V /\ round_over y /\
  guard toy_suite y V (ALoop (EBegin [] ord)) /\ sys_step toy_suite toy_oracle toy_gob y (ALoop (EBegin [] ord)) = Some y1 /\
  (2 * n_servers y + n_clients y + 1)%nat = 6%nat /\
  one_way toy_suite toy_oracle toy_gob 6 y1 (ledger_step toy_suite y V (ALoop (EBegin [] ord))) = Some y2 /\ open_round y2.
Proof.
  destruct (toy_run toy_ready1 (fun yv => let y := fst yv in let V := snd yv in let a := tbegin [] y in
      if okb toy_suite false y V a then
        olet y1 := sys_step toy_suite toy_oracle toy_gob y a in
        olet y2 := one_way toy_suite toy_oracle toy_gob 6 y1 (ledger_step toy_suite y V a) in
        Some (co_status (y_coord y), (2 * n_servers y + n_clients y + 1)%nat)
      else None) (Some (CO_READY_FOR_NEW_ROUND, 6%nat))) as (y & V & _ & R & F); [vm_compute; reflexivity|].
  cbv beta iota zeta in F. cbn [fst snd] in F. destruct (okb toy_suite false y V (tbegin [] y)) eqn:EO; [|discriminate F].
  destruct (sys_step toy_suite toy_oracle toy_gob y (tbegin [] y)) as [y1|] eqn:E1; [|discriminate F].
  destruct (one_way toy_suite toy_oracle toy_gob 6 y1 _) as [y2|] eqn:E2; [|discriminate F]. injection F as F1 F2.
  apply okb_guard in EO. destruct EO as [_ EO]. specialize (EO eq_refl). unfold tbegin in *.
  exists y, V. eexists. exists y1, y2. split; [assumption|]. split; [assumption|]. split; [exact EO|]. split; [exact E1|]. split; [exact F2|]. split; [exact E2|].
  destruct (C66_round_opens toy_suite toy_ok toy_oracle toy_gob toy_gob_ok y V _ _ R F1 EO) as (y1' & X & SU).
  assert (y1' = y1) by congruence. subst y1'. change ((2 * n_servers y + n_clients y + 1)%nat = 6%nat) in F2. rewrite F2 in SU. exact (proj2 (one_way_surely _ _ _ _ _ _ _ _ SU E2)).
Qed.
Definition votes_inb (c : coord) : bool := forallb (fun k => match mget (co_ekeys c) k with Some _ => true | None => false end) (mkeys (co_diffs c)).
Lemma votes_inb_ok c : votes_inb c = true -> votes_in_table c.
Proof.
  intros E nym N. unfold votes_inb in E. rewrite forallb_forall in E. destruct (mget (co_diffs c) nym) as [d|] eqn:ED; [|congruence].
  apply mget_In in ED. assert (I : In nym (mkeys (co_diffs c))) by (unfold mkeys; apply in_map_iff; now exists (nym, d)). specialize (E nym I).
  destruct (mget (co_ekeys c) nym); discriminate.
Qed.
Example C66_instance_closes : exists y V ord rs y1 y2, reach toy_suite toy_oracle toy_gob y V /\ votes_in_table (y_coord y) /\ co_diffs (y_coord y) <> [] /\
  guard toy_suite y V (ALoop (EEnd ord rs)) /\ sys_step toy_suite toy_oracle toy_gob y (ALoop (EEnd ord rs)) = Some y1 /\
  (n_servers y + 2 * n_clients y + 1)%nat = 5%nat /\
  one_way toy_suite toy_oracle toy_gob 5 y1 (ledger_step toy_suite y V (ALoop (EEnd ord rs))) = Some y2 /\ round_over y2.
Proof.
  destruct (toy_run (toy_upto_vote ++ dls 1) (fun yv => let y := fst yv in let V := snd yv in let a := tend y in
      if okb toy_suite false y V a then
        olet y1 := sys_step toy_suite toy_oracle toy_gob y a in
        olet y2 := one_way toy_suite toy_oracle toy_gob 5 y1 (ledger_step toy_suite y V a) in
        Some (votes_inb (y_coord y), mkeys (co_diffs (y_coord y)), (n_servers y + 2 * n_clients y + 1)%nat)
      else None) (Some (true, [12], 5%nat))) as (y & V & _ & R & F); [vm_compute; reflexivity|].
  cbv beta iota zeta in F. cbn [fst snd] in F. destruct (okb toy_suite false y V (tend y)) eqn:EO; [|discriminate F].
  destruct (sys_step toy_suite toy_oracle toy_gob y (tend y)) as [y1|] eqn:E1; [|discriminate F].
  destruct (one_way toy_suite toy_oracle toy_gob 5 y1 _) as [y2|] eqn:E2; [|discriminate F]. injection F as F1 F3 F2. apply votes_inb_ok in F1.
  apply okb_guard in EO. destruct EO as [_ EO]. specialize (EO eq_refl). unfold tend in *. cbv zeta in *.
  exists y, V. do 2 eexists. exists y1, y2. split; [assumption|]. split; [assumption|]. split; [intros X; rewrite X in F3; discriminate F3|]. split; [exact EO|]. split; [exact E1|]. split; [exact F2|]. split; [exact E2|].
  destruct (C66_round_closes toy_suite toy_ok toy_oracle toy_gob toy_gob_ok y V _ _ R EO F1) as (y1' & X & SU).
  assert (y1' = y1) by congruence. subst y1'. change ((n_servers y + 2 * n_clients y + 1)%nat = 5%nat) in F2. rewrite F2 in SU. exact (proj2 (one_way_surely _ _ _ _ _ _ _ _ SU E2)).
Qed.

Print Assumptions C65_round_messages_handled_partial.
Print Assumptions C66_round_opens.
Print Assumptions C66_round_closes.
Print Assumptions C66_opening_deliveries.
Print Assumptions C66_closing_deliveries.
