(** C75: a bridge is credited to the client that posted it. *)
From Coq Require Import ZArith Znumtheory Lia List Bool Permutation.
From Coq Require Import Strings.Byte.
From Coq Require String.
From Verif Require Import ZMod Bytes Suite Spec Pedersen ElGamal FujiOkam Equality Codec Maps Net Bridge Client
  Perm SimpleShuffle PairShuffle Server Coordinator History System Chain Prop_Pedersen Prop_FujiOkam Prop_Codec Prop_Coord Prop_Topology Prop_Chain Round RoundInv
  Prop_Round Session Prop_Session Signing Prop_Signing Progress Live Prop_Live Delivery Enrol Conduct Prop_Conduct Tally Prop_Tally Posted.
Import ListNotations.
Import String.StringSyntax.
Open Scope Z_scope.
Delimit Scope string_scope with str.

Section Credit.
Context (S : suite) (OK : suite_ok S) (H : oracle) (G : gob) (GOK : gob_ok G).

(** C75: whatever assignment a client holds in an open round, the pseudonym it names is that
    of a client whose user posted this bridge in this round, and a vote on it counts for
    that client and no other. *)
Theorem C75_assignment_names_poster : forall y V P, noted S H G y V P -> fo_nonneg (co_fb (y_coord y)) -> open_round y ->
  forall a k x bs, mget (y_clients y) a = Some k -> In (x, bs) (cl_assigns k) ->
  exists b kb, mget (y_clients y) b = Some kb /\ In (asAddr x, cl_pub kb) P /\ asNym x = Some (nym_of S y (cl_pub kb)) /\
    (forall b' kb', mget (y_clients y) b' = Some kb' -> asNym x = Some (nym_of S y (cl_pub kb')) -> b' = b).
Proof.
  intros y V P NO NN O a k x bs Ek Ix. destruct (k_held _ _ _ _ (noted_back S OK H G GOK y V P NO NN O) a k x bs Ek Ix) as (n & E1 & q & I & E2).
  destruct (noted_clients S H G y V P NO _ _ I) as (b & kb & Eb & <-). exists b, kb. split; [assumption|]. split; [assumption|]. split; [congruence|].
  intros b' kb' Eb' E3. pose proof (reach_inv S OK H G GOK y V (orderly_reach S H G y V (noted_orderly S H G _ _ _ NO))) as IV. pose proof IV as [B _].
  apply (b_inj _ _ _ _ _ B b' b kb' kb Eb' Eb). apply (nym_inj S OK G y V _ _ IV); [apply (b_cl _ _ _ _ _ B _ _ Eb')|apply (b_cl _ _ _ _ _ B _ _ Eb)|congruence].
Qed.

(** The bridges the coordinator may hand out are those posted in this round. *)
Theorem C75_table_posted : forall y V P, noted S H G y V P -> fo_nonneg (co_fb (y_coord y)) ->
  forall b nb, mget (co_bridges (y_coord y)) b = Some (nb, false) ->
  exists q, In (b, q) P /\ nb = Some (nym_of S y q).
Proof.
  intros y V P NO NN b nb M. pose proof (orderly_hon S OK H G GOK y V (noted_orderly S H G _ _ _ NO) NN) as HO.
  destruct (k_tab _ _ _ _ (noted_back S OK H G GOK y V P NO NN (h_free _ _ _ HO b nb M)) b nb M) as (n & -> & q & I & <-). eauto.
Qed.

(** From posts and votes alone, without any mention of pseudonyms: when no address is posted
    by two clients in the same round, every client's reputation after a round is the starting
    credit plus all votes entered so far on bridges this client had posted. *)
Theorem C75_reputation_is_votes_on_posts : forall y V P L, honoured S H G y V P L -> fo_nonneg (co_fb (y_coord y)) -> Z.of_nat (length L) < 2 ^ 61 ->
  co_status (y_coord y) = CO_READY_FOR_NEW_ROUND -> settled y ->
  forall a k, mget (y_clients y) a = Some k ->
  cl_rep k = starting_credit + votes_for L (cl_pub k) /\
  exists R c, cl_R k = Some R /\ mget (co_bcomms (y_coord y)) (cl_pub k) = Some c /\ opens S y c (starting_credit + votes_for L (cl_pub k)) R.
Proof.
  intros y V P L HO NN. apply (C74_reputation_is_votes S OK H G GOK y V L); [|assumption]. exact (honoured_fair S OK H G GOK y V P L HO NN).
Qed.
(** Every vote that can be entered is in the list. *)
Theorem C75_vote_listed : forall y V P L, honoured S H G y V P L -> fo_nonneg (co_fb (y_coord y)) -> open_round y ->
  forall b k id f x bs, mget (y_clients y) b = Some k -> nth_error (cl_assigns k) (Z.to_nat id) = Some (x, bs) ->
  exists q, In (asAddr x, q) P /\ (forall q', In (asAddr x, q') P -> q' = q) /\ cast_on y P (ACommand b (CVote id f)) = [(q, if 0 <? f then 1 else -1)].
Proof.
  intros y V P L HO NN O b k id f x bs Ek EX. destruct (cast_backed S OK H G GOK y V P b k id f x bs (honoured_noted S H G _ _ _ _ HO) NN O Ek EX) as (q & I & _ & _).
  pose proof (honoured_single S H G _ _ _ _ HO) as SI. exists q. split; [assumption|]. split; [intros q' I'; exact (SI _ _ _ I' I)|].
  cbn [cast_on]. rewrite Ek, EX. cbn [fst]. now rewrite (poster_single P _ q SI I).
Qed.
End Credit.

(** ** A concrete session *)
Import Prop_Bridge Prop_Shuffle Prop_Assign.
Definition one_posterb (y : sys) (P : postings) (a : action) : bool :=
  match a with
  | ACommand b (CPost ad) => match mget (y_clients y) b with
      | Some k => forallb (fun t : bytes * Z => if keq (fst t) ad then snd t =? cl_pub k else true) P
      | None => true
      end
  | _ => true
  end.
Lemma one_posterb_ok y P a : one_posterb y P a = true -> one_poster y P a.
Proof.
  destruct a as [| | | |b [ad| |]]; cbn [one_posterb one_poster]; try exact (fun _ => I). intros E k q Ek J. rewrite Ek in E. rewrite forallb_forall in E.
  specialize (E _ J). cbn [fst snd] in E. destruct (keq ad ad); [now apply Z.eqb_eq|contradiction].
Qed.
Fixpoint honoured_play (l : list (sys -> action)) (y : sys) (V : ledger) (P : postings) (L : list (Z * Z)) : option (sys * ledger * postings * list (Z * Z)) :=
  match l with
  | [] => Some (y, V, P, L)
  | f :: r =>
      let a := f y in
      if okb toy_suite false y V a && (conductb y a && calmb toy_suite toy_gob y a && willingb y a && one_posterb y P a) then
        olet y' := sys_step toy_suite toy_oracle toy_gob y a in honoured_play r y' (ledger_step toy_suite y V a) (posts_step y P a) (L ++ cast_on y P a)
      else None
  end.
Lemma toy_s_honoured : honoured toy_suite toy_oracle toy_gob toy_s [] [] [].
Proof.
  assert (X : exists y, honoured toy_suite toy_oracle toy_gob y [] [] [] /\ y = toy_s); [|now destruct X as (y & X & ->)].
  destruct (sys_run toy_suite toy_oracle toy_gob toy_z0 toy_conf) as [y1|] eqn:E1; [|vm_compute in E1; discriminate].
  destruct (sys_step toy_suite toy_oracle toy_gob y1 (ALoop EConfigure)) as [y2|] eqn:E2.
  2:{ exfalso. vm_compute in E1. injection E1 as <-. vm_compute in E2. discriminate E2. }
  exists y2. split; [|unfold toy_s, toy_started; now rewrite E1, E2].
  eapply (h_start toy_suite toy_oracle toy_gob adC 5 toy_fb toy_trap (repeat 3 480) toy_conf y1 y2); try assumption.
  - repeat (constructor; [exact I || (cbn; unfold rel_prime; apply Zis_gcd_intro; [apply Z.divide_1_l| apply Z.divide_1_l| ]; intros x Hx Hy)|]); try constructor.
    + apply (Z.divide_sub_r _ (4 * 3) 11); [now apply Z.divide_mul_r|assumption].
    + apply (Z.divide_sub_r _ 11 (2 * 5)); [assumption|now apply Z.divide_mul_r].
  - vm_compute in E1. injection E1 as <-. reflexivity.
  - vm_compute in E1. injection E1 as <-. discriminate.
Qed.
Lemma honoured_play_ok l : forall y V P L y' V' P' L',
  honoured toy_suite toy_oracle toy_gob y V P L -> honoured_play l y V P L = Some (y', V', P', L') -> honoured toy_suite toy_oracle toy_gob y' V' P' L'.
Proof.
  induction l as [|f l IH]; cbn [honoured_play]; intros y V P L y' V' P' L' R E; [now injection E as <- <- <- <-|].
  destruct (okb toy_suite false y V (f y) && _) eqn:EO; [|discriminate]. rewrite !andb_true_iff in EO. destruct EO as [EO [[[E1 E2] E3] E4]].
  destruct (sys_step _ _ _ y (f y)) as [y1|] eqn:ES; [|discriminate].
  refine (IH _ _ _ _ _ _ _ _ (h_step toy_suite toy_oracle toy_gob y V P L (f y) y1 R (proj2 (okb_guard _ _ _ _ _ EO) eq_refl) _ _ _ _ ES) E).
  - now apply conductb_ok.
  - now apply calmb_ok.
  - now apply willingb_ok.
  - now apply one_posterb_ok.
Qed.

(** Two clients.  In the second round D posts a bridge, which is assigned to E; E votes for
    it.  In the third round E posts the same address, which is assigned to D; D votes
    against it.  Then D has 6 and E has 4. *)
Definition toy_pair : list (sys -> action) := dls 2 ++ [tbegin []] ++ dls 5 ++ [do (AJoin adD 4 8)] ++ dls 8 ++ [do (AJoin adE 7 8)] ++ dls 8 ++ [tend] ++ dls 7.
Definition toy_turn (p q : addr) : list (sys -> action) :=
  [tbegin []] ++ dls 7 ++ [do (ACommand p (CPost [x62; x32]%byte))] ++ dls 1 ++ [do (ACommand q (CRequest 1 toy_rn))] ++ dls 6.
Definition toy_poll (q : addr) (f : Z) : list (sys -> action) := [do (ACommand q (CVote 0 f))] ++ dls 1 ++ [tend] ++ dls 7.

Example C75_instance : exists y V P kd ke, honoured toy_suite toy_oracle toy_gob y V P [(3, 1); (8, -1)] /\ fo_nonneg (co_fb (y_coord y)) /\
  co_status (y_coord y) = CO_READY_FOR_NEW_ROUND /\ settled y /\ mget (y_clients y) adD = Some kd /\ cl_pub kd = 3 /\ cl_rep kd = 6 /\
  mget (y_clients y) adE = Some ke /\ cl_pub ke = 8 /\ cl_rep ke = 4.
Proof.
  destruct (honoured_play (toy_pair ++ toy_turn adD adE ++ toy_poll adE 1 ++ toy_turn adE adD ++ toy_poll adD (-1)) toy_s [] [] []) as [[[[y V] P] L]|] eqn:E; [|vm_compute in E; discriminate E].
  pose proof (honoured_play_ok _ _ _ _ _ _ _ _ _ toy_s_honoured E) as HO.
  set (f := fun t : sys * ledger * postings * list (Z * Z) => let y := fst (fst (fst t)) in (co_status (y_coord y), y_msgs y, snd t, co_fb (y_coord y),
    option_map (fun k => (cl_pub k, cl_rep k)) (mget (y_clients y) adD), option_map (fun k => (cl_pub k, cl_rep k)) (mget (y_clients y) adE))).
  assert (F : option_map f (honoured_play (toy_pair ++ toy_turn adD adE ++ toy_poll adE 1 ++ toy_turn adE adD ++ toy_poll adD (-1)) toy_s [] [] []) =
    Some (CO_READY_FOR_NEW_ROUND, [], [(3, 1); (8, -1)], toy_fb, Some (3, 6), Some (8, 4))) by (vm_compute; reflexivity).
  rewrite E in F. clear E. unfold f in F. cbn [option_map fst snd] in F. clear f. injection F as F1 F2 -> F4 F5 F6.
  destruct (mget (y_clients y) adD) as [kd|] eqn:Ed; [|discriminate]. destruct (mget (y_clients y) adE) as [ke|] eqn:Ee; [|discriminate].
  cbn [option_map] in F5, F6. injection F5 as F5 F5'. injection F6 as F6 F6'. exists y, V, P, kd, ke. split; [exact HO|]. rewrite F4.
  split; [vm_compute; intuition discriminate|]. split; [assumption|]. split; [unfold settled; now rewrite F2|]. auto 10.
Qed.
(** In the open round E holds the assignment of D's bridge. *)
Example C75_instance_open : exists y V L ke x bs, honoured toy_suite toy_oracle toy_gob y V [([x62; x32]%byte, 3)] L /\ fo_nonneg (co_fb (y_coord y)) /\
  open_round y /\ mget (y_clients y) adE = Some ke /\ nth_error (cl_assigns ke) 0 = Some (x, bs) /\ asAddr x = [x62; x32]%byte.
Proof.
  destruct (honoured_play (toy_pair ++ toy_turn adD adE) toy_s [] [] []) as [[[[y V] P] L]|] eqn:E; [|vm_compute in E; discriminate E].
  pose proof (honoured_play_ok _ _ _ _ _ _ _ _ _ toy_s_honoured E) as HO.
  set (f := fun t : sys * ledger * postings * list (Z * Z) => let y := fst (fst (fst t)) in (openb y, snd (fst t), co_fb (y_coord y),
    option_map (fun k => map (fun e : assignment * bytes => asAddr (fst e)) (cl_assigns k)) (mget (y_clients y) adE))).
  assert (F : option_map f (honoured_play (toy_pair ++ toy_turn adD adE) toy_s [] [] []) =
    Some (true, [([x62; x32]%byte, 3)], toy_fb, Some [[x62; x32]%byte])) by (vm_compute; reflexivity).
  rewrite E in F. clear E. unfold f in F. cbn [option_map fst snd] in F. clear f. injection F as F1 -> F4 F5.
  destruct (mget (y_clients y) adE) as [ke|] eqn:Ee; [|discriminate]. cbn [option_map] in F5. injection F5 as F5.
  destruct (cl_assigns ke) as [|[x bs] r] eqn:EA; [discriminate|]. cbn [map fst] in F5. injection F5 as F5 _. exists y, V, L, ke, x, bs. split; [exact HO|]. rewrite F4.
  split; [vm_compute; intuition discriminate|]. split; [now apply openb_ok|]. split; [assumption|]. split; [now rewrite EA|]. exact F5.
Qed.

(** Without that condition a client can take over another client's bridge: whoever posts an
    address again in the same round is named in its assignments, although somebody else had
    posted it first. *)
Fixpoint noted_play (l : list (sys -> action)) (y : sys) (V : ledger) (P : postings) : option (sys * ledger * postings) :=
  match l with
  | [] => Some (y, V, P)
  | f :: r =>
      let a := f y in
      if okb toy_suite false y V a && conductb y a then
        olet y' := sys_step toy_suite toy_oracle toy_gob y a in noted_play r y' (ledger_step toy_suite y V a) (posts_step y P a)
      else None
  end.
Lemma noted_play_ok l : forall y V P y' V' P',
  noted toy_suite toy_oracle toy_gob y V P -> noted_play l y V P = Some (y', V', P') -> noted toy_suite toy_oracle toy_gob y' V' P'.
Proof.
  induction l as [|f l IH]; cbn [noted_play]; intros y V P y' V' P' R E; [now injection E as <- <- <-|].
  destruct (okb toy_suite false y V (f y) && _) eqn:EO; [|discriminate]. rewrite !andb_true_iff in EO. destruct EO as [EO E1].
  destruct (sys_step _ _ _ y (f y)) as [y1|] eqn:ES; [|discriminate].
  refine (IH _ _ _ _ _ _ (n_step toy_suite toy_oracle toy_gob y V P (f y) y1 R (proj2 (okb_guard _ _ _ _ _ EO) eq_refl) _ ES) E). now apply conductb_ok.
Qed.
Definition toy_takeover : list (sys -> action) :=
  toy_pair ++ [tbegin []] ++ dls 7 ++ [do (ACommand adD (CPost [x62; x32]%byte))] ++ dls 1 ++ [do (ACommand adE (CPost [x62; x32]%byte))] ++ dls 1 ++
  [do (ACommand adD (CRequest 1 toy_rn))] ++ dls 6.
Theorem C75_first_poster_refuted : ~ (forall S H G, suite_ok S -> gob_ok G -> forall y V P,
  noted S H G y V P -> fo_nonneg (co_fb (y_coord y)) -> open_round y ->
  forall a k x bs q, mget (y_clients y) a = Some k -> In (x, bs) (cl_assigns k) -> poster P (asAddr x) = Some q -> asNym x = Some (nym_of S y q)).
Proof.
  intros X.
  destruct (noted_play toy_takeover toy_s [] []) as [[[y V] P]|] eqn:E; [|vm_compute in E; discriminate E].
  pose proof (noted_play_ok _ _ _ _ _ _ _ (honoured_noted _ _ _ _ _ _ _ toy_s_honoured) E) as NO.
  set (f := fun t : sys * ledger * postings => let y := fst (fst t) in (openb y, snd t, co_fb (y_coord y),
    option_map (fun k => map (fun e : assignment * bytes => (asAddr (fst e), asNym (fst e))) (cl_assigns k)) (mget (y_clients y) adD), nym_of toy_suite y 3)).
  assert (F : option_map f (noted_play toy_takeover toy_s [] []) =
    Some (true, [([x62; x32]%byte, 3); ([x62; x32]%byte, 8)], toy_fb, Some [([x62; x32]%byte, Some 2)], 12)) by (vm_compute; reflexivity).
  rewrite E in F. clear E. unfold f in F. cbn [option_map fst snd] in F. clear f. injection F as F1 -> F4 F5 F6.
  destruct (mget (y_clients y) adD) as [kd|] eqn:Ed; [|discriminate]. cbn [option_map] in F5. injection F5 as F5.
  destruct (cl_assigns kd) as [|[x bs] r] eqn:EA; [discriminate|]. cbn [map fst] in F5. injection F5 as F5 F7 _.
  assert (Y : asNym x = Some (nym_of toy_suite y 3)).
  { apply (X toy_suite toy_oracle toy_gob toy_ok toy_gob_ok y V _ NO) with (a := adD) (k := kd) (bs := bs); [rewrite F4; vm_compute; intuition discriminate|now apply openb_ok|assumption| |].
    - rewrite EA. now left.
    - rewrite F5. reflexivity. }
  rewrite F6, F7 in Y. discriminate Y.
Qed.

Print Assumptions C75_assignment_names_poster.
Print Assumptions C75_table_posted.
Print Assumptions C75_reputation_is_votes_on_posts.
Print Assumptions C75_vote_listed.
Print Assumptions C75_first_poster_refuted.
