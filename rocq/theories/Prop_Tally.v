(** C74: in an orderly session a client's reputation is the starting credit plus all votes
    that were cast on the bridges it posted. *)
From Coq Require Import ZArith Znumtheory Lia List Bool Permutation.
From Coq Require Import Strings.Byte.
From Coq Require String.
From Verif Require Import ZMod Bytes Suite Spec Pedersen ElGamal FujiOkam Equality Codec Maps Net Bridge Client
  Perm SimpleShuffle PairShuffle Server Coordinator History System Chain Prop_Pedersen Prop_FujiOkam Prop_Codec Prop_Coord Prop_Topology Prop_Chain Round RoundInv
  Prop_Round Session Prop_Session Signing Prop_Signing Progress Live Prop_Live Delivery Enrol Conduct Prop_Conduct Tally.
Import ListNotations.
Import String.StringSyntax.
Open Scope Z_scope.
Delimit Scope string_scope with str.

Section Votes.
Context (S : suite) (OK : suite_ok S) (H : oracle) (G : gob) (GOK : gob_ok G).

Lemma value_unique y V q v r v' r' : reach S H G y V -> In (q, (v, r)) V -> In (q, (v', r')) V -> v = v'.
Proof.
  intros R I1 I2. destruct (reach_inv S OK H G GOK y V R) as [B _]. pose proof (b_V _ _ _ _ _ B) as ND. clear - ND I1 I2.
  induction V as [|t V IH]; [destruct I1|]. cbn [map] in ND. inversion ND as [|? ? N1 N2]; subst.
  destruct I1 as [->|I1], I2 as [E|I2]; [now injection E| | |now apply IH].
  - elim N1. apply in_map_iff. now exists (q, (v', r')).
  - subst t. elim N1. apply in_map_iff. now exists (q, (v, r)).
Qed.
Lemma flight_bound y V L t : tally S H G y V L -> Z.abs (flight S y t) <= Z.of_nat (length (ballots y)).
Proof.
  intros T. unfold flight. pose proof (t_cnt _ _ _ _ _ _ T) as C. induction (ballots y) as [|m l IH]; [cbn; lia|]. cbn [map length].
  change (Z.abs (worth S t m + zsum (map (worth S t) l)) <= Z.of_nat (Datatypes.S (length l))). specialize (IH (fun m I => C m (or_intror I))).
  destruct (C m (or_introl eq_refl)) as (t0 & d & D & W & _). rewrite W. destruct (t0 =? t), D as [-> | ->]; lia.
Qed.

(** C74: when the round is over and its messages have been handled, every client's
    reputation is the starting credit plus all votes cast so far, in any round, on
    assignments of its bridges; and its R opens the stored commitment to that number. *)
Theorem C74_reputation_is_votes : forall y V L, fair S H G y V L -> fo_nonneg (co_fb (y_coord y)) -> Z.of_nat (length L) < 2 ^ 61 ->
  co_status (y_coord y) = CO_READY_FOR_NEW_ROUND -> settled y ->
  forall a k, mget (y_clients y) a = Some k ->
  cl_rep k = starting_credit + votes_for L (cl_pub k) /\
  exists R c, cl_R k = Some R /\ mget (co_bcomms (y_coord y)) (cl_pub k) = Some c /\ opens S y c (starting_credit + votes_for L (cl_pub k)) R.
Proof.
  intros y V L FA NN BD ST SE a k Ek. pose proof (fair_tally S OK H G GOK y V L FA NN ltac:(lia)) as T.
  pose proof (calm_is_reach S H G y V (fair_calm S H G _ _ _ FA)) as R.
  destruct (t_out _ _ _ _ _ _ T) with (a := a) (k := k) as [r J]; [intros (X & _); rewrite ST in X; discriminate X|assumption|].
  destruct (C42_settled S OK H G GOK y V R SE a k Ek) as (v & r' & R0 & c & J1 & J2 & J3 & _ & J5 & J6).
  pose proof (value_unique y V _ _ _ _ _ R J J1) as EV. rewrite <- EV in J5, J6.
  pose proof (votes_for_bound L (cl_pub k) (fun w I => proj2 (t_own _ _ _ _ _ _ T w I))) as RB.
  split; [rewrite J5; apply fits_int64; unfold fits, starting_credit; lia|]. exists R0, c. split; [assumption|]. split; [|assumption].
  destruct J3 as [[_ J3]|[J3 _]]; [assumption|]. rewrite ST in J3. discriminate J3.
Qed.

(** The same while a round is open: what is still missing from a client's reputation is what
    the coordinator has counted for it in this round and what is on its way. *)
Theorem C74_open_round : forall y V L, fair S H G y V L -> fo_nonneg (co_fb (y_coord y)) -> Z.of_nat (length L) < 2 ^ 61 ->
  open_round y -> settled y ->
  forall a k, mget (y_clients y) a = Some k ->
  cl_rep k + rep_diff (y_coord y) (nym_of S y (cl_pub k)) + flight S y (nym_of S y (cl_pub k)) = starting_credit + votes_for L (cl_pub k).
Proof.
  intros y V L FA NN BD O SE a k Ek. pose proof (fair_tally S OK H G GOK y V L FA NN ltac:(lia)) as T.
  pose proof (calm_is_reach S H G y V (fair_calm S H G _ _ _ FA)) as R.
  destruct (t_in _ _ _ _ _ _ T O a k Ek) as (v & r & J & JV).
  destruct (C42_settled S OK H G GOK y V R SE a k Ek) as (v' & r' & R0 & c & J1 & J2 & J3 & _ & J5 & J6).
  pose proof (value_unique y V _ _ _ _ _ R J J1) as EV. rewrite <- EV in J5.
  pose proof (votes_for_bound L (cl_pub k) (fun w I => proj2 (t_own _ _ _ _ _ _ T w I))) as RB.
  pose proof (t_max _ _ _ _ _ _ T O (nym_of S y (cl_pub k))) as MB. pose proof (flight_bound y V L (nym_of S y (cl_pub k)) T) as FB.
  rewrite J5. rewrite fits_int64 by (unfold fits, starting_credit in *; lia). exact JV.
Qed.
End Votes.

(** ** Concrete sessions *)
Import Prop_Bridge Prop_Shuffle Prop_Assign.
Definition nonzerob (S : suite) (x : Z) (m : bytes) : bool := negb ((example_nonce S - x * sPick S (enc_point S 0) m) mod sQ S =? 0).
Lemma nonzerob_ok S x m : nonzerob S x m = true -> response_nonzero S x m.
Proof. unfold nonzerob, response_nonzero. intros E. apply negb_true_iff in E. now apply Z.eqb_neq. Qed.
Definition willingb (y : sys) (a : action) : bool :=
  match a with
  | ACommand b (CVote id _) =>
      match mget (y_clients y) b with
      | Some k =>
          match nth_error (cl_assigns k) (Z.to_nat id) with
          | Some (x, _) => (0 <=? cl_priv k) && nonzerob toy_suite (co_priv (y_coord y)) (enc_assignment toy_suite x) &&
              forallb (fun s => nonzerob toy_suite (sv_priv (snd s)) (enc_assignment toy_suite x)) (y_servers y)
          | None => true
          end
      | None => true
      end
  | _ => true
  end.
Lemma willingb_ok y a : willingb y a = true -> willing toy_suite y a.
Proof.
  destruct a as [| | | |b [| |id f]]; cbn [willingb willing]; try exact (fun _ => I). intros E k x bs Ek EX. rewrite Ek, EX in E. bands E.
  split; [now apply Z.leb_le|]. split; [|now apply nonzerob_ok]. intros a s Es. apply mget_In in Es. rewrite forallb_forall in X. apply nonzerob_ok. exact (X _ Es).
Qed.
(** The discipline on commands alone. *)
Definition commandb (y : sys) (a : action) : bool := match a with ALoop (EEnd _ _) => true | _ => conductb y a end.
Definition conduct_commands (S : suite) (y : sys) (a : action) : Prop := match a with ALoop (EEnd _ _) => True | _ => conduct S y a end.
Lemma commandb_ok y a : commandb y a = true -> conduct_commands toy_suite y a.
Proof. destruct a as [| | |[]|]; try exact (conductb_ok y _). exact (fun _ => I). Qed.

Fixpoint voted_play (q : sys -> action -> bool) (l : list (sys -> action)) (y : sys) (V : ledger) (L : list (Z * Z)) : option (sys * ledger * list (Z * Z)) :=
  match l with
  | [] => Some (y, V, L)
  | f :: r =>
      let a := f y in
      if okb toy_suite false y V a && (q y a && calmb toy_suite toy_gob y a && willingb y a) then
        olet y' := sys_step toy_suite toy_oracle toy_gob y a in voted_play q r y' (ledger_step toy_suite y V a) (L ++ cast toy_suite y V a)
      else None
  end.
Lemma toy_s_voted Q : voted toy_suite toy_oracle toy_gob Q toy_s [] [].
Proof.
  assert (X : exists y, voted toy_suite toy_oracle toy_gob Q y [] [] /\ y = toy_s); [|now destruct X as (y & X & ->)].
  destruct (sys_run toy_suite toy_oracle toy_gob toy_z0 toy_conf) as [y1|] eqn:E1; [|vm_compute in E1; discriminate].
  destruct (sys_step toy_suite toy_oracle toy_gob y1 (ALoop EConfigure)) as [y2|] eqn:E2.
  2:{ exfalso. vm_compute in E1. injection E1 as <-. vm_compute in E2. discriminate E2. }
  exists y2. split; [|unfold toy_s, toy_started; now rewrite E1, E2].
  eapply (f_start toy_suite toy_oracle toy_gob Q adC 5 toy_fb toy_trap (repeat 3 480) toy_conf y1 y2); try assumption.
  - repeat (constructor; [exact I || (cbn; unfold rel_prime; apply Zis_gcd_intro; [apply Z.divide_1_l| apply Z.divide_1_l| ]; intros x Hx Hy)|]); try constructor.
    + apply (Z.divide_sub_r _ (4 * 3) 11); [now apply Z.divide_mul_r|assumption].
    + apply (Z.divide_sub_r _ 11 (2 * 5)); [assumption|now apply Z.divide_mul_r].
  - vm_compute in E1. injection E1 as <-. reflexivity.
  - vm_compute in E1. injection E1 as <-. discriminate.
Qed.
Lemma voted_play_voted q (Q : sys -> action -> Prop) : (forall y a, q y a = true -> Q y a) -> forall l y V L y' V' L',
  voted toy_suite toy_oracle toy_gob (fun y a => Q y a /\ post_calm toy_suite toy_gob y a /\ willing toy_suite y a) y V L -> voted_play q l y V L = Some (y', V', L') ->
  voted toy_suite toy_oracle toy_gob (fun y a => Q y a /\ post_calm toy_suite toy_gob y a /\ willing toy_suite y a) y' V' L'.
Proof.
  intros QQ l. induction l as [|f l IH]; cbn [voted_play]; intros y V L y' V' L' R E; [now injection E as <- <- <-|].
  destruct (okb toy_suite false y V (f y) && _) eqn:EO; [|discriminate]. rewrite !andb_true_iff in EO. destruct EO as [EO [[E1 E2] E3]].
  destruct (sys_step _ _ _ y (f y)) as [y1|] eqn:ES; [|discriminate].
  refine (IH _ _ _ _ _ _ (f_step toy_suite toy_oracle toy_gob _ y V L (f y) y1 R (proj2 (okb_guard _ _ _ _ _ EO) eq_refl) _ ES) E).
  split; [now apply QQ|]. split; [now apply calmb_ok|now apply willingb_ok].
Qed.
Lemma voted_run q (Q : sys -> action -> Prop) {B} l (f : sys * ledger * list (Z * Z) -> B) b : (forall y a, q y a = true -> Q y a) -> option_map f (voted_play q l toy_s [] []) = Some b ->
  exists y V L, voted toy_suite toy_oracle toy_gob (fun y a => Q y a /\ post_calm toy_suite toy_gob y a /\ willing toy_suite y a) y V L /\ f (y, V, L) = b.
Proof.
  intros QQ. destruct (voted_play q l toy_s [] []) as [[[y V] L]|] eqn:E; cbn [option_map]; [|discriminate]. intros [= <-]. exists y, V, L.
  split; [exact (voted_play_voted q Q QQ _ _ _ _ _ _ _ (toy_s_voted _) E)|reflexivity].
Qed.

(** Three rounds: in the second D posts a bridge, gets it assigned and votes for it; in the
    third it does so twice more, against it.  (The session is over when the third round is.) *)
Definition toy_round_down : list (sys -> action) :=
  [tbegin []] ++ dls 6 ++ [do (ACommand adD (CPost [x62; x32]%byte))] ++ dls 1 ++ [do (ACommand adD (CRequest 1 toy_rn))] ++ dls 6 ++
  [do (ACommand adD (CVote 0 (-1))); do (ACommand adD (CVote 0 0))] ++ dls 2 ++ [tend] ++ dls 5.

Example C74_instance : exists y V k, fair toy_suite toy_oracle toy_gob y V [(3, 1); (3, -1); (3, -1)] /\ fo_nonneg (co_fb (y_coord y)) /\
  co_status (y_coord y) = CO_READY_FOR_NEW_ROUND /\ settled y /\ mget (y_clients y) adD = Some k /\ cl_pub k = 3 /\ cl_rep k = 4.
Proof.
  destruct (voted_run conductb (conduct toy_suite) (toy_ready2 ++ toy_round_down)
    (fun yvl => let y := fst (fst yvl) in (co_status (y_coord y), y_msgs y, snd yvl, co_fb (y_coord y), option_map (fun k => (cl_pub k, cl_rep k)) (mget (y_clients y) adD)))
    (CO_READY_FOR_NEW_ROUND, [], [(3, 1); (3, -1); (3, -1)], toy_fb, Some (3, 4)) conductb_ok) as (y & V & L & FA & F); [vm_compute; reflexivity|].
  cbv zeta in F. cbn [fst snd] in F.
  assert (F1 : co_status (y_coord y) = CO_READY_FOR_NEW_ROUND) by congruence. assert (F2 : y_msgs y = []) by congruence.
  assert (F3 : L = [(3, 1); (3, -1); (3, -1)]) by congruence. assert (F4 : co_fb (y_coord y) = toy_fb) by congruence.
  assert (F5 : option_map (fun k => (cl_pub k, cl_rep k)) (mget (y_clients y) adD) = Some (3, 4)) by congruence. clear F. subst L.
  destruct (mget (y_clients y) adD) as [k|] eqn:Ek; [|discriminate]. cbn [option_map] in F5. exists y, V, k. split; [exact FA|]. rewrite F4.
  split; [vm_compute; intuition discriminate|]. split; [assumption|]. split; [unfold settled; now rewrite F2|]. split; [assumption|]. split; congruence.
Qed.
Example C74_instance_open : exists y V k, fair toy_suite toy_oracle toy_gob y V [(3, 1)] /\ fo_nonneg (co_fb (y_coord y)) /\
  open_round y /\ settled y /\ mget (y_clients y) adD = Some k /\ cl_pub k = 3 /\ cl_rep k = 5 /\ flight toy_suite y (nym_of toy_suite y 3) = 1.
Proof.
  destruct (voted_run conductb (conduct toy_suite) toy_upto_vote
    (fun yvl => let y := fst (fst yvl) in (openb y, core (y_msgs y), snd yvl, co_fb (y_coord y), option_map (fun k => (cl_pub k, cl_rep k)) (mget (y_clients y) adD),
       flight toy_suite y (nym_of toy_suite y 3)))
    (true, [], [(3, 1)], toy_fb, Some (3, 5), 1) conductb_ok) as (y & V & L & FA & F); [vm_compute; reflexivity|].
  cbv zeta in F. cbn [fst snd] in F.
  assert (F1 : openb y = true) by congruence. assert (F2 : core (y_msgs y) = []) by congruence.
  assert (F3 : L = [(3, 1)]) by congruence. assert (F4 : co_fb (y_coord y) = toy_fb) by congruence. assert (F6 : flight toy_suite y (nym_of toy_suite y 3) = 1) by congruence.
  assert (F5 : option_map (fun k => (cl_pub k, cl_rep k)) (mget (y_clients y) adD) = Some (3, 5)) by congruence. clear F. subst L.
  destruct (mget (y_clients y) adD) as [k|] eqn:Ek; [|discriminate]. cbn [option_map] in F5. exists y, V, k. split; [exact FA|]. rewrite F4.
  split; [vm_compute; intuition discriminate|]. split; [now apply openb_ok|]. split; [assumption|]. split; [assumption|]. split; [congruence|]. split; [congruence|assumption].
Qed.

(** Nothing in the code makes the loop wait for the votes of a round.  When the round is
    ended while a vote is on its way, the coordinator handles the vote after the round, and
    it is lost. *)
Theorem C74_vote_lost_refuted : ~ (forall S H G, suite_ok S -> gob_ok G -> forall y V L,
  voted S H G (fun y a => conduct_commands S y a /\ post_calm S G y a /\ willing S y a) y V L -> fo_nonneg (co_fb (y_coord y)) -> Z.of_nat (length L) < 2 ^ 61 ->
  co_status (y_coord y) = CO_READY_FOR_NEW_ROUND -> y_msgs y = [] ->
  forall a k, mget (y_clients y) a = Some k -> cl_rep k = starting_credit + votes_for L (cl_pub k)).
Proof.
  intros X.
  destruct (voted_run commandb (conduct_commands toy_suite) (toy_upto_vote ++ [tend; tdl 1; tdl 1; tdl 1; tdl 1; tdl 1; tdl 0])
    (fun yvl => let y := fst (fst yvl) in (co_status (y_coord y), y_msgs y, snd yvl, co_fb (y_coord y), option_map (fun k => (cl_pub k, cl_rep k)) (mget (y_clients y) adD)))
    (CO_READY_FOR_NEW_ROUND, [], [(3, 1)], toy_fb, Some (3, 5)) commandb_ok) as (y & V & L & FA & F); [vm_compute; reflexivity|].
  cbv zeta in F. cbn [fst snd] in F.
  assert (F1 : co_status (y_coord y) = CO_READY_FOR_NEW_ROUND) by congruence. assert (F2 : y_msgs y = []) by congruence.
  assert (F3 : L = [(3, 1)]) by congruence. assert (F4 : co_fb (y_coord y) = toy_fb) by congruence.
  assert (F5 : option_map (fun k => (cl_pub k, cl_rep k)) (mget (y_clients y) adD) = Some (3, 5)) by congruence. clear F. subst L.
  destruct (mget (y_clients y) adD) as [k|] eqn:Ek; [|discriminate]. cbn [option_map] in F5.
  assert (K1 : cl_pub k = 3) by congruence. assert (K2 : cl_rep k = 5) by congruence.
  pose proof (X _ _ _ toy_ok toy_gob_ok y V _ FA) as Y. rewrite F4 in Y.
  specialize (Y ltac:(vm_compute; intuition discriminate) ltac:(vm_compute; reflexivity) F1 F2 adD k Ek). rewrite K1, K2 in Y. vm_compute in Y. discriminate Y.
Qed.

Print Assumptions C74_reputation_is_votes.
Print Assumptions C74_open_round.
Print Assumptions C74_vote_lost_refuted.
