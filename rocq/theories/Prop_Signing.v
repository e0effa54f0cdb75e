(** Signatures and votes in whole sessions: C63 (an assignment a client holds bears the
    signatures of all servers), C64 (a vote of a client of the table is counted). *)
From Coq Require Import ZArith Znumtheory Lia List Bool Permutation.
From Coq Require Import Strings.Byte.
From Coq Require String.
From Verif Require Import ZMod Bytes Suite Spec Pedersen ElGamal FujiOkam Equality Codec Maps Net Bridge Client
  Perm SimpleShuffle PairShuffle Server Coordinator History System Chain Prop_Topology Prop_Chain Round RoundInv
  Prop_Pedersen Prop_ElGamal Prop_FujiOkam Prop_Shuffle Prop_Codec Prop_Bridge Prop_Assign Prop_Coord Prop_Round Session Prop_Session Signing.
Import ListNotations.
Import String.StringSyntax.
Open Scope Z_scope.
Delimit Scope string_scope with str.

(** ** Specification *)
(** One signature of every server, in the order of the coordinator's server list, made with
    the private key of the public key the coordinator has for it, and one of the
    coordinator, on the encoded assignment and with the zero base. *)
Definition signed_by_all (S : suite) (y : sys) (x : assignment) (sigs : list bytes) : Prop :=
  let c := y_coord y in
  length sigs = (length (co_servers c) + 1)%nat /\
  (forall i a pk, nth_error (co_servers c) i = Some (a, pk) ->
     exists s, mget (y_servers y) a = Some s /\ pk = pt_mul_base S (sv_priv s) /\
       nth_error sigs i = Some (eg_sign S (example_nonce S) (enc_assignment S x) (sv_priv s) (Some pt_new))) /\
  co_pub c = pt_mul_base S (co_priv c) /\
  nth_error sigs (length (co_servers c)) =
    Some (eg_sign S (example_nonce S) (enc_assignment S x) (co_priv c) (Some pt_new)).
(** No signature of a party of the session on [x] has response 0. *)
Definition responses_nonzero (S : suite) (y : sys) (x : assignment) : Prop :=
  (forall a s, mget (y_servers y) a = Some s -> response_nonzero S (sv_priv s) (enc_assignment S x)) /\
  response_nonzero S (co_priv (y_coord y)) (enc_assignment S x).

Section C63.
Context (S : suite) (OK : suite_ok S) (H : oracle) (G : gob) (GOK : gob_ok G).

Lemma full_signed y V x : calm_reach S H G y V -> fo_nonneg (co_fb (y_coord y)) ->
  signed_by_all S y x (full S (key_of y) (co_static (y_coord y)) (co_servers (y_coord y)) x).
Proof.
  intros CR NN. pose proof (calm_is_reach S H G y V CR) as R.
  pose proof (reach_ses S OK H G GOK y V R NN) as SE. destruct (reach_inv S OK H G GOK y V R) as [B _].
  unfold signed_by_all, full. cbv zeta. split; [now rewrite app_length, map_length|]. split; [|split].
  - intros i a pk E. assert (IA : In (a, pk) (co_servers (y_coord y))) by (eapply nth_error_In; exact E).
    assert (NS : mget (y_servers y) a <> None) by (apply (b_srv _ _ _ _ _ B); apply in_map_iff; exists (a, pk); auto).
    destruct (mget (y_servers y) a) as [s|] eqn:Es; [|contradiction]. exists s. split; [reflexivity|]. split.
    + rewrite (e_pk _ _ _ SE _ _ _ IA Es). now destruct (e_sv _ _ _ SE _ _ Es) as [_ ->].
    + rewrite nth_error_app1 by (rewrite map_length; apply nth_error_Some; congruence).
      rewrite (map_nth_error _ _ _ E). unfold ssig, key_of. cbn [fst]. now rewrite Es.
  - now apply (reach_pub S H G y V).
  - rewrite nth_error_app2 by (rewrite map_length; lia). rewrite map_length, Nat.sub_diag. reflexivity.
Qed.

(** C63: in every session in which no bridge is posted while signatures on it are on their
    way, every assignment a client holds, and every assignment on its way to a client,
    comes with the signatures of all servers and the coordinator. *)
Theorem C63_assignments_fully_signed : forall y V, calm_reach S H G y V -> fo_nonneg (co_fb (y_coord y)) ->
  (forall a k x bs, mget (y_clients y) a = Some k -> In (x, bs) (cl_assigns k) ->
     good S x /\ exists sigs, gdec_2d G bs = Some sigs /\ signed_by_all S y x sigs) /\
  (forall m, In m (y_msgs y) -> mType m = GOT_SIGNS -> mDst m <> co_addr (y_coord y) ->
     exists ba bs x sigs, get_bytes (mParams m) "assignment"%str = Some ba /\ dec_assignment S ba = Some x /\ good S x /\
       get_bytes (mParams m) "signatures"%str = Some bs /\ gdec_2d G bs = Some sigs /\ signed_by_all S y x sigs).
Proof.
  intros y V CR NN. pose proof (calm_inv S OK H G GOK y V CR) as SI. split.
  - intros a k x bs Ek I. destruct (z_cl _ _ _ _ _ _ SI a k x bs Ek I) as [AO D]. split; [assumption|].
    eexists. split; [exact D|]. now apply (full_signed y V).
  - intros m I T N. pose proof (z_msg _ _ _ _ _ _ SI) as F. rewrite Forall_forall in F. destruct (F m I) as (_ & FG & _). specialize (FG T).
    destruct (keq (mDst m) (cs_addr (co_static (y_coord y)))); [contradiction|]. destruct FG as (x & bs & AO & D & EP).
    exists (enc_assignment S x), bs, x. eexists. rewrite EP. split; [reflexivity|].
    split; [apply (assignment_round_trip S x OK); apply AO|]. split; [assumption|]. split; [reflexivity|]. split; [exact D|]. now apply (full_signed y V).
Qed.

(** The coordinator's check of such an assignment succeeds, unless one of the signatures
    has response 0. *)
Theorem C63_signatures_verify : forall y x sigs, signed_by_all S y x sigs -> responses_nonzero S y x ->
  forall i pk, nth_error (map snd (co_servers (y_coord y)) ++ [co_pub (y_coord y)]) i = Some pk ->
  exists s, nth_error sigs i = Some s /\ eg_verify S (enc_assignment S x) pk s (Some pt_new) = true.
Proof.
  intros y x sigs (L & SV & _ & CO) [N1 N2] i pk E.
  destruct (Nat.lt_ge_cases i (length (co_servers (y_coord y)))) as [LT|GE].
  - rewrite nth_error_app1 in E by (now rewrite map_length).
    destruct (nth_error (co_servers (y_coord y)) i) as [[a q]|] eqn:Ei; [|apply nth_error_None in Ei; lia].
    destruct (SV i a q Ei) as (s & Es & _ & Eg). eexists. split; [exact Eg|]. apply (zero_base_sign S OK). now apply (N1 a).
  - rewrite nth_error_app2 in E by (now rewrite map_length). rewrite map_length in E.
    destruct (i - length (co_servers (y_coord y)))%nat as [|j] eqn:Ej; [|cbn in E; destruct j; discriminate].
    assert (i = length (co_servers (y_coord y))) by lia. subst i. eexists. split; [exact CO|]. now apply (zero_base_sign S OK).
Qed.

(** C64: in a round whose announcement has reached everybody, a client of the table that
    holds an assignment votes on it; whenever in the same round the coordinator handles the
    vote, the pseudonym that posted the bridge gets +1 or -1, nothing else changes and
    nobody is told. *)
Theorem C64_vote_counted : forall y V a k id x bs fb,
  calm_reach S H G y V -> open_round y -> fo_nonneg (co_fb (y_coord y)) -> in_table S y a k -> 0 <= cl_priv k ->
  0 <= id -> nth_error (cl_assigns k) (Z.to_nat id) = Some (x, bs) -> responses_nonzero S y x ->
  exists m target, cl_vote S k id fb = Some m /\ mDst m = co_addr (y_coord y) /\ asNym x = Some target /\
  forall y1 V1 cr, later S H G y V y1 V1 ->
    co_handle S G (y_coord y1) (mType m) (mParams m) (mSrc m) cr =
      Some (set_diffs (y_coord y1) (mset (co_diffs (y_coord y1)) target
        (int64 (rep_diff (y_coord y1) target + if 0 <? fb then 1 else -1))), []).
Proof.
  intros y V a k id x bs fb CR O NN [Ek IT] KP ID EI RN. pose proof (calm_is_reach S H G y V CR) as R.
  destruct (announced S OK H G GOK y V a k R O Ek IT) as (v & r & R0 & g & C & J1 & J2 & J3 & J4 & J5 & J6 & J7 & J8 & J9 & J10 & J11 & J12 & J13 & J14 & J15).
  pose proof (reach_ses S OK H G GOK y V R NN) as SE. destruct (e_cl _ _ _ SE a k Ek) as [_ _ K3]. pose proof (K3 _ J7) as KN.
  destruct (proj1 (C63_assignments_fully_signed y V CR NN) a k x bs Ek (nth_error_In _ _ EI)) as ((AO & AN & _) & sigs & D & SB).
  destruct (asNym x) as [target|] eqn:EN; [|now elim AN].
  assert (KI : In (cl_nym k) (co_keys (y_coord y))).
  { rewrite J10. apply (reach_keys S OK H G GOK y V R); [apply O|apply O|assumption]. }
  assert (EV : exists m, cl_vote S k id fb = Some m /\ mDst m = cl_coord k /\ mType m = Net.VOTE).
  { unfold cl_vote. destruct (Z.ltb_spec id 0); [lia|]. rewrite EI. cbv zeta. unfold msg_vote, get_bytes, get_int. cbn [lookup String.eqb Ascii.eqb Bool.eqb].
    eexists. split; [reflexivity|]. split; reflexivity. }
  destruct EV as (m & EV & MD & MT). exists m, target. split; [assumption|]. split; [congruence|]. split; [reflexivity|].
  intros y1 V1 cr (l & GO & NE).
  destruct (open_goes S OK H G GOK y V l y1 V1 R O GO NE) as [O1 SR]. destruct (view_eq _ _ SR) as (W1 & W2 & W3 & W4 & W5 & W6 & W7).
  assert (VV : vote_valid S G (y_coord y1) (mParams m) target (if 0 <? fb then 1 else -1)).
  { eapply (C49_honest_vote_partial S G OK GOK (y_coord y1) k g id fb m (enc_assignment S x) x bs sigs target); try eassumption; try reflexivity.
    - congruence.
    - rewrite KN. unfold pt_mul. pose proof (sP_gt1 S OK). rewrite <- zexp_pos by lia. reflexivity.
    - now rewrite W6.
    - unfold co_pub. rewrite W1, W2. now apply (C63_signatures_verify y x sigs). }
  rewrite MT. exact (co_vote_accept S OK G _ _ _ _ VV).
Qed.
End C63.

(** ** Instances *)
Definition calmb (S : suite) (G : gob) (y : sys) (a : action) : bool :=
  match a with
  | ADeliver i _ _ _ =>
      match nth_error (y_msgs y) i with
      | Some m => if mType m =? POST_BRIDGE then forallb (fun m' => match names S G m' with [] => true | _ => false end) (y_msgs y) else true
      | None => true
      end
  | _ => true
  end.
Lemma calmb_ok S G y a : calmb S G y a = true -> post_calm S G y a.
Proof.
  destruct a as [| |i cr sr chal| |]; cbn; try exact (fun _ => I). intros E m Em T m' x I' Ix. rewrite Em, T, Z.eqb_refl in E.
  rewrite forallb_forall in E. specialize (E m' I'). destruct (names S G m'); [destruct Ix|discriminate].
Qed.
Fixpoint calm_play (l : list (sys -> action)) (y : sys) (V : ledger) : option (sys * ledger) :=
  match l with
  | [] => Some (y, V)
  | f :: r =>
      let a := f y in
      if okb toy_suite false y V a && calmb toy_suite toy_gob y a then
        olet y' := sys_step toy_suite toy_oracle toy_gob y a in calm_play r y' (ledger_step toy_suite y V a)
      else None
  end.
Lemma toy_s_calm : calm_reach toy_suite toy_oracle toy_gob toy_s [].
Proof.
  assert (X : exists y V, calm_reach toy_suite toy_oracle toy_gob y V /\ y = toy_s /\ V = []); [|now destruct X as (y & V & X & -> & ->)].
  destruct (sys_run toy_suite toy_oracle toy_gob toy_z0 toy_conf) as [y1|] eqn:E1; [|vm_compute in E1; discriminate].
  destruct (sys_step toy_suite toy_oracle toy_gob y1 (ALoop EConfigure)) as [y2|] eqn:E2.
  2:{ exfalso. vm_compute in E1. injection E1 as <-. vm_compute in E2. discriminate E2. }
  exists y2, []. split; [|split; [unfold toy_s, toy_started; now rewrite E1, E2|reflexivity]].
  eapply (cr_start toy_suite toy_oracle toy_gob adC 5 toy_fb toy_trap (repeat 3 480) toy_conf y1 y2); try assumption.
  - repeat (constructor; [exact I || (cbn; unfold rel_prime; apply Zis_gcd_intro; [apply Z.divide_1_l| apply Z.divide_1_l| ]; intros x Hx Hy)|]); try constructor.
    + apply (Z.divide_sub_r _ (4 * 3) 11); [now apply Z.divide_mul_r|assumption].
    + apply (Z.divide_sub_r _ 11 (2 * 5)); [assumption|now apply Z.divide_mul_r].
  - vm_compute in E1. injection E1 as <-. reflexivity.
  - vm_compute in E1. injection E1 as <-. discriminate.
Qed.
Lemma calm_play_reach l : forall y V y' V', calm_reach toy_suite toy_oracle toy_gob y V -> calm_play l y V = Some (y', V') ->
  calm_reach toy_suite toy_oracle toy_gob y' V'.
Proof.
  induction l as [|f l IH]; cbn [calm_play]; intros y V y' V' R E; [now injection E as <- <-|].
  destruct (okb toy_suite false y V (f y) && calmb toy_suite toy_gob y (f y)) eqn:EO; [|discriminate]. apply andb_true_iff in EO. destruct EO as [EO EC].
  destruct (sys_step _ _ _ y (f y)) as [y1|] eqn:ES; [|discriminate].
  exact (IH _ _ _ _ (cr_step toy_suite toy_oracle toy_gob y V (f y) y1 R (proj2 (okb_guard _ _ _ _ _ EO) eq_refl) (calmb_ok _ _ _ _ EC) ES) E).
Qed.
Lemma calm_run {B} l (f : sys * ledger -> B) b : option_map f (calm_play l toy_s []) = Some b ->
  exists y V, calm_reach toy_suite toy_oracle toy_gob y V /\ f (y, V) = b.
Proof.
  destruct (calm_play l toy_s []) as [[y V]|] eqn:E; cbn [option_map]; [|discriminate]. intros [= <-]. exists y, V.
  split; [exact (calm_play_reach _ _ _ _ _ toy_s_calm E)|reflexivity].
Qed.

(** D's bridge is signed by both servers and D holds it. *)
Definition toy_held : list (sys -> action) := toy_asked ++ dls 5.
Definition held_by (a : addr) (y : sys) : option (Z * Z * list (assignment * option (list bytes))) :=
  option_map (fun k => (cl_pub k, cl_priv k, map (fun xb => (fst xb, gdec_2d toy_gob (snd xb))) (cl_assigns k))) (mget (y_clients y) a).
Definition sv_privs (y : sys) : list (addr * Z) := map (fun s => (fst s, sv_priv (snd s))) (y_servers y).
Definition toy_asg : assignment := Assign (Some 12) [x62; x32]%byte (Some 12).
Lemma sv_priv_in y a s : mget (y_servers y) a = Some s -> In (a, sv_priv s) (sv_privs y).
Proof. intros E. apply mget_In in E. unfold sv_privs. apply in_map_iff. exists (a, s). auto. Qed.

Example C63_instance : exists y V k bs, calm_reach toy_suite toy_oracle toy_gob y V /\ fo_nonneg (co_fb (y_coord y)) /\
  open_round y /\ in_table toy_suite y adD k /\ 0 <= cl_priv k /\ nth_error (cl_assigns k) 0 = Some (toy_asg, bs) /\
  gdec_2d toy_gob bs = Some [[x01; x02]; [x01; x01]; [x01; x0a]]%byte /\ length (co_servers (y_coord y)) = 2%nat /\
  responses_nonzero toy_suite y toy_asg.
Proof.
  destruct (calm_run toy_held (fun yv => let y := fst yv in (co_status (y_coord y), y_msgs y, round_exp y, mkeys (co_ecomms (y_coord y)),
      co_fb (y_coord y), sv_privs y, co_priv (y_coord y), length (co_servers (y_coord y)), held_by adD y))
    (3, [], 4, [16; 12], toy_fb, [(adA, 2); (adB, 3)], 5, 2%nat, Some (3, 4, [(toy_asg, Some [[x01; x02]; [x01; x01]; [x01; x0a]]%byte)])))
    as (y & V & R & F); [vm_compute; reflexivity|]. cbv zeta in F. cbn [fst snd] in F.
  assert (F1 : co_status (y_coord y) = 3) by congruence. assert (F2 : y_msgs y = []) by congruence.
  assert (F3 : round_exp y = 4) by congruence. assert (F4 : mkeys (co_ecomms (y_coord y)) = [16; 12]) by congruence.
  assert (F5 : co_fb (y_coord y) = toy_fb) by congruence. assert (F6 : sv_privs y = [(adA, 2); (adB, 3)]) by congruence.
  assert (F7 : co_priv (y_coord y) = 5) by congruence. assert (F8 : length (co_servers (y_coord y)) = 2%nat) by congruence.
  assert (F9 : held_by adD y = Some (3, 4, [(toy_asg, Some [[x01; x02]; [x01; x01]; [x01; x0a]]%byte)])) by congruence. clear F.
  unfold held_by in F9. destruct (mget (y_clients y) adD) as [k|] eqn:Ek; [|discriminate]. cbn [option_map] in F9.
  assert (K1 : cl_pub k = 3) by congruence. assert (K2 : cl_priv k = 4) by congruence.
  assert (K3 : map (fun xb => (fst xb, gdec_2d toy_gob (snd xb))) (cl_assigns k) = [(toy_asg, Some [[x01; x02]; [x01; x01]; [x01; x0a]]%byte)]) by congruence.
  destruct (cl_assigns k) as [|[x bs] r] eqn:EA; [discriminate|]. cbn [map fst snd] in K3.
  assert (K4 : x = toy_asg) by congruence. assert (K5 : gdec_2d toy_gob bs = Some [[x01; x02]; [x01; x01]; [x01; x0a]]%byte) by congruence.
  exists y, V, k, bs. split; [assumption|]. rewrite F5. split; [vm_compute; intuition discriminate|]. split.
  { split; [assumption|]. split; [apply has_end_no; unfold has_end; now rewrite F2|]. rewrite F2. intros m []. }
  split. { split; [assumption|]. rewrite F4, K1. unfold nym_of. rewrite F3. vm_compute. auto. }
  split; [lia|]. split; [rewrite EA, K4; reflexivity|]. split; [assumption|]. split; [assumption|]. split.
  - intros a s Es. apply sv_priv_in in Es. rewrite F6 in Es. destruct Es as [Es|[Es|[]]]; injection Es as _ <-; vm_compute; discriminate.
  - rewrite F7. vm_compute. discriminate.
Qed.

(** Without the condition on posting it does not hold, although everybody is honest: D posts
    a bridge and requests it, posts it once more and requests it once more before the
    servers have answered; server A's two answers complete the collection, and D holds the
    assignment with an empty signature in the place of server B's. *)
Definition toy_twice : list (sys -> action) :=
  toy_asked ++ [do (ACommand adD (CPost [x62; x32]%byte)); tdl 2; do (ACommand adD (CRequest 1 toy_rn)); tdl 2; tdl 0; tdl 1; tdl 2; tdl 2; tdl 2].
Theorem C63_any_schedule_refuted : ~ (forall S H G, suite_ok S -> gob_ok G -> forall y V,
  reach S H G y V -> fo_nonneg (co_fb (y_coord y)) ->
  forall a k x bs, mget (y_clients y) a = Some k -> In (x, bs) (cl_assigns k) ->
  exists sigs, gdec_2d G bs = Some sigs /\ signed_by_all S y x sigs).
Proof.
  intros X.
  destruct (toy_run toy_twice (fun yv => let y := fst yv in (co_fb (y_coord y), sv_privs y, map fst (co_servers (y_coord y)), held_by adD y))
    (toy_fb, [(adA, 2); (adB, 3)], [adA; adB], Some (3, 4, [(toy_asg, Some [[x01; x02]; []; [x01; x0a]]%byte)])))
    as (y & V & _ & R & F); [vm_compute; reflexivity|]. cbv zeta in F. cbn [fst snd] in F.
  assert (F5 : co_fb (y_coord y) = toy_fb) by congruence. assert (F6 : sv_privs y = [(adA, 2); (adB, 3)]) by congruence.
  assert (F8 : map fst (co_servers (y_coord y)) = [adA; adB]) by congruence.
  assert (F9 : held_by adD y = Some (3, 4, [(toy_asg, Some [[x01; x02]; []; [x01; x0a]]%byte)])) by congruence. clear F.
  unfold held_by in F9. destruct (mget (y_clients y) adD) as [k|] eqn:Ek; [|discriminate]. cbn [option_map] in F9.
  assert (K3 : map (fun xb => (fst xb, gdec_2d toy_gob (snd xb))) (cl_assigns k) = [(toy_asg, Some [[x01; x02]; []; [x01; x0a]]%byte)]) by congruence.
  destruct (cl_assigns k) as [|[x bs] r] eqn:EA; [discriminate|]. cbn [map fst snd] in K3.
  assert (K5 : gdec_2d toy_gob bs = Some [[x01; x02]; []; [x01; x0a]]%byte) by congruence.
  destruct (X toy_suite toy_oracle toy_gob toy_ok toy_gob_ok y V R) with (a := adD) (k := k) (x := x) (bs := bs) as (sigs & D & _ & SB & _);
    [rewrite F5; vm_compute; intuition discriminate|assumption|rewrite EA; now left|].
  assert (sigs = [[x01; x02]; []; [x01; x0a]]%byte) by congruence. subst sigs.
  destruct (co_servers (y_coord y)) as [|s1 [|[b pk] r']]; try discriminate F8.
  destruct (SB 1%nat b pk eq_refl) as (s & Es & _ & E). cbn [nth_error] in E.
  assert (K4 : x = toy_asg) by congruence. rewrite K4 in E.
  apply sv_priv_in in Es. rewrite F6 in Es. destruct Es as [Es|[Es|[]]]; injection Es as _ Es; rewrite <- Es in E; vm_compute in E; discriminate E.
Qed.

(** ** C65: what stops an honest session *)
(** A message on its way stops nobody: whoever receives it handles it. *)
Definition never_stops (S : suite) (H : oracle) (G : gob) (y : sys) (V : ledger) : Prop :=
  forall i cr sr chal m, nth_error (y_msgs y) i = Some m -> guard S y V (ADeliver i cr sr chal) ->
  sys_step S H G y (ADeliver i cr sr chal) <> None.

(** The servers draw 3 as the next round's key. *)
Definition tdk (i : nat) (y : sys) : action :=
  ADeliver i (CoRand 3 (mkeys (co_clients (y_coord y))) (fun _ => [[x62; x32]]%byte) (mkeys (co_diffs (y_coord y))))
    (SvRand 3 toy_u [7; 2] toy_ps2 3) (repeat true 480).
(** The message that hands D its assignment is delivered only in the next round. *)
Definition toy_late : list (sys -> action) :=
  toy_asked ++ dls 4 ++ [tend] ++ [tdk 1; tdk 1; tdk 1; tdk 1; tdk 1] ++ [tbegin []] ++ [tdl 1; tdl 1; tdl 1; tdl 1; tdl 1; tdl 1] ++ dls 1.
(** D votes on it, the coordinator counts the vote, and the round ends. *)
Definition toy_stale : list (sys -> action) := toy_late ++ [do (ACommand adD (CVote 0 1))] ++ dls 1 ++ [tend] ++ [tdl 1; tdl 0; tdl 0].
Theorem C65_honest_session_stops_refuted : ~ (forall S H G, suite_ok S -> gob_ok G -> forall y V,
  calm_reach S H G y V -> never_stops S H G y V).
Proof.
  intros X.
  destruct (calm_run toy_stale (fun yv => let y := fst yv in (map (fun m => (mDst m, mType m)) (y_msgs y), mkeys (co_ecomms (y_coord y)), co_diffs (y_coord y),
     okb toy_suite false y (snd yv) (tdl 0 y), match sys_step toy_suite toy_oracle toy_gob y (tdl 0 y) with None => true | Some _ => false end))
    ([(adC, Net.ROUND_END)], [6; 18], [(12, 1)], true, true)) as (y & V & R & F); [vm_compute; reflexivity|]. cbv zeta in F. cbn [fst snd] in F.
  assert (F1 : map (fun m => (mDst m, mType m)) (y_msgs y) = [(adC, Net.ROUND_END)]) by congruence.
  assert (F4 : okb toy_suite false y V (tdl 0 y) = true) by congruence.
  assert (F5 : match sys_step toy_suite toy_oracle toy_gob y (tdl 0 y) with None => true | Some _ => false end = true) by congruence.
  destruct (y_msgs y) as [|m M] eqn:EM; [discriminate|]. pose proof (X _ _ _ toy_ok toy_gob_ok y V R) as NS. unfold never_stops in NS.
  pose proof (proj2 (okb_guard _ _ _ _ _ F4) eq_refl) as GU. unfold tdl in GU, F5.
  eapply NS in GU; [|rewrite EM; reflexivity]. destruct (sys_step _ _ _ _ _); [discriminate|now apply GU].
Qed.

Print Assumptions C63_assignments_fully_signed.
Print Assumptions C63_signatures_verify.
Print Assumptions C63_any_schedule_refuted.
Print Assumptions C64_vote_counted.
Print Assumptions C65_honest_session_stops_refuted.
