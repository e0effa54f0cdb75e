(** C79: what a message can do to a client, and who can send it. *)
From Coq Require Import ZArith Znumtheory Lia List Bool.
From Coq Require Import Strings.Byte.
From Coq Require String.
From Verif Require Import ZMod Bytes Suite Pedersen ElGamal FujiOkam Equality Codec Maps Net Bridge Client
  Perm SimpleShuffle PairShuffle Server Coordinator History System Round RoundInv
  Prop_Codec Prop_ElGamal Prop_Bridge Prop_Shuffle Prop_Assign Prop_Topology Prop_Round.
Import ListNotations.
Import String.StringSyntax.
Open Scope Z_scope.
Delimit Scope string_scope with str.

(** ** What each message may change *)
(** The entry of a list of differences under a key: the one at the first position of the key,
    0 if the key is not there. *)
Definition listed (keys diffs : list Z) (k d : Z) : Prop :=
  (exists i, first_at keys k i /\ nth_error diffs i = Some d) \/ (~ In k keys /\ d = 0).

Lemma find_int_listed k diffs : forall keys i d, find_int_from i keys diffs k = Some d ->
  (exists j, first_at keys k j /\ nth_error diffs (i + j) = Some d) \/ (~ In k keys /\ d = 0).
Proof.
  induction keys as [|a keys IH]; intros i d E; cbn [find_int_from] in E.
  - injection E as <-. right. split; [intros []|reflexivity].
  - destruct (Z.eqb_spec k a) as [<- |N].
    + left. exists 0%nat. split; [apply first_at_cons_eq|]. now rewrite Nat.add_0_r.
    + destruct (IH _ _ E) as [(j & F & D)|[NI ->]].
      * left. exists (S j). split; [apply first_at_cons_ne; auto|]. now rewrite Nat.add_succ_r, <- Nat.add_succ_l.
      * right. split; [|reflexivity]. intros [->|I]; auto.
Qed.

Section Frame.
Variables (S : suite) (G : gob) (c c' : client) (ty : Z) (p : params) (chal : list bool) (out : list msg).
Hypothesis E : cl_handle S G c ty p chal = Some (c', out).

Ltac start := unfold cl_handle in E;
  repeat match type of E with (if ty =? ?b then _ else _) = _ => destruct (Z.eqb_spec ty b) as [->|]; [|] end;
  unfold cl_register_confirmation, cl_init_r, cl_honesty_answer, cl_announce_final, cl_got_signatures, cl_vote_start,
    cl_round_end, cl_rdiff, cl_vote_reply in E; cbv zeta in E; odestruct E; injection E as <- <-.

(** No message changes the client's key pair or the addresses it uses. *)
Theorem C79_keys_kept : cl_priv c' = cl_priv c /\ cl_pub c' = cl_pub c /\ cl_addr c' = cl_addr c /\ cl_coord c' = cl_coord c.
Proof. start; cbn; auto. Qed.

(** The reputation changes only at the end of a round, by what the message lists for the
    client's pseudonym. *)
Theorem C79_reputation : cl_rep c' <> cl_rep c -> ty = Net.ROUND_END /\
  exists bk keys bd diffs d, get_bytes p "keys"%str = Some bk /\ dec_points S bk = Some keys /\
    get_bytes p "diffs"%str = Some bd /\ gdec_ints G bd = Some diffs /\
    listed keys diffs (cl_nym c) d /\ cl_rep c' = int64 (cl_rep c + d).
Proof.
  start; cbn [cl_rep]; intros N; try congruence. split; [reflexivity|].
  do 5 eexists. do 4 (split; [first [reflexivity | eassumption]|]). split; [|reflexivity].
  match goal with H : find_int _ _ _ = Some _ |- _ => destruct (find_int_listed _ _ _ _ _ H) as [(j & F & D)|X] end; [left; exists j; auto|now right].
Qed.

(** An assignment is added only if it comes with a signature that verifies against the
    coordinator's key the client holds; assignments are removed only at the end of a round, and
    then all of them. *)
Theorem C79_assignments : cl_assigns c' <> cl_assigns c ->
  (ty = Net.ROUND_END /\ cl_assigns c' = []) \/
  (ty = GOT_SIGNS /\ exists a ba bs sig, cl_assigns c' = cl_assigns c ++ [(a, bs)] /\
     get_bytes p "assignment"%str = Some ba /\ dec_assignment S ba = Some a /\
     get_bytes p "signatures"%str = Some bs /\ get_bytes p "signature"%str = Some sig /\
     eg_verify S (ba ++ bs) (cl_cpk c) sig (Some pt_new) = true).
Proof.
  start; cbn [cl_assigns]; intros N; try congruence.
  - right. split; [reflexivity|].
    match goal with H : msg_got p = Some ?m |- _ => unfold msg_got in H; odestruct H; injection H as <- end.
    do 4 eexists. split; [reflexivity|].
    repeat match goal with A : get_bytes p ?k = Some ?x, B : get_bytes p ?k = Some ?y |- _ => rewrite A in B; injection B as -> end.
    repeat match goal with A : Some ?x = Some ?y |- _ => injection A as -> end.
    repeat split; try eassumption. match goal with X : negb _ = false |- _ => now apply negb_false_iff in X end.
  - left. split; reflexivity.
Qed.

(** The opening of its commitment changes only by INIT_PEDERSEN_R and by the differences of
    the end of a round; the commitment itself, the pseudonym list and the bases only with a new
    table; pseudonym and its base with a new table or INIT_PEDERSEN_R; the coordinator's key, the
    commitment base for the proofs and the honesty values only with the confirmation. *)
Theorem C79_frame :
  (cl_R c' <> cl_R c -> In ty [INIT_PEDERSEN_R; BCAST_PEDERSEN_RDIFF]) /\
  ((cl_PCommr c', cl_pb c', cl_keys c', cl_index c') <> (cl_PCommr c, cl_pb c, cl_keys c, cl_index c) -> ty = ANNOUNCEMENT_FINALIZE) /\
  ((cl_nym c', cl_G c') <> (cl_nym c, cl_G c) -> In ty [INIT_PEDERSEN_R; ANNOUNCEMENT_FINALIZE]) /\
  ((cl_cpk c', cl_fb c', cl_hpub c', cl_hchal c') <> (cl_cpk c, cl_fb c, cl_hpub c, cl_hchal c) -> ty = CLIENT_REGISTER_CONFIRMATION) /\
  (cl_status c' <> cl_status c -> In ty [CLIENT_REGISTER_CONFIRMATION; ANNOUNCEMENT_FINALIZE; Net.ROUND_END]) /\
  (out <> [] -> ty = CLIENT_REGISTER_CONFIRMATION).
Proof. start; cbn [cl_R cl_PCommr cl_pb cl_keys cl_index cl_nym cl_G cl_cpk cl_fb cl_hpub cl_hchal cl_status]; repeat split; intros N; first [congruence | reflexivity | cbn; tauto]. Qed.
End Frame.

(** ** Who can send it *)
(** Anybody: the messages of a peer at address [src], whatever it is. *)
Definition inject (y : sys) (m : msg) : sys := Sys (y_coord y) (y_servers y) (y_clients y) (y_msgs y ++ [m]) (y_log y).

(** The property as stated: delivering a message that does not come from the coordinator in a reachable
    state does not change a client. *)
Definition only_coordinator : Prop := forall S H G, suite_ok S -> gob_ok G -> forall y V m cr sr chal y' a, reach S H G y V ->
  mSrc m <> co_addr (y_coord y) ->
  sys_step S H G (inject y m) (ADeliver (length (y_msgs y)) cr sr chal) = Some y' ->
  mget (y_clients y') a = mget (y_clients y) a.

Section Anyone.
Context (S : suite) (OK : suite_ok S) (H : oracle) (G : gob) (GOK : gob_ok G).
Variables (y : sys) (a : addr) (k : client) (src : addr) (cr : co_rand) (sr : sv_rand) (chal : list bool).
Hypothesis EK : mget (y_clients y) a = Some k.
Hypothesis NC : a <> co_addr (y_coord y).
Hypothesis NS : mget (y_servers y) a = None.

(** Delivering a message of the stranger to the client. *)
Definition stranger (ty : Z) (p : params) : option sys :=
  sys_step S H G (inject y (Msg a ty p src)) (ADeliver (length (y_msgs y)) cr sr chal).
Lemma stranger_does ty p k' out : cl_handle S G k ty p chal = Some (k', out) ->
  exists y', stranger ty p = Some y' /\ mget (y_clients y') a = Some k'.
Proof.
  intros E. unfold stranger, inject. cbn [sys_step y_msgs y_coord y_servers y_clients y_log].
  rewrite nth_error_app2, Nat.sub_diag by lia. cbn [nth_error mDst mType mParams mSrc].
  destruct (keq a (co_addr (y_coord y))) as [X|_]; [contradiction|]. rewrite NS, EK, E.
  eexists. split; [reflexivity|]. cbn [y_clients]. apply mget_mset_eq.
Qed.

(** Anybody can set the opening of a client's commitment. *)
Theorem C79_anyone_sets_opening : forall r g, is_secret S r -> in_group S g ->
  exists p y' k', stranger INIT_PEDERSEN_R p = Some y' /\ mget (y_clients y') a = Some k' /\ cl_R k' = Some r.
Proof.
  intros r g IR IG. exists [("r"%str, VBytes (enc_secret S r)); ("g"%str, VBytes (enc_point S g))].
  edestruct stranger_does as (y' & E1 & E2); [|exists y'; eexists; split; [exact E1|split; [exact E2|]]].
  - unfold cl_handle. cbn -[enc_secret enc_point dec_secret dec_point cl_init_r]. unfold cl_init_r, get_bytes. cbn [lookup String.eqb Ascii.eqb Bool.eqb].
    rewrite dec_enc_secret by (first [exact OK|exact IR]). rewrite (dec_enc_point S OK) by exact IG. reflexivity.
  - reflexivity.
Qed.

(** Anybody can set a client's reputation to any number. *)
Theorem C79_anyone_sets_reputation : forall v, - 2 ^ 63 <= v < 2 ^ 63 -> in_group S (cl_nym k) ->
  exists p y' k', stranger Net.ROUND_END p = Some y' /\ mget (y_clients y') a = Some k' /\ cl_rep k' = v.
Proof.
  intros v RV IN. exists [("keys"%str, VBytes (enc_points S [cl_nym k])); ("diffs"%str, VBytes (genc_ints G [v - cl_rep k]))].
  edestruct stranger_does as (y' & E1 & E2); [|exists y'; eexists; split; [exact E1|split; [exact E2|]]].
  - unfold cl_handle. cbn -[enc_points dec_points cl_round_end]. unfold cl_round_end, get_bytes. cbn [lookup String.eqb Ascii.eqb Bool.eqb].
    rewrite (dec_enc_points S OK) by (constructor; [exact IN|constructor]). rewrite (g_ints G GOK).
    unfold find_int. cbn [find_int_from]. rewrite Z.eqb_refl. cbn [nth_error]. reflexivity.
  - cbn [cl_rep]. unfold int64. replace (cl_rep k + (v - cl_rep k)) with v by lia. rewrite Z.mod_small by lia. lia.
Qed.

(** Anybody can add any assignment to those a client holds. *)
Theorem C79_anyone_adds_assignment : forall x bs, assignment_ok S x ->
  exists p y' k', stranger GOT_SIGNS p = Some y' /\ mget (y_clients y') a = Some k' /\ cl_assigns k' = cl_assigns k ++ [(x, bs)].
Proof.
  intros x bs AO. exists [("assignment"%str, VBytes (enc_assignment S x)); ("signatures"%str, VBytes bs);
    ("signature"%str, VBytes (forge_zero_base S (enc_assignment S x ++ bs)))].
  edestruct stranger_does as (y' & E1 & E2); [|exists y'; eexists; split; [exact E1|split; [exact E2|]]].
  - unfold cl_handle. cbn -[enc_assignment dec_assignment forge_zero_base eg_verify cl_got_signatures].
    unfold cl_got_signatures, msg_got, get_bytes. cbn [lookup String.eqb Ascii.eqb Bool.eqb].
    rewrite (C20_unforgeable_refuted S OK). cbn [negb]. rewrite (assignment_round_trip S x OK AO). reflexivity.
  - reflexivity.
Qed.

(** Anybody can stop a client. *)
Theorem C79_anyone_stops_client : exists p, stranger ANNOUNCEMENT_FINALIZE p = None.
Proof.
  exists []. unfold stranger, inject. cbn [sys_step y_msgs y_coord y_servers y_clients y_log].
  rewrite nth_error_app2, Nat.sub_diag by lia. cbn [nth_error mDst mType mParams mSrc].
  destruct (keq a (co_addr (y_coord y))) as [X|_]; [contradiction|]. rewrite NS, EK. reflexivity.
Qed.
End Anyone.

(** A reachable state in which the client at D opens its commitment with 10. *)
Lemma toy_state : exists y V k, reach toy_suite toy_oracle toy_gob y V /\ mget (y_clients y) adD = Some k /\
  cl_R k = Some 10 /\ adD <> co_addr (y_coord y) /\ adD <> adE /\ adE <> co_addr (y_coord y) /\ mget (y_servers y) adD = None /\ in_group toy_suite (cl_nym k).
Proof.
  destruct (toy_run toy_ready2 (fun yv => (client_at adD (fst yv), co_addr (y_coord (fst yv)), mget (y_servers (fst yv)) adD, option_map cl_nym (mget (y_clients (fst yv)) adD)))
    (Some (3, 6, Some 10, Some 3, PBase 13 18, 12), adC, None, Some 12)) as (y & V & _ & R & F);
    [vm_compute; reflexivity|]. cbn [fst snd] in F. injection F as F1 F2 F3 F4.
  destruct (client_at_some _ _ _ _ _ _ _ _ F1) as (k & Ek & _ & _ & E3 & _).
  exists y, V, k. rewrite F2. rewrite Ek in F4. injection F4 as F4. rewrite F4.
  repeat split; try assumption; try discriminate.
Qed.

Theorem C79_only_coordinator_refuted : ~ only_coordinator.
Proof.
  intros X. destruct toy_state as (y & V & k & R & EK & ER & N1 & N2 & N3 & NS & _).
  assert (SR : is_secret toy_suite 5) by (unfold is_secret; cbn; lia).
  destruct (C79_anyone_sets_opening toy_suite toy_ok toy_oracle toy_gob y adD k adE toy_rand toy_sr1 []
    EK N1 NS 5 1 SR ltac:(vm_compute; repeat split; discriminate)) as (p & y' & k' & E & EK' & ER').
  specialize (X toy_suite toy_oracle toy_gob toy_ok toy_gob_ok y V (Msg adD INIT_PEDERSEN_R p adE) toy_rand toy_sr1 [] y' adD R N3 E).
  rewrite EK', EK in X. injection X as ->. rewrite ER in ER'. discriminate ER'.
Qed.

(** The hypotheses of the theorems about strangers are met in it. *)
Example C79_instance : exists y k p y' k', mget (y_clients y) adD = Some k /\ adD <> co_addr (y_coord y) /\ mget (y_servers y) adD = None /\
  stranger toy_suite toy_oracle toy_gob y adD adE toy_rand toy_sr1 [] Net.ROUND_END p = Some y' /\ mget (y_clients y') adD = Some k' /\ cl_rep k' = -1000.
Proof.
  destruct toy_state as (y & V & k & R & EK & ER & N1 & N2 & N3 & NS & IG).
  destruct (C79_anyone_sets_reputation toy_suite toy_ok toy_oracle toy_gob toy_gob_ok y adD k adE toy_rand toy_sr1 [] EK N1 NS (-1000) ltac:(lia) IG)
    as (p & y' & k' & E & EK' & E'). exists y, k, p, y', k'. auto 10.
Qed.
(** Messages that change the reputation and the assignments, and one that adds an assignment. *)
Definition toy_k : client := Client adA adC CL_CONNECTED 3 18 0 2 (Some 1) 5 [] 0 [] None None None (PBase 2 3) [] [].
Example C79_instance_frame : (exists p c' out, cl_handle toy_suite toy_gob toy_k Net.ROUND_END p [] = Some (c', out) /\ cl_rep c' <> cl_rep toy_k) /\
  (exists p c' out, cl_handle toy_suite toy_gob toy_k GOT_SIGNS p [] = Some (c', out) /\ cl_assigns c' <> cl_assigns toy_k).
Proof.
  split.
  - exists [("keys"%str, VBytes (enc_points toy_suite [2])); ("diffs"%str, VBytes (genc_ints toy_gob [7]))]. vm_compute.
    do 2 eexists. split; [reflexivity|discriminate].
  - set (ba := enc_assignment toy_suite (Assign (Some 2) [x41]%byte (Some 3))).
    exists [("assignment"%str, VBytes ba); ("signatures"%str, VBytes [x42]%byte); ("signature"%str, VBytes (forge_zero_base toy_suite (ba ++ [x42]%byte)))].
    vm_compute. do 2 eexists. split; [reflexivity|discriminate].
Qed.

Print Assumptions C79_keys_kept.
Print Assumptions C79_reputation.
Print Assumptions C79_assignments.
Print Assumptions C79_frame.
Print Assumptions C79_anyone_sets_opening.
Print Assumptions C79_anyone_sets_reputation.
Print Assumptions C79_anyone_adds_assignment.
Print Assumptions C79_anyone_stops_client.
Print Assumptions C79_only_coordinator_refuted.
