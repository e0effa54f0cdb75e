(** C76: a command entered while messages arrive acts as if it had been entered between two of
    them. *)
From Coq Require Import ZArith Znumtheory Lia List Bool.
From Coq Require Import Strings.Byte.
From Coq Require String.
From Verif Require Import ZMod Bytes Suite Spec Pedersen ElGamal FujiOkam Equality Codec Maps Net Bridge Client
  Perm SimpleShuffle PairShuffle Server Coordinator History System Chain Prop_Pedersen Prop_FujiOkam Prop_Codec Prop_Coord Prop_Topology Prop_Chain Round RoundInv
  Prop_Round Session Prop_Session Threads.
Import ListNotations.
Import String.StringSyntax.
Open Scope Z_scope.
Delimit Scope string_scope with str.

(** As if the command had been entered when the listener had handled [ms1] and not yet [ms2]. *)
Definition as_if_between (S : suite) (G : gob) (c : client) (ms : list note) (cmd : command) (r : option (list msg)) : Prop :=
  exists ms1 ms2 c1, ms = ms1 ++ ms2 /\ hear S G c ms1 = Some c1 /\ r = cl_command S G c1 cmd.

Section Between.
Context (S : suite) (G : gob).

(** C76: however the reads of a command and the writes of the handlers are interleaved, the
    command does what it would have done between two of the messages, as long as none of them
    is of the kinds in [tears]: for a post or a vote the start of a round (or of a membership),
    for a request also the end of a round and the confirmation of the registration. *)
Theorem C76_command_between_messages_partial : forall c ms cmd r, during S G c ms cmd r -> Forall (spares cmd) ms ->
  as_if_between S G c ms cmd r.
Proof. intros c ms cmd r. apply during_atomic. Qed.

(** And it may be any of these moments. *)
Theorem C76_any_moment : forall c ms1 ms2 cmd c1 c2, hear S G c ms1 = Some c1 -> hear S G c1 ms2 = Some c2 ->
  during S G c (ms1 ++ ms2) cmd (cl_command S G c1 cmd).
Proof.
  assert (W : forall ms c c', hear S G c ms = Some c' -> exists ws, hear_writes S G c ms = Some ws).
  { induction ms as [|n ms IH]; intros c c' E; cbn [hear hear_writes] in *; [eauto|].
    destruct (handle_note S G c n) as [d|]; [|discriminate]. destruct (IH _ _ E) as (ws & ->). eauto. }
  assert (A : forall ms1 ms2 c c1 ws1 ws2, hear S G c ms1 = Some c1 -> hear_writes S G c ms1 = Some ws1 -> hear_writes S G c1 ms2 = Some ws2 ->
    hear_writes S G c (ms1 ++ ms2) = Some (ws1 ++ ws2)).
  { induction ms1 as [|n ms1 IH]; intros ms2 c c1 ws1 ws2 E1 E2 E3; cbn [hear hear_writes app] in *.
    - injection E1 as <-. injection E2 as <-. exact E3.
    - destruct (handle_note S G c n) as [d|]; [|discriminate]. destruct (hear_writes S G d ms1) as [w|] eqn:E4; [|discriminate].
      injection E2 as <-. rewrite (IH _ _ _ _ _ E1 E4 E3). now rewrite app_assoc. }
  intros c ms1 ms2 cmd c1 c2 E1 E2. destruct (W _ _ _ E1) as (ws1 & W1). destruct (W _ _ _ E2) as (ws2 & W2).
  exists (ws1 ++ ws2). split; [exact (A _ _ _ _ _ _ E1 W1 W2)|].
  pose proof (written_hear S G ms1 c ws1 W1) as E3. rewrite E1 in E3. injection E3 as ->.
  rewrite <- alone_command. apply beside_alone.
Qed.

(** A request checks the indicator against the reputation and then reads the reputation again.
    If the round ends in between and lowers it, the client stops (ProveNonneg panics), although
    it would have sent the request before and refused it afterwards. *)
Theorem C76_request_at_round_end : forall c n c' ind rn, nt_type n = Net.ROUND_END -> handle_note S G c n = Some c' ->
  cl_rep c' < ind <= cl_rep c -> - 2 ^ 63 <= cl_rep c' - ind ->
  during S G c [n] (CRequest ind rn) None /\ cl_command S G c' (CRequest ind rn) = Some [].
Proof.
  intros c n c' ind rn T E L B. split.
  2:{ cbn [cl_command]. unfold cl_request. destruct (Z.ltb_spec (cl_rep c') ind); [reflexivity|lia]. }
  exists ([w_status (cl_status c'); w_rep (cl_rep c')] ++ [w_assigns (cl_assigns c')]). split.
  { cbn [hear_writes]. rewrite E. rewrite T. reflexivity. }
  cbn [command_prog]. unfold request_prog. apply b_read. destruct (Z.ltb_spec (cl_rep c) ind); [lia|].
  cbn [app]. apply b_write, b_write. set (c2 := w_rep _ _).
  assert (RP : cl_rep c2 = cl_rep c') by reflexivity. clearbody c2.
  match goal with |- beside _ _ ?p _ => assert (A : alone p c2 = None) end.
  2:{ rewrite <- A. apply (beside_alone c2 [] [w_assigns (cl_assigns c')]). }
  cbn [alone]. rewrite RP. cbv zeta. rewrite alone_onto. destruct (cl_PCommr c2); [|reflexivity]. cbn [alone].
  destruct (ped_commit _ _ _ _). rewrite alone_onto. destruct (ped_sub _ _ _); [|reflexivity]. cbn [alone].
  rewrite alone_onto. destruct (cl_fb c2) as [fb|] eqn:EF; [|reflexivity]. destruct (fo_commit _ _ _). cbn [alone]. rewrite EF. cbn [onto].
  unfold prove_nonneg. rewrite fits_int64 by (unfold fits; lia). destruct (Z.ltb_spec (cl_rep c' - ind) 0); [reflexivity|lia].
Qed.

(** A post that starts before the announcement and ends after it carries the old pseudonym and
    a signature on the new base. *)
Theorem C76_post_at_announcement : forall c n c' a, nt_type n = ANNOUNCEMENT_FINALIZE -> handle_note S G c n = Some c' ->
  during S G c [n] (CPost a) (Some [Msg (cl_coord c) POST_BRIDGE
    [("bridge_addr"%str, VStr a); ("nym"%str, VBytes (enc_point S (cl_nym c)));
     ("signature"%str, VBytes (eg_sign S (example_nonce S) (a ++ enc_point S (cl_nym c)) (cl_priv c) (cl_G c')))] (cl_addr c)]).
Proof.
  intros c n c' a T E. eexists. split; [cbn [hear_writes]; rewrite E, T; reflexivity|].
  cbn [command_prog]. unfold post_prog. apply b_read. cbv zeta.
  change (handler_writes ANNOUNCEMENT_FINALIZE c') with
    ([w_index (cl_index c'); w_PCommr (cl_PCommr c'); w_status (cl_status c'); w_G (cl_G c');
     w_nym (cl_nym c'); w_keys (cl_keys c'); w_GT (pb_GT (cl_pb c')); w_HT (pb_HT (cl_pb c'))]).
  cbn [app]. do 8 apply b_write. apply b_read. constructor.
Qed.

(** The console takes commands as soon as the status is MESSAGE (ClientLauncher.go:313-315), and
    the handler of the announcement sets the status before the pseudonym: the first command can
    be a post under the pseudonym of the round before. *)
Theorem C76_console_opens_early : forall c n c' a, nt_type n = ANNOUNCEMENT_FINALIZE -> handle_note S G c n = Some c' ->
  exists ws1 ws2, hear_writes S G c [n] = Some (ws1 ++ ws2) /\ cl_status (written ws1 c) = CL_MESSAGE /\
    cl_command S G (written ws1 c) (CPost a) = cl_command S G c (CPost a).
Proof.
  intros c n c' a T E.
  assert (ST : cl_status c' = CL_MESSAGE).
  { unfold handle_note in E. rewrite T in E. cbn in E. destruct (cl_announce_final S c (nt_params n)) as [[d o]|] eqn:E2; [|discriminate].
    injection E as <-. unfold cl_announce_final in E2. cbv zeta in E2. odestruct E2. injection E2 as <- _. reflexivity. }
  exists [w_index (cl_index c'); w_PCommr (cl_PCommr c'); w_status (cl_status c')],
    [w_G (cl_G c'); w_nym (cl_nym c'); w_keys (cl_keys c'); w_GT (pb_GT (cl_pb c')); w_HT (pb_HT (cl_pb c'))].
  split; [cbn [hear_writes]; rewrite E, T; reflexivity|]. split; [exact ST|reflexivity].
Qed.
End Between.

(** ** The toy session *)
Import Prop_Bridge Prop_Shuffle Prop_Assign.

(** A message in flight to a client, as its listener receives it. *)
Definition inbound (y : sys) (a : addr) (n : note) : Prop :=
  exists m, In m (y_msgs y) /\ mDst m = a /\ nt_type n = mType m /\ nt_params n = mParams m.

Definition to_D (ty : Z) (y : sys) : option note :=
  option_map (fun m => Note (mType m) (mParams m) (repeat true 480))
    (find (fun m => if keq (mDst m) adD then mType m =? ty else false) (y_msgs y)).
Lemma to_D_inbound ty y n : to_D ty y = Some n -> inbound y adD n /\ nt_type n = ty.
Proof.
  unfold to_D. destruct (find _ (y_msgs y)) as [m|] eqn:E; [|discriminate]. cbn [option_map]. intros [= <-].
  apply find_some in E. destruct E as [I K]. destruct (keq (mDst m) adD) as [D|]; [|discriminate]. apply Z.eqb_eq in K.
  split; [|exact K]. exists m. auto.
Qed.
(** D has lowered its own reputation; the round is ending. *)
Definition toy_lower (k : nat) : list (sys -> action) :=
  toy_round1 ++ [tend] ++ dls 5 ++ [tbegin []] ++ dls 6 ++ [do (ACommand adD (CPost [x62; x32]%byte))] ++ dls 1 ++
  [do (ACommand adD (CRequest 1 toy_rn))] ++ dls 6 ++ [do (ACommand adD (CVote 0 (-1)))] ++ dls 1 ++ [tend] ++ dls k.

Definition every_command_between : Prop := forall S H G, suite_ok S -> gob_ok G -> forall y V, reach S H G y V ->
  forall a c ms cmd r, mget (y_clients y) a = Some c -> Forall (inbound y a) ms ->
  during S G c ms cmd r -> as_if_between S G c ms cmd r.

Definition sends (o : option (list msg)) : bool := match o with Some [_] => true | _ => false end.
Lemma hear_app S G c n ms1 ms2 : [n] = ms1 ++ ms2 -> forall c1, hear S G c ms1 = Some c1 -> c1 = c \/ handle_note S G c n = Some c1.
Proof.
  intros E c1 E1. destruct ms1 as [|n' ms1]; [left; now injection E1|]. cbn [app] in E. injection E as <- E.
  symmetry in E. apply app_eq_nil in E. destruct E as [-> _]. cbn [hear] in E1. destruct (handle_note S G c n); [now right|discriminate].
Qed.
Theorem C76_round_end_refuted : ~ every_command_between.
Proof.
  intros X.
  set (f := fun t : sys * ledger => let y := fst t in match to_D Net.ROUND_END y, mget (y_clients y) adD with
    | Some n, Some c => Some (cl_rep c, option_map cl_rep (handle_note toy_suite toy_gob c n), sends (cl_command toy_suite toy_gob c (CRequest 5 toy_rn)))
    | _, _ => None end).
  destruct (toy_run (toy_lower 4) f (Some (5, Some 4, true))) as (y & V & _ & R & F); [vm_compute; reflexivity|].
  unfold f in F. clear f. cbn [fst] in F. destruct (to_D Net.ROUND_END y) as [n|] eqn:EN; [|discriminate].
  destruct (mget (y_clients y) adD) as [c|] eqn:EC; [|discriminate].
  pose proof (f_equal (fun o => match o with Some (_, _, b) => b | None => false end) F) as F3. cbv beta iota in F3. injection F as F1 F2 _.
  destruct (handle_note toy_suite toy_gob c n) as [c'|] eqn:EH; [|discriminate]. cbn [option_map] in F2. injection F2 as F2.
  destruct (to_D_inbound _ _ _ EN) as [IB T].
  destruct (C76_request_at_round_end toy_suite toy_gob c n c' 5 toy_rn T EH) as [D A]; [lia|lia|].
  destruct (X _ _ _ toy_ok toy_gob_ok y V R adD c [n] _ _ EC (Forall_cons _ IB (Forall_nil _)) D) as (ms1 & ms2 & c1 & E & E1 & E2).
  destruct (hear_app _ _ _ _ _ _ E _ E1) as [-> |E3].
  - rewrite <- E2 in F3. discriminate F3.
  - rewrite EH in E3. injection E3 as <-. rewrite A in E2. discriminate E2.
Qed.

(** The servers draw other round keys for the second round. *)
Definition tdl2 (y : sys) : action :=
  ADeliver 0 (CoRand 3 (mkeys (co_clients (y_coord y))) (fun _ => [[x62; x32]]%byte) (mkeys (co_diffs (y_coord y))))
    (SvRand 3 toy_u [7; 2] toy_ps2 5) (repeat true 480).
Definition toy_start (k : nat) : list (sys -> action) := toy_round1 ++ [tend] ++ repeat tdl2 5 ++ [tbegin []] ++ dls k.
Definition toy_addr : bytes := [x62; x33]%byte.
(** The torn post: its pseudonym is the old one, its signature that of neither post. *)
Theorem C76_announcement_refuted : ~ every_command_between.
Proof.
  intros X.
  set (f := fun t : sys * ledger => let y := fst t in match to_D ANNOUNCEMENT_FINALIZE y, mget (y_clients y) adD with
    | Some n, Some c => match handle_note toy_suite toy_gob c n with
      | Some c' => Some (enc_point toy_suite (cl_nym c), enc_point toy_suite (cl_nym c'),
          eg_sign toy_suite (example_nonce toy_suite) (toy_addr ++ enc_point toy_suite (cl_nym c)) (cl_priv c) (cl_G c),
          eg_sign toy_suite (example_nonce toy_suite) (toy_addr ++ enc_point toy_suite (cl_nym c)) (cl_priv c) (cl_G c'))
      | None => None end
    | _, _ => None end).
  destruct (toy_run (toy_start 3) f (Some ([x0c], [x04], [x01; x00], [x03; x03])%byte)) as (y & V & _ & R & F); [vm_compute; reflexivity|].
  unfold f in F. clear f. cbn [fst] in F. destruct (to_D ANNOUNCEMENT_FINALIZE y) as [n|] eqn:EN; [|discriminate].
  destruct (mget (y_clients y) adD) as [c|] eqn:EC; [|discriminate].
  destruct (handle_note toy_suite toy_gob c n) as [c'|] eqn:EH; [|discriminate].
  assert (F1 : enc_point toy_suite (cl_nym c) = [x0c]%byte) by congruence.
  assert (F2 : enc_point toy_suite (cl_nym c') = [x04]%byte) by congruence.
  assert (F3 : eg_sign toy_suite (example_nonce toy_suite) (toy_addr ++ enc_point toy_suite (cl_nym c)) (cl_priv c) (cl_G c) = [x01; x00]%byte) by congruence.
  assert (F4 : eg_sign toy_suite (example_nonce toy_suite) (toy_addr ++ enc_point toy_suite (cl_nym c)) (cl_priv c) (cl_G c') = [x03; x03]%byte) by congruence.
  clear F. destruct (to_D_inbound _ _ _ EN) as [IB T].
  pose proof (C76_post_at_announcement toy_suite toy_gob c n c' toy_addr T EH) as D.
  destruct (X _ _ _ toy_ok toy_gob_ok y V R adD c [n] _ _ EC (Forall_cons _ IB (Forall_nil _)) D) as (ms1 & ms2 & c1 & E & E1 & E2).
  destruct (hear_app _ _ _ _ _ _ E _ E1) as [-> |E3]; cbn [cl_command] in E2; unfold cl_post in E2; cbv zeta in E2.
  - rewrite F4, F3 in E2. discriminate E2.
  - rewrite EH in E3. injection E3 as <-. rewrite F1, F2 in E2. discriminate E2.
Qed.

(** The hypotheses of the positive theorem are met: D votes while its listener handles the end
    of the round.  The vote is sent as before the message, or the client stops because the
    list is empty. *)
Example C76_instance : exists y V c n m, reach toy_suite toy_oracle toy_gob y V /\ mget (y_clients y) adD = Some c /\ inbound y adD n /\
  spares (CVote 0 1) n /\ cl_command toy_suite toy_gob c (CVote 0 1) = Some [m] /\
  during toy_suite toy_gob c [n] (CVote 0 1) (Some [m]) /\ during toy_suite toy_gob c [n] (CVote 0 1) None.
Proof.
  set (f := fun t : sys * ledger => let y := fst t in match to_D Net.ROUND_END y, mget (y_clients y) adD with
    | Some n, Some c => match handle_note toy_suite toy_gob c n, cl_command toy_suite toy_gob c (CVote 0 1) with
      | Some c', Some [m] => match cl_command toy_suite toy_gob c' (CVote 0 1) with None => true | _ => false end
      | _, _ => false end
    | _, _ => false end).
  destruct (toy_run (toy_lower 4) f true) as (y & V & _ & R & F); [vm_compute; reflexivity|].
  unfold f in F. clear f. cbn [fst] in F. destruct (to_D Net.ROUND_END y) as [n|] eqn:EN; [|discriminate].
  destruct (mget (y_clients y) adD) as [c|] eqn:EC; [|discriminate].
  destruct (handle_note toy_suite toy_gob c n) as [c'|] eqn:EH; [|discriminate].
  destruct (cl_command toy_suite toy_gob c (CVote 0 1)) as [[|m [|]]|] eqn:E1; try discriminate.
  destruct (cl_command toy_suite toy_gob c' (CVote 0 1)) eqn:E2; [discriminate|].
  destruct (to_D_inbound _ _ _ EN) as [IB T].
  exists y, V, c, n, m. split; [exact R|]. split; [exact EC|]. split; [exact IB|].
  split; [unfold spares; rewrite T; cbn; intuition discriminate|]. split; [exact E1|]. split.
  - rewrite <- E1. apply (C76_any_moment toy_suite toy_gob c [] [n] (CVote 0 1) c c'); [reflexivity|]. cbn [hear]. now rewrite EH.
  - rewrite <- E2. apply (C76_any_moment toy_suite toy_gob c [n] [] (CVote 0 1) c' c'); [|reflexivity]. cbn [hear]. now rewrite EH.
Qed.

Print Assumptions C76_command_between_messages_partial.
Print Assumptions C76_any_moment.
Print Assumptions C76_request_at_round_end.
Print Assumptions C76_post_at_announcement.
Print Assumptions C76_console_opens_early.
Print Assumptions C76_round_end_refuted.
Print Assumptions C76_announcement_refuted.
