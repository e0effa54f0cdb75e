(** The two goroutines of a client: the console (ClientLauncher.go:318-345), which only reads
    the client's fields, and the listener (ClientLauncher.go:49-60), whose handlers write them.
    Nothing orders the two, so a handler can write between two reads of a command.

    One step of either is the read or the write of one field.  A field is read and written as
    a whole, and writes become visible in program order; Go promises neither, so the schedules
    here are among those of the program. *)
From Coq Require Import ZArith Lia List Bool.
From Coq Require Import Strings.Byte.
From Coq Require String.
From Verif Require Import ZMod Bytes Suite Pedersen ElGamal FujiOkam Equality Codec Maps Net Bridge Client
  Perm SimpleShuffle PairShuffle Server Coordinator History System.
Import ListNotations.
Import String.StringSyntax.
Open Scope Z_scope.
Delimit Scope string_scope with str.

(** ** The console: reads *)

(** A command: its result (None = the process stops) or one look at the client's fields. *)
Inductive prog := Done (r : option (list msg)) | Peek (k : client -> prog).

Definition onto {A} (o : option A) (f : A -> prog) : prog :=
  match o with Some a => f a | None => Done None end.
Notation "'plet' x := a 'in' b" := (onto a (fun x => b)) (at level 200, x name, a at level 100, b at level 200).

(** ClientLauncher.go:65-86 postBridge: the pseudonym (line 67), then G (line 80).  Addresses
    and the private key never change. *)
Definition post_prog (S : suite) (a : bytes) : prog :=
  Peek (fun c => let byteNym := enc_point S (cl_nym c) in
  Peek (fun c =>
    let sig := eg_sign S (example_nonce S) (a ++ byteNym) (cl_priv c) (cl_G c) in
    Done (Some [Msg (cl_coord c) POST_BRIDGE
      [("bridge_addr"%str, VStr a); ("nym"%str, VBytes byteNym); ("signature"%str, VBytes sig)] (cl_addr c)]))).

(** ClientLauncher.go:91-146 requestBridges: Reputation (line 92), again (line 96), PCommr
    (101), GT and HT in Commit (103; PedersenCommitment.go:58-63), FujiOkamBase in Commit and in
    ProveNonneg (113, 114), R (118), GT and HT in ProveEqual with the FujiOkamBase passed to it
    (119; equality.go:47-51), the pseudonym (122), G (140). *)
Definition request_prog (S : suite) (G : gob) (ind : Z) (rn : req_rand) : prog :=
  Peek (fun c => if cl_rep c <? ind then Done (Some []) else
  Peek (fun c => let d := int64 (cl_rep c - ind) in
    let xD := sec_of_int S d in
  Peek (fun c => plet PCommr := cl_PCommr c in
    let xind := sec_of_int S ind in
  Peek (fun c => let GT := pb_GT (cl_pb c) in
  Peek (fun c => let HT := pb_HT (cl_pb c) in
    let '(PCommind, rind) := ped_commit S (PBase HT GT) xind (rqInd rn) in
    plet PCommd := ped_sub S PCommr PCommind in
  Peek (fun c => plet fb := cl_fb c in
    let '(FOCommd, rFO) := fo_commit fb d (rqFO rn) in
  Peek (fun c => plet fb := cl_fb c in
    plet argNN := prove_nonneg S fb d FOCommd rFO (rqNN rn) in
  Peek (fun c => plet R := cl_R c in
    let rd := sec_sub S R rind in
  Peek (fun c => plet fb := cl_fb c in
  Peek (fun c => let GT := pb_GT (cl_pb c) in
  Peek (fun c => let HT := pb_HT (cl_pb c) in
    let argEQ := prove_equal S (PBase HT GT) fb xD rd rFO (rqT1 rn) (rqT2 rn) (rqT3 rn) in
  Peek (fun c =>
    let fields := [("ind"%str, VInt ind); ("nym"%str, VBytes (enc_point S (cl_nym c)));
       ("FOCommd"%str, VBytes (z_bytes FOCommd)); ("PCommd"%str, VBytes (enc_point S PCommd));
       ("PCommind"%str, VBytes (enc_point S PCommind)); ("rind"%str, VBytes (enc_secret S rind));
       ("arg_nonneg"%str, VBytes (genc_nonneg G argNN)); ("arg_equal"%str, VBytes (genc_equal G argEQ))] in
    plet m := msg_request fields in
  Peek (fun c =>
    let sig := eg_sign S (example_nonce S) m (cl_priv c) (cl_G c) in
    Done (Some [Msg (cl_coord c) REQUEST_BRIDGES (fields ++ [("signature"%str, VBytes sig)]) (cl_addr c)])))))))))))))).

(** ClientLauncher.go:206-234 sendVote: the list of assignments (line 213), the pseudonym (216),
    G (228). *)
Definition vote_prog (S : suite) (msgID feedback : Z) : prog :=
  let feedback := if 0 <? feedback then 1 else -1 in
  if msgID <? 0 then Done None else
  Peek (fun c => plet ab := nth_error (cl_assigns c) (Z.to_nat msgID) in
  Peek (fun c =>
    let fields := [("nym"%str, VBytes (enc_point S (cl_nym c)));
      ("assignment"%str, VBytes (enc_assignment S (fst ab))); ("signatures"%str, VBytes (snd ab));
      ("feedback"%str, VInt feedback)] in
    plet m := msg_vote fields in
  Peek (fun c =>
    let sig := eg_sign S (example_nonce S) m (cl_priv c) (cl_G c) in
    Done (Some [Msg (cl_coord c) Net.VOTE (fields ++ [("signature"%str, VBytes sig)]) (cl_addr c)])))).

Definition command_prog (S : suite) (G : gob) (cmd : command) : prog :=
  match cmd with
  | CPost a => post_prog S a
  | CRequest ind rn => request_prog S G ind rn
  | CVote id f => vote_prog S id f
  end.

(** ** The listener: writes *)
Definition upd := client -> client.
Definition w_status (v : Z) : upd := fun c => Client (cl_addr c) (cl_coord c) v (cl_priv c) (cl_pub c) (cl_cpk c)
  (cl_nym c) (cl_G c) (cl_rep c) (cl_keys c) (cl_index c) (cl_assigns c) (cl_PCommr c) (cl_R c) (cl_fb c) (cl_pb c) (cl_hpub c) (cl_hchal c).
Definition w_cpk (v : Z) : upd := fun c => Client (cl_addr c) (cl_coord c) (cl_status c) (cl_priv c) (cl_pub c) v
  (cl_nym c) (cl_G c) (cl_rep c) (cl_keys c) (cl_index c) (cl_assigns c) (cl_PCommr c) (cl_R c) (cl_fb c) (cl_pb c) (cl_hpub c) (cl_hchal c).
Definition w_nym (v : Z) : upd := fun c => Client (cl_addr c) (cl_coord c) (cl_status c) (cl_priv c) (cl_pub c) (cl_cpk c)
  v (cl_G c) (cl_rep c) (cl_keys c) (cl_index c) (cl_assigns c) (cl_PCommr c) (cl_R c) (cl_fb c) (cl_pb c) (cl_hpub c) (cl_hchal c).
Definition w_G (v : option Z) : upd := fun c => Client (cl_addr c) (cl_coord c) (cl_status c) (cl_priv c) (cl_pub c) (cl_cpk c)
  (cl_nym c) v (cl_rep c) (cl_keys c) (cl_index c) (cl_assigns c) (cl_PCommr c) (cl_R c) (cl_fb c) (cl_pb c) (cl_hpub c) (cl_hchal c).
Definition w_rep (v : Z) : upd := fun c => Client (cl_addr c) (cl_coord c) (cl_status c) (cl_priv c) (cl_pub c) (cl_cpk c)
  (cl_nym c) (cl_G c) v (cl_keys c) (cl_index c) (cl_assigns c) (cl_PCommr c) (cl_R c) (cl_fb c) (cl_pb c) (cl_hpub c) (cl_hchal c).
Definition w_keys (v : list Z) : upd := fun c => Client (cl_addr c) (cl_coord c) (cl_status c) (cl_priv c) (cl_pub c) (cl_cpk c)
  (cl_nym c) (cl_G c) (cl_rep c) v (cl_index c) (cl_assigns c) (cl_PCommr c) (cl_R c) (cl_fb c) (cl_pb c) (cl_hpub c) (cl_hchal c).
Definition w_index (v : Z) : upd := fun c => Client (cl_addr c) (cl_coord c) (cl_status c) (cl_priv c) (cl_pub c) (cl_cpk c)
  (cl_nym c) (cl_G c) (cl_rep c) (cl_keys c) v (cl_assigns c) (cl_PCommr c) (cl_R c) (cl_fb c) (cl_pb c) (cl_hpub c) (cl_hchal c).
Definition w_assigns (v : list (assignment * bytes)) : upd := fun c => Client (cl_addr c) (cl_coord c) (cl_status c) (cl_priv c) (cl_pub c) (cl_cpk c)
  (cl_nym c) (cl_G c) (cl_rep c) (cl_keys c) (cl_index c) v (cl_PCommr c) (cl_R c) (cl_fb c) (cl_pb c) (cl_hpub c) (cl_hchal c).
Definition w_PCommr (v : option Z) : upd := fun c => Client (cl_addr c) (cl_coord c) (cl_status c) (cl_priv c) (cl_pub c) (cl_cpk c)
  (cl_nym c) (cl_G c) (cl_rep c) (cl_keys c) (cl_index c) (cl_assigns c) v (cl_R c) (cl_fb c) (cl_pb c) (cl_hpub c) (cl_hchal c).
Definition w_R (v : option Z) : upd := fun c => Client (cl_addr c) (cl_coord c) (cl_status c) (cl_priv c) (cl_pub c) (cl_cpk c)
  (cl_nym c) (cl_G c) (cl_rep c) (cl_keys c) (cl_index c) (cl_assigns c) (cl_PCommr c) v (cl_fb c) (cl_pb c) (cl_hpub c) (cl_hchal c).
Definition w_fb (v : option fobase) : upd := fun c => Client (cl_addr c) (cl_coord c) (cl_status c) (cl_priv c) (cl_pub c) (cl_cpk c)
  (cl_nym c) (cl_G c) (cl_rep c) (cl_keys c) (cl_index c) (cl_assigns c) (cl_PCommr c) (cl_R c) v (cl_pb c) (cl_hpub c) (cl_hchal c).
Definition w_GT (v : Z) : upd := fun c => Client (cl_addr c) (cl_coord c) (cl_status c) (cl_priv c) (cl_pub c) (cl_cpk c)
  (cl_nym c) (cl_G c) (cl_rep c) (cl_keys c) (cl_index c) (cl_assigns c) (cl_PCommr c) (cl_R c) (cl_fb c) (PBase (pb_HT (cl_pb c)) v) (cl_hpub c) (cl_hchal c).
Definition w_HT (v : Z) : upd := fun c => Client (cl_addr c) (cl_coord c) (cl_status c) (cl_priv c) (cl_pub c) (cl_cpk c)
  (cl_nym c) (cl_G c) (cl_rep c) (cl_keys c) (cl_index c) (cl_assigns c) (cl_PCommr c) (cl_R c) (cl_fb c) (PBase v (pb_GT (cl_pb c))) (cl_hpub c) (cl_hchal c).
Definition w_hpub (v : list Z) : upd := fun c => Client (cl_addr c) (cl_coord c) (cl_status c) (cl_priv c) (cl_pub c) (cl_cpk c)
  (cl_nym c) (cl_G c) (cl_rep c) (cl_keys c) (cl_index c) (cl_assigns c) (cl_PCommr c) (cl_R c) (cl_fb c) (cl_pb c) v (cl_hchal c).
Definition w_hchal (v : list bool) : upd := fun c => Client (cl_addr c) (cl_coord c) (cl_status c) (cl_priv c) (cl_pub c) (cl_cpk c)
  (cl_nym c) (cl_G c) (cl_rep c) (cl_keys c) (cl_index c) (cl_assigns c) (cl_PCommr c) (cl_R c) (cl_fb c) (cl_pb c) (cl_hpub c) v.

Definition written (ws : list upd) (c : client) : client := fold_left (fun c w => w c) ws c.

(** The assignments of the handler of a message to the fields of the client, in program order;
    [c] is the client when the message is taken up and [c'] when the handler is done
    (Client.v [cl_handle]): only the listener writes, so the values are those of [c'].
    ClientHandler.go:60, 72, 73, 76, 88 (handleRegisterConfirmation); 97-99 (handleInitPedersenR);
    130, 135, 138 with DissentClient.go:44-46 (handleRoundEnd); 153 (handleBroadcastPedersenRDiff);
    193-194, 197-200, 205-206 (handleAnnouncementFinalize); 259 with DissentClient.go:48-51
    (handleGotSignatures).  Where a handler returns early, the write has the old value. *)
Definition handler_writes (ty : Z) (c' : client) : list upd :=
  if ty =? CLIENT_REGISTER_CONFIRMATION then
    [w_status (cl_status c'); w_fb (cl_fb c'); w_hpub (cl_hpub c'); w_cpk (cl_cpk c'); w_hchal (cl_hchal c')]
  else if ty =? INIT_PEDERSEN_R then [w_R (cl_R c'); w_G (cl_G c'); w_nym (cl_nym c')]
  else if ty =? ANNOUNCEMENT_FINALIZE then
    [w_index (cl_index c'); w_PCommr (cl_PCommr c'); w_status (cl_status c'); w_G (cl_G c');
     w_nym (cl_nym c'); w_keys (cl_keys c'); w_GT (pb_GT (cl_pb c')); w_HT (pb_HT (cl_pb c'))]
  else if ty =? GOT_SIGNS then [w_assigns (cl_assigns c')]
  else if ty =? Net.ROUND_END then [w_status (cl_status c'); w_rep (cl_rep c'); w_assigns (cl_assigns c')]
  else if ty =? BCAST_PEDERSEN_RDIFF then [w_R (cl_R c')]
  else [].

(** A message for the client, with the random bits its handler may draw. *)
Record note := Note { nt_type : Z; nt_params : params; nt_chal : list bool }.
Definition handle_note (S : suite) (G : gob) (c : client) (n : note) : option client :=
  olet (c', _) := cl_handle S G c (nt_type n) (nt_params n) (nt_chal n) in Some c'.

(** The client after the listener has handled some messages, one after the other. *)
Fixpoint hear (S : suite) (G : gob) (c : client) (ms : list note) : option client :=
  match ms with
  | [] => Some c
  | n :: r => olet c' := handle_note S G c n in hear S G c' r
  end.
(** The writes of the listener while it handles them. *)
Fixpoint hear_writes (S : suite) (G : gob) (c : client) (ms : list note) : option (list upd) :=
  match ms with
  | [] => Some []
  | n :: r =>
      olet c' := handle_note S G c n in
      olet ws := hear_writes S G c' r in Some (handler_writes (nt_type n) c' ++ ws)
  end.

(** ** Both at once *)

(** [r] is a possible result of the command when the listener goes through [ws] meanwhile. *)
Inductive beside : client -> list upd -> prog -> option (list msg) -> Prop :=
| b_done c ws r : beside c ws (Done r) r
| b_read c ws k r : beside c ws (k c) r -> beside c ws (Peek k) r
| b_write c w ws p r : beside (w c) ws p r -> beside c (w :: ws) p r.

(** [r] is a possible result of [cmd] entered at the client [c] while its listener handles the
    messages [ms]. *)
Definition during (S : suite) (G : gob) (c : client) (ms : list note) (cmd : command) (r : option (list msg)) : Prop :=
  exists ws, hear_writes S G c ms = Some ws /\ beside c ws (command_prog S G cmd) r.

(** The command with nothing beside it. *)
Fixpoint alone (p : prog) (c : client) : option (list msg) :=
  match p with Done r => r | Peek k => alone (k c) c end.

(** ** The steps add up to the functions of Client.v *)
Section Threads.
Context (S : suite) (G : gob).

Lemma alone_onto {A} (o : option A) f c : alone (onto o f) c = match o with Some a => alone (f a) c | None => None end.
Proof. destruct o; reflexivity. Qed.

Lemma pb_eta b : PBase (pb_HT b) (pb_GT b) = b.
Proof. destruct b; reflexivity. Qed.

Theorem alone_command c cmd : alone (command_prog S G cmd) c = cl_command S G c cmd.
Proof.
  destruct cmd as [a|ind rn|id f]; cbn [command_prog cl_command].
  - reflexivity.
  - unfold request_prog, cl_request. cbn [alone]. destruct (cl_rep c <? ind); [reflexivity|]. cbn [alone].
    destruct (cl_PCommr c) as [P|]; [|reflexivity]. cbn [onto alone]. rewrite pb_eta.
    destruct (ped_commit S (cl_pb c) (sec_of_int S ind) (rqInd rn)) as [PC rind].
    destruct (ped_sub S P PC) as [Pd|]; [|reflexivity]. cbn [onto alone].
    destruct (cl_fb c) as [fb|] eqn:EF; [|reflexivity]. cbn [onto].
    destruct (fo_commit fb (int64 (cl_rep c - ind)) (rqFO rn)) as [FC rFO]. cbn [alone]. rewrite EF. cbn [onto].
    destruct (prove_nonneg S fb (int64 (cl_rep c - ind)) FC rFO (rqNN rn)) as [aN|]; [|reflexivity]. cbn [onto alone].
    destruct (cl_R c) as [R|]; [|reflexivity]. cbn [onto alone]. rewrite EF. cbn [onto alone]. rewrite pb_eta, alone_onto.
    destruct (msg_request _) as [m|]; reflexivity.
  - unfold vote_prog, cl_vote. destruct (id <? 0); [reflexivity|]. cbn [alone].
    destruct (nth_error (cl_assigns c) (Z.to_nat id)) as [[a bs]|]; [|reflexivity]. cbn [onto alone fst snd]. rewrite alone_onto.
    destruct (msg_vote _) as [m|]; reflexivity.
Qed.

Lemma written_handler c n c' : handle_note S G c n = Some c' -> written (handler_writes (nt_type n) c') c = c'.
Proof.
  unfold handle_note. destruct (cl_handle _ _ _ _ _ _) as [[k out]|] eqn:E; [|discriminate]. intros X. injection X as ->.
  unfold cl_handle in E. unfold handler_writes. set (p := nt_params n) in *. set (chal := nt_chal n) in *.
  destruct (nt_type n =? CLIENT_REGISTER_CONFIRMATION).
  { unfold cl_register_confirmation in E. odestruct E. injection E as <- _. destruct c; reflexivity. }
  destruct (nt_type n =? INIT_PEDERSEN_R).
  { unfold cl_init_r in E. odestruct E. injection E as <- _. destruct c; reflexivity. }
  destruct (nt_type n =? GN_HONESTY_ANSWER) eqn:T3.
  { assert (c' = c) as -> by (unfold cl_honesty_answer in E; odestruct E; injection E as <- _; reflexivity).
    apply Z.eqb_eq in T3. rewrite T3. reflexivity. }
  destruct (nt_type n =? ANNOUNCEMENT_FINALIZE).
  { unfold cl_announce_final in E. cbv zeta in E. odestruct E. injection E as <- _. destruct c; reflexivity. }
  destruct (nt_type n =? GOT_SIGNS).
  { unfold cl_got_signatures in E. odestruct E; injection E as <- _; destruct c; reflexivity. }
  destruct (nt_type n =? Net.VOTE) eqn:T6.
  { assert (c' = c) as -> by (unfold cl_vote_start in E; injection E as <- _; reflexivity).
    apply Z.eqb_eq in T6. rewrite T6. reflexivity. }
  destruct (nt_type n =? Net.ROUND_END).
  { unfold cl_round_end in E. odestruct E. injection E as <- _. destruct c; reflexivity. }
  destruct (nt_type n =? BCAST_PEDERSEN_RDIFF).
  { unfold cl_rdiff in E. cbv zeta in E. odestruct E; injection E as <- _; destruct c; reflexivity. }
  destruct (nt_type n =? VOTE_REPLY).
  { unfold cl_vote_reply in E. odestruct E. injection E as <- _. reflexivity. }
  injection E as <- _. reflexivity.
Qed.

Lemma written_app ws1 ws2 c : written (ws1 ++ ws2) c = written ws2 (written ws1 c).
Proof. apply fold_left_app. Qed.

(** The listener's writes, all done, leave the client as the handlers leave it. *)
Theorem written_hear ms : forall c ws, hear_writes S G c ms = Some ws -> hear S G c ms = Some (written ws c).
Proof.
  induction ms as [|n ms IH]; intros c ws E; cbn [hear_writes hear] in *; [injection E as <-; reflexivity|].
  destruct (handle_note S G c n) as [c'|] eqn:E1; [|discriminate].
  destruct (hear_writes S G c' ms) as [ws'|] eqn:E2; [|discriminate]. injection E as <-.
  rewrite (IH _ _ E2), written_app, (written_handler _ _ _ E1). reflexivity.
Qed.

(** ** Commands that see one state *)
(** [fx]: fields no write touches. *)
Section Steady.
Context {F : Type} (fx : client -> F).
Inductive steady : prog -> Prop :=
| st_done r : steady (Done r)
| st_peek k : (forall c c', fx c = fx c' -> k c = k c') -> (forall c, steady (k c)) -> steady (Peek k).
(** ... up to one read, which may see any field. *)
Inductive single : prog -> Prop :=
| si_steady p : steady p -> single p
| si_fix k : (forall c c', fx c = fx c' -> k c = k c') -> (forall c, single (k c)) -> single (Peek k)
| si_any k : (forall c, steady (k c)) -> single (Peek k).

Lemma steady_onto {A} (o : option A) f : (forall a, steady (f a)) -> steady (onto o f).
Proof. intros Hf. destruct o; [apply Hf|constructor]. Qed.
Lemma single_onto {A} (o : option A) f : (forall a, single (f a)) -> single (onto o f).
Proof. intros Hf. destruct o; [apply Hf|apply si_steady; constructor]. Qed.

Definition leaves (w : upd) : Prop := forall c, fx (w c) = fx c.
Lemma leaves_written ws c : Forall leaves ws -> fx (written ws c) = fx c.
Proof.
  intros Hw. revert c. induction Hw as [|w ws W _ IH]; intros c; [reflexivity|]. unfold written. cbn [fold_left].
  change (fx (written ws (w c)) = fx c). rewrite IH. apply W.
Qed.

Lemma steady_alone p : steady p -> forall c c', fx c = fx c' -> alone p c = alone p c'.
Proof.
  induction 1 as [r|k K _ IH]; intros c c' E; [reflexivity|]. cbn [alone]. rewrite (K _ _ E). apply IH. exact E.
Qed.
Lemma steady_beside c ws p r : beside c ws p r -> Forall leaves ws -> steady p -> r = alone p c.
Proof.
  induction 1 as [c ws r|c ws k r _ IH|c w ws p r _ IH]; intros FW ST; [reflexivity| |].
  - inversion ST as [|k' K SK]; subst. cbn [alone]. apply IH; [exact FW|apply SK].
  - inversion FW as [|w' ws' W FW']; subst. rewrite (IH FW' ST). apply steady_alone; [exact ST|apply W].
Qed.
Lemma single_beside c ws p r : beside c ws p r -> Forall leaves ws -> single p ->
  exists n, r = alone p (written (firstn n ws) c).
Proof.
  induction 1 as [c ws r|c ws k r B IH|c w ws p r B IH]; intros FW SI.
  - exists 0%nat. reflexivity.
  - inversion SI as [p' ST|k' K SK|k' SK]; subst.
    + inversion ST as [|k' K SK]; subst. exists 0%nat. cbn [firstn alone]. cbn [written fold_left].
      apply (steady_beside _ _ _ _ B FW (SK c)).
    + destruct (IH FW (SK c)) as (n & ->). exists n. cbn [alone]. f_equal. apply K. symmetry. apply leaves_written.
      apply Forall_forall. intros w Iw. rewrite Forall_forall in FW. apply FW. rewrite <- (firstn_skipn n ws). apply in_or_app. left. exact Iw.
    + exists 0%nat. cbn [firstn alone]. cbn [written fold_left]. apply (steady_beside _ _ _ _ B FW (SK c)).
  - inversion FW as [|w' ws' W FW']; subst. destruct (IH FW' SI) as (n & ->). exists (Datatypes.S n). reflexivity.
Qed.
End Steady.

(** What stays as it is during the messages that cannot tear the command. *)
Definition post_fx (c : client) := (cl_nym c, cl_G c, cl_priv c, cl_coord c, cl_addr c).
Definition request_fx (c : client) := (post_fx c, cl_rep c, cl_PCommr c, cl_pb c, cl_fb c).


Lemma post_steady a : steady post_fx (post_prog S a).
Proof.
  unfold post_prog. constructor.
  - intros c c' E. unfold post_fx in E. injection E as E1 E2 E3 E4 E5. cbv zeta. rewrite E1. reflexivity.
  - intros c. cbv zeta. constructor; [|constructor].
    intros c1 c2 E. unfold post_fx in E. injection E as E1 E2 E3 E4 E5. rewrite E2, E3, E4, E5. reflexivity.
Qed.

Lemma vote_single id f : single post_fx (vote_prog S id f).
Proof.
  unfold vote_prog. cbv zeta. destruct (id <? 0); [apply si_steady; constructor|].
  apply si_any. intros c. apply steady_onto. intros ab. constructor.
  - intros c1 c2 E. unfold post_fx in E. injection E as E1 E2 E3 E4 E5. rewrite E1. reflexivity.
  - intros c1. apply steady_onto. intros m. constructor; [|constructor].
    intros c2 c3 E. unfold post_fx in E. injection E as E1 E2 E3 E4 E5. rewrite E2, E3, E4, E5. reflexivity.
Qed.

Ltac rq := let c := fresh in let c' := fresh in let E := fresh in intros c c' E; unfold request_fx, post_fx in E;
  injection E; clear E; intros; repeat match goal with X : _ c = _ c' |- _ => rewrite ?X; clear X end; reflexivity.
Lemma request_single ind rn : single request_fx (request_prog S G ind rn).
Proof.
  unfold request_prog.
  apply si_fix; [rq|intros c0].
  destruct (cl_rep c0 <? ind); [apply si_steady; constructor|].
  apply si_fix; [rq|intros c1]. cbv zeta.
  apply si_fix; [rq|intros c2].
  apply single_onto; intros P.
  apply si_fix; [rq|intros c3].
  apply si_fix; [rq|intros c4].
  destruct (ped_commit _ _ _ _) as [PC rind]. apply single_onto; intros Pd.
  apply si_fix; [rq|intros c5].
  apply single_onto; intros fb. destruct (fo_commit _ _ _) as [FC rFO].
  apply si_fix; [rq|intros c6].
  apply single_onto; intros fb2. apply single_onto; intros aN.
  apply si_any. intros c7. apply steady_onto; intros R.
  constructor; [rq|intros c8].
  apply steady_onto; intros fb3.
  constructor; [rq|intros c9].
  constructor; [rq|intros c10].
  constructor; [rq|intros c11].
  apply steady_onto; intros m.
  constructor; [|constructor].
  rq.
Qed.

(** ** Between two messages *)
Definition one_change {V} (vw : client -> V) (n : note) : Prop := forall c c' k, handle_note S G c n = Some c' ->
  vw (written (firstn k (handler_writes (nt_type n) c')) c) = vw c \/
  vw (written (firstn k (handler_writes (nt_type n) c')) c) = vw c'.

Lemma boundary {V} (vw : client -> V) ms : Forall (one_change vw) ms -> forall c ws k, hear_writes S G c ms = Some ws ->
  exists ms1 ms2 c1, ms = ms1 ++ ms2 /\ hear S G c ms1 = Some c1 /\ vw (written (firstn k ws) c) = vw c1.
Proof.
  induction 1 as [|n ms O _ IH]; intros c ws k E; cbn [hear_writes] in E.
  - injection E as <-. exists [], [], c. rewrite firstn_nil. auto.
  - destruct (handle_note S G c n) as [c'|] eqn:E1; [|discriminate].
    destruct (hear_writes S G c' ms) as [ws'|] eqn:E2; [|discriminate]. injection E as <-.
    set (W := handler_writes (nt_type n) c') in *. rewrite firstn_app, written_app.
    destruct (Nat.le_gt_cases k (length W)) as [L|L].
    + replace (k - length W)%nat with 0%nat by lia. cbn [firstn]. unfold written at 1. cbn [fold_left].
      destruct (O c c' k E1) as [X|X]; fold W in X.
      * exists [], (n :: ms), c. auto.
      * exists [n], ms, c'. cbn [app hear]. rewrite E1. auto.
    + rewrite (firstn_all2 W) by lia. unfold W at 2. rewrite (written_handler _ _ _ E1).
      destruct (IH c' ws' (k - length W)%nat E2) as (m1 & m2 & c1 & -> & H1 & H2).
      exists (n :: m1), m2, c1. cbn [app hear]. rewrite E1. auto.
Qed.

Lemma hear_forall (P : upd -> Prop) (Q : note -> Prop) :
  (forall n c', Q n -> Forall P (handler_writes (nt_type n) c')) ->
  forall ms c ws, Forall Q ms -> hear_writes S G c ms = Some ws -> Forall P ws.
Proof.
  intros HP ms. induction ms as [|n ms IH]; intros c ws FQ E; cbn [hear_writes] in E; [injection E as <-; constructor|].
  destruct (handle_note S G c n) as [c'|]; [|discriminate].
  destruct (hear_writes S G c' ms) as [ws'|] eqn:E2; [|discriminate]. injection E as <-.
  inversion FQ as [|n' ms' Qn FQ']; subst. apply Forall_app. split; [apply HP; exact Qn|apply (IH c' ws' FQ' E2)].
Qed.
End Threads.

(** The messages during which a command can see some fields before and others after. *)
Definition tears (cmd : command) : list Z :=
  match cmd with
  | CPost _ | CVote _ _ => [INIT_PEDERSEN_R; ANNOUNCEMENT_FINALIZE]
  | CRequest _ _ => [INIT_PEDERSEN_R; ANNOUNCEMENT_FINALIZE; Net.ROUND_END; CLIENT_REGISTER_CONFIRMATION]
  end.
Definition spares (cmd : command) (n : note) : Prop := ~ In (nt_type n) (tears cmd).

Section Atomic.
Context (S : suite) (G : gob).

Ltac types H := cbn [tears In] in H;
  repeat match goal with |- context [nt_type ?n =? ?t] => destruct (Z.eqb_spec (nt_type n) t) as [?|?]; [try (exfalso; apply H; auto; fail)|] end.

Lemma spares_post n c' cmd : (forall i r, cmd <> CRequest i r) -> spares cmd n -> Forall (leaves post_fx) (handler_writes (nt_type n) c').
Proof.
  intros NR SP. assert (N : ~ In (nt_type n) [INIT_PEDERSEN_R; ANNOUNCEMENT_FINALIZE]).
  { destruct cmd as [a|i r|i f]; [exact SP|destruct (NR i r); reflexivity|exact SP]. }
  unfold handler_writes. types N; repeat constructor; intros [? ? ? ? ? ? ? ? ? ? ? ? ? ? ? ? ? ?]; reflexivity.
Qed.
Lemma spares_request n c' ind rn : spares (CRequest ind rn) n -> Forall (leaves request_fx) (handler_writes (nt_type n) c').
Proof.
  intros SP. unfold spares in SP. unfold handler_writes.
  types SP; repeat constructor; intros [? ? ? ? ? ? ? ? ? ? ? ? ? ? ? ? ? ?]; reflexivity.
Qed.

Lemma prefix_all {A} (f : list A -> Prop) l : (forall k, (k <= length l)%nat -> f (firstn k l)) -> forall k, f (firstn k l).
Proof.
  intros H k. destruct (Nat.le_gt_cases k (length l)) as [L|L]; [auto|]. rewrite firstn_all2 by lia. rewrite <- (firstn_all l). apply H. lia.
Qed.

Lemma vote_one_change id f n : spares (CVote id f) n -> one_change S G (fun c => (post_fx c, cl_assigns c)) n.
Proof.
  intros SP c c' k E. pose proof (spares_post n c' (CVote id f) ltac:(discriminate) SP) as L.
  assert (PF : forall j, post_fx (written (firstn j (handler_writes (nt_type n) c')) c) = post_fx c).
  { intros j. apply leaves_written. apply Forall_forall. intros w I. rewrite Forall_forall in L. apply L.
    rewrite <- (firstn_skipn j (handler_writes _ _)). apply in_or_app. left. exact I. }
  assert (PF' : post_fx c' = post_fx c).
  { rewrite <- (written_handler S G c n c' E) at 1. rewrite <- (firstn_all (handler_writes _ _)). apply PF. }
  rewrite PF, PF'. assert (A : cl_assigns (written (firstn k (handler_writes (nt_type n) c')) c) = cl_assigns c \/
    cl_assigns (written (firstn k (handler_writes (nt_type n) c')) c) = cl_assigns c'); [|destruct A as [-> | ->]; auto].
  clear PF PF' L. unfold handler_writes. unfold spares in SP. types SP;
    destruct k as [|[|[|[|[|[|k]]]]]]; cbn [firstn written fold_left w_status w_fb w_hpub w_cpk w_hchal w_assigns w_rep w_R cl_assigns]; auto.
Qed.
Lemma request_one_change ind rn n : spares (CRequest ind rn) n -> one_change S G (fun c => (request_fx c, cl_R c)) n.
Proof.
  intros SP c c' k E. pose proof (spares_request n c' ind rn SP) as L.
  assert (PF : forall j, request_fx (written (firstn j (handler_writes (nt_type n) c')) c) = request_fx c).
  { intros j. apply leaves_written. apply Forall_forall. intros w I. rewrite Forall_forall in L. apply L.
    rewrite <- (firstn_skipn j (handler_writes _ _)). apply in_or_app. left. exact I. }
  assert (PF' : request_fx c' = request_fx c).
  { rewrite <- (written_handler S G c n c' E) at 1. rewrite <- (firstn_all (handler_writes _ _)). apply PF. }
  rewrite PF, PF'. assert (A : cl_R (written (firstn k (handler_writes (nt_type n) c')) c) = cl_R c \/
    cl_R (written (firstn k (handler_writes (nt_type n) c')) c) = cl_R c'); [|destruct A as [-> | ->]; auto].
  clear PF PF' L. unfold handler_writes. unfold spares in SP. types SP;
    destruct k as [|[|k]]; cbn [firstn written fold_left w_assigns w_R cl_R]; auto.
Qed.

Lemma post_same a c c' : post_fx c = post_fx c' -> cl_command S G c (CPost a) = cl_command S G c' (CPost a).
Proof.
  intros E. unfold post_fx in E. injection E as E1 E2 E3 E4 E5. cbn [cl_command]. unfold cl_post. rewrite E1, E2, E3, E4, E5. reflexivity.
Qed.
Lemma vote_same id f c c' : (post_fx c, cl_assigns c) = (post_fx c', cl_assigns c') ->
  cl_command S G c (CVote id f) = cl_command S G c' (CVote id f).
Proof.
  intros E. unfold post_fx in E. injection E as E1 E2 E3 E4 E5 E6. cbn [cl_command]. unfold cl_vote.
  rewrite E1, E2, E3, E4, E5, E6. reflexivity.
Qed.
Lemma request_same ind rn c c' : (request_fx c, cl_R c) = (request_fx c', cl_R c') ->
  cl_command S G c (CRequest ind rn) = cl_command S G c' (CRequest ind rn).
Proof.
  intros E. unfold request_fx, post_fx in E. injection E as E1 E2 E3 E4 E5 E6 E7 E8 E9 E10. cbn [cl_command]. unfold cl_request.
  rewrite E1, E2, E3, E4, E5, E6, E7, E8, E9, E10. reflexivity.
Qed.

Theorem during_atomic c ms cmd r : during S G c ms cmd r -> Forall (spares cmd) ms ->
  exists ms1 ms2 c1, ms = ms1 ++ ms2 /\ hear S G c ms1 = Some c1 /\ r = cl_command S G c1 cmd.
Proof.
  intros (ws & EW & B) SP. destruct cmd as [a|ind rn|id f]; cbn [command_prog] in B.
  - exists [], ms, c. split; [reflexivity|]. split; [reflexivity|]. rewrite <- alone_command. cbn [command_prog].
    apply (steady_beside post_fx c ws _ r B); [|apply post_steady].
    apply (hear_forall S G (leaves post_fx) (spares (CPost a))) with (ms := ms) (c := c); [|exact SP|exact EW].
    intros n c'. apply spares_post. discriminate.
  - assert (LW : Forall (leaves request_fx) ws).
    { apply (hear_forall S G (leaves request_fx) (spares (CRequest ind rn))) with (ms := ms) (c := c); [|exact SP|exact EW].
      intros n c'. apply spares_request. }
    destruct (single_beside request_fx c ws _ r B LW (request_single S G ind rn)) as (k & ->).
    destruct (boundary S G (fun c => (request_fx c, cl_R c)) ms) with (c := c) (ws := ws) (k := k) as (m1 & m2 & c1 & H1 & H2 & H3).
    { apply Forall_impl with (2 := SP). intros n. apply request_one_change. }
    { exact EW. }
    exists m1, m2, c1. split; [exact H1|]. split; [exact H2|].
    change (request_prog S G ind rn) with (command_prog S G (CRequest ind rn)). rewrite alone_command. apply request_same. exact H3.
  - assert (LW : Forall (leaves post_fx) ws).
    { apply (hear_forall S G (leaves post_fx) (spares (CVote id f))) with (ms := ms) (c := c); [|exact SP|exact EW].
      intros n c'. apply spares_post. discriminate. }
    destruct (single_beside post_fx c ws _ r B LW (vote_single S id f)) as (k & ->).
    destruct (boundary S G (fun c => (post_fx c, cl_assigns c)) ms) with (c := c) (ws := ws) (k := k) as (m1 & m2 & c1 & H1 & H2 & H3).
    { apply Forall_impl with (2 := SP). intros n. apply vote_one_change. }
    { exact EW. }
    exists m1, m2, c1. split; [exact H1|]. split; [exact H2|].
    change (vote_prog S id f) with (command_prog S G (CVote id f)). rewrite alone_command. apply vote_same. exact H3.
Qed.

(** Conversely every moment between two messages is possible. *)
Lemma beside_alone c ws1 ws2 p : beside c (ws1 ++ ws2) p (alone p (written ws1 c)).
Proof.
  revert c. induction ws1 as [|w ws1 IH]; intros c.
  - cbn [app written fold_left]. induction p as [r|k IHk]; [constructor|]. cbn [alone]. apply b_read. apply IHk.
  - cbn [app]. apply b_write. apply IH.
Qed.
End Atomic.
