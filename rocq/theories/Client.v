(** The client: /repo/cmd/client. *)
From Coq Require Import ZArith Lia List Bool.
From Coq Require Import Strings.Byte.
From Coq Require String.
From Verif Require Import ZMod Bytes Suite Pedersen ElGamal FujiOkam Equality Codec Bridge Net.
Import ListNotations.
Import String.StringSyntax.
Open Scope Z_scope.
Delimit Scope string_scope with str.

(** ClientStatus.go *)
Definition CL_CONFIGURATION := 0.
Definition CL_CONNECTED := 1.
Definition CL_MESSAGE := 2.

(** DissentClient.go:18-42.  Socket is never used.  A nil field is None. *)
Record client := Client {
  cl_addr : addr; cl_coord : addr;
  cl_status : Z;
  cl_priv : Z; cl_pub : Z;
  cl_cpk : Z;                      (* ControllerPublicKey *)
  cl_nym : Z;                      (* OnetimePseudoNym *)
  cl_G : option Z;
  cl_rep : Z;
  cl_keys : list Z;                (* AllClientsPublicKeys *)
  cl_index : Z;
  cl_assigns : list (assignment * bytes);
  cl_PCommr : option Z;
  cl_R : option Z;
  cl_fb : option fobase;
  cl_pb : pbase;
  cl_hpub : list Z;
  cl_hchal : list bool
}.

(** ClientLauncher.go:268-291 initClient; [a] is the picked private key and [s]
    the secret CreateBaseFromSuite picks. *)
Definition init_client (S : suite) (self coord : addr) (a s : Z) : client :=
  Client self coord CL_CONFIGURATION a (pt_mul_base S a) pt_new pt_new None starting_credit
    [] 0 [] None None None (ped_base_from_suite S s) [] [].

(** ClientLauncher.go:35-44 register *)
Definition cl_register (S : suite) (c : client) : msg :=
  Msg (cl_coord c) CLIENT_REGISTER_CONTROLLERSIDE
    [("public_key"%str, VBytes (enc_point S (cl_pub c)))] (cl_addr c).

(** ClientHandler.go:63-71 / AnonServerHandler.go:418-426: the base sent by the
    coordinator.  Point.FromBinary is SetBytes (point.go:20-23). *)
Definition fobase_params (fb : fobase) : params :=
  [("n"%str, VBytes (z_bytes (fN fb)));
   ("g1"%str, VBytes (z_bytes (fG1 fb))); ("g2"%str, VBytes (z_bytes (fG2 fb)));
   ("g3"%str, VBytes (z_bytes (fG3 fb))); ("g4"%str, VBytes (z_bytes (fG4 fb)));
   ("g5"%str, VBytes (z_bytes (fG5 fb))); ("g6"%str, VBytes (z_bytes (fG6 fb)));
   ("h1"%str, VBytes (z_bytes (fH1 fb)))].
Definition read_fobase (p : params) : option fobase :=
  olet n := get_bytes p "n"%str in
  olet g1 := get_bytes p "g1"%str in olet g2 := get_bytes p "g2"%str in
  olet g3 := get_bytes p "g3"%str in olet g4 := get_bytes p "g4"%str in
  olet g5 := get_bytes p "g5"%str in olet g6 := get_bytes p "g6"%str in
  olet h1 := get_bytes p "h1"%str in
  Some (FoBase (be_to_z n) (be_to_z h1) (be_to_z g1) (be_to_z g2) (be_to_z g3)
          (be_to_z g4) (be_to_z g5) (be_to_z g6)).

(** ClientHandler.go:59-94 handleRegisterConfirmation; [chal] are the 480 random
    challenge bits. *)
Definition cl_register_confirmation (S : suite) (G : gob) (c : client) (p : params) (chal : list bool)
  : option (client * list msg) :=
  olet fb := read_fobase p in
  olet bh := get_bytes p "honesty_prf"%str in
  olet hp := gdec_bigints G bh in
  olet bk := get_bytes p "public_key"%str in
  olet pk := dec_point S bk in
  Some (Client (cl_addr c) (cl_coord c) CL_CONNECTED (cl_priv c) (cl_pub c) pk (cl_nym c) (cl_G c)
          (cl_rep c) (cl_keys c) (cl_index c) (cl_assigns c) (cl_PCommr c) (cl_R c) (Some fb)
          (cl_pb c) hp chal,
        [Msg (cl_coord c) GN_HONESTY_CHALLENGE [("honesty_chal"%str, VBytes (enc_bools chal))] (cl_addr c)]).

(** ClientHandler.go:96-100 handleInitPedersenR *)
Definition cl_init_r (S : suite) (c : client) (p : params) : option (client * list msg) :=
  olet br := get_bytes p "r"%str in
  olet r := dec_secret S br in
  olet bg := get_bytes p "g"%str in
  olet g := dec_point S bg in
  Some (Client (cl_addr c) (cl_coord c) (cl_status c) (cl_priv c) (cl_pub c) (cl_cpk c)
          (pt_mul S g (cl_priv c)) (Some g)
          (cl_rep c) (cl_keys c) (cl_index c) (cl_assigns c) (cl_PCommr c) (Some r) (cl_fb c)
          (cl_pb c) (cl_hpub c) (cl_hchal c), []).

(** ClientHandler.go:103-112 handleGnHonestyAnswer: panics when the check fails. *)
Definition cl_honesty_answer (G : gob) (c : client) (p : params) : option (client * list msg) :=
  olet fb := cl_fb c in
  olet ba := get_bytes p "honesty_ans"%str in
  olet ans := gdec_bigints G ba in
  olet res := gn_check_all fb ans (cl_hchal c) (cl_hpub c) in
  if res =? 0 then Some (c, []) else None.

(** ClientHandler.go:129-142 handleRoundEnd *)
Definition cl_round_end (S : suite) (G : gob) (c : client) (p : params) : option (client * list msg) :=
  olet bk := get_bytes p "keys"%str in
  olet keys := dec_points S bk in
  olet bd := get_bytes p "diffs"%str in
  olet diffs := gdec_ints G bd in
  olet my := find_int keys diffs (cl_nym c) in
  Some (Client (cl_addr c) (cl_coord c) CL_CONNECTED (cl_priv c) (cl_pub c) (cl_cpk c)
          (cl_nym c) (cl_G c)
          (int64 (cl_rep c + my)) (cl_keys c) (cl_index c) [] (cl_PCommr c) (cl_R c) (cl_fb c)
          (cl_pb c) (cl_hpub c) (cl_hchal c), []).

(** ClientHandler.go:144-154 handleBroadcastPedersenRDiff *)
Definition cl_rdiff (S : suite) (c : client) (p : params) : option (client * list msg) :=
  olet bk := get_bytes p "keys"%str in
  olet keys := dec_points S bk in
  olet br := get_bytes p "rDiffs"%str in
  olet rs := dec_secrets S br in
  let index := find_index keys (cl_nym c) in
  if index <? 0 then Some (c, [])
  else
    olet rd := nth_error rs (Z.to_nat index) in
    olet R := cl_R c in
    Some (Client (cl_addr c) (cl_coord c) (cl_status c) (cl_priv c) (cl_pub c) (cl_cpk c)
            (cl_nym c) (cl_G c)
            (cl_rep c) (cl_keys c) (cl_index c) (cl_assigns c) (cl_PCommr c) (Some (sec_add S R rd))
            (cl_fb c) (cl_pb c) (cl_hpub c) (cl_hchal c), []).

(** ClientHandler.go:179-214 handleAnnouncementFinalize: g is unmarshalled with
    its error ignored; a client that does not find its nym panics. *)
Definition cl_announce_final (S : suite) (c : client) (p : params) : option (client * list msg) :=
  olet bg := get_bytes p "g"%str in
  let g := dec_point_unchecked bg in
  let nym := pt_mul S g (cl_priv c) in
  olet bk := get_bytes p "keys"%str in
  olet keys := dec_points S bk in
  olet bv := get_bytes p "vals"%str in
  olet vals := dec_points S bv in
  let index := find_index keys nym in
  if index <? 0 then None
  else
    olet PCommr := nth_error vals (Z.to_nat index) in
    olet bGT := get_bytes p "GT"%str in
    olet GT := dec_point S bGT in
    olet bHT := get_bytes p "HT"%str in
    olet HT := dec_point S bHT in
    Some (Client (cl_addr c) (cl_coord c) CL_MESSAGE (cl_priv c) (cl_pub c) (cl_cpk c)
            nym (Some g)
            (cl_rep c) keys index (cl_assigns c) (Some PCommr) (cl_R c)
            (cl_fb c) (PBase HT GT) (cl_hpub c) (cl_hchal c), []).

(** ClientHandler.go:246-261 handleGotSignatures *)
Definition cl_got_signatures (S : suite) (c : client) (p : params) : option (client * list msg) :=
  olet sig := get_bytes p "signature"%str in
  olet m := msg_got p in
  if negb (eg_verify S m (cl_cpk c) sig (Some pt_new)) then Some (c, [])
  else
    olet ba := get_bytes p "assignment"%str in
    olet a := dec_assignment S ba in
    olet bs := get_bytes p "signatures"%str in
    Some (Client (cl_addr c) (cl_coord c) (cl_status c) (cl_priv c) (cl_pub c) (cl_cpk c)
            (cl_nym c) (cl_G c)
            (cl_rep c) (cl_keys c) (cl_index c) (cl_assigns c ++ [(a, bs)]) (cl_PCommr c) (cl_R c)
            (cl_fb c) (cl_pb c) (cl_hpub c) (cl_hchal c), []).

(** ClientHandler.go:157-165 handleVoteReply: only prints. *)
Definition cl_vote_reply (c : client) (p : params) : option (client * list msg) :=
  olet _ := get_bool p "reply"%str in Some (c, []).

(** ClientHandler.go:115-126 handleVotePhaseStart: only prints. *)
Definition cl_vote_start (c : client) : option (client * list msg) := Some (c, []).

(** ClientHandler.go:14-56 Handle; [chal] is used by one handler only. *)
Definition cl_handle (S : suite) (G : gob) (c : client) (ty : Z) (p : params) (chal : list bool)
  : option (client * list msg) :=
  if ty =? CLIENT_REGISTER_CONFIRMATION then cl_register_confirmation S G c p chal
  else if ty =? INIT_PEDERSEN_R then cl_init_r S c p
  else if ty =? GN_HONESTY_ANSWER then cl_honesty_answer G c p
  else if ty =? ANNOUNCEMENT_FINALIZE then cl_announce_final S c p
  else if ty =? GOT_SIGNS then cl_got_signatures S c p
  else if ty =? VOTE then cl_vote_start c
  else if ty =? ROUND_END then cl_round_end S G c p
  else if ty =? BCAST_PEDERSEN_RDIFF then cl_rdiff S c p
  else if ty =? VOTE_REPLY then cl_vote_reply c p
  else Some (c, []).

(** ** Commands *)
(** ClientLauncher.go:65-86 postBridge *)
Definition cl_post (S : suite) (c : client) (a : bytes) : msg :=
  let byteNym := enc_point S (cl_nym c) in
  let m := a ++ byteNym in
  let sig := eg_sign S (example_nonce S) m (cl_priv c) (cl_G c) in
  Msg (cl_coord c) POST_BRIDGE
    [("bridge_addr"%str, VStr a); ("nym"%str, VBytes byteNym); ("signature"%str, VBytes sig)] (cl_addr c).

(** Random values drawn by requestBridges: the blinding of the indicator, the
    random integer of the FO commitment, those of ProveNonneg and ProveEqual. *)
Record req_rand := ReqRand {
  rqInd : Z; rqFO : Z; rqNN : nn_rand; rqT1 : Z; rqT2 : Z; rqT3 : Z }.

(** ClientLauncher.go:91-146 requestBridges.  None = panic, Some None = refused
    locally because ind exceeds the reputation. *)
Definition cl_request (S : suite) (G : gob) (c : client) (ind : Z) (rn : req_rand)
  : option (option msg) :=
  if cl_rep c <? ind then Some None
  else
    let d := int64 (cl_rep c - ind) in
    let xD := sec_of_int S d in
    olet PCommr := cl_PCommr c in
    let xind := sec_of_int S ind in
    let '(PCommind, rind) := ped_commit S (cl_pb c) xind (rqInd rn) in
    olet PCommd := ped_sub S PCommr PCommind in
    olet fb := cl_fb c in
    let '(FOCommd, rFO) := fo_commit fb d (rqFO rn) in
    olet argNN := prove_nonneg S fb d FOCommd rFO (rqNN rn) in
    olet R := cl_R c in
    let rd := sec_sub S R rind in
    let argEQ := prove_equal S (cl_pb c) fb xD rd rFO (rqT1 rn) (rqT2 rn) (rqT3 rn) in
    let fields := [("ind"%str, VInt ind); ("nym"%str, VBytes (enc_point S (cl_nym c)));
       ("FOCommd"%str, VBytes (z_bytes FOCommd)); ("PCommd"%str, VBytes (enc_point S PCommd));
       ("PCommind"%str, VBytes (enc_point S PCommind)); ("rind"%str, VBytes (enc_secret S rind));
       ("arg_nonneg"%str, VBytes (genc_nonneg G argNN)); ("arg_equal"%str, VBytes (genc_equal G argEQ))] in
    olet m := msg_request fields in
    let sig := eg_sign S (example_nonce S) m (cl_priv c) (cl_G c) in
    Some (Some (Msg (cl_coord c) REQUEST_BRIDGES (fields ++ [("signature"%str, VBytes sig)]) (cl_addr c))).

(** ClientLauncher.go:206-234 sendVote; None = index out of range. *)
Definition cl_vote (S : suite) (c : client) (msgID feedback : Z) : option msg :=
  let feedback := if 0 <? feedback then 1 else -1 in
  if msgID <? 0 then None
  else
    olet (a, bs) := nth_error (cl_assigns c) (Z.to_nat msgID) in
    let fields := [("nym"%str, VBytes (enc_point S (cl_nym c)));
      ("assignment"%str, VBytes (enc_assignment S a)); ("signatures"%str, VBytes bs);
      ("feedback"%str, VInt feedback)] in
    olet m := msg_vote fields in
    let sig := eg_sign S (example_nonce S) m (cl_priv c) (cl_G c) in
    Some (Msg (cl_coord c) Net.VOTE (fields ++ [("signature"%str, VBytes sig)]) (cl_addr c)).
