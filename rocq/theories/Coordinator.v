(** The coordinator: /repo/cmd/coordinator. *)
From Coq Require Import ZArith Znumtheory Lia List Bool Permutation.
From Coq Require Import Strings.Byte.
From Coq Require String.
From Verif Require Import ZMod Bytes Suite Pedersen ElGamal FujiOkam Equality Codec Maps Net Bridge Client
  Perm SimpleShuffle PairShuffle Server.
Import ListNotations.
Import String.StringSyntax.
Open Scope Z_scope.
Delimit Scope string_scope with str.

(** CoordinatorStatus.go *)
Definition CO_CONFIGURATION := 0.
Definition CO_READY_FOR_NEW_ROUND := 1.
Definition CO_ANNOUNCE := 2.
Definition CO_MESSAGE := 3.

(** The fields of Coordinator.go:35-84 that never change after initCoordinator. *)
Record costatic := CoStatic {
  cs_addr : addr; cs_priv : Z; cs_pub : Z;
  cs_fb : fobase; cs_trap : fotrap;
  cs_hsec : list Z; cs_hpub : list Z
}.

(** Coordinator.go:35-84, and the launcher's variable isFirstRound.  LRSBase is
    left out: it is set by handleAnnouncement and read only by commented-out code.
    An empty slot of AssignmentSignaturesLog is None.  Points are map keys through
    String(), see Maps.v. *)
Record coord := Coord {
  co_static : costatic;
  co_servers : list (addr * Z)  (* ServerList *);
  co_status : Z  (* Status *);
  co_first : bool  (* isFirstRound (CoordinatorLauncher.go:232) *);
  co_G : option Z;
  co_clients : amap Z addr  (* Clients *);
  co_bkeys : amap Z Z  (* BeginningKeyMap *);
  co_bcomms : amap Z Z  (* BeginningCommMap *);
  co_buffer : list (Z * Z)  (* NewClientsBuffer *);
  co_msglog : list Z  (* MsgLog *);
  co_asigs : amap bytes (list (option bytes) * Z)  (* AssignmentSignaturesLog: slots and Count *);
  co_reqs : option (amap Z addr)  (* RequesterAddrs, nil before the first round *);
  co_votes : list Z  (* VoteRecords *);
  co_bridges : amap bytes (option Z * bool)  (* Bridges: Nym and Used *);
  co_ekeys : amap Z Z  (* EndingKeyMap *);
  co_ecomms : amap Z Z  (* EndingCommMap *);
  co_diffs : amap Z Z  (* ReputationDiffMap *);
  co_keys : list Z  (* AllClientsPublicKeys *);
  co_pb : pbase  (* PedersenBase *)
}.
Definition set_servers (c : coord) (x : list (addr * Z)) : coord :=
  Coord (co_static c) x (co_status c) (co_first c) (co_G c) (co_clients c) (co_bkeys c) (co_bcomms c) (co_buffer c) (co_msglog c) (co_asigs c) (co_reqs c) (co_votes c) (co_bridges c) (co_ekeys c) (co_ecomms c) (co_diffs c) (co_keys c) (co_pb c).
Definition set_status (c : coord) (x : Z) : coord :=
  Coord (co_static c) (co_servers c) x (co_first c) (co_G c) (co_clients c) (co_bkeys c) (co_bcomms c) (co_buffer c) (co_msglog c) (co_asigs c) (co_reqs c) (co_votes c) (co_bridges c) (co_ekeys c) (co_ecomms c) (co_diffs c) (co_keys c) (co_pb c).
Definition set_first (c : coord) (x : bool) : coord :=
  Coord (co_static c) (co_servers c) (co_status c) x (co_G c) (co_clients c) (co_bkeys c) (co_bcomms c) (co_buffer c) (co_msglog c) (co_asigs c) (co_reqs c) (co_votes c) (co_bridges c) (co_ekeys c) (co_ecomms c) (co_diffs c) (co_keys c) (co_pb c).
Definition set_G (c : coord) (x : option Z) : coord :=
  Coord (co_static c) (co_servers c) (co_status c) (co_first c) x (co_clients c) (co_bkeys c) (co_bcomms c) (co_buffer c) (co_msglog c) (co_asigs c) (co_reqs c) (co_votes c) (co_bridges c) (co_ekeys c) (co_ecomms c) (co_diffs c) (co_keys c) (co_pb c).
Definition set_clients (c : coord) (x : amap Z addr) : coord :=
  Coord (co_static c) (co_servers c) (co_status c) (co_first c) (co_G c) x (co_bkeys c) (co_bcomms c) (co_buffer c) (co_msglog c) (co_asigs c) (co_reqs c) (co_votes c) (co_bridges c) (co_ekeys c) (co_ecomms c) (co_diffs c) (co_keys c) (co_pb c).
Definition set_bkeys (c : coord) (x : amap Z Z) : coord :=
  Coord (co_static c) (co_servers c) (co_status c) (co_first c) (co_G c) (co_clients c) x (co_bcomms c) (co_buffer c) (co_msglog c) (co_asigs c) (co_reqs c) (co_votes c) (co_bridges c) (co_ekeys c) (co_ecomms c) (co_diffs c) (co_keys c) (co_pb c).
Definition set_bcomms (c : coord) (x : amap Z Z) : coord :=
  Coord (co_static c) (co_servers c) (co_status c) (co_first c) (co_G c) (co_clients c) (co_bkeys c) x (co_buffer c) (co_msglog c) (co_asigs c) (co_reqs c) (co_votes c) (co_bridges c) (co_ekeys c) (co_ecomms c) (co_diffs c) (co_keys c) (co_pb c).
Definition set_buffer (c : coord) (x : list (Z * Z)) : coord :=
  Coord (co_static c) (co_servers c) (co_status c) (co_first c) (co_G c) (co_clients c) (co_bkeys c) (co_bcomms c) x (co_msglog c) (co_asigs c) (co_reqs c) (co_votes c) (co_bridges c) (co_ekeys c) (co_ecomms c) (co_diffs c) (co_keys c) (co_pb c).
Definition set_msglog (c : coord) (x : list Z) : coord :=
  Coord (co_static c) (co_servers c) (co_status c) (co_first c) (co_G c) (co_clients c) (co_bkeys c) (co_bcomms c) (co_buffer c) x (co_asigs c) (co_reqs c) (co_votes c) (co_bridges c) (co_ekeys c) (co_ecomms c) (co_diffs c) (co_keys c) (co_pb c).
Definition set_asigs (c : coord) (x : amap bytes (list (option bytes) * Z)) : coord :=
  Coord (co_static c) (co_servers c) (co_status c) (co_first c) (co_G c) (co_clients c) (co_bkeys c) (co_bcomms c) (co_buffer c) (co_msglog c) x (co_reqs c) (co_votes c) (co_bridges c) (co_ekeys c) (co_ecomms c) (co_diffs c) (co_keys c) (co_pb c).
Definition set_reqs (c : coord) (x : option (amap Z addr)) : coord :=
  Coord (co_static c) (co_servers c) (co_status c) (co_first c) (co_G c) (co_clients c) (co_bkeys c) (co_bcomms c) (co_buffer c) (co_msglog c) (co_asigs c) x (co_votes c) (co_bridges c) (co_ekeys c) (co_ecomms c) (co_diffs c) (co_keys c) (co_pb c).
Definition set_votes (c : coord) (x : list Z) : coord :=
  Coord (co_static c) (co_servers c) (co_status c) (co_first c) (co_G c) (co_clients c) (co_bkeys c) (co_bcomms c) (co_buffer c) (co_msglog c) (co_asigs c) (co_reqs c) x (co_bridges c) (co_ekeys c) (co_ecomms c) (co_diffs c) (co_keys c) (co_pb c).
Definition set_bridges (c : coord) (x : amap bytes (option Z * bool)) : coord :=
  Coord (co_static c) (co_servers c) (co_status c) (co_first c) (co_G c) (co_clients c) (co_bkeys c) (co_bcomms c) (co_buffer c) (co_msglog c) (co_asigs c) (co_reqs c) (co_votes c) x (co_ekeys c) (co_ecomms c) (co_diffs c) (co_keys c) (co_pb c).
Definition set_ekeys (c : coord) (x : amap Z Z) : coord :=
  Coord (co_static c) (co_servers c) (co_status c) (co_first c) (co_G c) (co_clients c) (co_bkeys c) (co_bcomms c) (co_buffer c) (co_msglog c) (co_asigs c) (co_reqs c) (co_votes c) (co_bridges c) x (co_ecomms c) (co_diffs c) (co_keys c) (co_pb c).
Definition set_ecomms (c : coord) (x : amap Z Z) : coord :=
  Coord (co_static c) (co_servers c) (co_status c) (co_first c) (co_G c) (co_clients c) (co_bkeys c) (co_bcomms c) (co_buffer c) (co_msglog c) (co_asigs c) (co_reqs c) (co_votes c) (co_bridges c) (co_ekeys c) x (co_diffs c) (co_keys c) (co_pb c).
Definition set_diffs (c : coord) (x : amap Z Z) : coord :=
  Coord (co_static c) (co_servers c) (co_status c) (co_first c) (co_G c) (co_clients c) (co_bkeys c) (co_bcomms c) (co_buffer c) (co_msglog c) (co_asigs c) (co_reqs c) (co_votes c) (co_bridges c) (co_ekeys c) (co_ecomms c) x (co_keys c) (co_pb c).
Definition set_keys (c : coord) (x : list Z) : coord :=
  Coord (co_static c) (co_servers c) (co_status c) (co_first c) (co_G c) (co_clients c) (co_bkeys c) (co_bcomms c) (co_buffer c) (co_msglog c) (co_asigs c) (co_reqs c) (co_votes c) (co_bridges c) (co_ekeys c) (co_ecomms c) (co_diffs c) x (co_pb c).
Definition set_pb (c : coord) (x : pbase) : coord :=
  Coord (co_static c) (co_servers c) (co_status c) (co_first c) (co_G c) (co_clients c) (co_bkeys c) (co_bcomms c) (co_buffer c) (co_msglog c) (co_asigs c) (co_reqs c) (co_votes c) (co_bridges c) (co_ekeys c) (co_ecomms c) (co_diffs c) (co_keys c) x.

Definition co_addr c := cs_addr (co_static c).
Definition co_priv c := cs_priv (co_static c).
Definition co_pub c := cs_pub (co_static c).
Definition co_fb c := cs_fb (co_static c).

(** CoordinatorLauncher.go:45-79 initCoordinator; [a] is the picked private key,
    [fb] and [trap] the created base, [gammas] the random values of the honesty
    proofs. *)
Definition init_coord (S : suite) (self : addr) (a : Z) (fb : fobase) (trap : fotrap) (gammas : list Z) : coord :=
  let '(hsec, hpub) := gn_generate_all fb gammas in
  Coord (CoStatic self a (pt_mul_base S a) fb trap hsec hpub)
    [] CO_CONFIGURATION true None [] [] [] [] [] [] None [] [] [] [] [] [] (ped_minimal_base S).

(** Coordinator.go:87-92 GetLastServerAddr, 95-100 GetFirstServerAddr; None = nil. *)
Definition last_server (c : coord) : option addr := option_map fst (nth_error (rev (co_servers c)) 0).
Definition first_server (c : coord) : option addr := option_map fst (nth_error (co_servers c) 0).

(** Coordinator.go:102-111 AddClient: the first client with the same address, in the
    iteration order [ord] of the map, is deleted. *)
Definition add_client (ord : list Z) (m : amap Z addr) (key : Z) (a : addr) : amap Z addr :=
  let same k := match mget m k with Some v => if keq v a then true else false | None => false end in
  mset (match find same ord with Some k => mdel m k | None => m end) key a.

(** Coordinator.go:114-117 AddServer *)
Definition add_server (c : coord) (a : addr) (pk : Z) : coord := set_servers c (co_servers c ++ [(a, pk)]).

(** Coordinator.go:123-131 GetServerIndex; None = -1.  IP.Equal and Port compare as
    the textual address. *)
Fixpoint server_index_from (i : nat) (l : list (addr * Z)) (a : addr) : option nat :=
  match l with
  | [] => None
  | (b, _) :: r => if keq b a then Some i else server_index_from (Datatypes.S i) r a
  end.
Definition server_index (c : coord) (a : addr) : option nat := server_index_from 0 (co_servers c) a.

(** Coordinator.go:133-137 SignMessage: the fixed nonce cipher and the base Point(),
    i.e. the residue 0. *)
Definition co_sign (S : suite) (c : coord) (m : bytes) : bytes :=
  eg_sign S (example_nonce S) m (co_priv c) (Some pt_new).

(** Coordinator.go:140-143 AddMsgLog *)
Definition add_msglog (c : coord) (n : Z) : coord * Z :=
  (set_msglog c (co_msglog c ++ [n]), Z.of_nat (length (co_msglog c ++ [n]))).

(** l[i] = x; None = index out of range. *)
Fixpoint set_nth {A} (l : list A) (i : nat) (x : A) : option (list A) :=
  match l, i with
  | [], _ => None
  | _ :: r, O => Some (x :: r)
  | y :: r, Datatypes.S i => olet r' := set_nth r i x in Some (y :: r')
  end.

(** Coordinator.go:146-151 InitAssignmentSignatures *)
Definition init_asigs (c : coord) (a : bytes) : coord :=
  set_asigs c (mset (co_asigs c) a (repeat None (length (co_servers c) + 1), 0)).
(** Coordinator.go:154-160 AddAssignmentSignature: no entry = no slots = panic. *)
Definition add_asig (c : coord) (a : bytes) (i : nat) (sig : bytes) : option coord :=
  olet (slots, n) := mget (co_asigs c) a in
  olet slots' := set_nth slots i (Some sig) in
  Some (set_asigs c (mset (co_asigs c) a (slots', n + 1))).
(** Coordinator.go:162-165 FinishCollectingAssignmentSignatures *)
Definition asigs_done (c : coord) (a : bytes) : bool :=
  match mget (co_asigs c) a with
  | Some (_, n) => n =? Z.of_nat (length (co_servers c)) + 1
  | None => false
  end.
(** Coordinator.go:167-169 GetAssignmentSignatures; gob writes a nil slot as an
    empty one. *)
Definition get_asigs (c : coord) (a : bytes) : list bytes :=
  match mget (co_asigs c) a with
  | Some (slots, _) => map (fun o => match o with Some b => b | None => [] end) slots
  | None => []
  end.

(** Coordinator.go:171-173 AddBridge *)
Definition add_bridge (c : coord) (a : bytes) (nym : Z) : coord :=
  set_bridges c (mset (co_bridges c) a (Some nym, false)).

(** Coordinator.go:175-185 GetBridge: the first unused bridge in the iteration order
    [ord]; it is marked used. *)
Definition bridge_free (m : amap bytes (option Z * bool)) (a : bytes) : bool :=
  match mget m a with Some (_, used) => negb used | None => false end.
Definition get_bridge (ord : list bytes) (m : amap bytes (option Z * bool))
  : option (bytes * option Z * amap bytes (option Z * bool)) :=
  olet a := find (bridge_free m) ord in
  olet (nym, _) := mget m a in
  Some (a, nym, mset m a (nym, true)).
(** Coordinator.go:187-198 GetBridges; [ords i] is the iteration order of the i-th
    call of GetBridge. *)
Fixpoint get_bridges (n : nat) (ords : nat -> list bytes) (m : amap bytes (option Z * bool))
  : list (bytes * option Z) * amap bytes (option Z * bool) :=
  match n with
  | O => ([], m)
  | Datatypes.S n =>
      match get_bridge (ords O) m with
      | None => ([], m)
      | Some (a, nym, m') =>
          let '(l, m'') := get_bridges n (fun i => ords (Datatypes.S i)) m' in ((a, nym) :: l, m'')
      end
  end.
(** Coordinator.go:200-208 AssignBridges *)
Definition assign_bridges (c : coord) (num nymR : Z) (ords : nat -> list bytes) : list assignment * coord :=
  let '(brs, m) := get_bridges (Z.to_nat num) ords (co_bridges c) in
  (map (fun b : bytes * option Z => Assign (Some nymR) (fst b) (snd b)) brs, set_bridges c m).
(** Coordinator.go:210-212 ClearBridges *)
Definition clear_bridges (c : coord) : coord := set_bridges c [].
(** Coordinator.go:215-217 GetReputationDiff *)
Definition rep_diff (c : coord) (k : Z) : Z := match mget (co_diffs c) k with Some v => v | None => 0 end.
(** Coordinator.go:219-221 AddClientInBuffer *)
Definition add_buffer (c : coord) (nym pcomm : Z) : coord := set_buffer c (co_buffer c ++ [(nym, pcomm)]).
(** Coordinator.go:223-227 AddIntoEndingMap *)
Definition add_ending (c : coord) (k v : Z) : coord :=
  set_ecomms (set_ekeys c (mset (co_ekeys c) k k)) (mset (co_ecomms c) k v).
(** Coordinator.go:229-233 AddIntoRepMap *)
Definition add_rep (c : coord) (k v : Z) : coord :=
  set_bcomms (set_bkeys c (mset (co_bkeys c) k k)) (mset (co_bcomms c) k v).
(** Coordinator.go:235-237 ClearVoteRecords, 239-246 IsLinkableRecord, 248-250
    AddToVoteRecords *)
Definition clear_votes (c : coord) : coord := set_votes c [].
Definition is_linkable (c : coord) (y0 : Z) : bool := existsb (fun r => r =? y0) (co_votes c).
Definition add_vote (c : coord) (y0 : Z) : coord := set_votes c (co_votes c ++ [y0]).

(** ** Handlers: CoordinatorHandler.go.  None = the coordinator stops with a panic. *)
(** Random values and map iteration orders a handler uses. *)
Record co_rand := CoRand {
  crR : Z;                     (* the blinding picked by Commit *)
  crClients : list Z;          (* order of Clients in AddClient *)
  crBridges : nat -> list bytes;  (* orders of Bridges in GetBridge *)
  crDiffs : list Z             (* order of ReputationDiffMap in handleRoundEnd *)
}.

(** Sending one event to every client / server.  The order of the sends is not
    modelled: messages are delivered in any order. *)
Definition to_clients (c : coord) (ty : Z) (p : params) : list msg :=
  map (fun kv : Z * addr => Msg (snd kv) ty p (co_addr c)) (co_clients c).
Definition to_servers (c : coord) (ty : Z) (p : params) : list msg :=
  map (fun kv : addr * Z => Msg (fst kv) ty p (co_addr c)) (co_servers c).

(** CoordinatorHandler.go:76-127 handleAnnouncement *)
Definition co_announcement (S : suite) (c : coord) (p : params) : option (coord * list msg) :=
  olet bg := get_bytes p "g"%str in olet g := dec_point S bg in
  olet bG := get_bytes p "GT"%str in olet GT := dec_point S bG in
  olet bH := get_bytes p "HT"%str in olet HT := dec_point S bH in
  olet bk := get_bytes p "keys"%str in olet keys := dec_points S bk in
  olet bv := get_bytes p "vals"%str in olet vals := dec_points S bv in
  olet ek := ending_map keys keys in
  olet ec := ending_map keys vals in
  let c1 := set_pb c (PBase HT GT) in
  let c2 := set_diffs (set_ecomms (set_ekeys c1 ek) ec) [] in
  let c3 := set_status (set_G (set_keys c2 keys) (Some g)) CO_MESSAGE in
  let pm := [("g"%str, VBytes bg); ("keys"%str, VBytes bk); ("vals"%str, VBytes bv);
             ("GT"%str, VBytes bG); ("HT"%str, VBytes bH)] in
  Some (c3, to_clients c ANNOUNCEMENT_FINALIZE pm ++ to_servers c ANNOUNCEMENT_FINALIZE pm).

(** CoordinatorHandler.go:130-172 handleServerRegister: the error of UnmarshalBinary is
    ignored. *)
Definition co_server_register (S : suite) (c : coord) (p : params) (src : addr) : option (coord * list msg) :=
  olet bk := get_bytes p "public_key"%str in
  let pk := dec_point_unchecked bk in
  let link := match last_server c with
              | Some l => [Msg l UPDATE_NEXT_HOP [("reply"%str, VBool true); ("next_hop"%str, VStr src)] (co_addr c)]
              | None => []
              end in
  let prev := match last_server c with Some l => l | None => co_addr c end in
  Some (add_server c src pk,
        link ++ [Msg src SERVER_REGISTER_REPLY
          (("reply"%str, VBool true) :: ("prev_server"%str, VStr prev) ::
           ("h"%str, VBytes (enc_point S (pb_HT (co_pb c)))) :: fobase_params (co_fb c)) (co_addr c)]).

(** CoordinatorHandler.go:174-177 handleUpdatePedersenH *)
Definition co_pedersen_h (S : suite) (c : coord) (p : params) : option (coord * list msg) :=
  olet bh := get_bytes p "h"%str in olet h := dec_point S bh in
  Some (set_pb c (PBase h (pb_GT (co_pb c))), []).

(** CoordinatorHandler.go:181-210 handleClientRegisterControllerSide: the error of
    UnmarshalBinary is ignored; EncodePoint panics on a nil G and SendEvent on a nil
    first server. *)
Definition co_client_register (S : suite) (c : coord) (p : params) (src : addr) (rn : co_rand)
  : option (coord * list msg) :=
  olet bk := get_bytes p "public_key"%str in
  let pk := dec_point_unchecked bk in
  let c1 := set_clients c (add_client (crClients rn) (co_clients c) pk src) in
  let '(pc, r) := ped_commit S (co_pb c) (sec_of_int S starting_credit) (crR rn) in
  olet m1 := send (co_addr c) (first_server c) CLIENT_REGISTER_SERVERSIDE
    [("public_key"%str, VBytes bk); ("addr"%str, VStr src); ("pcomm"%str, VBytes (enc_point S pc))] in
  olet g := co_G c in
  Some (c1, [m1; Msg src INIT_PEDERSEN_R
    [("r"%str, VBytes (enc_secret S r)); ("g"%str, VBytes (enc_point S g))] (co_addr c)]).

(** CoordinatorHandler.go:213-252 handleClientRegisterServerSide *)
Definition co_client_confirm (S : suite) (G : gob) (c : coord) (p : params) : option (coord * list msg) :=
  olet bk := get_bytes p "public_key"%str in
  let nym := dec_point_unchecked bk in
  olet bc := get_bytes p "pcomm"%str in olet pc := dec_point S bc in
  olet a := get_str p "addr"%str in
  Some (add_buffer c nym pc,
        [Msg a CLIENT_REGISTER_CONFIRMATION
           (fobase_params (co_fb c) ++
            [("honesty_prf"%str, VBytes (genc_bigints G (cs_hpub (co_static c))));
             ("public_key"%str, VBytes (enc_point S (co_pub c)))]) (co_addr c)]).

(** CoordinatorHandler.go:254-265 handleGnHonestyChallenge: the same secrets are used
    for every challenge. *)
Definition co_honesty (G : gob) (c : coord) (p : params) (src : addr) : option (coord * list msg) :=
  olet bc := get_bytes p "honesty_chal"%str in olet chal := dec_bools bc in
  olet ans := gn_answer_all (cs_trap (co_static c)) chal (cs_hsec (co_static c)) in
  Some (c, [Msg src GN_HONESTY_ANSWER [("honesty_ans"%str, VBytes (genc_bigints G ans))] (co_addr c)]).

(** CoordinatorHandler.go:267-290 handlePostBridge *)
Definition co_post (S : suite) (c : coord) (p : params) : option (coord * list msg) :=
  olet a := get_str p "bridge_addr"%str in
  olet sig := get_bytes p "signature"%str in
  olet bn := get_bytes p "nym"%str in olet nym := dec_point S bn in
  olet m := msg_post p in
  if negb (eg_verify S m nym sig (co_G c)) then Some (c, [])
  else Some (add_bridge c a nym, []).

(** CoordinatorHandler.go:321-337: entries for the new assignments, with the
    coordinator's own signature in the last slot. *)
Fixpoint open_assignments (S : suite) (c : coord) (l : list assignment) : option coord :=
  match l with
  | [] => Some c
  | a :: rest =>
      let sig := co_sign S c (enc_assignment S a) in
      let c1 := init_asigs c (asAddr a) in
      olet c2 := add_asig c1 (asAddr a) (length (co_servers c)) sig in
      open_assignments S c2 rest
  end.

(** CoordinatorHandler.go:293-362 handleRequestBridges *)
Definition co_request (S : suite) (G : gob) (c : coord) (p : params) (src : addr) (rn : co_rand)
  : option (coord * list msg) :=
  olet ind := get_int p "ind"%str in
  olet sig := get_bytes p "signature"%str in
  olet bn := get_bytes p "nym"%str in olet nymR := dec_point S bn in
  let PCommr := mget (co_ecomms c) nymR in
  olet m := msg_request p in
  if negb (eg_verify S m nymR sig (co_G c)) then Some (c, [])
  else
    olet ok := verify_ind S G (co_pb c) (co_fb c) p PCommr in
    if negb ok then Some (c, [])
    else
      olet reqs := co_reqs c in
      let c1 := set_reqs c (Some (mset reqs nymR src)) in
      let '(l, c2) := assign_bridges c1 ind nymR (crBridges rn) in
      match l with
      | [] => Some (c2, [])
      | _ =>
          olet c3 := open_assignments S c2 l in
          olet fo := get_bytes p "FOCommd"%str in olet pd := get_bytes p "PCommd"%str in
          olet pi := get_bytes p "PCommind"%str in olet ri := get_bytes p "rind"%str in
          olet nn := get_bytes p "arg_nonneg"%str in olet eq := get_bytes p "arg_equal"%str in
          Some (c3, to_servers c3 SIGN_ASSIGNMENTS
            [("assignments"%str, VBytes (enc_assignments S G l)); ("ind"%str, VInt ind); ("nym"%str, VBytes bn);
             ("FOCommd"%str, VBytes fo); ("PCommd"%str, VBytes pd); ("PCommind"%str, VBytes pi);
             ("rind"%str, VBytes ri); ("arg_nonneg"%str, VBytes nn); ("arg_equal"%str, VBytes eq)])
      end.

(** CoordinatorHandler.go:381-409: the loop of handleGotSignatures *)
Fixpoint got_loop (S : suite) (G : gob) (c : coord) (j : nat) (requester : option addr) (sigs : list bytes)
    (l : list assignment) (out : list msg) : option (coord * list msg) :=
  match l with
  | [] => Some (c, out)
  | a :: rest =>
      olet sig := nth_error sigs 0 in
      olet c1 := add_asig c (asAddr a) j sig in
      if asigs_done c1 (asAddr a) then
        let nym := match mget (co_bridges c1) (asAddr a) with Some (n, _) => n | None => None end in
        let c2 := set_bridges c1 (mset (co_bridges c1) (asAddr a) (nym, true)) in
        let pm := [("assignment"%str, VBytes (enc_assignment S a));
                   ("signatures"%str, VBytes (genc_2d G (get_asigs c2 (asAddr a))))] in
        olet m := msg_got pm in
        olet msg := send (co_addr c) requester GOT_SIGNS (pm ++ [("signature"%str, VBytes (co_sign S c2 m))]) in
        got_loop S G c2 j requester (tl sigs) rest (out ++ [msg])
      else got_loop S G c1 j requester (tl sigs) rest out
  end.

(** CoordinatorHandler.go:364-410 handleGotSignatures *)
Definition co_got (S : suite) (G : gob) (c : coord) (p : params) (src : addr) : option (coord * list msg) :=
  olet ok := get_bool p "success"%str in
  if negb ok then Some (c, [])
  else
    match server_index c src with
    | None => Some (c, [])
    | Some j =>
        olet ba := get_bytes p "assignments"%str in olet l := dec_assignments S G ba in
        olet bs := get_bytes p "signatures"%str in olet sigs := gdec_2d G bs in
        olet a0 := nth_error l 0 in
        olet nymR := asNymR a0 in
        let requester := match co_reqs c with Some m => mget m nymR | None => None end in
        got_loop S G c j requester sigs l []
    end.

(** CoordinatorHandler.go:516-529 / 530-535: the signatures of all servers and the
    coordinator's own, all with base Point() (residue 0).  None = index out of range. *)
Fixpoint check_sigs (S : suite) (m : bytes) (pks : list Z) (sigs : list bytes) : option bool :=
  match pks with
  | [] => Some true
  | pk :: rest =>
      olet sig := nth_error sigs 0 in
      if negb (eg_verify S m pk sig (Some pt_new)) then Some false else check_sigs S m rest (tl sigs)
  end.

(** CoordinatorHandler.go:495-544 handleVote *)
Definition co_vote (S : suite) (G : gob) (c : coord) (p : params) : option (coord * list msg) :=
  olet bn := get_bytes p "nym"%str in olet nym := dec_point S bn in
  let index := find_index (co_keys c) nym in
  if index <? 0 then Some (c, [])
  else
    olet pk := nth_error (co_keys c) (Z.to_nat index) in
    olet sig := get_bytes p "signature"%str in
    olet m := msg_vote p in
    if negb (eg_verify S m pk sig (co_G c)) then Some (c, [])
    else
      olet bs := get_bytes p "signatures"%str in olet sigs := gdec_2d G bs in
      olet ba := get_bytes p "assignment"%str in olet a := dec_assignment S ba in
      olet ok := check_sigs S ba (map snd (co_servers c) ++ [co_pub c]) sigs in
      if negb ok then Some (c, [])
      else
        olet target := asNym a in
        olet f := get_int p "feedback"%str in
        Some (set_diffs c (mset (co_diffs c) target (int64 (rep_diff c target + f))), []).

(** CoordinatorHandler.go:603-643 handleRoundEnd *)
Definition co_round_end (S : suite) (G : gob) (c : coord) (p : params) (rn : co_rand) : option (coord * list msg) :=
  olet bk := get_bytes p "keys"%str in olet keys := dec_points S bk in
  olet bv := get_bytes p "vals"%str in olet vals := dec_points S bv in
  olet bc := ending_map keys vals in
  olet bkm := ending_map keys keys in
  olet bG := get_bytes p "GT"%str in olet GT := dec_point S bG in
  olet bH := get_bytes p "HT"%str in olet HT := dec_point S bH in
  olet dkeys := non_nil (map (fun k => mget (co_ekeys c) k) (crDiffs rn)) in
  let diffs := map (rep_diff c) (crDiffs rn) in
  let c1 := set_pb (set_bkeys (set_bcomms c bc) bkm) (PBase HT GT) in
  Some (set_status c1 CO_READY_FOR_NEW_ROUND,
        to_clients c Net.ROUND_END
          [("keys"%str, VBytes (enc_points S dkeys)); ("diffs"%str, VBytes (genc_ints G diffs))]).

(** CoordinatorHandler.go:25-71 Handle *)
Definition co_handle (S : suite) (G : gob) (c : coord) (ty : Z) (p : params) (src : addr) (rn : co_rand)
  : option (coord * list msg) :=
  if ty =? SERVER_REGISTER then co_server_register S c p src
  else if ty =? UPDATE_PEDERSEN_H then co_pedersen_h S c p
  else if ty =? CLIENT_REGISTER_CONTROLLERSIDE then co_client_register S c p src rn
  else if ty =? CLIENT_REGISTER_SERVERSIDE then co_client_confirm S G c p
  else if ty =? GN_HONESTY_CHALLENGE then co_honesty G c p src
  else if ty =? POST_BRIDGE then co_post S c p
  else if ty =? REQUEST_BRIDGES then co_request S G c p src rn
  else if ty =? GOT_SIGNS then co_got S G c p src
  else if ty =? Net.VOTE then co_vote S G c p
  else if ty =? Net.ROUND_END then co_round_end S G c p rn
  else if ty =? ANNOUNCEMENT then co_announcement S c p
  else Some (c, []).

(** ** The launcher's loop: CoordinatorLauncher.go *)
(** CoordinatorLauncher.go:82-95 configCommParams and 251 *)
Definition co_configure (S : suite) (c : coord) : coord * list msg :=
  (set_status c CO_READY_FOR_NEW_ROUND,
   to_servers c BCAST_PEDERSEN_H [("h"%str, VBytes (enc_point S (pb_HT (co_pb c))))]).

(** CoordinatorLauncher.go:100-106 clearBuffer *)
Definition clear_buffer (c : coord) : coord := set_reqs (set_msglog (set_buffer c []) []) (Some []).

(** CoordinatorLauncher.go:212-224 addFakeClients; the list gives the picked sk and r
    of every fake client. *)
Definition add_fakes (S : suite) (c : coord) (l : list (Z * Z)) : coord :=
  fold_left (fun c sr => add_rep c (pt_mul_base S (fst sr)) (pt_mul S (pb_HT (co_pb c)) (snd sr))) l c.

(** CoordinatorLauncher.go:112-138 announce; [ord] is the iteration order of
    BeginningCommMap. *)
Definition announce (S : suite) (c : coord) (ord : list Z) : option (coord * list msg) :=
  match first_server c with
  | None => Some (set_status c CO_MESSAGE, [])
  | Some a =>
      olet keys := non_nil (map (fun k => mget (co_bkeys c) k) ord) in
      olet vals := non_nil (map (fun k => mget (co_bcomms c) k) ord) in
      Some (c, [Msg a ANNOUNCEMENT (table_params S keys vals (pb_GT (co_pb c)) (pb_HT (co_pb c))) (co_addr c)])
  end.

(** CoordinatorLauncher.go:253-274: the start of a round, once Status is
    READY_FOR_NEW_ROUND; None when it is not (the code waits) or on a panic. *)
Definition begin_round (S : suite) (c : coord) (fakes : list (Z * Z)) (ord : list Z) : option (coord * list msg) :=
  if negb (co_status c =? CO_READY_FOR_NEW_ROUND) then None
  else
    let c1 := if co_first c then set_first (add_fakes S c fakes) false else c in
    announce S (set_status (clear_buffer c1) CO_ANNOUNCE) ord.

(** CoordinatorLauncher.go:203-210 vote *)
Definition begin_vote (c : coord) : coord * list msg := (clear_votes c, to_clients c Net.VOTE []).

(** CoordinatorLauncher.go:144-196 roundEnd; [ord] is the iteration order of
    EndingCommMap, [rs] the picked blindings in that order. *)
Definition round_end (S : suite) (c : coord) (ord : list Z) (rs : list Z) : option (coord * list msg) :=
  match last_server c with
  | None => Some (set_status c CO_READY_FOR_NEW_ROUND, [])
  | Some a =>
      let c1 := fold_left (fun c kv => add_ending c (fst kv) (snd kv)) (co_buffer c) c in
      olet keys := non_nil (map (fun k => mget (co_ekeys c1) k) ord) in
      olet vs := non_nil (map (fun k => mget (co_ecomms c1) k) ord) in
      let comm i := fst (ped_commit S (co_pb c1) (sec_of_int S (rep_diff c1 (at_ ord i))) (at_ rs i)) in
      let vals := tab (length ord) (fun i => ped_add S (at_ vs i) (comm i)) in
      let rdiffs := tab (length ord) (at_ rs) in
      Some (clear_bridges c1,
        Msg a Net.ROUND_END
          (table_params S keys vals (pb_GT (co_pb c1)) (pb_HT (co_pb c1)) ++ [("is_start"%str, VBool true)]) (co_addr c)
        :: to_clients c1 BCAST_PEDERSEN_RDIFF
          [("keys"%str, VBytes (enc_points S keys)); ("rDiffs"%str, VBytes (enc_secrets S rdiffs))])
  end.
