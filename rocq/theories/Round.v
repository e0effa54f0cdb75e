(** Rounds of the whole system: the schedules the round theorems range over, the ledger
    of reputations that specifies them, and the invariant. *)
From Coq Require Import ZArith Znumtheory Lia List Bool Permutation.
From Coq Require Import Strings.Byte.
From Coq Require String.
From Verif Require Import ZMod Bytes Suite Pedersen ElGamal FujiOkam Equality Codec Maps Net Bridge Client
  Perm SimpleShuffle PairShuffle Server Coordinator History System Chain Prop_Topology Prop_Chain.
Import ListNotations.
Import String.StringSyntax.
Open Scope Z_scope.
Delimit Scope string_scope with str.

(** ** Specification *)
(** The product of the servers' round keys, in the order of the chain. *)
Definition rkey (sv : amap addr server) (a : addr) : Z :=
  match mget sv a with Some s => sv_roundkey s | None => 1 end.
Definition exps (c : coord) (sv : amap addr server) : list Z := map (rkey sv) (map fst (co_servers c)).
Definition round_exp (y : sys) : Z := prod_of (exps (y_coord y) (y_servers y)).
(** The pseudonym of a long-term key in the current round. *)
Definition nym_of (S : suite) (y : sys) (k : Z) : Z := pt_mul S k (round_exp y).

(** The ledger: which long-term key has which reputation and which blinding.  It is kept
    by looking at the schedule only: a client that joins has the starting credit and, once
    the coordinator handles its registration, the blinding drawn there; a fake client has
    reputation 0 and the blinding drawn for it; when a round ends every key gets the
    difference recorded for its pseudonym and the blinding drawn for its pseudonym. *)
Definition entry := (Z * (Z * Z))%type.
Definition ledger := list entry.
(** The blinding drawn for [nym]: the orders of map iteration [ord] and of the draws [rs]
    agree. *)
Definition drawn (ord rs : list Z) (nym : Z) : Z :=
  match find (fun p => fst p =? nym) (combine ord rs) with Some p => snd p | None => 0 end.
Definition pget (p : params) (s : String.string) : Z :=
  match get_bytes p s with Some b => dec_point_unchecked b | None => 0 end.
Definition set_blind (V : ledger) (k r : Z) : ledger :=
  map (fun t : entry => if fst t =? k then (fst t, (fst (snd t), r)) else t) V.
Definition ledger_msg (y : sys) (V : ledger) (m : msg) (cr : co_rand) : ledger :=
  if (mType m =? CLIENT_REGISTER_CONTROLLERSIDE) && (if keq (mDst m) (co_addr (y_coord y)) then true else false)
  then set_blind V (pget (mParams m) "public_key"%str) (crR cr) else V.
Definition ledger_step (S : suite) (y : sys) (V : ledger) (a : action) : ledger :=
  match a with
  | AJoin _ priv _ => V ++ [(pt_mul_base S priv, (starting_credit, 0))]
  | ADeliver i cr _ _ => match nth_error (y_msgs y) i with Some m => ledger_msg y V m cr | None => V end
  | ALoop (EBegin fakes _) =>
      if co_first (y_coord y) then V ++ map (fun f => (pt_mul_base S (fst f), (0, snd f))) fakes else V
  | ALoop (EEnd ord rs) =>
      map (fun t : entry => let nym := nym_of S y (fst t) in
             (fst t, (fst (snd t) + rep_diff (y_coord y) nym, snd (snd t) + drawn ord rs nym))) V
  | _ => V
  end.

(** Messages that take no part in announcement, registration and round end. *)
Definition inert_types : list Z :=
  [CLIENT_REGISTER_CONFIRMATION; GN_HONESTY_CHALLENGE; GN_HONESTY_ANSWER; POST_BRIDGE; REQUEST_BRIDGES;
   SIGN_ASSIGNMENTS; GOT_SIGNS; Net.VOTE; VOTE_REPLY].
Definition inert (m : msg) : bool := existsb (Z.eqb (mType m)) inert_types.
Definition core (l : list msg) : list msg := filter (fun m => negb (inert m)) l.
Definition settled (y : sys) : Prop := core (y_msgs y) = [].
(** A round end is on its way through the servers. *)
Definition ending (y : sys) : Prop :=
  co_status (y_coord y) = CO_MESSAGE /\ exists m, In m (y_msgs y) /\ mType m = Net.ROUND_END.

(** The schedules: the loop starts and ends a round only when the messages of the previous
    phase have been handled; clients join while a round is open; a vote is not handled
    while a round end is on its way.  Everything else is free: commands at any time,
    messages in any order.  Random values are what the code draws: secrets below Q, round
    keys that are units, iteration orders that are permutations of the map's keys. *)
Definition guard (S : suite) (y : sys) (V : ledger) (a : action) : Prop :=
  let c := y_coord y in
  match a with
  | ALaunch _ _ _ => False
  | AJoin _ priv _ => co_status c = CO_MESSAGE /\ ~ ending y /\ ~ In (pt_mul_base S priv) (map fst V)
  | ADeliver i cr sr _ =>
      is_secret S (crR cr) /\ range_order (crClients cr) (co_clients c) /\ range_order (crDiffs cr) (co_diffs c) /\
      rel_prime (srKey sr) (sQ S) /\
      (ending y -> forall m, nth_error (y_msgs y) i = Some m -> mType m = Net.VOTE -> mDst m <> co_addr c)
  | ACommand _ _ => True
  | ALoop (EBegin fakes ord) =>
      settled y /\ (co_first c = true -> NoDup (map (fun f => pt_mul_base S (fst f)) fakes)) /\
      range_order ord (co_bcomms (if co_first c then add_fakes S c fakes else c))
  | ALoop EVotePhase => True
  | ALoop (EEnd ord rs) =>
      co_status c = CO_MESSAGE /\ settled y /\ Permutation ord (mkeys (co_ecomms c) ++ map fst (co_buffer c)) /\
      length rs = length ord /\ Forall (is_secret S) rs
  | ALoop _ => False
  end.

(** Servers are started with round keys that are units. *)
Definition conf_act (S : suite) (a : action) : Prop :=
  match a with ALaunch _ _ rk => rel_prime rk (sQ S) | ADeliver _ _ _ _ => True | _ => False end.

(** The states such schedules reach, with the ledger. *)
Inductive reach (S : suite) (H : oracle) (G : gob) : sys -> ledger -> Prop :=
| r_start self a fb trap gammas l y1 y2 :
    Forall (conf_act S) l -> sys_run S H G (init_sys S self a fb trap gammas) l = Some y1 ->
    y_msgs y1 = [] -> co_servers (y_coord y1) <> [] ->
    sys_step S H G y1 (ALoop EConfigure) = Some y2 -> reach S H G y2 []
| r_step y V a y' :
    reach S H G y V -> guard S y V a -> sys_step S H G y a = Some y' -> reach S H G y' (ledger_step S y V a).

(** ** Inert messages change nothing the rounds depend on *)
Lemma inert_in m : inert m = true <-> In (mType m) inert_types.
Proof.
  unfold inert. rewrite existsb_exists. split.
  - intros (t & I & E). apply Z.eqb_eq in E. now rewrite E.
  - intros I. exists (mType m). split; [assumption|apply Z.eqb_refl].
Qed.

Lemma core_app l1 l2 : core (l1 ++ l2) = core l1 ++ core l2.
Proof. apply filter_app. Qed.
Lemma core_inert l : Forall (fun m => inert m = true) l -> core l = [].
Proof. induction 1 as [|m l Hm _ IH]; [reflexivity|]. unfold core in *. cbn [filter]. now rewrite Hm. Qed.
Lemma core_all l : Forall (fun m => inert m = false) l -> core l = l.
Proof. induction 1 as [|m l Hm _ IH]; [reflexivity|]. unfold core in *. cbn [filter]. rewrite Hm. cbn [negb]. now f_equal. Qed.
Lemma core_in l m : In m (core l) <-> In m l /\ inert m = false.
Proof. unfold core. rewrite filter_In. now rewrite negb_true_iff. Qed.

(** Fields of the coordinator that rounds depend on. *)
Definition round_fields : list field :=
  [FStatic; FServers; FStatus; FFirst; FG; FClients; FBKeys; FBComms; FBuffer; FEKeys; FEComms; FPB].
Definition co_same (c c' : coord) : Prop := forall f, In f round_fields -> agree f c c'.

Lemma co_inert S G c ty p src rn c' out : In ty inert_types -> co_handle S G c ty p src rn = Some (c', out) ->
  co_same c c' /\ (ty <> Net.VOTE -> co_diffs c' = co_diffs c) /\ Forall (fun m => inert m = true) out.
Proof.
  intros I E. destruct (co_step_frame S G c (EMsg ty p src rn) c' out E) as [F O]. cbn [writes_ev emits_ev] in *.
  split; [|split].
  - intros f Hf. apply F. intros Hw. clear - I Hf Hw.
    repeat (destruct I as [<-|I]; [cbn in Hw; repeat (destruct Hw as [<-|Hw]; [cbn in Hf; intuition discriminate|]); destruct Hw|]).
    destruct I.
  - intros NV. apply (F FDiffs). intros Hw. clear - I NV Hw.
    repeat (destruct I as [<-|I]; [cbn in Hw; try (now apply NV);
      repeat (destruct Hw as [Hw|Hw]; [discriminate Hw|]); destruct Hw|]).
    destruct I.
  - apply Forall_forall. intros m Hm. apply inert_in. specialize (O m Hm). clear - I O.
    repeat (destruct I as [<-|I]; [cbn in O; repeat (destruct O as [<-|O]; [cbn; tauto|]); destruct O|]).
    destruct I.
Qed.

Lemma sv_inert S H G s ty p src rn s' out : In ty inert_types -> sv_handle S H G s ty p src rn = Some (s', out) ->
  s' = s /\ Forall (fun m => inert m = true) out.
Proof.
  intros I E.
  destruct (Z.eqb_spec ty SIGN_ASSIGNMENTS) as [->|N].
  - unfold sv_handle in E. change (SIGN_ASSIGNMENTS =? SERVER_REGISTER_REPLY) with false in E.
    change (SIGN_ASSIGNMENTS =? ANNOUNCEMENT) with false in E.
    change (SIGN_ASSIGNMENTS =? ANNOUNCEMENT_FINALIZE) with false in E. rewrite Z.eqb_refl in E.
    unfold sv_sign in E. odestruct E; injection E as <- <-; (split; [reflexivity|]); repeat constructor.
  - assert (X : sv_handle S H G s ty p src rn = Some (s, [])).
    { clear E. repeat (destruct I as [<-|I]; [try reflexivity; now elim N|]). destruct I. }
    rewrite X in E. injection E as <- <-. split; [reflexivity|constructor].
Qed.

(** Fields of a client that rounds depend on. *)
Definition cl_same (k k' : client) : Prop :=
  cl_addr k' = cl_addr k /\ cl_coord k' = cl_coord k /\ cl_priv k' = cl_priv k /\ cl_pub k' = cl_pub k /\
  cl_nym k' = cl_nym k /\ cl_G k' = cl_G k /\ cl_rep k' = cl_rep k /\ cl_R k' = cl_R k /\ cl_pb k' = cl_pb k /\
  cl_PCommr k' = cl_PCommr k.

Lemma cl_inert S G k ty p chal k' out : In ty inert_types -> cl_handle S G k ty p chal = Some (k', out) ->
  cl_same k k' /\ Forall (fun m => inert m = true) out.
Proof.
  intros I E. unfold cl_handle in E.
  repeat (destruct I as [<-|I]; [cbv [Z.eqb Pos.eqb CLIENT_REGISTER_CONFIRMATION GN_HONESTY_CHALLENGE GN_HONESTY_ANSWER
    POST_BRIDGE REQUEST_BRIDGES SIGN_ASSIGNMENTS GOT_SIGNS Net.VOTE VOTE_REPLY INIT_PEDERSEN_R ANNOUNCEMENT_FINALIZE
    Net.ROUND_END BCAST_PEDERSEN_RDIFF] in E; cbn iota in E;
    unfold cl_register_confirmation, cl_honesty_answer, cl_got_signatures, cl_vote_start, cl_vote_reply in E;
    odestruct E; injection E as <- <-; (split; [repeat split|repeat constructor])|]).
  destruct I.
Qed.

Lemma command_inert S G k cmd out : cl_command S G k cmd = Some out -> Forall (fun m => inert m = true) out.
Proof.
  destruct cmd as [a|ind rn|id f]; cbn [cl_command]; intros E.
  - injection E as <-. repeat constructor.
  - destruct (cl_request S G k ind rn) as [[m|]|] eqn:ER; [|injection E as <-; constructor|discriminate].
    injection E as <-. constructor; [|constructor]. unfold cl_request in ER. odestruct ER. injection ER as <-. reflexivity.
  - destruct (cl_vote S k id f) as [m|] eqn:EV; [|discriminate]. injection E as <-. constructor; [|constructor].
    unfold cl_vote in EV. odestruct EV. injection EV as <-. reflexivity.
Qed.

(** ** The invariant *)
Section Inv.
Context (S : suite) (G : gob).

(** What a message in flight will add to the R and to the reputation of the client at
    [a] whose pseudonym is [nym]. *)
Definition rd_val (p : params) (nym : Z) : option Z :=
  olet bk := get_bytes p "keys"%str in olet keys := dec_points S bk in
  olet br := get_bytes p "rDiffs"%str in olet rs := dec_secrets S br in
  let index := find_index keys nym in
  if index <? 0 then Some 0 else nth_error rs (Z.to_nat index).
Definition dd_val (p : params) (nym : Z) : option Z :=
  olet bk := get_bytes p "keys"%str in olet keys := dec_points S bk in
  olet bd := get_bytes p "diffs"%str in olet diffs := gdec_ints G bd in
  find_int keys diffs nym.
Definition or0 (o : option Z) : Z := match o with Some z => z | None => 0 end.
Definition to_a (m : msg) (ty : Z) (a : addr) : bool :=
  (mType m =? ty) && if keq (mDst m) a then true else false.
Definition rd_msg (a : addr) (nym : Z) (m : msg) : Z :=
  if to_a m BCAST_PEDERSEN_RDIFF a then or0 (rd_val (mParams m) nym) else 0.
Definition dd_msg (a : addr) (nym : Z) (m : msg) : Z :=
  if to_a m Net.ROUND_END a then or0 (dd_val (mParams m) nym) else 0.
Definition zsum (l : list Z) : Z := fold_right Z.add 0 l.
Definition rsum (M : list msg) (a : addr) (nym : Z) : Z := zsum (map (rd_msg a nym) M).
Definition dsum (M : list msg) (a : addr) (nym : Z) : Z := zsum (map (dd_msg a nym) M).

(** An entry of the ghost table: long-term key, value and blinding. *)
Definition ent (pb : pbase) (e : Z) (t : entry) : Z * Z :=
  (pt_mul S (fst t) e, ped_commit_r S pb (fst (snd t)) (snd (snd t))).

Record base (c : coord) (sv : amap addr server) (cl : amap addr client) (V : ledger) : Prop := {
  b_nd : NoDup (map fst (co_servers c));
  b_ne : co_servers c <> [];
  b_srv : forall a, In a (map fst (co_servers c)) <-> mget sv a <> None;
  b_link : forall i a s, nth_error (map fst (co_servers c)) i = Some a -> mget sv a = Some s ->
    sv_next s = after (map fst (co_servers c)) (co_addr c) i /\
    sv_prev s = before (map fst (co_servers c)) (co_addr c) i /\ server_ok S s;
  b_self : mget sv (co_addr c) = None;
  b_cl : forall a k, mget cl a = Some k ->
    cl_pub k = pt_mul_base S (cl_priv k) /\ cl_addr k = a /\ cl_coord k = co_addr c /\ a <> co_addr c /\
    mget sv a = None /\ int64 (cl_rep k) = cl_rep k /\ In (cl_pub k) (map fst V);
  b_inj : forall a a' k k', mget cl a = Some k -> mget cl a' = Some k' -> cl_pub k = cl_pub k' -> a = a';
  b_wf : mwf (co_clients c);
  b_reg : forall p a, mget (co_clients c) p = Some a -> exists k, mget cl a = Some k /\ cl_pub k = p;
  b_pb : pbase_ok S (co_pb c);
  b_V : NoDup (map fst V);
  b_Vg : Forall (in_group S) (map fst V)
}.

(** Every client is registered and, once it has handled the messages addressed to it (and
    got the difference [x]), holds the value and blinding of its entry. *)
Definition clients_ok (c : coord) (cl : amap addr client) (M : list msg) (T : list entry) (x : Z -> Z) : Prop :=
  forall a k, mget cl a = Some k -> mget (co_clients c) (cl_pub k) = Some a /\
  exists v r R, In (cl_pub k, (v, r)) T /\ cl_R k = Some R /\
    (R + rsum M a (cl_nym k)) mod sQ S = r mod sQ S /\
    int64 (cl_rep k + dsum M a (cl_nym k) + x (cl_nym k)) = int64 v.

Definition agree_keys (ks cs : amap Z Z) : Prop := forall k, mget ks k = option_map (fun _ => k) (mget cs k).

Definition to_client (cl : amap addr client) (ty : Z) (m : msg) : Prop := mType m = ty /\ mget cl (mDst m) <> None.

Record ready_ph (c : coord) (cl : amap addr client) (M : list msg) (V : ledger) (T : list entry) : Prop := {
  p1_status : co_status c = CO_READY_FOR_NEW_ROUND;
  p1_first : co_first c = true -> V = [];
  p1_tab : co_bcomms c = map (ent (co_pb c) 1) T;
  p1_keys : agree_keys (co_bkeys c) (co_bcomms c);
  p1_V : Permutation T V;
  p1_cl : clients_ok c cl M T (fun _ => 0);
  p1_msg : Forall (fun m => (mType m = BCAST_PEDERSEN_H /\ In (mDst m) (map fst (co_servers c))) \/
     to_client cl BCAST_PEDERSEN_RDIFF m \/ to_client cl Net.ROUND_END m) M
}.

Record ann_ph (c : coord) (sv : amap addr server) (cl : amap addr client) (M : list msg) (V : ledger) (T : list entry)
    (i : nat) (p : params) (keys vals : list Z) (GT HT : Z) : Prop := {
  p2_status : co_status c = CO_ANNOUNCE;
  p2_first : co_first c = false;
  p2_buf : co_buffer c = [];
  p2_i : (i <= length (co_servers c))%nat;
  p2_M : exists src, M = [Msg (nth i (map fst (co_servers c)) (co_addr c)) ANNOUNCEMENT p src];
  p2_car : carries S p keys vals GT HT;
  p2_g : carries_g S p (pt_mul_base S (prod_of (firstn i (exps c sv))));
  p2_tab : table_ok S keys vals GT HT;
  p2_T : combine keys vals = map (ent (PBase HT GT) (prod_of (firstn i (exps c sv)))) T;
  p2_V : Permutation T V;
  p2_cl : clients_ok c cl [] T (fun _ => 0)
}.

(** An ANNOUNCEMENT_FINALIZE message of the current round. *)
Definition fin_ok (c : coord) (p : params) : Prop :=
  exists keys vals g, co_G c = Some g /\ get_bytes p "g"%str = Some (enc_point S g) /\
    carries S p keys vals (pb_GT (co_pb c)) (pb_HT (co_pb c)) /\
    table_ok S keys vals (pb_GT (co_pb c)) (pb_HT (co_pb c)) /\
    co_ecomms c = combine keys vals /\ co_ekeys c = combine keys keys.

Fixpoint drop_to (a : addr) (l : list addr) : list addr :=
  match l with [] => [] | b :: r => if keq a b then l else drop_to a r end.
(** What a registration on its way through the servers will enter into the buffer. *)
Definition norm_reg (c : coord) (sv : amap addr server) (m : msg) : Z * Z :=
  (pt_mul S (pget (mParams m) "public_key"%str) (prod_of (map (rkey sv) (drop_to (mDst m) (map fst (co_servers c))))),
   pget (mParams m) "pcomm"%str).
Definition is_ty (ty : Z) (m : msg) : bool := mType m =? ty.
Definition sent_to (M : list msg) (ty : Z) (a : addr) : Prop := exists m, In m M /\ mType m = ty /\ mDst m = a.

Inductive mid_msg (c : coord) (cl : amap addr client) (T1 : list entry) : msg -> Prop :=
| mm_fin a p src : fin_ok c p -> In a (map fst (co_servers c)) \/ mget cl a <> None ->
    mid_msg c cl T1 (Msg a ANNOUNCEMENT_FINALIZE p src)
| mm_reg a k : mget cl a = Some k -> mid_msg c cl T1 (cl_register S k)
| mm_regs a b k pc src : In a (map fst (co_servers c)) \/ a = co_addr c -> in_group S k -> in_group S pc ->
    mid_msg c cl T1 (Msg a CLIENT_REGISTER_SERVERSIDE
      [("public_key"%str, VBytes (enc_point S k)); ("addr"%str, VStr b); ("pcomm"%str, VBytes (enc_point S pc))] src)
| mm_r a k r g src : mget cl a = Some k -> is_secret S r -> In (cl_pub k, (starting_credit, r)) T1 ->
    co_G c = Some g -> mid_msg c cl T1 (Msg a INIT_PEDERSEN_R
      [("r"%str, VBytes (enc_secret S r)); ("g"%str, VBytes (enc_point S g))] src).

Definition cl_mid (c : coord) (M : list msg) (T0 T1 : list entry) (K : Z) (a : addr) (k : client) : Prop :=
  (In (cl_register S k) M /\ cl_rep k = starting_credit) \/
  (mget (co_clients c) (cl_pub k) = Some a /\
   exists v r, In (cl_pub k, (v, r)) (T0 ++ T1) /\ int64 (cl_rep k) = int64 v /\
    (sent_to M INIT_PEDERSEN_R a \/
     exists R, cl_R k = Some R /\ R mod sQ S = r mod sQ S /\
      (sent_to M ANNOUNCEMENT_FINALIZE a \/ (cl_nym k = pt_mul S (cl_pub k) K /\ cl_G k = co_G c)))).

Record mid_ph (c : coord) (sv : amap addr server) (cl : amap addr client) (M : list msg) (V : ledger)
    (T0 T1 : list entry) (K : Z) : Prop := {
  p3_status : co_status c = CO_MESSAGE;
  p3_first : co_first c = false;
  p3_K : K = prod_of (exps c sv);
  p3_G : co_G c = Some (pt_mul_base S K);
  p3_tab : co_ecomms c = map (ent (co_pb c) K) T0;
  p3_keys : agree_keys (co_ekeys c) (co_ecomms c);
  p3_buf : Permutation (co_buffer c ++ map (norm_reg c sv) (filter (is_ty CLIENT_REGISTER_SERVERSIDE) M))
             (map (ent (co_pb c) K) T1);
  p3_T1 : Forall (fun t : entry => fst (snd t) = starting_credit) T1;
  p3_V : Permutation ((T0 ++ T1) ++
           map (fun m => (pget (mParams m) "public_key"%str, (starting_credit, 0)))
             (filter (is_ty CLIENT_REGISTER_CONTROLLERSIDE) M)) V;
  p3_msg : Forall (mid_msg c cl T1) M;
  p3_cl : forall a k, mget cl a = Some k -> cl_mid c M T0 T1 K a k;
  p3_sv : forall a s, mget sv a = Some s -> sent_to M ANNOUNCEMENT_FINALIZE a \/
    (sv_G s = co_G c /\ sv_pb s = co_pb c /\ sv_ecomms s = co_ecomms c /\ sv_ekeys s = co_ekeys c);
  p3_cl0 : forall a k, mget cl a = Some k -> In (cl_pub k) (map fst T0) -> sent_to M ANNOUNCEMENT_FINALIZE a \/
    (cl_pb k = co_pb c /\ cl_PCommr k = mget (co_ecomms c) (cl_nym k) /\ cl_G k = co_G c)
}.

Record end_ph (c : coord) (sv : amap addr server) (cl : amap addr client) (M : list msg) (V : ledger) (T : list entry)
    (n : nat) (M1 : list msg) (p : params) (keys vals : list Z) (GT HT : Z) : Prop := {
  p4_status : co_status c = CO_MESSAGE;
  p4_first : co_first c = false;
  p4_n : (n <= length (co_servers c))%nat;
  p4_M : exists src, Permutation M (Msg (before (map fst (co_servers c)) (co_addr c) n) Net.ROUND_END p src :: M1);
  p4_M1 : Forall (to_client cl BCAST_PEDERSEN_RDIFF) M1;
  p4_car : carries S p keys vals GT HT;
  p4_tab : table_ok S keys vals GT HT;
  p4_T : combine keys vals = map (ent (PBase HT GT) (prod_of (firstn n (exps c sv)))) T;
  p4_V : Permutation T V;
  p4_ek : forall k k', mget (co_ekeys c) k = Some k' -> k' = k /\ in_group S k;
  p4_cl : clients_ok c cl M T (rep_diff c)
}.

Inductive phase (c : coord) (sv : amap addr server) (cl : amap addr client) (M : list msg) (V : ledger) : Prop :=
| ph_ready T : ready_ph c cl M V T -> phase c sv cl M V
| ph_ann T i p keys vals GT HT : ann_ph c sv cl M V T i p keys vals GT HT -> phase c sv cl M V
| ph_mid T0 T1 K : mid_ph c sv cl M V T0 T1 K -> phase c sv cl M V
| ph_end T n M1 p keys vals GT HT : end_ph c sv cl M V T n M1 p keys vals GT HT -> phase c sv cl M V.

Definition inv (y : sys) (V : ledger) : Prop :=
  base (y_coord y) (y_servers y) (y_clients y) V /\
  phase (y_coord y) (y_servers y) (y_clients y) (core (y_msgs y)) V.
End Inv.
