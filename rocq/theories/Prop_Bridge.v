(** Bridge requests and votes as signed and checked messages: C25, C26, C28, C29. *)
From Coq Require Import ZArith Znumtheory Lia List Bool.
From Coq Require Import Strings.Byte.
From Coq Require String.
From Verif Require Import ZMod Bytes Suite Spec Pedersen ElGamal FujiOkam ThreeSquares Equality Codec Bridge
  Net Client Prop_Pedersen Prop_ElGamal Prop_FujiOkam Prop_Codec.
From Verif Require SumSquares.
Import ListNotations.
Import String.StringSyntax.
Open Scope Z_scope.
Delimit Scope string_scope with str.

(** ** C25 *)
(** The contents of a bridge request. *)
Record request := Request {
  rInd : Z; rNym : bytes; rFO : bytes; rPd : bytes; rPind : bytes; rRind : bytes;
  rNN : bytes; rEQ : bytes }.
Definition request_params (r : request) : params :=
  [("ind"%str, VInt (rInd r)); ("nym"%str, VBytes (rNym r)); ("FOCommd"%str, VBytes (rFO r));
   ("PCommd"%str, VBytes (rPd r)); ("PCommind"%str, VBytes (rPind r)); ("rind"%str, VBytes (rRind r));
   ("arg_nonneg"%str, VBytes (rNN r)); ("arg_equal"%str, VBytes (rEQ r))].

(** C25 refuted, twice: for every request there is one with another indicator,
    and for every request whose FOCommd is not empty one with other commitments,
    that have the same signed message. *)
Theorem C25_binds_refuted :
  (forall r, exists r', rInd r' <> rInd r /\ msg_request (request_params r') = msg_request (request_params r)) /\
  (forall r, rFO r <> [] -> exists r', rFO r' <> rFO r /\ rPd r' <> rPd r /\ rInd r' = rInd r /\
     msg_request (request_params r') = msg_request (request_params r)).
Proof.
  split.
  - intros [i n fo pd pi ri nn eq]. exists (Request (i + 2 ^ 32) n fo pd pi ri nn eq). cbn [rInd]. split; [change (2 ^ 32) with 4294967296; lia|].
    assert (E : int_to_byte (i + 2 ^ 32) = int_to_byte i).
    { unfold int_to_byte, uint32. f_equal. now rewrite <- (Z.mod_add i 1 (2 ^ 32)), Z.mul_1_l by discriminate. }
    unfold msg_request. cbn -[int_to_byte Z.pow Z.add]. now rewrite E.
  - intros [i n fo pd pi ri nn eq] NE. cbn [rFO] in NE. destruct (exists_last NE) as (fo' & b & E).
    exists (Request i n fo' (b :: pd) pi ri nn eq). cbn [rFO rPd rInd]. subst fo. repeat split.
    + intros E. apply (f_equal (@List.length _)) in E. rewrite app_length in E. cbn in E. lia.
    + intros E. apply (f_equal (@List.length _)) in E. cbn in E. lia.
    + unfold msg_request. cbn. do 4 f_equal. rewrite <- app_assoc. reflexivity.
Qed.

Lemma app_inj_len {A} (a b c d : list A) : List.length a = List.length c -> a ++ b = c ++ d -> a = c /\ b = d.
Proof.
  revert c. induction a as [|x a IH]; intros [|y c] L E; cbn in *; try discriminate; [tauto|].
  injection L as L. injection E as -> E. destruct (IH _ L E) as [-> ->]. tauto.
Qed.

Lemma some_inj {A} (a b : A) : Some a = Some b -> a = b.
Proof. now intros [= ->]. Qed.

(** What the signature does bind: between requests whose fields have pairwise the
    same lengths and whose indicators are 32-bit, everything. *)
Theorem C25_binds_same_lengths : forall r r',
  List.length (rNym r) = List.length (rNym r') -> List.length (rFO r) = List.length (rFO r') ->
  List.length (rPd r) = List.length (rPd r') -> List.length (rPind r) = List.length (rPind r') ->
  List.length (rRind r) = List.length (rRind r') -> List.length (rNN r) = List.length (rNN r') ->
  0 <= rInd r < 2 ^ 32 -> 0 <= rInd r' < 2 ^ 32 ->
  msg_request (request_params r) = msg_request (request_params r') -> r = r'.
Proof.
  intros [i n fo pd pi ri nn eq] [i' n' fo' pd' pi' ri' nn' eq']. cbn [rInd rNym rFO rPd rPind rRind rNN rEQ].
  intros L1 L2 L3 L4 L5 L6 I I' E. unfold msg_request in E. cbn -[int_to_byte] in E. apply some_inj in E.
  apply app_inj_len in E; [|unfold int_to_byte; now rewrite !z_to_be_length]. destruct E as [E0 E].
  apply app_inj_len in E; [|assumption]. destruct E as [-> E].
  apply app_inj_len in E; [|assumption]. destruct E as [-> E].
  apply app_inj_len in E; [|assumption]. destruct E as [-> E].
  apply app_inj_len in E; [|assumption]. destruct E as [-> E].
  apply app_inj_len in E; [|assumption]. destruct E as [-> E].
  apply app_inj_len in E; [|assumption]. destruct E as [-> ->].
  f_equal. destruct (C24_int_to_byte i) as (_ & _ & A). destruct (C24_int_to_byte i') as (_ & _ & B).
  apply A in I. apply B in I'. rewrite E0, I' in I. now injection I.
Qed.

(** ** C26 *)
Definition vote_params (nym assignment signatures : bytes) (feedback : Z) : params :=
  [("nym"%str, VBytes nym); ("assignment"%str, VBytes assignment); ("signatures"%str, VBytes signatures);
   ("feedback"%str, VInt feedback)].

(** C26 refuted: the signed message does not contain the sign of the feedback, so
    a signature on a vote for [f] is a signature on the vote for [-f]. *)
Theorem C26_feedback_sign_refuted : forall S nym a s f pk sig g m,
  msg_vote (vote_params nym a s f) = Some m ->
  eg_verify S m pk sig g = true ->
  exists m', msg_vote (vote_params nym a s (- f)) = Some m' /\ eg_verify S m' pk sig g = true.
Proof.
  intros S nym a s f pk sig g m E V. exists m. split; [|exact V]. rewrite <- E.
  unfold msg_vote. cbn. now rewrite z_bytes_opp.
Qed.

(** Exactly the absolute value is bound. *)
Theorem C26_exact : forall nym a s f f',
  msg_vote (vote_params nym a s f) = msg_vote (vote_params nym a s f') <-> Z.abs f = Z.abs f'.
Proof.
  intros. unfold msg_vote. cbn. split.
  - intros E. injection E as E. repeat apply app_inv_head in E. now apply z_bytes_inj.
  - intros E. do 4 f_equal. unfold z_bytes, bytelen. rewrite E.
    destruct (Z.eqb_spec f 0), (Z.eqb_spec f' 0); try reflexivity; lia.
Qed.

(** ** C28 *)
(** Requests are checked from their named fields only, so what the coordinator
    forwards to the servers is checked with the same result. *)
Definition same_fields (p p' : params) : Prop :=
  forall k, In k ["ind"; "nym"; "PCommind"; "PCommd"; "rind"; "FOCommd"; "arg_nonneg"; "arg_equal"]%str ->
  lookup p k = lookup p' k.

Lemma verify_ind_fields S G pb fb p p' c : same_fields p p' ->
  verify_ind S G pb fb p c = verify_ind S G pb fb p' c.
Proof.
  intros H. unfold verify_ind, get_int, get_bytes.
  rewrite !(H "ind"%str), !(H "nym"%str), !(H "PCommind"%str), !(H "PCommd"%str), !(H "rind"%str),
    !(H "FOCommd"%str), !(H "arg_nonneg"%str), !(H "arg_equal"%str) by (cbn; tauto).
  reflexivity.
Qed.

Definition verify_sig (S : suite) (p : params) (g : option Z) : option bool :=
  olet bn := get_bytes p "nym"%str in
  olet nym := dec_point S bn in
  olet sig := get_bytes p "signature"%str in
  olet m := msg_request p in Some (eg_verify S m nym sig g).

(** C28: a client whose stored commitment opens to its reputation and blinding
    under the base all parties share, requesting any ind up to its reputation,
    builds a request whose signature verifies under the announced generator and
    which VerifyInd accepts; so does any message that carries the same fields
    (the SIGN_ASSIGNMENTS message to the servers).  The difference must be below
    2^61 and the group order. *)
Theorem C28_honest_accepted : forall S G, suite_ok S -> gob_ok G ->
  forall c g PCommr R fb ind rn,
  member (sP S) (sQ S) g -> 0 <= cl_priv c ->
  cl_G c = Some g -> cl_nym c = (g ^ cl_priv c) mod sP S ->
  member (sP S) (sQ S) (pb_GT (cl_pb c)) -> member (sP S) (sQ S) (pb_HT (cl_pb c)) ->
  cl_fb c = Some fb -> fobase_ok fb ->
  cl_PCommr c = Some PCommr -> cl_R c = Some R -> 0 <= R < sQ S ->
  commits_to (sP S) (pb_GT (cl_pb c)) (pb_HT (cl_pb c)) (cl_rep c mod sQ S) R PCommr ->
  0 <= rqInd rn < sQ S ->
  0 <= cl_rep c - ind < 2 ^ 61 -> cl_rep c - ind < sQ S ->
  exists m, cl_request S G c ind rn = Some (Some m) /\
    mType m = REQUEST_BRIDGES /\ mDst m = cl_coord c /\
    get_int (mParams m) "ind"%str = Some ind /\
    verify_sig S (mParams m) (Some g) = Some true /\
    forall p, same_fields (mParams m) p ->
      verify_ind S G (cl_pb c) fb p (Some PCommr) = Some true.
Proof.
  intros S G OK GK c g PCommr R fb ind rn Hg Hpriv EG En HGT HHT Efb FB EP ER HR HC Hri Hd HdQ.
  pose proof (sP_gt1 S OK) as HP1. pose proof (sQ_gt1 S OK) as HQ1.
  apply member_in_group in Hg, HGT, HHT. assert (PB : pbase_ok S (cl_pb c)) by (split; assumption).
  set (d := cl_rep c - ind) in *.
  unfold commits_to in HC. pose proof (Z.mod_pos_bound (cl_rep c) (sQ S) ltac:(lia)) as Hrm.
  rewrite <- (ped_commit_plain S OK) in HC by lia.
  unfold cl_request. destruct (Z.ltb_spec (cl_rep c) ind) as [|_]; [lia|]. fold d.
  rewrite (int64_small d) by lia.
  rewrite EP, Efb, ER. unfold ped_commit. unfold sec_of_int.
  (* PCommd *)
  set (ri := rqInd rn) in *. set (Pi := ped_commit_r S (cl_pb c) (ind mod sQ S) ri).
  assert (GPi : in_group S Pi) by (apply ped_commit_group; assumption).
  set (rd := sec_sub S R ri).
  assert (Hrd : 0 <= rd < sQ S) by (apply Z.mod_pos_bound; lia).
  assert (Edm : d mod sQ S = d) by (apply Z.mod_small; lia).
  assert (EPd : ped_sub S PCommr Pi = Some (ped_commit_r S (cl_pb c) d rd)).
  { subst PCommr Pi rd. rewrite (ped_sub_commit S OK) by assumption. f_equal.
    unfold sec_sub. rewrite <- Zminus_mod. fold d. now rewrite Edm. }
  rewrite EPd.
  set (Pd := ped_commit_r S (cl_pb c) d rd) in *.
  assert (GPd : in_group S Pd) by (apply ped_commit_group; assumption).
  unfold fo_commit. set (rFO := gen_random_secret (fN fb) (rqFO rn)).
  set (FO := fo_commit_r fb d rFO).
  assert (CI : commits_int (fN fb) (fG1 fb) (fH1 fb) d rFO FO) by (apply commits_int_iff; [assumption|reflexivity]).
  destruct (C08_complete S fb d rFO FO (rqNN rn) FB Hd CI) as (argNN & EN & VN). rewrite EN.
  rewrite Edm.
  set (argEQ := prove_equal S (cl_pb c) fb d rd rFO (rqT1 rn) (rqT2 rn) (rqT3 rn)).
  assert (VE : verify_equal S (cl_pb c) fb Pd FO argEQ = true) by (apply prove_equal_complete; assumption).
  set (fields := [_; _; _; _; _; _; _; _]).
  assert (EM : exists mm, msg_request fields = Some mm) by (eexists; reflexivity).
  destruct EM as (mm & EM). rewrite EM.
  set (sig := eg_sign S (example_nonce S) mm (cl_priv c) (cl_G c)).
  eexists. split; [reflexivity|]. cbn [mType mDst mParams]. split; [reflexivity|]. split; [reflexivity|].
  split; [reflexivity|].
  assert (Gnym : in_group S (cl_nym c)).
  { rewrite En, <- zexp_pos by lia. now apply in_group_zexp. }
  split.
  - unfold verify_sig.
    change (get_bytes (fields ++ _) "nym"%str) with (Some (enc_point S (cl_nym c))).
    change (get_bytes (fields ++ _) "signature"%str) with (Some sig).
    change (msg_request (fields ++ _)) with (msg_request fields). rewrite EM.
    rewrite (dec_enc_point S OK) by assumption. f_equal. subst sig. rewrite EG, En.
    apply C19_sign_verifies; [assumption|assumption|now apply member_in_group].
  - intros p HSF. rewrite <- (verify_ind_fields S G _ _ _ _ _ HSF).
    unfold verify_ind.
    change (get_int (fields ++ _) "ind"%str) with (Some ind).
    change (get_bytes (fields ++ _) "nym"%str) with (Some (enc_point S (cl_nym c))).
    change (get_bytes (fields ++ _) "PCommind"%str) with (Some (enc_point S Pi)).
    change (get_bytes (fields ++ _) "PCommd"%str) with (Some (enc_point S Pd)).
    change (get_bytes (fields ++ _) "rind"%str) with (Some (enc_secret S ri)).
    change (get_bytes (fields ++ _) "FOCommd"%str) with (Some (z_bytes FO)).
    change (get_bytes (fields ++ _) "arg_nonneg"%str) with (Some (genc_nonneg G argNN)).
    change (get_bytes (fields ++ _) "arg_equal"%str) with (Some (genc_equal G argEQ)).
    cbv beta iota. rewrite (dec_enc_point S OK (cl_nym c)) by assumption. cbv beta iota.
    rewrite (dec_enc_point S OK Pi) by assumption. cbv beta iota.
    rewrite (dec_enc_point S OK Pd) by assumption. cbv beta iota.
    rewrite (dec_enc_secret S) by assumption. cbv beta iota.
    unfold sec_of_int. fold Pi. rewrite Z.eqb_refl. cbn [negb]. rewrite EPd. rewrite Z.eqb_refl. cbn [negb].
    assert (FO0 : be_to_z (z_bytes FO) = FO).
    { rewrite be_z_bytes. apply Z.abs_eq. subst FO. rewrite fo_commit_zexp. unfold mulm. apply Z.mod_pos_bound.
      pose proof (fo_N fb FB). lia. }
    rewrite FO0, (g_nonneg G GK). cbv beta iota. rewrite VN. cbn [negb]. rewrite (g_equal G GK). cbv beta iota.
    now rewrite VE.
Qed.

(** ** C29 *)
(** What acceptance means exactly: the request decodes, its indicator commitment
    is the commitment of ind, the difference commitment is the quotient, and the
    two arguments verify. *)
Theorem C29_accept_exact : forall S, suite_ok S -> forall G pb fb r PCommr,
  member (sP S) (sQ S) (pb_GT pb) -> member (sP S) (sQ S) (pb_HT pb) -> member (sP S) (sQ S) PCommr ->
  (verify_ind S G pb fb (request_params r) (Some PCommr) = Some true <->
   exists nym Pind Pd rind nn eq,
     dec_point S (rNym r) = Some nym /\ dec_point S (rPind r) = Some Pind /\ dec_point S (rPd r) = Some Pd /\
     dec_secret S (rRind r) = Some rind /\ gdec_nonneg G (rNN r) = Some nn /\ gdec_equal G (rEQ r) = Some eq /\
     commits_to (sP S) (pb_GT pb) (pb_HT pb) (rInd r mod sQ S) rind Pind /\
     (Pd * Pind) mod sP S = PCommr /\
     verify_nonneg S fb (be_to_z (rFO r)) nn = true /\
     verify_equal S pb fb Pd (be_to_z (rFO r)) eq = true).
Proof.
  intros S OK G pb fb r PCommr HG HH HC. pose proof (sP_gt1 S OK) as HP1. pose proof (sQ_gt1 S OK) as HQ1.
  apply member_in_group in HG, HH, HC.
  destruct r as [i bn bfo bpd bpi bri bnn beq]. cbn [rInd rNym rFO rPd rPind rRind rNN rEQ].
  unfold verify_ind.
  change (get_int _ "ind"%str) with (Some i).
  change (get_bytes _ "nym"%str) with (Some bn). change (get_bytes _ "PCommind"%str) with (Some bpi).
  change (get_bytes _ "PCommd"%str) with (Some bpd). change (get_bytes _ "rind"%str) with (Some bri).
  change (get_bytes _ "FOCommd"%str) with (Some bfo). change (get_bytes _ "arg_nonneg"%str) with (Some bnn).
  change (get_bytes _ "arg_equal"%str) with (Some beq).
  pose proof (Z.mod_pos_bound i (sQ S) ltac:(lia)) as Hi.
  split.
  - destruct (dec_point S bn) as [nym|] eqn:En; [|discriminate].
    destruct (dec_point S bpi) as [Pind|] eqn:Ei; [|discriminate].
    destruct (dec_point S bpd) as [Pd|] eqn:Ed; [|discriminate].
    destruct (dec_secret S bri) as [rind|] eqn:Er; [|discriminate].
    apply C23_point_decode_exact in Ei as Gi; [|assumption]. destruct Gi as [Gi _]. apply member_in_group in Gi.
    apply C23_point_decode_exact in Ed as Gd; [|assumption]. destruct Gd as [Gd _]. apply member_in_group in Gd.
    apply C23_secret_decode_exact in Er as Hr. pose proof (be_to_z_range bri) as Br.
    destruct (Z.eqb_spec (ped_commit_r S pb (sec_of_int S i) rind) Pind) as [E1|]; [|discriminate].
    cbn [negb]. unfold ped_sub. rewrite (pt_sub_group S OK) by assumption.
    destruct (Z.eqb_spec Pd (mulm (sP S) PCommr (zexp (sP S) Pind (-1)))) as [E2|]; [|discriminate].
    cbn [negb]. destruct (gdec_nonneg G bnn) as [nn|] eqn:Enn; [|discriminate].
    destruct (verify_nonneg S fb (be_to_z bfo) nn) eqn:EV; [|discriminate]. cbn [negb].
    destruct (gdec_equal G beq) as [eq|] eqn:Eeq; [|discriminate]. intros [= VE].
    exists nym, Pind, Pd, rind, nn, eq. repeat split; try assumption; try reflexivity.
    + unfold commits_to. rewrite <- (ped_commit_plain S OK) by lia. symmetry. exact E1.
    + subst Pd. fold (mulm (sP S) (mulm (sP S) PCommr (zexp (sP S) Pind (-1))) Pind). grpS S.
  - intros (nym & Pind & Pd & rind & nn & eq & En & Ei & Ed & Er & Enn & Eeq & HCi & HM & VN & VE).
    rewrite En, Ei, Ed, Er.
    apply C23_point_decode_exact in Ei as Gi; [|assumption]. destruct Gi as [Gi _]. apply member_in_group in Gi.
    apply C23_point_decode_exact in Ed as Gd; [|assumption]. destruct Gd as [Gd _]. apply member_in_group in Gd.
    apply C23_secret_decode_exact in Er as Hr. pose proof (be_to_z_range bri) as Br.
    unfold commits_to in HCi. rewrite <- (ped_commit_plain S OK) in HCi by lia.
    unfold sec_of_int. rewrite <- HCi, Z.eqb_refl. cbn [negb].
    unfold ped_sub. rewrite (pt_sub_group S OK) by assumption.
    replace (mulm (sP S) PCommr (zexp (sP S) Pind (-1))) with Pd.
    + rewrite Z.eqb_refl. cbn [negb]. rewrite Enn, VN. cbn [negb]. now rewrite Eeq, VE.
    + subst PCommr. fold (mulm (sP S) Pd Pind). grpS S.
Qed.

(** One direction, field by field. *)
Lemma accept_fields S G pb fb i bn bfo bpd bpi bri bnn beq PCommr nym Pind Pd rind nn eq :
  suite_ok S -> member (sP S) (sQ S) (pb_GT pb) -> member (sP S) (sQ S) (pb_HT pb) -> member (sP S) (sQ S) PCommr ->
  dec_point S bn = Some nym -> dec_point S bpi = Some Pind -> dec_point S bpd = Some Pd ->
  dec_secret S bri = Some rind -> gdec_nonneg G bnn = Some nn -> gdec_equal G beq = Some eq ->
  commits_to (sP S) (pb_GT pb) (pb_HT pb) (i mod sQ S) rind Pind ->
  (Pd * Pind) mod sP S = PCommr ->
  verify_nonneg S fb (be_to_z bfo) nn = true -> verify_equal S pb fb Pd (be_to_z bfo) eq = true ->
  verify_ind S G pb fb (request_params (Request i bn bfo bpd bpi bri bnn beq)) (Some PCommr) = Some true.
Proof.
  intros OK HG HH HC H1 H2 H3 H4 H5 H6 H7 H8 H9 H10.
  apply (C29_accept_exact S OK G pb fb (Request i bn bfo bpd bpi bri bnn beq) PCommr HG HH HC).
  exists nym, Pind, Pd, rind, nn, eq. cbn [rInd rNym rFO rPd rPind rRind rNN rEQ]. tauto.
Qed.

(** The forged request: honest commitments and equality argument for the
    difference modulo the group order, and a forged non-negativity argument (C09). *)
Definition forge_request (S : suite) (G : gob) (pb : pbase) (fb : fobase) (nym : Z)
    (x R ind rind rf t1 t2 t3 : Z) (rn : nn_rand) : request :=
  let d := (x - ind) mod sQ S in
  let FO := fo_commit_r fb d rf in
  Request ind (enc_point S nym) (z_bytes FO)
    (enc_point S (ped_commit_r S pb d (sec_sub S R rind)))
    (enc_point S (ped_commit_r S pb (sec_of_int S ind) rind)) (enc_secret S rind)
    (genc_nonneg G (forge_nonneg S fb FO rn))
    (genc_equal G (prove_equal S pb fb d (sec_sub S R rind) rf t1 t2 t3)).

(** C29 refuted: whatever value x the requester's commitment hides (its owner
    knows the opening) and whatever the indicator, also one above x, VerifyInd
    accepts the forged request. *)
Theorem C29_only_sufficient_reputation_refuted : forall S G, suite_ok S -> gob_ok G ->
  forall pb fb nym x R PCommr ind rind rf t1 t2 t3 rn,
  member (sP S) (sQ S) (pb_GT pb) -> member (sP S) (sQ S) (pb_HT pb) -> fobase_ok fb ->
  member (sP S) (sQ S) nym ->
  0 <= x -> 0 <= R -> commits_to (sP S) (pb_GT pb) (pb_HT pb) x R PCommr ->
  0 <= rind < sQ S ->
  verify_ind S G pb fb
    (request_params (forge_request S G pb fb nym x R ind rind rf t1 t2 t3 rn)) (Some PCommr) = Some true.
Proof.
  intros S G OK GK pb fb nym x R PCommr ind rind rf t1 t2 t3 rn HG HH FB Hn Hx HR HC Hr.
  pose proof (sP_gt1 S OK) as HP1. pose proof (sQ_gt1 S OK) as HQ1.
  pose proof HG as HG'. pose proof HH as HH'. apply member_in_group in HG', HH', Hn.
  assert (PB : pbase_ok S pb) by (split; assumption).
  unfold commits_to in HC. rewrite <- (ped_commit_plain S OK) in HC by lia.
  set (d := (x - ind) mod sQ S).
  assert (FO0 : 0 <= fo_commit_r fb d rf).
  { rewrite fo_commit_zexp. unfold mulm. apply Z.mod_pos_bound. pose proof (fo_N fb FB). lia. }
  unfold forge_request. cbv zeta. fold d.
  apply accept_fields with (nym := nym) (Pind := ped_commit_r S pb (sec_of_int S ind) rind)
    (Pd := ped_commit_r S pb d (sec_sub S R rind)) (rind := rind)
    (nn := (forge_nonneg S fb (fo_commit_r fb d rf) rn))
    (eq := (prove_equal S pb fb d (sec_sub S R rind) rf t1 t2 t3)); try assumption.
  - rewrite member_in_group. subst PCommr. now apply ped_commit_group.
  - now apply dec_enc_point.
  - apply dec_enc_point; [assumption|]. now apply ped_commit_group.
  - apply dec_enc_point; [assumption|]. now apply ped_commit_group.
  - now apply dec_enc_secret.
  - apply (g_nonneg G GK).
  - apply (g_equal G GK).
  - unfold commits_to, sec_of_int. rewrite <- (ped_commit_plain S OK); [reflexivity| |lia].
    pose proof (Z.mod_pos_bound ind (sQ S) ltac:(lia)). lia.
  - subst PCommr. fold (mulm (sP S) (ped_commit_r S pb d (sec_sub S R rind)) (ped_commit_r S pb (sec_of_int S ind) rind)).
    unfold d, ped_commit_r. grpS S.
  - rewrite be_z_bytes, Z.abs_eq by assumption. apply (forge_nonneg_verifies S fb _ rn FB). now apply fo_commit_unit.
  - rewrite be_z_bytes, Z.abs_eq by assumption. now apply prove_equal_complete.
Qed.

(** Even a sound non-negativity argument would not help: the difference is only
    bound modulo the group order, and its non-negative representative can be
    proved honestly. *)
Definition wrap_request (S : suite) (G : gob) (pb : pbase) (fb : fobase) (nym : Z)
    (x R ind rind rf t1 t2 t3 a b e : Z) (rn : nn_rand) : request :=
  let d := (x - ind) mod sQ S in
  let FO := fo_commit_r fb d rf in
  Request ind (enc_point S nym) (z_bytes FO)
    (enc_point S (ped_commit_r S pb d (sec_sub S R rind)))
    (enc_point S (ped_commit_r S pb (sec_of_int S ind) rind)) (enc_secret S rind)
    (genc_nonneg G (prove_nonneg_with S fb d FO rf a b e rn))
    (genc_equal G (prove_equal S pb fb d (sec_sub S R rind) rf t1 t2 t3)).

Lemma wrap_request_accepted : forall S G, suite_ok S -> gob_ok G ->
  forall pb fb nym x R PCommr ind rind rf t1 t2 t3 a b e rn,
  member (sP S) (sQ S) (pb_GT pb) -> member (sP S) (sQ S) (pb_HT pb) -> fobase_ok fb ->
  member (sP S) (sQ S) nym ->
  0 <= x -> 0 <= R -> commits_to (sP S) (pb_GT pb) (pb_HT pb) x R PCommr ->
  0 <= rind < sQ S ->
  a ^ 2 + b ^ 2 + e ^ 2 = 4 * ((x - ind) mod sQ S) + 1 ->
  verify_ind S G pb fb
    (request_params (wrap_request S G pb fb nym x R ind rind rf t1 t2 t3 a b e rn)) (Some PCommr) = Some true.
Proof.
  intros S G OK GK pb fb nym x R PCommr ind rind rf t1 t2 t3 a b e rn HG HH FB Hn Hx HR HC Hr HS.
  pose proof (sP_gt1 S OK) as HP1. pose proof (sQ_gt1 S OK) as HQ1.
  pose proof HG as HG'. pose proof HH as HH'. apply member_in_group in HG', HH', Hn.
  assert (PB : pbase_ok S pb) by (split; assumption).
  unfold commits_to in HC. rewrite <- (ped_commit_plain S OK) in HC by lia.
  set (d := (x - ind) mod sQ S) in *.
  assert (FO0 : 0 <= fo_commit_r fb d rf).
  { rewrite fo_commit_zexp. unfold mulm. apply Z.mod_pos_bound. pose proof (fo_N fb FB). lia. }
  unfold wrap_request. cbv zeta. fold d.
  apply accept_fields with (nym := nym) (Pind := ped_commit_r S pb (sec_of_int S ind) rind)
    (Pd := ped_commit_r S pb d (sec_sub S R rind)) (rind := rind)
    (nn := (prove_nonneg_with S fb d (fo_commit_r fb d rf) rf a b e rn))
    (eq := (prove_equal S pb fb d (sec_sub S R rind) rf t1 t2 t3)); try assumption.
  - rewrite member_in_group. subst PCommr. now apply ped_commit_group.
  - now apply dec_enc_point.
  - apply dec_enc_point; [assumption|]. now apply ped_commit_group.
  - apply dec_enc_point; [assumption|]. now apply ped_commit_group.
  - now apply dec_enc_secret.
  - apply (g_nonneg G GK).
  - apply (g_equal G GK).
  - unfold commits_to, sec_of_int. rewrite <- (ped_commit_plain S OK); [reflexivity| |lia].
    pose proof (Z.mod_pos_bound ind (sQ S) ltac:(lia)). lia.
  - subst PCommr. fold (mulm (sP S) (ped_commit_r S pb d (sec_sub S R rind)) (ped_commit_r S pb (sec_of_int S ind) rind)).
    unfold d, ped_commit_r. grpS S.
  - rewrite be_z_bytes, Z.abs_eq by assumption. apply prove_nonneg_complete; [assumption|]. nia.
  - rewrite be_z_bytes, Z.abs_eq by assumption. now apply prove_equal_complete.
Qed.

(** C29 refuted a second time, without any forgery: for every value x the commitment hides and
    every indicator there is a decomposition with which the honestly computed arguments for
    (x - ind) mod Q are accepted. *)
Theorem C29_wraparound_refuted : forall S G, suite_ok S -> gob_ok G ->
  forall pb fb nym x R PCommr ind rind,
  member (sP S) (sQ S) (pb_GT pb) -> member (sP S) (sQ S) (pb_HT pb) -> fobase_ok fb ->
  member (sP S) (sQ S) nym ->
  0 <= x -> 0 <= R -> commits_to (sP S) (pb_GT pb) (pb_HT pb) x R PCommr ->
  0 <= rind < sQ S ->
  exists a b e, a ^ 2 + b ^ 2 + e ^ 2 = 4 * ((x - ind) mod sQ S) + 1 /\
  forall rf t1 t2 t3 rn, verify_ind S G pb fb
    (request_params (wrap_request S G pb fb nym x R ind rind rf t1 t2 t3 a b e rn)) (Some PCommr) = Some true.
Proof.
  intros S G OK GK pb fb nym x R PCommr ind rind HG HH FB Hn Hx HR HC Hr.
  destruct (SumSquares.four_x_plus_one ((x - ind) mod sQ S)) as (a & b & e & E).
  - pose proof (sQ_gt1 S OK). apply Z.mod_pos_bound. lia.
  - exists a, b, e. split; [exact E|]. intros. now apply wrap_request_accepted.
Qed.

(** ** Instances *)
Definition toy_client : client :=
  Client [] [x63]%byte CL_MESSAGE 7 ((4 ^ 7) mod 23) 2 ((8 ^ 7) mod 23) (Some 8) 5 [] 0 []
    (Some (ped_commit_r toy_suite toy_base 5 6)) (Some 6) (Some toy_fb) toy_base [] [].
Definition toy_rn : req_rand := ReqRand 4 (2 ^ 80 * 77 + 5) (NnRand (-3) 4 5 (-6) 7 8 9) 1 2 3.

Example C25_instance : exists r r', rFO r <> rFO r' /\
  msg_request (request_params r) = msg_request (request_params r').
Proof.
  exists (Request 1 [x01] [x02; x03] [x04] [] [] [] [])%byte, (Request 1 [x01] [x02] [x03; x04] [] [] [] [])%byte.
  split; [discriminate|]. vm_compute. reflexivity.
Qed.
Example C26_instance : msg_vote (vote_params [x01] [x02] [x03] 1)%byte = msg_vote (vote_params [x01] [x02] [x03] (-1))%byte.
Proof. vm_compute. reflexivity. Qed.

(** A client with reputation 5 asks for 3 bridges; all hypotheses of C28 hold. *)
Example C28_instance : exists m, cl_request toy_suite toy_gob toy_client 3 toy_rn = Some (Some m) /\
  verify_sig toy_suite (mParams m) (Some 8) = Some true /\
  verify_ind toy_suite toy_gob toy_base toy_fb (mParams m) (cl_PCommr toy_client) = Some true.
Proof.
  destruct (C28_honest_accepted toy_suite toy_gob toy_ok toy_gob_ok toy_client 8
    (ped_commit_r toy_suite toy_base 5 6) 6 toy_fb 3 toy_rn) as (m & E & _ & _ & _ & V & W);
    [first [exact toy_fb_ok | vm_compute; intuition congruence] .. |].
  exists m. split; [exact E|]. split; [exact V|]. apply W. intros k _. reflexivity.
Qed.

(** A client with reputation 2 gets 7 bridges. *)
Example C29_instance : verify_ind toy_suite toy_gob toy_base toy_fb
  (request_params (forge_request toy_suite toy_gob toy_base toy_fb 18 2 6 7 4 (-5) 1 2 3
     (NnRand (-3) 4 5 (-6) 7 8 9))) (Some (ped_commit_r toy_suite toy_base 2 6)) = Some true.
Proof. vm_compute. reflexivity. Qed.
Example C29_wrap_instance : verify_ind toy_suite toy_gob toy_base toy_fb
  (request_params (wrap_request toy_suite toy_gob toy_base toy_fb 18 2 6 7 4 (-5) 1 2 3 0 5 0
     (NnRand (-3) 4 5 (-6) 7 8 9))) (Some (ped_commit_r toy_suite toy_base 2 6)) = Some true.
Proof. vm_compute. reflexivity. Qed.

Print Assumptions C25_binds_refuted.
Print Assumptions C25_binds_same_lengths.
Print Assumptions C26_feedback_sign_refuted.
Print Assumptions C26_exact.
Print Assumptions C28_honest_accepted.
Print Assumptions C29_accept_exact.
Print Assumptions C29_only_sufficient_reputation_refuted.
Print Assumptions C29_wraparound_refuted.
