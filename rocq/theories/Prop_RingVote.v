(** C113: votes signed for the ring of all clients of the round. *)
From Coq Require Import ZArith Znumtheory Lia List Bool.
From Coq Require Import Strings.Byte.
From Coq Require String.
From Verif Require Import ZMod Bytes Suite Spec Pedersen ElGamal FujiOkam Equality Codec Net Bridge Lrs Client Server Coordinator Console RingVote
  Prop_Lrs Prop_Codec Prop_Coord Prop_Assign Prop_Console Prop_Inbox.
Import ListNotations.
Import String.StringSyntax.
Open Scope Z_scope.
Delimit Scope string_scope with str.

(** ** Specification *)
(** The vote says: feedback [f] on message [id], written "id;f". *)
Definition says (m : msg) (id f : Z) : Prop :=
  exists a b, get_str (mParams m) "text"%str = Some (a ++ [x3b]%byte ++ b) /\
    ~ In x3b a /\ ~ In x3b b /\ numeral a id /\ numeral b f.
(** It carries the signature [sig]. *)
Definition carries (enc : lsig -> bytes) (m : msg) (sig : lsig) : Prop :=
  get_bytes (mParams m) "signature"%str = Some (enc sig).
(** What [sig] has to pass: it is a signature of message number [id] for the ring [keys] with
    generator [g]. *)
Definition ring_signed (S : suite) (g : Z) (keys : list Z) (id : Z) (sig : lsig) : Prop :=
  lrs_Verify S g (int_to_byte id) (length keys) sig keys = Some true.
(** The digest that the tag of a signature is computed from. *)
Definition tag_digest (S : suite) (keys : list Z) (id : Z) : Z :=
  be_to_z (sHash S (sHash S (int_to_byte id) ++ concat (map z_bytes keys))) mod sP S.
(** +1 for a positive number and -1 for all others. *)
Definition thumb (v : Z) : Z := if 0 <? v then 1 else -1.
(** The coordinator gets the table of a round and tells it to the client [k], which then gets
    other messages, but neither another table nor another key to enter one: [k'] is the client
    after that, [co'] the coordinator after it has sent the table. *)
Definition in_round (S : suite) (G : gob) (co co' : coord) (k k' : client) : Prop :=
  exists p src rn out m ch k1 o l os,
    co_handle S G co ANNOUNCEMENT p src rn = Some (co', out) /\
    In m out /\ mType m = ANNOUNCEMENT_FINALIZE /\ mDst m = cl_addr k /\
    cl_handle S G k (mType m) (mParams m) ch = Some (k1, o) /\
    (forall n, In n l -> noTy n <> INIT_PEDERSEN_R /\ noTy n <> ANNOUNCEMENT_FINALIZE) /\
    handle_list S G k1 l = Some (k', os).

(** ** Numerals *)
Lemma digit_byte d : 0 <= d < 10 -> code (z_byte (48 + d)) = 48 + d.
Proof. intros H. change (code (z_byte (48 + d))) with (byte_z (z_byte (48 + d))). rewrite z_byte_z, Z.mod_small; lia. Qed.
Lemma digits_spec f : forall n, 0 <= n < 2 ^ Z.of_nat f ->
  Forall is_digit (digits f n) /\ value (digits f n) = n /\ (f <> O -> digits f n <> []).
Proof.
  induction f as [|f IH]; intros n Hn.
  - cbn [digits]. split; [constructor|]. split; [|intros X; contradiction]. change (2 ^ Z.of_nat 0) with 1 in Hn. cbn. lia.
  - cbn [digits]. pose proof (Z.mod_pos_bound n 10 ltac:(lia)) as Hm.
    assert (D : is_digit (z_byte (48 + n mod 10))) by (unfold is_digit; rewrite digit_byte; lia).
    split; [|split].
    + apply Forall_app. split; [|constructor; [exact D|constructor]].
      destruct (n <? 10) eqn:L; [constructor|]. apply IH. apply Z.ltb_ge in L.
      rewrite Nat2Z.inj_succ, Z.pow_succ_r in Hn by lia. split; [apply Z.div_pos; lia|apply Z.div_lt_upper_bound; lia].
    + unfold value. rewrite fold_left_app. cbn [fold_left]. rewrite digit_byte by lia.
      destruct (n <? 10) eqn:L.
      * apply Z.ltb_lt in L. cbn [fold_left]. rewrite Z.mod_small; lia.
      * apply Z.ltb_ge in L. rewrite Nat2Z.inj_succ, Z.pow_succ_r in Hn by lia.
        destruct (IH (n / 10)) as (_ & E & _); [split; [apply Z.div_pos; lia|apply Z.div_lt_upper_bound; lia]|].
        unfold value in E. rewrite E. pose proof (Z.div_mod n 10). lia.
    + intros _ X. now apply app_eq_nil in X.
Qed.
Lemma itoa_fuel n : 0 <= n -> n < 2 ^ Z.of_nat (Datatypes.S (Z.to_nat (Z.log2 n))).
Proof.
  intros H. pose proof (Z.log2_nonneg n). rewrite Nat2Z.inj_succ, Z2Nat.id by lia.
  destruct (Z.eq_dec n 0) as [->|N]; [reflexivity|]. apply Z.log2_spec. lia.
Qed.
Lemma itoa_numeral n : numeral (itoa n) n /\ ~ In x3b (itoa n).
Proof.
  unfold itoa. set (f := Datatypes.S _).
  destruct (digits_spec f (Z.abs n)) as (F & V & NE); [split; [lia|apply itoa_fuel; lia]|].
  assert (NS : ~ In x3b (digits f (Z.abs n))).
  { intros I. rewrite Forall_forall in F. specialize (F _ I). unfold is_digit in F. cbn in F. lia. }
  destruct (n <? 0) eqn:L.
  - apply Z.ltb_lt in L. split.
    + exists [x2d]%byte, (digits f (Z.abs n)). split; [reflexivity|]. split; [apply NE; discriminate|]. split; [exact F|]. right; right. split; [reflexivity|lia].
    + intros [X|X]; [discriminate|contradiction].
  - apply Z.ltb_ge in L. split; [|exact NS].
    exists [], (digits f (Z.abs n)). split; [reflexivity|]. split; [apply NE; discriminate|]. split; [exact F|]. left. split; [reflexivity|lia].
Qed.

(** ** The client in the round *)
Definition roundpart (c : client) := (cl_addr c, cl_coord c, cl_priv c, cl_nym c, cl_G c, cl_keys c, cl_index c).
Lemma keep_round S G c n c' o : noTy n <> INIT_PEDERSEN_R -> noTy n <> ANNOUNCEMENT_FINALIZE ->
  cl_handle S G c (noTy n) (noP n) (noChal n) = Some (c', o) -> roundpart c' = roundpart c.
Proof.
  intros N1 N2. unfold cl_handle.
  rewrite (proj2 (Z.eqb_neq _ _) N1), (proj2 (Z.eqb_neq _ _) N2).
  unfold cl_register_confirmation, cl_honesty_answer, cl_got_signatures, cl_vote_start, cl_round_end, cl_rdiff, cl_vote_reply.
  repeat match goal with
  | |- context [match ?x with _ => _ end] => destruct x
  end; intros E; try discriminate; injection E as <- <-; reflexivity.
Qed.
Lemma keep_rounds S G l : forall c c' os, (forall n, In n l -> noTy n <> INIT_PEDERSEN_R /\ noTy n <> ANNOUNCEMENT_FINALIZE) ->
  handle_list S G c l = Some (c', os) -> roundpart c' = roundpart c.
Proof.
  induction l as [|n l IH]; intros c c' os N; cbn [handle_list]; [now intros [= <- <-]|].
  destruct (cl_handle _ _ _ _ _ _) as [[c1 o]|] eqn:E; [|discriminate].
  destruct (handle_list S G c1 l) as [[c2 o2]|] eqn:E2; [|discriminate]. intros [= <- <-].
  transitivity (roundpart c1).
  - eapply IH; [|exact E2]. intros m I. apply N. now right.
  - destruct (N n (or_introl eq_refl)). eapply keep_round; eassumption.
Qed.

Lemma dec_repeated_all {A} (dec : bytes -> option A) (P : A -> Prop) fs : (forall b a, dec b = Some a -> P a) ->
  forall l, dec_repeated dec fs = Some l -> forall a, In a l -> P a.
Proof.
  intros D. induction fs as [|[t w] fs IH]; intros l E a I.
  - injection E as <-. destruct I.
  - cbn in E. destruct t as [|[?|?|]|?]; try (now apply (IH l E)). 
    destruct w; try discriminate. destruct (dec b) as [x|] eqn:Ex; [|discriminate].
    destruct (dec_repeated dec fs) as [r|]; [|discriminate]. injection E as <-. destruct I as [<-|I]; [now apply (D b)|now apply (IH r)].
Qed.
Lemma dec_points_group S l b : suite_ok S -> dec_points S b = Some l -> forall p, In p l -> in_group S p.
Proof.
  intros OK. unfold dec_points. destruct (pb_parse b) as [fs|]; [|discriminate]. intros E.
  eapply dec_repeated_all; [|exact E]. intros. eapply dec_point_group; eassumption.
Qed.

(** What a client of the round knows. *)
Lemma in_round_facts S G co co' k k' : suite_ok S -> in_round S G co co' k k' ->
  exists g, co_G co' = Some g /\ in_group S g /\ (forall p, In p (co_keys co') -> in_group S p) /\
    cl_G k' = Some g /\ cl_keys k' = co_keys co' /\ cl_priv k' = cl_priv k /\ cl_coord k' = cl_coord k /\ cl_addr k' = cl_addr k /\
    cl_nym k' = pt_mul S g (cl_priv k) /\ 0 <= cl_index k' /\ nth_error (co_keys co') (Z.to_nat (cl_index k')) = Some (cl_nym k').
Proof.
  intros OK (p & src & rn & out & m & ch & k1 & o & l & os & EC & IM & TM & _ & EK & NL & EL).
  change (co_announcement S co p = Some (co', out)) in EC. rewrite TM in EK. change (cl_announce_final S k (mParams m) = Some (k1, o)) in EK.
  apply (keep_rounds _ _ _ _ _ _ NL) in EL.
  unfold co_announcement in EC.
  destruct (get_bytes p "g"%str) as [bg|]; [|discriminate]. destruct (dec_point S bg) as [g|] eqn:Eg; [|discriminate].
  destruct (get_bytes p "GT"%str) as [bG|]; [|discriminate]. destruct (dec_point S bG) as [GT|]; [|discriminate].
  destruct (get_bytes p "HT"%str) as [bH|]; [|discriminate]. destruct (dec_point S bH) as [HT|]; [|discriminate].
  destruct (get_bytes p "keys"%str) as [bk|]; [|discriminate]. destruct (dec_points S bk) as [keys|] eqn:Ek; [|discriminate].
  destruct (get_bytes p "vals"%str) as [bv|]; [|discriminate]. destruct (dec_points S bv) as [vals|]; [|discriminate].
  destruct (ending_map keys keys) as [ek|]; [|discriminate]. destruct (ending_map keys vals) as [ec|]; [|discriminate].
  injection EC as <- <-.
  assert (EP : mParams m = [("g"%str, VBytes bg); ("keys"%str, VBytes bk); ("vals"%str, VBytes bv); ("GT"%str, VBytes bG); ("HT"%str, VBytes bH)]).
  { apply in_app_or in IM. destruct IM as [I|I]; unfold to_clients, to_servers in I; apply in_map_iff in I; destruct I as (x & <- & _); reflexivity. }
  rewrite EP in EK. unfold cl_announce_final in EK. cbn [get_bytes lookup String.eqb Ascii.eqb Bool.eqb] in EK.
  rewrite Ek in EK.
  pose proof (dec_point_group S OK bg g Eg) as Gg.
  assert (Eu : dec_point_unchecked bg = g).
  { unfold dec_point in Eg. unfold dec_point_unchecked. destruct (pt_valid S (be_to_z bg)); congruence. }
  rewrite Eu in EK.
  destruct (dec_points S bv) as [vals'|]; [|discriminate].
  destruct (find_index keys (pt_mul S g (cl_priv k)) <? 0) eqn:Ei; [discriminate|]. apply Z.ltb_ge in Ei.
  destruct (nth_error vals' _); [|discriminate].
  destruct (dec_point S bG); [|discriminate]. destruct (dec_point S bH); [|discriminate]. injection EK as <- <-.
  unfold roundpart in EL. cbn in EL. injection EL as E1 E2 E3 E4 E5 E6 E7.
  exists g. split; [reflexivity|]. split; [exact Gg|].
  split; [exact (dec_points_group S keys bk OK Ek)|]. cbn.
  repeat (split; [congruence|]). rewrite E7, E4.
  apply Prop_Coord.find_index_nth. now apply find_index_in.
Qed.

(** ** C113 *)
(** The vote says what it should and its signature is one of the ring of the round, as the
    coordinator has it. *)
Theorem C113_verifies S G : suite_ok S -> prime (sP S) -> forall co co' k k', in_round S G co co' k k' -> 0 <= cl_priv k ->
  forall enc id v rs rc r, (forall i, 0 <= rs i) -> (forall i, 0 <= rc i) -> tag_digest S (co_keys co') id <> 0 ->
  exists g m sig, co_G co' = Some g /\ cl_vote2 S enc k' id v rs rc r = Some m /\
    mDst m = cl_coord k /\ mType m = Net.VOTE /\ says m id (thumb v) /\ carries enc m sig /\
    ring_signed S g (co_keys co') id sig.
Proof.
  intros OK PP co co' k k' R Hx enc id v rs rc r Hs Hc Hh.
  destruct (in_round_facts S G co co' k k' OK R) as (g & EG & Gg & GK & E1 & E2 & E3 & E4 & E5 & E6 & E7 & E8).
  pose proof (proj1 Gg) as Rg.
  destruct (C15_points S OK PP g (int_to_byte id) (length (co_keys co')) (Z.to_nat (cl_index k')) (cl_priv k) (co_keys co') rs rc r)
    as (sig & X1 & X2); try assumption.
  - rewrite Z.mod_small; lia.
  - apply nth_error_Some. now rewrite E8.
  - reflexivity.
  - intros p Hp. pose proof (proj1 (GK p Hp)). lia.
  - rewrite (nth_error_nth _ _ _ E8), E6. unfold pt_mul. now rewrite zexp_pos by lia.
  - eexists g, _, sig. split; [exact EG|]. unfold cl_vote2. rewrite E1, E2, E3, (proj2 (Z.ltb_ge _ _) E7).
    rewrite point_to_bigint_id by (assumption || lia). rewrite X1. split; [reflexivity|]. cbn [mDst mType mParams].
    split; [exact E4|]. split; [reflexivity|]. split; [|split; [reflexivity|exact X2]].
    exists (itoa id), (itoa (thumb v)). split; [reflexivity|].
    destruct (itoa_numeral id), (itoa_numeral (thumb v)). repeat split; assumption.
Qed.
Print Assumptions C113_verifies.

(** Two such votes on one message are linked exactly if they are made under one nym (the
    generator of the round is not the neutral element). *)
Theorem C113_linked_exact S G : suite_ok S -> prime (sP S) -> prime (sQ S) -> sP S = 2 * sQ S + 1 ->
  forall co co' j j' k k', in_round S G co co' j j' -> in_round S G co co' k k' ->
  co_G co' <> Some 1 ->
  forall enc id v v' rs rc r rs' rc' r' m m' sig sig',
  (forall a b, enc a = enc b -> a = b) ->
  tag_digest S (co_keys co') id <> 0 -> tag_digest S (co_keys co') id <> 1 -> tag_digest S (co_keys co') id <> sP S - 1 ->
  cl_vote2 S enc j' id v rs rc r = Some m -> carries enc m sig ->
  cl_vote2 S enc k' id v' rs' rc' r' = Some m' -> carries enc m' sig' ->
  (lrs_linkable sig sig' = true <-> cl_nym j' = cl_nym k').
Proof.
  intros OK PP PQ EQ co co' j j' k k' RJ RK NG enc id v v' rs rc r rs' rc' r' m m' sig sig' INJ N0 N1 N2 EM CM EM' CM'.
  destruct (in_round_facts S G co co' j j' OK RJ) as (g & EG & Gg & GK & A1 & A2 & A3 & _ & _ & A6 & A7 & _).
  destruct (in_round_facts S G co co' k k' OK RK) as (g' & EG' & _ & _ & B1 & B2 & B3 & _ & _ & B6 & B7 & _).
  rewrite EG in EG'. injection EG' as <-.
  assert (N : g <> 1) by (intros ->; contradiction).
  unfold cl_vote2 in EM, EM'. rewrite A1, A2, A3, (proj2 (Z.ltb_ge _ _) A7) in EM. rewrite B1, B2, B3, (proj2 (Z.ltb_ge _ _) B7) in EM'.
  unfold lrs_Sign in EM, EM'. rewrite map_point_to_bigint in EM, EM' by (assumption || (intros p Hp; pose proof (proj1 (GK p Hp)); lia)).
  destruct (lrs_sign _ _ _ _ _ (secret_to_bigint (cl_priv j)) _ _ _ _) as [s1|] eqn:E1; [|discriminate].
  destruct (lrs_sign _ _ _ _ _ (secret_to_bigint (cl_priv k)) _ _ _ _) as [s2|] eqn:E2; [|discriminate].
  injection EM as <-. injection EM' as <-. injection CM as CM. injection CM' as CM'. apply INJ in CM, CM'. subst s1 s2.
  rewrite (C16_link_iff_same_key S OK PP PQ EQ _ _ _ _ _ _ _ _ _ _ _ _ _ _ _ _ _ N0 N1 N2 E1 E2).
  unfold secret_to_bigint. rewrite A6, B6. unfold pt_mul. split.
  - intros M. rewrite <- (zexp_modQ S OK _ (cl_priv j)), M by assumption. now apply zexp_modQ.
  - apply zexp_inj; assumption.
Qed.
Print Assumptions C113_linked_exact.

(** Should a client of the table send one, the coordinator stops; from anybody else it
    ignores it. *)
Theorem C113_coordinator_stops S G : suite_ok S -> forall enc k id v rs rc r m, in_group S (cl_nym k) -> cl_vote2 S enc k id v rs rc r = Some m ->
  forall co src rn,
  (In (cl_nym k) (co_keys co) -> co_handle S G co (mType m) (mParams m) src rn = None) /\
  (~ In (cl_nym k) (co_keys co) -> co_handle S G co (mType m) (mParams m) src rn = Some (co, [])).
Proof.
  intros OK enc k id v rs rc r m GN E co src rn. unfold cl_vote2 in E.
  destruct (cl_G k) as [g|]; [|discriminate]. destruct (if cl_index k <? 0 then _ else _) as [sig|]; [|discriminate].
  injection E as <-. cbn [mType mParams].
  match goal with |- context [co_handle S G co Net.VOTE ?p src rn] => change (co_handle S G co Net.VOTE p src rn) with (co_vote S G co p) end.
  unfold co_vote. cbn [get_bytes lookup String.eqb Ascii.eqb Bool.eqb].
  rewrite (dec_enc_point S OK _ GN). split; intros I.
  - rewrite (proj2 (Z.ltb_ge _ _) (proj1 (find_index_in _ _) I)), (Prop_Coord.find_index_nth _ _ I).
    unfold msg_vote. cbn [get_bytes lookup String.eqb Ascii.eqb Bool.eqb]. reflexivity.
  - destruct (_ <? 0) eqn:L; [reflexivity|]. exfalso. apply I, find_index_in. now apply Z.ltb_ge.
Qed.
Print Assumptions C113_coordinator_stops.

(** *** A round with three nyms, two of them of clients that the coordinator knows *)
Definition rvJ : client := init_client toy_suite adA adC 3 5.
Definition rvK : client := init_client toy_suite adB adC 7 5.
Definition rvCo : coord := set_clients toy_c0 [(4 ^ 3 mod 23, adA); (4 ^ 7 mod 23, adB)].
Definition rvP : params :=
  [("g"%str, VBytes (enc_point toy_suite 4)); ("keys"%str, VBytes (enc_points toy_suite toy_ring)); ("vals"%str, VBytes (enc_points toy_suite toy_ring));
   ("GT"%str, VBytes (enc_point toy_suite 9)); ("HT"%str, VBytes (enc_point toy_suite 3))].
Definition rvCo' : coord := match co_announcement toy_suite rvCo rvP with Some (c, _) => c | None => rvCo end.
Definition rv_in (k : client) : client := match cl_announce_final toy_suite k rvP with Some (c, _) => c | None => k end.
Lemma rv_round k : k = rvJ \/ k = rvK -> in_round toy_suite toy_gob rvCo rvCo' k (rv_in k).
Proof.
  intros D. destruct (co_announcement toy_suite rvCo rvP) as [[c out]|] eqn:E; [|vm_compute in E; discriminate].
  assert (EC : rvCo' = c) by (unfold rvCo'; now rewrite E).
  assert (EO : out = [Msg adA ANNOUNCEMENT_FINALIZE rvP adC; Msg adB ANNOUNCEMENT_FINALIZE rvP adC]).
  { vm_compute in E. injection E as _ <-. vm_compute. reflexivity. }
  exists rvP, adC, toy_rand, out, (Msg (cl_addr k) ANNOUNCEMENT_FINALIZE rvP adC), [], (rv_in k), [], [Note Net.VOTE [] []], [].
  split; [rewrite EC; exact E|]. split; [rewrite EO; destruct D as [-> | ->]; cbn; auto|]. split; [reflexivity|]. split; [reflexivity|].
  split; [destruct D as [-> | ->]; vm_compute; reflexivity|].
  split; [|reflexivity]. intros n [<-|[]]. split; discriminate.
Qed.
Example C113_instance :
  in_round toy_suite toy_gob rvCo rvCo' rvJ (rv_in rvJ) /\ in_round toy_suite toy_gob rvCo rvCo' rvK (rv_in rvK) /\
  0 <= cl_priv rvJ /\ 0 <= cl_priv rvK /\ co_G rvCo' = Some 4 /\ cl_nym (rv_in rvJ) <> cl_nym (rv_in rvK) /\
  In (cl_nym (rv_in rvK)) (co_keys rvCo') /\
  (let H := tag_digest toy_suite (co_keys rvCo') 3 in H <> 0 /\ H <> 1 /\ H <> 22) /\
  (forall enc, exists m, cl_vote2 toy_suite enc (rv_in rvK) 3 (-3) (fun i => Z.of_nat i + 2) (fun i => Z.of_nat i * 5) 6 = Some m).
Proof.
  split; [apply rv_round; auto|]. split; [apply rv_round; auto|]. split; [cbn; lia|]. split; [cbn; lia|].
  split; [vm_compute; reflexivity|]. split; [vm_compute; discriminate|]. split; [vm_compute; auto|].
  split; [vm_compute; repeat split; discriminate|]. intros enc. eexists. reflexivity.
Qed.

(** The signature does not cover the feedback: whoever sees a vote can turn it round. *)
Theorem C113_feedback_unsigned_refuted :
  ~ (forall S G, suite_ok S -> prime (sP S) -> forall co co' k k' g, in_round S G co co' k k' -> co_G co' = Some g ->
     forall enc id v rs rc r m sig, cl_vote2 S enc k' id v rs rc r = Some m -> carries enc m sig -> ring_signed S g (co_keys co') id sig ->
     forall m', carries enc m' sig -> forall f, says m' id f -> f = thumb v).
Proof.
  intros C. assert (P23 : prime (sP toy_suite)) by exact prime_23.
  pose proof (rv_round rvK (or_intror eq_refl)) as R.
  destruct (C113_verifies toy_suite toy_gob toy_ok P23 rvCo rvCo' rvK _ R ltac:(cbn; lia) (fun _ => []) 5 1 (fun _ => 2) (fun _ => 5) 6
    ltac:(lia) ltac:(lia) ltac:(vm_compute; discriminate)) as (g & m & sig & EG & EM & _ & _ & _ & CA & RS).
  set (m' := Msg adC Net.VOTE [("text"%str, VStr (itoa 5 ++ [x3b]%byte ++ itoa (-1))); ("signature"%str, VBytes [])] adB).
  assert (X : -1 = thumb 1); [|discriminate X].
  refine (C toy_suite toy_gob toy_ok P23 rvCo rvCo' rvK _ g R EG (fun _ => []) 5 1 _ _ _ m sig EM CA RS m' eq_refl (-1) _).
  exists (itoa 5), (itoa (-1)). destruct (itoa_numeral 5), (itoa_numeral (-1)). repeat split; assumption.
Qed.
Print Assumptions C113_feedback_unsigned_refuted.

