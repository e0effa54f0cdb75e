(** C88: who is sent the bridges.  In every history of the coordinator an assignment is sent
    to whoever last sent a valid request with its pseudonym, which need not be the client:
    a request that somebody has recorded can be sent again from any address. *)
From Coq Require Import ZArith Znumtheory Lia List Bool Permutation.
From Coq Require Import Strings.Byte.
From Coq Require String.
From Verif Require Import ZMod Bytes Suite Spec Pedersen ElGamal FujiOkam Equality Codec Maps Net Bridge Client
  Perm SimpleShuffle PairShuffle Server Coordinator History System Chain Prop_Topology Prop_Chain Round RoundInv
  Prop_Pedersen Prop_ElGamal Prop_FujiOkam Prop_Shuffle Prop_Codec Prop_Bridge Prop_Assign Prop_Coord Prop_Round Session
  Prop_Session.
Import ListNotations.
Import String.StringSyntax.
Open Scope Z_scope.
Delimit Scope string_scope with str.

(** ** Specification *)
(** The step handles a valid request of the pseudonym [nym], sent from [src]. *)
Definition valid_request (S : suite) (G : gob) (st : step) (nym : Z) (src : addr) : Prop :=
  exists p rn ind, stEvent st = EMsg REQUEST_BRIDGES p src rn /\ request_valid S G (stBefore st) p ind nym.
Definition starts_round (st : step) : Prop := exists fakes ord, stEvent st = EBegin fakes ord.
(** In the round that is under way [src] is where the latest valid request of [nym] came from. *)
Inductive asked_last (S : suite) (G : gob) : list step -> Z -> addr -> Prop :=
| al_now t st nym src : valid_request S G st nym src -> asked_last S G (t ++ [st]) nym src
| al_before t st nym src : asked_last S G t nym src -> ~ starts_round st -> (forall a, ~ valid_request S G st nym a) ->
    asked_last S G (t ++ [st]) nym src.
(** The reply of a server names [nym] as the one the bridges are for. *)
Definition reply_for (S : suite) (G : gob) (p : params) (nym : Z) : Prop :=
  exists b x l, get_bytes p "assignments"%str = Some b /\ dec_assignments S G b = Some (x :: l) /\ asNymR x = Some nym.

(** ** Proofs *)
Section Recipient.
Context (S : suite) (OK : suite_ok S) (G : gob) (GK : gob_ok G).

(** A request changes the table of requesters exactly when it is valid. *)
Lemma request_reqs c p src rn c' out : co_request S G c p src rn = Some (c', out) ->
  (exists ind nym m, request_valid S G c p ind nym /\ co_reqs c = Some m /\ co_reqs c' = Some (mset m nym src)) \/
  ((forall ind nym, ~ request_valid S G c p ind nym) /\ co_reqs c' = co_reqs c).
Proof.
  intros E. unfold co_request in E.
  destruct (get_int p "ind"%str) as [ind|] eqn:E1; [|discriminate].
  destruct (get_bytes p "signature"%str) as [sig|] eqn:E2; [|discriminate].
  destruct (get_bytes p "nym"%str) as [bn|] eqn:E3; [|discriminate].
  destruct (dec_point S bn) as [nymR|] eqn:E4; [|discriminate].
  destruct (msg_request p) as [mm|] eqn:E5; [|discriminate].
  pose proof (proj1 (proj1 (C23_point_decode_exact S OK bn nymR)) E4) as (D1 & D2).
  assert (NYM : forall i n, request_valid S G c p i n -> n = nymR).
  { intros i n (bn' & sig' & m' & F1 & F2 & F3 & F4 & F5 & _). assert (bn' = bn) by congruence. subst bn'. congruence. }
  destruct (eg_verify S mm nymR sig (co_G c)) eqn:E6; cbn [negb] in E.
  2:{ injection E as <- <-. right. split; [|reflexivity]. intros i n V. pose proof (NYM i n V) as ->.
      destruct V as (bn' & sig' & m' & F1 & F2 & F3 & F4 & F5 & F6 & F7 & _). congruence. }
  destruct (verify_ind S G (co_pb c) (co_fb c) p (mget (co_ecomms c) nymR)) as [[|]|] eqn:E7; [| |discriminate]; cbn [negb] in E.
  2:{ injection E as <- <-. right. split; [|reflexivity]. intros i n V. pose proof (NYM i n V) as ->.
      destruct V as (bn' & sig' & m' & F1 & F2 & F3 & F4 & F5 & F6 & F7 & F8). congruence. }
  left. destruct (co_reqs c) as [reqs|] eqn:E8; [|discriminate]. exists ind, nymR, reqs. split.
  - exists bn, sig, mm. intuition congruence.
  - split; [reflexivity|]. cbv zeta in E. unfold assign_bridges in E.
    destruct (get_bridges (Z.to_nat ind) (crBridges rn) (co_bridges (set_reqs c (Some (mset reqs nymR src))))) as [brs mp].
    set (l := map _ brs) in *. destruct l as [|a0 l0] eqn:El.
    + injection E as <- <-. reflexivity.
    + match type of E with context [open_assignments S ?c1 ?l1] => destruct (open_total S l1 c1) as (x & Hx); rewrite Hx in E end.
      odestruct E. injection E as <- <-. reflexivity.
Qed.

Lemma asked_reqs self a0 fb trap gammas t c : run S G (init_coord S self a0 fb trap gammas) t c ->
  forall nym a, asked_last S G t nym a <-> exists m, co_reqs c = Some m /\ mget m nym = Some a.
Proof.
  induction 1 as [|t c e c' out R IH E]; intros nym a.
  { split; [intros A; inversion A as [t0 ? ? ? ? E0|t0 ? ? ? ? ? ? E0]; destruct t0; discriminate E0|].
    intros (m & E0 & _). unfold init_coord in E0. destruct (gn_generate_all fb gammas). discriminate. }
  assert (CASE : (starts_round (Step c e c' out) /\ co_reqs c' = Some [] /\ forall n b, ~ valid_request S G (Step c e c' out) n b) \/
    (exists n b m, valid_request S G (Step c e c' out) n b /\ (forall n' b', valid_request S G (Step c e c' out) n' b' -> n' = n /\ b' = b) /\
       co_reqs c = Some m /\ co_reqs c' = Some (mset m n b) /\ ~ starts_round (Step c e c' out)) \/
    ((forall n b, ~ valid_request S G (Step c e c' out) n b) /\ co_reqs c' = co_reqs c /\ ~ starts_round (Step c e c' out))).
  { destruct (co_step_frame S G c e c' out E) as [F _]. specialize (F FReqs).
    destruct e as [ty p src rn| |fakes ord| |ord rs]; cbn [writes_ev] in F.
    2,4,5: right; right; split; [intros n b (p & rn & ind & X & _); discriminate X|split; [apply F; cbn; intuition discriminate|intros (? & ? & X); discriminate X]].
    - destruct (Z.eq_dec ty REQUEST_BRIDGES) as [->|N].
      + cbn [co_step] in E. change (co_handle S G c REQUEST_BRIDGES p src rn) with (co_request S G c p src rn) in E.
        assert (NS : ~ starts_round (Step c (EMsg REQUEST_BRIDGES p src rn) c' out)) by (intros (? & ? & X); discriminate X).
        destruct (request_reqs _ _ _ _ _ _ E) as [(ind & n & m & V & M1 & M2)|[NV M]].
        * right. left. exists n, src, m. split; [now exists p, rn, ind|]. split; [|auto].
          intros n' b' (p' & rn' & ind' & X & V'). cbn [stEvent stBefore] in *. injection X as <- <- <-. split; [|reflexivity].
          destruct V as (b1 & s1 & m1 & A1 & A2 & A3 & A4 & A5 & _), V' as (b2 & s2 & m2 & B1 & B2 & B3 & B4 & B5 & _). congruence.
        * right. right. split; [|auto]. intros n' b' (p' & rn' & ind' & X & V'). cbn [stEvent stBefore] in *. injection X as <- <- <-. now apply (NV ind' n').
      + right. right. split; [intros n b (p' & rn' & ind & X & _); cbn [stEvent] in X; congruence|].
        split; [|intros (? & ? & X); discriminate X]. apply F. unfold writes.
        rewrite (proj2 (Z.eqb_neq _ _) N). repeat match goal with |- context [ty =? ?x] => destruct (ty =? x) end; cbn; intuition discriminate.
    - left. split; [now exists fakes, ord|]. split; [|intros n b (p & rn & ind & X & _); discriminate X].
      cbn [co_step] in E. unfold begin_round in E. destruct (negb (co_status c =? CO_READY_FOR_NEW_ROUND)); [discriminate|]. unfold announce in E.
      odestruct E; injection E as <- <-; reflexivity. }
  set (st := Step c e c' out) in *.
  assert (SNOC : forall (t1 : list step) s1, t1 ++ [s1] = t ++ [st] -> t1 = t /\ s1 = st) by (intros t1 s1 X; now apply app_inj_tail).
  destruct CASE as [(B & RQ & NV)|[(n & b & m & V & U & M1 & M2 & NB)|(NV & M & NB)]].
  - split.
    + intros A. exfalso. inversion A as [t0 s0 ? ? V0 E0|t0 s0 ? ? A0 NB0 NV0 E0]; apply SNOC in E0; destruct E0 as [-> ->]; [now apply (NV nym a)|contradiction].
    + intros (m & X & Y). rewrite RQ in X. injection X as <-. discriminate Y.
  - split.
    + intros A. inversion A as [t0 s0 ? ? V0 E0|t0 s0 ? ? A0 NB0 NV0 E0]; apply SNOC in E0; destruct E0 as [-> ->].
      * destruct (U _ _ V0) as [-> ->]. exists (mset m n b). split; [assumption|apply mget_mset_eq].
      * apply IH in A0. destruct A0 as (m' & X & Y). assert (m' = m) by congruence. subst m'.
        exists (mset m n b). split; [assumption|]. rewrite mget_mset. destruct (keq nym n) as [->|N]; [exfalso; now apply (NV0 b)|assumption].
    + intros (m' & X & Y). rewrite M2 in X. injection X as <-. rewrite mget_mset in Y. destruct (keq nym n) as [->|N].
      * injection Y as <-. now apply al_now.
      * apply al_before; [apply IH; now exists m|assumption|]. intros a' V'. destruct (U _ _ V') as [-> _]. contradiction.
  - split.
    + intros A. inversion A as [t0 s0 ? ? V0 E0|t0 s0 ? ? A0 NB0 NV0 E0]; apply SNOC in E0; destruct E0 as [-> ->]; [exfalso; now apply (NV nym a)|].
      rewrite M. now apply IH.
    + intros X. rewrite M in X. apply IH in X. now apply al_before.
Qed.

Lemma got_dst j rq : forall l c sigs out0 c' out, got_loop S G c j rq sigs l out0 = Some (c', out) ->
  (forall m, In m out0 -> rq = Some (mDst m)) -> forall m, In m out -> rq = Some (mDst m).
Proof.
  induction l as [|x l IH]; intros c sigs out0 c' out E I0; cbn [got_loop] in E; [injection E as <- <-; assumption|].
  odestruct E; (eapply IH; [exact E|]); [|assumption].
  intros q I. apply in_app_iff in I. destruct I as [I|[<-|[]]]; [now apply I0|].
  match goal with X : send _ rq _ _ = Some _ |- _ => unfold send in X; destruct rq; [injection X as <-; reflexivity|discriminate] end.
Qed.

(** C88, what holds: every message with an assignment goes to where the latest valid request
    of the named pseudonym came from, in this round. *)
Theorem C88_sent_to_last_asker_partial : forall self a0 fb trap gammas t c p src rn c' out,
  run S G (init_coord S self a0 fb trap gammas) t c -> co_step S G c (EMsg GOT_SIGNS p src rn) = Some (c', out) ->
  forall m, In m out -> exists nym, reply_for S G p nym /\ asked_last S G t nym (mDst m).
Proof.
  intros self a0 fb trap gammas t c p src rn c' out R E m I. cbn [co_step] in E.
  change (co_handle S G c GOT_SIGNS p src rn) with (co_got S G c p src) in E. unfold co_got in E.
  destruct (get_bool p "success"%str) as [[|]|]; cbn [negb] in E; [|injection E as <- <-; destruct I|discriminate].
  destruct (server_index c src) as [j|]; [|injection E as <- <-; destruct I].
  destruct (get_bytes p "assignments"%str) as [ba|] eqn:E1; [|discriminate].
  destruct (dec_assignments S G ba) as [l|] eqn:E2; [|discriminate].
  destruct (get_bytes p "signatures"%str) as [bs|]; [|discriminate]. destruct (gdec_2d G bs) as [sigs|]; [|discriminate].
  destruct l as [|x l]; [discriminate|]. cbn [nth_error] in E. destruct (asNymR x) as [nym|] eqn:E3; [|discriminate].
  exists nym. split; [now exists ba, x, l|].
  pose proof (got_dst _ _ _ _ _ _ _ _ E ltac:(intros ? []) m I) as X.
  apply (asked_reqs self a0 fb trap gammas t c R). destruct (co_reqs c) as [mq|]; [|discriminate]. now exists mq.
Qed.
(** There is only one such address. *)
Theorem C88_one_recipient_partial : forall self a0 fb trap gammas t c nym a b,
  run S G (init_coord S self a0 fb trap gammas) t c -> asked_last S G t nym a -> asked_last S G t nym b -> a = b.
Proof.
  intros self a0 fb trap gammas t c nym a b R A B. apply (asked_reqs _ _ _ _ _ _ _ R) in A, B.
  destruct A as (m & A1 & A2), B as (m' & B1 & B2). congruence.
Qed.

(** C88, what does not hold: whoever has a valid request of a client can send it again from
    anywhere.  It is accepted, and from then on everything for that pseudonym, also what the
    client itself has asked for before, goes to the address of that sender. *)
Theorem C88_recorded_request : forall self a0 fb trap gammas t c p src rn ind nym c1 out1 src' rn',
  run S G (init_coord S self a0 fb trap gammas) t c -> request_valid S G c p ind nym ->
  co_step S G c (EMsg REQUEST_BRIDGES p src rn) = Some (c1, out1) ->
  (forall i, range_order (crBridges rn' i) (co_bridges c1)) ->
  exists c2 out2, co_step S G c1 (EMsg REQUEST_BRIDGES p src' rn') = Some (c2, out2) /\
  let t2 := t ++ [Step c (EMsg REQUEST_BRIDGES p src rn) c1 out1] ++ [Step c1 (EMsg REQUEST_BRIDGES p src' rn') c2 out2] in
  asked_last S G t2 nym src' /\
  forall t3 c3, run S G (init_coord S self a0 fb trap gammas) (t2 ++ t3) c3 ->
    Forall (fun st => ~ starts_round st /\ forall a, ~ valid_request S G st nym a) t3 ->
    forall p3 s3 rn3 c4 out3, co_step S G c3 (EMsg GOT_SIGNS p3 s3 rn3) = Some (c4, out3) -> reply_for S G p3 nym ->
    forall m, In m out3 -> mDst m = src'.
Proof.
  intros self a0 fb trap gammas t c p src rn ind nym c1 out1 src' rn' R V E RO.
  pose proof (run_snoc S G _ t c _ c1 out1 R E) as R1.
  destruct (co_step_frame S G c _ c1 out1 E) as [F _]. cbn [writes_ev writes] in F.
  assert (E' := E). cbn [co_step] in E'. change (co_handle S G c REQUEST_BRIDGES p src rn) with (co_request S G c p src rn) in E'.
  destruct (request_reqs _ _ _ _ _ _ E') as [(ind0 & n0 & mq & _ & _ & RQ)|[NV _]]; [|exfalso; now apply (NV ind nym)].
  assert (V1 : request_valid S G c1 p ind nym).
  { destruct V as (bn & sig & mm & A1 & A2 & A3 & A4 & A5 & A6 & A7 & A8). exists bn, sig, mm.
    pose proof (F FStatic ltac:(cbn; intuition discriminate)) as X1. pose proof (F FG ltac:(cbn; intuition discriminate)) as X2.
    pose proof (F FEComms ltac:(cbn; intuition discriminate)) as X3. pose proof (F FPB ltac:(cbn; intuition discriminate)) as X4.
    cbn [agree] in X1, X2, X3, X4. unfold co_fb in *. rewrite X1, X2, X3, X4. auto 10. }
  destruct (C46_exact S G OK GK self a0 fb trap gammas _ c1 R1 ltac:(congruence) p src' rn' ind nym V1 RO) as (l & c2 & out2 & E2 & _).
  exists c2, out2. split; [exact E2|]. cbv zeta.
  assert (A2 : asked_last S G (t ++ [Step c (EMsg REQUEST_BRIDGES p src rn) c1 out1] ++ [Step c1 (EMsg REQUEST_BRIDGES p src' rn') c2 out2]) nym src').
  { rewrite app_assoc. apply al_now. now exists p, rn', ind. }
  split; [exact A2|]. intros t3 c3 R3 QT p3 s3 rn3 c4 out3 E3 (b & x & l3 & P1 & P2 & P3) m Im.
  assert (A3 : asked_last S G ((t ++ [Step c (EMsg REQUEST_BRIDGES p src rn) c1 out1] ++ [Step c1 (EMsg REQUEST_BRIDGES p src' rn') c2 out2]) ++ t3) nym src').
  { clear R3 E3. induction t3 as [|st t3 IH] using rev_ind; [now rewrite app_nil_r|].
    apply Forall_app in QT. destruct QT as [QT QS]. inversion QS as [|? ? [Q1 Q2] _]; subst. rewrite app_assoc. apply al_before; auto. }
  destruct (C88_sent_to_last_asker_partial self a0 fb trap gammas _ c3 p3 s3 rn3 c4 out3 R3 E3 m Im) as (nym' & (b' & x' & l' & P1' & P2' & P3') & A).
  assert (nym' = nym) by congruence. subst nym'. exact (C88_one_recipient_partial _ _ _ _ _ _ _ _ _ _ R3 A A3).
Qed.
End Recipient.

(** ** Instance *)
Import Prop_FujiOkam Prop_Codec Prop_Bridge Prop_Shuffle Prop_Assign.
(** D has posted a bridge and asked for one; the servers have not answered yet.  Somebody at
    E, who is no client, sends D's request again; then the two servers' answers arrive. *)
Definition toy_request (y : sys) : option msg :=
  olet k := mget (y_clients y) adD in olet r := cl_request toy_suite toy_gob k 1 toy_rn in r.
Definition after_replay (y : sys) (m : msg) (src : addr) : option (sys * list msg) :=
  olet (c1, out) := co_handle toy_suite toy_gob (y_coord y) (mType m) (mParams m) src toy_rand in
  Some (Sys c1 (y_servers y) (y_clients y) (y_msgs y ++ out) (y_log y), out).
Definition toy_dls : list System.action := repeat (ADeliver 0 toy_rand toy_sr1 []) 4.
Definition delivered_to (y : sys) : list (addr * Z * option bytes) :=
  map (fun m => (mDst m, mType m, olet b := get_bytes (mParams m) "assignment"%str in olet x := dec_assignment toy_suite b in Some (asAddr x))) (y_msgs y).
Definition toy_theft (z : sys * ledger) :=
  let y := fst z in
  (match mget (y_clients y) adE with Some _ => true | None => false end, map snd (co_clients (y_coord y)),
   option_map delivered_to (sys_run toy_suite toy_oracle toy_gob y toy_dls),
   olet m := toy_request y in olet (y1, out) := after_replay y m adE in
   Some (mSrc m, out, option_map delivered_to (sys_run toy_suite toy_oracle toy_gob y1 toy_dls))).
(** C88 as stated is false: without the replay D is sent the one bridge it asked for; with
    it, nothing is sent to D and the bridge goes to E, who is not a client, has no reputation
    and needs no key. *)
Theorem C88_only_asker_refuted :
  exists y V m y1 y2 y2',
  reach toy_suite toy_oracle toy_gob y V /\ mget (y_clients y) adE = None /\ ~ In adE (map snd (co_clients (y_coord y))) /\
  toy_request y = Some m /\ mSrc m = adD /\ after_replay y m adE = Some (y1, []) /\
  sys_run toy_suite toy_oracle toy_gob y toy_dls = Some y2 /\
  delivered_to y2 = [(adD, GOT_SIGNS, Some [x62; x32]%byte)] /\
  sys_run toy_suite toy_oracle toy_gob y1 toy_dls = Some y2' /\
  delivered_to y2' = [(adE, GOT_SIGNS, Some [x62; x32]%byte)].
Proof.
  destruct (toy_run toy_asked toy_theft (false, [adD], Some [(adD, GOT_SIGNS, Some [x62; x32]%byte)],
     Some (adD, [], Some [(adE, GOT_SIGNS, Some [x62; x32]%byte)]))) as (y & V & _ & R & F); [vm_compute; reflexivity|].
  unfold toy_theft in F. cbn [fst] in F.
  destruct (toy_request y) as [m|] eqn:E1; [|discriminate]. destruct (after_replay y m adE) as [[y1 out]|] eqn:E2; [|discriminate].
  destruct (sys_run toy_suite toy_oracle toy_gob y toy_dls) as [y2|] eqn:E3; [|discriminate].
  destruct (sys_run toy_suite toy_oracle toy_gob y1 toy_dls) as [y2'|] eqn:E4; [|discriminate]. cbn [option_map] in F.
  assert (F1 : map snd (co_clients (y_coord y)) = [adD]) by congruence.
  assert (F2 : mget (y_clients y) adE = None) by (destruct (mget (y_clients y) adE); [discriminate|reflexivity]).
  assert (F3 : mSrc m = adD) by congruence. assert (F4 : out = []) by congruence.
  assert (F5 : delivered_to y2 = [(adD, GOT_SIGNS, Some [x62; x32]%byte)]) by congruence.
  assert (F6 : delivered_to y2' = [(adE, GOT_SIGNS, Some [x62; x32]%byte)]) by congruence. clear F. subst out.
  exists y, V, m, y1, y2, y2'. rewrite F1. repeat (split; [assumption|]). split; [vm_compute; intuition discriminate|].
  repeat (split; [assumption || reflexivity|]). assumption.
Qed.

Definition first_request (z : sys * ledger) :=
  let y := fst z in
  match y_msgs y with
  | [] => None
  | m :: _ =>
      olet (c1, out1) := co_step toy_suite toy_gob (y_coord y) (EMsg REQUEST_BRIDGES (mParams m) adD toy_rand) in
      olet bn := get_bytes (mParams m) "nym"%str in
      olet sig := get_bytes (mParams m) "signature"%str in
      olet mm := msg_request (mParams m) in
      Some (get_int (mParams m) "ind"%str, be_to_z bn, eg_verify toy_suite mm 12 sig (co_G (y_coord y)),
        verify_ind toy_suite toy_gob (co_pb (y_coord y)) (co_fb (y_coord y)) (mParams m) (mget (co_ecomms (y_coord y)) 12), length out1)
  end.
(** The hypotheses of [C88_recorded_request] and of [C88_sent_to_last_asker_partial] hold of
    the same session. *)
Example C88_instance : exists self a0 fb trap gammas t c p rn c1 out1 rn',
  run toy_suite toy_gob (init_coord toy_suite self a0 fb trap gammas) t c /\
  request_valid toy_suite toy_gob c p 1 12 /\
  co_step toy_suite toy_gob c (EMsg REQUEST_BRIDGES p adD rn) = Some (c1, out1) /\ length out1 = 2%nat /\
  (forall i, range_order (crBridges rn' i) (co_bridges c1)) /\
  asked_last toy_suite toy_gob (t ++ [Step c (EMsg REQUEST_BRIDGES p adD rn) c1 out1]) 12 adD.
Proof.
  destruct (toy_run (toy_mid2 ++ [do (ACommand adD (CPost [x62; x32]%byte))] ++ dls 1 ++ [do (ACommand adD (CRequest 1 toy_rn))])
    first_request (Some (Some 1, 12, true, Some true, 2%nat))) as (y & V & _ & RR & F); [vm_compute; reflexivity|].
  unfold first_request in F. cbn [fst] in F.
  destruct (reach_run toy_suite toy_oracle toy_gob y V RR) as (self & a0 & fb & trap & gammas & t & R).
  destruct (y_msgs y) as [|m l]; [discriminate|].
  destruct (co_step toy_suite toy_gob (y_coord y) (EMsg REQUEST_BRIDGES (mParams m) adD toy_rand)) as [[c1 out1]|] eqn:E1; [|discriminate].
  destruct (get_bytes (mParams m) "nym"%str) as [bn|] eqn:E2; [|discriminate].
  destruct (get_bytes (mParams m) "signature"%str) as [sig|] eqn:E3; [|discriminate].
  destruct (msg_request (mParams m)) as [mm|] eqn:E4; [|discriminate].
  assert (F1 : get_int (mParams m) "ind"%str = Some 1) by congruence. assert (F2 : be_to_z bn = 12) by congruence.
  assert (F3 : eg_verify toy_suite mm 12 sig (co_G (y_coord y)) = true) by congruence.
  assert (F4 : verify_ind toy_suite toy_gob (co_pb (y_coord y)) (co_fb (y_coord y)) (mParams m) (mget (co_ecomms (y_coord y)) 12) = Some true) by congruence.
  assert (F5 : length out1 = 2%nat) by congruence. clear F.
  assert (V0 : request_valid toy_suite toy_gob (y_coord y) (mParams m) 1 12).
  { exists bn, sig, mm. repeat (split; [assumption|]). split; [vm_compute; intuition congruence|]. repeat (split; [assumption|]). assumption. }
  exists self, a0, fb, trap, gammas, t, (y_coord y), (mParams m), toy_rand, c1, out1, (CoRand 3 [] (fun _ => mkeys (co_bridges c1)) []).
  split; [exact R|]. split; [exact V0|]. split; [exact E1|]. split; [exact F5|]. split; [intros i; apply Permutation_refl|].
  apply al_now. now exists (mParams m), toy_rand, 1.
Qed.

Print Assumptions C88_sent_to_last_asker_partial.
Print Assumptions C88_one_recipient_partial.
Print Assumptions C88_recorded_request.
Print Assumptions C88_only_asker_refuted.
