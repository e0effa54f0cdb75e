(** C85: processes that leave. *)
From Coq Require Import ZArith Znumtheory Lia List Bool.
From Coq Require Import Strings.Byte.
From Coq Require String.
From Verif Require Import ZMod Bytes Suite Pedersen ElGamal FujiOkam Equality Codec Maps Net Bridge Client
  Perm SimpleShuffle PairShuffle Server Coordinator History System Round RoundInv
  Prop_Codec Prop_ElGamal Prop_Bridge Prop_Shuffle Prop_Assign Prop_Topology Prop_Round Depart.
Import ListNotations.
Import String.StringSyntax.
Open Scope Z_scope.
Delimit Scope string_scope with str.

(** The events that take a round to its next phase: the shuffled table arrives, voting starts,
    the round ends, the table of the next round arrives. *)
Definition advances (e : event) : Prop :=
  match e with
  | EVotePhase | EEnd _ _ => True
  | EMsg ty _ _ _ => ty = ANNOUNCEMENT \/ ty = Net.ROUND_END
  | _ => False
  end.

(** The public key that a registration carries. *)
Definition reg_key (e : event) : option Z :=
  match e with
  | EMsg ty p _ _ => if ty =? CLIENT_REGISTER_CONTROLLERSIDE then olet bk := get_bytes p "public_key"%str in Some (dec_point_unchecked bk) else None
  | _ => None
  end.
(** Nobody registers with a public key that is in use. *)
Fixpoint fresh_keys (used : list Z) (l : list happening) : Prop :=
  match l with
  | [] => True
  | Ev e :: r => match reg_key e with Some k => ~ In k used /\ fresh_keys (k :: used) r | None => fresh_keys used r end
  | _ :: r => fresh_keys used r
  end.

Section Leaving.
Context (S : suite) (G : gob).

(** The state of the running round: base, pseudonyms, table. *)
Definition round_of (c : coord) := (co_G c, co_keys c, co_ekeys c, co_ecomms c).

Lemma assign_frame c n r o l c2 : assign_bridges c n r o = (l, c2) ->
  co_clients c2 = co_clients c /\ co_servers c2 = co_servers c /\ round_of c2 = round_of c /\ co_reqs c2 = co_reqs c.
Proof. unfold assign_bridges. destruct (get_bridges _ _ _) as [brs m]. intros [= _ <-]. auto. Qed.
Lemma got_loop_frame l : forall c j rq sigs out c' o, got_loop S G c j rq sigs l out = Some (c', o) ->
  co_clients c' = co_clients c /\ co_servers c' = co_servers c /\ round_of c' = round_of c /\
  (forall m, In m o -> In m out \/ Some (mDst m) = rq).
Proof.
  induction l as [|a l IH]; intros c j rq sigs out c' o E; cbn [got_loop] in E.
  { injection E as <- <-. auto. }
  destruct (nth_error sigs 0) as [sig|]; [|discriminate]. destruct (add_asig c (asAddr a) j sig) as [c1|] eqn:E1; [|discriminate].
  assert (F1 : co_clients c1 = co_clients c /\ co_servers c1 = co_servers c /\ round_of c1 = round_of c).
  { unfold add_asig in E1. destruct (mget _ _) as [[sl n]|]; [|discriminate]. destruct (set_nth _ _ _); [|discriminate]. injection E1 as <-. auto. }
  destruct F1 as (A1 & A2 & A3). destruct (asigs_done c1 (asAddr a)).
  - cbv zeta in E. odestruct E. apply IH in E. destruct E as (B1 & B2 & B3 & B4).
    repeat split; try (etransitivity; [eassumption|assumption]).
    intros x I. destruct (B4 x I) as [I'|I']; [|now right]. apply in_app_or in I'. destruct I' as [I'|[<-|[]]]; [now left|right].
    match goal with X : send _ rq _ _ = Some _ |- _ => unfold send in X; destruct rq; [injection X as <-; reflexivity|discriminate] end.
  - apply IH in E. destruct E as (B1 & B2 & B3 & B4). repeat split; try (etransitivity; [eassumption|assumption]). exact B4.
Qed.

(** What a step that does not advance the round does to the list of clients and the round. *)
Lemma quiet_step c e c' out : co_step S G c e = Some (c', out) -> ~ advances e ->
  (exists x, co_servers c' = co_servers c ++ x) /\ round_of c' = round_of c /\
  ((reg_key e = None /\ co_clients c' = co_clients c) \/
   exists k ord src, reg_key e = Some k /\ co_clients c' = add_client ord (co_clients c) k src).
Proof.
  intros E NA. assert (Z0 : forall l : list (addr * Z), exists x, l = l ++ x) by (intros l; exists []; now rewrite app_nil_r).
  destruct e as [ty p src rn| |fakes ord| |ord rs]; cbn [co_step] in E; try (exfalso; apply NA; exact I).
  - unfold co_handle in E. cbn [reg_key].
    destruct (Z.eqb_spec ty SERVER_REGISTER) as [-> |N1].
    { unfold co_server_register in E. cbv zeta in E. odestruct E. injection E as <- _. split; [eexists; reflexivity|]. split; [reflexivity|left; auto]. }
    destruct (Z.eqb_spec ty UPDATE_PEDERSEN_H) as [-> |N2].
    { unfold co_pedersen_h in E. odestruct E. injection E as <- _. split; [apply Z0|]. split; [reflexivity|left; auto]. }
    destruct (Z.eqb_spec ty CLIENT_REGISTER_CONTROLLERSIDE) as [-> |N3].
    { unfold co_client_register in E. destruct (get_bytes p "public_key"%str) as [bk|]; [|discriminate]. cbv zeta in E.
      destruct (ped_commit _ _ _ _) as [pc r]. odestruct E. injection E as <- _.
      split; [apply Z0|]. split; [reflexivity|right]. exists (dec_point_unchecked bk), (crClients rn), src. split; reflexivity. }
    destruct (Z.eqb_spec ty CLIENT_REGISTER_SERVERSIDE) as [-> |N4].
    { unfold co_client_confirm in E. cbv zeta in E. odestruct E. injection E as <- _. split; [apply Z0|]. split; [reflexivity|left; auto]. }
    destruct (Z.eqb_spec ty GN_HONESTY_CHALLENGE) as [-> |N5].
    { unfold co_honesty in E. odestruct E. injection E as <- _. split; [apply Z0|]. split; [reflexivity|left; auto]. }
    destruct (Z.eqb_spec ty POST_BRIDGE) as [-> |N6].
    { unfold co_post in E. odestruct E; injection E as <- _; (split; [apply Z0|]; split; [reflexivity|left; auto]). }
    destruct (Z.eqb_spec ty REQUEST_BRIDGES) as [-> |N7].
    { unfold co_request in E. cbv zeta in E.
      assert (X : co_clients c' = co_clients c /\ co_servers c' = co_servers c /\ round_of c' = round_of c).
      { odestruct E; try (injection E as <- _; auto);
          match goal with X : assign_bridges _ _ _ _ = _ |- _ => apply assign_frame in X; destruct X as (B1 & B2 & B3 & _) end; [rewrite B1, B2, B3; auto|].
        match goal with X : open_assignments _ _ _ = Some _ |- _ => rename X into EO end.
        assert (FO : forall l d d', open_assignments S d l = Some d' -> round_of d' = round_of d).
        { clear. induction l as [|a l IH]; intros d d' E; cbn [open_assignments] in E; [injection E as <-; auto|].
          cbv zeta in E. destruct (add_asig _ _ _ _) as [c2|] eqn:E2; [|discriminate]. rewrite (IH _ _ E).
          unfold add_asig in E2. destruct (mget _ _) as [[sl n]|]; [|discriminate]. destruct (set_nth _ _ _); [|discriminate].
          injection E2 as <-. reflexivity. }
        destruct (open_assignments_frame S _ _ _ EO) as (A1 & A2 & _ & _). apply FO in EO. rewrite A1, A2, EO, B1, B2, B3. auto. }
      destruct X as (A1 & A2 & A3). split; [rewrite A2; apply Z0|]. split; [exact A3|left; auto]. }
    destruct (Z.eqb_spec ty GOT_SIGNS) as [-> |N8].
    { unfold co_got in E. cbv zeta in E.
      assert (X : co_clients c' = co_clients c /\ co_servers c' = co_servers c /\ round_of c' = round_of c).
      { odestruct E; try (injection E as <- _; auto). apply got_loop_frame in E. intuition. }
      destruct X as (A1 & A2 & A3). split; [rewrite A2; apply Z0|]. split; [exact A3|left; auto]. }
    destruct (Z.eqb_spec ty Net.VOTE) as [-> |N9].
    { unfold co_vote in E. cbv zeta in E. odestruct E; injection E as <- _; (split; [apply Z0|]; split; [reflexivity|left; auto]). }
    destruct (Z.eqb_spec ty Net.ROUND_END) as [-> |N10]; [exfalso; apply NA; now right|].
    destruct (Z.eqb_spec ty ANNOUNCEMENT) as [-> |N11]; [exfalso; apply NA; now left|].
    injection E as <- _. split; [apply Z0|]. split; [reflexivity|left; auto].
  - injection E as <- _. split; [apply Z0|]. split; [reflexivity|left; auto].
  - unfold begin_round in E. destruct (negb _); [discriminate|]. cbv zeta in E.
    assert (FF : forall l d, co_clients (add_fakes S d l) = co_clients d /\ co_servers (add_fakes S d l) = co_servers d /\ round_of (add_fakes S d l) = round_of d).
    { clear. induction l as [|x l IH]; intros d; [auto|]. unfold add_fakes in *. cbn [fold_left]. destruct (IH (add_rep d (pt_mul_base S (fst x)) (pt_mul S (pb_HT (co_pb d)) (snd x)))) as (A & B & C).
      rewrite A, B, C. auto. }
    match type of E with announce S ?d ord = _ => assert (FD : co_clients d = co_clients c /\ co_servers d = co_servers c /\ round_of d = round_of c) end.
    { destruct (co_first c); [|auto]. destruct (FF fakes c) as (A & B & C). cbn. unfold round_of in *. cbn. rewrite A, B. split; [reflexivity|split; [reflexivity|exact C]]. }
    revert FD E. match goal with |- context [announce S ?q ord] => generalize q as d end. intros d (A & B & C) E. cbn [reg_key].
    unfold announce in E. odestruct E; injection E as <- _;
      (split; [cbn [set_status co_servers]; rewrite B; apply Z0|]; split; [exact C|left; split; [reflexivity|exact A]]).
Qed.

(** C85: if a registered client has left, every step that would take the round to its next
    phase stops the coordinator. *)
Theorem C85_next_phase_stops : forall c down a e, listed_at c a -> In a down -> co_servers c <> [] -> advances e ->
  d_step S G (c, down) (Ev e) = None.
Proof.
  intros c down a e [k M] D SV AD. cbn [d_step fst snd]. destruct (co_step S G c e) as [[c' out]|] eqn:E; [|reflexivity].
  assert (X : exists m, In m out /\ mDst m = a).
  2:{ destruct X as (m & I & <-). destruct (sent_all down out) eqn:ES; [|reflexivity]. rewrite sent_all_iff in ES. destruct (ES m I D). }
  apply mget_In in M. destruct e as [ty p src rn| |fakes ord| |ord rs]; cbn [advances] in AD; try contradiction; cbn [co_step] in E.
  - destruct AD as [-> | ->].
    + change (co_announcement S c p = Some (c', out)) in E. unfold co_announcement in E. cbv zeta in E. odestruct E. injection E as <- <-.
      eexists. split; [apply in_or_app; left; eapply to_clients_dst; exact M|reflexivity].
    + change (co_round_end S G c p rn = Some (c', out)) in E. unfold co_round_end in E. cbv zeta in E. odestruct E. injection E as <- <-.
      eexists. split; [eapply to_clients_dst; exact M|reflexivity].
  - injection E as <- <-. eexists. split; [eapply to_clients_dst; exact M|reflexivity].
  - unfold round_end in E. destruct (last_server c) as [b|] eqn:EL.
    2:{ exfalso. apply SV. unfold last_server in EL. destruct (nth_error (rev (co_servers c)) 0) eqn:EN; [discriminate|].
        apply nth_error_None in EN. rewrite rev_length in EN. destruct (co_servers c); [reflexivity|cbn in EN; lia]. }
    cbv zeta in E. odestruct E. injection E as <- <-. eexists. split; [right; eapply to_clients_dst; cbn [clear_bridges]|reflexivity].
    assert (FB : forall l d, co_clients (fold_left (fun c kv => add_ending c (fst kv) (snd kv)) l d) = co_clients d).
    { clear. induction l as [|x l IH]; intros d; [reflexivity|]. cbn [fold_left]. rewrite IH. reflexivity. }
    rewrite FB. exact M.
Qed.

(** C85: from the moment a registered client has left, for good, the round stands still: in
    whatever happens next, with whatever messages, as long as the coordinator has not stopped,
    voting has not started, no round has ended and none has begun. *)
Theorem C85_round_stands_still : forall l c down a c' down', listed_at c a -> In a down -> co_servers c <> [] ->
  ~ In (Return a) l -> fresh_keys (mkeys (co_clients c)) l -> d_run S G (c, down) l = Some (c', down') ->
  (forall e, In (Ev e) l -> ~ advances e) /\ round_of c' = round_of c /\ listed_at c' a.
Proof.
  intros l c down a c' down' LA D SV NR FK.
  assert (U : incl (mkeys (co_clients c)) (mkeys (co_clients c))) by (apply incl_refl).
  revert U FK. generalize (mkeys (co_clients c)) at 2 3 as used. intros used U FK E. revert c down used LA D SV U FK E.
  induction l as [|h l IH]; intros c down used LA D SV U FK E; cbn [d_run] in E.
  { injection E as <- _. split; [intros e []|auto]. }
  destruct (d_step S G (c, down) h) as [[c1 down1]|] eqn:E1; [|discriminate].
  assert (NR' : ~ In (Return a) l) by (intros X; apply NR; now right).
  destruct h as [e|b|b].
  - assert (NA : ~ advances e) by (intros AD; rewrite (C85_next_phase_stops c down a e LA D SV AD) in E1; discriminate).
    cbn [d_step fst snd] in E1. destruct (co_step S G c e) as [[c2 out]|] eqn:E2; [|discriminate].
    destruct (sent_all down out); [|discriminate]. injection E1 as <- <-.
    destruct (quiet_step c e c2 out E2 NA) as ([x SX] & RX & CX).
    assert (SV' : co_servers c2 <> []) by (rewrite SX; destruct (co_servers c); [contradiction|discriminate]).
    cbn [fresh_keys] in FK.
    assert (Y : exists used', listed_at c2 a /\ incl (mkeys (co_clients c2)) used' /\ fresh_keys used' l).
    { destruct CX as [[RK CX]|(k & ord & src & RK & CX)]; rewrite RK in FK.
      - exists used. unfold listed_at. rewrite CX. auto.
      - destruct FK as [NK FK]. exists (k :: used). unfold listed_at. rewrite CX. split; [|split; [|exact FK]].
        + destruct LA as [k0 M]. destruct (keq a src) as [<- |N].
          * exists k. apply add_client_key.
          * exists k0. apply add_client_other; auto. intros <-. apply NK, U. now apply mget_keys in M.
        + intros y IY. apply add_client_keys in IY. destruct IY as [-> |IY]; [now left|right; apply U; exact IY]. }
    destruct Y as (used' & LA' & U' & FK'). destruct (IH NR' c2 down used' LA' D SV' U' FK' E) as (A & B & C).
    split; [|split; [congruence|exact C]]. intros e' [I|I]; [injection I as <-; exact NA|auto].
  - injection E1 as <- <-. destruct (IH NR' c (b :: down) used LA (or_intror D) SV U FK E) as (A & B & C).
    split; [|auto]. intros e [I|I]; [discriminate|auto].
  - injection E1 as <- <-. assert (N : b <> a) by (intros ->; apply NR; now left).
    assert (D' : In a (filter (fun x => if keq x b then false else true) down)).
    { apply filter_In. split; [exact D|]. destruct (keq a b); congruence. }
    destruct (IH NR' c _ used LA D' SV U FK E) as (A & B & C). split; [|auto]. intros e [I|I]; [discriminate|auto].
Qed.

(** C85: the coordinator dials its servers, the registered clients, the sender of a message, the
    address that a confirmed registration names, and those that have requested bridges. *)
Definition addressee (c : coord) (e : event) (a : addr) : Prop :=
  In a (map fst (co_servers c)) \/ listed_at c a \/
  match e with
  | EMsg _ p src _ => a = src \/ get_str p "addr"%str = Some a
  | _ => False
  end \/ exists reqs k, co_reqs c = Some reqs /\ mget reqs k = Some a.
Lemma to_servers_dst c ty p m : In m (to_servers c ty p) -> In (mDst m) (map fst (co_servers c)).
Proof. unfold to_servers. rewrite !in_map_iff. intros (x & <- & I). exists x. auto. Qed.
Lemma in_to_clients c ty p m : mwf (co_clients c) -> In m (to_clients c ty p) -> listed_at c (mDst m).
Proof. unfold to_clients. intros W. rewrite in_map_iff. intros ([k a] & <- & I). exists k. now apply mwf_In. Qed.

Theorem C85_only_addressees : forall c e c' out, mwf (co_clients c) -> co_step S G c e = Some (c', out) ->
  forall m, In m out -> addressee c e (mDst m).
Proof.
  intros c e c' out W E m I. unfold addressee. destruct e as [ty p src rn| |fakes ord| |ord rs]; cbn [co_step] in E.
  - unfold co_handle in E.
    assert (LS : forall l, last_server c = Some l -> In l (map fst (co_servers c))).
    { intros l EL. unfold last_server in EL. destruct (nth_error (rev (co_servers c)) 0) as [x|] eqn:EN; [|discriminate].
      injection EL as <-. apply in_map. apply in_rev. now apply nth_error_In in EN. }
    destruct (ty =? SERVER_REGISTER).
    { unfold co_server_register in E. cbv zeta in E. odestruct E. injection E as <- <-. apply in_app_or in I. destruct I as [I|[<-|[]]].
      - destruct (last_server c) as [x|] eqn:EL; [|destruct I]. destruct I as [<-|[]]. left. now apply LS.
      - right. right. left. now left. }
    destruct (ty =? UPDATE_PEDERSEN_H). { unfold co_pedersen_h in E. odestruct E. injection E as <- <-. destruct I. }
    destruct (ty =? CLIENT_REGISTER_CONTROLLERSIDE).
    { unfold co_client_register in E. cbv zeta in E. destruct (ped_commit _ _ _ _) as [pc r]. odestruct E. injection E as <- <-.
      destruct I as [<-|[<-|[]]]; [|right; right; left; now left]. left.
      match goal with X : send _ (first_server c) _ _ = Some _ |- _ => unfold send in X; destruct (first_server c) as [fs|] eqn:EF; [|discriminate]; injection X as <- end.
      unfold first_server in EF. destruct (nth_error (co_servers c) 0) as [x|] eqn:EN; [|discriminate]. injection EF as <-.
      cbn [mDst]. apply in_map. now apply nth_error_In in EN. }
    destruct (ty =? CLIENT_REGISTER_SERVERSIDE).
    { unfold co_client_confirm in E. cbv zeta in E. odestruct E. injection E as <- <-. destruct I as [<-|[]]. right. right. left. now right. }
    destruct (ty =? GN_HONESTY_CHALLENGE). { unfold co_honesty in E. odestruct E. injection E as <- <-. destruct I as [<-|[]]. right. right. left. now left. }
    destruct (ty =? POST_BRIDGE). { unfold co_post in E. odestruct E; injection E as <- <-; destruct I. }
    destruct (ty =? REQUEST_BRIDGES).
    { unfold co_request in E. cbv zeta in E. odestruct E; injection E as <- <-; try solve [destruct I].
      match goal with X : assign_bridges _ _ _ _ = _ |- _ => apply assign_frame in X; destruct X as (_ & B2 & _) end.
      left. match goal with X : open_assignments _ _ _ = Some _ |- _ => apply open_assignments_frame in X; destruct X as (_ & FS & _) end.
      apply to_servers_dst in I. rewrite FS, B2 in I. exact I. }
    destruct (ty =? GOT_SIGNS).
    { unfold co_got in E. cbv zeta in E. odestruct E; try (injection E as <- <-; destruct I).
      apply got_loop_frame in E. destruct E as (_ & _ & _ & X). destruct (X m I) as [[]|X'].
      destruct (co_reqs c) as [reqs|] eqn:ER; [|discriminate]. right. right. right. eexists reqs, _. split; [reflexivity|symmetry; exact X']. }
    destruct (ty =? Net.VOTE). { unfold co_vote in E. cbv zeta in E. odestruct E; injection E as <- <-; destruct I. }
    destruct (ty =? Net.ROUND_END).
    { unfold co_round_end in E. cbv zeta in E. odestruct E. injection E as <- <-. right. left. eapply in_to_clients; eauto. }
    destruct (ty =? ANNOUNCEMENT).
    { unfold co_announcement in E. cbv zeta in E. odestruct E. injection E as <- <-. apply in_app_or in I. destruct I as [I|I].
      - right. left. eapply in_to_clients; eauto.
      - left. eapply to_servers_dst; eauto. }
    injection E as <- <-. destruct I.
  - injection E as <- <-. left. eapply to_servers_dst; eauto.
  - left. unfold begin_round in E. destruct (negb _); [discriminate|]. cbv zeta in E. unfold announce in E.
    match type of E with match first_server ?d with _ => _ end = _ => assert (FD : co_servers d = co_servers c) end.
    { destruct (co_first c); [|reflexivity]. cbn. clear. revert c. induction fakes as [|x l IH]; intros c; [reflexivity|]. unfold add_fakes in *. cbn [fold_left]. now rewrite IH. }
    unfold first_server in E. rewrite FD in E. destruct (nth_error (co_servers c) 0) as [x|] eqn:EN; cbn [option_map] in E; [|injection E as <- <-; destruct I].
    odestruct E. injection E as <- <-. destruct I as [<-|[]]. cbn [mDst]. apply in_map. now apply nth_error_In in EN.
  - injection E as <- <-. right. left. eapply in_to_clients; eauto.
  - unfold round_end in E. destruct (last_server c) as [b|] eqn:EL; [|injection E as <- <-; destruct I]. cbv zeta in E. odestruct E. injection E as <- <-.
    destruct I as [<-|I].
    + left. unfold last_server in EL. destruct (nth_error (rev (co_servers c)) 0) as [x|] eqn:EN; [|discriminate].
      injection EL as <-. cbn [mDst]. apply in_map. apply in_rev. now apply nth_error_In in EN.
    + right. left.
      assert (FB : forall l d, co_clients (fold_left (fun c kv => add_ending c (fst kv) (snd kv)) l d) = co_clients d).
      { clear. induction l as [|x l IH]; intros d; [reflexivity|]. cbn [fold_left]. rewrite IH. reflexivity. }
      destruct (in_to_clients _ _ _ m ltac:(rewrite FB; exact W) I) as [k M]. rewrite FB in M. now exists k.
Qed.

(** So whoever else leaves does not matter. *)
Theorem C85_others_do_not_matter : forall c down e, mwf (co_clients c) -> (forall a, addressee c e a -> ~ In a down) ->
  d_step S G (c, down) (Ev e) = option_map (fun x => (fst x, down)) (co_step S G c e).
Proof.
  intros c down e W ND. cbn [d_step fst snd]. destruct (co_step S G c e) as [[c' out]|] eqn:E; [|reflexivity]. cbn [option_map fst].
  rewrite (proj2 (sent_all_iff down out)); [reflexivity|]. intros m I. apply ND. eapply C85_only_addressees; eauto.
Qed.

(** Clients dial nobody but the coordinator, so they do not stop when other clients leave. *)
Theorem C85_clients_dial_coordinator : forall k,
  (forall ty p chal k' out m, cl_handle S G k ty p chal = Some (k', out) -> In m out -> mDst m = cl_coord k) /\
  (forall cmd out m, cl_command S G k cmd = Some out -> In m out -> mDst m = cl_coord k).
Proof.
  intros k. split.
  - intros ty p chal k' out m E I. unfold cl_handle in E.
    repeat match type of E with (if ?b then _ else _) = _ => destruct b end;
    unfold cl_register_confirmation, cl_init_r, cl_honesty_answer, cl_announce_final, cl_got_signatures, cl_vote_start,
      cl_round_end, cl_rdiff, cl_vote_reply in E; cbv zeta in E; odestruct E; injection E as <- <-; try solve [destruct I].
    destruct I as [<-|[]]. reflexivity.
  - intros cmd out m E I. destruct cmd as [a|ind rn|id f]; cbn [cl_command] in E.
    + injection E as <-. destruct I as [<-|[]]. reflexivity.
    + destruct (cl_request S G k ind rn) as [[m'|]|] eqn:E1; [|injection E as <-; destruct I|discriminate].
      injection E as <-. destruct I as [<-|[]]. unfold cl_request in E1. destruct (ped_commit _ _ _ _) as [A B]. cbv zeta in E1.
      destruct (cl_rep k <? ind); [discriminate|]. odestruct E1. injection E1 as <-. reflexivity.
    + destruct (cl_vote S k id f) as [m'|] eqn:E1; [|discriminate]. injection E as <-. destruct I as [<-|[]].
      unfold cl_vote in E1. cbv zeta in E1. destruct (id <? 0); [discriminate|]. odestruct E1. injection E1 as <-. reflexivity.
Qed.
End Leaving.

(** C85, as one would want it: when a client leaves during a round, the others can at least go
    on to the next phase, that is, some course of events takes them there. *)
Definition survives (S : suite) (H : oracle) (G : gob) : Prop :=
  forall y V a, reach S H G y V -> co_servers (y_coord y) <> [] -> listed_at (y_coord y) a ->
  exists l c' down' e, ~ In (Return a) l /\ fresh_keys (mkeys (co_clients (y_coord y))) l /\
    d_run S G (y_coord y, []) (Leave a :: l) = Some (c', down') /\ In (Ev e) l /\ advances e.

(** ** Instance: an open round with the client D, which leaves *)
Definition adX : addr := [x58]%byte.
Lemma toy_left : exists y V, reach toy_suite toy_oracle toy_gob y V /\ co_status (y_coord y) = CO_MESSAGE /\ co_servers (y_coord y) <> [] /\
  co_clients (y_coord y) = [(3, adD)] /\
  (* strangers that come and go do no harm *)
  d_run toy_suite toy_gob (y_coord y, []) [Leave adX; Ev EVotePhase; Return adX; Leave adD] = Some (fst (begin_vote (y_coord y)), [adD]).
Proof.
  destruct (toy_run toy_mid2 (fun yv => (co_status (y_coord (fst yv)), match co_servers (y_coord (fst yv)) with [] => false | _ => true end,
    co_clients (y_coord (fst yv)))) (3, true, [(3, adD)])) as (y & V & _ & R & F); [vm_compute; reflexivity|].
  cbn [fst snd] in F. injection F as F1 F2 F3. exists y, V. split; [exact R|]. split; [exact F1|].
  split; [intros X; rewrite X in F2; discriminate|]. split; [exact F3|].
  cbn [d_run d_step fst snd co_step begin_vote]. unfold sent_all, to_clients. rewrite F3. reflexivity.
Qed.

Theorem C85_survives_refuted : ~ (forall S H G, suite_ok S -> gob_ok G -> survives S H G).
Proof.
  intros X. destruct toy_left as (y & V & R & _ & SV & CL & _).
  destruct (X toy_suite toy_oracle toy_gob toy_ok toy_gob_ok y V adD R SV) as (l & c' & d' & e & NR & FK & E & I & AD).
  { exists 3. rewrite CL. reflexivity. }
  cbn [d_run d_step fst snd] in E.
  destruct (C85_round_stands_still toy_suite toy_gob l (y_coord y) [adD] adD c' d') as (NA & _); auto.
  - exists 3. rewrite CL. reflexivity.
  - now left.
  - exact (NA e I AD).
Qed.

Example C85_instance : exists y V, reach toy_suite toy_oracle toy_gob y V /\ co_servers (y_coord y) <> [] /\ listed_at (y_coord y) adD /\
  fresh_keys (mkeys (co_clients (y_coord y))) [Ev (EMsg POST_BRIDGE [] adX (CoRand 0 [] (fun _ => []) [])); Leave adX] /\
  d_step toy_suite toy_gob (y_coord y, []) (Ev EVotePhase) <> None /\
  d_step toy_suite toy_gob (y_coord y, [adD]) (Ev EVotePhase) = None.
Proof.
  destruct toy_left as (y & V & R & _ & SV & CL & _). exists y, V.
  assert (LA : listed_at (y_coord y) adD) by (exists 3; rewrite CL; reflexivity).
  split; [exact R|]. split; [exact SV|]. split; [exact LA|]. split; [exact I|]. split.
  - cbn [d_step co_step begin_vote fst snd]. unfold sent_all. cbn. unfold to_clients. rewrite CL. discriminate.
  - apply C85_next_phase_stops with (a := adD); auto; [now left|exact I].
Qed.

Print Assumptions C85_next_phase_stops.
Print Assumptions C85_round_stands_still.
Print Assumptions C85_only_addressees.
Print Assumptions C85_others_do_not_matter.
Print Assumptions C85_clients_dial_coordinator.
Print Assumptions C85_survives_refuted.
