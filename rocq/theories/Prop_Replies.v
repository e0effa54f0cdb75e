(** C107: the order in which the servers' signatures arrive. *)
From Coq Require Import ZArith Znumtheory Lia List Bool Permutation.
From Coq Require Import Strings.Byte.
From Coq Require String.
From Verif Require Import ZMod Bytes Suite Spec Pedersen ElGamal FujiOkam Maps Codec Net Bridge Client Perm SimpleShuffle PairShuffle Server Coordinator History Prop_ElGamal Prop_Codec Prop_Bridge Prop_Assign Prop_Coord.
Import ListNotations.
Import String.StringSyntax.
Open Scope Z_scope.
Delimit Scope string_scope with str.

(** ** Specification *)
(** [e] is the reply of the server number [j]: it grants the assignments [l] and brings one
    signature for each. *)
Definition reply (S : suite) (G : gob) (c : coord) (l : list assignment) (j : nat) (sigs : list bytes) (e : event) : Prop :=
  exists p src rn ba bs, e = EMsg GOT_SIGNS p src rn /\ server_index c src = Some j /\ get_bool p "success"%str = Some true /\
    get_bytes p "assignments"%str = Some ba /\ dec_assignments S G ba = Some l /\
    get_bytes p "signatures"%str = Some bs /\ gdec_2d G bs = Some sigs /\ length sigs = length l.
(** The coordinator has signed the assignments [l] itself and waits for all servers. *)
Definition waits (S : suite) (c : coord) (l : list assignment) : Prop :=
  forall a, In a l -> mget (co_asigs c) (asAddr a) =
    Some (repeat None (length (co_servers c)) ++ [Some (co_sign S c (enc_assignment S a))], 1).
(** The client's message with the [k]-th assignment [a] and the signatures on it, those of
    the servers in the order of registration and then the coordinator's. *)
Definition all_sigs (S : suite) (c : coord) (sg : nat -> list bytes) (k : nat) (a : assignment) : list bytes :=
  map (fun j => nth k (sg j) []) (seq 0 (length (co_servers c))) ++ [co_sign S c (enc_assignment S a)].
Definition release (S : suite) (G : gob) (c : coord) (dst : addr) (a : assignment) (sigs : list bytes) : msg :=
  let bs := genc_2d G sigs in
  Msg dst GOT_SIGNS [("assignment"%str, VBytes (enc_assignment S a)); ("signatures"%str, VBytes bs);
    ("signature"%str, VBytes (co_sign S c (enc_assignment S a ++ bs)))] (co_addr c).
Fixpoint releases_from (S : suite) (G : gob) (c : coord) (dst : addr) (sg : nat -> list bytes) (k : nat) (l : list assignment) : list msg :=
  match l with [] => [] | a :: r => release S G c dst a (all_sigs S c sg k a) :: releases_from S G c dst sg (Datatypes.S k) r end.

(** ** The slots *)
Definition got (P : list nat) (j : nat) : bool := existsb (Nat.eqb j) P.
Definition col (sg : nat -> list bytes) (n : nat) (P : list nat) (k : nat) (own : bytes) : list (option bytes) :=
  map (fun j => if got P j then Some (nth k (sg j) []) else None) (seq 0 n) ++ [Some own].
Lemma set_nth_seq {A} (f : nat -> A) (r : list A) x : forall n s j, (j < n)%nat ->
  set_nth (map f (seq s n) ++ r) j x = Some (map (fun i => if Nat.eqb i (s + j) then x else f i) (seq s n) ++ r).
Proof.
  induction n as [|n IH]; intros s j L; [lia|]. cbn [seq map app]. destruct j as [|j]; cbn [set_nth].
  - rewrite Nat.add_0_r, Nat.eqb_refl. do 3 f_equal. apply map_ext_in. intros i I. apply in_seq in I.
    destruct (Nat.eqb_spec i s); [lia|reflexivity].
  - rewrite IH by lia. destruct (Nat.eqb_spec s (s + Datatypes.S j)); [lia|]. do 3 f_equal. apply map_ext. intros i.
    now replace (Datatypes.S s + j)%nat with (s + Datatypes.S j)%nat by lia.
Qed.
Lemma col_add sg n P k own j : (j < n)%nat ->
  set_nth (col sg n P k own) j (Some (nth k (sg j) [])) = Some (col sg n (j :: P) k own).
Proof.
  intros L. unfold col. rewrite set_nth_seq by assumption. do 2 f_equal. apply map_ext. intros i. cbn [plus].
  unfold got. cbn [existsb]. destruct (Nat.eqb_spec i j) as [->|N]; reflexivity.
Qed.
Lemma col_none sg n k own : col sg n [] k own = repeat None n ++ [Some own].
Proof. unfold col. f_equal. generalize 0%nat. induction n as [|n IH]; intros s; cbn [seq map repeat]; [reflexivity|]. now rewrite IH. Qed.
Lemma col_all sg n P k own : (forall j, (j < n)%nat -> In j P) ->
  map (fun o : option bytes => match o with Some b => b | None => [] end) (col sg n P k own) = map (fun j => nth k (sg j) []) (seq 0 n) ++ [own].
Proof.
  intros A. unfold col. rewrite map_app, map_map. f_equal. apply map_ext_in. intros j I. apply in_seq in I.
  replace (got P j) with true; [reflexivity|]. symmetry. apply existsb_exists. exists j. split; [apply A; lia|apply Nat.eqb_refl].
Qed.

Section Replies.
Context (S : suite) (G : gob) (sg : nat -> list bytes).

Lemma loop_mid c j rq own P cnt : (j < length (co_servers c))%nat -> cnt + 1 <> Z.of_nat (length (co_servers c)) + 1 ->
  forall l k sigs M out, NoDup (map asAddr l) ->
  (forall i, (i < length l)%nat -> nth_error sigs i = Some (nth (k + i) (sg j) [])) ->
  (forall i a, nth_error l i = Some a -> mget M (asAddr a) = Some (col sg (length (co_servers c)) P (k + i) (own a), cnt)) ->
  exists M', got_loop S G (set_asigs c M) j rq sigs l out = Some (set_asigs c M', out) /\
    (forall i a, nth_error l i = Some a -> mget M' (asAddr a) = Some (col sg (length (co_servers c)) (j :: P) (k + i) (own a), cnt + 1)) /\
    (forall x, ~ In x (map asAddr l) -> mget M' x = mget M x).
Proof.
  intros LJ NC. induction l as [|a l IH]; intros k sigs M out ND HS HM.
  - exists M. split; [reflexivity|]. split; [intros [|i] a E; discriminate|reflexivity].
  - cbn [got_loop]. rewrite (HS 0%nat) by (cbn; lia). unfold add_asig. cbn [co_asigs set_asigs].
    rewrite (HM 0%nat a eq_refl). rewrite Nat.add_0_r. rewrite col_add by assumption. unfold asigs_done at 1. cbn [co_asigs set_asigs co_servers].
    rewrite mget_mset_eq. destruct (Z.eqb_spec (cnt + 1) (Z.of_nat (length (co_servers c)) + 1)) as [X|_]; [contradiction|].
    set (M1 := mset M (asAddr a) (col sg (length (co_servers c)) (j :: P) k (own a), cnt + 1)).
    change (set_asigs (set_asigs c M) M1) with (set_asigs c M1). cbn [map] in ND. inversion ND as [|? ? NI ND']; subst.
    destruct (IH (Datatypes.S k) (tl sigs) M1 out ND') as (M' & E & F1 & F2).
    { intros i L. replace (Datatypes.S k + i)%nat with (k + Datatypes.S i)%nat by lia. rewrite <- (HS (Datatypes.S i)) by (cbn; lia). destruct sigs; [now destruct i|reflexivity]. }
    { intros i b Eb. unfold M1. rewrite mget_mset_ne.
      - replace (Datatypes.S k + i)%nat with (k + Datatypes.S i)%nat by lia. now apply HM.
      - intros X. apply NI. replace (asAddr a) with (asAddr b) by congruence. apply in_map. eapply nth_error_In. exact Eb. }
    exists M'. split; [exact E|]. split.
    + intros [|i] b Eb.
      * injection Eb as <-. rewrite F2 by assumption. unfold M1. rewrite mget_mset_eq. now rewrite Nat.add_0_r.
      * cbn [nth_error] in Eb. replace (k + Datatypes.S i)%nat with (Datatypes.S k + i)%nat by lia. now apply F1.
    + intros x Nx. cbn [map In] in Nx. rewrite F2 by tauto. unfold M1. apply mget_mset_ne. intuition congruence.
Qed.

Lemma loop_last c j dst P cnt : (j < length (co_servers c))%nat -> cnt + 1 = Z.of_nat (length (co_servers c)) + 1 ->
  (forall i, (i < length (co_servers c))%nat -> In i (j :: P)) ->
  forall l k sigs M B out, NoDup (map asAddr l) ->
  (forall i, (i < length l)%nat -> nth_error sigs i = Some (nth (k + i) (sg j) [])) ->
  (forall i a, nth_error l i = Some a -> mget M (asAddr a) = Some (col sg (length (co_servers c)) P (k + i) (co_sign S c (enc_assignment S a)), cnt)) ->
  exists M' B', got_loop S G (set_bridges (set_asigs c M) B) j (Some dst) sigs l out =
      Some (set_bridges (set_asigs c M') B', out ++ releases_from S G c dst sg k l) /\
    (forall i a, nth_error l i = Some a -> mget M' (asAddr a) = Some (col sg (length (co_servers c)) (j :: P) (k + i) (co_sign S c (enc_assignment S a)), cnt + 1)) /\
    (forall x, ~ In x (map asAddr l) -> mget M' x = mget M x) /\
    (forall x, mget B' x = if existsb (fun a => if keq (asAddr a) x then true else false) l
       then Some (match mget B x with Some (n, _) => n | None => None end, true) else mget B x).
Proof.
  intros LJ NC AL. induction l as [|a l IH]; intros k sigs M B out ND HS HM.
  - exists M, B. cbn [got_loop releases_from]. rewrite app_nil_r. split; [reflexivity|]. split; [intros [|i] a E; discriminate|]. now split.
  - cbn [got_loop]. rewrite (HS 0%nat) by (cbn; lia). unfold add_asig. cbn [co_asigs set_asigs set_bridges].
    rewrite (HM 0%nat a eq_refl). rewrite Nat.add_0_r. rewrite col_add by assumption. unfold asigs_done at 1. cbn [co_asigs set_asigs set_bridges co_servers].
    rewrite mget_mset_eq. rewrite NC, Z.eqb_refl. rewrite <- NC. cbn [co_bridges].
    set (M1 := mset M (asAddr a) (col sg (length (co_servers c)) (j :: P) k (co_sign S c (enc_assignment S a)), cnt + 1)).
    set (nym := match mget B (asAddr a) with Some (n, _) => n | None => None end).
    set (B1 := mset B (asAddr a) (nym, true)).
    match goal with |- context [get_asigs ?d (asAddr a)] => change d with (set_bridges (set_asigs c M1) B1);
      assert (GA : get_asigs (set_bridges (set_asigs c M1) B1) (asAddr a) = all_sigs S c sg k a) end.
    { unfold get_asigs. cbn [co_asigs set_asigs set_bridges]. unfold M1. rewrite mget_mset_eq. now apply col_all. }
    rewrite GA. unfold msg_got, get_bytes. cbn [lookup String.eqb Ascii.eqb Bool.eqb]. unfold send at 1.
    cbn [map] in ND. inversion ND as [|? ? NI ND']; subst.
    destruct (IH (Datatypes.S k) (tl sigs) M1 B1 (out ++ [release S G c dst a (all_sigs S c sg k a)]) ND') as (M' & B' & E & F1 & F2 & F3).
    { intros i L. replace (Datatypes.S k + i)%nat with (k + Datatypes.S i)%nat by lia. rewrite <- (HS (Datatypes.S i)) by (cbn; lia). destruct sigs; [now destruct i|reflexivity]. }
    { intros i b Eb. unfold M1. rewrite mget_mset_ne.
      - replace (Datatypes.S k + i)%nat with (k + Datatypes.S i)%nat by lia. now apply HM.
      - intros X. apply NI. replace (asAddr a) with (asAddr b) by congruence. apply in_map. eapply nth_error_In. exact Eb. }
    exists M', B'. split.
    { cbn [releases_from]. rewrite <- (app_assoc out [_]) in E. cbn [app] in E. etransitivity; [|exact E]. reflexivity. }
    split; [|split].
    + intros [|i] b Eb.
      * injection Eb as <-. rewrite F2 by assumption. unfold M1. rewrite mget_mset_eq. now rewrite Nat.add_0_r.
      * cbn [nth_error] in Eb. replace (k + Datatypes.S i)%nat with (Datatypes.S k + i)%nat by lia. now apply F1.
    + intros x Nx. cbn [map In] in Nx. rewrite F2 by tauto. unfold M1. apply mget_mset_ne. intuition congruence.
    + intros x. rewrite F3. cbn [existsb]. unfold B1. destruct (keq (asAddr a) x) as [E0|N].
      * subst x. cbn [orb]. rewrite mget_mset_eq. now destruct (existsb _ l).
      * cbn [orb]. rewrite mget_mset_ne by congruence. reflexivity.
Qed.
(** ** One reply *)
Lemma server_lt c src j : server_index c src = Some j -> (j < length (co_servers c))%nat.
Proof.
  unfold server_index. enough (X : forall l i, server_index_from i l src = Some j -> (j < i + length l)%nat) by (intros E; apply X in E; lia).
  induction l as [|[b q] l IH]; intros i E; cbn [server_index_from] in E; [discriminate|]. cbn [length]. destruct (keq b src).
  - injection E as <-. lia.
  - apply IH in E. lia.
Qed.
Lemma reply_step c l j sigs e : reply S G c l j sigs e -> forall a0 r nymR, l = a0 :: r -> asNymR a0 = Some nymR ->
  forall c', co_servers c' = co_servers c ->
  co_step S G c' e = got_loop S G c' j (match co_reqs c' with Some m => mget m nymR | None => None end) sigs l [].
Proof.
  intros (p & src & rn & ba & bs & -> & J & K & A1 & A2 & B1 & B2 & _) a0 r nymR EL EN c' ES. cbn [co_step].
  change (co_handle S G c' GOT_SIGNS p src rn) with (co_got S G c' p src). unfold co_got. rewrite K. cbn [negb].
  replace (server_index c' src) with (Some j) by (unfold server_index in *; rewrite ES; now symmetry).
  rewrite A1, A2, B1, B2, EL. cbn [nth_error]. now rewrite EN.
Qed.
End Replies.

Lemma exec_app S G l1 : forall c t1 c1 l2 t2 c2, exec S G c l1 = Some (t1, c1) -> exec S G c1 l2 = Some (t2, c2) ->
  exec S G c (l1 ++ l2) = Some (t1 ++ t2, c2).
Proof.
  induction l1 as [|e l1 IH]; intros c t1 c1 l2 t2 c2 E1 E2; cbn [app exec] in *.
  - injection E1 as <- <-. exact E2.
  - destruct (co_step S G c e) as [[d out]|]; [|discriminate]. destruct (exec S G d l1) as [[t d1]|] eqn:E; [|discriminate].
    injection E1 as <- <-. now rewrite (IH _ _ _ _ _ _ E E2).
Qed.
Lemma open_waits S l : forall c, NoDup (map asAddr l) ->
  exists A, open_assignments S c l = Some (set_asigs c A) /\
    (forall x, In x l -> mget A (asAddr x) = Some (repeat None (length (co_servers c)) ++ [Some (co_sign S c (enc_assignment S x))], 1)) /\
    (forall b, ~ In b (map asAddr l) -> mget A b = mget (co_asigs c) b).
Proof.
  induction l as [|a l IH]; intros c ND; cbn [open_assignments].
  - exists (co_asigs c). split; [now destruct c|]. split; [intros x []|reflexivity].
  - cbn [map] in ND. inversion ND as [|? ? NI ND']; subst x l0. rewrite open_one.
    match goal with |- context [open_assignments S ?c1 l] => destruct (IH c1 ND') as (A & EA & A1 & A2) end.
    exists A. split; [exact EA|]. cbn [co_asigs set_asigs] in A2. split.
    + intros x [<-|I]; [|now apply A1]. rewrite A2 by assumption. now rewrite mget_mset_eq.
    + intros b NB. cbn [map In] in NB. rewrite A2 by tauto. rewrite !mget_mset_ne by tauto. reflexivity.
Qed.

(** ** C107 *)
(** A request that makes the coordinator ask the servers leaves it waiting: it has signed
    the assignments itself and notes where the request came from. *)
Theorem C107_request_waits : forall S G c p src rn c' out,
  co_step S G c (EMsg REQUEST_BRIDGES p src rn) = Some (c', out) -> out <> [] ->
  exists a0 r nymR reqs, waits S c' (a0 :: r) /\ NoDup (map asAddr (a0 :: r)) /\
    (forall x, In x (a0 :: r) -> asNymR x = Some nymR) /\ co_reqs c' = Some reqs /\ mget reqs nymR = Some src /\
    co_servers c' <> [] /\ map mDst out = map fst (co_servers c') /\
    (forall m, In m out -> mType m = SIGN_ASSIGNMENTS /\ get_bytes (mParams m) "assignments"%str = Some (enc_assignments S G (a0 :: r))).
Proof.
  intros S G c p src rn c' out E NO. cbn [co_step] in E.
  change (co_handle S G c REQUEST_BRIDGES p src rn) with (co_request S G c p src rn) in E. unfold co_request in E. cbv zeta in E.
  destruct (get_int p _) as [ind|]; [|discriminate]. destruct (get_bytes p "signature"%str) as [sig|]; [|discriminate].
  destruct (get_bytes p "nym"%str) as [bn|]; [|discriminate]. destruct (dec_point S bn) as [nymR|]; [|discriminate].
  destruct (msg_request p) as [m|]; [|discriminate]. destruct (negb (eg_verify S m nymR sig (co_G c))); [injection E as <- <-; now contradiction NO|].
  destruct (verify_ind S G _ _ p _) as [ok|]; [|discriminate]. destruct (negb ok); [injection E as <- <-; now contradiction NO|].
  destruct (co_reqs c) as [reqs|]; [|discriminate]. unfold assign_bridges in E. cbn [co_bridges set_reqs] in E.
  destruct (get_bridges (Z.to_nat ind) (crBridges rn) (co_bridges c)) as [brs mp] eqn:E7.
  destruct (get_bridges_spec _ _ _ _ _ E7) as (ND & _).
  set (l := map (fun b : bytes * option Z => Assign (Some nymR) (fst b) (snd b)) brs) in *.
  assert (La : map asAddr l = map fst brs) by (unfold l; now rewrite map_map). rewrite <- La in ND.
  assert (Ln : forall x, In x l -> asNymR x = Some nymR) by (unfold l; intros x I; apply in_map_iff in I; now destruct I as (? & <- & _)).
  clearbody l. destruct l as [|a0 r]; [injection E as <- <-; now contradiction NO|].
  match type of E with context [open_assignments S ?d ?l] => destruct (open_waits S l d ND) as (A & EA & A1 & A2) end. rewrite EA in E.
  destruct (get_bytes p "FOCommd"%str) as [v1|]; [|discriminate]. destruct (get_bytes p "PCommd"%str) as [v2|]; [|discriminate].
  destruct (get_bytes p "PCommind"%str) as [v3|]; [|discriminate]. destruct (get_bytes p "rind"%str) as [v4|]; [|discriminate].
  destruct (get_bytes p "arg_nonneg"%str) as [v5|]; [|discriminate]. destruct (get_bytes p "arg_equal"%str) as [v6|]; [|discriminate].
  injection E as <- <-. exists a0, r, nymR, (mset reqs nymR src). split; [exact A1|]. split; [exact ND|]. split; [exact Ln|]. split; [reflexivity|].
  split; [apply mget_mset_eq|]. split; [|split].
  - intros X. apply NO. unfold to_servers. now rewrite X.
  - unfold to_servers. now rewrite map_map.
  - intros x I. apply in_map_iff in I. destruct I as (kv & <- & _). split; reflexivity.
Qed.

(** All servers have been asked to sign the assignments [l] (of different bridges), which are
    for the pseudonym [nymR], which asked from the address [dst].  In whatever order their
    replies arrive, nothing is sent before the last one, and then the client is sent every
    assignment once, with all signatures, those of the servers in the order of
    registration.  The state does not depend on the order either. *)
Theorem C107_release : forall S G c l sg ev ord a0 r nymR reqs dst,
  co_servers c <> [] -> waits S c l -> NoDup (map asAddr l) ->
  l = a0 :: r -> asNymR a0 = Some nymR -> co_reqs c = Some reqs -> mget reqs nymR = Some dst ->
  Permutation ord (seq 0 (length (co_servers c))) ->
  (forall j, In j ord -> reply S G c l j (sg j) (ev j)) ->
  exists t c', exec S G c (map ev ord) = Some (t, c') /\
    concat (map stOut t) = releases_from S G c dst sg 0 l /\
    (forall st, In st (removelast t) -> stOut st = []) /\
    (forall f, f <> FASigs -> f <> FBridges -> agree f c c') /\
    (forall k a, nth_error l k = Some a -> mget (co_asigs c') (asAddr a) =
       Some (map Some (all_sigs S c sg k a), Z.of_nat (length (co_servers c)) + 1)) /\
    (forall x, ~ In x (map asAddr l) -> mget (co_asigs c') x = mget (co_asigs c) x) /\
    (forall x, mget (co_bridges c') x = if existsb (fun a => if keq (asAddr a) x then true else false) l
       then Some (match mget (co_bridges c) x with Some (n, _) => n | None => None end, true) else mget (co_bridges c) x).
Proof.
  intros S G c l sg ev ord a0 r nymR reqs dst NE W ND EL EN ER ED PO RP.
  set (n := length (co_servers c)) in *.
  (* all but the last reply *)
  assert (MID : forall o P M, (forall j, In j o -> reply S G c l j (sg j) (ev j)) -> (length P + length o < n)%nat ->
    (forall k a, nth_error l k = Some a -> mget M (asAddr a) = Some (col sg n P k (co_sign S c (enc_assignment S a)), Z.of_nat (length P) + 1)) ->
    exists t M', exec S G (set_asigs c M) (map ev o) = Some (t, set_asigs c M') /\ (forall st, In st t -> stOut st = []) /\
      (forall k a, nth_error l k = Some a -> mget M' (asAddr a) = Some (col sg n (rev o ++ P) k (co_sign S c (enc_assignment S a)), Z.of_nat (length P + length o) + 1)) /\
      (forall x, ~ In x (map asAddr l) -> mget M' x = mget M x)).
  { induction o as [|j o IH]; intros P M R L HM.
    - exists [], M. split; [reflexivity|]. split; [intros st []|]. cbn [rev app length]. rewrite Nat.add_0_r. now split.
    - cbn [map exec length] in *. pose proof (R j (or_introl eq_refl)) as Rj.
      rewrite (reply_step S G c l j (sg j) (ev j) Rj a0 r nymR EL EN (set_asigs c M) eq_refl).
      pose proof Rj as (p & src & rn & ba & bs & _ & J & _ & _ & _ & _ & _ & LS). apply server_lt in J.
      destruct (loop_mid S G sg c j (match co_reqs (set_asigs c M) with Some m => mget m nymR | None => None end) (fun a => co_sign S c (enc_assignment S a)) P
        (Z.of_nat (length P) + 1) J ltac:(fold n; lia) l 0%nat (sg j) M [] ND) as (M1 & E1 & F1 & F2).
      + intros i Li. cbn [plus]. apply nth_error_nth'. lia.
      + intros i a Ea. cbn [plus]. now apply HM.
      + rewrite E1. destruct (IH (j :: P) M1) as (t & M' & E & Q & F3 & F4).
        * intros i I. apply R. now right.
        * cbn [length]. lia.
        * intros k a Ea. cbn [length]. rewrite (F1 k a Ea). cbn [plus]. do 2 f_equal. lia.
        * rewrite E. exists (Step (set_asigs c M) (ev j) (set_asigs c M1) [] :: t), M'. split; [reflexivity|]. split; [|split].
          -- intros st [<-|I]; [reflexivity|now apply Q].
          -- intros k a Ea. rewrite (F3 k a Ea). cbn [rev length]. rewrite <- app_assoc. cbn [app]. do 3 f_equal. lia.
          -- intros x Nx. rewrite F4, F2 by assumption. reflexivity. }
  assert (LO : length ord = n) by (rewrite (Permutation_length PO); apply seq_length).
  assert (N0 : n <> 0%nat) by (unfold n; now destruct (co_servers c)).
  destruct (exists_last (l := ord)) as (o & j & EO); [intros ->; cbn in LO; congruence|].
  assert (Lo : (length o + 1 = n)%nat) by (rewrite EO, app_length in LO; exact LO).
  destruct (MID o [] (co_asigs c)) as (t & M & E & Q & F1 & F2).
  { intros i I. apply RP. rewrite EO. apply in_app_iff. now left. }
  { cbn [length]. lia. }
  { intros k a Ea. rewrite col_none. apply W. eapply nth_error_In. exact Ea. }
  replace (set_asigs c (co_asigs c)) with c in E by (destruct c; reflexivity).
  pose proof (RP j ltac:(rewrite EO; apply in_app_iff; right; now left)) as Rj.
  pose proof Rj as (p & src & rn & ba & bs & _ & J & _ & _ & _ & _ & _ & LS). apply server_lt in J.
  rewrite app_nil_r in F1. cbn [length plus] in F1.
  assert (AL : forall i, (i < n)%nat -> In i (j :: rev o)).
  { intros i Li. assert (X : In i ord) by (apply (Permutation_in _ (Permutation_sym PO)), in_seq; lia).
    rewrite EO in X. apply in_app_iff in X. destruct X as [X|[<-|[]]]; [right; now apply in_rev in X|now left]. }
  destruct (loop_last S G sg c j dst (rev o) (Z.of_nat (length o) + 1) J ltac:(fold n; lia) AL l 0%nat (sg j) M (co_bridges c) [] ND) as (M' & B' & E1 & F3 & F4 & F5).
  { intros i Li. cbn [plus]. apply nth_error_nth'. lia. }
  { intros i a Ea. cbn [plus]. now apply F1. }
  assert (ES : co_step S G (set_asigs c M) (ev j) = Some (set_bridges (set_asigs c M') B', releases_from S G c dst sg 0 l)).
  { rewrite (reply_step S G c l j (sg j) (ev j) Rj a0 r nymR EL EN (set_asigs c M) eq_refl).
    change (co_reqs (set_asigs c M)) with (co_reqs c). rewrite ER, ED.
    replace (set_bridges (set_asigs c M) (co_bridges c)) with (set_asigs c M) in E1 by (destruct c; reflexivity). exact E1. }
  exists (t ++ [Step (set_asigs c M) (ev j) (set_bridges (set_asigs c M') B') (releases_from S G c dst sg 0 l)]), (set_bridges (set_asigs c M') B').
  split; [|split; [|split; [|split; [|split; [|split]]]]].
  - rewrite EO, map_app. apply exec_app with (set_asigs c M); [exact E|]. cbn [map exec]. now rewrite ES.
  - rewrite map_app, concat_app. cbn [map concat stOut]. rewrite app_nil_r. replace (concat (map stOut t)) with (@nil msg); [reflexivity|].
    clear -Q. induction t as [|st t IH]; [reflexivity|]. cbn [map concat]. rewrite (Q st) by now left. apply IH. intros s I. apply Q. now right.
  - rewrite removelast_last. exact Q.
  - intros f X1 X2. destruct f; try reflexivity; [now contradiction X1|now contradiction X2].
  - intros k a Ea. cbn [co_asigs set_bridges set_asigs]. rewrite (F3 k a Ea). cbn [plus]. f_equal. f_equal; [|lia].
    unfold col, all_sigs. rewrite map_app, map_map. f_equal. apply map_ext_in. intros i I. apply in_seq in I.
    replace (got (j :: rev o) i) with true; [reflexivity|]. symmetry. apply existsb_exists. exists i. split; [apply AL; lia|apply Nat.eqb_refl].
  - intros x Nx. cbn [co_asigs set_bridges set_asigs]. rewrite F4 by assumption. now apply F2.
  - exact F5.
Qed.

(** Two orders of the same replies: the same messages, and the same entries of all tables. *)
Theorem C107_order : forall S G c l sg ev ord ord' a0 r nymR reqs dst,
  co_servers c <> [] -> waits S c l -> NoDup (map asAddr l) ->
  l = a0 :: r -> asNymR a0 = Some nymR -> co_reqs c = Some reqs -> mget reqs nymR = Some dst ->
  Permutation ord (seq 0 (length (co_servers c))) -> Permutation ord' ord ->
  (forall j, In j ord -> reply S G c l j (sg j) (ev j)) ->
  exists t1 c1 t2 c2, exec S G c (map ev ord) = Some (t1, c1) /\ exec S G c (map ev ord') = Some (t2, c2) /\
    concat (map stOut t1) = concat (map stOut t2) /\
    (forall f, f <> FASigs -> f <> FBridges -> agree f c1 c2) /\
    (forall x, mget (co_asigs c1) x = mget (co_asigs c2) x) /\ (forall x, mget (co_bridges c1) x = mget (co_bridges c2) x).
Proof.
  intros S G c l sg ev ord ord' a0 r nymR reqs dst NE W ND EL EN ER ED P1 P2 RP.
  destruct (C107_release S G c l sg ev ord a0 r nymR reqs dst NE W ND EL EN ER ED P1 RP) as (t1 & c1 & E1 & O1 & _ & F1 & A1 & B1 & D1).
  destruct (C107_release S G c l sg ev ord' a0 r nymR reqs dst NE W ND EL EN ER ED (Permutation_trans P2 P1)) as (t2 & c2 & E2 & O2 & _ & F2 & A2 & B2 & D2).
  { intros j I. apply RP. now apply (Permutation_in _ P2). }
  exists t1, c1, t2, c2. split; [exact E1|]. split; [exact E2|]. split; [congruence|]. split; [|split].
  - intros f N1 N2. pose proof (F1 f N1 N2) as X1. pose proof (F2 f N1 N2) as X2. destruct f; cbn in *; congruence.
  - intros x. destruct (in_dec keq x (map asAddr l)) as [I|N]; [|now rewrite B1, B2].
    apply in_map_iff in I. destruct I as (a & <- & I). apply In_nth_error in I. destruct I as [k I]. now rewrite (A1 k a I), (A2 k a I).
  - intros x. now rewrite D1, D2.
Qed.

(** A concrete case: the two servers of [toy_setup] answer the client's request. *)
Definition toy_sg (j : nat) : list bytes := match j with O => [[x05]]%byte | _ => [[x06]]%byte end.
Definition toy_ev (j : nat) : event := match j with O => toy_got adA [x05]%byte | _ => toy_got adB [x06]%byte end.
Example C107_instance : exists t c0 c p src out, exec toy_suite toy_gob toy_c0 toy_setup = Some (t, c0) /\
  toy_request = EMsg REQUEST_BRIDGES p src toy_rand /\ co_step toy_suite toy_gob c0 toy_request = Some (c, out) /\ out <> [] /\
  length (co_servers c) = 2%nat /\ waits toy_suite c [toy_assign] /\ asNymR toy_assign = Some 12 /\
  (exists reqs, co_reqs c = Some reqs /\ mget reqs 12 = Some src) /\
  (forall j, In j [1; 0]%nat -> reply toy_suite toy_gob c [toy_assign] j (toy_sg j) (toy_ev j)) /\
  Permutation [1; 0]%nat (seq 0 2) /\
  exists t' c', exec toy_suite toy_gob c (map toy_ev [1; 0]%nat) = Some (t', c') /\ length (concat (map stOut t')) = 1%nat.
Proof.
  do 6 eexists. split; [vm_compute; reflexivity|]. split; [vm_compute; reflexivity|]. split; [vm_compute; reflexivity|]. split; [discriminate|].
  split; [vm_compute; reflexivity|]. split. { intros a [<-|[]]. vm_compute. reflexivity. }
  split; [vm_compute; reflexivity|]. split. { eexists. split; vm_compute; reflexivity. }
  split.
  { intros j [<-|[<-|[]]]; (do 5 eexists; split; [reflexivity|]; split; [vm_compute; reflexivity|]; split; [reflexivity|]; split; [reflexivity|];
      split; [vm_compute; reflexivity|]; split; [reflexivity|]; split; [vm_compute; reflexivity|reflexivity]). }
  split; [apply perm_swap|]. do 2 eexists. split; vm_compute; reflexivity.
Qed.

Print Assumptions C107_request_waits.
Print Assumptions C107_release.
Print Assumptions C107_order.
