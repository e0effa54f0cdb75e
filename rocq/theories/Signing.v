(** The collection of signatures on assignments in a whole session: what the coordinator,
    the servers, the messages in flight and the clients hold, as long as no bridge is
    posted while signatures on it are still on their way. *)
From Coq Require Import ZArith Znumtheory Lia List Bool Permutation.
From Coq Require Import Strings.Byte.
From Coq Require String.
From Verif Require Import ZMod Bytes Suite Spec Pedersen ElGamal FujiOkam Equality Codec Maps Net Bridge Client
  Perm SimpleShuffle PairShuffle Server Coordinator History System Chain Prop_Pedersen Prop_Codec Prop_Topology Prop_Chain Round RoundInv
  Prop_Coord Prop_Assign Prop_Round Session.
Import ListNotations.
Import String.StringSyntax.
Open Scope Z_scope.
Delimit Scope string_scope with str.

(** ** Specification *)
(** The assignments a message of the signing protocol is about. *)
Definition names (S : suite) (G : gob) (m : msg) : list assignment :=
  if (mType m =? SIGN_ASSIGNMENTS) || (mType m =? GOT_SIGNS) then
    match get_bytes (mParams m) "assignments"%str with
    | Some b => match dec_assignments S G b with Some l => l | None => [] end
    | None => []
    end
  else [].
(** No bridge is posted while signatures on an assignment of it are on their way. *)
Definition post_calm (S : suite) (G : gob) (y : sys) (a : action) : Prop :=
  match a with
  | ADeliver i _ _ _ => forall m, nth_error (y_msgs y) i = Some m -> mType m = POST_BRIDGE ->
      forall m' x, In m' (y_msgs y) -> In x (names S G m') -> get_str (mParams m) "bridge_addr"%str <> Some (asAddr x)
  | _ => True
  end.
Inductive calm_reach (S : suite) (H : oracle) (G : gob) : sys -> ledger -> Prop :=
| cr_start self a fb trap gammas l y1 y2 :
    Forall (conf_act S) l -> sys_run S H G (init_sys S self a fb trap gammas) l = Some y1 ->
    y_msgs y1 = [] -> co_servers (y_coord y1) <> [] ->
    sys_step S H G y1 (ALoop EConfigure) = Some y2 -> calm_reach S H G y2 []
| cr_step y V a y' :
    calm_reach S H G y V -> guard S y V a -> post_calm S G y a -> sys_step S H G y a = Some y' ->
    calm_reach S H G y' (ledger_step S y V a).

(** An assignment whose two pseudonyms are group elements. *)
Definition good (S : suite) (x : assignment) : Prop := assignment_ok S x /\ asNym x <> None /\ asNymR x <> None.

Section Signing.
Context (S : suite) (OK : suite_ok S) (H : oracle) (G : gob) (GOK : gob_ok G).

Lemma calm_is_reach y V : calm_reach S H G y V -> reach S H G y V.
Proof. induction 1; [eapply r_start; eassumption|now eapply r_step]. Qed.

(** ** The table of signatures and the replies outstanding *)
Context (K : addr -> Z) (cst : costatic) (sl : list (addr * Z)).
Definition ssig (a : addr) (x : assignment) : bytes := eg_sign S (example_nonce S) (enc_assignment S x) (K a) (Some pt_new).
Definition csig (x : assignment) : bytes := eg_sign S (example_nonce S) (enc_assignment S x) (cs_priv cst) (Some pt_new).
Definition full (x : assignment) : list bytes := map (fun s : addr * Z => ssig (fst s) x) sl ++ [csig x].

(** Outstanding: the party whose signatures are missing, and on what. *)
Definition pend := list (addr * list assignment).
Definition on (b : bytes) (l : list assignment) : bool := existsb (fun x => if keq (asAddr x) b then true else false) l.
Definition hit (a : addr) (b : bytes) (p : addr * list assignment) : nat :=
  if keq (fst p) a then if on b (snd p) then 1%nat else 0%nat else 0%nat.
Definition cnt (a : addr) (b : bytes) (P : pend) : nat := list_sum (map (hit a b) P).
Definition slot (l : list (option bytes)) (j : nat) : nat :=
  match nth_error l j with Some (Some _) => 1%nat | _ => 0%nat end.

Record entry_is (P : pend) (b : bytes) (ss : list (option bytes)) (n : Z) (x : assignment) : Prop := {
  n_addr : asAddr x = b;
  n_ok : good S x;
  n_len : length ss = (length sl + 1)%nat;
  n_cnt : n = Z.of_nat (filled ss);
  n_own : nth_error ss (length sl) = Some (Some (csig x));
  n_sig : forall i a g, nth_error (map fst sl) i = Some a -> nth_error ss i = Some (Some g) -> g = ssig a x;
  n_same : forall a l x', In (a, l) P -> In x' l -> asAddr x' = b -> x' = x
}.
Record signs (A : amap bytes (list (option bytes) * Z)) (B : amap bytes (option Z * bool)) (P : pend) : Prop := {
  q_ent : forall b ss n, mget A b = Some (ss, n) -> exists x, entry_is P b ss n x;
  q_some : forall a l x, In (a, l) P -> In x l -> mget A (asAddr x) <> None;
  q_nd : forall a l, In (a, l) P -> NoDup (map asAddr l);
  q_cnt : forall j a b ss n, nth_error (map fst sl) j = Some a -> mget A b = Some (ss, n) -> (cnt a b P + slot ss j <= 1)%nat;
  q_free : forall a l x nym, In (a, l) P -> In x l -> mget B (asAddr x) <> Some (nym, false)
}.

Lemma on_in b l : on b l = true <-> In b (map asAddr l).
Proof.
  unfold on. rewrite existsb_exists, in_map_iff. split.
  - intros (x & I & E). destruct (keq (asAddr x) b); [|discriminate]. now exists x.
  - intros (x & E & I). exists x. split; [assumption|]. destruct (keq (asAddr x) b); [reflexivity|contradiction].
Qed.
Lemma cnt_perm a b P P' : Permutation P P' -> cnt a b P = cnt a b P'.
Proof.
  intros HP. unfold cnt. assert (X : Permutation (map (hit a b) P) (map (hit a b) P')) by (now apply Permutation_map).
  clear HP. induction X as [|x l l' _ IH|x z l|l l' l'' _ IH1 _ IH2]; unfold list_sum in *; cbn [fold_right]; lia.
Qed.

Lemma signs_weaken A B P A' B' P' : signs A B P ->
  A' = A -> (forall b nym, mget B' b = Some (nym, false) -> mget B b = Some (nym, false)) ->
  (forall p, In p P' -> snd p = [] \/ In p P) -> (forall a b, cnt a b P' <= cnt a b P)%nat -> signs A' B' P'.
Proof.
  intros [X1 X2 X3 X4 X5] -> HB HI HC.
  assert (IN : forall a l x, In (a, l) P' -> In x l -> In (a, l) P).
  { intros a l x I J. destruct (HI _ I) as [E|E]; [|assumption]. cbn [snd] in E. subst l. destruct J. }
  constructor.
  - intros b ss n M. destruct (X1 b ss n M) as (x & [N1 N2 N3 N4 N5 N6 N7]). exists x. constructor; try assumption.
    intros a l x' I J E. apply (N7 a l x'); [eapply IN; eassumption|assumption|assumption].
  - intros a l x I J. apply (X2 a l x); [eapply IN; eassumption|assumption].
  - intros a l I. destruct (HI _ I) as [E|E]; [|now apply (X3 a)]. cbn [snd] in E. subst l. constructor.
  - intros j a b ss n Ha M. specialize (X4 j a b ss n Ha M). specialize (HC a b). lia.
  - intros a l x nym I J M. apply (X5 a l x nym); [eapply IN; eassumption|assumption|now apply HB].
Qed.

Lemma signs_perm A B P P' : Permutation P P' -> signs A B P -> signs A B P'.
Proof.
  intros HP Q. eapply signs_weaken; [exact Q|reflexivity|auto| |].
  - intros p I. right. eapply Permutation_in; [apply Permutation_sym; exact HP|exact I].
  - intros a b. rewrite (cnt_perm a b P P' HP). lia.
Qed.
Lemma signs_drop A B p P : signs A B (p :: P) -> signs A B P.
Proof.
  intros Q. eapply signs_weaken; [exact Q|reflexivity|auto| |].
  - intros q I. right. now right.
  - intros a b. unfold cnt, list_sum. cbn [map fold_right]. lia.
Qed.
Lemma hit_nil a b c : hit a b (c, []) = 0%nat.
Proof. unfold hit. cbn [fst snd on existsb]. destruct (keq c a); reflexivity. Qed.
Lemma cnt_plain a b l : Forall (fun p : addr * list assignment => snd p = []) l -> cnt a b l = 0%nat.
Proof.
  induction 1 as [|[c l0] l E F IH]; [reflexivity|]. cbn [snd] in E. subst l0. unfold cnt, list_sum in *. cbn [map fold_right]. rewrite hit_nil.
  exact IH.
Qed.
Lemma cnt_app a b P P' : cnt a b (P ++ P') = (cnt a b P + cnt a b P')%nat.
Proof. unfold cnt. rewrite map_app, list_sum_app. reflexivity. Qed.
Lemma signs_plain A B P l : Forall (fun p : addr * list assignment => snd p = []) l -> signs A B P -> signs A B (P ++ l).
Proof.
  intros F Q. eapply signs_weaken; [exact Q|reflexivity|auto| |].
  - intros p I. apply in_app_or in I. destruct I as [I|I]; [now right|]. left. rewrite Forall_forall in F. now apply F.
  - intros a b. rewrite cnt_app, (cnt_plain _ _ _ F). lia.
Qed.

(** ** Opening the entries of new assignments *)
Lemma open_spec l : forall c, co_servers c = sl -> co_static c = cst -> NoDup (map asAddr l) ->
  exists A, open_assignments S c l = Some (set_asigs c A) /\
    (forall x, In x l -> mget A (asAddr x) = Some (repeat None (length sl) ++ [Some (csig x)], 1)) /\
    (forall b, ~ In b (map asAddr l) -> mget A b = mget (co_asigs c) b).
Proof.
  induction l as [|a l IH]; intros c ES ET ND; cbn [open_assignments].
  - exists (co_asigs c). split; [now destruct c|]. split; [intros x []|reflexivity].
  - cbn [map] in ND. inversion ND as [|? ? NI ND']; subst x l0. rewrite open_one. match goal with |- context [open_assignments S ?c1 l] => destruct (IH c1 ES ET ND') as (A & EA & A1 & A2) end.
    exists A. split; [exact EA|]. cbn [co_asigs set_asigs] in A2. split.
    + intros x [<-|I]; [|now apply A1]. rewrite A2 by assumption. rewrite mget_mset_eq. rewrite ES. unfold co_sign, csig, co_priv. rewrite ET. reflexivity.
    + intros b NB. cbn [map In] in NB. rewrite A2 by tauto. rewrite !mget_mset_ne by tauto. reflexivity.
Qed.

Lemma cnt_none a b P : (forall l, In (a, l) P -> ~ In b (map asAddr l)) -> cnt a b P = 0%nat.
Proof.
  induction P as [|[c l] P IH]; intros N; [reflexivity|]. unfold cnt, list_sum in *. cbn [map fold_right].
  assert (E : hit a b (c, l) = 0%nat).
  { unfold hit. cbn [fst snd]. destruct (keq c a) as [->|]; [|reflexivity]. destruct (on b l) eqn:EO; [|reflexivity].
    apply on_in in EO. destruct (N l (or_introl eq_refl) EO). }
  rewrite E. apply IH. intros l0 I. apply N. now right.
Qed.

Lemma nth_open x i : (i < length sl)%nat -> nth_error (repeat None (length sl) ++ [Some (csig x)]) i = Some None.
Proof.
  intros L. rewrite nth_error_app1 by (now rewrite repeat_length). generalize (length sl) L. clear L. intros n. revert i.
  induction n as [|n IH]; intros [|i] L; cbn; try lia; [reflexivity|]. apply IH. lia.
Qed.

Lemma signs_open A B B' P l A' : signs A B P -> NoDup (map asAddr l) -> NoDup (map fst sl) -> (forall x, In x l -> good S x) ->
  (forall x, In x l -> mget A' (asAddr x) = Some (repeat None (length sl) ++ [Some (csig x)], 1)) ->
  (forall b, ~ In b (map asAddr l) -> mget A' b = mget A b) ->
  (forall x, In x l -> exists nym, mget B (asAddr x) = Some (nym, false)) ->
  (forall b nym, mget B' b = Some (nym, false) -> mget B b = Some (nym, false) /\ ~ In b (map asAddr l)) ->
  signs A' B' (P ++ map (fun s : addr * Z => (fst s, l)) sl).
Proof.
  intros [X1 X2 X3 X4 X5] ND NS AO A1 A2 HB HB'.
  assert (NP : forall x a l' x', In x l -> In (a, l') P -> In x' l' -> asAddr x' <> asAddr x).
  { intros x a l' x' Ix Ip Ix' E. destruct (HB x Ix) as (nym & Eb). apply (X5 a l' x' nym Ip Ix'). now rewrite E. }
  assert (IP : forall a l', In (a, l') (P ++ map (fun s : addr * Z => (fst s, l)) sl) -> In (a, l') P \/ l' = l).
  { intros a l' I. apply in_app_or in I. destruct I as [I|I]; [now left|]. apply in_map_iff in I. destruct I as (s & E & _). right. congruence. }
  assert (UN : forall x x', In x l -> In x' l -> asAddr x' = asAddr x -> x' = x).
  { clear - ND. induction l as [|a l IH]; intros x x' I I' E; [destruct I|]. cbn [map] in ND. inversion ND as [|? ? NI ND']; subst.
    destruct I as [<-|I], I' as [<-|I']; [reflexivity| | |now apply IH]; exfalso; apply NI; [rewrite <- E|rewrite E]; now apply in_map. }
  constructor.
  - intros b ss n M. destruct (in_dec keq b (map asAddr l)) as [Ib|Nb].
    + apply in_map_iff in Ib. destruct Ib as (x & <- & Ix). rewrite (A1 x Ix) in M. injection M as <- <-. exists x. constructor.
      * reflexivity.
      * now apply AO.
      * rewrite app_length, repeat_length. reflexivity.
      * rewrite filled_app, filled_repeat. reflexivity.
      * rewrite nth_error_app2 by (rewrite repeat_length; lia). rewrite repeat_length, Nat.sub_diag. reflexivity.
      * intros i a g Hi Hg. rewrite nth_open in Hg; [discriminate|]. rewrite <- (map_length fst). apply nth_error_Some. congruence.
      * intros a l' x' I J E. destruct (IP a l' I) as [I1| ->]; [|now apply UN]. destruct (NP x a l' x' Ix I1 J E).
    + rewrite A2 in M by assumption. destruct (X1 b ss n M) as (x & [N1 N2 N3 N4 N5 N6 N7]). exists x. constructor; try assumption.
      intros a l' x' I J E. destruct (IP a l' I) as [I1| ->]; [now apply (N7 a l')|]. exfalso. apply Nb. rewrite <- E. now apply in_map.
  - intros a l' x I J. destruct (in_dec keq (asAddr x) (map asAddr l)) as [Ib|Nb].
    + apply in_map_iff in Ib. destruct Ib as (x0 & E & Ix). rewrite <- E, (A1 x0 Ix). discriminate.
    + rewrite A2 by assumption. destruct (IP a l' I) as [I1| ->]; [now apply (X2 a l')|]. exfalso. apply Nb. now apply in_map.
  - intros a l' I. destruct (IP a l' I) as [I1| ->]; [now apply (X3 a)|assumption].
  - intros j a b ss n Ha M. rewrite cnt_app. destruct (in_dec keq b (map asAddr l)) as [Ib|Nb].
    + apply in_map_iff in Ib. destruct Ib as (x & <- & Ix). rewrite (A1 x Ix) in M. injection M as <- <-.
      rewrite (cnt_none a (asAddr x) P).
      2:{ intros l' I J. apply in_map_iff in J. destruct J as (x' & E & J). apply (NP x a l' x' Ix I J E). }
      unfold slot. rewrite nth_open by (rewrite <- (map_length fst); apply nth_error_Some; congruence).
      assert (Z1 : (cnt a (asAddr x) (map (fun s : addr * Z => (fst s, l)) sl) <= 1)%nat); [|lia].
      clear - NS. induction sl as [|s r IH]; [cbn; lia|]. cbn [map] in NS. inversion NS as [|? ? NI NS']; subst. unfold cnt, list_sum in *. cbn [map fold_right].
      unfold hit at 1. cbn [fst snd]. destruct (keq (fst s) a) as [E|]; [|specialize (IH NS'); cbn [Nat.add]; exact IH].
      change (fold_right Nat.add 0%nat (map (hit a (asAddr x)) (map (fun s : addr * Z => (fst s, l)) r)))
        with (cnt a (asAddr x) (map (fun s : addr * Z => (fst s, l)) r)).
      rewrite cnt_none; [destruct (on (asAddr x) l); lia|]. intros l' I. exfalso. apply NI. apply in_map_iff in I. destruct I as (s' & E' & I').
      injection E' as E' _. rewrite E, <- E'. now apply in_map.
    + rewrite A2 in M by assumption. specialize (X4 j a b ss n Ha M). rewrite (cnt_none a b (map _ sl)); [lia|].
      intros l' I. apply in_map_iff in I. destruct I as (s & [= _ <-] & _). assumption.
  - intros a l' x nym I J M. destruct (HB' _ _ M) as [M1 M2]. destruct (IP a l' I) as [I1| ->]; [now apply (X5 a l' x nym)|].
    apply M2. now apply in_map.
Qed.

(** ** Handling a server's signatures *)
Lemma nth_error_all {A} (l l' : list A) : (forall i, nth_error l i = nth_error l' i) -> l = l'.
Proof.
  revert l'. induction l as [|x l IH]; intros [|x' l'] E; [reflexivity|specialize (E 0%nat); discriminate|specialize (E 0%nat); discriminate|].
  f_equal; [specialize (E 0%nat); cbn in E; congruence|]. apply IH. intros i. apply (E (Datatypes.S i)).
Qed.
Definition flat (ss : list (option bytes)) : list bytes := map (fun o : option bytes => match o with Some b => b | None => [] end) ss.
Lemma flat_full P b ss n x : entry_is P b ss n x -> filled ss = length ss -> flat ss = full x.
Proof.
  intros [N1 N2 N3 N4 N5 N6 N7] F. apply nth_error_all. intros i. unfold flat, full.
  destruct (Nat.lt_ge_cases i (length ss)) as [L|L].
  - destruct (filled_all ss F i L) as (s & Es).
    assert (X : nth_error (flat ss) i = Some s) by (unfold flat; now rewrite (map_nth_error _ i ss Es)).
    unfold flat in X. rewrite X. rewrite N3 in L. destruct (Nat.eq_dec i (length sl)) as [->|Ni].
    + rewrite nth_error_app2 by (rewrite map_length; lia). rewrite map_length, Nat.sub_diag. rewrite N5 in Es. injection Es as <-. reflexivity.
    + rewrite nth_error_app1 by (rewrite map_length; lia). destruct (nth_error sl i) as [[a pk]|] eqn:Ei.
      * rewrite (map_nth_error _ i sl Ei). cbn [fst]. f_equal. apply (N6 i a s); [|assumption]. now rewrite (map_nth_error _ i sl Ei).
      * apply nth_error_None in Ei. lia.
  - rewrite (proj2 (nth_error_None _ _)) by (rewrite map_length; lia).
    symmetry. apply nth_error_None. rewrite app_length, map_length. cbn. lia.
Qed.

(** A message that hands an assignment to a client. *)
Definition rel_ok (m : msg) : Prop := exists x bs, good S x /\ gdec_2d G bs = Some (full x) /\
  mParams m = [("assignment"%str, VBytes (enc_assignment S x)); ("signatures"%str, VBytes bs);
    ("signature"%str, VBytes (eg_sign S (example_nonce S) (enc_assignment S x ++ bs) (cs_priv cst) (Some pt_new)))].

Lemma signs_add A B a l x P j ss n ss' : nth_error (map fst sl) j = Some a ->
  signs A B ((a, x :: l) :: P) -> mget A (asAddr x) = Some (ss, n) -> set_nth ss j (Some (ssig a x)) = Some ss' ->
  entry_is ((a, x :: l) :: P) (asAddr x) ss' (n + 1) x /\ signs (mset A (asAddr x) (ss', n + 1)) B ((a, l) :: P).
Proof.
  intros Ha [X1 X2 X3 X4 X5] M E. destruct (X1 _ _ _ M) as (x0 & N).
  assert (x = x0) by (apply (n_same _ _ _ _ _ N a (x :: l)); [now left|now left|reflexivity]). subst x0.
  pose proof (X4 j a (asAddr x) ss n Ha M) as C. unfold cnt, list_sum in C. cbn [map fold_right] in C.
  assert (HX : hit a (asAddr x) (a, x :: l) = 1%nat).
  { unfold hit. cbn [fst snd]. destruct (keq a a); [|contradiction]. replace (on (asAddr x) (x :: l)) with true; [reflexivity|].
    symmetry. apply on_in. now left. }
  rewrite HX in C. assert (SZ : slot ss j = 0%nat) by lia.
  assert (EM : forall s, nth_error ss j <> Some (Some s)) by (intros s Es; unfold slot in SZ; rewrite Es in SZ; discriminate).
  destruct (set_nth_spec _ _ _ _ E) as [Lj Nj].
  pose proof (X3 a (x :: l) (or_introl eq_refl)) as ND0. cbn [map] in ND0. inversion ND0 as [|? ? NI' ND']; subst.
  assert (JL : (j < length sl)%nat) by (rewrite <- (map_length fst); apply nth_error_Some; congruence).
  assert (N' : entry_is ((a, x :: l) :: P) (asAddr x) ss' (n + 1) x).
  { destruct N as [N1 N2 N3 N4 N5 N6 N7]. constructor; try assumption.
    - now rewrite (set_nth_length _ _ _ _ E).
    - rewrite (filled_set _ _ _ _ E EM). lia.
    - rewrite Nj. destruct (Nat.eqb_spec (length sl) j); [lia|assumption].
    - intros i a' g Hi Hg. rewrite Nj in Hg. destruct (Nat.eqb_spec i j) as [->|Nij]; [|now apply (N6 i)]. congruence. }
  assert (IN : forall a' l' x', In (a', l') ((a, l) :: P) -> In x' l' -> exists l'', In (a', l'') ((a, x :: l) :: P) /\ In x' l'').
  { intros a' l' x' [[= <- <-]|I] J; [exists (x :: l); split; [now left|now right]|exists l'; split; [now right|assumption]]. }
  split; [assumption|]. constructor.
  - intros b sb nb Mb. rewrite mget_mset in Mb. destruct (keq b (asAddr x)) as [->|Nb].
    + injection Mb as <- <-. exists x. destruct N' as [N1 N2 N3 N4 N5 N6 N7]. constructor; try assumption.
      intros a' l' x' I J E'. destruct (IN a' l' x' I J) as (l'' & I' & J'). now apply (N7 a' l'').
    + destruct (X1 _ _ _ Mb) as (z & [N1 N2 N3 N4 N5 N6 N7]). exists z. constructor; try assumption.
      intros a' l' x' I J E'. destruct (IN a' l' x' I J) as (l'' & I' & J'). now apply (N7 a' l'').
  - intros a' l' x' I J. rewrite mget_mset. destruct (keq (asAddr x') (asAddr x)); [discriminate|].
    destruct (IN a' l' x' I J) as (l'' & I' & J'). now apply (X2 a' l'').
  - intros a' l' [[= <- <-]|I]; [assumption|]. apply (X3 a'). now right.
  - intros j' a' b sb nb Ha' Mb. unfold cnt, list_sum. cbn [map fold_right]. rewrite mget_mset in Mb. destruct (keq b (asAddr x)) as [->|Nb].
    + injection Mb as <- <-. pose proof (X4 j' a' (asAddr x) ss n Ha' M) as C'. unfold cnt, list_sum in C'. cbn [map fold_right] in C'.
      assert (HL : hit a' (asAddr x) (a, l) = 0%nat).
      { unfold hit. cbn [fst snd]. destruct (keq a a'); [|reflexivity]. destruct (on (asAddr x) l) eqn:EO; [|reflexivity]. apply on_in in EO. contradiction. }
      rewrite HL. unfold slot in *. rewrite Nj. destruct (Nat.eqb_spec j' j) as [->|Nj'].
      * assert (a' = a) by congruence. subst a'. rewrite HX in C'. lia.
      * lia.
    + pose proof (X4 j' a' b sb nb Ha' Mb) as C'. unfold cnt, list_sum in C'. cbn [map fold_right] in C'.
      assert (HL : hit a' b (a, l) = hit a' b (a, x :: l)); [|lia].
      unfold hit. cbn [fst snd]. unfold on. cbn [existsb]. destruct (keq (asAddr x) b); [congruence|]. reflexivity.
  - intros a' l' x' nym I J. destruct (IN a' l' x' I J) as (l'' & I' & J'). now apply (X5 a' l'').
Qed.

Lemma got_signs j a rq : nth_error (map fst sl) j = Some a -> forall l c sigs out0 c' out P,
  got_loop S G c j rq sigs l out0 = Some (c', out) -> co_servers c = sl -> co_static c = cst -> sigs = map (ssig a) l ->
  signs (co_asigs c) (co_bridges c) ((a, l) :: P) ->
  signs (co_asigs c') (co_bridges c') P /\ co_reqs c' = co_reqs c /\
  (forall m, In m out -> In m out0 \/ (rel_ok m /\ mType m = GOT_SIGNS /\ rq = Some (mDst m))).
Proof.
  intros Ha. induction l as [|x l IH]; intros c sigs out0 c' out P E ES ET EG Q; cbn [got_loop] in E.
  - injection E as <- <-. split; [eapply signs_drop; exact Q|]. split; [reflexivity|]. tauto.
  - subst sigs. cbn [map nth_error tl] in E.
    destruct (add_asig c (asAddr x) j (ssig a x)) as [c1|] eqn:EA; [|discriminate]. unfold add_asig in EA.
    destruct (mget (co_asigs c) (asAddr x)) as [[ss n]|] eqn:EM; [|discriminate].
    destruct (set_nth ss j (Some (ssig a x))) as [ss'|] eqn:ESN; [|discriminate]. injection EA as <-.
    destruct (signs_add _ _ _ _ _ _ _ _ _ _ Ha Q EM ESN) as [N Q'].
    set (c1 := set_asigs c (mset (co_asigs c) (asAddr x) (ss', n + 1))) in *.
    destruct (asigs_done c1 (asAddr x)) eqn:ED.
    + cbv zeta in E. set (c2 := set_bridges c1 _) in *. set (pm := [("assignment"%str, _); _]) in *.
      destruct (msg_got pm) as [mg|] eqn:EMG; [|discriminate].
      destruct (send (co_addr c) rq GOT_SIGNS (pm ++ [("signature"%str, VBytes (co_sign S c2 mg))])) as [ms|] eqn:ESD; [|discriminate].
      assert (Q2 : signs (co_asigs c2) (co_bridges c2) ((a, l) :: P)).
      { eapply signs_weaken; [exact Q'|reflexivity| |intros p I; now right|lia].
        intros b nym. unfold c2, c1. cbn [co_bridges set_bridges set_asigs]. rewrite mget_mset. destruct (keq b (asAddr x)); [discriminate|auto]. }
      destruct (IH c2 _ _ _ _ P E ES ET eq_refl Q2) as (R1 & R2 & R3). split; [assumption|]. split; [exact R2|].
      intros m Im. destruct (R3 m Im) as [I|I]; [|now right]. apply in_app_or in I. destruct I as [I|[<-|[]]]; [now left|].
      right. unfold send in ESD. destruct rq as [d|]; [|discriminate]. injection ESD as <-.
      split; [|split; reflexivity].
      pose proof (n_cnt _ _ _ _ _ N) as NC. pose proof (n_len _ _ _ _ _ N) as NL.
      assert (GA : get_asigs c2 (asAddr x) = full x).
      { unfold get_asigs, c2, c1. cbn [co_asigs set_bridges set_asigs]. rewrite mget_mset_eq. apply (flat_full _ _ _ _ _ N).
        unfold asigs_done, c1 in ED. cbn [co_asigs set_asigs co_servers] in ED. rewrite mget_mset_eq, ES in ED. apply Z.eqb_eq in ED. lia. }
      exists x, (genc_2d G (full x)). split; [exact (n_ok _ _ _ _ _ N)|]. split; [apply (g_2d G GOK)|].
      subst pm. rewrite GA in EMG |- *. cbn [mParams app].
      unfold msg_got in EMG. cbv [get_bytes lookup String.eqb Ascii.eqb Bool.eqb] in EMG. injection EMG as <-.
      unfold co_sign, co_priv. change (co_static c2) with (co_static c). rewrite ET. reflexivity.
    + destruct (IH c1 _ _ _ _ P E ES ET eq_refl Q') as (R1 & R2 & R3). split; [assumption|]. split; [exact R2|]. exact R3.
Qed.

(** ** The whole system *)
Definition party (m : msg) : addr := if mType m =? SIGN_ASSIGNMENTS then mDst m else mSrc m.
Definition view (M : list msg) : pend := map (fun m => (party m, names S G m)) M.
Definition sign_ok (m : msg) : Prop := mSrc m = cs_addr cst /\ In (mDst m) (map fst sl) /\
  exists ba, get_bytes (mParams m) "assignments"%str = Some ba /\ dec_assignments S G ba = Some (names S G m).
Definition reply_ok (m : msg) : Prop := In (mSrc m) (map fst sl) /\
  (get_bool (mParams m) "success"%str = Some false \/
   get_bool (mParams m) "success"%str = Some true /\
   exists ba bs, get_bytes (mParams m) "assignments"%str = Some ba /\ dec_assignments S G ba = Some (names S G m) /\
     get_bytes (mParams m) "signatures"%str = Some bs /\ gdec_2d G bs = Some (map (ssig (mSrc m)) (names S G m))).
Definition fine (m : msg) : Prop :=
  (mType m = SIGN_ASSIGNMENTS -> sign_ok m) /\
  (mType m = GOT_SIGNS -> if keq (mDst m) (cs_addr cst) then reply_ok m else rel_ok m) /\
  (mType m = REQUEST_BRIDGES -> mSrc m <> cs_addr cst).
(** Messages that have nothing to do with signatures. *)
Definition plain (m : msg) : Prop := mType m <> SIGN_ASSIGNMENTS /\ mType m <> GOT_SIGNS /\ mType m <> REQUEST_BRIDGES.

Record sig_inv (y : sys) : Prop := {
  z_st : co_static (y_coord y) = cst;
  z_sl : co_servers (y_coord y) = sl;
  z_q : signs (co_asigs (y_coord y)) (co_bridges (y_coord y)) (view (y_msgs y));
  z_msg : Forall fine (y_msgs y);
  z_req : forall m nym a, co_reqs (y_coord y) = Some m -> mget m nym = Some a -> a <> cs_addr cst;
  z_sv : forall a s, mget (y_servers y) a = Some s -> sv_addr s = a /\ sv_priv s = K a;
  z_cl : forall a k x bs, mget (y_clients y) a = Some k -> In (x, bs) (cl_assigns k) ->
    good S x /\ gdec_2d G bs = Some (full x)
}.

Lemma names_other m : mType m <> SIGN_ASSIGNMENTS -> mType m <> GOT_SIGNS -> names S G m = [].
Proof. intros N1 N2. unfold names. apply Z.eqb_neq in N1, N2. now rewrite N1, N2. Qed.
Lemma plain_fine m : plain m -> fine m.
Proof. intros (P1 & P2 & P3). unfold fine. tauto. Qed.
Lemma plain_view l : Forall plain l -> Forall (fun p : addr * list assignment => snd p = []) (view l).
Proof.
  intros F. unfold view. apply Forall_forall. intros p I. apply in_map_iff in I. destruct I as (m & <- & I). rewrite Forall_forall in F.
  destruct (F m I) as (P1 & P2 & _). cbn [snd]. now apply names_other.
Qed.
Lemma rel_view l : Forall rel_ok l -> Forall (fun p : addr * list assignment => snd p = []) (view l).
Proof.
  intros F. unfold view. apply Forall_forall. intros p I. apply in_map_iff in I. destruct I as (m & <- & I). rewrite Forall_forall in F.
  destruct (F m I) as (x & bs & _ & _ & E). cbn [snd]. unfold names. rewrite E. unfold get_bytes. cbn [lookup String.eqb Ascii.eqb Bool.eqb].
  now destruct (_ || _).
Qed.
Lemma view_app l l' : view (l ++ l') = view l ++ view l'.
Proof. apply map_app. Qed.
Lemma view_pick l1 m l2 : Permutation (view (l1 ++ m :: l2)) ((party m, names S G m) :: view (l1 ++ l2)).
Proof. rewrite !view_app. cbn [view map]. apply Permutation_sym, Permutation_middle. Qed.
Lemma in_view m M : In m M -> In (party m, names S G m) (view M).
Proof. intros I. unfold view. now apply (in_map (fun m => (party m, names S G m))). Qed.

(** The coordinator handles a message that is neither of the three. *)
Lemma co_plain c ty p src rn c' out : co_handle S G c ty p src rn = Some (c', out) ->
  ty <> POST_BRIDGE -> ty <> REQUEST_BRIDGES -> ty <> GOT_SIGNS ->
  co_asigs c' = co_asigs c /\ co_bridges c' = co_bridges c /\ co_reqs c' = co_reqs c /\ Forall plain out.
Proof.
  intros E N1 N2 N3. destruct (co_step_frame S G c (EMsg ty p src rn) c' out E) as [F O]. cbn [writes_ev emits_ev] in *.
  apply Z.eqb_neq in N1, N2, N3. unfold writes in F. unfold emits in O. rewrite N1, N2, N3 in F. rewrite N2, N3 in O.
  split; [|split; [|split]].
  - apply (F FASigs). repeat match goal with |- context [if ?b then _ else _] => destruct b end; cbn; intuition discriminate.
  - apply (F FBridges). repeat match goal with |- context [if ?b then _ else _] => destruct b end; cbn; intuition discriminate.
  - apply (F FReqs). repeat match goal with |- context [if ?b then _ else _] => destruct b end; cbn; intuition discriminate.
  - apply Forall_forall. intros m I. specialize (O m I). unfold plain.
    repeat match type of O with context [if ?b then _ else _] => destruct b end; cbn in O;
      repeat (destruct O as [O|O]; [rewrite <- O; repeat split; discriminate|]); destruct O.
Qed.

Lemma co_request_open c p src rn c' out : co_request S G c p src rn = Some (c', out) ->
  (c' = c /\ out = []) \/
  exists ind nymR m brs mp, dec_point S (match get_bytes p "nym"%str with Some b => b | None => [] end) = Some nymR /\ co_reqs c = Some m /\
    get_bridges (Z.to_nat ind) (crBridges rn) (co_bridges c) = (brs, mp) /\
    let l := map (fun b : bytes * option Z => Assign (Some nymR) (fst b) (snd b)) brs in
    open_assignments S (set_bridges (set_reqs c (Some (mset m nymR src))) mp) l = Some c' /\
    ((l = [] /\ out = []) \/
     (exists pm, out = to_servers c SIGN_ASSIGNMENTS (("assignments"%str, VBytes (enc_assignments S G l)) :: pm))).
Proof.
  intros E. unfold co_request in E.
  destruct (get_int p "ind"%str) as [ind|] eqn:E1; [|discriminate].
  destruct (get_bytes p "signature"%str) as [sig|] eqn:E2; [|discriminate].
  destruct (get_bytes p "nym"%str) as [bn|] eqn:E3; [|discriminate].
  destruct (dec_point S bn) as [nymR|] eqn:E4; [|discriminate].
  destruct (msg_request p) as [m|] eqn:E5; [|discriminate].
  destruct (negb (eg_verify S m nymR sig (co_G c))); [injection E as <- <-; now left|].
  destruct (verify_ind S G (co_pb c) (co_fb c) p (mget (co_ecomms c) nymR)) as [ok|]; [|discriminate].
  destruct (negb ok); [injection E as <- <-; now left|].
  destruct (co_reqs c) as [reqs|] eqn:E6; [|discriminate]. cbv zeta in E. unfold assign_bridges in E. cbn [co_bridges set_reqs] in E.
  destruct (get_bridges (Z.to_nat ind) (crBridges rn) (co_bridges c)) as [brs mp] eqn:E7.
  right. exists ind, nymR, reqs, brs, mp. do 3 (split; [assumption || reflexivity|]).
  cbv zeta. set (l := map _ brs) in *. destruct l as [|a0 l0] eqn:El.
  - injection E as <- <-. split; [reflexivity|]. now left.
  - destruct (open_assignments S _ (a0 :: l0)) as [c3|] eqn:EO; [|discriminate].
    odestruct E. injection E as <- <-. split; [reflexivity|]. right. eexists.
    match type of EO with open_assignments S ?c1 ?l1 = _ => destruct (open_total S l1 c1) as (x & Hx); rewrite Hx in EO; injection EO as <- end.
    reflexivity.
Qed.

Definition reqs_ok (c : coord) : Prop := forall m nym a, co_reqs c = Some m -> mget m nym = Some a -> a <> cs_addr cst.

Lemma co_sig c m cr c' out l1 l2 : co_static c = cst -> co_servers c = sl -> NoDup (map fst sl) -> bridges_ok S (co_bridges c) ->
  signs (co_asigs c) (co_bridges c) (view (l1 ++ m :: l2)) -> fine m -> reqs_ok c -> mDst m = cs_addr cst ->
  (mType m = POST_BRIDGE -> forall m' x, In m' (l1 ++ m :: l2) -> In x (names S G m') -> get_str (mParams m) "bridge_addr"%str <> Some (asAddr x)) ->
  co_handle S G c (mType m) (mParams m) (mSrc m) cr = Some (c', out) ->
  signs (co_asigs c') (co_bridges c') (view ((l1 ++ l2) ++ out)) /\ Forall fine out /\ reqs_ok c'.
Proof.
  intros ET ES NS HB Q FM RQ ED PC E. pose proof (signs_perm _ _ _ _ (view_pick l1 m l2) Q) as Q1. pose proof (signs_drop _ _ _ _ Q1) as Q2.
  rewrite view_app. destruct (Z.eq_dec (mType m) POST_BRIDGE) as [T|N1].
  { rewrite T in E. change (co_post S c (mParams m) = Some (c', out)) in E. unfold co_post in E. specialize (PC T).
    destruct (get_str (mParams m) "bridge_addr"%str) as [b|]; [|discriminate]. odestruct E; injection E as <- <-; cbn [view map]; rewrite app_nil_r.
    - split; [assumption|]. split; [constructor|assumption].
    - split; [|split; [constructor|assumption]]. destruct Q2 as [X1 X2 X3 X4 X5]. constructor; try assumption.
      intros a l x nym I J. cbn [co_bridges add_bridge set_bridges]. rewrite mget_mset. destruct (keq (asAddr x) b) as [Eb|]; [|now apply (X5 a l)].
      exfalso. unfold view in I. apply in_map_iff in I. destruct I as (m' & [= <- <-] & I).
      apply (PC m' x); [|assumption|now rewrite Eb]. apply in_or_app. apply in_app_or in I. cbn [In]. tauto. }
  destruct (Z.eq_dec (mType m) REQUEST_BRIDGES) as [T|N2].
  { destruct FM as (_ & _ & FR). specialize (FR T). rewrite T in E. change (co_request S G c (mParams m) (mSrc m) cr = Some (c', out)) in E.
    destruct (co_request_open _ _ _ _ _ _ E) as [[-> ->]|(ind & nymR & rq & brs & mp & EN & ER & EG & EO & EOUT)].
    { cbn [view map]. rewrite app_nil_r. split; [assumption|]. split; [constructor|assumption]. }
    set (l := map _ brs) in *. destruct (get_bridges_spec _ _ _ _ _ EG) as (ND & _ & I1 & O1 & _).
    assert (NDl : NoDup (map asAddr l)).
    { unfold l. rewrite map_map. cbn [asAddr]. exact ND. }
    assert (AO : forall x, In x l -> good S x).
    { intros x Ix. split; [|split].
      - revert x Ix. eapply taken_assignment_ok; try eassumption. eapply dec_point_group; eassumption.
      - unfold l in Ix. apply in_map_iff in Ix. destruct Ix as ((b & nb) & <- & Ib). cbn [asNym snd]. destruct (I1 _ _ Ib) as [M _].
        destruct (HB _ _ M) as (q & -> & _). discriminate.
      - unfold l in Ix. apply in_map_iff in Ix. destruct Ix as (b & <- & _). discriminate. }
    destruct (open_spec l (set_bridges (set_reqs c (Some (mset rq nymR (mSrc m)))) mp)) as (A & EA & A1 & A2); [exact ES|exact ET|assumption|].
    rewrite EA in EO. injection EO as <-. cbn [co_asigs co_bridges co_reqs set_asigs set_bridges set_reqs] in *.
    assert (RQ' : reqs_ok (set_asigs (set_bridges (set_reqs c (Some (mset rq nymR (mSrc m)))) mp) A)).
    { intros m0 nym a. cbn [co_reqs set_asigs set_bridges set_reqs]. intros [= <-]. rewrite mget_mset. destruct (keq nym nymR); [congruence|]. now apply RQ. }
    assert (B1 : forall x, In x l -> exists nym, mget (co_bridges c) (asAddr x) = Some (nym, false)).
    { intros x I. unfold l in I. apply in_map_iff in I. destruct I as ((b & nb) & <- & I). cbn [asAddr fst]. exists nb. apply (I1 _ _ I). }
    assert (B2 : forall b nym, mget mp b = Some (nym, false) -> mget (co_bridges c) b = Some (nym, false) /\ ~ In b (map asAddr l)).
    { intros b nym M. assert (NB : ~ In b (map asAddr l)).
      { unfold l. rewrite map_map. cbn [asAddr]. intros I. apply in_map_iff in I. destruct I as ((b' & nb) & <- & I). destruct (I1 _ _ I) as [_ M'].
        cbn [fst] in M. congruence. }
      split; [|assumption]. rewrite <- O1; [assumption|]. unfold l in NB. rewrite map_map in NB. exact NB. }
    destruct EOUT as [[El ->]|(pm & ->)].
    - cbn [view map]. rewrite app_nil_r. split; [|split; [constructor|assumption]].
      rewrite El in *. clearbody l. subst l. assert (Q3 : signs (co_asigs c) mp (view (l1 ++ l2))).
      { eapply signs_weaken; [exact Q2|reflexivity|intros b nym M; now apply B2|intros p I; now right|lia]. }
      destruct Q3 as [X1 X2 X3 X4 X5]. assert (EQ : forall b, mget A b = mget (co_asigs c) b) by (intros b; apply A2; intros []).
      constructor.
      + intros b ss n. rewrite EQ. apply X1.
      + intros a l x. rewrite EQ. apply X2.
      + assumption.
      + intros j a b ss n. rewrite EQ. apply X4.
      + assumption.
    - set (p0 := ("assignments"%str, VBytes (enc_assignments S G l)) :: pm). assert (DN : forall d, names S G (Msg d SIGN_ASSIGNMENTS p0 (co_addr c)) = l).
      { intros d. unfold names, p0, get_bytes. cbn [mType mParams]. rewrite Z.eqb_refl. cbn [orb lookup String.eqb Ascii.eqb Bool.eqb].
        now rewrite (C27_assignments_round_trip S G OK GOK l (fun x I => proj1 (AO x I))). }
      split; [|split; [|assumption]].
      + assert (EV : view (to_servers c SIGN_ASSIGNMENTS p0) = map (fun s : addr * Z => (fst s, l)) sl).
        { unfold view, to_servers. rewrite map_map, ES. apply map_ext. intros s. rewrite DN. reflexivity. }
        rewrite EV. eapply signs_open; eassumption.
      + apply Forall_forall. intros x I. unfold to_servers in I. apply in_map_iff in I. destruct I as (s & <- & I). split; [|split; cbn [mType]; discriminate].
        intros _. split; [cbn [mSrc]; unfold co_addr; now rewrite ET|]. split; [cbn [mDst]; rewrite <- ES; now apply in_map|].
        exists (enc_assignments S G l). rewrite DN. split; [reflexivity|]. apply (C27_assignments_round_trip S G OK GOK l (fun x I => proj1 (AO x I))). }
  destruct (Z.eq_dec (mType m) GOT_SIGNS) as [T|N3].
  { destruct FM as (_ & FG & _). specialize (FG T). destruct (keq (mDst m) (cs_addr cst)) as [_|]; [|contradiction].
    rewrite T in E. change (co_got S G c (mParams m) (mSrc m) = Some (c', out)) in E. unfold co_got in E.
    destruct FG as (IS & [SU|(SU & ba & bs & GA & DA & GS & DS)]).
    { rewrite SU in E. cbn [negb] in E. injection E as <- <-. cbn [view map]. rewrite app_nil_r. split; [assumption|]. split; [constructor|assumption]. }
    rewrite SU in E. cbn [negb] in E. destruct (server_index c (mSrc m)) as [j|] eqn:EJ.
    2:{ injection E as <- <-. cbn [view map]. rewrite app_nil_r. split; [assumption|]. split; [constructor|assumption]. }
    rewrite GA, DA, GS, DS in E. destruct (nth_error (names S G m) 0) as [a0|]; [|discriminate]. destruct (asNymR a0) as [nymR|]; [|discriminate].
    cbv zeta in E. set (rq := match co_reqs c with Some _ => _ | None => _ end) in *.
    destruct (server_index_nth _ _ _ _ EJ) as (_ & pk & EN). rewrite Nat.sub_0_r, ES in EN.
    assert (EP : party m = mSrc m).
    { unfold party. destruct (Z.eqb_spec (mType m) SIGN_ASSIGNMENTS) as [T'|]; [rewrite T in T'; discriminate|reflexivity]. }
    rewrite EP in Q1.
    destruct (got_signs j (mSrc m) rq) with (l := names S G m) (c := c) (sigs := map (ssig (mSrc m)) (names S G m)) (out0 := @nil msg) (c' := c') (out := out) (P := view (l1 ++ l2))
      as (R1 & R2 & R3); try assumption; try reflexivity.
    { now rewrite (map_nth_error fst j sl EN). }
    assert (FR : Forall rel_ok out) by (apply Forall_forall; intros x I; destruct (R3 x I) as [[]|[R _]]; exact R).
    split; [apply signs_plain; [now apply rel_view|assumption]|]. split.
    - apply Forall_forall. intros x I. destruct (R3 x I) as [[]|(R & RT & RD)]. split; [rewrite RT; discriminate|]. split; [|rewrite RT; discriminate].
      intros _. destruct (keq (mDst x) (cs_addr cst)) as [Ex|_]; [|assumption]. exfalso. unfold rq in RD. destruct (co_reqs c) as [mm|] eqn:EQ; [|discriminate].
      exact (RQ mm nymR (mDst x) EQ RD Ex).
    - intros mm nym a. rewrite R2. apply RQ. }
  destruct (co_plain _ _ _ _ _ _ _ E N1 N2 N3) as (P1 & P2 & P3 & P4).
  rewrite P1, P2. split; [apply signs_plain; [now apply plain_view|assumption]|]. split.
  - eapply Forall_impl; [|exact P4]. apply plain_fine.
  - intros mm nym a. rewrite P3. apply RQ.
Qed.

Lemma sv_sig A B s m sr s' out l1 l2 : signs A B (view (l1 ++ m :: l2)) -> fine m -> sv_addr s = mDst m -> sv_priv s = K (mDst m) ->
  mDst m <> cs_addr cst -> sv_handle S H G s (mType m) (mParams m) (mSrc m) sr = Some (s', out) ->
  signs A B (view ((l1 ++ l2) ++ out)) /\ Forall fine out /\ sv_addr s' = sv_addr s /\ sv_priv s' = sv_priv s.
Proof.
  intros Q FM SA SP ND E. pose proof (signs_perm _ _ _ _ (view_pick l1 m l2) Q) as Q1. pose proof (signs_drop _ _ _ _ Q1) as Q2.
  destruct (C60_server_frame S H G _ _ _ _ _ _ _ E) as [SS SO]. destruct SS as (S1 & S2 & S3 & _).
  destruct (Z.eq_dec (mType m) SIGN_ASSIGNMENTS) as [T|N].
  - destruct FM as (FS & _ & _). destruct (FS T) as (F1 & F2 & ba & F3 & F4). rewrite T in E.
    change (sv_sign S G s (mParams m) (mSrc m) = Some (s', out)) in E. unfold sv_sign in E.
    destruct (get_bytes (mParams m) "nym"%str) as [bn|]; [|discriminate]. destruct (dec_point S bn) as [nym|]; [|discriminate].
    destruct (sv_fb s) as [fb|]; [|discriminate]. destruct (verify_ind S G (sv_pb s) fb (mParams m) (mget (sv_ecomms s) nym)) as [ok|]; [|discriminate].
    destruct ok; cbn [negb] in E.
    + rewrite F3, F4 in E. cbv zeta in E. set (sigs := map _ (names S G m)) in *. injection E as <- <-.
      assert (EG : sigs = map (ssig (mDst m)) (names S G m)).
      { unfold sigs. apply map_ext. intros x. unfold ssig. now rewrite SP. }
      set (m2 := Msg _ _ _ _).
      assert (EN : names S G m2 = names S G m).
      { unfold names at 1. unfold m2, get_bytes. cbn [mType mParams]. rewrite Z.eqb_refl, orb_true_r. cbn [lookup String.eqb Ascii.eqb Bool.eqb]. now rewrite F4. }
      split; [|split; [|split; reflexivity]].
      * eapply signs_perm; [|exact Q1]. rewrite (view_app (l1 ++ l2)). change (view [m2]) with [(party m2, names S G m2)].
        replace (party m2) with (party m); [|unfold party, m2; cbn [mType mSrc]; rewrite T; cbn; now symmetry].
        rewrite EN. apply Permutation_cons_append.
      * constructor; [|constructor]. split; [cbn [m2 mType]; discriminate|]. split; [|cbn [m2 mType]; discriminate].
        intros _. unfold m2 at 1. cbn [mDst]. destruct (keq (mSrc m) (cs_addr cst)) as [_|]; [|contradiction].
        split; [unfold m2; cbn [mSrc]; now rewrite SA|]. right. split; [reflexivity|]. exists ba, (genc_2d G sigs). split; [reflexivity|].
        split; [now rewrite EN|]. split; [reflexivity|]. rewrite EN. unfold m2. cbn [mSrc]. rewrite SA, <- EG. apply (g_2d G GOK).
    + injection E as <- <-. set (m2 := Msg _ _ _ _).
      split; [|split; [|split; reflexivity]].
      * rewrite view_app. apply signs_plain; [|assumption]. constructor; [reflexivity|constructor].
      * constructor; [|constructor]. split; [cbn [m2 mType]; discriminate|]. split; [|cbn [m2 mType]; discriminate].
        intros _. unfold m2 at 1. cbn [mDst]. destruct (keq (mSrc m) (cs_addr cst)) as [_|]; [|contradiction].
        split; [unfold m2; cbn [mSrc]; now rewrite SA|]. now left.
  - assert (FP : Forall plain out).
    { apply Forall_forall. intros x I. specialize (SO x I). unfold plain. cbn in SO.
      repeat (destruct SO as [SO|SO]; [injection SO as SO1 SO2; try (now destruct N); rewrite <- SO2; repeat split; discriminate|]). destruct SO. }
    split; [rewrite view_app; apply signs_plain; [now apply plain_view|assumption]|].
    split; [eapply Forall_impl; [|exact FP]; apply plain_fine|]. split; assumption.
Qed.

Lemma cl_sig k m chal k' out : fine m -> mDst m <> cs_addr cst ->
  (forall x bs, In (x, bs) (cl_assigns k) -> good S x /\ gdec_2d G bs = Some (full x)) ->
  cl_handle S G k (mType m) (mParams m) chal = Some (k', out) ->
  Forall plain out /\ (forall x bs, In (x, bs) (cl_assigns k') -> good S x /\ gdec_2d G bs = Some (full x)).
Proof.
  intros FM ND KA E. unfold cl_handle in E.
  destruct (Z.eqb_spec (mType m) CLIENT_REGISTER_CONFIRMATION).
  { unfold cl_register_confirmation in E. odestruct E. injection E as <- <-. split; [|assumption]. constructor; [|constructor]. repeat split; discriminate. }
  destruct (Z.eqb_spec (mType m) INIT_PEDERSEN_R).
  { unfold cl_init_r in E. odestruct E. injection E as <- <-. split; [constructor|assumption]. }
  destruct (Z.eqb_spec (mType m) GN_HONESTY_ANSWER).
  { unfold cl_honesty_answer in E. odestruct E. injection E as <- <-. split; [constructor|assumption]. }
  destruct (Z.eqb_spec (mType m) ANNOUNCEMENT_FINALIZE).
  { unfold cl_announce_final in E. cbv zeta in E. odestruct E. injection E as <- <-. split; [constructor|assumption]. }
  destruct (Z.eqb_spec (mType m) GOT_SIGNS) as [T|_].
  { destruct FM as (_ & FG & _). specialize (FG T). destruct (keq (mDst m) (cs_addr cst)); [contradiction|].
    destruct FG as (x & bs & AO & DS & EP). rewrite EP in E. unfold cl_got_signatures in E.
    change (msg_got _) with (Some (enc_assignment S x ++ bs)) in E.
    unfold get_bytes in E. cbn [lookup String.eqb Ascii.eqb Bool.eqb] in E.
    destruct (negb _); [injection E as <- <-; split; [constructor|assumption]|].
    rewrite (assignment_round_trip S x OK (proj1 AO)) in E. injection E as <- <-. split; [constructor|]. cbn [cl_assigns].
    intros x' bs' I. apply in_app_or in I. destruct I as [I|[[= <- <-]|[]]]; [now apply KA|]. tauto. }
  destruct (Z.eqb_spec (mType m) Net.VOTE); [injection E as <- <-; split; [constructor|assumption]|].
  destruct (Z.eqb_spec (mType m) Net.ROUND_END).
  { unfold cl_round_end in E. odestruct E. injection E as <- <-. split; [constructor|]. intros x bs []. }
  destruct (Z.eqb_spec (mType m) BCAST_PEDERSEN_RDIFF).
  { unfold cl_rdiff in E. cbv zeta in E. odestruct E; injection E as <- <-; (split; [constructor|assumption]). }
  destruct (Z.eqb_spec (mType m) VOTE_REPLY).
  { unfold cl_vote_reply in E. odestruct E. injection E as <- <-. split; [constructor|assumption]. }
  injection E as <- <-. split; [constructor|assumption].
Qed.

Lemma sig_step y V a y' : inv S G y V -> bridges_ok S (co_bridges (y_coord y)) -> sig_inv y -> guard S y V a -> post_calm S G y a ->
  sys_step S H G y a = Some y' -> sig_inv y'.
Proof.
  intros I HB SI GU PC E. pose proof (inv_types S H G y V I) as TY. destruct SI as [Z1 Z2 Z3 Z4 Z5 Z6 Z7].
  destruct I as [BA _]. assert (NS : NoDup (map fst sl)) by (rewrite <- Z2; exact (b_nd _ _ _ _ _ BA)).
  assert (CA : co_addr (y_coord y) = cs_addr cst) by (unfold co_addr; now rewrite Z1).
  assert (ST : co_static (y_coord y') = cst) by (rewrite <- Z1; eapply sys_static; eassumption).
  destruct a as [a priv rk|a priv s|i cr sr chal|e|a cmd]; cbn [sys_step] in E.
  - destruct GU.
  - destruct (keq a _); [discriminate|]. destruct (mget (y_servers y) a); [discriminate|].
    destruct (mget (y_clients y) a); [discriminate|]. injection E as <-. 
    assert (P : Forall plain [cl_register S (init_client S a (co_addr (y_coord y)) priv s)]).
    { constructor; [|constructor]. repeat split; discriminate. }
    constructor; cbn [y_coord y_servers y_clients y_msgs]; try assumption.
    + rewrite view_app. apply signs_plain; [now apply plain_view|assumption].
    + apply Forall_app. split; [assumption|]. eapply Forall_impl; [|exact P]. apply plain_fine.
    + intros b k x bs. rewrite mget_mset. destruct (keq b a) as [->|]; [|apply Z7]. intros [= <-] [].
  - destruct (nth_error (y_msgs y) i) as [m|] eqn:Em; [|discriminate]. cbn zeta in E.
    assert (Im : In m (y_msgs y)) by (eapply nth_error_In; exact Em).
    assert (Tm : In (mType m) round_types) by (rewrite Forall_forall in TY; now apply TY).
    assert (Fm : fine m) by (rewrite Forall_forall in Z4; now apply Z4).
    cbn [post_calm] in PC. specialize (PC m Em).
    destruct (pick_split i _ m Em) as (l1 & l2 & EM & ER). rewrite ER in E. rewrite EM in Z3, Z4, PC.
    assert (Z4' : Forall fine (l1 ++ l2)).
    { apply Forall_app in Z4. destruct Z4 as [F1 F2]. inversion F2; subst. now apply Forall_app. }
    destruct (keq (mDst m) _) as [ED|ND].
    + destruct (co_handle _ _ _ _ _ _ _) as [[c' out]|] eqn:EH; [|discriminate]. injection E as <-.
      assert (ES : co_step S G (y_coord y) (EMsg (mType m) (mParams m) (mSrc m) cr) = Some (c', out)) by exact EH.
      rewrite CA in ED. destruct (co_sig (y_coord y) m cr c' out l1 l2) as (R1 & R2 & R3); try assumption.
      constructor; cbn [y_coord y_servers y_clients y_msgs] in *; try assumption.
      * rewrite (co_servers_step S H G _ _ _ _ ES); [assumption|]. intros ? ? ? ? [= <- _ _ _] T. rewrite T in Tm. clear - Tm.
        cbn in Tm. intuition discriminate.
      * apply Forall_app. now split.
    + rewrite CA in ND. destruct (mget (y_servers y) (mDst m)) as [s|] eqn:Es.
      * destruct (sv_handle _ _ _ _ _ _ _ _) as [[s' out]|] eqn:EH; [|discriminate]. injection E as <-.
        destruct (Z6 _ _ Es) as [A1 A2]. destruct (sv_sig _ _ s m sr s' out l1 l2 Z3 Fm A1 A2 ND EH) as (R1 & R2 & R3 & R4).
        constructor; cbn [y_coord y_servers y_clients y_msgs] in *; try assumption.
        -- apply Forall_app. now split.
        -- intros b s1. rewrite mget_mset. destruct (keq b (mDst m)) as [->|]; [|apply Z6]. intros [= <-]. rewrite R3, R4. tauto.
      * destruct (mget (y_clients y) (mDst m)) as [k|] eqn:Ek; [|discriminate].
        destruct (cl_handle _ _ _ _ _ _) as [[k' out]|] eqn:EH; [|discriminate]. injection E as <-.
        destruct (cl_sig k m chal k' out Fm ND) as [R1 R2]; [intros x bs; now apply (Z7 (mDst m))|exact EH|].
        constructor; cbn [y_coord y_servers y_clients y_msgs] in *; try assumption.
        -- rewrite view_app. apply signs_plain; [now apply plain_view|]. eapply signs_drop. eapply signs_perm; [apply view_pick|exact Z3].
        -- apply Forall_app. split; [assumption|]. eapply Forall_impl; [|exact R1]. apply plain_fine.
        -- intros b kb x bs. rewrite mget_mset. destruct (keq b (mDst m)) as [->|]; [|apply Z7]. intros [= <-]. apply R2.
  - destruct (is_loop e) eqn:EL; [|discriminate]. destruct (co_step _ _ _ _) as [[c' out]|] eqn:ES; [|discriminate]. injection E as <-.
    cbn [y_coord] in ST.
    assert (SV : co_servers c' = sl).
    { rewrite (co_servers_step S H G _ _ _ _ ES); [assumption|]. intros ? ? ? ? -> _. discriminate EL. }
    destruct (co_step_frame S G _ _ _ _ ES) as [FR EMI].
    assert (P : Forall plain out).
    { apply Forall_forall. intros x Ix. specialize (EMI x Ix). unfold plain.
      destruct e; try discriminate EL; cbn [emits_ev] in EMI; cbn in EMI; repeat (destruct EMI as [EMI|EMI]; [rewrite <- EMI; repeat split; discriminate|]); destruct EMI. }
    assert (AS : co_asigs c' = co_asigs (y_coord y)).
    { apply (FR FASigs). destruct e; try discriminate EL; cbn; intuition discriminate. }
    assert (BR : forall b nym, mget (co_bridges c') b = Some (nym, false) -> mget (co_bridges (y_coord y)) b = Some (nym, false)).
    { intros b nym. destruct e as [|  |fakes ord| |ord rs]; try discriminate EL; try (rewrite (FR FBridges); [auto|cbn; intuition discriminate]).
      cbn [co_step] in ES. unfold round_end in ES. destruct (last_server _); [|injection ES as <- <-; auto]. cbv zeta in ES. odestruct ES. injection ES as <- <-.
      discriminate. }
    assert (RQ : reqs_ok c').
    { intros mm nym b. destruct e as [|  |fakes ord| |ord rs]; try discriminate EL; try (rewrite (FR FReqs); [apply Z5|cbn; intuition discriminate]).
      cbn [co_step] in ES. unfold begin_round in ES. destruct (negb _); [discriminate|]. cbv zeta in ES. unfold announce in ES.
      set (c1 := if co_first (y_coord y) then _ else _) in *. clearbody c1. destruct (first_server _); odestruct ES; injection ES as <- <-; cbn; intros [= <-]; discriminate. }
    constructor; cbn [y_coord y_servers y_clients y_msgs] in *; try assumption.
    + rewrite view_app. apply signs_plain; [now apply plain_view|]. eapply signs_weaken; [exact Z3|exact AS|exact BR|intros p Ip; now right|lia].
    + apply Forall_app. split; [assumption|]. eapply Forall_impl; [|exact P]. apply plain_fine.
  - destruct (mget (y_clients y) a) as [k|] eqn:Ek; [|discriminate]. destruct (cl_command S G k cmd) as [out|] eqn:EC; [|discriminate]. injection E as <-.
    destruct (b_cl _ _ _ _ _ BA a k Ek) as (_ & KA & _ & KN & _). rewrite CA in KN.
    assert (FO : Forall (fun x => mType x <> SIGN_ASSIGNMENTS /\ mType x <> GOT_SIGNS /\ mSrc x <> cs_addr cst) out).
    { destruct cmd as [ba|ind rn|id f]; cbn [cl_command] in EC.
      - injection EC as <-. constructor; [|constructor]. cbn [cl_post mType mSrc]. rewrite KA. repeat split; [discriminate|discriminate|assumption].
      - destruct (cl_request S G k ind rn) as [[x|]|] eqn:ER; [|injection EC as <-; constructor|discriminate]. injection EC as <-.
        constructor; [|constructor]. unfold cl_request in ER. odestruct ER. injection ER as <-. cbn [mType mSrc]. rewrite KA. repeat split; [discriminate|discriminate|assumption].
      - destruct (cl_vote S k id f) as [x|] eqn:EV; [|discriminate]. injection EC as <-. constructor; [|constructor].
        unfold cl_vote in EV. odestruct EV. injection EV as <-. cbn [mType mSrc]. rewrite KA. repeat split; [discriminate|discriminate|assumption]. }
    constructor; cbn [y_coord y_servers y_clients y_msgs] in *; try assumption.
    + rewrite view_app. apply signs_plain; [|assumption]. unfold view. apply Forall_forall. intros p Ip. apply in_map_iff in Ip. destruct Ip as (x & <- & Ix).
      rewrite Forall_forall in FO. destruct (FO x Ix) as (F1 & F2 & _). cbn [snd]. now apply names_other.
    + apply Forall_app. split; [assumption|]. eapply Forall_impl; [|exact FO]. intros x (F1 & F2 & F3). split; [tauto|]. split; [tauto|]. auto.
Qed.
End Signing.

(** ** At the start *)
Section Start.
Context (S : suite) (OK : suite_ok S) (H : oracle) (G : gob) (GOK : gob_ok G).
Record zinv (y : sys) : Prop := {
  zz_a : co_asigs (y_coord y) = [];
  zz_b : co_bridges (y_coord y) = [];
  zz_r : co_reqs (y_coord y) = None;
  zz_c : y_clients y = [];
  zz_s : forall a s, mget (y_servers y) a = Some s -> sv_addr s = a
}.
Lemma conf_zinv st y a y' : cinv S st y -> zinv y -> is_conf a -> sys_step S H G y a = Some y' -> zinv y'.
Proof.
  intros I [X1 X2 X3 X4 X5] C E. destruct a as [a priv rk|?|i cr sr ch|?|?]; try destruct C.
  - cbn [sys_step] in E. destruct (keq a _); [discriminate|]. destruct (mget (y_servers y) a); [discriminate|].
    destruct (mget (y_clients y) a); [discriminate|]. injection E as <-. constructor; cbn [y_coord y_servers y_clients]; try assumption.
    intros b s. rewrite mget_mset. destruct (keq b a) as [->|]; [|apply X5]. intros [= <-]. reflexivity.
  - cbn [sys_step] in E. destruct (nth_error (y_msgs y) i) as [m|] eqn:Em; [|discriminate]. cbn zeta in E.
    pose proof (i_msgs _ _ _ I) as F. rewrite Forall_forall in F. specialize (F m (nth_error_In _ _ Em)).
    assert (TM : In (mType m) [SERVER_REGISTER; SERVER_REGISTER_REPLY; UPDATE_NEXT_HOP; UPDATE_PEDERSEN_H]).
    { destruct F; cbn; tauto. }
    destruct (keq (mDst m) _).
    + destruct (co_handle _ _ _ _ _ _ _) as [[c' out]|] eqn:EH; [|discriminate]. injection E as <-.
      destruct (co_step_frame S G _ (EMsg (mType m) (mParams m) (mSrc m) cr) c' out EH) as [FR _]. cbn [writes_ev] in FR.
      assert (W : forall f, In f [FASigs; FBridges; FReqs] -> ~ In f (writes (mType m))).
      { clear - TM. intros f If. repeat (destruct TM as [<-|TM]; [cbn in *; intuition (subst; discriminate)|]). destruct TM. }
      constructor; cbn [y_coord y_servers y_clients]; try assumption.
      * rewrite (FR FASigs); [assumption|]. apply W. cbn. tauto.
      * rewrite (FR FBridges); [assumption|]. apply W. cbn. tauto.
      * rewrite (FR FReqs); [assumption|]. apply W. cbn. tauto.
    + destruct (mget (y_servers y) (mDst m)) as [s|] eqn:Es.
      * destruct (sv_handle _ _ _ _ _ _ _ _) as [[s' out]|] eqn:EH; [|discriminate]. injection E as <-.
        destruct (C60_server_frame S H G _ _ _ _ _ _ _ EH) as [SS _]. destruct SS as (S1 & _).
        constructor; cbn [y_coord y_servers y_clients]; try assumption.
        intros b sb. rewrite mget_mset. destruct (keq b (mDst m)) as [->|]; [|apply X5]. intros [= <-]. rewrite S1. now apply X5.
      * rewrite X4 in E. discriminate E.
Qed.

Definition key_of (y : sys) (a : addr) : Z := match mget (y_servers y) a with Some s => sv_priv s | None => 0 end.

Lemma start_zinv self a fb trap gammas l y1 : Forall is_conf l ->
  sys_run S H G (init_sys S self a fb trap gammas) l = Some y1 -> zinv y1.
Proof.
  intros F E. set (st := co_static (y_coord (init_sys S self a fb trap gammas))).
  assert (P : forall l y0 y, Forall is_conf l -> cinv S st y0 -> zinv y0 -> sys_run S H G y0 l = Some y -> zinv y).
  { clear - OK. clearbody st. induction l as [|x l IH]; intros y0 y F I X E; cbn [sys_run] in E; [now injection E as <-|].
    inversion F as [|? ? Fx Fl]; subst. destruct (sys_step S H G y0 x) as [y1|] eqn:E1; [|discriminate].
    apply (IH y1 y Fl); [| |assumption].
    - destruct x as [b p r|?|i cr sr ch|?|?]; try destruct Fx.
      + eapply launch_inv; eauto.
      + destruct (nth_error (y_msgs y0) i) as [m|] eqn:Em; [|cbn [sys_step] in E1; rewrite Em in E1; discriminate].
        destruct (deliver_ok S OK H G st y0 i m cr sr ch I Em) as (y2 & E2 & I2). congruence.
    - eapply conf_zinv; eauto. }
  eapply P; [exact F|now apply init_cinv| |exact E].
  unfold init_sys, init_coord. destruct (gn_generate_all fb gammas). constructor; try reflexivity. intros b s X. discriminate X.
Qed.

(** The invariant, for the keys the parties have. *)
Theorem calm_inv y V : calm_reach S H G y V -> sig_inv S G (key_of y) (co_static (y_coord y)) (co_servers (y_coord y)) y.
Proof.
  intros R. enough (X : exists K, sig_inv S G K (co_static (y_coord y)) (co_servers (y_coord y)) y /\
    forall a, mget (y_servers y) a = None -> K a = 0).
  { destruct X as (K & X & K0). assert (EK : forall a, key_of y a = K a).
    { intros a. unfold key_of. destruct (mget (y_servers y) a) as [s|] eqn:Es; [|symmetry; now apply K0].
      now destruct (z_sv _ _ _ _ _ _ X a s Es). }
    assert (ESS : forall a x, ssig S (key_of y) a x = ssig S K a x) by (intros; unfold ssig; now rewrite EK).
    assert (EF : forall x, full S (key_of y) (co_static (y_coord y)) (co_servers (y_coord y)) x = full S K (co_static (y_coord y)) (co_servers (y_coord y)) x).
    { intros x. unfold full. f_equal. apply map_ext. intros s. apply ESS. }
    destruct X as [Z1 Z2 Z3 Z4 Z5 Z6 Z7]. constructor; try assumption.
    - destruct Z3 as [X1 X2 X3 X4 X5]. constructor; try assumption. intros b ss n M. destruct (X1 b ss n M) as (x & [N1 N2 N3 N4 N5 N6 N7]).
      exists x. constructor; try assumption. intros i a g. rewrite ESS. apply N6.
    - eapply Forall_impl; [|exact Z4]. intros m (F1 & F2 & F3). split; [assumption|]. split; [|assumption]. intros T. specialize (F2 T).
      destruct (keq (mDst m) _).
      + destruct F2 as (G1 & [G2|(G2 & ba & bs & G3 & G4 & G5 & G6)]); (split; [assumption|]); [now left|]. right. split; [assumption|]. exists ba, bs.
        repeat (split; [assumption|]). rewrite G6. f_equal. apply map_ext. intros x. symmetry. apply ESS.
      + destruct F2 as (x & bs & G1 & G2 & G3). exists x, bs. split; [assumption|]. split; [now rewrite EF|assumption].
    - intros a s Es. rewrite EK. now apply Z6.
    - intros a k x bs Ek Ix. rewrite EF. now apply (Z7 a k). }
  induction R as [self a fb trap gammas l y1 y2 F E M NE E2|y V a y' R (K & IH & K0) GU PC E].
  - assert (FC : Forall is_conf l) by (eapply Forall_impl; [|exact F]; intros [] X; try exact I; destruct X).
    destruct (start_zinv _ _ _ _ _ _ _ FC E) as [X1 X2 X3 X4 X5]. cbn [sys_step is_loop co_step co_configure] in E2. injection E2 as <-.
    exists (key_of y1). cbn [y_coord y_servers y_clients y_msgs]. rewrite M. cbn [app]. split; [|intros b Eb; unfold key_of; now rewrite Eb].
    set (c := y_coord y1) in *. change (co_static (set_status c CO_READY_FOR_NEW_ROUND)) with (co_static c). change (co_servers (set_status c CO_READY_FOR_NEW_ROUND)) with (co_servers c).
    assert (P : Forall plain (to_servers c BCAST_PEDERSEN_H [("h"%str, VBytes (enc_point S (pb_HT (co_pb c))))])).
    { apply Forall_forall. intros m Im. apply to_servers_type in Im. unfold plain. rewrite Im. repeat split; discriminate. }
    constructor; cbn [y_coord y_servers y_clients y_msgs]; try reflexivity.
    + change (co_asigs (set_status c CO_READY_FOR_NEW_ROUND)) with (co_asigs c). change (co_bridges (set_status c CO_READY_FOR_NEW_ROUND)) with (co_bridges c).
      rewrite X1, X2. change (view S G ?l) with ([] ++ view S G l). apply signs_plain; [now apply plain_view|]. constructor.
      * intros b ss n X. discriminate X.
      * intros b lx x [].
      * intros b lx [].
      * intros j b b' ss n _ X. discriminate X.
      * intros b lx x nym [].
    + eapply Forall_impl; [|exact P]. apply plain_fine.
    + change (co_reqs (set_status c CO_READY_FOR_NEW_ROUND)) with (co_reqs c). rewrite X3. discriminate.
    + intros b s Es. split; [now apply X5|]. unfold key_of. now rewrite Es.
    + intros b k x bs Ek. rewrite X4 in Ek. discriminate Ek.
  - exists K. pose proof (calm_is_reach S H G y V R) as RR. pose proof (reach_inv S OK H G GOK y V RR) as I.
    destruct (reach_run S H G y V RR) as (self & a0 & fb & trap & gammas & t & RUN).
    pose proof (proj2 (run_bridges S G OK GOK self a0 fb trap gammas t _ RUN)) as HB.
    pose proof (sig_step S OK H G GOK K _ _ y V a y' I HB IH GU PC E) as X.
    pose proof (z_st _ _ _ _ _ _ X) as ES. pose proof (z_sl _ _ _ _ _ _ X) as EL. rewrite ES, EL. split; [exact X|].
    intros b Eb. apply K0. clear - GU E Eb. destruct a as [a priv rk|a priv s|i cr sr chal|e|a cmd]; cbn [sys_step] in E; [destruct GU|..].
    + destruct (keq a _); [discriminate|]. destruct (mget (y_servers y) a); [discriminate|]. destruct (mget (y_clients y) a); [discriminate|]. injection E as <-. exact Eb.
    + destruct (nth_error (y_msgs y) i) as [m|]; [|discriminate]. cbn zeta in E. destruct (keq (mDst m) _).
      * destruct (co_handle _ _ _ _ _ _ _) as [[c' out]|]; [|discriminate]. injection E as <-. exact Eb.
      * destruct (mget (y_servers y) (mDst m)) as [s|] eqn:Es.
        -- destruct (sv_handle _ _ _ _ _ _ _ _) as [[s' out]|]; [|discriminate]. injection E as <-. cbn [y_servers] in Eb. rewrite mget_mset in Eb.
           destruct (keq b (mDst m)); [discriminate|assumption].
        -- destruct (mget (y_clients y) (mDst m)); [|discriminate]. destruct (cl_handle _ _ _ _ _ _) as [[k' out]|]; [|discriminate]. injection E as <-. exact Eb.
    + destruct (is_loop e); [|discriminate]. destruct (co_step _ _ _ _) as [[c' out]|]; [|discriminate]. injection E as <-. exact Eb.
    + destruct (mget (y_clients y) a); [|discriminate]. destruct (cl_command _ _ _ _); [|discriminate]. injection E as <-. exact Eb.
Qed.
End Start.

(** ** The keys of the announced table *)
Section Keys.
Context (S : suite) (OK : suite_ok S) (H : oracle) (G : gob) (GOK : gob_ok G).

Definition keys_in (c : coord) : Prop := forall k, In k (mkeys (co_ecomms c)) -> In k (co_keys c).
Definition keys_ok (y : sys) : Prop := co_status (y_coord y) = CO_MESSAGE -> ~ ending y -> keys_in (y_coord y).

Lemma fold_mset_in {A} k (l : list (Z * A)) : forall m, In k (mkeys (fold_left (fun m kv => mset m (fst kv) (snd kv)) l m)) ->
  In k (map fst l) \/ In k (mkeys m).
Proof.
  induction l as [|[a b] l IH]; intros m I; [now right|]. cbn [fold_left map fst snd] in *.
  destruct (IH _ I) as [J|J]; [left; now right|]. apply in_mkeys_mset in J. destruct J as [->|J]; [left; now left|now right].
Qed.
Lemma ending_map_in {A} ks (vs : list A) m k : ending_map ks vs = Some m -> In k (mkeys m) -> In k ks.
Proof.
  unfold ending_map. destruct (_ <? _)%nat; [discriminate|]. intros [= <-] I. apply fold_mset_in in I. destruct I as [I|[]].
  apply in_map_iff in I. destruct I as ([a b] & <- & I). now apply in_combine_l in I.
Qed.

Lemma co_keys_step c e c' out : co_servers c <> [] -> co_step S G c e = Some (c', out) -> co_status c' = CO_MESSAGE ->
  (exists ord rs, e = EEnd ord rs) \/ keys_in c' \/ (co_status c = CO_MESSAGE /\ co_ecomms c' = co_ecomms c /\ co_keys c' = co_keys c /\
    forall ty p src rn, e = EMsg ty p src rn -> ty <> Net.ROUND_END).
Proof.
  intros NE E ST. destruct (co_step_frame S G c e c' out E) as [F _].
  destruct e as [ty p src rn| |fakes ord| |ord rs].
  - cbn [writes_ev] in F. cbn [co_step] in E.
    destruct (Z.eq_dec ty Net.ROUND_END) as [->|N1].
    { exfalso. change (co_round_end S G c p rn = Some (c', out)) in E.
      unfold co_round_end in E. cbv zeta in E. odestruct E; injection E as <- <-; discriminate ST. }
    destruct (Z.eq_dec ty ANNOUNCEMENT) as [->|N2].
    { right. left. change (co_announcement S c p = Some (c', out)) in E. unfold co_announcement in E. cbv zeta in E. odestruct E. injection E as <- <-.
      intros k. cbn [co_ecomms co_keys set_status set_G set_keys set_diffs set_ecomms set_ekeys set_pb]. eapply ending_map_in. eassumption. }
    right. right. split; [|split; [|split; [|congruence]]].
    + rewrite <- (F FStatus); [assumption|]. unfold writes. 
      repeat (match goal with |- ~ In _ (if ty =? ?b then _ else _) => destruct (Z.eqb_spec ty b); [try contradiction; cbn; intuition discriminate|] end). cbn. tauto.
    + apply (F FEComms). unfold writes.
      repeat (match goal with |- ~ In _ (if ty =? ?b then _ else _) => destruct (Z.eqb_spec ty b); [try contradiction; cbn; intuition discriminate|] end). cbn. tauto.
    + apply (F FKeys). unfold writes.
      repeat (match goal with |- ~ In _ (if ty =? ?b then _ else _) => destruct (Z.eqb_spec ty b); [try contradiction; cbn; intuition discriminate|] end). cbn. tauto.
  - cbn [co_step co_configure] in E. injection E as <- <-. discriminate ST.
  - exfalso. cbn [co_step] in E. unfold begin_round in E. cbv zeta in E. destruct (negb _); [discriminate|]. unfold announce in E.
    assert (SV : forall x, co_servers (set_status (clear_buffer (if co_first c then set_first (add_fakes S c x) false else c)) CO_ANNOUNCE) = co_servers c).
    { intros x. destruct (co_first c); [|reflexivity]. cbn [co_servers set_status clear_buffer set_reqs set_msglog set_buffer set_first].
      clear. unfold add_fakes. revert c. induction x as [|q x IH]; intros c; [reflexivity|]. cbn [fold_left]. now rewrite IH. }
    unfold first_server in E. rewrite SV in E. destruct (co_servers c) as [|sv0 svs]; [now elim NE|]. cbn in E. odestruct E. injection E as <- <-. 
    destruct (co_first c); discriminate ST.
  - right. right. cbn [co_step begin_vote] in E. injection E as <- <-. repeat split; try assumption. discriminate.
  - left. eauto.
Qed.

Lemma round_end_to y V m : inv S G y V -> ending y -> In m (y_msgs y) -> mType m = Net.ROUND_END ->
  mDst m = co_addr (y_coord y) \/ mget (y_servers y) (mDst m) <> None.
Proof.
  intros [B P] EN I T. assert (IC : In m (core (y_msgs y))).
  { apply core_in. split; [assumption|]. unfold inert. rewrite T. reflexivity. }
  destruct EN as [ST _].
  destruct P as [T0 A|T0 i p keys vals GT HT A|T0 T1 K A|T0 n M1 p keys vals GT HT A].
  - pose proof (p1_status _ _ _ _ _ _ _ A) as X. rewrite ST in X. discriminate.
  - pose proof (p2_status _ _ _ _ _ _ _ _ _ _ _ _ _ _ A) as X. rewrite ST in X. discriminate.
  - pose proof (p3_msg _ _ _ _ _ _ _ _ _ A) as F. rewrite Forall_forall in F. destruct (F m IC); discriminate T.
  - destruct (p4_M _ _ _ _ _ _ _ _ _ _ _ _ _ _ _ A) as [src X]. apply (Permutation_in _ X) in IC. destruct IC as [<-|IC].
    + cbn [mDst]. destruct n as [|j]; [now left|]. right. cbn [before]. apply (b_srv _ _ _ _ _ B). apply nth_In. rewrite map_length.
      pose proof (p4_n _ _ _ _ _ _ _ _ _ _ _ _ _ _ _ A). lia.
    + pose proof (p4_M1 _ _ _ _ _ _ _ _ _ _ _ _ _ _ _ A) as F. rewrite Forall_forall in F. destruct (F m IC) as [X1 _]. rewrite T in X1. discriminate X1.
Qed.

Lemma keys_step y V a y' : inv S G y V -> keys_ok y -> guard S y V a -> sys_step S H G y a = Some y' -> keys_ok y'.
Proof.
  intros I KO GU E ST NE'. pose proof I as [B _].
  assert (SAME : y_coord y' = y_coord y -> (forall m, In m (y_msgs y) -> mType m = Net.ROUND_END -> exists m', In m' (y_msgs y') /\ mType m' = Net.ROUND_END) ->
     keys_in (y_coord y')).
  { intros EC EM. rewrite EC in *. apply KO; [assumption|]. intros [_ (m & Im & Tm)]. apply NE'. split; [now rewrite EC|]. destruct (EM m Im Tm) as (m' & X). now exists m'. }
  destruct a as [a priv rk|a priv s|i cr sr chal|e|a cmd]; cbn [sys_step] in E.
  - destruct GU.
  - destruct (keq a _); [discriminate|]. destruct (mget (y_servers y) a); [discriminate|].
    destruct (mget (y_clients y) a); [discriminate|]. injection E as <-. apply SAME; [reflexivity|]. cbn [y_msgs].
    intros m Im Tm. exists m. split; [apply in_or_app; now left|assumption].
  - destruct (nth_error (y_msgs y) i) as [m|] eqn:Em; [|discriminate]. cbn zeta in E.
    assert (Im : In m (y_msgs y)) by (eapply nth_error_In; exact Em).
    destruct (pick_split i _ m Em) as (l1 & l2 & EM & ER). rewrite ER in E.
    assert (OTH : forall m', In m' (y_msgs y) -> m' = m \/ In m' (l1 ++ l2)).
    { intros m' I'. rewrite EM in I'. apply in_app_or in I'. cbn [In] in I'. rewrite in_app_iff. intuition. }
    destruct (keq (mDst m) _) as [ED|ND].
    + destruct (co_handle _ _ _ _ _ _ _) as [[c' out]|] eqn:EH; [|discriminate]. injection E as <-. cbn [y_coord y_msgs] in *.
      assert (ES : co_step S G (y_coord y) (EMsg (mType m) (mParams m) (mSrc m) cr) = Some (c', out)) by exact EH.
      destruct (co_keys_step _ _ _ _ (b_ne _ _ _ _ _ B) ES ST) as [(ord & rs & X)|[X|(X1 & X2 & X3 & X4)]]; [discriminate|assumption|].
      unfold keys_in. rewrite X2, X3. apply KO; [assumption|]. intros [_ (m0 & I0 & T0)]. apply NE'. split; [assumption|].
      destruct (OTH m0 I0) as [->|J]; [now elim (X4 _ _ _ _ eq_refl)|]. exists m0. split; [apply in_or_app; now left|assumption].
    + destruct (mget (y_servers y) (mDst m)) as [s|] eqn:Es.
      * destruct (sv_handle _ _ _ _ _ _ _ _) as [[s' out]|] eqn:EH; [|discriminate]. injection E as <-. apply SAME; [reflexivity|]. cbn [y_msgs].
        intros m0 I0 T0. destruct (OTH m0 I0) as [->|J]; [|exists m0; split; [apply in_or_app; now left|assumption]].
        rewrite T0 in EH. change (sv_round_end S H s (mParams m) sr = Some (s', out)) in EH. unfold sv_round_end in EH. cbv zeta in EH.
        odestruct EH; injection EH as <- <-; (eexists; split; [apply in_or_app; right; now left|reflexivity]).
      * destruct (mget (y_clients y) (mDst m)) as [k|] eqn:Ek; [|discriminate].
        destruct (cl_handle _ _ _ _ _ _) as [[k' out]|] eqn:EH; [|discriminate]. injection E as <-. cbn [y_coord y_msgs] in *.
        apply KO; [assumption|]. intros EN. pose proof EN as [_ (m0 & I0 & T0)].
        destruct (OTH m0 I0) as [->|J]; [|apply NE'; split; [assumption|]; exists m0; split; [apply in_or_app; now left|assumption]].
        destruct (round_end_to y V m I EN Im T0) as [X|X]; contradiction.
  - destruct (is_loop e) eqn:EL; [|discriminate]. destruct (co_step _ _ _ _) as [[c' out]|] eqn:ES; [|discriminate]. injection E as <-. cbn [y_coord y_msgs] in *.
    destruct (co_keys_step _ _ _ _ (b_ne _ _ _ _ _ B) ES ST) as [(ord & rs & ->)|[X|(X1 & X2 & X3 & X4)]]; [|assumption|].
    + exfalso. apply NE'. split; [assumption|]. cbn [co_step] in ES. unfold round_end in ES.
      destruct (last_server (y_coord y)); [|injection ES as <- <-; discriminate ST].
      cbv zeta in ES. odestruct ES. injection ES as EC1 <-. cbn [y_msgs]. eexists. split; [apply in_or_app; right; now left|reflexivity].
    + unfold keys_in. rewrite X2, X3. apply KO; [assumption|]. intros [_ (m0 & I0 & T0)]. apply NE'. split; [assumption|].
      exists m0. split; [apply in_or_app; now left|assumption].
  - destruct (mget (y_clients y) a) as [k|]; [|discriminate]. destruct (cl_command S G k cmd) as [out|] eqn:EC; [|discriminate]. injection E as <-.
    apply SAME; [reflexivity|]. cbn [y_msgs]. intros m Im Tm. exists m. split; [apply in_or_app; now left|assumption].
Qed.

Lemma reach_keys y V : reach S H G y V -> keys_ok y.
Proof.
  induction 1 as [self a fb trap gammas l y1 y2 C E1 E2 E3 E4|y V a y' R IH GU E].
  - intros ST _. exfalso. cbn [sys_step is_loop] in E4. cbn [co_step co_configure] in E4. injection E4 as <-. discriminate ST.
  - eapply keys_step; try eassumption. now apply (reach_inv S OK H G GOK).
Qed.
End Keys.
