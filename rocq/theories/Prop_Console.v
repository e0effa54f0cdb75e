(** C67-C70: starting the program, the client's console and the server's port. *)
From Coq Require Import ZArith Lia List Bool.
From Coq Require Import Strings.Byte.
From Coq Require String.
From Verif Require Import Bytes Suite Codec Maps Net Bridge Config Client History System Prop_Config Console.
Import ListNotations.
Import String.StringSyntax.
Delimit Scope string_scope with str.
Open Scope Z_scope.

(** ** Specification *)
(** The roles the arguments name. *)
Inductive names_role : bytes -> role -> Prop :=
| n_0 : names_role [x30]%byte RCoordinator
| n_coordinator : names_role [x63; x6f; x6f; x72; x64; x69; x6e; x61; x74; x6f; x72]%byte RCoordinator
| n_1 : names_role [x31]%byte RServer
| n_server : names_role [x73; x65; x72; x76; x65; x72]%byte RServer
| n_2 : names_role [x32]%byte RClient
| n_client : names_role [x63; x6c; x69; x65; x6e; x74]%byte RClient.

(** Decimal numerals. *)
Definition code (b : byte) : Z := Z.of_N (Byte.to_N b).
Definition is_digit (b : byte) : Prop := 48 <= code b <= 57.
Definition value (ds : bytes) : Z := fold_left (fun a b => a * 10 + (code b - 48)) ds 0.
Definition numeral (s : bytes) (n : Z) : Prop :=
  exists sg ds, s = sg ++ ds /\ ds <> [] /\ Forall is_digit ds /\
    ((sg = [] /\ n = value ds) \/ (sg = [x2b]%byte /\ n = value ds) \/ (sg = [x2d]%byte /\ n = - value ds)).
Definition int64 (n : Z) : Prop := - 2 ^ 63 <= n < 2 ^ 63.
(** The words of a line: the pieces between single spaces. *)
Definition has_words (line : bytes) (ws : list bytes) : Prop :=
  exists w r, ws = w :: r /\ Forall (fun v => ~ In x20 v) ws /\ line = w ++ concat (map (fun v => x20 :: v) r).
(** What a well-formed line asks for; words after the arguments are ignored. *)
Inductive asks : list bytes -> console_act -> Prop :=
| a_post a r : asks ([x70; x6f; x73; x74]%byte :: a :: r) (KPost a)
| a_get s n r : numeral s n -> int64 n -> asks ([x67; x65; x74]%byte :: s :: r) (KGet n)
| a_vote s i t f r : numeral s i -> int64 i -> numeral t f -> int64 f -> asks ([x76; x6f; x74; x65]%byte :: s :: t :: r) (KVote i f)
| a_exit r : asks ([x65; x78; x69; x74]%byte :: r) KExit.
(** The lines are executed one after the other. *)
Inductive executes : list bytes -> list console_act -> ending_of -> Prop :=
| x_end : executes [] [] Waits
| x_stop l ls : do_line l = None -> executes (l :: ls) [] Stops
| x_exit l ls : do_line l = Some KExit -> executes (l :: ls) [] Exits
| x_do l ls k ks e : do_line l = Some k -> k <> KExit -> executes ls ks e -> executes (l :: ls) (k :: ks) e.

(** ** C67 *)
Lemma bytes_eqb_eq a : forall b, bytes_eqb a b = true <-> a = b.
Proof.
  induction a as [|x a IH]; intros [|y b]; cbn; try (split; [discriminate|discriminate]); [split; reflexivity|].
  rewrite andb_true_iff, byte_eqb_iff, IH. split; [intros [-> ->]; reflexivity|intros [= -> ->]; now split].
Qed.
Lemma bytes_eqb_ne a b : a <> b -> bytes_eqb a b = false.
Proof. intros N. destruct (bytes_eqb a b) eqn:E; [apply bytes_eqb_eq in E; contradiction|reflexivity]. Qed.

(** Full property: [forall a r, names_role a r -> main_role [a] = Some r]; missing: the
    numbers, which start nothing. *)
Theorem C67_roles_partial a r : names_role a r -> (forall n, a <> [n]) -> main_role [a] = Some r.
Proof. intros N L. destruct N; try reflexivity; exfalso; eapply L; reflexivity. Qed.
Theorem C67_numbers_refuted : ~ (forall a r, names_role a r -> main_role [a] = Some r).
Proof. intros C. specialize (C _ _ n_1). discriminate C. Qed.
(** Any other argument starts a coordinator, and without exactly one argument nothing starts. *)
Theorem C67_default a : (forall r, ~ names_role a r) -> main_role [a] = Some RCoordinator.
Proof.
  intros N. cbn [main_role].
  assert (X : forall w r, names_role w r -> bytes_eqb a w = false) by (intros w r W; apply bytes_eqb_ne; intros ->; exact (N r W)).
  rewrite (X w_0 _ n_0), (X w_coordinator _ n_coordinator), (X w_1 _ n_1), (X w_server _ n_server), (X w_2 _ n_2), (X w_client _ n_client). reflexivity.
Qed.
Theorem C67_one_argument args : length args <> 1%nat -> main_role args = None.
Proof. destruct args as [|a [|b r]]; [reflexivity|intros N; exfalso; now apply N|reflexivity]. Qed.
Example C67_instance : exists a, (forall r, ~ names_role a r) /\ length [a; a] <> 1%nat.
Proof. exists [x73]%byte. split; [intros r N; inversion N|discriminate]. Qed.

(** ** Numbers *)
Lemma digit_some b : is_digit b -> digit b = Some (code b - 48).
Proof.
  unfold is_digit, digit. fold (code b). intros [L U]. cbv zeta. rewrite (proj2 (Z.leb_le _ _) L), (proj2 (Z.leb_le _ _) U). reflexivity.
Qed.
Lemma digit_none b : ~ is_digit b -> digit b = None.
Proof.
  unfold is_digit, digit. fold (code b). intros N. cbv zeta. destruct (Z.leb_spec 48 (code b)); [|reflexivity].
  destruct (Z.leb_spec (code b) 57); [exfalso; lia|reflexivity].
Qed.
Definition value_from (a : Z) (ds : bytes) : Z := fold_left (fun a b => a * 10 + (code b - 48)) ds a.
Lemma value_ge ds : forall a, 0 <= a -> Forall is_digit ds -> a <= value_from a ds.
Proof.
  induction ds as [|b ds IH]; intros a A F; cbn; [unfold value_from; cbn; lia|]. inversion F as [|? ? Fb Fd]; subst. unfold is_digit in Fb.
  unfold value_from. cbn [fold_left]. fold (value_from (a * 10 + (code b - 48)) ds). specialize (IH (a * 10 + (code b - 48))). lia || (etransitivity; [|apply IH]; [lia|lia|assumption]).
Qed.
Lemma parse_uint_spec ds : forall a, 0 <= a <= max_uint -> Forall is_digit ds -> parse_uint a ds = Some (Z.min (value_from a ds) max_uint).
Proof.
  induction ds as [|b ds IH]; intros a A F; [cbn [parse_uint]; unfold value_from; cbn [fold_left]; f_equal; lia|].
  inversion F as [|? ? Fb Fd]; subst. cbn [parse_uint]. rewrite digit_some by assumption. unfold is_digit in Fb.
  assert (M : max_uint / 10 * 10 + 5 = max_uint) by reflexivity.
  unfold value_from. cbn [fold_left]. fold (value_from (a * 10 + (code b - 48)) ds).
  destruct (Z.leb_spec (max_uint / 10 + 1) a) as [L|L].
  - pose proof (value_ge ds (a * 10 + (code b - 48)) ltac:(lia) Fd). f_equal. lia.
  - destruct (Z.ltb_spec max_uint (a * 10 + (code b - 48))) as [L2|L2].
    + pose proof (value_ge ds (a * 10 + (code b - 48)) ltac:(lia) Fd). f_equal. lia.
    + apply IH; [lia|assumption].
Qed.
Definition clip (n : Z) : Z := Z.max (- 2 ^ 63) (Z.min n (2 ^ 63 - 1)).
Lemma unsigned_spec (neg : bool) ds : ds <> [] -> Forall is_digit ds ->
  let n := if neg then - value ds else value ds in
  fst (unsigned neg ds) = clip n /\ (snd (unsigned neg ds) = true <-> int64 n).
Proof.
  intros NE F n. unfold unsigned. destruct ds as [|b ds]; [contradiction|]. rewrite parse_uint_spec by (assumption || (unfold max_uint; lia)).
  change (value_from 0 (b :: ds)) with (value (b :: ds)). pose proof (value_ge (b :: ds) 0 (Z.le_refl 0) F) as V. change (value_from 0 (b :: ds)) with (value (b :: ds)) in V.
  set (v := value (b :: ds)) in *. unfold n, clip, int64, max_uint. clear - V. destruct neg.
  - destruct (Z.ltb_spec (2 ^ 63) (Z.min v (2 ^ 64 - 1))); cbn [fst snd]; (split; [lia|]; split; [try discriminate; lia|try reflexivity; lia]).
  - destruct (Z.leb_spec (2 ^ 63) (Z.min v (2 ^ 64 - 1))); cbn [fst snd]; (split; [lia|]; split; [try discriminate; lia|try reflexivity; lia]).
Qed.
Lemma atoi_spec s n : numeral s n -> fst (atoi s) = clip n /\ (snd (atoi s) = true <-> int64 n).
Proof.
  intros (sg & ds & -> & NE & F & C). destruct C as [[-> ->]|[[-> ->]|[-> ->]]]; cbn [app].
  - destruct ds as [|b ds]; [contradiction|]. unfold atoi. inversion F as [|? ? Fb _]; subst. unfold is_digit, code in Fb.
    destruct (Byte.eqb b x2b) eqn:E1; [apply byte_eqb_iff in E1; subst b; cbn in Fb; lia|].
    destruct (Byte.eqb b x2d) eqn:E2; [apply byte_eqb_iff in E2; subst b; cbn in Fb; lia|]. exact (unsigned_spec false (b :: ds) NE F).
  - exact (unsigned_spec false ds NE F).
  - exact (unsigned_spec true ds NE F).
Qed.
Lemma clip_id n : int64 n -> clip n = n.
Proof. unfold int64, clip. lia. Qed.
(** Every number has a numeral. *)
Lemma digit_byte d : 0 <= d <= 9 -> exists b, is_digit b /\ code b = 48 + d.
Proof.
  intros D. destruct (Byte.of_N (Z.to_N (48 + d))) as [b|] eqn:E.
  - exists b. apply Byte.to_of_N in E. unfold is_digit, code. rewrite E. rewrite Z2N.id by lia. lia.
  - exfalso. apply Byte.of_N_None_iff in E. lia.
Qed.
Lemma value_snoc ds b : value (ds ++ [b]) = value ds * 10 + (code b - 48).
Proof. unfold value. rewrite fold_left_app. reflexivity. Qed.
Lemma numeral_nat k : forall n, 0 <= n -> n < Z.of_nat k -> exists ds, ds <> [] /\ Forall is_digit ds /\ value ds = n.
Proof.
  induction k as [|k IH]; intros n L U; [lia|]. destruct (Z.ltb_spec n 10) as [S|S].
  - destruct (digit_byte n ltac:(lia)) as (b & B1 & B2). exists [b]. split; [discriminate|]. split; [now constructor|]. unfold value. cbn. lia.
  - assert (D : 0 <= n / 10 < n) by (split; [apply Z.div_pos; lia|apply Z.div_lt; lia]).
    destruct (IH (n / 10)) as (ds & N1 & N2 & N3); [lia|lia|]. pose proof (Z.mod_pos_bound n 10 ltac:(lia)) as M. pose proof (Z.div_mod n 10 ltac:(lia)) as DM.
    destruct (digit_byte (n mod 10) ltac:(lia)) as (b & B1 & B2). exists (ds ++ [b]). split; [intros X; now apply app_eq_nil in X as [X _]|].
    split; [apply Forall_app; split; [assumption|now constructor]|]. rewrite value_snoc. lia.
Qed.
Lemma numeral_exists n : exists s, numeral s n.
Proof.
  destruct (Z.leb_spec 0 n) as [L|L].
  - destruct (numeral_nat (Z.to_nat (n + 1)) n L ltac:(lia)) as (ds & N1 & N2 & N3). exists ds, [], ds. split; [reflexivity|]. rewrite N3. auto.
  - destruct (numeral_nat (Z.to_nat (- n + 1)) (- n) ltac:(lia) ltac:(lia)) as (ds & N1 & N2 & N3). exists ([x2d]%byte ++ ds), [x2d]%byte, ds.
    split; [reflexivity|]. split; [assumption|]. split; [assumption|]. right. right. split; [reflexivity|lia].
Qed.

(** ** C68 *)
Lemma words_split line ws : has_words line ws -> split sp line = ws.
Proof.
  intros (w & r & -> & F & ->). revert w F. induction r as [|v r IH]; intros w F; cbn [map concat]; inversion F as [|? ? Fw Fr]; subst.
  - rewrite app_nil_r. now apply split_none.
  - cbn [app]. unfold sp. rewrite split_cons by assumption. f_equal. now apply IH.
Qed.
Lemma has_words_exists line : exists ws, has_words line ws.
Proof.
  destruct (split_exists sp line) as (full & rest & E & F & R). rewrite E. clear E. induction full as [|l full IH].
  - exists [rest]. exists rest, []. split; [reflexivity|]. split; [now constructor|]. cbn. now rewrite app_nil_r.
  - destruct IH as (ws & w & r & -> & FW & E); [intros l' I; apply F; now right|]. exists (l :: w :: r). exists l, (w :: r). split; [reflexivity|]. split.
    + constructor; [apply F; now left|assumption].
    + cbn [map concat]. rewrite <- !app_assoc. cbn [app]. f_equal. unfold sp in *. f_equal. exact E.
Qed.

Theorem C68_command_executed line ws k : has_words line ws -> asks ws k -> do_line line = Some k.
Proof.
  intros W A. unfold do_line. rewrite (words_split _ _ W). destruct A as [a r|s n r N I|s i t f r N I N2 I2|r]; cbn [nth_error]; try reflexivity.
  - change (do_line line) with (do_line line). cbn. destruct (atoi_spec s n N) as [-> _]. now rewrite clip_id.
  - cbn. destruct (atoi_spec s i N) as [-> _]. destruct (atoi_spec t f N2) as [-> _]. now rewrite !clip_id.
Qed.
(** What else a line can do: it stops the client exactly when a command lacks a word, and does
    nothing when its first word is no command. *)
Theorem C68_line_stops line ws : has_words line ws ->
  (do_line line = None <->
   ws = [[x70; x6f; x73; x74]%byte] \/ ws = [[x67; x65; x74]%byte] \/
   ws = [[x76; x6f; x74; x65]%byte] \/ (exists a, ws = [[x76; x6f; x74; x65]%byte; a])).
Proof.
  intros W. unfold do_line. rewrite (words_split _ _ W). destruct W as (w & r & -> & _ & _).
  destruct (bytes_eqb w w_vote) eqn:E1; [apply bytes_eqb_eq in E1; subst w|].
  { destruct r as [|a [|b r]]; cbn; split; intros X; try discriminate; try reflexivity; auto; try (right; right; right; now exists a).
    - exfalso. destruct X as [X|[X|[X|(c & X)]]]; discriminate X. }
  destruct (bytes_eqb w w_post) eqn:E2; [apply bytes_eqb_eq in E2; subst w|].
  { destruct r as [|a r]; cbn; split; intros X; try discriminate; try reflexivity; auto. exfalso. destruct X as [X|[X|[X|(c & X)]]]; discriminate X. }
  destruct (bytes_eqb w w_get) eqn:E3; [apply bytes_eqb_eq in E3; subst w|].
  { destruct r as [|a r]; cbn; split; intros X; try discriminate; try reflexivity; auto. exfalso. destruct X as [X|[X|[X|(c & X)]]]; discriminate X. }
  destruct (bytes_eqb w w_exit); (split; [discriminate|]); intros X; exfalso;
    destruct X as [X|[X|[X|(c & X)]]]; injection X as -> _; (now rewrite (proj2 (bytes_eqb_eq _ _) eq_refl) in E1) ||
    (now rewrite (proj2 (bytes_eqb_eq _ _) eq_refl) in E2) || (now rewrite (proj2 (bytes_eqb_eq _ _) eq_refl) in E3).
Qed.
Definition is_command (w : bytes) : Prop :=
  w = [x70; x6f; x73; x74]%byte \/ w = [x67; x65; x74]%byte \/ w = [x76; x6f; x74; x65]%byte \/ w = [x65; x78; x69; x74]%byte.
Theorem C68_other_words line w r : has_words line (w :: r) -> (do_line line = Some KNothing <-> ~ is_command w).
Proof.
  intros W. unfold do_line. rewrite (words_split _ _ W). split.
  - intros E C. destruct C as [-> | [-> | [-> | -> ]]]; cbn in E; destruct r as [|a [|b r]]; discriminate E.
  - intros N. unfold is_command in N. rewrite !bytes_eqb_ne; [reflexivity|..]; intros ->; apply N; unfold w_vote, w_post, w_get, w_exit; auto.
Qed.
(** The property asks that a line that is no well-formed command does nothing. *)
Theorem C68_ill_formed_line_refuted :
  ~ (forall line ws, has_words line ws -> (forall k, ~ asks ws k) -> do_line line = Some KNothing) /\
  (exists line ws, has_words line ws /\ (forall k, ~ asks ws k) /\ do_line line = None) /\
  (exists line ws n, has_words line ws /\ (forall k, ~ asks ws k) /\ do_line line = Some (KGet n)).
Proof.
  assert (A : exists line ws, has_words line ws /\ (forall k, ~ asks ws k) /\ do_line line = None).
  { exists [x67; x65; x74]%byte, [[x67; x65; x74]%byte]. split; [|split; [intros k A; inversion A|reflexivity]].
    exists [x67; x65; x74]%byte, []. split; [reflexivity|]; split; [|reflexivity]. constructor; [|constructor]. cbn. intuition discriminate. }
  split; [|split; [exact A|]].
  - intros C. destruct A as (line & ws & A1 & A2 & A3). specialize (C line ws A1 A2). rewrite A3 in C. discriminate C.
  - exists [x67; x65; x74; x20; x78]%byte, [[x67; x65; x74]%byte; [x78]%byte], 0. split; [|split; [|reflexivity]].
    + exists [x67; x65; x74]%byte, [[x78]%byte]. split; [reflexivity|]; split; [|reflexivity]. repeat constructor; cbn; intuition discriminate.
    + intros k A0. inversion A0 as [|s n r N I| |]; subst. destruct N as (sg & ds & E & NE & F & C).
      destruct C as [[-> _]|[[-> _]|[-> _]]]; cbn [app] in E; [|discriminate E|discriminate E]. subst ds. inversion F as [|? ? Fb _]; subst. unfold is_digit in Fb. cbn in Fb. lia.
Qed.
(** What the client then sends.  "post a" offers the bridge a under its pseudonym. *)
Theorem C68_post_sends S G c rn line ws a : has_words line ws -> asks ws (KPost a) ->
  exists m, line_msgs S G c rn line = Some [m] /\ mType m = POST_BRIDGE /\ mDst m = cl_coord c /\ mSrc m = cl_addr c /\
    get_str (mParams m) "bridge_addr"%str = Some a /\ get_bytes (mParams m) "nym"%str = Some (enc_point S (cl_nym c)).
Proof.
  intros W A. unfold line_msgs. rewrite (C68_command_executed _ _ _ W A). cbn [act_command cl_command]. eexists. split; [reflexivity|].
  repeat split.
Qed.
(** "get n" asks for n bridges, unless n exceeds the client's reputation. *)
Theorem C68_get_sends S G c rn line ws n : has_words line ws -> asks ws (KGet n) ->
  (cl_rep c < n -> line_msgs S G c rn line = Some []) /\
  (n <= cl_rep c -> forall ms, line_msgs S G c rn line = Some ms ->
     exists m, ms = [m] /\ mType m = REQUEST_BRIDGES /\ mDst m = cl_coord c /\ mSrc m = cl_addr c /\
       get_int (mParams m) "ind"%str = Some n /\ get_bytes (mParams m) "nym"%str = Some (enc_point S (cl_nym c))).
Proof.
  intros W A. unfold line_msgs. rewrite (C68_command_executed _ _ _ W A). cbn [act_command cl_command]. split.
  - intros L. unfold cl_request. now rewrite (proj2 (Z.ltb_lt _ _) L).
  - intros L ms E. destruct (cl_request S G c n rn) as [r|] eqn:Er; [|discriminate]. injection E as <-.
    unfold cl_request in Er. rewrite (proj2 (Z.ltb_ge _ _) L) in Er. cbv zeta in Er. odestruct Er. injection Er as <-.
    eexists. split; [reflexivity|]. repeat split.
Qed.
(** "vote i f" votes on the i-th assignment the client holds (counted from 0), for the bridge
    if f is positive and against it otherwise; without such an assignment the client stops. *)
Theorem C68_vote_sends S G c rn line ws i f : has_words line ws -> asks ws (KVote i f) ->
  (forall x bs, 0 <= i -> nth_error (cl_assigns c) (Z.to_nat i) = Some (x, bs) ->
     exists m, line_msgs S G c rn line = Some [m] /\ mType m = Net.VOTE /\ mDst m = cl_coord c /\ mSrc m = cl_addr c /\
       get_int (mParams m) "feedback"%str = Some (if 0 <? f then 1 else -1) /\
       get_bytes (mParams m) "assignment"%str = Some (enc_assignment S x) /\ get_bytes (mParams m) "signatures"%str = Some bs /\
       get_bytes (mParams m) "nym"%str = Some (enc_point S (cl_nym c))) /\
  (i < 0 \/ Z.of_nat (length (cl_assigns c)) <= i -> line_msgs S G c rn line = None).
Proof.
  intros W A. unfold line_msgs. rewrite (C68_command_executed _ _ _ W A). cbn [act_command cl_command]. unfold cl_vote. split.
  - intros x bs I E. rewrite (proj2 (Z.ltb_ge _ _) I), E. cbv zeta.
    unfold msg_vote, get_bytes, get_int. cbn [lookup String.eqb Ascii.eqb Bool.eqb]. eexists. split; [reflexivity|].
    cbn [mType mDst mSrc mParams app lookup String.eqb Ascii.eqb Bool.eqb]. repeat split.
  - intros [L|L]; [now rewrite (proj2 (Z.ltb_lt _ _) L)|]. rewrite (proj2 (Z.ltb_ge _ _)) by lia.
    rewrite (proj2 (nth_error_None _ _)) by lia. reflexivity.
Qed.
(** "exit" and lines whose first word is no command send nothing. *)
Theorem C68_rest_sends_nothing S G c rn line : do_line line = Some KExit \/ do_line line = Some KNothing ->
  line_msgs S G c rn line = Some [].
Proof. intros [E|E]; unfold line_msgs; now rewrite E. Qed.
Example C68_instance : exists line ws, has_words line ws /\ asks ws (KVote 0 (-1)).
Proof.
  exists [x76; x6f; x74; x65; x20; x30; x20; x2d; x31]%byte, [[x76; x6f; x74; x65]%byte; [x30]%byte; [x2d; x31]%byte]. split.
  - exists [x76; x6f; x74; x65]%byte, [[x30]%byte; [x2d; x31]%byte]. split; [reflexivity|]; split; [|reflexivity]. repeat constructor; cbn; intuition discriminate.
  - apply a_vote; try (unfold int64; lia).
    + exists [], [x30]%byte. split; [reflexivity|]; split; [discriminate|]; split; [|now left]. constructor; [unfold is_digit; cbn; lia|constructor].
    + exists [x2d]%byte, [x31]%byte. split; [reflexivity|]; split; [discriminate|]; split; [|now right; right]. constructor; [unfold is_digit; cbn; lia|constructor].
Qed.

(** ** C69 *)
Lemma find_nl_app l r : ~ In nl l -> find_nl (l ++ nl :: r) = Some (length l).
Proof.
  induction l as [|b l IH]; intros N; cbn; [reflexivity|].
  destruct (Byte.eqb b nl) eqn:E; [apply byte_eqb_iff in E; exfalso; apply N; now left|]. rewrite IH; [reflexivity|]. intros I. apply N. now right.
Qed.
Lemma find_nl_none l : ~ In nl l -> find_nl l = None.
Proof.
  induction l as [|b l IH]; intros N; cbn; [reflexivity|].
  destruct (Byte.eqb b nl) eqn:E; [apply byte_eqb_iff in E; exfalso; apply N; now left|]. rewrite IH; [reflexivity|]. intros I. apply N. now right.
Qed.
Lemma read_line_full l r : ~ In nl l -> (length l < buf_size)%nat -> read_line (l ++ nl :: r) = (drop_cr l, r).
Proof.
  intros N L. unfold read_line. rewrite firstn_app. rewrite firstn_all2 by lia. destruct (buf_size - length l)%nat as [|n] eqn:E; [lia|].
  cbn [firstn]. rewrite find_nl_app by assumption. rewrite firstn_app, firstn_all, Nat.sub_diag. cbn [firstn]. rewrite app_nil_r. f_equal.
  rewrite skipn_app, skipn_all2 by lia. replace (S (length l) - length l)%nat with 1%nat by lia. reflexivity.
Qed.
Lemma read_line_last l : ~ In nl l -> (length l < buf_size)%nat -> read_line l = (l, []).
Proof.
  intros N L. unfold read_line. rewrite firstn_all2 by lia. rewrite find_nl_none by assumption. now rewrite (proj2 (Nat.ltb_lt _ _) L).
Qed.
Lemma read_line_piece l r : ~ In nl l -> length l = buf_size -> (forall p, l <> p ++ [cr]) -> read_line (l ++ r) = (l, r).
Proof.
  intros N L C. assert (B : buf_size <> 0%nat) by (unfold buf_size; lia). unfold read_line. rewrite firstn_app, <- L, firstn_all, Nat.sub_diag. cbn [firstn]. rewrite app_nil_r, find_nl_none by assumption.
  rewrite app_length. destruct (Nat.ltb_spec (length l + length r) (length l)); [lia|].
  assert (NC : nth (length l - 1) l x00%byte <> cr).
  { intros X. apply (C (removelast l)). rewrite <- X. rewrite (app_removelast_last x00%byte (l := l)) at 1; [|intros E; apply B; rewrite <- L, E; reflexivity].
    f_equal. f_equal. clear - L B. destruct (rev l) as [|b q] eqn:E.
    - assert (l = []) by (rewrite <- (rev_involutive l), E; reflexivity). subst l. reflexivity.
    - assert (El : l = rev q ++ [b]) by (rewrite <- (rev_involutive l), E; reflexivity). rewrite El, last_last, app_length. cbn [length].
      rewrite Nat.add_sub. rewrite app_nth2 by lia. now rewrite Nat.sub_diag. }
  rewrite app_nth1 by lia. destruct (Byte.eqb (nth (length l - 1) l x00%byte) cr) eqn:E; [apply byte_eqb_iff in E; contradiction|].
  rewrite skipn_app, skipn_all, Nat.sub_diag. reflexivity.
Qed.

(** The loop gives the same with more fuel than it needs. *)
Lemma executes_ex ls : exists ks e, executes ls ks e.
Proof.
  induction ls as [|l ls (ks & e & IH)]; [exists [], Waits; constructor|]. destruct (do_line l) as [k|] eqn:E; [|exists [], Stops; now constructor].
  destruct k; try (do 2 eexists; eapply x_do; [eassumption|discriminate|eassumption]). exists [], Exits. now constructor.
Qed.
Lemma console_nil f : console f [] = ([], Waits).
Proof. destruct f; reflexivity. Qed.
(** Pieces that [read_line] takes one after the other. *)
Inductive read_as : bytes -> list bytes -> Prop :=
| ra_nil : read_as [] []
| ra_cons inp line rest ls : inp <> [] -> read_line inp = (line, rest) -> (length rest < length inp)%nat -> read_as rest ls -> read_as inp (line :: ls).
Lemma read_as_exec inp ls : read_as inp ls -> forall ks e f, executes ls ks e -> (length inp <= f)%nat -> console f inp = (ks, e).
Proof.
  induction 1 as [|inp line rest ls NE RL LT _ IH]; intros ks e f X L.
  - inversion X; subst. apply console_nil.
  - destruct f as [|f]; [destruct inp; [contradiction|cbn in L; lia]|]. destruct inp as [|b inp]; [contradiction|]. cbn [console]. rewrite RL.
    inversion X as [|? ? D|? ? D|? ? k ks' ? D NK X']; subst; rewrite D; try reflexivity.
    destruct k; try contradiction; rewrite (IH _ _ f X') by (cbn in *; lia); reflexivity.
Qed.

Lemma drop_cr_without raw l : without_cr raw l -> drop_cr raw = l.
Proof.
  unfold drop_cr. intros [->|[-> N]].
  - rewrite rev_app_distr. cbn [rev app]. change (Byte.eqb x0d cr) with true. cbv iota. apply rev_involutive.
  - destruct (rev l) as [|b r] eqn:E; [reflexivity|]. destruct (Byte.eqb b cr) eqn:EB; [|reflexivity]. apply byte_eqb_iff in EB. subst b.
    exfalso. apply (N (rev r)). now rewrite <- (rev_involutive l), E.
Qed.
Theorem C69_lines_executed_partial raw ls rest ks e : Forall (fun l => ~ In x0a l /\ (length l < 4096)%nat) raw -> Forall2 without_cr raw ls ->
  ~ In x0a rest -> (length rest < 4096)%nat -> executes (ls ++ match rest with [] => [] | _ => [rest] end) ks e ->
  run_console (concat (map (fun l : bytes => l ++ [x0a]%byte) raw) ++ rest) = (ks, e).
Proof.
  intros F W NR LR X. unfold run_console. eapply read_as_exec; [|exact X|reflexivity]. clear X. change 4096%nat with buf_size in *. induction W as [|r l raw ls WR _ IH]; cbn [map concat app].
  - destruct rest as [|b rest]; [constructor|]. econstructor; [discriminate|apply read_line_last; assumption|cbn; lia|constructor].
  - inversion F as [|? ? [F1 F2] F3]; subst. rewrite <- app_assoc, <- app_assoc. cbn [app]. econstructor.
    + intros E. now apply app_eq_nil in E as [_ E].
    + rewrite (read_line_full r), (drop_cr_without _ _ WR) by assumption. reflexivity.
    + rewrite !app_length. cbn [length]. rewrite app_length. lia.
    + exact (IH F3).
Qed.
(** A longer line is executed in pieces: whatever follows the first 4096 bytes is a command
    of its own. *)
Theorem C69_long_line_in_pieces line1 line2 ks e : length line1 = 4096%nat -> (length line2 < 4096)%nat ->
  ~ In x0a line1 -> ~ In x0a line2 -> (forall p, line1 <> p ++ [x0d]%byte) -> (forall p, line2 <> p ++ [x0d]%byte) ->
  executes [line1; line2] ks e -> run_console (line1 ++ line2 ++ [x0a]%byte) = (ks, e).
Proof.
  intros L1 L2 N1 N2 C1 C2 X. unfold run_console. eapply read_as_exec; [|exact X|reflexivity].
  assert (NE : line1 <> []) by (intros ->; discriminate L1).
  econstructor; [intros E; apply app_eq_nil in E as [E _]; contradiction|apply read_line_piece; assumption| |].
  - rewrite !app_length. lia.
  - assert (D2 : drop_cr line2 = line2) by (apply drop_cr_without; right; split; [reflexivity|assumption]).
    eapply (ra_cons _ line2 []); [intros E; now apply app_eq_nil in E as [_ E]|rewrite <- D2 at 2; apply (read_line_full line2 []); [assumption|exact L2]|rewrite app_length; cbn; lia|constructor].
Qed.
Lemma executes_one l k ks e : do_line l = Some k -> k <> KExit -> executes [l] ks e -> e = Waits.
Proof. intros D NK X. inversion X as [|? ? D'|? ? D'|? ? k' ks' ? D' _ X']; subst; [congruence|congruence|]. now inversion X'. Qed.
Definition long1 : bytes := [x70; x6f; x73; x74; x20]%byte ++ repeat x61%byte 4091.
Definition long2 : bytes := [x65; x78; x69; x74]%byte.
Theorem C69_one_command_per_line_refuted :
  ~ (forall line ks e, ~ In x0a line -> (forall p, line <> p ++ [x0d]%byte) -> executes [line] ks e -> run_console (line ++ [x0a]%byte) = (ks, e)).
Proof.
  intros C.
  assert (NI : forall b, b = x0a \/ b = x0d -> ~ In b (long1 ++ long2)).
  { intros b B I. unfold long1, long2 in I. rewrite !in_app_iff in I. destruct I as [[I|I]|I].
    - destruct B as [-> | ->]; cbn in I; intuition discriminate.
    - apply repeat_spec in I. destruct B as [-> | ->]; discriminate I.
    - destruct B as [-> | ->]; cbn in I; intuition discriminate. }
  assert (ND : forall p, long1 ++ long2 <> p ++ [x0d]%byte).
  { intros p E. apply (NI x0d); [now right|]. rewrite E. apply in_or_app. right. now left. }
  destruct (executes_ex [long1 ++ long2]) as (ks & e & X).
  assert (EE : e = Waits).
  { assert (W : has_words (long1 ++ long2) [[x70; x6f; x73; x74]%byte; repeat x61%byte 4091 ++ long2]).
    { exists [x70; x6f; x73; x74]%byte, [repeat x61%byte 4091 ++ long2]. split; [reflexivity|]. split.
      - constructor; [cbn; intuition discriminate|]. constructor; [|constructor]. intros I. apply in_app_or in I. destruct I as [I|I]; [apply repeat_spec in I; discriminate I|cbn in I; intuition discriminate].
      - cbn [map concat]. rewrite app_nil_r. unfold long1. now rewrite <- app_assoc. }
    pose proof (C68_command_executed _ _ _ W (a_post _ [])) as D.
    exact (executes_one _ _ _ _ D ltac:(discriminate) X). }
  specialize (C _ _ _ (NI _ (or_introl eq_refl)) ND X). rewrite EE in C. rewrite <- app_assoc in C.
  assert (X2 : executes [long1; long2] [KPost (repeat x61%byte 4091)] Exits).
  { apply x_do; [|discriminate|].
    - apply (C68_command_executed _ [[x70; x6f; x73; x74]%byte; repeat x61%byte 4091]); [|constructor].
      exists [x70; x6f; x73; x74]%byte, [repeat x61%byte 4091]. split; [reflexivity|]. split.
      + constructor; [cbn; intuition discriminate|]. constructor; [|constructor]. intros I. apply repeat_spec in I. discriminate I.
      + cbn [map concat]. now rewrite app_nil_r.
    - apply x_exit. reflexivity. }
  rewrite (C69_long_line_in_pieces long1 long2 _ _) with (7 := X2) in C; [discriminate C|..].
  - unfold long1. rewrite app_length, repeat_length. reflexivity.
  - cbn. lia.
  - intros I. apply (NI x0a); [now left|]. apply in_or_app. now left.
  - intros I. apply (NI x0a); [now left|]. apply in_or_app. now right.
  - intros p E. apply (NI x0d); [now right|]. apply in_or_app. left. rewrite E. apply in_or_app. right. now left.
  - intros p E. apply (NI x0d); [now right|]. apply in_or_app. right. rewrite E. apply in_or_app. right. now left.
Qed.
(** What becomes of any input whatever: it is cut at its line ends, a carriage return before a
    line end goes with it, and where 4096 bytes hold no line end it is cut after them, or before
    the last of them if that is a carriage return.  No other byte is dropped. *)
Inductive cut_into : bytes -> list bytes -> Prop :=
| cut_nothing : cut_into [] []
| cut_line raw l r ls : ~ In x0a raw -> (length raw < 4096)%nat -> without_cr raw l -> cut_into r ls -> cut_into (raw ++ x0a%byte :: r) (l :: ls)
| cut_last l : l <> [] -> ~ In x0a l -> (length l < 4096)%nat -> cut_into l [l]
| cut_piece l r ls : ~ In x0a l -> length l = 4096%nat -> (forall p, l <> p ++ [x0d]%byte) -> cut_into r ls -> cut_into (l ++ r) (l :: ls)
| cut_before_cr l r ls : ~ In x0a l -> length l = 4095%nat -> cut_into (x0d%byte :: r) ls -> cut_into (l ++ x0d%byte :: r) (l :: ls).
Lemma read_line_piece_cr l r : ~ In nl l -> length l = (buf_size - 1)%nat -> read_line (l ++ cr :: r) = (l, cr :: r).
Proof.
  intros N L. assert (B : buf_size = S (length l)) by (rewrite L; unfold buf_size; lia). unfold read_line. rewrite B.
  replace (firstn (S (length l)) (l ++ cr :: r)) with (l ++ [cr]).
  - rewrite find_nl_none; [|intros I; apply in_app_or in I; destruct I as [I|[I|[]]]; [contradiction|discriminate I]].
    rewrite app_length. cbn [length]. destruct (Nat.ltb_spec (length l + S (length r)) (S (length l))); [lia|].
    replace (S (length l) - 1)%nat with (length l) by lia. rewrite app_nth2 by lia. rewrite Nat.sub_diag. cbn [nth].
    change (Byte.eqb cr cr) with true. cbv iota. rewrite firstn_app, firstn_all, skipn_app, skipn_all, Nat.sub_diag. cbn [firstn skipn app]. now rewrite app_nil_r.
  - rewrite firstn_app, firstn_all2 by lia. replace (S (length l) - length l)%nat with 1%nat by lia. reflexivity.
Qed.
Lemma cut_read inp ls : cut_into inp ls -> read_as inp ls.
Proof.
  induction 1 as [|raw l r ls N L W _ IH|l NE N L|l r ls N L C _ IH|l r ls N L _ IH].
  - constructor.
  - econstructor; [intros E; now apply app_eq_nil in E as [_ E]|rewrite read_line_full, (drop_cr_without _ _ W) by assumption; reflexivity| |exact IH].
    rewrite app_length. cbn [length]. lia.
  - econstructor; [assumption|apply read_line_last; assumption| |constructor]. destruct l; [contradiction|cbn; lia].
  - econstructor; [intros E; apply app_eq_nil in E as [E _]; subst l; discriminate L|apply read_line_piece; assumption| |exact IH]. rewrite app_length, L. lia.
  - econstructor; [intros E; now apply app_eq_nil in E as [_ E]|apply read_line_piece_cr; assumption| |exact IH]. rewrite app_length, L. cbn [length]. lia.
Qed.
Lemma first_nl l : (exists p q, l = p ++ x0a%byte :: q /\ ~ In x0a p) \/ ~ In x0a l.
Proof.
  induction l as [|b l [(p & q & -> & N)|N]]; [right; intros []| |].
  - left. destruct (Byte.eqb b x0a) eqn:E; [apply byte_eqb_iff in E; subst b; exists [], (p ++ x0a%byte :: q); split; [reflexivity|intros []]|].
    exists (b :: p), q. split; [reflexivity|]. intros [-> |I]; [discriminate E|contradiction].
  - destruct (Byte.eqb b x0a) eqn:E; [apply byte_eqb_iff in E; subst b; left; exists [], l; split; [reflexivity|intros []]|].
    right. intros [-> |I]; [discriminate E|contradiction].
Qed.
Lemma last_cr l : (exists p, l = p ++ [x0d]%byte) \/ (forall p, l <> p ++ [x0d]%byte).
Proof.
  destruct (rev l) as [|b q] eqn:E.
  - right. intros p ->. rewrite rev_app_distr in E. discriminate E.
  - assert (EL : l = rev q ++ [b]) by (now rewrite <- (rev_involutive l), E). destruct (Byte.eqb b x0d) eqn:EB.
    + apply byte_eqb_iff in EB. subst b. left. now exists (rev q).
    + right. intros p H. rewrite EL in H. apply app_inj_tail in H as [_ ->]. discriminate EB.
Qed.
Lemma cut_exists_n : forall n inp, (length inp <= n)%nat -> exists ls, cut_into inp ls.
Proof.
  induction n as [|n IH]; intros inp HL.
  { destruct inp; [exists []; constructor|cbn in HL; lia]. }
  destruct inp as [|b0 inp0] eqn:EI; [exists []; constructor|]. rewrite <- EI in *. assert (NE : inp <> []) by (rewrite EI; discriminate). clear b0 inp0 EI.
  destruct (Nat.lt_ge_cases (length inp) 4096) as [S|B].
  - destruct (first_nl inp) as [(p & q & -> & N)|N]; [|exists [inp]; now constructor].
    rewrite app_length in *. cbn [length] in *. destruct (IH q ltac:(lia)) as (ls & C).
    destruct (last_cr p) as [(p' & ->)|NC].
    + exists (p' :: ls). apply cut_line; [assumption|lia|now left|assumption].
    + exists (p :: ls). apply cut_line; [assumption|lia|right; now split|assumption].
  - pose proof (firstn_skipn 4096 inp) as FS. set (h := firstn 4096 inp) in *. set (t := skipn 4096 inp) in *.
    assert (LH : length h = 4096%nat) by (unfold h; rewrite firstn_length; lia). clearbody h t. subst inp.
    rewrite app_length in HL.
    destruct (first_nl h) as [(p & q & -> & N)|N].
    + rewrite app_length in *. cbn [length] in *. destruct (IH (q ++ t) ltac:(rewrite app_length; lia)) as (ls & C).
      rewrite <- app_assoc. cbn [app]. destruct (last_cr p) as [(p' & ->)|NC].
      * exists (p' :: ls). apply cut_line; [assumption|lia|now left|assumption].
      * exists (p :: ls). apply cut_line; [assumption|lia|right; now split|assumption].
    + destruct (last_cr h) as [(p & ->)|NC].
      * rewrite app_length in *. cbn [length] in *. destruct (IH (x0d%byte :: t) ltac:(cbn [length]; lia)) as (ls & C).
        exists (p :: ls). rewrite <- app_assoc. cbn [app]. apply cut_before_cr; [intros I; apply N; apply in_or_app; now left|lia|assumption].
      * destruct (IH t ltac:(lia)) as (ls & C). exists (h :: ls). now apply cut_piece.
Qed.
Theorem C69_every_input inp : exists ls, cut_into inp ls /\
  forall ks e, executes ls ks e -> run_console inp = (ks, e).
Proof.
  destruct (cut_exists_n (length inp) inp (le_n _)) as (ls & C). exists ls. split; [assumption|]. intros ks e X.
  unfold run_console. eapply read_as_exec; [apply cut_read; exact C|exact X|reflexivity].
Qed.
(** There is one way to cut an input. *)
Theorem C69_one_cut inp ls ls' : cut_into inp ls -> cut_into inp ls' -> ls = ls'.
Proof.
  intros A B. apply cut_read in A. apply cut_read in B. revert ls' B.
  induction A as [|inp line rest ls NE RL LT _ IH]; intros ls' B; inversion B as [|? line' rest' ls2 NE' RL' LT' B']; subst; try contradiction; [reflexivity|].
  rewrite RL in RL'. injection RL' as <- <-. f_equal. now apply IH.
Qed.
Example C69_instance : exists raw ls rest ks e, Forall (fun l => ~ In x0a l /\ (length l < 4096)%nat) raw /\ Forall2 without_cr raw ls /\
  ~ In x0a rest /\ (length rest < 4096)%nat /\ executes (ls ++ match rest with [] => [] | _ => [rest] end) ks e /\ ks = [KPost [x61]%byte; KGet 2] /\ e = Stops.
Proof.
  exists [[x70; x6f; x73; x74; x20; x61; x0d]; [x67; x65; x74; x20; x32]; [x67; x65; x74]]%byte,
         [[x70; x6f; x73; x74; x20; x61]; [x67; x65; x74; x20; x32]; [x67; x65; x74]]%byte, [], [KPost [x61]%byte; KGet 2], Stops.
  split; [apply Forall_forall; intros l [<-|[<-|[<-|[]]]]; (split; [cbn; intuition discriminate|apply Nat.ltb_lt; vm_compute; reflexivity])|]. split.
  { constructor; [left; reflexivity|]. constructor; [right; split; [reflexivity|]|constructor; [right; split; [reflexivity|]|constructor]];
      intros r E; apply (f_equal (fun l => last l x00%byte)) in E; rewrite last_last in E; discriminate E. }
  split; [intros []|]. split; [apply Nat.ltb_lt; vm_compute; reflexivity|]. split; [|split; reflexivity]. cbn [app].
  apply x_do; [reflexivity|discriminate|]. apply x_do; [reflexivity|discriminate|]. now apply x_stop.
Qed.

(** ** C70 *)
(** Servers started one after the other on one machine with the same configuration; [other p]:
    the port is taken by something else.  The ports they listen on, or None when one cannot
    start. *)
Fixpoint start_servers (cfg : amap bytes bytes) (name : bytes) (other : Z -> bool) (used : list Z) (n : nat) : option (list Z) :=
  match n with
  | O => Some used
  | S n' =>
      olet p := server_port cfg name (fun q => negb (other q) && negb (existsb (Z.eqb q) used)) in
      start_servers cfg name other (used ++ [p]) n'
  end.
Lemma server_port_spec cfg name free p : server_port cfg name free = Some p ->
  exists p0, atoi (match mget cfg name with Some v => v | None => [] end) = (p0, true) /\ free p = true /\ p0 <= p <= p0 + 10 /\
    forall q, p0 <= q < p -> free q = false.
Proof.
  unfold server_port. destruct (atoi _) as [p0 ok] eqn:E. destruct ok; [|discriminate]. intros F. exists p0. split; [reflexivity|].
  assert (X : forall k b, find free (map (fun i => p0 + Z.of_nat i) (seq b k)) = Some p ->
    free p = true /\ p0 + Z.of_nat b <= p < p0 + Z.of_nat (b + k) /\ forall q, p0 + Z.of_nat b <= q < p -> free q = false).
  { induction k as [|k IH]; intros b; cbn [seq map find]; [discriminate|]. destruct (free (p0 + Z.of_nat b)) eqn:EF.
    - intros [= <-]. split; [assumption|]. split; [lia|]. intros q Q. lia.
    - intros Y. destruct (IH (S b) Y) as (Y1 & Y2 & Y3). split; [assumption|]. split; [lia|]. intros q Q.
      destruct (Z.eq_dec q (p0 + Z.of_nat b)) as [->|Nq]; [assumption|]. apply Y3. lia. }
  destruct (X 11%nat 0%nat F) as (X1 & X2 & X3). split; [assumption|]. split; [lia|]. intros q Q. apply X3. lia.
Qed.
Lemma server_port_none cfg name free p0 : atoi (match mget cfg name with Some v => v | None => [] end) = (p0, true) ->
  (server_port cfg name free = None <-> forall q, p0 <= q <= p0 + 10 -> free q = false).
Proof.
  intros E. unfold server_port. rewrite E. split.
  - intros F q Q. apply (find_none _ _ F). apply in_map_iff. exists (Z.to_nat (q - p0)). split; [lia|]. apply in_seq. lia.
  - intros F. destruct (find free _) as [p|] eqn:EF; [|reflexivity]. apply find_some in EF. destruct EF as [I EF]. apply in_map_iff in I. destruct I as (i & <- & I).
    apply in_seq in I. rewrite F in EF by lia. discriminate EF.
Qed.

(** Each server gets a port of its own, one that was free, among the eleven from the
    configured one. *)
Theorem C70_distinct_ports cfg name other n : forall used ps, start_servers cfg name other used n = Some ps -> NoDup used ->
  exists new, ps = used ++ new /\ length new = n /\ NoDup ps /\
    forall s p0 p, mget cfg name = Some s -> numeral s p0 -> In p new -> other p = false /\ p0 <= p <= p0 + 10.
Proof.
  induction n as [|n IH]; intros used ps E ND; cbn [start_servers] in E.
  - injection E as <-. exists []. rewrite app_nil_r. repeat split; try assumption; destruct H1.
  - destruct (server_port _ _ _) as [p|] eqn:EP; [|discriminate]. apply server_port_spec in EP. destruct EP as (p0 & E0 & E1 & E2 & _).
    apply andb_true_iff in E1. destruct E1 as [E1 E3]. apply negb_true_iff in E1, E3.
    assert (NI : ~ In p used).
    { intros I. assert (X : existsb (Z.eqb p) used = true) by (apply existsb_exists; exists p; split; [assumption|apply Z.eqb_refl]). congruence. }
    destruct (IH (used ++ [p]) ps E) as (new & -> & L & N2 & F).
    { clear - ND NI. induction used as [|u used IH]; cbn [app]; [constructor; [intros []|constructor]|]. inversion ND; subst. constructor.
      - rewrite in_app_iff. intros [I|[I|[]]]; [contradiction|subst; apply NI; now left].
      - apply IH; [assumption|]. intros I. apply NI. now right. }
    exists (p :: new). rewrite <- app_assoc in *. cbn [app] in *. split; [reflexivity|]. split; [cbn; lia|]. split; [assumption|].
    intros s q0 q ES NU [<-|I]; [|eapply F; eassumption]. rewrite ES in E0. destruct (atoi_spec s q0 NU) as [A1 A2]. rewrite E0 in A1, A2. cbn [fst snd] in A1, A2.
    rewrite clip_id in A1 by (now apply A2). split; [assumption|]. lia.
Qed.
(** When all eleven ports are free, eleven servers start, and no twelfth does. *)
Theorem C70_eleven_servers cfg name other s p0 : mget cfg name = Some s -> numeral s p0 -> int64 p0 -> (forall q, p0 <= q <= p0 + 10 -> other q = false) ->
  (forall n, (n <= 11)%nat -> start_servers cfg name other [] n = Some (map (fun i => p0 + Z.of_nat i) (seq 0 n))) /\
  (forall n, (12 <= n)%nat -> start_servers cfg name other [] n = None).
Proof.
  intros ES NU IP FR.
  assert (EA : atoi (match mget cfg name with Some v => v | None => [] end) = (p0, true)).
  { rewrite ES. destruct (atoi_spec s p0 NU) as [A1 A2]. rewrite clip_id in A1 by assumption. rewrite (surjective_pairing (atoi s)). rewrite A1. f_equal. now apply A2. }
  set (tk := fun k => map (fun i => p0 + Z.of_nat i) (seq 0 k)).
  assert (IT : forall k q, existsb (Z.eqb q) (tk k) = true <-> p0 <= q < p0 + Z.of_nat k).
  { intros k q. rewrite existsb_exists. split.
    - intros (x & I & E). apply Z.eqb_eq in E. subst x. apply in_map_iff in I. destruct I as (i & <- & I). apply in_seq in I. lia.
    - intros Q. exists q. split; [|apply Z.eqb_refl]. apply in_map_iff. exists (Z.to_nat (q - p0)). split; [lia|]. apply in_seq. lia. }
  assert (ST : forall n k, (k + n <= 11)%nat -> start_servers cfg name other (tk k) n = Some (tk (k + n)%nat)).
  { induction n as [|n IH]; intros k L; cbn [start_servers]; [now rewrite Nat.add_0_r|].
    set (free := fun q : Z => negb (other q) && negb (existsb (Z.eqb q) (tk k))).
    assert (F1 : free (p0 + Z.of_nat k) = true).
    { unfold free. rewrite FR by lia. cbn [negb andb]. apply negb_true_iff. apply not_true_iff_false. rewrite IT. lia. }
    destruct (server_port cfg name free) as [p|] eqn:EP.
    2:{ rewrite (server_port_none _ _ _ _ EA) in EP. rewrite EP in F1 by lia. discriminate F1. }
    apply server_port_spec in EP. destruct EP as (p1 & E1 & E2 & E3 & E4). rewrite EA in E1. injection E1 as <-.
    assert (EP : p = p0 + Z.of_nat k).
    { destruct (Z.lt_trichotomy p (p0 + Z.of_nat k)) as [X|[X|X]]; [exfalso|assumption|exfalso].
      - unfold free in E2. apply andb_true_iff in E2. destruct E2 as [_ E2]. apply negb_true_iff in E2. rewrite (proj2 (IT k p)) in E2; [discriminate|lia].
      - rewrite E4 in F1 by lia. discriminate F1. }
    rewrite EP. replace (tk k ++ [p0 + Z.of_nat k]) with (tk (S k)).
    - rewrite IH by lia. f_equal. f_equal. lia.
    - unfold tk. rewrite seq_S, map_app. reflexivity. }
  assert (S12 : forall n, start_servers cfg name other (tk 11%nat) (S n) = None).
  { intros n. cbn [start_servers]. rewrite (proj2 (server_port_none cfg name _ p0 EA)); [reflexivity|]. intros q Q. rewrite (proj2 (IT 11%nat q)) by lia. apply andb_false_r. }
  split.
  - intros n L. exact (ST n 0%nat L).
  - intros n L. assert (X : forall a used b, start_servers cfg name other used (a + b) = olet u := start_servers cfg name other used a in start_servers cfg name other u b).
    { induction a as [|a IH]; intros used b; cbn [start_servers Nat.add]; [reflexivity|]. destruct (server_port _ _ _); [apply IH|reflexivity]. }
    replace n with (11 + S (n - 12))%nat by lia. rewrite X. change (@nil Z) with (tk 0%nat). rewrite (ST 11%nat 0%nat (le_n _)). apply S12.
Qed.
Example C70_instance : exists cfg name s, mget cfg name = Some s /\ numeral s 12347.
Proof.
  exists [([x70]%byte, [x31; x32; x33; x34; x37]%byte)], [x70]%byte, [x31; x32; x33; x34; x37]%byte. split; [reflexivity|].
  exists [], [x31; x32; x33; x34; x37]%byte. split; [reflexivity|]; split; [discriminate|]; split; [|now left]. repeat constructor; unfold is_digit; cbn; lia.
Qed.

Print Assumptions C67_roles_partial.
Print Assumptions C67_numbers_refuted.
Print Assumptions C67_default.
Print Assumptions C67_one_argument.
Print Assumptions C68_command_executed.
Print Assumptions C68_post_sends.
Print Assumptions C68_get_sends.
Print Assumptions C68_vote_sends.
Print Assumptions C68_rest_sends_nothing.
Print Assumptions C68_line_stops.
Print Assumptions C68_other_words.
Print Assumptions C68_ill_formed_line_refuted.
Print Assumptions C69_lines_executed_partial.
Print Assumptions C69_every_input.
Print Assumptions C69_one_cut.
Print Assumptions C69_long_line_in_pieces.
Print Assumptions C69_one_command_per_line_refuted.
Print Assumptions C70_distinct_ports.
Print Assumptions C70_eleven_servers.
