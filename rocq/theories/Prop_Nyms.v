(** C106: different clients have different pseudonyms, and a client gets a new one. *)
From Coq Require Import ZArith Znumtheory Lia List Bool Permutation.
From Coq Require Import Strings.Byte.
From Coq Require String.
From Verif Require Import ZMod Bytes Suite Spec Pedersen ElGamal FujiOkam Equality Codec Maps Net Bridge Client
  Perm SimpleShuffle PairShuffle Server Coordinator History System Chain Prop_Topology Prop_Chain Round RoundInv
  Prop_Bridge Prop_ElGamal Prop_Codec Prop_Pedersen Prop_Assign Prop_Shuffle Prop_Round.
Import ListNotations.
Import String.StringSyntax.
Open Scope Z_scope.
Delimit Scope string_scope with str.

(** ** Specification *)
(** A round is open and the messages of the round protocol have been handled. *)
Definition open_round (y : sys) : Prop := co_status (y_coord y) = CO_MESSAGE /\ settled y.
(** The servers' round keys, in the order of the chain, multiplied: the number by which the
    long-term keys are turned into the pseudonyms of the round. *)
Definition server_keys (y : sys) : list Z :=
  map (fun a => match mget (y_servers y) a with Some s => sv_roundkey s | None => 1 end) (map fst (co_servers (y_coord y))).
Definition product (l : list Z) : Z := fold_right Z.mul 1 l.

Section Nyms.
Context (S : suite) (OK : suite_ok S) (H : oracle) (G : gob) (GOK : gob_ok G).

Lemma round_exp_product y : round_exp y = product (server_keys y).
Proof. reflexivity. Qed.
Lemma settled_nym y V : reach S H G y V -> open_round y -> forall a k, mget (y_clients y) a = Some k ->
  cl_nym k = pt_mul S (cl_pub k) (product (server_keys y)) /\ In (cl_pub k) (map fst V).
Proof.
  intros R [SM ST] a k Ek. destruct (reach_inv S OK H G GOK y V R) as [B P]. unfold settled in ST. rewrite ST in P.
  destruct (b_cl _ _ _ _ _ B a k Ek) as (_ & _ & _ & _ & _ & _ & IV). split; [|exact IV].
  destruct P as [T A|T i p keys vals GT HT A|T0 T1 K A|T n M1 p keys vals GT HT A].
  - pose proof (p1_status _ _ _ _ _ _ _ A) as X. rewrite SM in X. discriminate.
  - pose proof (p2_status _ _ _ _ _ _ _ _ _ _ _ _ _ _ A) as X. rewrite SM in X. discriminate.
  - destruct A as [A1 A2 A3 A4 A5 A6 A7 A8 A9 A10 A11 A12 A13].
    destruct (A11 a k Ek) as [[[] _]|(C1 & v & r & C2 & C3 & C4)].
    destruct C4 as [(m & [] & _)|(R0 & C5 & C6 & C7)]. destruct C7 as [(m & [] & _)|[C7 C8]].
    rewrite C7, A3. reflexivity.
  - destruct (p4_M _ _ _ _ _ _ _ _ _ _ _ _ _ _ _ A) as [src X]. now apply Permutation_nil_cons in X.
Qed.
Lemma keys_unit y V : reach S H G y V -> rel_prime (product (server_keys y)) (sQ S).
Proof. intros R. destruct (reach_inv S OK H G GOK y V R) as [B _]. exact (exps_unit S _ _ _ _ B). Qed.

(** In an open round the pseudonym is the key to the power of the product, and two clients
    never have the same one. *)
Theorem C106_distinct : forall y V, reach S H G y V -> open_round y ->
  forall a k a' k', mget (y_clients y) a = Some k -> mget (y_clients y) a' = Some k' -> a <> a' ->
  cl_nym k <> cl_nym k'.
Proof.
  intros y V R O a k a' k' E E' N X. destruct (reach_inv S OK H G GOK y V R) as [B _].
  destruct (settled_nym y V R O a k E) as [F I]. destruct (settled_nym y V R O a' k' E') as [F' I'].
  apply N. apply (b_inj _ _ _ _ _ B a a' k k' E E'). rewrite F, F' in X. revert X.
  pose proof (b_Vg _ _ _ _ _ B) as VG. rewrite Forall_forall in VG.
  apply (pt_mul_inj S OK); [now apply VG|now apply VG|apply (keys_unit y V R)].
Qed.

Lemma pt_mul_eq k a b : prime (sQ S) -> in_group S k -> k <> 1 ->
  pt_mul S k a = pt_mul S k b <-> (sQ S | a - b).
Proof.
  intros PQ Hk N1. pose proof (sP_gt1 S OK) as HP. pose proof (sQ_gt1 S OK) as HQ.
  assert (X : pt_mul S k (a - b) = 1 -> (sQ S | a - b)).
  { intros E. destruct (Zdivide_dec (sQ S) (a - b)) as [D|D]; [exact D|]. exfalso. apply N1.
    apply (pt_mul_inj S OK k 1 (a - b)); [exact Hk|apply (in_group_1 S OK)|now apply rel_prime_sym, prime_rel_prime|].
    rewrite E. unfold pt_mul. now rewrite zexp_1_base by lia. }
  assert (M : mulm (sP S) (pt_mul S k (a - b)) (pt_mul S k b) = pt_mul S k a).
  { unfold pt_mul. rewrite <- zexp_add; [f_equal; lia|lia|now apply in_group_unit]. }
  split.
  - intros E. apply X. rewrite E in M. assert (Ub : rel_prime (pt_mul S k b) (sP S)).
    { apply in_group_unit; [assumption|]. unfold pt_mul. in_grp. }
    assert (Y : mulm (sP S) (pt_mul S k b) (pt_mul S k (a - b)) = mulm (sP S) (pt_mul S k b) 1).
    { unfold mulm in *. rewrite Z.mul_comm, M, Z.mul_1_r. rewrite Z.mod_small; [reflexivity|]. apply zexp_range. lia. }
    apply mulm_cancel_l in Y; [|lia|exact Ub]. rewrite !Z.mod_small in Y; [exact Y|lia|apply zexp_range; lia].
  - intros [q E]. unfold pt_mul. apply zexp_cong with (sQ S); [lia|lia|now apply in_group_unit|rewrite zexp_pos by lia; apply Hk|].
    replace a with (b + q * sQ S) by lia. now rewrite Z.mod_add by lia.
Qed.

(** Over two rounds (of one session or not), a client keeps its pseudonym exactly if the
    products of the round keys agree modulo the group order. *)
Theorem C106_kept_iff : prime (sQ S) -> forall y V y' V', reach S H G y V -> reach S H G y' V' -> open_round y -> open_round y' ->
  forall a k a' k', mget (y_clients y) a = Some k -> mget (y_clients y') a' = Some k' -> cl_pub k = cl_pub k' -> cl_pub k <> 1 ->
  cl_nym k = cl_nym k' <-> product (server_keys y) mod sQ S = product (server_keys y') mod sQ S.
Proof.
  intros PQ y V y' V' R R' O O' a k a' k' E E' P N1. destruct (reach_inv S OK H G GOK y V R) as [B _].
  destruct (settled_nym y V R O a k E) as [F I]. destruct (settled_nym y' V' R' O' a' k' E') as [F' I'].
  pose proof (b_Vg _ _ _ _ _ B) as VG. rewrite Forall_forall in VG. rewrite F, F', <- P.
  rewrite (pt_mul_eq (cl_pub k) _ _ PQ (VG _ I) N1). pose proof (sQ_gt1 S OK). split.
  - intros [q D]. replace (product (server_keys y)) with (product (server_keys y') + q * sQ S) by lia. now rewrite Z.mod_add by lia.
  - intros D. apply Z.mod_divide; [lia|]. rewrite Zminus_mod, D, Z.sub_diag. apply Z.mod_0_l. lia.
Qed.

(** Whatever the round keys of all servers but one and whatever the old pseudonym, exactly
    one of the Q values that one server may draw gives the client its old pseudonym. *)
Theorem C106_one_draw : prime (sQ S) -> forall key old l1 l2, in_group S key -> key <> 1 ->
  Forall (fun r => rel_prime r (sQ S)) (l1 ++ l2) ->
  exists! r, 0 <= r < sQ S /\ pt_mul S key (product (l1 ++ r :: l2)) = pt_mul S key old.
Proof.
  intros PQ key old l1 l2 Hk N1 U. pose proof (sQ_gt1 S OK) as HQ.
  assert (UP : rel_prime (product (l1 ++ l2)) (sQ S)).
  { clear Hk N1. revert U. generalize (l1 ++ l2). intros l U. induction U as [|x l Ux _ IH]; [apply rel_prime_1|].
    change (product (x :: l)) with (x * product l). apply rel_prime_sym, rel_prime_mult; now apply rel_prime_sym. }
  assert (PE : forall r, product (l1 ++ r :: l2) = product (l1 ++ l2) * r).
  { intros r. clear. unfold product. induction l1 as [|x l IH]; cbn [app fold_right]; [ring|]. rewrite IH. ring. }
  destruct (rel_prime_bezout _ _ UP) as [u v E]. set (K := product (l1 ++ l2)) in *.
  exists ((u * old) mod sQ S). split.
  - split; [apply Z.mod_pos_bound; lia|]. rewrite PE. apply (pt_mul_eq key _ _ PQ Hk N1).
    apply Z.mod_divide; [lia|]. rewrite Zminus_mod, Zmult_mod_idemp_r. rewrite <- Zminus_mod.
    assert (UK : u * K = 1 - v * sQ S) by lia.
    replace (K * (u * old) - old) with ((u * K) * old - old) by ring. rewrite UK.
    replace ((1 - v * sQ S) * old - old) with ((- v * old) * sQ S) by ring. apply Z.mod_mul. lia.
  - intros r [Hr Er]. rewrite PE in Er. apply (pt_mul_eq key _ _ PQ Hk N1) in Er. destruct Er as [q D].
    rewrite <- (Z.mod_small r (sQ S)) by lia.
    replace (u * old) with (r + (- u * q - v * r) * sQ S); [now rewrite Z.mod_add by lia|].
    assert (UK : u * K = 1 - v * sQ S) by lia. replace old with (K * r - q * sQ S) by lia.
    replace (u * (K * r - q * sQ S)) with ((u * K) * r - u * q * sQ S) by ring. rewrite UK. ring.
Qed.

(** A server draws a new round key whenever it handles the end of a round, and at no other
    time. *)
Theorem C106_key_drawn : forall s ty p src rn s' out, sv_handle S H G s ty p src rn = Some (s', out) ->
  sv_roundkey s' = if ty =? Net.ROUND_END then srKey rn else sv_roundkey s.
Proof.
  intros s ty p src rn s' out E. destruct (Z.eqb_spec ty Net.ROUND_END) as [->|N].
  - change (sv_handle S H G s Net.ROUND_END p src rn) with (sv_round_end S H s p rn) in E.
    unfold sv_round_end in E. odestruct E; injection E as <- _; reflexivity.
  - unfold sv_handle in E. apply Z.eqb_neq in N. rewrite N in E.
    repeat match type of E with (if ?b then _ else _) = _ => destruct b end;
    unfold sv_register_reply, sv_announcement, sv_finalize, sv_sign, sv_update_next, sv_client_register, sv_pedersen_h in E;
    odestruct E; injection E as <- _; reflexivity.
Qed.

(** The draws in [reach] are units.  The code draws any number below Q; the one that is
    excluded here, 0, turns every key into 1. *)
Theorem C106_zero_draw : forall keys l1 l2,
  map (fun k => pt_mul S k (product (l1 ++ 0 :: l2))) keys = map (fun _ => 1) keys.
Proof.
  intros keys l1 l2. apply map_ext. intros k. replace (product (l1 ++ 0 :: l2)) with 0; [apply zexp_0|].
  - pose proof (sP_gt1 S OK); lia.
  - unfold product. induction l1 as [|x l IH]; cbn [app fold_right]; [ring|]. rewrite <- IH. ring.
Qed.
End Nyms.

(** Concrete cases: two clients in one open round, one client in two rounds, and a group in
    which the theorem about the draws applies. *)
Definition toy_both : list (sys -> action) := toy_round1 ++ [do (AJoin adE 7 9)] ++ dls 8.
Lemma settled_nil y : y_msgs y = [] -> settled y.
Proof. intros E. unfold settled. now rewrite E. Qed.
Example C106_instance : exists y V k k', reach toy_suite toy_oracle toy_gob y V /\ open_round y /\
  mget (y_clients y) adD = Some k /\ mget (y_clients y) adE = Some k' /\ cl_nym k = 12 /\ cl_nym k' = 2 /\ server_keys y = [3; 5].
Proof.
  destruct (toy_run toy_both (fun yv => (co_status (y_coord (fst yv)), y_msgs (fst yv), client_at adD (fst yv), client_at adE (fst yv), server_keys (fst yv)))
    (CO_MESSAGE, [], Some (3, 5, Some 3, Some 3, PBase 9 4, 12), Some (8, 5, Some 3, Some 3, PBase 13 4, 2), [3; 5])) as (y & V & _ & R & F);
    [vm_compute; reflexivity|]. cbn [fst snd] in F. injection F as F1 F2 F3 F4 F5.
  destruct (client_at_some _ _ _ _ _ _ _ _ F3) as (k & Ek & _ & _ & _ & _ & _ & E1).
  destruct (client_at_some _ _ _ _ _ _ _ _ F4) as (k' & Ek' & _ & _ & _ & _ & _ & E2).
  exists y, V, k, k'. split; [exact R|]. split; [split; [exact F1|now apply settled_nil]|]. now repeat split.
Qed.
(** The round keys 3 and 5 of the first round and 2 and 2 of the second give the same
    product modulo 11, so this client keeps its pseudonym. *)
Example C106_instance_kept : exists y V y' V' k k', reach toy_suite toy_oracle toy_gob y V /\ reach toy_suite toy_oracle toy_gob y' V' /\
  open_round y /\ open_round y' /\ mget (y_clients y) adD = Some k /\ mget (y_clients y') adD = Some k' /\
  cl_pub k = 3 /\ cl_pub k' = 3 /\ prime (sQ toy_suite) /\ server_keys y = [3; 5] /\ server_keys y' = [2; 2] /\ cl_nym k = cl_nym k'.
Proof.
  destruct (toy_run toy_round1 (fun yv => (co_status (y_coord (fst yv)), y_msgs (fst yv), client_at adD (fst yv), server_keys (fst yv)))
    (CO_MESSAGE, [], Some (3, 5, Some 3, Some 3, PBase 9 4, 12), [3; 5])) as (y & V & _ & R & F);
    [vm_compute; reflexivity|]. cbn [fst snd] in F. injection F as F1 F2 F3 F4.
  destruct (toy_run toy_mid2 (fun yv => (co_status (y_coord (fst yv)), y_msgs (fst yv), client_at adD (fst yv), server_keys (fst yv)))
    (CO_MESSAGE, [], Some (3, 5, Some 1, Some 3, PBase 13 18, 12), [2; 2])) as (y' & V' & _ & R' & F');
    [vm_compute; reflexivity|]. cbn [fst snd] in F'. injection F' as F1' F2' F3' F4'.
  destruct (client_at_some _ _ _ _ _ _ _ _ F3) as (k & Ek & P1 & _ & _ & _ & _ & E1).
  destruct (client_at_some _ _ _ _ _ _ _ _ F3') as (k' & Ek' & P2 & _ & _ & _ & _ & E2).
  exists y, V, y', V', k, k'. split; [exact R|]. split; [exact R'|]. split; [split; [exact F1|now apply settled_nil]|].
  split; [split; [exact F1'|now apply settled_nil]|]. do 4 (split; [assumption|]). split; [exact prime_11|].
  do 2 (split; [assumption|]). congruence.
Qed.
Example C106_instance_draw : in_group toy_suite 3 /\ 3 <> 1 /\ Forall (fun r => rel_prime r (sQ toy_suite)) ([2] ++ [5]) /\
  pt_mul toy_suite 3 (product ([2] ++ 7 :: [5])) = pt_mul toy_suite 3 4.
Proof.
  split; [vm_compute; intuition congruence|]. split; [discriminate|]. split; [|vm_compute; reflexivity].
  constructor; [|constructor; [|constructor]]; apply rel_prime_sym, prime_rel_prime; try exact prime_11; intros D; apply Z.divide_pos_le in D; cbn in D; lia.
Qed.

Print Assumptions C106_distinct.
Print Assumptions C106_kept_iff.
Print Assumptions C106_key_drawn.
Print Assumptions C106_one_draw.
Print Assumptions C106_zero_draw.
