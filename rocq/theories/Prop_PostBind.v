(** C104: what the signature on a post binds. *)
From Coq Require Import ZArith Znumtheory Lia List Bool.
From Coq Require Import Strings.Byte.
From Coq Require String.
From Verif Require Import ZMod Bytes Suite Spec Pedersen ElGamal FujiOkam Maps Codec Net Bridge Client Coordinator History Prop_Pedersen Prop_ElGamal Prop_FujiOkam Prop_Codec Prop_Bridge Prop_Assign Prop_Coord.
Import ListNotations.
Import String.StringSyntax.
Open Scope Z_scope.
Delimit Scope string_scope with str.

(** ** Specification *)
(** The property: two posts with the same signed bytes and the same pseudonym post the same
    address. *)
Definition address_bound (S : suite) : Prop := forall c p p' a a' nym,
  post_valid S c p a nym -> post_valid S c p' a' nym -> msg_post p = msg_post p' -> a = a'.

(** ** C104 *)
Lemma be_zero l : be_to_z l = 0 -> l = repeat x00 (length l).
Proof. intros E. apply be_inj; [now rewrite repeat_length|]. now rewrite be_repeat0. Qed.
Lemma longer_split {A} (a b a' b' : list A) : a ++ b = a' ++ b' -> (length a <= length a')%nat -> exists u, a' = a ++ u /\ b = u ++ b'.
Proof.
  revert a'. induction a as [|x a IH]; intros a' E L; [now exists a'|]. destruct a' as [|x' a']; [cbn in L; lia|].
  cbn in E. injection E as <- E. destruct (IH a' E) as (u & -> & ->); [cbn in L; lia|]. now exists u.
Qed.
Lemma split_zeros (a b a' b' : bytes) : a ++ b = a' ++ b' -> be_to_z b = be_to_z b' -> (length a <= length a')%nat ->
  a' = a ++ repeat x00 (length a' - length a).
Proof.
  intros E V L. destruct (longer_split _ _ _ _ E L) as (u & -> & ->). rewrite be_to_z_app in V.
  assert (Z0 : be_to_z u = 0) by (pose proof (Z.pow_pos_nonneg 256 (Z.of_nat (length b')) ltac:(lia) ltac:(lia)); nia).
  rewrite app_length. replace (length a + length u - length a)%nat with (length u) by lia. now rewrite <- be_zero.
Qed.

(** The address is bound up to zero bytes at its end: whatever bytes and whatever split of them,
    as long as the pseudonym is the same. *)
Theorem C104_bound_up_to_zeros : forall S, suite_ok S -> forall c p p' a a' nym,
  post_valid S c p a nym -> post_valid S c p' a' nym -> msg_post p = msg_post p' ->
  exists k, a' = a ++ repeat x00 k \/ a = a' ++ repeat x00 k.
Proof.
  intros S OK c p p' a a' nym (N1 & A1 & s1 & b1 & _ & B1 & _) (N2 & A2 & s2 & b2 & _ & B2 & _) E.
  apply (names_nym_dec S OK) in N1 as (b1' & B1' & D1). apply (names_nym_dec S OK) in N2 as (b2' & B2' & D2).
  rewrite B1 in B1'. rewrite B2 in B2'. injection B1' as <-. injection B2' as <-.
  unfold msg_post in E. rewrite A1, A2, B1, B2 in E. injection E as E.
  assert (V : be_to_z b1 = be_to_z b2).
  { unfold dec_point in D1, D2. destruct (pt_valid S (be_to_z b1)); [|discriminate]. destruct (pt_valid S (be_to_z b2)); [|discriminate]. congruence. }
  destruct (Nat.le_ge_cases (length a) (length a')) as [L|L].
  - exists (length a' - length a)%nat. left. now apply (split_zeros _ b1 _ b2).
  - exists (length a - length a')%nat. right. now apply (split_zeros _ b2 _ b1).
Qed.
(** So an address that does not end with a zero byte is bound among all such addresses. *)
Theorem C104_text_bound_partial : forall S, suite_ok S -> forall c p p' a a' nym,
  post_valid S c p a nym -> post_valid S c p' a' nym -> msg_post p = msg_post p' ->
  last a x01 <> x00 -> last a' x01 <> x00 -> a = a'.
Proof.
  intros S OK c p p' a a' nym V V' E L L'. destruct (C104_bound_up_to_zeros S OK c p p' a a' nym V V' E) as (k & [H|H]).
  - destruct k as [|k]; [cbn in H; now rewrite app_nil_r in H|]. exfalso. apply L'. rewrite H. clear.
    replace (repeat x00 (S k)) with (repeat x00 k ++ [x00]) by (symmetry; apply repeat_cons). rewrite app_assoc. apply last_last.
  - destruct k as [|k]; [cbn in H; now rewrite app_nil_r in H|]. exfalso. apply L. rewrite H. clear.
    replace (repeat x00 (S k)) with (repeat x00 k ++ [x00]) by (symmetry; apply repeat_cons). rewrite app_assoc. apply last_last.
Qed.

(** C104 as stated is false.  A pseudonym is read as a number, whatever its length in bytes: if
    its encoding begins with a zero byte, anybody can move that byte to the end of the address,
    and the client's signature is good for the longer address too. *)
Definition post_params (a nym sig : bytes) : params :=
  [("bridge_addr"%str, VStr a); ("nym"%str, VBytes nym); ("signature"%str, VBytes sig)].
Theorem C104_address_extended : forall S, suite_ok S -> forall c p a nym rest,
  post_valid S c p a nym -> get_bytes p "nym"%str = Some (x00 :: rest) ->
  exists sig, get_bytes p "signature"%str = Some sig /\
    post_valid S c (post_params (a ++ [x00]) rest sig) (a ++ [x00]) nym /\
    msg_post (post_params (a ++ [x00]) rest sig) = msg_post p.
Proof.
  intros S OK c p a nym rest (N & A & sig & bn & Es & Eb & V) Eb'. rewrite Eb in Eb'. injection Eb' as ->. exists sig. split; [exact Es|].
  apply (names_nym_dec S OK) in N as (b & B & D). rewrite Eb in B. injection B as <-. split.
  - split; [|split; [reflexivity|]].
    + apply (names_nym_dec S OK). exists rest. split; [reflexivity|]. unfold dec_point in *.
      change (x00 :: rest) with ([x00]%byte ++ rest) in D. rewrite be_to_z_app in D. change (be_to_z [x00]%byte) with 0 in D. rewrite Z.mul_0_l, Z.add_0_l in D. exact D.
    + exists sig, rest. split; [reflexivity|]. split; [reflexivity|]. now rewrite <- app_assoc.
  - unfold msg_post. rewrite A, Eb. cbn. now rewrite <- app_assoc.
Qed.
(** And it is put on offer. *)
Theorem C104_address_extended_offered : forall S G, suite_ok S -> forall c p a nym rest src rn,
  post_valid S c p a nym -> get_bytes p "nym"%str = Some (x00 :: rest) ->
  exists p' c', co_handle S G c POST_BRIDGE p' src rn = Some (c', []) /\ mget (co_bridges c') (a ++ [x00]) = Some (Some nym, false) /\
    get_bytes p' "signature"%str = get_bytes p "signature"%str.
Proof.
  intros S G OK c p a nym rest src rn V B. destruct (C104_address_extended S OK c p a nym rest V B) as (sig & Es & V' & _).
  destruct (C52_valid_post_recorded S G OK c _ src rn _ _ V') as (c' & E & O & _). exists (post_params (a ++ [x00]) rest sig), c'.
  split; [exact E|]. split; [exact O|]. now rewrite Es.
Qed.

(** ** A case: a group whose elements take two bytes *)
Definition suite263 : suite :=
  Suite 263 131 4 toy_hash (fun k m => 1 + (be_to_z k + 3 * be_to_z m) mod 130) (fun k => 1 + be_to_z k mod 130).
Lemma suite263_ok : suite_ok suite263.
Proof.
  constructor; cbn [sP sQ sG sPick sNonce suite263]; try lia.
  - split; cbn [sP sQ sG suite263]; [lia|vm_compute; reflexivity].
  - intros k m. pose proof (Z.mod_pos_bound (be_to_z k + 3 * be_to_z m) 130 ltac:(lia)). lia.
  - intros k. pose proof (Z.mod_pos_bound (be_to_z k) 130 ltac:(lia)). lia.
Qed.
(** A coordinator in a round with g = 4 and the pseudonym 64 = 4^3 in its table, and the
    client behind that pseudonym, which posts the address "a:1". *)
Definition round263 : event := EMsg ANNOUNCEMENT
  [("g"%str, VBytes (enc_point suite263 4)); ("GT"%str, VBytes (enc_point suite263 4)); ("HT"%str, VBytes (enc_point suite263 16));
   ("keys"%str, VBytes (enc_points suite263 [64])); ("vals"%str, VBytes (enc_points suite263 [16]))] [x73]%byte toy_rand.
Definition client263 : client :=
  Client [x61]%byte [x63]%byte CL_MESSAGE 3 64 2 64 (Some 4) 5 [64] 0 [] (Some 16) (Some 6) (Some toy_fb) toy_base [] [].
Definition addr263 : bytes := [x61; x3a; x31]%byte.
Example C104_instance : exists t c rest,
  exec suite263 toy_gob (init_coord suite263 [x63]%byte 5 toy_fb toy_trap []) [round263] = Some (t, c) /\
  In 64 (co_keys c) /\
  post_valid suite263 c (mParams (cl_post suite263 client263 addr263)) addr263 64 /\
  get_bytes (mParams (cl_post suite263 client263 addr263)) "nym"%str = Some (x00 :: rest).
Proof.
  destruct (exec suite263 toy_gob (init_coord suite263 [x63]%byte 5 toy_fb toy_trap []) [round263]) as [[t c]|] eqn:E; [|vm_compute in E; discriminate E].
  exists t, c, [x40]%byte. split; [reflexivity|].
  assert (K : co_keys c = [64] /\ co_G c = Some 4) by (vm_compute in E; injection E as _ <-; vm_compute; now split). destruct K as [K EG].
  split; [rewrite K; now left|]. split; [|reflexivity]. split; [|split; [reflexivity|]].
  - exists (enc_point suite263 64). split; [reflexivity|]. split; [split; [cbn; lia|vm_compute; reflexivity]|vm_compute; reflexivity].
  - eexists. eexists. split; [reflexivity|]. split; [reflexivity|]. rewrite EG. vm_compute. reflexivity.
Qed.
Theorem C104_address_bound_refuted : ~ (forall S, suite_ok S -> address_bound S).
Proof.
  intros H. destruct C104_instance as (t & c & rest & _ & _ & V & B).
  destruct (C104_address_extended suite263 suite263_ok _ _ _ _ _ V B) as (sig & _ & V' & E).
  specialize (H suite263 suite263_ok _ _ _ _ _ _ V V' (eq_sym E)). discriminate H.
Qed.

Print Assumptions C104_bound_up_to_zeros.
Print Assumptions C104_text_bound_partial.
Print Assumptions C104_address_extended.
Print Assumptions C104_address_extended_offered.
Print Assumptions C104_address_bound_refuted.
