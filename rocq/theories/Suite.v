(** The cryptographic suite: nist.NewAES128SHA256QR512 of dedis/crypto, as used
    by zRep, and its points and secrets.

    Points: /repo/primitive/fujiokam/residue.go is a copy, kept in the
    repository, of the residue-group implementation behind suite.Point(); the
    definitions below cite it.  Secrets are dedis/crypto's nist.Int (external):
    integers modulo the group order Q. *)
From Coq Require Import ZArith Znumtheory Lia List.
From Coq Require Import Strings.Byte.
From Verif Require Import ZMod Bytes.
Import ListNotations.
Open Scope Z_scope.

(** Parameters of a suite.  Hash and stream cipher are arbitrary functions:
    every theorem quantifies over them.
    - [sHash] : suite.Hash() (SHA-256), all Writes concatenated then Sum.
    - [sPick key msg] : suite.Secret().Pick(c) for c = suite.Cipher(key) after
      c.Message(nil,nil,msg) (util/Util.go:381-386).
    - [sNonce key] : suite.Secret().Pick(suite.Cipher(key)), i.e. the first
      secret drawn from a freshly keyed cipher; used with the key "example". *)
Record suite := Suite {
  sP : Z;   (* modulus *)
  sQ : Z;   (* order of the subgroup *)
  sG : Z;   (* standard base point *)
  sHash : bytes -> bytes;
  sPick : bytes -> bytes -> Z;
  sNonce : bytes -> Z
}.

(** residue.go:45-48 Valid: 0 < p < P and p^Q mod P = 1. *)
Definition pt_valid (S : suite) (p : Z) : bool :=
  (0 <? p) && (p <? sP S) && (powm p (sQ S) (sP S) =? 1).

(** suite.Point(): a zero big.Int, i.e. the residue 0 (residue.go:16-19; not a
    group element, not the identity). *)
Definition pt_new : Z := 0.

(** residue.go:35-38 Null *)
Definition pt_null : Z := 1.

(** residue.go:95-99 Add *)
Definition pt_add (S : suite) (a b : Z) : Z := mulm (sP S) a b.

(** residue.go:101-106 Sub; ModInverse returns nil for a non-invertible [b] and
    the following Mul dereferences it: panic = None. *)
Definition pt_sub (S : suite) (a b : Z) : option Z :=
  match modinv b (sP S) with
  | Some i => Some (mulm (sP S) a i)
  | None => None
  end.

(** residue.go:113-119 Mul with a non-nil base.  Secrets are never negative. *)
Definition pt_mul (S : suite) (b s : Z) : Z := zexp (sP S) b s.
(** residue.go:113-116 Mul(nil, s): the standard base. *)
Definition pt_mul_base (S : suite) (s : Z) : Z := pt_mul S (sG S) s.
(** Mul with a possibly nil base (handlers pass fields that may be nil). *)
Definition pt_mul_opt (S : suite) (b : option Z) (s : Z) : Z :=
  match b with Some b => pt_mul S b s | None => pt_mul_base S s end.

(** residue.go:121-123 MarshalSize *)
Definition plen (S : suite) : nat := Z.to_nat (Z.log2 (sP S) / 8 + 1).
(** residue.go:125-131 MarshalBinary.  (Go panics on a value longer than
    MarshalSize; all points that are marshalled are results of Mod P or were
    validated.) *)
Definition enc_point (S : suite) (p : Z) : bytes := pad_be (plen S) p.
(** residue.go:133-139 UnmarshalBinary followed by CheckErr
    (util/Util.go:216-221 DecodePoint): None = panic. *)
Definition dec_point (S : suite) (l : bytes) : option Z :=
  let p := be_to_z l in if pt_valid S p then Some p else None.
(** UnmarshalBinary with the error ignored: the value is stored anyway
    (residue.go:134). *)
Definition dec_point_unchecked (l : bytes) : Z := be_to_z l.

(** ** Secrets: nist.Int modulo Q (dedis/crypto, external). *)
Definition sec_add (S : suite) (a b : Z) : Z := (a + b) mod sQ S.
Definition sec_sub (S : suite) (a b : Z) : Z := (a - b) mod sQ S.
Definition sec_mul (S : suite) (a b : Z) : Z := (a * b) mod sQ S.
Definition sec_neg (S : suite) (a : Z) : Z := (- a) mod sQ S.
(** Inv / Div use ModInverse modulo Q; nil (panic) when not invertible. *)
Definition sec_inv (S : suite) (a : Z) : option Z := modinv a (sQ S).
Definition sec_div (S : suite) (a b : Z) : option Z :=
  match sec_inv S b with Some i => Some (sec_mul S a i) | None => None end.
(** SetInt64 reduces modulo Q. *)
Definition sec_of_int (S : suite) (v : Z) : Z := v mod sQ S.
(** util/Util.go:321-326 and pedersen_fujiokam/equality.go:28-33 BigIntToSecret. *)
Definition bigint_to_secret (S : suite) (v : Z) : Z := v mod sQ S.
(** util/Util.go:316-318 SecretToBigInt. *)
Definition secret_to_bigint (s : Z) : Z := s.

(** nist.Int MarshalSize / MarshalBinary / UnmarshalBinary (external). *)
Definition slen (S : suite) : nat := Z.to_nat (Z.log2 (sQ S) / 8 + 1).
Definition enc_secret (S : suite) (s : Z) : bytes := pad_be (slen S) s.
(** util/Util.go:229-234 DecodeSecret: error for a value >= Q, CheckErr panics. *)
Definition dec_secret (S : suite) (l : bytes) : option Z :=
  let v := be_to_z l in if v <? sQ S then Some v else None.

(** util/Util.go:329-333 PointToBigInt *)
Definition point_to_bigint (S : suite) (p : Z) : Z := be_to_z (enc_point S p).
(** util/Util.go:336-340 BigIntToPoint: the error of UnmarshalBinary is ignored. *)
Definition bigint_to_point (i : Z) : Z := dec_point_unchecked (z_bytes i).

(** ** Well-formedness of a suite, and group membership. *)
(** [x] is an element of the order-Q subgroup of Z_P^*. *)
Definition in_group (S : suite) (x : Z) : Prop :=
  0 < x < sP S /\ (x ^ sQ S) mod sP S = 1.

(** [s] is a secret. *)
Definition is_secret (S : suite) (s : Z) : Prop := 0 <= s < sQ S.

Record suite_ok (S : suite) : Prop := {
  ok_P : 1 < sP S;
  ok_Q : 1 < sQ S;
  ok_QP : sQ S <= sP S;
  ok_G : in_group S (sG S);
  ok_pick : forall k m, 0 < sPick S k m < sQ S;
  ok_nonce : forall k, 0 < sNonce S k < sQ S
}.

(** ** Lemmas *)
Section SuiteLemmas.
Context (S : suite) (OK : suite_ok S).
Let P := sP S.
Let Q := sQ S.

Lemma sP_gt1 : 1 < sP S. Proof. apply OK. Qed.
Lemma sQ_gt1 : 1 < sQ S. Proof. apply OK. Qed.

Lemma in_group_order x : in_group S x <-> 0 < x < sP S /\ zexp (sP S) x (sQ S) = 1.
Proof.
  pose proof sP_gt1. pose proof sQ_gt1. unfold in_group.
  rewrite zexp_pos by lia. tauto.
Qed.

Lemma in_group_q x : in_group S x -> zexp (sP S) x (sQ S) = 1.
Proof. intros H. now apply in_group_order in H. Qed.

Lemma in_group_unit x : in_group S x -> unit x (sP S).
Proof.
  intros H. pose proof sP_gt1. pose proof sQ_gt1.
  apply order_unit with (q := sQ S); try lia. now apply in_group_q.
Qed.

Lemma pt_valid_iff x : pt_valid S x = true <-> in_group S x.
Proof.
  unfold pt_valid, in_group. pose proof sP_gt1. rewrite powm_spec by lia.
  rewrite !Bool.andb_true_iff, !Z.ltb_lt, Z.eqb_eq. tauto.
Qed.

Lemma order_in_group x : zexp (sP S) x (sQ S) = 1 -> reduced (sP S) x -> in_group S x.
Proof.
  intros H [H0 H1]. apply in_group_order. split; [|assumption].
  pose proof sP_gt1. pose proof sQ_gt1.
  assert (x <> 0); [|lia]. intros ->. rewrite zexp_pos in H by lia.
  rewrite Z.pow_0_l in H by lia. rewrite Z.mod_0_l in H; lia.
Qed.

Lemma order_mulm a b : zexp (sP S) a (sQ S) = 1 -> zexp (sP S) b (sQ S) = 1 ->
  zexp (sP S) (mulm (sP S) a b) (sQ S) = 1.
Proof.
  pose proof sP_gt1. pose proof sQ_gt1. intros Ha Hb.
  rewrite zexp_mulm; [|lia|apply order_unit with (q:=sQ S); (lia||assumption)..].
  rewrite Ha, Hb. unfold mulm. now apply Z.mod_1_l.
Qed.

Lemma order_zexp a e : zexp (sP S) a (sQ S) = 1 -> zexp (sP S) (zexp (sP S) a e) (sQ S) = 1.
Proof.
  pose proof sP_gt1. pose proof sQ_gt1. intros Ha.
  assert (unit a (sP S)) by (apply order_unit with (q:=sQ S); (lia||assumption)).
  rewrite zexp_mul by assumption. rewrite Z.mul_comm. rewrite <- zexp_mul by assumption.
  rewrite Ha. now apply zexp_1_base.
Qed.

Lemma in_group_mulm a b : in_group S a -> in_group S b -> in_group S (mulm (sP S) a b).
Proof.
  intros Ha Hb. pose proof sP_gt1. apply order_in_group.
  - apply order_mulm; now apply in_group_q.
  - apply mulm_range; lia.
Qed.

Lemma in_group_zexp a e : in_group S a -> in_group S (zexp (sP S) a e).
Proof.
  intros Ha. pose proof sP_gt1. apply order_in_group.
  - apply order_zexp; now apply in_group_q.
  - apply zexp_range; lia.
Qed.

Lemma in_group_G : in_group S (sG S).
Proof. apply OK. Qed.

Lemma in_group_1 : in_group S 1.
Proof.
  pose proof sP_gt1. pose proof sQ_gt1. unfold in_group. split; [lia|].
  rewrite Z.pow_1_l by lia. now apply Z.mod_1_l.
Qed.

Lemma in_group_reduced x : in_group S x -> reduced (sP S) x.
Proof. intros [H _]. unfold reduced. lia. Qed.

Lemma pt_sub_group a b : in_group S b ->
  pt_sub S a b = Some (mulm (sP S) a (zexp (sP S) b (-1))).
Proof.
  intros H. pose proof sP_gt1. unfold pt_sub. rewrite modinv_zexp; [reflexivity|lia|].
  now apply in_group_unit.
Qed.

Lemma zexp_modQ a e : in_group S a -> zexp (sP S) a (e mod sQ S) = zexp (sP S) a e.
Proof.
  intros H. pose proof sP_gt1. pose proof sQ_gt1.
  apply zexp_mod_order; try lia; [now apply in_group_unit|now apply in_group_q].
Qed.

Lemma plen_bound p : 0 <= p < sP S -> p < 256 ^ Z.of_nat (plen S).
Proof.
  intros H. pose proof sP_gt1. unfold plen.
  pose proof (bytelen_bound (sP S)) as B. unfold bytelen in B.
  destruct (Z.eqb_spec (sP S) 0); [lia|]. rewrite Z.abs_eq in B by lia. lia.
Qed.

Lemma slen_bound p : 0 <= p < sQ S -> p < 256 ^ Z.of_nat (slen S).
Proof.
  intros H. pose proof sQ_gt1. unfold slen.
  pose proof (bytelen_bound (sQ S)) as B. unfold bytelen in B.
  destruct (Z.eqb_spec (sQ S) 0); [lia|]. rewrite Z.abs_eq in B by lia. lia.
Qed.

Lemma enc_point_length p : 0 <= p < sP S -> length (enc_point S p) = plen S.
Proof. intros H. apply pad_be_length. pose proof (plen_bound p H). lia. Qed.

Lemma enc_secret_length p : 0 <= p < sQ S -> length (enc_secret S p) = slen S.
Proof. intros H. apply pad_be_length. pose proof (slen_bound p H). lia. Qed.

Lemma dec_enc_point p : in_group S p -> dec_point S (enc_point S p) = Some p.
Proof.
  intros H. unfold dec_point, enc_point. rewrite be_pad.
  destruct H as [R H]. rewrite Z.abs_eq by lia.
  rewrite (proj2 (pt_valid_iff p)); [reflexivity|]. now split.
Qed.

Lemma dec_enc_secret s : is_secret S s -> dec_secret S (enc_secret S s) = Some s.
Proof.
  intros [H H']. unfold dec_secret, enc_secret. rewrite be_pad, Z.abs_eq by lia.
  destruct (Z.ltb_spec s (sQ S)); [reflexivity|lia].
Qed.

Lemma sec_range_add a b : is_secret S (sec_add S a b).
Proof. pose proof sQ_gt1. apply Z.mod_pos_bound; lia. Qed.
Lemma sec_range_sub a b : is_secret S (sec_sub S a b).
Proof. pose proof sQ_gt1. apply Z.mod_pos_bound; lia. Qed.
Lemma sec_range_mul a b : is_secret S (sec_mul S a b).
Proof. pose proof sQ_gt1. apply Z.mod_pos_bound; lia. Qed.
Lemma sec_range_mod a : is_secret S (a mod sQ S).
Proof. pose proof sQ_gt1. apply Z.mod_pos_bound; lia. Qed.
Lemma pick_secret k m : is_secret S (sPick S k m).
Proof. pose proof (ok_pick S OK k m). unfold is_secret. lia. Qed.

End SuiteLemmas.

(** Prove [in_group] goals for products and powers. *)
Ltac in_grp :=
  repeat first
    [ assumption
    | apply in_group_mulm; [assumption| |]
    | apply in_group_zexp; [assumption|]
    | apply in_group_G; assumption
    | apply in_group_1; assumption ].

(** [grpS S]: identity in the group of suite S; needs [suite_ok S] and
    [in_group] facts for all atoms. *)
Ltac grpS S :=
  unfold pt_mul_base, pt_add, pt_mul, sec_add, sec_sub, sec_mul, sec_neg, sec_of_int, bigint_to_secret in *;
  let HP := fresh in let HQ := fresh in
  assert (HP : 1 < sP S) by (apply sP_gt1; assumption);
  assert (HQ : 1 < sQ S) by (apply sQ_gt1; assumption);
  grpq (sP S) (sQ S);
  try (apply in_group_q; [assumption|]; in_grp);
  try (apply in_group_reduced; in_grp).

(** ** A small concrete suite for non-vacuity checks: P = 23, Q = 11, G = 4. *)
Definition toy_hash (l : bytes) : bytes := z_to_be 4 (be_to_z l * 7 + 13).
Definition toy_suite : suite :=
  Suite 23 11 4 toy_hash
    (fun k m => 1 + (be_to_z k + 3 * be_to_z m) mod 10)
    (fun k => 1 + be_to_z k mod 10).

Lemma toy_ok : suite_ok toy_suite.
Proof.
  constructor; cbn [sP sQ sG sPick sNonce toy_suite]; try lia.
  - split; cbn; [lia|reflexivity].
  - intros k m. pose proof (Z.mod_pos_bound (be_to_z k + 3 * be_to_z m) 10 ltac:(lia)). lia.
  - intros k. pose proof (Z.mod_pos_bound (be_to_z k) 10 ltac:(lia)). lia.
Qed.
