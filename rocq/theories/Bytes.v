(** Byte strings and big-endian encodings. *)
From Coq Require Import ZArith Lia List NArith.
From Coq Require Import Strings.Byte.
Import ListNotations.
Open Scope Z_scope.

Definition bytes := list byte.

Definition byte_z (b : byte) : Z := Z.of_N (Byte.to_N b).
(** Conversion of an integer to a byte keeps the low 8 bits (Go's byte(n)). *)
Definition z_byte (n : Z) : byte :=
  match Byte.of_N (Z.to_N (n mod 256)) with Some b => b | None => Byte.x00 end.

(** big.Int.SetBytes: big-endian, most significant byte first (math/big, external). *)
Definition be_to_z (l : bytes) : Z := fold_left (fun acc b => acc * 256 + byte_z b) l 0.

(** Exactly [k] bytes, big-endian, of [n] modulo 256^k. *)
Fixpoint z_to_be (k : nat) (n : Z) : bytes :=
  match k with
  | O => []
  | S k' => z_to_be k' (n / 256) ++ [z_byte n]
  end.

(** Number of bytes of |n|, (BitLen+7)/8. *)
Definition bytelen (n : Z) : nat :=
  if n =? 0 then O else Z.to_nat (Z.log2 (Z.abs n) / 8 + 1).

(** big.Int.Bytes: minimal big-endian encoding of the absolute value (math/big, external). *)
Definition z_bytes (n : Z) : bytes := z_to_be (bytelen n) (Z.abs n).

Lemma byte_z_range b : 0 <= byte_z b < 256.
Proof.
  unfold byte_z. pose proof (Byte.to_N_bounded b). lia.
Qed.

Lemma z_byte_z n : byte_z (z_byte n) = n mod 256.
Proof.
  unfold byte_z, z_byte. pose proof (Z.mod_pos_bound n 256 ltac:(lia)) as R.
  destruct (Byte.of_N (Z.to_N (n mod 256))) as [b|] eqn:E.
  - apply Byte.to_of_N in E. rewrite E. rewrite Z2N.id; lia.
  - apply Byte.of_N_None_iff in E. lia.
Qed.

Lemma byte_z_byte b : z_byte (byte_z b) = b.
Proof.
  unfold z_byte, byte_z. pose proof (Byte.to_N_bounded b).
  rewrite Z.mod_small by lia. rewrite N2Z.id. now rewrite Byte.of_to_N.
Qed.

Lemma byte_z_inj a b : byte_z a = byte_z b -> a = b.
Proof. intros E. rewrite <- (byte_z_byte a), E. apply byte_z_byte. Qed.

Lemma be_to_z_app l1 l2 : be_to_z (l1 ++ l2) = be_to_z l1 * 256 ^ Z.of_nat (length l2) + be_to_z l2.
Proof.
  unfold be_to_z. rewrite fold_left_app.
  set (a := fold_left _ l1 0). clearbody a. clear l1.
  induction l2 as [|b l IH] using rev_ind; cbn; [lia|].
  rewrite !fold_left_app. cbn. rewrite IH. rewrite app_length. cbn.
  rewrite Nat2Z.inj_add. cbn. rewrite Z.pow_add_r by lia. change (256^1) with 256. ring.
Qed.

Lemma be_to_z_nil : be_to_z [] = 0.
Proof. reflexivity. Qed.
Lemma be_to_z_one b : be_to_z [b] = byte_z b.
Proof. reflexivity. Qed.

Lemma be_to_z_range l : 0 <= be_to_z l < 256 ^ Z.of_nat (length l).
Proof.
  induction l as [|b l IH] using rev_ind; [cbn; lia|].
  rewrite be_to_z_app, app_length. cbn [length]. rewrite be_to_z_one.
  pose proof (byte_z_range b). rewrite Nat2Z.inj_add, Z.pow_add_r by lia.
  cbn. change (Z.pow_pos 256 1) with 256. lia.
Qed.

Lemma z_to_be_length k n : length (z_to_be k n) = k.
Proof. revert n. induction k; intros; cbn; [reflexivity|]. rewrite app_length, IHk. cbn. lia. Qed.

Lemma be_z_to_be k n : be_to_z (z_to_be k n) = n mod 256 ^ Z.of_nat k.
Proof.
  revert n. induction k as [|k IH]; intros n.
  - cbn. now rewrite Z.mod_1_r.
  - cbn [z_to_be]. rewrite be_to_z_app, be_to_z_one, IH, z_byte_z. cbn [length].
    change (256 ^ Z.of_nat 1) with 256.
    rewrite Nat2Z.inj_succ, Z.pow_succ_r by lia.
    pose proof (Z.pow_pos_nonneg 256 (Z.of_nat k) ltac:(lia) ltac:(lia)).
    rewrite Z.rem_mul_r by lia. lia.
Qed.

Lemma z_to_be_be l : z_to_be (length l) (be_to_z l) = l.
Proof.
  induction l as [|b l IH] using rev_ind; [reflexivity|].
  rewrite app_length. cbn [length]. rewrite Nat.add_1_r. cbn [z_to_be].
  rewrite be_to_z_app. cbn [length]. change (256 ^ Z.of_nat 1) with 256. rewrite be_to_z_one.
  pose proof (byte_z_range b).
  rewrite Z.div_add_l by lia. rewrite (Z.div_small (byte_z b)) by lia. rewrite Z.add_0_r, IH.
  f_equal. f_equal. rewrite <- (byte_z_byte b) at 2. unfold z_byte.
  rewrite Z.add_comm, Z.mod_add by lia. reflexivity.
Qed.

Lemma bytelen_bound n : Z.abs n < 256 ^ Z.of_nat (bytelen n).
Proof.
  unfold bytelen. destruct (Z.eqb_spec n 0) as [->|H]; [cbn; lia|].
  pose proof (Z.log2_spec (Z.abs n) ltac:(lia)) as [_ B].
  pose proof (Z.log2_nonneg (Z.abs n)).
  pose proof (Z.div_pos (Z.log2 (Z.abs n)) 8 ltac:(lia) ltac:(lia)).
  rewrite Z2Nat.id by lia.
  change 256 with (2 ^ 8). rewrite <- Z.pow_mul_r by lia.
  eapply Z.lt_le_trans; [exact B|]. apply Z.pow_le_mono_r; [lia|].
  pose proof (Z.div_mod (Z.log2 (Z.abs n)) 8 ltac:(lia)).
  pose proof (Z.mod_pos_bound (Z.log2 (Z.abs n)) 8 ltac:(lia)). lia.
Qed.

Lemma bytelen_le n k : Z.abs n < 256 ^ Z.of_nat k -> (bytelen n <= k)%nat.
Proof.
  intros H. unfold bytelen. destruct (Z.eqb_spec n 0) as [->|Hn]; [lia|].
  change 256 with (2 ^ 8) in H. rewrite <- Z.pow_mul_r in H by lia.
  apply Z.log2_lt_pow2 in H; [|lia].
  pose proof (Z.log2_nonneg (Z.abs n)).
  assert (Z.log2 (Z.abs n) / 8 < Z.of_nat k) by (apply Z.div_lt_upper_bound; lia).
  pose proof (Z.div_pos (Z.log2 (Z.abs n)) 8 ltac:(lia) ltac:(lia)). lia.
Qed.

Lemma z_bytes_length n : length (z_bytes n) = bytelen n.
Proof. apply z_to_be_length. Qed.

(** SetBytes after Bytes gives the absolute value. *)
Lemma be_z_bytes n : be_to_z (z_bytes n) = Z.abs n.
Proof.
  unfold z_bytes. rewrite be_z_to_be. apply Z.mod_small.
  pose proof (bytelen_bound n). lia.
Qed.

Lemma z_bytes_inj a b : z_bytes a = z_bytes b -> Z.abs a = Z.abs b.
Proof. intros E. rewrite <- !be_z_bytes. now rewrite E. Qed.

Lemma z_bytes_opp n : z_bytes (- n) = z_bytes n.
Proof.
  unfold z_bytes, bytelen. rewrite Z.abs_opp.
  destruct (Z.eqb_spec (- n) 0), (Z.eqb_spec n 0); try lia; reflexivity.
Qed.

Lemma z_to_be_inj k a b : 0 <= a < 256 ^ Z.of_nat k -> 0 <= b < 256 ^ Z.of_nat k ->
  z_to_be k a = z_to_be k b -> a = b.
Proof.
  intros Ha Hb E. apply (f_equal be_to_z) in E. rewrite !be_z_to_be in E.
  now rewrite !Z.mod_small in E.
Qed.

(** The encoding of a value below 256^k padded on the left with zero bytes. *)
Definition pad_be (k : nat) (n : Z) : bytes :=
  repeat Byte.x00 (k - bytelen n) ++ z_bytes n.

Lemma be_repeat0 k : be_to_z (repeat Byte.x00 k) = 0.
Proof.
  induction k; [reflexivity|]. change (repeat Byte.x00 (S k)) with ([Byte.x00] ++ repeat Byte.x00 k).
  rewrite be_to_z_app, IHk. reflexivity.
Qed.

Lemma be_pad k n : be_to_z (pad_be k n) = Z.abs n.
Proof. unfold pad_be. rewrite be_to_z_app, be_repeat0, be_z_bytes. lia. Qed.

Lemma pad_be_length k n : Z.abs n < 256 ^ Z.of_nat k -> length (pad_be k n) = k.
Proof.
  intros H. unfold pad_be. rewrite app_length, repeat_length, z_bytes_length.
  pose proof (bytelen_le n k H). lia.
Qed.

Lemma pad_be_eq k n : 0 <= n < 256 ^ Z.of_nat k -> pad_be k n = z_to_be k n.
Proof.
  intros H. rewrite <- (z_to_be_be (pad_be k n)).
  rewrite pad_be_length by lia. rewrite be_pad. f_equal. lia.
Qed.

Lemma be_inj l1 l2 : length l1 = length l2 -> be_to_z l1 = be_to_z l2 -> l1 = l2.
Proof. intros L E. rewrite <- (z_to_be_be l1), <- (z_to_be_be l2). congruence. Qed.

Lemma firstn_exact {A} n (a b : list A) : length a = n -> firstn n (a ++ b) = a.
Proof. intros <-. rewrite firstn_app, Nat.sub_diag, firstn_all. cbn. apply app_nil_r. Qed.
Lemma skipn_exact {A} n (a b : list A) : length a = n -> skipn n (a ++ b) = b.
Proof. intros <-. rewrite skipn_app, Nat.sub_diag, skipn_all. reflexivity. Qed.
