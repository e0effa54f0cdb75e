(** Data embedded in points: /repo/primitive/fujiokam/residue.go:50-93 (PickLen, Pick, Data)
    and 107-110 (Neg).  The candidates that random.Bits draws are an argument: byte strings of
    the length of a point (its mask on the first byte is a restriction on them). *)
From Coq Require Import ZArith Znumtheory Lia List Bool.
From Coq Require Import Strings.Byte.
From Verif Require Import ZMod Bytes Suite Codec.
Import ListNotations.
Open Scope Z_scope.

(** residue.go:50-54 PickLen; Go's integer division truncates. *)
Definition bitlen (n : Z) : Z := Z.log2 n + 1.
Definition pick_len (S : suite) : Z := Z.quot (bitlen (sP S) - 8 - 16) 8.

(** residue.go:61-65: how many bytes are embedded. *)
Definition embed_len (S : suite) (data : bytes) : Z :=
  if Z.of_nat (length data) <? pick_len S then Z.of_nat (length data) else pick_len S.

(** residue.go:69-73: length into the low 16 bits, data before it.  None = a slice out of
    range. *)
Definition embed (S : suite) (data b : bytes) : option bytes :=
  let l := Z.of_nat (plen S) in
  let dl := embed_len S data in
  if (dl <? 0) || (l - dl - 2 <? 0) || negb (length b =? plen S)%nat then None
  else Some (firstn (Z.to_nat (l - dl - 2)) b ++ firstn (Z.to_nat dl) data ++ [z_byte (dl / 256); z_byte dl]).

(** residue.go:59-79 Pick.  [data] may be nil.  None = the candidates run out, or a slice out
    of range. *)
Fixpoint pick (S : suite) (data : option bytes) (draws : list bytes) : option (Z * bytes) :=
  match draws with
  | [] => None
  | b :: rest =>
      olet b' := match data with Some d => embed S d b | None => Some b end in
      let p := be_to_z b' in
      if pt_valid S p then
        Some (p, match data with Some d => skipn (Z.to_nat (embed_len S d)) d | None => [] end)
      else pick S data rest
  end.

(** residue.go:82-93 Data.  None = a slice out of range, Some None = the error. *)
Definition pt_data (S : suite) (p : Z) : option (option bytes) :=
  let b := pad_be (plen S) p in
  let l := length b in
  if (l <? plen S)%nat || (plen S <? 2)%nat then None
  else
    let dl := byte_z (nth (plen S - 2) b x00) * 256 + byte_z (nth (plen S - 1) b x00) in
    if pick_len S <? dl then Some None
    else if Z.of_nat (plen S) - dl - 2 <? 0 then None
    else Some (Some (firstn (Z.to_nat dl) (skipn (Z.to_nat (Z.of_nat (plen S) - dl - 2)) b))).

(** residue.go:107-110 Neg: ModInverse leaves the receiver alone if there is no inverse;
    the receiver's value is [old]. *)
Definition pt_neg (S : suite) (old a : Z) : Z :=
  match modinv a (sP S) with Some i => i | None => old end.

Section Lemmas.
Context (S : suite) (OK : suite_ok S).

Lemma plen_bits : Z.of_nat (plen S) = (bitlen (sP S) + 7) / 8.
Proof.
  pose proof (sP_gt1 S OK). pose proof (Z.log2_nonneg (sP S)). unfold plen, bitlen.
  rewrite Z2Nat.id by (pose proof (Z.div_pos (Z.log2 (sP S)) 8); lia).
  replace (Z.log2 (sP S) + 1 + 7) with (Z.log2 (sP S) + 1 * 8) by lia. now rewrite Z.div_add by lia.
Qed.
Lemma pick_len_room : 0 <= pick_len S -> pick_len S + 3 <= Z.of_nat (plen S).
Proof.
  intros H. rewrite plen_bits. unfold pick_len in *. set (n := bitlen (sP S)) in *.
  destruct (Z_lt_le_dec (n - 8 - 16) 0) as [L|L].
  - replace (n - 8 - 16) with (- (24 - n)) in * by lia. rewrite Z.quot_opp_l in * by lia. rewrite Z.quot_div_nonneg in * by lia.
    pose proof (sP_gt1 S OK). assert (2 <= n) by (unfold n, bitlen; pose proof (Z.log2_pos (sP S)); lia).
    assert (24 - n < 8) by (pose proof (Z.div_le_lower_bound (24 - n) 8 1); lia).
    replace ((24 - n) / 8) with 0 by (symmetry; apply Z.div_small; lia). apply Z.div_le_lower_bound; lia.
  - rewrite Z.quot_div_nonneg in * by lia. apply Z.div_le_lower_bound; [lia|]. pose proof (Z.mul_div_le (n - 8 - 16) 8). lia.
Qed.
Lemma embed_len_range data : 0 <= pick_len S -> 0 <= embed_len S data <= pick_len S /\ embed_len S data <= Z.of_nat (length data).
Proof. intros H. unfold embed_len. destruct (Z.ltb_spec (Z.of_nat (length data)) (pick_len S)); lia. Qed.

Lemma embed_length data b b' : embed S data b = Some b' -> length b' = plen S.
Proof.
  unfold embed. destruct (Z.ltb_spec (embed_len S data) 0); [discriminate|].
  destruct (Z.ltb_spec (Z.of_nat (plen S) - embed_len S data - 2) 0); [discriminate|].
  destruct (Nat.eqb_spec (length b) (plen S)) as [EL|]; [|discriminate]. cbn [orb negb]. intros [= <-].
  assert (embed_len S data <= Z.of_nat (length data)) by (unfold embed_len in *; destruct (Z.ltb_spec (Z.of_nat (length data)) (pick_len S)); lia).
  rewrite !app_length, !firstn_length. cbn [length]. lia.
Qed.
End Lemmas.
