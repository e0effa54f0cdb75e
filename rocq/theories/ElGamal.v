(** ElGamal-style (Schnorr) signatures and ElGamal encryption:
    /repo/util/Util.go:374-465 *)
From Coq Require Import ZArith Znumtheory Lia List Bool.
From Coq Require Import Strings.Byte.
From Verif Require Import ZMod Bytes Suite.
Import ListNotations.
Open Scope Z_scope.

(** Util.go:381-386 hashElGamal *)
Definition hash_elgamal (S : suite) (msg : bytes) (p : Z) : Z :=
  sPick S (enc_point S p) msg.

(** Util.go:392-413 ElGamalSign.  [v] is the secret picked from the stream
    argument, [g] the base (None = nil = standard base).  The result is the
    serialised pair (c, r); abstract.Write writes the two fixed-size secrets one
    after the other. *)
Definition eg_sign (S : suite) (v : Z) (msg : bytes) (priv : Z) (g : option Z) : bytes :=
  let T := pt_mul_opt S g v in
  let c := hash_elgamal S msg T in
  let r := sec_sub S v (sec_mul S priv c) in
  enc_secret S c ++ enc_secret S r.

(** abstract.Read of a basicSig (Util.go:419-423): two secrets of slen bytes,
    error when the input is too short or a value is not below Q; further bytes
    are ignored. *)
Definition eg_read (S : suite) (sig : bytes) : option (Z * Z) :=
  let n := slen S in
  if (length sig <? 2 * n)%nat then None
  else match dec_secret S (firstn n sig), dec_secret S (firstn n (skipn n sig)) with
       | Some c, Some r => Some (c, r)
       | _, _ => None
       end.

(** Util.go:415-441 ElGamalVerify; true = nil error. *)
Definition eg_verify (S : suite) (msg : bytes) (pk : Z) (sig : bytes) (g : option Z) : bool :=
  match eg_read S sig with
  | None => false
  | Some (c, r) =>
      let T := pt_add S (pt_mul_opt S g r) (pt_mul S pk c) in
      hash_elgamal S msg T =? c
  end.

(** Util.go:444-456 ElGamalEncrypt; [k] is the picked ephemeral secret. *)
Definition eg_encrypt (S : suite) (pub M k : Z) : Z * Z :=
  (pt_mul_base S k, pt_add S (pt_mul S pub k) M).

(** Util.go:458-465 ElGamalDecrypt *)
Definition eg_decrypt (S : suite) (priv K C : Z) : option Z :=
  pt_sub S C (pt_mul S K priv).

(** The key "example" every signer uses for its nonce cipher
    (Coordinator.go:134, AnonServerHandler.go:388, ClientLauncher.go:79,139,227). *)
Definition example_key : bytes :=
  [x65; x78; x61; x6d; x70; x6c; x65]%byte.
Definition example_nonce (S : suite) : Z := sNonce S example_key.

Section Lemmas.
Context (S : suite) (OK : suite_ok S).

Lemma eg_read_app c r tail : is_secret S c -> is_secret S r ->
  eg_read S (enc_secret S c ++ enc_secret S r ++ tail) = Some (c, r).
Proof.
  intros Hc Hr. unfold eg_read.
  pose proof (enc_secret_length S OK c Hc) as Lc.
  pose proof (enc_secret_length S OK r Hr) as Lr.
  rewrite !app_length, Lc, Lr.
  destruct (Nat.ltb_spec (slen S + (slen S + length tail)) (2 * slen S)); [lia|].
  rewrite skipn_exact, !firstn_exact by assumption.
  now rewrite !dec_enc_secret by assumption.
Qed.

Lemma eg_read_sign c r : is_secret S c -> is_secret S r ->
  eg_read S (enc_secret S c ++ enc_secret S r) = Some (c, r).
Proof.
  intros. rewrite <- (app_nil_r (enc_secret S r)). now apply eg_read_app.
Qed.

Lemma eg_complete v msg x g0 : 
  in_group S (match g0 with Some g => g | None => sG S end) ->
  eg_verify S msg (pt_mul_opt S g0 x) (eg_sign S v msg x g0) g0 = true.
Proof.
  intros Hg. unfold eg_verify, eg_sign.
  rewrite eg_read_sign by (apply pick_secret || apply sec_range_sub; assumption).
  apply Z.eqb_eq. unfold hash_elgamal at 1 4. do 2 f_equal.
  set (c := hash_elgamal S msg (pt_mul_opt S g0 v)). clearbody c.
  destruct g0 as [g|]; cbn iota in Hg; unfold pt_mul_opt; grpS S.
Qed.

Lemma eg_decrypt_encrypt x M k : in_group S M ->
  let (K, C) := eg_encrypt S (pt_mul_base S x) M k in
  eg_decrypt S x K C = Some M.
Proof.
  intros HM. unfold eg_encrypt, eg_decrypt.
  pose proof (in_group_G S OK) as HG.
  rewrite pt_sub_group by (unfold pt_mul_base, pt_mul; in_grp). f_equal.
  grpS S.
Qed.

(** With the residue 0 as base, T is 0 whatever the key. *)
Lemma zero_base_T r pk c : 0 < r -> pt_add S (pt_mul S 0 r) (pt_mul S pk c) = 0.
Proof.
  intros Hr. pose proof (sP_gt1 S OK). unfold pt_add, pt_mul.
  rewrite zexp_pos by lia. rewrite Z.pow_0_l by lia. rewrite Z.mod_0_l by lia.
  reflexivity.
Qed.

End Lemmas.
