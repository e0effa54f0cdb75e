(** C19-C22: ElGamal signatures and encryption. *)
From Coq Require Import ZArith Znumtheory Lia List Bool.
From Coq Require Import Strings.Byte.
From Verif Require Import ZMod Bytes Suite Spec Pedersen ElGamal Prop_Pedersen.
Import ListNotations.
Open Scope Z_scope.

(** [sig] is the fixed-size big-endian serialisation of (c, r), possibly followed
    by more bytes. *)
Definition serialises (S : suite) (sig : bytes) (c r : Z) : Prop :=
  exists bc br tail, sig = bc ++ br ++ tail
    /\ length bc = slen S /\ length br = slen S
    /\ be_to_z bc = c /\ be_to_z br = r /\ c < sQ S /\ r < sQ S.

Lemma eg_read_iff S sig c r : eg_read S sig = Some (c, r) <-> serialises S sig c r.
Proof.
  unfold eg_read, serialises. split.
  - destruct (Nat.ltb_spec (length sig) (2 * slen S)) as [|L]; [discriminate|].
    unfold dec_secret. 
    destruct (Z.ltb_spec (be_to_z (firstn (slen S) sig)) (sQ S)); [|discriminate].
    destruct (Z.ltb_spec (be_to_z (firstn (slen S) (skipn (slen S) sig))) (sQ S)); [|discriminate].
    intros E. inversion E; subst. clear E.
    exists (firstn (slen S) sig), (firstn (slen S) (skipn (slen S) sig)), (skipn (slen S) (skipn (slen S) sig)).
    repeat split; try assumption.
    + now rewrite !firstn_skipn.
    + rewrite firstn_length. lia.
    + rewrite firstn_length, skipn_length. lia.
  - intros (bc & br & tl & -> & Lc & Lr & Ec & Er & Hc & Hr).
    rewrite !app_length, Lc, Lr.
    destruct (Nat.ltb_spec (slen S + (slen S + length tl)) (2 * slen S)); [lia|].
    rewrite skipn_exact, !firstn_exact by assumption.
    unfold dec_secret. rewrite Ec, Er.
    destruct (Z.ltb_spec c (sQ S)), (Z.ltb_spec r (sQ S)); try lia. reflexivity.
Qed.

(** C19: every signature made by ElGamalSign verifies, for all keys, messages,
    nonces and bases of the group, and for the nil (standard) base. *)
Theorem C19_sign_verifies : forall S, suite_ok S -> forall v x msg g,
  0 <= x ->
  member (sP S) (sQ S) g ->
  eg_verify S msg ((g ^ x) mod sP S) (eg_sign S v msg x (Some g)) (Some g) = true.
Proof.
  intros S OK v x msg g Hx Hg. pose proof (sP_gt1 S OK).
  rewrite <- zexp_pos by lia. now apply (eg_complete S OK v msg x (Some g)).
Qed.

Theorem C19_sign_verifies_std : forall S, suite_ok S -> forall v x msg,
  0 <= x ->
  eg_verify S msg ((sG S ^ x) mod sP S) (eg_sign S v msg x None) None = true.
Proof.
  intros S OK v x msg Hx. pose proof (sP_gt1 S OK).
  rewrite <- zexp_pos by lia. apply (eg_complete S OK v msg x None). apply OK.
Qed.

(** C19: Verify accepts exactly the signatures that decode to some (c, r) whose
    recomputed challenge, the pick keyed by the encoding of g^r pk^c, is c. *)
Theorem C19_verify_exact : forall S, suite_ok S -> forall msg pk sig g,
  eg_verify S msg pk sig (Some g) = true <->
  exists c r, serialises S sig c r /\
    sPick S (enc_point S ((g ^ r * pk ^ c) mod sP S)) msg = c.
Proof.
  intros S OK msg pk sig g. unfold eg_verify. pose proof (sP_gt1 S OK) as HP.
  assert (forall c r, serialises S sig c r ->
    pt_add S (pt_mul_opt S (Some g) r) (pt_mul S pk c) = (g ^ r * pk ^ c) mod sP S) as E.
  { intros c r (bc & br & tl & _ & _ & _ & <- & <- & _).
    pose proof (be_to_z_range bc). pose proof (be_to_z_range br).
    unfold pt_add, pt_mul_opt, pt_mul, mulm. rewrite !zexp_pos by lia.
    now rewrite <- Z.mul_mod by lia. }
  destruct (eg_read S sig) as [[c r]|] eqn:R.
  - apply eg_read_iff in R. rewrite (E c r R). unfold hash_elgamal. rewrite Z.eqb_eq.
    split; [intros H; now exists c, r|]. intros (c' & r' & R' & H).
    apply eg_read_iff in R, R'. rewrite R in R'. inversion R'; subst. exact H.
  - split; [discriminate|]. intros (c & r & R' & _). apply eg_read_iff in R'. congruence.
Qed.

(** C20 refuted: the coordinator's and servers' signatures are checked with the
    residue 0 as base (c.Suite.Point() is not the generator).  A single function
    of the message alone, using no key, forges a signature accepted under every
    public key. *)
Definition forge_zero_base (S : suite) (msg : bytes) : bytes :=
  enc_secret S (sPick S (enc_point S 0) msg) ++ enc_secret S 1.

Theorem C20_unforgeable_refuted : forall S, suite_ok S -> forall msg pk,
  eg_verify S msg pk (forge_zero_base S msg) (Some pt_new) = true.
Proof.
  intros S OK msg pk. pose proof (sQ_gt1 S OK) as HQ. unfold eg_verify, forge_zero_base.
  rewrite (eg_read_sign S OK); [|now apply pick_secret|unfold is_secret; lia].
  unfold pt_mul_opt, pt_new. rewrite (zero_base_T S OK) by lia.
  unfold hash_elgamal. apply Z.eqb_refl.
Qed.

(** What the check with base 0 does accept: the key plays no role unless r = 0. *)
Theorem C20_zero_base_exact : forall S, suite_ok S -> forall msg pk sig,
  eg_verify S msg pk sig (Some pt_new) = true <->
  exists c r, serialises S sig c r /\
    ((0 < r /\ c = sPick S (enc_point S 0) msg) \/
     (r = 0 /\ c = sPick S (enc_point S ((pk ^ c) mod sP S)) msg)).
Proof.
  intros S OK msg pk sig. rewrite (C19_verify_exact S OK). unfold pt_new.
  pose proof (sP_gt1 S OK) as HP.
  split; intros (c & r & R & H); exists c, r; (split; [exact R|]).
  - assert (0 <= r) by (destruct R as (bc & br & tl & _ & _ & _ & _ & <- & _); apply be_to_z_range).
    assert (r = 0 \/ 0 < r) as [->|Hr] by lia.
    + right. rewrite Z.pow_0_r, Z.mul_1_l in H. auto.
    + left. rewrite Z.pow_0_l, Z.mul_0_l, Z.mod_0_l in H by lia. auto.
  - destruct H as [[Hr ->]|[-> H]].
    + now rewrite Z.pow_0_l, Z.mul_0_l, Z.mod_0_l by lia.
    + now rewrite Z.pow_0_r, Z.mul_1_l.
Qed.

(** The part of C20 that holds where the base is a group element (client nyms,
    base = coordinator.G): two accepting responses for the same commitment T with
    different challenges determine the private key. *)
Theorem C20_group_base_special_soundness_partial : forall S, suite_ok S -> forall g pk c r c' r',
  prime (sQ S) -> member (sP S) (sQ S) g -> member (sP S) (sQ S) pk ->
  0 <= c < sQ S -> 0 <= r < sQ S -> 0 <= c' < sQ S -> 0 <= r' < sQ S -> c <> c' ->
  (g ^ r * pk ^ c) mod sP S = (g ^ r' * pk ^ c') mod sP S ->
  exists i, sec_inv S (sec_sub S c c') = Some i /\
    pk = (g ^ (((r' - r) * i) mod sQ S)) mod sP S.
Proof.
  intros S OK g pk c r c' r' PQ Hg Hpk Hc Hr Hc' Hr' N E.
  apply (C04_binding S OK (PBase g pk)
           ((pk ^ c * g ^ r) mod sP S) c r c' r' PQ); try assumption.
  - reflexivity.
  - unfold commits_to. cbn [pb_GT pb_HT]. rewrite Z.mul_comm, E. f_equal. apply Z.mul_comm.
Qed.

(** C21 refuted: every signer draws its nonce from a cipher keyed with the
    constant string "example", so the nonce is the public constant
    [sNonce S "example"], and one signature reveals the private key. *)
Definition recover_key (S : suite) (sig : bytes) : option Z :=
  match eg_read S sig with
  | Some (c, r) => sec_div S (sec_sub S (sNonce S example_key) r) c
  | None => None
  end.

Theorem C21_signing_reveals_key_refuted : forall S, suite_ok S -> prime (sQ S) ->
  forall x msg g, 0 <= x < sQ S ->
  recover_key S (eg_sign S (example_nonce S) msg x g) = Some x.
Proof.
  intros S OK PQ x msg g Hx. pose proof (sQ_gt1 S OK) as HQ.
  unfold recover_key, eg_sign. rewrite (eg_read_sign S OK);
    [|now apply pick_secret|now apply sec_range_sub].
  set (c := hash_elgamal S msg _). unfold example_nonce. set (v := sNonce S example_key).
  assert (Hc : 0 < c < sQ S) by apply (ok_pick S OK). clearbody c v.
  assert (RP : unit c (sQ S)).
  { apply rel_prime_sym, prime_rel_prime; [exact PQ|]. intros D.
    apply Z.divide_pos_le in D; lia. }
  destruct (modinv_some _ _ HQ RP) as (i & Hi & Ri & Pi).
  unfold sec_div, sec_inv. rewrite Hi. f_equal. unfold sec_mul, sec_sub.
  transitivity ((x * (c * i)) mod sQ S); [modring (sQ S)|].
  rewrite <- Z.mul_mod_idemp_r, Pi, Z.mul_1_r by lia. now apply Z.mod_small.
Qed.

(** The same for any signer that uses one nonce for two messages: no knowledge of
    the nonce is needed. *)
Theorem C21_nonce_reuse_refuted : forall S, suite_ok S -> prime (sQ S) ->
  forall v x m1 m2 g c1 r1 c2 r2, 0 <= x < sQ S ->
  eg_read S (eg_sign S v m1 x g) = Some (c1, r1) ->
  eg_read S (eg_sign S v m2 x g) = Some (c2, r2) ->
  c1 <> c2 ->
  sec_div S (sec_sub S r1 r2) (sec_sub S c2 c1) = Some x.
Proof.
  intros S OK PQ v x m1 m2 g c1 r1 c2 r2 Hx. pose proof (sQ_gt1 S OK) as HQ.
  unfold eg_sign. rewrite !(eg_read_sign S OK) by (now apply pick_secret || now apply sec_range_sub).
  set (d1 := hash_elgamal S m1 _). set (d2 := hash_elgamal S m2 _).
  assert (0 < d1 < sQ S) by apply (ok_pick S OK). assert (0 < d2 < sQ S) by apply (ok_pick S OK).
  clearbody d1 d2. intros E1 E2. inversion E1; subst c1 r1. inversion E2; subst c2 r2. intros N.
  assert (RP : unit (sec_sub S d2 d1) (sQ S)).
  { apply rel_prime_sym, prime_rel_prime; [exact PQ|]. unfold sec_sub. intros D.
    apply Z.mod_divide in D; [|lia]. rewrite Z.mod_mod in D by lia.
    apply Z.mod_divide in D; [|lia]. destruct D as [j Hj].
    assert (j = 0 \/ 1 <= j \/ j <= -1) as [->|[?|?]] by lia; nia. }
  destruct (modinv_some _ _ HQ RP) as (i & Hi & Ri & Pi).
  unfold sec_div, sec_inv. rewrite Hi. f_equal. unfold sec_mul, sec_sub in *.
  rewrite Z.mul_mod_idemp_l in Pi by lia.
  transitivity ((x * ((d2 - d1) * i)) mod sQ S); [modring (sQ S)|].
  rewrite <- Z.mul_mod_idemp_r, Pi, Z.mul_1_r by lia. now apply Z.mod_small.
Qed.

(** C22: decryption inverts encryption. *)
Theorem C22_decrypt_encrypt : forall S, suite_ok S -> forall x M k K C,
  0 <= x -> member (sP S) (sQ S) M ->
  eg_encrypt S ((sG S ^ x) mod sP S) M k = (K, C) ->
  eg_decrypt S x K C = Some M.
Proof.
  intros S OK x M k K C Hx HM E. pose proof (sP_gt1 S OK).
  rewrite <- zexp_pos in E by lia.
  pose proof (eg_decrypt_encrypt S OK x M k HM) as D.
  unfold pt_mul_base, pt_mul in D. rewrite E in D. exact D.
Qed.

(** ** Non-vacuity *)
Example C19_instance :
  eg_verify toy_suite [x61; x62]%byte ((8 ^ 7) mod 23) (eg_sign toy_suite 5 [x61; x62]%byte 7 (Some 8)) (Some 8) = true
  /\ eg_verify toy_suite [x61; x63]%byte ((8 ^ 7) mod 23) (eg_sign toy_suite 5 [x61; x62]%byte 7 (Some 8)) (Some 8) = false
  /\ eg_verify toy_suite [x61; x62]%byte ((8 ^ 7) mod 23) [x01]%byte (Some 8) = false.
Proof. repeat split; vm_compute; reflexivity. Qed.

Example C20_instance : eg_verify toy_suite [x61]%byte 13 (forge_zero_base toy_suite [x61]%byte) (Some 0) = true.
Proof. vm_compute. reflexivity. Qed.

Example C21_instance : recover_key toy_suite (eg_sign toy_suite (example_nonce toy_suite) [x61]%byte 7 (Some 8)) = Some 7
  /\ eg_read toy_suite (eg_sign toy_suite 3 [x61]%byte 7 (Some 8)) = Some (8, 2)
  /\ exists c r, eg_read toy_suite (eg_sign toy_suite 3 [x62]%byte 7 (Some 8)) = Some (c, r) /\ c <> 8.
Proof. repeat split; [vm_compute; reflexivity..|]. vm_compute. eexists _, _. split; [reflexivity|lia]. Qed.

Example C22_instance : let '(K, C) := eg_encrypt toy_suite ((4 ^ 6) mod 23) 18 9 in
  eg_decrypt toy_suite 6 K C = Some 18 /\ (K, C) <> (1, 18).
Proof. vm_compute. split; congruence. Qed.

Print Assumptions C19_sign_verifies.
Print Assumptions C19_sign_verifies_std.
Print Assumptions C19_verify_exact.
Print Assumptions C20_unforgeable_refuted.
Print Assumptions C20_zero_base_exact.
Print Assumptions C20_group_base_special_soundness_partial.
Print Assumptions C21_signing_reveals_key_refuted.
Print Assumptions C21_nonce_reuse_refuted.
Print Assumptions C22_decrypt_encrypt.
