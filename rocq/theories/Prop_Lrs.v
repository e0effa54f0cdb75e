(** C15-C18: linkable ring signatures. *)
From Coq Require Import ZArith Znumtheory Lia List Bool.
From Coq Require Import Strings.Byte.
From Verif Require Import ZMod Bytes Suite Spec Fermat Pedersen Lrs Prop_Pedersen Prop_FujiOkam.
Import ListNotations.
Open Scope Z_scope.

Lemma h_nonzero S m L : prime (sP S) -> be_to_z (sHash S (sHash S m ++ L)) mod sP S <> 0 ->
  lrs_h S m L mod sP S <> 0.
Proof.
  intros PP H. pose proof (prime_ge_2 _ PP). unfold lrs_h, lrs_H2. rewrite zexp_pos by lia.
  rewrite Z.mod_mod by lia. intros E. apply H.
  apply Z.mod_divide in E; [|lia]. rewrite Z.pow_2_r in E.
  apply prime_mult in E; [|assumption]. apply Zdivide_mod. tauto.
Qed.

(** ** C15 *)
(** [hash (hash m ++ ring)] must not be 0 modulo P (for a 256-bit hash: must not
    be the all-zero digest); otherwise the tag base is 0. *)
Theorem C15_sign_verifies : forall S, prime (sP S) -> forall g m n pi x y rs rc r,
  g mod sP S <> 0 -> 0 <= x -> (pi < n)%nat -> (n <= length y)%nat ->
  nth pi y 0 = (g ^ x) mod sP S ->
  (forall i, 0 <= rs i) -> (forall i, 0 <= rc i) ->
  be_to_z (sHash S (sHash S m ++ concat (map z_bytes y))) mod sP S <> 0 ->
  exists sig, lrs_sign S g m n pi x y rs rc r = Some sig /\
    lrs_verify S g m n sig y = Some true /\ length (lS sig) = n /\ length (lC sig) = n.
Proof.
  intros S PP g m n pi x y rs rc r Hg Hx Hpi Hn Hy Hs Hc Hh. pose proof (prime_ge_2 _ PP).
  rewrite lrs_sign_is_tag by assumption. eexists. split; [reflexivity|].
  split; [|unfold lrs_sign_tag; cbn [lS lC]; now rewrite !map_length, !seq_length].
  apply lrs_tag_verifies; try assumption.
  - now apply h_nonzero.
  - rewrite Hy, zexp_pos, Z.mod_mod by lia. reflexivity.
  - apply Z.mod_small. apply zexp_range. lia.
Qed.
Print Assumptions C15_sign_verifies.

Lemma point_to_bigint_id S p : suite_ok S -> 0 <= p < sP S -> point_to_bigint S p = p.
Proof. intros OK H. unfold point_to_bigint, enc_point. rewrite be_pad. apply Z.abs_eq. lia. Qed.

Lemma map_point_to_bigint S y : suite_ok S -> (forall p, In p y -> 0 <= p < sP S) ->
  map (point_to_bigint S) y = y.
Proof.
  intros OK H. rewrite <- (map_id y) at 2. apply map_ext_in. intros p Hp.
  apply point_to_bigint_id; auto.
Qed.

(** The same for the exported Sign and Verify on points. *)
Theorem C15_points : forall S, suite_ok S -> prime (sP S) -> forall g m n pi x y rs rc r,
  g mod sP S <> 0 -> 0 <= x -> (pi < n)%nat -> (n <= length y)%nat ->
  (forall p, In p y -> 0 <= p < sP S) -> nth pi y 0 = (g ^ x) mod sP S ->
  (forall i, 0 <= rs i) -> (forall i, 0 <= rc i) ->
  be_to_z (sHash S (sHash S m ++ concat (map z_bytes y))) mod sP S <> 0 ->
  exists sig, lrs_Sign S g m n pi x y rs rc r = Some sig /\
    lrs_Verify S g m n sig y = Some true.
Proof.
  intros S OK PP g m n pi x y rs rc r Hg Hx Hpi Hn Hp Hy Hs Hc Hh.
  unfold lrs_Sign, lrs_Verify, secret_to_bigint. rewrite map_point_to_bigint by assumption.
  destruct (C15_sign_verifies S PP g m n pi x y rs rc r) as (sig & E1 & E2 & _); eauto.
Qed.
Print Assumptions C15_points.

(** ** C16 *)
Lemma h_in_group S m L : suite_ok S -> prime (sP S) -> sP S = 2 * sQ S + 1 ->
  be_to_z (sHash S (sHash S m ++ L)) mod sP S <> 0 -> in_group S (lrs_h S m L).
Proof.
  intros OK PP EQ H. pose proof (sP_gt1 S OK). pose proof (sQ_gt1 S OK).
  pose proof (fermat _ _ PP H) as F. unfold lrs_h, lrs_H2.
  set (a := be_to_z (sHash S (sHash S m ++ L))) in *.
  assert (U : unit a (sP S)).
  { apply rel_prime_sym, prime_rel_prime; [assumption|]. intros D. apply H. now apply Zdivide_mod. }
  apply (order_in_group S OK).
  - rewrite zexp_mul by (lia || assumption). replace (2 * sQ S) with (sP S - 1) by lia. exact F.
  - apply zexp_range. lia.
Qed.

Lemma h_not_1 S m L : prime (sP S) ->
  be_to_z (sHash S (sHash S m ++ L)) mod sP S <> 1 ->
  be_to_z (sHash S (sHash S m ++ L)) mod sP S <> sP S - 1 -> lrs_h S m L <> 1.
Proof.
  intros PP H1 H2 E. pose proof (prime_ge_2 _ PP). unfold lrs_h, lrs_H2 in E.
  set (a := be_to_z (sHash S (sHash S m ++ L))) in *.
  rewrite zexp_pos, Z.pow_2_r in E by lia.
  assert (D : (sP S | (a - 1) * (a + 1))).
  { apply Zmod_divide; [lia|]. replace ((a - 1) * (a + 1)) with (a * a - 1) by ring.
    rewrite Zminus_mod, E, Z.mod_1_l by lia. reflexivity. }
  apply prime_mult in D; [|assumption]. destruct D as [[k D]|[k D]].
  - apply H1. replace a with (1 + k * sP S) by lia. rewrite Z.mod_add by lia. apply Z.mod_1_l. lia.
  - apply H2. replace a with ((sP S - 1) + (k - 1) * sP S) by lia. rewrite Z.mod_add by lia.
    apply Z.mod_small. lia.
Qed.

Lemma sign_Y0 S g m n pi x y rs rc r sig : lrs_sign S g m n pi x y rs rc r = Some sig ->
  lY0 sig = zexp (sP S) (lrs_h S m (lrs_L y)) x.
Proof.
  unfold lrs_sign. destruct (all_some _); [|discriminate]. destruct (all_some _); [|discriminate].
  destruct (pi <? n)%nat; [|discriminate]. intros E. injection E as <-. reflexivity.
Qed.

(** Same message, same ring: linked exactly when the keys agree modulo the order
    of the group, whatever positions and randomness were used.  The digest must
    not be 0, 1 or -1 modulo P (tag base 0 or 1). *)
Theorem C16_link_iff_same_key : forall S, suite_ok S -> prime (sP S) -> prime (sQ S) -> sP S = 2 * sQ S + 1 ->
  forall g m y n pi x rs rc r sig n' pi' x' rs' rc' r' sig',
  let H := be_to_z (sHash S (sHash S m ++ concat (map z_bytes y))) mod sP S in
  H <> 0 -> H <> 1 -> H <> sP S - 1 ->
  lrs_sign S g m n pi x y rs rc r = Some sig ->
  lrs_sign S g m n' pi' x' y rs' rc' r' = Some sig' ->
  (lrs_linkable sig sig' = true <-> x mod sQ S = x' mod sQ S).
Proof.
  intros S OK PP PQ EQ g m y n pi x rs rc r sig n' pi' x' rs' rc' r' sig' H N0 N1 N2 E E'.
  apply sign_Y0 in E, E'. unfold lrs_linkable. rewrite Z.eqb_eq, E, E'.
  pose proof (h_in_group S m (lrs_L y) OK PP EQ N0) as HG.
  pose proof (h_not_1 S m (lrs_L y) PP N1 N2) as HN. split.
  - apply zexp_inj; assumption.
  - intros M. rewrite <- (zexp_modQ S OK _ x), M by assumption. now apply zexp_modQ.
Qed.
Print Assumptions C16_link_iff_same_key.

(** One signer, two messages (or rings): the signatures are linked only if the
    two tag bases collide, i.e. the digests agree up to sign modulo P. *)
Theorem C16_cross_message : forall S, suite_ok S -> prime (sP S) -> prime (sQ S) -> sP S = 2 * sQ S + 1 ->
  forall g x m y n pi rs rc r sig m' y' n' pi' rs' rc' r' sig',
  let H := be_to_z (sHash S (sHash S m ++ concat (map z_bytes y))) mod sP S in
  let H' := be_to_z (sHash S (sHash S m' ++ concat (map z_bytes y'))) mod sP S in
  H <> 0 -> H' <> 0 -> x mod sQ S <> 0 ->
  lrs_sign S g m n pi x y rs rc r = Some sig ->
  lrs_sign S g m' n' pi' x y' rs' rc' r' = Some sig' ->
  (lrs_linkable sig sig' = true <-> H = H' \/ H + H' = sP S).
Proof.
  intros S OK PP PQ EQ g x m y n pi rs rc r sig m' y' n' pi' rs' rc' r' sig' H H' N0 N0' Nx E E'.
  pose proof (prime_ge_2 _ PP) as P2.
  apply sign_Y0 in E, E'. unfold lrs_linkable. rewrite Z.eqb_eq, E, E'.
  pose proof (h_in_group S m (lrs_L y) OK PP EQ N0) as HG.
  pose proof (h_in_group S m' (lrs_L y') OK PP EQ N0') as HG'.
  assert (HH : lrs_h S m (lrs_L y) = (H * H) mod sP S).
  { unfold lrs_h, lrs_H2. rewrite zexp_pos, Z.pow_2_r, Z.mul_mod by lia. reflexivity. }
  assert (HH' : lrs_h S m' (lrs_L y') = (H' * H') mod sP S).
  { unfold lrs_h, lrs_H2. rewrite zexp_pos, Z.pow_2_r, Z.mul_mod by lia. reflexivity. }
  assert (RH : 0 <= H < sP S) by (apply Z.mod_pos_bound; lia).
  assert (RH' : 0 <= H' < sP S) by (apply Z.mod_pos_bound; lia).
  transitivity (lrs_h S m (lrs_L y) = lrs_h S m' (lrs_L y')).
  - split; [|congruence]. apply (pt_mul_inj S OK); try assumption.
    apply rel_prime_sym, prime_rel_prime; [assumption|]. intros D. apply Nx. now apply Zdivide_mod.
  - rewrite HH, HH'. clearbody H H'. clear -PP P2 RH RH'. split.
    + intros E. assert (D : (sP S | (H - H') * (H + H'))).
      { apply Zmod_divide; [lia|]. replace ((H - H') * (H + H')) with (H * H - H' * H') by ring.
        rewrite Zminus_mod, E, Z.sub_diag. apply Z.mod_0_l. lia. }
      apply prime_mult in D; [|assumption]. destruct D as [[k D]|[k D]].
      * left. assert (k = 0) by nia. nia.
      * assert (k = 0 \/ k = 1) as [->| ->] by nia; [left|right]; nia.
    + intros [->|E]; [reflexivity|]. replace H with (sP S - H') by lia.
      replace ((sP S - H') * (sP S - H')) with (H' * H' + (sP S - 2 * H') * sP S) by ring.
      now rewrite Z.mod_add by lia.
Qed.
Print Assumptions C16_cross_message.

(** ** C17 *)
(** What a signature must satisfy to be accepted.  The sum ranges over all
    challenges in the signature, the products only over the first n. *)
Definition ring_products (p b : Z) (n : nat) (s c us zs : list Z) : Prop :=
  length zs = n /\ forall i, (i < n)%nat ->
    exists A B, is_power p b (nth i s 0) A /\ is_power p (nth i us 0) (nth i c 0) B /\
      nth i zs 0 = (A * B) mod p.

Lemma all_some_seq (f : nat -> option Z) n : forall k zs,
  all_some (map f (seq k n)) = Some zs <->
  length zs = n /\ forall i, (i < n)%nat -> f (k + i)%nat = Some (nth i zs 0).
Proof.
  induction n as [|n IH]; intros k zs; cbn [seq map all_some].
  - split.
    + intros E. injection E as <-. split; [reflexivity|lia].
    + intros [E _]. destruct zs; [reflexivity|discriminate].
  - destruct (f k) as [z|] eqn:Ef.
    + specialize (IH (S k)).
      destruct (all_some (map f (seq (S k) n))) as [r|] eqn:Er.
      * split.
        -- intros E. injection E as <-. destruct (proj1 (IH r) eq_refl) as [L F].
           split; [cbn; congruence|]. intros [|i] Hi.
           ++ rewrite Nat.add_0_r. exact Ef.
           ++ replace (k + S i)%nat with (S k + i)%nat by lia. cbn [nth]. apply F. lia.
        -- intros [L F]. destruct zs as [|z' zs]; [discriminate|].
           assert (E0 := F 0%nat ltac:(lia)). rewrite Nat.add_0_r, Ef in E0. cbn in E0.
           assert (E1 : Some r = Some zs).
           { apply IH. split; [cbn in L; lia|]. intros i Hi.
             replace (S k + i)%nat with (k + S i)%nat by lia. rewrite F by lia. reflexivity. }
           congruence.
      * split; [discriminate|]. intros [L F]. destruct zs as [|z' zs]; [discriminate|].
        assert (E1 : @None (list Z) = Some zs).
        { apply IH. split; [cbn in L; lia|]. intros i Hi.
          replace (S k + i)%nat with (k + S i)%nat by lia. rewrite F by lia. reflexivity. }
        discriminate.
    + split; [discriminate|]. intros [L F]. specialize (F 0%nat ltac:(lia)).
      rewrite Nat.add_0_r, Ef in F. discriminate.
Qed.

Lemma lrs_z_power S b s u c z : 1 < sP S -> unit b (sP S) -> unit u (sP S) ->
  lrs_z S b s u c = Some z <->
  exists A B, is_power (sP S) b s A /\ is_power (sP S) u c B /\ z = (A * B) mod sP S.
Proof.
  intros HP Ub Uu. unfold lrs_z. rewrite !bigexp_unit by assumption. split.
  - intros E. injection E as <-. exists (zexp (sP S) b s), (zexp (sP S) u c).
    split; [now apply zexp_is_power|]. split; [now apply zexp_is_power|]. reflexivity.
  - intros (A & B & HA & HB & ->). apply is_power_unique in HA, HB; try assumption.
    subst. reflexivity.
Qed.

Theorem C17_verify_exact : forall S, prime (sP S) -> forall g m n sig y,
  g mod sP S <> 0 -> be_to_z (sHash S (sHash S m ++ concat (map z_bytes y))) mod sP S <> 0 ->
  lY0 sig mod sP S <> 0 -> (forall i, (i < n)%nat -> nth i y 0 mod sP S <> 0) ->
  (n <= length y)%nat -> (n <= length (lS sig))%nat -> (n <= length (lC sig))%nat ->
  (lrs_verify S g m n sig y = Some true <->
   exists h z1 z2, h = (be_to_z (sHash S (sHash S m ++ concat (map z_bytes y)))) ^ 2 mod sP S /\
     ring_products (sP S) g n (lS sig) (lC sig) y z1 /\
     ring_products (sP S) h n (lS sig) (lC sig) (repeat (lY0 sig) n) z2 /\
     fold_right Z.add 0 (lC sig) mod (sP S - 1) =
     be_to_z (sHash S (concat (map z_bytes y) ++ z_bytes (lY0 sig) ++ m ++
        concat (map z_bytes z1) ++ concat (map z_bytes z2))) mod (sP S - 1)).
Proof.
  intros S PP g m n [Y0 s c] y Hg Hh HY Hy L1 L2 L3. cbn [lY0 lS lC] in *.
  pose proof (prime_ge_2 _ PP) as P2.
  assert (UU : forall a, a mod sP S <> 0 -> unit a (sP S)).
  { intros a Ha. apply rel_prime_sym, prime_rel_prime; [assumption|]. intros D. apply Ha. now apply Zdivide_mod. }
  pose proof (h_nonzero S m (lrs_L y) PP Hh) as Nh.
  assert (Q0 : 0 < lQ S) by (unfold lQ; lia).
  unfold lrs_verify, lrs_challenge. cbn [lY0 lS lC].
  set (h := lrs_h S m (lrs_L y)) in *.
  assert (Eh : h = (be_to_z (sHash S (sHash S m ++ concat (map z_bytes y)))) ^ 2 mod sP S).
  { unfold h, lrs_h, lrs_H2. apply zexp_pos; lia. }
  assert (A1 : forall zs, all_some (map (fun i => match nth_error s i, nth_error y i, nth_error c i with
      | Some si, Some yi, Some ci => lrs_z S g si yi ci | _, _, _ => None end) (seq 0 n)) = Some zs
      <-> ring_products (sP S) g n s c y zs).
  { intros zs. rewrite all_some_seq. unfold ring_products.
    assert (X : forall i, (i < n)%nat ->
      (match nth_error s (0 + i), nth_error y (0 + i), nth_error c (0 + i) with
      | Some si, Some yi, Some ci => lrs_z S g si yi ci | _, _, _ => None end = Some (nth i zs 0) <->
      exists A B, is_power (sP S) g (nth i s 0) A /\ is_power (sP S) (nth i y 0) (nth i c 0) B /\
      nth i zs 0 = (A * B) mod sP S)).
    { intros i Hi. cbn [plus]. rewrite (nth_error_nth' s 0), (nth_error_nth' y 0), (nth_error_nth' c 0) by lia.
      apply lrs_z_power; [lia|now apply UU|]. apply UU. apply Hy. exact Hi. }
    split; intros [L F]; (split; [exact L|]); intros i Hi; apply X; try exact Hi; apply F; exact Hi. }
  assert (A2 : forall zs, all_some (map (fun i => match nth_error s i, nth_error c i with
      | Some si, Some ci => lrs_z S h si Y0 ci | _, _ => None end) (seq 0 n)) = Some zs
      <-> ring_products (sP S) h n s c (repeat Y0 n) zs).
  { intros zs. rewrite all_some_seq. unfold ring_products.
    assert (X : forall i, (i < n)%nat ->
      (match nth_error s (0 + i), nth_error c (0 + i) with
      | Some si, Some ci => lrs_z S h si Y0 ci | _, _ => None end = Some (nth i zs 0) <->
      exists A B, is_power (sP S) h (nth i s 0) A /\ is_power (sP S) (nth i (repeat Y0 n) 0) (nth i c 0) B /\
      nth i zs 0 = (A * B) mod sP S)).
    { intros i Hi. cbn [plus]. rewrite (nth_error_nth' s 0), (nth_error_nth' c 0) by lia.
      assert (R : nth i (repeat Y0 n) 0 = Y0).
      { rewrite nth_indep with (d' := Y0) by (rewrite repeat_length; lia). apply nth_repeat. }
      rewrite R. apply lrs_z_power; [lia|now apply UU|now apply UU]. }
    split; intros [L F]; (split; [exact L|]); intros i Hi; apply X; try exact Hi; apply F; exact Hi. }
  rewrite fold_sum_eq by lia. rewrite Z.add_0_l.
  split.
  - intros E. destruct (all_some _) as [z1|] eqn:E1; [|discriminate].
    clear E1. destruct (all_some _) as [z2|]; [|discriminate].
    assert (E1 := proj1 (A1 z1) eq_refl). assert (E2 := proj1 (A2 z2) eq_refl). exists h, z1, z2.
    split; [exact Eh|]. split; [exact E1|]. split; [exact E2|].
    injection E as E. apply Z.eqb_eq in E. exact E.
  - intros (h' & z1 & z2 & Eh' & R1 & R2 & E). rewrite <- Eh in Eh'. subst h'.
    apply A1 in R1. apply A2 in R2. rewrite R1, R2. f_equal. apply Z.eqb_eq. exact E.
Qed.
Print Assumptions C17_verify_exact.

(** A forger that uses only public data: all responses and challenges 0, and one
    extra challenge that closes the sum.  The tag is arbitrary. *)
Definition lrs_forge (S : suite) (g : Z) (m : bytes) (y : list Z) (tag : Z) : option lsig :=
  let n := length y in
  let zeros := repeat 0 n in
  match lrs_challenge S g m n tag zeros zeros y with
  | Some R => Some (LSig tag zeros (zeros ++ [R]))
  | None => None
  end.

Lemma lrs_challenge_ext S g m n y0 s c c' y : (n <= length c)%nat ->
  lrs_challenge S g m n y0 s (c ++ c') y = lrs_challenge S g m n y0 s c y.
Proof.
  intros H. unfold lrs_challenge.
  rewrite (all_some_ext _ (fun i => match nth_error s i, nth_error y i, nth_error c i with
      | Some si, Some yi, Some ci => lrs_z S g si yi ci | _, _, _ => None end)).
  2:{ intros i Hi. apply in_seq in Hi. now rewrite nth_error_app1 by lia. }
  rewrite (all_some_ext (fun i => match nth_error s i, nth_error (c ++ c') i with
      | Some si, Some ci => lrs_z S (lrs_h S m (lrs_L y)) si y0 ci | _, _ => None end)
      (fun i => match nth_error s i, nth_error c i with
      | Some si, Some ci => lrs_z S (lrs_h S m (lrs_L y)) si y0 ci | _, _ => None end)).
  2:{ intros i Hi. apply in_seq in Hi. now rewrite nth_error_app1 by lia. }
  reflexivity.
Qed.

Lemma nth_error_repeat {A} (a : A) n i : (i < n)%nat -> nth_error (repeat a n) i = Some a.
Proof.
  intros H. rewrite (nth_error_nth' _ a) by now rewrite repeat_length. now rewrite nth_repeat.
Qed.

Lemma sum_zeros q n : 0 < q -> fold_right Z.add 0 (repeat 0 n) = 0.
Proof. intros. induction n; cbn; [reflexivity|exact IHn]. Qed.

Lemma lrs_forge_verifies S g m y tag : 2 < sP S -> exists sig,
  lrs_forge S g m y tag = Some sig /\ lY0 sig = tag /\
  lrs_verify S g m (length y) sig y = Some true.
Proof.
  intros HP. unfold lrs_forge. set (n := length y).
  assert (Q0 : 0 < lQ S) by (unfold lQ; lia).
  destruct (lrs_challenge S g m n tag (repeat 0 n) (repeat 0 n) y) as [R|] eqn:E.
  - eexists. split; [reflexivity|]. split; [reflexivity|]. unfold lrs_verify. cbn [lY0 lS lC].
    rewrite lrs_challenge_ext by (rewrite repeat_length; lia).
    rewrite E. f_equal. apply Z.eqb_eq. rewrite fold_sum_eq by lia.
    rewrite fold_right_app. cbn [fold_right].
    assert (X : forall k a, fold_right Z.add a (repeat 0 k) = a) by (intros k; induction k; intros; cbn; auto).
    rewrite X, Z.add_0_r, Z.add_0_l. apply Z.mod_small.
    unfold lrs_challenge in E. destruct (all_some _); [|discriminate]. destruct (all_some _); [|discriminate].
    injection E as <-. apply Z.mod_pos_bound. lia.
  - exfalso. revert E. unfold lrs_challenge.
    rewrite (all_some_map _ (fun i => mulm (sP S) (zexp (sP S) g 0) (zexp (sP S) (nth i y 0) 0))).
    2:{ intros i Hi. apply in_seq in Hi. rewrite !nth_error_repeat by lia.
        rewrite (nth_error_nth' y 0) by lia. apply lrs_z_nonneg; lia. }
    rewrite (all_some_map _ (fun i => mulm (sP S) (zexp (sP S) (lrs_h S m (lrs_L y)) 0) (zexp (sP S) tag 0))).
    2:{ intros i Hi. apply in_seq in Hi. rewrite !nth_error_repeat by lia. apply lrs_z_nonneg; lia. }
    discriminate.
Qed.

(** REFUTED: for every ring, message, base and hash function a signature computed
    from public data alone is accepted. *)
Theorem C17_unforgeable_refuted : forall S, suite_ok S -> 2 < sP S -> forall g m y,
  exists sig, lrs_forge S g m (map (point_to_bigint S) y) 1 = Some sig /\
    lrs_Verify S g m (length y) sig y = Some true.
Proof.
  intros S OK HP g m y. destruct (lrs_forge_verifies S g m (map (point_to_bigint S) y) 1 HP) as (sig & E1 & _ & E2).
  exists sig. split; [exact E1|]. unfold lrs_Verify. rewrite map_length in E2. exact E2.
Qed.
Print Assumptions C17_unforgeable_refuted.

(** What remains true when the challenge vector has the length of the ring:
    special soundness.  Two transcripts with the same products and different
    challenge sums yield a position i at which both the public key and the tag
    are explained by the same exponents. *)
Theorem C17_special_sound_partial : forall p, prime p -> forall g h y0 n y s c s' c' z1 z2,
  g mod p <> 0 -> h mod p <> 0 -> y0 mod p <> 0 -> (forall i, (i < n)%nat -> nth i y 0 mod p <> 0) ->
  length c = n -> length c' = n ->
  ring_products p g n s c y z1 -> ring_products p h n s c (repeat y0 n) z2 ->
  ring_products p g n s' c' y z1 -> ring_products p h n s' c' (repeat y0 n) z2 ->
  fold_right Z.add 0 c mod (p - 1) <> fold_right Z.add 0 c' mod (p - 1) ->
  exists i A B, (i < n)%nat /\ (nth i c 0 - nth i c' 0) mod (p - 1) <> 0 /\
    is_power p g (nth i s 0 - nth i s' 0) A /\ is_power p (nth i y 0) (nth i c' 0 - nth i c 0) A /\
    is_power p h (nth i s 0 - nth i s' 0) B /\ is_power p y0 (nth i c' 0 - nth i c 0) B.
Proof.
  intros p PP g h y0 n y s c s' c' z1 z2 Hg Hh H0 Hy Lc Lc' R1 R2 R1' R2' NE.
  pose proof (prime_ge_2 _ PP) as P2.
  assert (UU : forall a, a mod p <> 0 -> unit a p).
  { intros a Ha. apply rel_prime_sym, prime_rel_prime; [assumption|]. intros D. apply Ha. now apply Zdivide_mod. }
  assert (X : exists i, (i < n)%nat /\ nth i c 0 mod (p - 1) <> nth i c' 0 mod (p - 1)).
  { clear R1 R2 R1' R2' Hy. revert n c' Lc Lc' NE. induction c as [|a c IH]; intros n c' Lc Lc' NE.
    - destruct c'; [|cbn in *; lia]. congruence.
    - destruct c' as [|a' c']; [cbn in *; lia|]. destruct n as [|n]; [discriminate|].
      destruct (Z.eq_dec (a mod (p - 1)) (a' mod (p - 1))) as [E|N].
      + destruct (IH n c') as (i & Hi & Ni); [cbn in Lc; lia|cbn in Lc'; lia| |].
        * intros E2. apply NE. cbn [fold_right].
          destruct (Z.eq_dec p 2) as [->|N2]; [now rewrite !Z.mod_1_r|].
          rewrite Z.add_mod, E, E2, <- Z.add_mod by lia. reflexivity.
        * exists (S i). split; [lia|]. exact Ni.
      + exists O. split; [lia|]. exact N. }
  destruct X as (i & Hi & Ni).
  assert (Pw : forall b us zs, b mod p <> 0 -> nth i us 0 mod p <> 0 ->
     ring_products p b n s c us zs -> ring_products p b n s' c' us zs ->
     zexp p b (nth i s 0 - nth i s' 0) = zexp p (nth i us 0) (nth i c' 0 - nth i c 0)).
  { intros b us zs Hb Hu [_ Q1] [_ Q2]. destruct (Q1 i Hi) as (A & B & HA & HB & E).
    destruct (Q2 i Hi) as (A' & B' & HA' & HB' & E').
    apply UU in Hb, Hu. apply is_power_unique in HA, HB, HA', HB'; try assumption; try lia.
    set (u := nth i us 0) in *. subst A B A' B'. rewrite E in E'.
    assert (E2 : mulm p (zexp p b (nth i s 0)) (zexp p u (nth i c 0)) =
                 mulm p (zexp p b (nth i s' 0)) (zexp p u (nth i c' 0))) by exact E'.
    assert (H1 : 1 < p) by lia.
    transitivity (mulm p (mulm p (zexp p b (nth i s 0)) (zexp p u (nth i c 0)))
                    (mulm p (zexp p b (- nth i s' 0)) (zexp p u (- nth i c 0)))).
    - clear -H1 Hb Hu. clearbody u. grp p.
    - rewrite E2. clear -H1 Hb Hu. clearbody u. grp p. }
  assert (Ry : nth i (repeat y0 n) 0 = y0).
  { rewrite nth_indep with (d' := y0) by (rewrite repeat_length; lia). apply nth_repeat. }
  exists i, (zexp p g (nth i s 0 - nth i s' 0)), (zexp p h (nth i s 0 - nth i s' 0)).
  split; [exact Hi|]. split.
  { intros D. apply Ni. destruct (Z.eq_dec p 2) as [->|N2]; [now rewrite !Z.mod_1_r|].
    apply Z.mod_divide in D; [|lia]. destruct D as [k D].
    replace (nth i c 0) with (nth i c' 0 + k * (p - 1)) by lia. apply Z.mod_add. lia. }
  split; [apply zexp_is_power; [lia|now apply UU]|].
  split; [rewrite (Pw g y z1); auto; apply zexp_is_power; [lia|apply UU; auto]|].
  split; [apply zexp_is_power; [lia|now apply UU]|].
  pose proof (Pw h (repeat y0 n) z2) as Pz. rewrite Ry in Pz. rewrite Pz by assumption.
  apply zexp_is_power; [lia|now apply UU].
Qed.
Print Assumptions C17_special_sound_partial.

(** ** C18 *)
(** REFUTED: for the same message and ring, accepted signatures with different
    tags - hence not linkable - can be made by anyone. *)
Theorem C18_linking_evaded_refuted : forall S, suite_ok S -> 2 < sP S -> forall g m y tag tag', tag <> tag' ->
  exists sig sig', lrs_Verify S g m (length y) sig y = Some true /\
    lrs_Verify S g m (length y) sig' y = Some true /\ lrs_linkable sig sig' = false /\
    lY0 sig = tag /\ lY0 sig' = tag'.
Proof.
  intros S OK HP g m y tag tag' N.
  destruct (lrs_forge_verifies S g m (map (point_to_bigint S) y) tag HP) as (sig & _ & T & E).
  destruct (lrs_forge_verifies S g m (map (point_to_bigint S) y) tag' HP) as (sig' & _ & T' & E').
  rewrite map_length in E, E'.
  exists sig, sig'. repeat split; try assumption. unfold lrs_linkable. rewrite T, T'.
  now apply Z.eqb_neq.
Qed.
Print Assumptions C18_linking_evaded_refuted.

(** REFUTED even for signatures of the right shape made with one key: adding a
    multiple of P to the tag keeps the signature valid. *)
Theorem C18_same_key_refuted : forall S, suite_ok S -> prime (sP S) -> forall g m n pi x y rs rc r,
  g mod sP S <> 0 -> 0 <= x -> (pi < n)%nat -> (n <= length y)%nat ->
  nth pi y 0 = (g ^ x) mod sP S ->
  (forall i, 0 <= rs i) -> (forall i, 0 <= rc i) ->
  be_to_z (sHash S (sHash S m ++ concat (map z_bytes y))) mod sP S <> 0 ->
  exists sig sig', lrs_sign S g m n pi x y rs rc r = Some sig /\
    lrs_verify S g m n sig y = Some true /\ lrs_verify S g m n sig' y = Some true /\
    length (lC sig') = n /\ lrs_linkable sig sig' = false /\ lY0 sig' = lY0 sig + sP S.
Proof.
  intros S OK PP g m n pi x y rs rc r Hg Hx Hpi Hn Hy Hs Hc Hh.
  destruct (C15_sign_verifies S PP g m n pi x y rs rc r) as (sig & E1 & E2 & _ & _); eauto.
  pose proof (sign_Y0 _ _ _ _ _ _ _ _ _ _ _ E1) as EY. pose proof (prime_ge_2 _ PP) as P2.
  exists sig, (lrs_sign_tag S g m n pi x y rs rc r (lY0 sig + sP S)).
  split; [exact E1|]. split; [exact E2|]. split.
  - apply lrs_tag_verifies; try assumption.
    + now apply h_nonzero.
    + rewrite Hy, zexp_pos, Z.mod_mod by lia. reflexivity.
    + replace (lY0 sig + sP S) with (lY0 sig + 1 * sP S) by lia. rewrite Z.mod_add by lia.
      rewrite EY. apply Z.mod_small. apply zexp_range. lia.
  - unfold lrs_sign_tag. cbn [lC lY0]. rewrite map_length, seq_length. split; [reflexivity|].
    unfold lrs_linkable. cbn [lY0]. split; [|reflexivity]. apply Z.eqb_neq. lia.
Qed.
Print Assumptions C18_same_key_refuted.

(** ** Non-vacuity: a ring of three in the toy suite; P = 23 = 2 * 11 + 1. *)
Lemma prime_23 : prime 23.
Proof. apply prime_small; [lia|vm_compute; reflexivity]. Qed.

Definition toy_ring : list Z := [4 ^ 3 mod 23; 4 ^ 7 mod 23; 4 ^ 9 mod 23].
Definition toy_msg : bytes := [x61; x62]%byte.

Example C15_instance :
  exists sig, lrs_sign toy_suite 4 toy_msg 3 1 7 toy_ring (fun i => Z.of_nat i + 2) (fun i => Z.of_nat i * 5) 6 = Some sig
  /\ lrs_verify toy_suite 4 toy_msg 3 sig toy_ring = Some true
  /\ (let H := be_to_z (toy_hash (toy_hash toy_msg ++ concat (map z_bytes toy_ring))) mod 23 in
      H <> 0 /\ H <> 1 /\ H <> 22).
Proof. eexists. split; [vm_compute; reflexivity|]. vm_compute. repeat split; discriminate. Qed.

Example C17_instance :
  exists sig, lrs_forge toy_suite 4 toy_msg toy_ring 5 = Some sig
  /\ lrs_verify toy_suite 4 toy_msg 3 sig toy_ring = Some true.
Proof. eexists. split; [vm_compute; reflexivity|]. vm_compute. reflexivity. Qed.
