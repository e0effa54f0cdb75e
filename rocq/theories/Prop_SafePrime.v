(** C103: what the coordinator's base rests on: the numbers openssl printed, and an H1 that
    generates the squares modulo N. *)
From Coq Require Import ZArith Znumtheory Zpow_facts Lia List Bool.
From Coq Require Import Strings.Byte.
From Verif Require Import ZMod Bytes Suite Spec FujiOkam ThreeSquares Fermat Roots Maps Prop_Config Console Prop_Console Prop_FujiOkam SafePrime.
Import ListNotations.
Open Scope Z_scope.

(** ** Specification *)
(** Every square of a unit modulo [N] is a power of [h]. *)
Definition squares_generated (N h : Z) : Prop :=
  forall y, rel_prime y N -> exists e, is_power N h e ((y ^ 2) mod N).
(** [2p+1] and [2q+1] are different safe primes. *)
Definition safe_primes (p q : Z) : Prop :=
  prime p /\ prime q /\ prime (2 * p + 1) /\ prime (2 * q + 1) /\ p <> q.

(** ** The numbers openssl prints *)
Lemma digits_val_spec ds : forall a, Forall is_digit ds -> digits_val a ds = Some (fold_left (fun a b => a * 10 + (code b - 48)) ds a).
Proof.
  induction ds as [|b ds IH]; intros a F; [reflexivity|]. inversion F as [|? ? Fb Fd]; subst. cbn [digits_val fold_left].
  rewrite digit_some by assumption. now apply IH.
Qed.
Lemma digits_val_inv ds : forall a n, digits_val a ds = Some n -> Forall is_digit ds.
Proof.
  induction ds as [|b ds IH]; intros a n H; [constructor|]. cbn [digits_val] in H. destruct (digit b) as [d|] eqn:E; [|discriminate].
  constructor; [|now apply IH in H]. unfold is_digit. destruct (Z.leb_spec 48 (code b)), (Z.leb_spec (code b) 57); try lia;
    exfalso; rewrite digit_none in E by (unfold is_digit; lia); discriminate E.
Qed.
Lemma unsigned_val_iff l n : unsigned_val l = Some n <-> l <> [] /\ Forall is_digit l /\ n = value l.
Proof.
  destruct l as [|b l]; [split; [discriminate|intros [X _]; contradiction]|]. unfold unsigned_val. split.
  - intros H. pose proof (digits_val_inv _ _ _ H) as F. rewrite digits_val_spec in H by exact F. injection H as <-. split; [discriminate|]. now split.
  - intros (_ & F & ->). now apply digits_val_spec.
Qed.
Lemma digit_no_sign b : is_digit b -> Byte.eqb b x2b%byte = false /\ Byte.eqb b x2d%byte = false.
Proof. unfold is_digit. intros H. split; apply not_true_iff_false; intros E; apply byte_eqb_iff in E; subst b; cbn in H; lia. Qed.
Lemma set_string10_iff l n : set_string10 l = Some n <-> numeral l n.
Proof.
  unfold set_string10, numeral. split.
  - destruct l as [|b l]; [discriminate|]. destruct (Byte.eqb b x2b%byte) eqn:E1; [|destruct (Byte.eqb b x2d%byte) eqn:E2].
    + apply byte_eqb_iff in E1. subst b. intros H. apply unsigned_val_iff in H as (N & F & ->). exists [x2b]%byte, l. tauto.
    + apply byte_eqb_iff in E2. subst b. intros H. destruct (unsigned_val l) as [m|] eqn:U; [|discriminate]. injection H as <-.
      apply unsigned_val_iff in U as (N & F & ->). exists [x2d]%byte, l. tauto.
    + intros H. apply unsigned_val_iff in H as (N & F & ->). exists [], (b :: l). tauto.
  - intros (sg & ds & -> & N & F & C). destruct C as [[-> ->]|[[-> ->]|[-> ->]]]; cbn [app].
    + destruct ds as [|b ds]; [contradiction|]. inversion F as [|? ? Fb _]; subst. destruct (digit_no_sign b Fb) as [-> ->].
      now apply unsigned_val_iff.
    + rewrite (proj2 (byte_eqb_iff _ _) eq_refl). now apply unsigned_val_iff.
    + change (Byte.eqb x2d x2b) with false. cbn iota. rewrite (proj2 (byte_eqb_iff _ _) eq_refl).
      now rewrite (proj2 (unsigned_val_iff ds (value ds))) by tauto.
Qed.

(** C103, the numbers: the number taken over is the one printed, less the last byte of the
    output, which should be the end of the line; any other output stops the coordinator. *)
Theorem C103_openssl_number : forall out n,
  gen_safe_prime out = Some n <-> exists s b, out = Some (s ++ [b]) /\ numeral s n.
Proof.
  intros out n. unfold gen_safe_prime. destruct out as [[|b0 st]|].
  - split; [discriminate|]. intros (s & b & E & _). injection E as E. symmetry in E. now apply app_eq_nil in E as [_ E].
  - rewrite set_string10_iff. split.
    + intros H. exists (removelast (b0 :: st)), (last (b0 :: st) x00%byte). split; [|exact H]. f_equal. now apply app_removelast_last.
    + intros (s & b & E & H). injection E as E. rewrite E. now rewrite removelast_last.
  - split; [discriminate|]. now intros (s & b & E & _).
Qed.

(** ** Squares modulo a safe prime *)
Lemma pow_mod a k n : 0 < n -> (a ^ k) mod n = ((a mod n) ^ k) mod n.
Proof. intros. now apply Zpow_facts.Zpower_mod. Qed.
Lemma safe_pos p : prime p -> prime (2 * p + 1) -> 2 <= p.
Proof. intros [H _] _. lia. Qed.
Lemma prime_sub_generates p h : prime p -> prime (2 * p + 1) ->
  member (2 * p + 1) p h -> h <> 1 -> generates (2 * p + 1) p h.
Proof.
  intros P1 P2 M N. pose proof (safe_pos p P1 P2).
  set (S0 := Suite (2 * p + 1) p 1 (fun _ => []) (fun _ _ => 1) (fun _ => 1)).
  assert (OK : suite_ok S0).
  { constructor; unfold S0; cbn [sP sQ sG sPick sNonce]; try (intros; lia). unfold in_group; cbn [sP sQ sG]. split; [lia|]. rewrite Z.pow_1_l by lia. apply Z.mod_1_l. lia. }
  exact (prime_generates S0 OK P2 P1 h M N).
Qed.
Lemma square_member p y : prime p -> prime (2 * p + 1) -> y mod (2 * p + 1) <> 0 ->
  member (2 * p + 1) p ((y ^ 2) mod (2 * p + 1)).
Proof.
  intros P1 P2 Hy. pose proof (safe_pos p P1 P2) as L. set (P := 2 * p + 1) in *.
  pose proof (fermat P y P2 Hy) as FE. replace (P - 1) with (2 * p) in FE by (subst P; ring). rewrite zexp_pos in FE by lia.
  assert (E : ((y ^ 2) mod P) ^ p mod P = 1).
  { rewrite <- pow_mod by lia. rewrite <- FE. f_equal. rewrite <- Z.pow_mul_r by lia. reflexivity. }
  split; [|exact E]. pose proof (Z.mod_pos_bound (y ^ 2) P ltac:(lia)). destruct (Z.eq_dec ((y ^ 2) mod P) 0) as [X|]; [|lia].
  rewrite X, Z.pow_0_l, Z.mod_0_l in E by lia. discriminate E.
Qed.
Lemma unit_mod_prime P N y : prime P -> (P | N) -> rel_prime y N -> y mod P <> 0.
Proof.
  intros PP D R E. apply Z.mod_divide in E; [|destruct PP; lia]. destruct PP as [L _].
  pose proof (Zis_gcd_gcd y N 1 ltac:(lia) R) as G. assert (P | 1) as X by (rewrite <- G; now apply Z.gcd_greatest). apply Z.divide_pos_le in X; lia.
Qed.
Lemma power_mod_order P p H k : prime P -> 0 < p -> member P p H -> 0 <= k -> (H ^ k) mod P = (H ^ (k mod p)) mod P.
Proof.
  intros PP Lp [R M] Lk. pose proof (Z.mod_pos_bound k p Lp). rewrite (Z.div_mod k p) at 1 by lia. pose proof (Z.div_pos k p Lk Lp).
  rewrite Z.pow_add_r by lia. rewrite Z.pow_mul_r by lia. rewrite <- Z.mul_mod_idemp_l by lia. rewrite pow_mod by lia. rewrite M.
  rewrite Z.pow_1_l by lia. rewrite Z.mod_1_l by lia. now rewrite Z.mul_1_l.
Qed.
Lemma mod_mod_divide x P N : 0 < P -> 0 < N -> (P | N) -> (x mod N) mod P = x mod P.
Proof. intros L1 L2 D. symmetry. now apply Zmod_div_mod. Qed.

Lemma crt a b p q : 0 < p -> 0 < q -> rel_prime p q -> exists e, 0 <= e /\ e mod p = a mod p /\ e mod q = b mod q.
Proof.
  intros Lp Lq R. apply rel_prime_bezout in R as [u v E]. exists ((a * (v * q) + b * (u * p)) mod (p * q)).
  split; [apply Z.mod_pos_bound; nia|]. split.
  - rewrite mod_mod_divide by (first [nia | exists q; ring]).
    replace (a * (v * q) + b * (u * p)) with (a + (b * u - a * u) * p) by (replace (v * q) with (1 - u * p) by lia; ring). now rewrite Z.mod_add by lia.
  - rewrite mod_mod_divide by (first [nia | exists p; ring]).
    replace (a * (v * q) + b * (u * p)) with (b + (a * v - b * v) * q) by (replace (u * p) with (1 - v * q) by lia; ring). now rewrite Z.mod_add by lia.
Qed.
Lemma safe_coprime p q : safe_primes p q -> rel_prime p q /\ rel_prime (2 * p + 1) (2 * q + 1).
Proof.
  intros (P1 & P2 & P3 & P4 & NE). split.
  - apply prime_rel_prime; [exact P1|]. intros D. apply prime_div_prime in D; [contradiction|assumption|assumption].
  - apply prime_rel_prime; [exact P3|]. intros D. apply prime_div_prime in D; [lia|assumption|assumption].
Qed.
Lemma eq_mod_both P Q x y : rel_prime P Q -> 0 < P -> 0 < Q -> x mod P = y mod P -> x mod Q = y mod Q -> x mod (P * Q) = y mod (P * Q).
Proof.
  intros R LP LQ E1 E2. assert (D : (P * Q | x - y)).
  { assert (D1 : (P | x - y)) by (apply Z.mod_divide; [lia|]; rewrite Zminus_mod, E1, Z.sub_diag; apply Z.mod_0_l; lia).
    assert (D2 : (Q | x - y)) by (apply Z.mod_divide; [lia|]; rewrite Zminus_mod, E2, Z.sub_diag; apply Z.mod_0_l; lia).
    destruct D1 as [k K]. rewrite K in D2 |- *. rewrite Z.mul_comm in D2. apply Gauss in D2; [|now apply rel_prime_sym].
    destruct D2 as [j ->]. exists j. ring. }
  destruct D as [k K]. replace x with (y + k * (P * Q)) by lia. apply Z.mod_add. nia.
Qed.

Lemma generates_iff p q h : safe_primes p q -> let N := (2 * p + 1) * (2 * q + 1) in
  rel_prime h N ->
  squares_generated N ((h * h) mod N) <-> ((h * h) mod N) mod (2 * p + 1) <> 1 /\ ((h * h) mod N) mod (2 * q + 1) <> 1.
Proof.
  intros SP N RH. pose proof SP as (P1 & P2 & P3 & P4 & NE). destruct (safe_coprime p q SP) as [R1 R2].
  pose proof (safe_pos p P1 P3) as Lp. pose proof (safe_pos q P2 P4) as Lq. set (P := 2 * p + 1) in *. set (Q := 2 * q + 1) in *.
  assert (DP : (P | N)) by (exists Q; subst N; ring). assert (DQ : (Q | N)) by (exists P; subst N; ring).
  assert (HN : 1 < N) by (subst N P Q; nia). set (H := (h * h) mod N) in *.
  pose proof (Z.mod_pos_bound (h * h) N ltac:(lia)) as RHH. fold H in RHH.
  assert (EP : H mod P = (h ^ 2) mod P) by (unfold H; rewrite mod_mod_divide by (assumption || lia); f_equal; ring).
  assert (EQ : H mod Q = (h ^ 2) mod Q) by (unfold H; rewrite mod_mod_divide by (assumption || lia); f_equal; ring).
  assert (MP : member P p (H mod P)) by (rewrite EP; apply square_member; try assumption; now apply (unit_mod_prime P N)).
  assert (MQ : member Q q (H mod Q)) by (rewrite EQ; apply square_member; try assumption; now apply (unit_mod_prime Q N)).
  split.
  - intros G.
    (* 2 is a unit whose square is not 1 modulo either prime *)
    assert (U2 : rel_prime 2 N).
    { apply rel_prime_mult; apply Zgcd_1_rel_prime; [unfold P|unfold Q]; rewrite Z.add_comm, Z.mul_comm, Z.gcd_add_mult_diag_r; reflexivity. }
    destruct (G 2 U2) as (e & _ & E). change (2 ^ 2) with 4 in E.
    assert (X : forall P0, 5 <= P0 -> (P0 | N) -> P0 <> 1 -> H mod P0 = 1 -> False).
    { intros P0 L0 D0 _ E0. assert (E1 : (4 mod N * H ^ zneg e) mod N mod P0 = (H ^ zpos e) mod N mod P0) by now rewrite E.
      rewrite !mod_mod_divide in E1 by (assumption || lia). rewrite Z.mul_mod in E1 by lia. rewrite mod_mod_divide in E1 by (assumption || lia).
      assert (Y : forall k, 0 <= k -> (H ^ k) mod P0 = 1) by (intros k Lk; rewrite pow_mod, E0, Z.pow_1_l by lia; apply Z.mod_1_l; lia).
      rewrite !Y in E1 by (unfold zneg, zpos; lia). rewrite Z.mul_1_r in E1. rewrite Z.mod_mod in E1 by lia. rewrite Z.mod_small in E1 by lia. discriminate E1. }
    split; intros E0; [apply (X P)|apply (X Q)]; try assumption; subst P Q; lia.
  - intros [NP NQ] y Uy.
    pose proof (square_member p y P1 P3 (unit_mod_prime P N y P3 DP Uy)) as YP.
    pose proof (square_member q y P2 P4 (unit_mod_prime Q N y P4 DQ Uy)) as YQ. fold P in YP. fold Q in YQ.
    destruct (prime_sub_generates p (H mod P) P1 P3 MP NP _ YP) as (a & La & Ea). fold P in Ea.
    destruct (prime_sub_generates q (H mod Q) P2 P4 MQ NQ _ YQ) as (b & Lb & Eb). fold Q in Eb.
    destruct (crt a b p q ltac:(lia) ltac:(lia) R1) as (e & Le & E1 & E2).
    exists e. split; [apply Z.mod_pos_bound; lia|]. unfold zneg, zpos. rewrite (Z.max_r (- e) 0), (Z.max_l e 0) by lia.
    rewrite Z.pow_0_r, Z.mul_1_r, Z.mod_mod by lia. apply eq_mod_both; [exact R2|lia|lia|..].
    + rewrite Ea. rewrite (pow_mod H e) by lia. rewrite (power_mod_order P p (H mod P) e), (power_mod_order P p (H mod P) a) by (assumption || lia). now rewrite E1.
    + rewrite Eb. rewrite (pow_mod H e) by lia. rewrite (power_mod_order Q q (H mod Q) e), (power_mod_order Q q (H mod Q) b) by (assumption || lia). now rewrite E2.
Qed.

Lemma half_odd x : (2 * x + 1) / 2 = x.
Proof. rewrite Z.mul_comm, Z.div_add_l by lia. change (1 / 2) with 0. lia. Qed.

(** ** C103 *)
(** For a base made from two different safe primes, H1 generates the squares modulo N exactly
    if it is not 1 modulo one of them.
    Full property: [squares_generated (fN fb) (fH1 fb)] for every base that is created. *)
Theorem C103_generates_partial : forall p q draws u1 u2 u3 u4 u5 u6 fb t, safe_primes p q ->
  fo_create_base (2 * p + 1) (2 * q + 1) draws u1 u2 u3 u4 u5 u6 = Some (fb, t) ->
  (squares_generated (fN fb) (fH1 fb) <-> fH1 fb mod (2 * p + 1) <> 1 /\ fH1 fb mod (2 * q + 1) <> 1).
Proof.
  intros p q draws u1 u2 u3 u4 u5 u6 fb t SP E. pose proof SP as (P1 & P2 & P3 & P4 & NE).
  pose proof (safe_pos p P1 P3) as Lp. pose proof (safe_pos q P2 P4) as Lq.
  assert (D : forall x, (2 * x + 1) / 2 = x) by (intros x; rewrite Z.mul_comm, Z.div_add_l by lia; change (1 / 2) with 0; lia).
  unfold fo_create_base in E. rewrite !D in E. destruct (gen_h p q _ draws) as [h|] eqn:EH; [|discriminate].
  cbn in E. injection E as <- _. cbn [fN fH1]. apply gen_h_spec in EH as (h1 & _ & _ & M1 & M2 & ->).
  replace (p + p + 1) with (2 * p + 1) in M1 by ring. replace (q + q + 1) with (2 * q + 1) in M2 by ring.
  apply generates_iff; [exact SP|]. apply rel_prime_mult; now apply prime_unit.
Qed.

(** At most 2(P+Q) of the P*Q values genH may draw, with safe primes of 512 bits fewer than
    2^515 of more than 2^1022, give an H1 that does not. *)
Theorem C103_few_draws : forall p q l, safe_primes p q -> NoDup l ->
  (forall h, In h l -> 0 <= h < (2 * p + 1) * (2 * q + 1) /\
    exists u1 u2 u3 u4 u5 u6 fb t, fo_create_base (2 * p + 1) (2 * q + 1) [h] u1 u2 u3 u4 u5 u6 = Some (fb, t) /\
      ~ squares_generated (fN fb) (fH1 fb)) ->
  Z.of_nat (length l) <= 2 * ((2 * p + 1) + (2 * q + 1)).
Proof.
  intros p q l SP D HL. pose proof SP as (P1 & P2 & P3 & P4 & NE).
  pose proof (safe_pos p P1 P3) as Lp. pose proof (safe_pos q P2 P4) as Lq.
  assert (B : forall h, In h l -> 0 <= h < (2 * p + 1) * (2 * q + 1) /\ ((h ^ 2) mod (2 * p + 1) = 1 \/ (h ^ 2) mod (2 * q + 1) = 1)).
  { intros h I. destruct (HL h I) as (R & u1 & u2 & u3 & u4 & u5 & u6 & fb & t & E & NG). split; [exact R|].
    rewrite (C103_generates_partial p q [h] u1 u2 u3 u4 u5 u6 fb t SP E) in NG.
    assert (EH : fN fb = (2 * p + 1) * (2 * q + 1) /\ fH1 fb = (h * h) mod ((2 * p + 1) * (2 * q + 1))).
    { unfold fo_create_base in E. destruct (gen_h _ _ _ [h]) as [h2|] eqn:EH; [|discriminate]. cbn in E. injection E as <- _. cbn [fN fH1].
      split; [reflexivity|]. apply gen_h_spec in EH as (h1 & [<-|[]] & _ & _ & _ & ->). reflexivity. }
    destruct EH as [_ EH]. rewrite EH in NG. rewrite !mod_mod_divide in NG by (nia || (eexists; reflexivity) || (eexists; apply Z.mul_comm)).
    replace (h * h) with (h ^ 2) in NG by ring. destruct (Z.eq_dec ((h ^ 2) mod (2 * p + 1)) 1); [now left|].
    destruct (Z.eq_dec ((h ^ 2) mod (2 * q + 1)) 1); [now right|]. exfalso. apply NG. now split. }
  clear HL. set (P := 2 * p + 1) in *. set (Q := 2 * q + 1) in *.
  assert (SQ : forall P0 h, prime P0 -> (h ^ 2) mod P0 = 1 -> h mod P0 = 1 \/ h mod P0 = P0 - 1).
  { intros P0 h PP E. assert (L0 : 1 < P0) by (destruct PP; lia).
    assert (F : ((h - 1) * (h + 1)) mod P0 = 0).
    { replace ((h - 1) * (h + 1)) with (h ^ 2 - 1) by ring. rewrite Zminus_mod, E, Z.mod_1_l, Z.sub_diag by lia. apply Z.mod_0_l. lia. }
    apply prime_factor in F; [|exact PP]. destruct F as [F|F]; apply Z.mod_divide in F; try lia; destruct F as [k K].
    - left. replace h with (1 + k * P0) by lia. rewrite Z.mod_add by lia. apply Z.mod_1_l. lia.
    - right. replace h with ((P0 - 1) + (k - 1) * P0) by lia. rewrite Z.mod_add by lia. apply Z.mod_small. lia. }
  set (ms := fun P0 Q0 r => map (fun k => Z.of_nat k * P0 + r) (seq 0 (Z.to_nat Q0))).
  assert (IN : forall P0 Q0 r h, 0 < P0 -> 0 < Q0 -> 0 <= h < P0 * Q0 -> h mod P0 = r -> In h (ms P0 Q0 r)).
  { intros P0 Q0 r h L1 L2 R E. unfold ms. apply in_map_iff. exists (Z.to_nat (h / P0)). pose proof (Z.div_pos h P0 ltac:(lia) L1).
    pose proof (Z.div_lt_upper_bound h P0 Q0 L1 ltac:(lia)). pose proof (Z.div_mod h P0 ltac:(lia)). split; [rewrite Z2Nat.id by lia; lia|]. apply in_seq. lia. }
  assert (I : incl l (ms P Q 1 ++ ms P Q (P - 1) ++ ms Q P 1 ++ ms Q P (Q - 1))).
  { intros h Ih. destruct (B h Ih) as [R [E|E]]; apply SQ in E; try assumption; rewrite !in_app_iff.
    - destruct E as [E|E]; [left|right; left]; (apply IN; try assumption; subst P Q; lia).
    - destruct E as [E|E]; [right; right; left|right; right; right]; (apply IN; try assumption; try (rewrite Z.mul_comm; assumption); subst P Q; lia). }
  apply NoDup_incl_length in I; [|exact D]. rewrite !app_length in I. unfold ms in I. rewrite !map_length, !seq_length in I. subst P Q. lia.
Qed.

(** C103 as stated is false: genH refuses 1 but not N-1.  With it H1 is 1, and so are all six
    generators; every commitment is 1, whatever it commits to. *)
Theorem C103_generates_refuted : forall p q u1 u2 u3 u4 u5 u6, safe_primes p q ->
  exists fb t, fo_create_base (2 * p + 1) (2 * q + 1) [(2 * p + 1) * (2 * q + 1) - 1] u1 u2 u3 u4 u5 u6 = Some (fb, t) /\
    fN fb = (2 * p + 1) * (2 * q + 1) /\ ~ squares_generated (fN fb) (fH1 fb) /\
    fH1 fb = 1 /\ fG1 fb = 1 /\ fG2 fb = 1 /\ fG3 fb = 1 /\ fG4 fb = 1 /\ fG5 fb = 1 /\ fG6 fb = 1 /\
    forall x u, fst (fo_commit fb x u) = 1.
Proof.
  intros p q u1 u2 u3 u4 u5 u6 SP. pose proof SP as (P1 & P2 & P3 & P4 & NE).
  pose proof (safe_pos p P1 P3) as Lp. pose proof (safe_pos q P2 P4) as Lq. set (N := (2 * p + 1) * (2 * q + 1)).
  assert (HN : 1 < N) by (subst N; nia).
  assert (X1 : forall e, fo_exp N 1 e = 1).
  { intros e. assert (U : unit 1 N) by (apply Zgcd_1_rel_prime; apply Z.gcd_1_l). unfold fo_exp, exp_into.
    change (match bigexp 1 e N with Some v => v | None => 0 end) with (zexp N 1 e).
    rewrite <- (zexp_mod_order N 1 1 e); try assumption; try lia; [rewrite Z.mod_1_r; now apply zexp_0|].
    rewrite zexp_pos by lia. apply Z.mod_1_l. lia. }
  assert (EH : gen_h ((2 * p + 1) / 2) ((2 * q + 1) / 2) N [N - 1] = Some 1).
  { assert (D : forall x, (2 * x + 1) / 2 = x) by (intros x; rewrite Z.mul_comm, Z.div_add_l by lia; change (1 / 2) with 0; lia).
    rewrite !D. cbn [gen_h]. destruct (Z.eqb_spec (N - 1) 1) as [E|_]; [subst N; nia|].
    replace (p + p + 1) with (2 * p + 1) by ring. replace (q + q + 1) with (2 * q + 1) by ring.
    assert (M : forall P0 Q0, 1 < P0 -> N = P0 * Q0 -> (N - 1) mod P0 <> 0).
    { intros P0 Q0 L0 EN. replace (N - 1) with ((P0 - 1) + (Q0 - 1) * P0) by lia. rewrite Z.mod_add, Z.mod_small by lia. lia. }
    destruct (Z.eqb_spec ((N - 1) mod (2 * p + 1)) 0) as [E|_]; [exfalso; revert E; apply (M _ (2 * q + 1)); [lia|reflexivity]|].
    destruct (Z.eqb_spec ((N - 1) mod (2 * q + 1)) 0) as [E|_]; [exfalso; revert E; apply (M _ (2 * p + 1)); [lia|subst N; ring]|].
    f_equal. unfold fo_mul, mulm. replace ((N - 1) * (N - 1)) with (1 + (N - 2) * N) by ring. rewrite Z.mod_add by lia. apply Z.mod_1_l. lia. }
  eexists. eexists. unfold fo_create_base. fold N. rewrite EH. unfold gen_gn. rewrite !X1. split; [reflexivity|]. cbn [fN fH1 fG1 fG2 fG3 fG4 fG5 fG6].
  split; [reflexivity|]. split; [|do 7 (split; [reflexivity|])].
  - pose proof (generates_iff p q 1 SP) as G. cbv zeta in G. fold N in G. change (1 * 1) with 1 in G. rewrite Z.mod_1_l in G by lia.
    rewrite G by (apply Zgcd_1_rel_prime; apply Z.gcd_1_l). intros [X _]. apply X. apply Z.mod_1_l. lia.
  - intros x u. unfold fo_commit, fo_commit_r. cbn [fst fN fG1 fH1]. rewrite !X1. unfold fo_mul, mulm. apply Z.mod_1_l. lia.
Qed.

(** All together, from what openssl prints: two lines with different safe primes. *)
Theorem C103_from_openssl : forall p q s1 s2 draws u1 u2 u3 u4 u5 u6 fb t, safe_primes p q ->
  numeral s1 (2 * p + 1) -> numeral s2 (2 * q + 1) ->
  create_base_openssl (Some (s1 ++ [x0a]%byte)) (Some (s2 ++ [x0a]%byte)) draws u1 u2 u3 u4 u5 u6 = Some (fb, t) ->
  fN fb = (2 * p + 1) * (2 * q + 1) /\ fP t = p /\ fQ t = q /\ fobase_ok fb /\
  (fH1 fb mod (2 * p + 1) <> 1 -> fH1 fb mod (2 * q + 1) <> 1 -> squares_generated (fN fb) (fH1 fb)).
Proof.
  intros p q s1 s2 draws u1 u2 u3 u4 u5 u6 fb t SP N1 N2 E. pose proof SP as (P1 & P2 & P3 & P4 & NE).
  pose proof (safe_pos p P1 P3) as Lp. pose proof (safe_pos q P2 P4) as Lq.
  unfold create_base_openssl in E. rewrite (proj2 (C103_openssl_number _ (2 * p + 1))) in E by (exists s1, x0a; now split).
  rewrite (proj2 (C103_openssl_number _ (2 * q + 1))) in E by (exists s2, x0a; now split).
  pose proof (C06_create_base _ _ _ _ _ _ _ _ _ _ _ P3 P4 ltac:(lia) ltac:(lia) E) as (EN & _ & _ & _ & _ & _ & _ & _ & _ & B).
  split; [exact EN|]. split; [|split; [|split; [exact B|]]].
  - unfold fo_create_base in E. destruct (gen_h _ _ _ draws); [|discriminate]. cbv beta iota zeta delta [gen_gn] in E. injection E as _ <-. cbn [fP].
    apply half_odd.
  - unfold fo_create_base in E. destruct (gen_h _ _ _ draws); [|discriminate]. cbv beta iota zeta delta [gen_gn] in E. injection E as _ <-. cbn [fQ].
    apply half_odd.
  - intros X Y. apply (C103_generates_partial p q draws u1 u2 u3 u4 u5 u6 fb t SP E). now split.
Qed.

(** ** Instances *)
(** The safe primes 11 and 7 printed by openssl, a draw genH refuses (14) and one it takes. *)
Lemma toy_safe : safe_primes 5 3.
Proof. do 4 (split; [apply prime_small; vm_compute; reflexivity|]). discriminate. Qed.
Lemma toy_num1 : numeral [x31; x31]%byte (2 * 5 + 1).
Proof. apply set_string10_iff. reflexivity. Qed.
Lemma toy_num2 : numeral [x37]%byte (2 * 3 + 1).
Proof. apply set_string10_iff. reflexivity. Qed.
Example C103_instance : exists fb t,
  create_base_openssl (Some [x31; x31; x0a]%byte) (Some [x37; x0a]%byte) [14; 3] 0 1 2 3 4 5 = Some (fb, t) /\
  fN fb = 77 /\ fH1 fb = 9 /\ fH1 fb mod 11 <> 1 /\ fH1 fb mod 7 <> 1.
Proof. eexists. eexists. split; [vm_compute; reflexivity|]. cbn. repeat split; discriminate. Qed.
(** 12 is 1 modulo 11: one of the draws counted in C103_few_draws. *)
Example C103_instance_bad_draw : exists fb t, fo_create_base 11 7 [12] 0 1 2 3 4 5 = Some (fb, t) /\ ~ squares_generated (fN fb) (fH1 fb).
Proof.
  destruct (fo_create_base 11 7 [12] 0 1 2 3 4 5) as [[fb t]|] eqn:E; [|vm_compute in E; discriminate E].
  exists fb, t. split; [reflexivity|]. rewrite (C103_generates_partial 5 3 [12] 0 1 2 3 4 5 fb t toy_safe E).
  vm_compute in E. injection E as <- _. intros [X _]. now apply X.
Qed.
(** Without the end of the line the last digit is lost; a carriage return stops the program. *)
Example C103_instance_output : gen_safe_prime (Some [x31; x31]%byte) = Some 1 /\ gen_safe_prime (Some [x31; x31; x0d; x0a]%byte) = None /\ gen_safe_prime None = None.
Proof. repeat split. Qed.

Print Assumptions C103_openssl_number.
Print Assumptions C103_generates_partial.
Print Assumptions C103_few_draws.
Print Assumptions C103_generates_refuted.
Print Assumptions C103_from_openssl.
