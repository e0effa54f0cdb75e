(** Verifiable shuffles: C31 - C37. *)
From Coq Require Import ZArith Znumtheory Zpow_facts Lia List Bool Permutation.
From Coq Require Import Strings.Byte.
From Coq Require String.
From Verif Require Import ZMod Bytes Suite Spec Codec Maps Net Perm SimpleShuffle PairShuffle Biffle Server.
Import ListNotations.
Import String.StringSyntax.
Open Scope Z_scope.
Delimit Scope string_scope with str.

(** ** C31: the index vector *)
(** Whatever the random stream, Shuffle works with a permutation of 0..k-1. *)
Theorem C31_permutation : forall S g h X Y u beta sh, shuffle S g h X Y u beta = Some sh ->
  Permutation (shPi sh) (seq 0 (length X)).
Proof.
  intros S g h X Y u beta sh E. unfold shuffle in E. destruct (negb _); [discriminate|].
  destruct (length X <=? 1)%nat; [discriminate|]. injection E as <-. apply draw_perm_perm.
Qed.
(** Every permutation is drawn for some stream (of 64-bit words, for fewer than 2^64 pairs). *)
Theorem C31_every_permutation : forall S g h X Y beta p, (2 <= length X)%nat -> length Y = length X ->
  Z.of_nat (length X) < 2 ^ 64 -> Permutation p (seq 0 (length X)) ->
  exists u sh, (forall n, 0 <= u n < 2 ^ 64) /\ shuffle S g h X Y u beta = Some sh /\ shPi sh = p.
Proof.
  intros S g h X Y beta p K L B HP. destruct (draw_perm_onto _ _ HP) as (u & Hu & E).
  exists (fun n => if (n <? length X)%nat then u n else 0).
  assert (E' : draw_perm (fun n => if (n <? length X)%nat then u n else 0) (length X) = p).
  { rewrite <- E. unfold draw_perm. generalize (seq 0 (length X)).
    assert (G : forall i l, (i < length X)%nat ->
      perm_loop (fun n => if (n <? length X)%nat then u n else 0) i l = perm_loop u i l).
    { induction i as [|i IH]; intros l Hi; cbn [perm_loop]; [reflexivity|].
      destruct (Nat.ltb_spec (Datatypes.S i) (length X)); [|lia]. apply IH. lia. }
    intros l. apply G. lia. }
  unfold shuffle. rewrite L, Nat.eqb_refl. cbn [negb]. destruct (Nat.leb_spec (length X) 1); [lia|].
  eexists. split; [|split; [reflexivity|cbn [shPi]; exact E']].
  intros n. destruct (Nat.ltb_spec n (length X)); [|lia]. specialize (Hu n). lia.
Qed.

(** ** C32: Shuffle permutes and re-encrypts *)
Theorem C32_reencrypts : forall S, suite_ok S -> forall g h X Y u beta sh,
  in_group S g -> in_group S h -> Forall (fun b => 0 <= b) beta ->
  shuffle S g h X Y u beta = Some sh ->
  reencrypts (sP S) g h X Y (shX sh) (shY sh).
Proof.
  intros S OK g h X Y u beta sh Hg Hh HB E.
  destruct (shuffle_spec S _ _ _ _ _ _ _ Hg Hh E) as (HP & LY & _ & _ & LXb & LYb & _ & PX & PY & _).
  pose proof (sP_gt1 S OK).
  assert (B : forall i, 0 <= at_ beta i).
  { intros i. unfold at_. destruct (le_lt_dec (length beta) i); [rewrite nth_overflow by assumption; lia|].
    rewrite Forall_forall in HB. apply HB. now apply nth_In. }
  exists (shPi sh), (fun i => at_ beta (nth i (shPi sh) 0%nat)). repeat (split; [assumption|]).
  intros i Hi. split; [apply B|].
  specialize (PX i Hi). specialize (PY i ltac:(lia)). rewrite zexp_pos in PX, PY by (try apply B; lia).
  unfold mulm, at_ in *. rewrite Z.mul_mod_idemp_l in PX, PY by lia. split; assumption.
Qed.
(** It accepts all inputs of equal length >= 2. *)
Theorem C32_total : forall S g h X Y u beta, (2 <= length X)%nat -> length Y = length X ->
  exists sh, shuffle S g h X Y u beta = Some sh.
Proof.
  intros S g h X Y u beta K L. unfold shuffle. rewrite L, Nat.eqb_refl. cbn [negb].
  destruct (Nat.leb_spec (length X) 1); [lia|]. eexists. reflexivity.
Qed.
(** Re-encryption preserves the plaintexts, in the permuted order. *)
Theorem C32_decrypts : forall p x g h X Y Xb Yb, 1 < p -> 0 <= x -> h = (g ^ x) mod p ->
  reencrypts p g h X Y Xb Yb ->
  exists pi, Permutation pi (seq 0 (length X)) /\
    forall i m, (i < length X)%nat ->
      decrypts p x (nth (nth i pi 0%nat) X 0) (nth (nth i pi 0%nat) Y 0) m ->
      decrypts p x (nth i Xb 0) (nth i Yb 0) m.
Proof.
  intros p x g h X Y Xb Yb Hp Hx Eh (pi & b & HP & _ & _ & _ & HE). exists pi. split; [exact HP|].
  intros i m Hi HD. destruct (HE i Hi) as (B & -> & ->). unfold decrypts in *. rewrite HD, Eh.
  set (a := nth (nth i pi 0%nat) X 0). rewrite Z.mul_mod_idemp_r by lia.
  rewrite Z.mul_mod, <- Zpower_mod, <- Z.mul_mod by lia.
  rewrite (Z.mul_mod m), <- Zpower_mod, <- (Z.mul_mod m) by lia.
  f_equal. rewrite Z.pow_mul_l, <- !Z.pow_mul_r by lia. rewrite (Z.mul_comm x (b i)). ring.
Qed.
(** Subtracting the returned blinding gives the permuted second components. *)
Theorem C32_unblind : forall S, suite_ok S -> forall g h X Y u beta sh,
  in_group S g -> in_group S h -> Forall (in_group S) Y ->
  shuffle S g h X Y u beta = Some sh ->
  exists l, convert_to_origin S (shY sh) (shTY sh) = Some l /\
    length l = length Y /\ Permutation l Y /\
    forall i, (i < length Y)%nat -> nth i l 0 = nth (nth i (shPi sh) 0%nat) Y 0.
Proof.
  intros S OK g h X Y u beta sh Hg Hh HY E.
  destruct (shuffle_spec S _ _ _ _ _ _ _ Hg Hh E) as (HP & LY & _).
  pose proof (Permutation_length HP) as LP. rewrite seq_length in LP.
  apply all_group_forall in HY. exists (map (at_ Y) (shPi sh)). split; [now apply (convert_spec S OK g h X Y u beta)|].
  split; [rewrite map_length; lia|]. split.
  - rewrite <- (map_at_seq Y) at 2. apply Permutation_map. now rewrite LY.
  - intros i Hi. rewrite nth_indep with (d' := at_ Y 0%nat) by (rewrite map_length; lia). now rewrite map_nth.
Qed.

(** ** C33: reputations follow their keys *)
Theorem C33_rebind : forall keys vals final, NoDup keys -> length vals = length keys -> Permutation final keys ->
  length (rebind keys vals final) = length keys /\
  forall i j, (i < length keys)%nat -> (j < length keys)%nat -> nth i final 0 = nth j keys 0 ->
    nth i (rebind keys vals final) None = Some (nth j vals 0).
Proof.
  intros keys vals final ND LV HP. unfold rebind. split; [now rewrite map_length, seq_length|].
  intros i j Hi Hj E. rewrite nth_indep with (d' := mget (fold_left (fun m i => mset m (at_ keys i) (at_ vals i)) (seq 0 (length keys)) []) (at_ final 0))
    by (now rewrite map_length, seq_length).
  rewrite (map_nth (fun i => mget (fold_left (fun m i => mset m (at_ keys i) (at_ vals i)) (seq 0 (length keys)) []) (at_ final i))).
  rewrite seq_nth by assumption. cbn [plus]. unfold at_ at 3. rewrite E.
  apply (fold_mset_get keys vals (seq 0 (length keys)) [] ); [now rewrite map_at_seq|]. apply in_seq. lia.
Qed.
Lemma NoDup_map_in {A B} (f : A -> B) l : (forall a b, In a l -> In b l -> f a = f b -> a = b) -> NoDup l -> NoDup (map f l).
Proof.
  induction l as [|a l IH]; intros HI ND; cbn; [constructor|]. inversion ND; subst. constructor.
  - intros Hi. apply in_map_iff in Hi. destruct Hi as (b & Eb & Hb). apply HI in Eb; [|now right|now left]. congruence.
  - apply IH; [|assumption]. intros x y Hx Hy. apply HI; now right.
Qed.
(** The pairs after are the pairs before, in another order. *)
Theorem C33_same_table : forall keys vals final, NoDup keys -> length vals = length keys -> Permutation final keys ->
  exists fv, non_nil (rebind keys vals final) = Some fv /\ Permutation (combine final fv) (combine keys vals).
Proof.
  intros keys vals final ND LV HP.
  destruct (Permutation_nth keys final 0) as [F _]. destruct (F (Permutation_sym HP)) as (LF & f & BF & IF & NF). clear F.
  set (pi := map f (seq 0 (length keys))).
  assert (EF : final = map (at_ keys) pi).
  { apply (nth_ext _ _ 0 0); [unfold pi; now rewrite !map_length, seq_length, LF|]. intros n Hn. rewrite LF in Hn.
    rewrite NF by assumption. unfold pi. rewrite map_map.
    change (nth (f n) keys 0) with (at_ keys (f n)). rewrite nth_indep with (d' := at_ keys (f 0%nat)) by (rewrite ?map_length, ?seq_length; lia).
    rewrite (map_nth (fun x => at_ keys (f x))). now rewrite seq_nth by assumption. }
  assert (PP : Permutation pi (seq 0 (length keys))).
  { apply NoDup_Permutation_bis.
    - unfold pi. apply NoDup_map_in; [|apply seq_NoDup].
      intros a b Ha Hb. apply in_seq in Ha, Hb. apply IF; lia.
    - unfold pi. now rewrite map_length.
    - intros a Ha. unfold pi in Ha. apply in_map_iff in Ha. destruct Ha as (n & <- & Hn). apply in_seq in Hn.
      apply in_seq. pose proof (BF n). lia. }
  rewrite EF, rebind_perm by assumption. unfold non_nil.
  rewrite (dec_all_fun _ (fun o => match o with Some v => v | None => 0 end)).
  2:{ intros x Hx. apply in_map_iff in Hx. destruct Hx as (j & <- & _). reflexivity. }
  rewrite map_map. eexists. split; [reflexivity|].
  assert (CM : forall (l : list nat), combine (map (at_ keys) l) (map (at_ vals) l) = map (fun j => (at_ keys j, at_ vals j)) l).
  { induction l as [|a l IH]; cbn; [reflexivity|]. now rewrite IH. }
  change (map (fun x : nat => at_ vals x) pi) with (map (at_ vals) pi). rewrite CM.
  transitivity (map (fun j => (at_ keys j, at_ vals j)) (seq 0 (length keys))); [now apply Permutation_map|].
  rewrite <- CM. rewrite <- LV at 2. now rewrite !map_at_seq.
Qed.

(** ** C34: the simple k-shuffle argument is complete *)
Theorem C34_accepted : forall S, suite_ok S -> forall H G gamma x y theta tr pi,
  in_group S G -> (2 <= length x)%nat -> length y = length x ->
  Permutation pi (seq 0 (length x)) ->
  (forall i, (i < length x)%nat -> (nth i y 0) mod sQ S = (gamma * nth (nth i pi 0%nat) x 0) mod sQ S) ->
  (* no division by zero: gamma and the x_i - t are invertible modulo Q *)
  rel_prime gamma (sQ S) ->
  (forall i, (i < length x)%nat -> rel_prime (nth i x 0 - ss_challenge S H G x y tr) (sQ S)) ->
  exists pf, ss_prove S H G gamma x y theta tr = Some pf /\ ss_verify S H G (pt_mul S G gamma) pf tr = true.
Proof.
  intros S OK H G gamma x y theta tr pi HG K L HP HY UG UX.
  destruct (ss_prove_some S OK H G gamma x y theta tr pi) as (pf & E); auto.
  exists pf. split; [exact E|]. eapply ss_complete; eauto.
Qed.

(** ** C35: honest pair-shuffle proofs are accepted *)
(** What Shuffle returns is accepted by the verifier, as bytes, for all randomness of
    the prover and all challenges for which the prover does not divide by zero. *)
Theorem C35_honest_accepted : forall S, suite_ok S -> forall H g h X Y u beta sh rn pf rest,
  in_group S g -> in_group S h -> Forall (in_group S) X -> Forall (in_group S) Y ->
  shuffle S g h X Y u beta = Some sh ->
  ps_prove S H (length X) (shPi sh) g h beta X Y rn = Some pf ->
  ps_hash_verify S H g h X Y (shX sh) (shY sh) (enc_proof S pf ++ rest) = Some true.
Proof.
  intros S OK H g h X Y u beta sh rn pf rest Hg Hh HX HY E EP.
  destruct (shuffle_spec S _ _ _ _ _ _ _ Hg Hh E) as (HP & LY & K & _ & LXb & LYb & _ & PX & PY & _).
  apply all_group_forall in HX, HY.
  destruct (ps_complete S OK H (length X) (shPi sh) g h beta X Y (shX sh) (shY sh) rn pf) as (WF & V); auto.
  unfold ps_hash_verify. rewrite LY, LXb, LYb, Nat.eqb_refl. cbn [andb negb].
  destruct (Nat.leb_spec (length X) 1); [lia|]. now rewrite (ps_parse_enc S OK _ _ rest WF).
Qed.
(** The prover succeeds whenever gamma is invertible and the challenge of the embedded
    argument differs from all r_i by an invertible amount. *)
Theorem C35_prover_succeeds : forall S, suite_ok S -> forall H g h X Y u beta sh rn,
  length beta = length X -> rel_prime (pgamma rn) (sQ S) ->
  shuffle S g h X Y u beta = Some sh ->
  exists pf0 r s tr, ps_steps S H (length X) (shPi sh) g h beta X Y rn = Some (pf0, r, s, tr) /\
   ((forall i, (i < length X)%nat -> rel_prime (nth i r 0 - ss_challenge S H g r s tr) (sQ S)) ->
    exists pf, ps_prove S H (length X) (shPi sh) g h beta X Y rn = Some pf).
Proof.
  intros S OK H g h X Y u beta sh rn LB UG E.
  assert (K : (2 <= length X)%nat).
  { unfold shuffle in E. destruct (negb _); [discriminate|]. destruct (Nat.leb_spec (length X) 1); [discriminate|lia]. }
  destruct (ps_prove_some S OK H (length X) (shPi sh) g h beta X Y rn K (C31_permutation _ _ _ _ _ _ _ _ E) LB UG)
    as (pf0 & r & s & tr & E1 & _ & E2). exists pf0, r, s, tr. split; [exact E1|exact E2].
Qed.
(** An honest server never makes the next one panic: the message it sends for a table of
    distinct keys passes verifyNeffShuffle. *)
Theorem C35_server_accepted : forall S, suite_ok S -> forall H s keys vals rn fk fv extra g GT HT,
  sv_pub s = pt_mul_base S (sv_priv s) ->
  Forall (in_group S) keys -> NoDup keys -> length vals = length keys ->
  mix S H s keys vals rn = Some (fk, fv, extra) ->
  verify_neff S H (("g"%str, VBytes (enc_point S g)) :: table_params S fk fv GT HT ++ extra) = Some tt /\
  verify_neff S H (table_params S fk fv GT HT ++ extra) = Some tt.
Proof.
  intros S OK H s keys vals rn fk fv extra g GT HT EP HK ND LV E.
  assert (HPub : in_group S (sv_pub s)) by (rewrite EP; unfold pt_mul_base, pt_mul; in_grp).
  apply all_group_forall in HK.
  destruct (mix_spec S OK H s keys vals rn fk fv extra HPub HK ND LV E) as (X & _). split.
  - rewrite app_comm_cons. apply X. intros k Hk. unfold table_params.
    repeat (destruct Hk as [<-|Hk]; [reflexivity|]). destruct Hk.
  - apply X. intros k Hk. unfold table_params. repeat (destruct Hk as [<-|Hk]; [reflexivity|]). destruct Hk.
Qed.

(** ** C36: what an accepted proof means *)
(** REFUTED.  For all inputs, keys, hash oracles and exponents e_i invertible modulo Q,
    anybody can make a proof for the outputs X_i^(e_i), Y_i^(e_i). *)
Theorem C36_forged_accepted : forall S, suite_ok S -> forall H g h X Y (e : nat -> Z),
  (2 <= length X)%nat -> length Y = length X ->
  in_group S g -> in_group S h -> Forall (in_group S) X -> Forall (in_group S) Y ->
  (forall i, (i < length X)%nat -> 0 <= e i /\ rel_prime (e i) (sQ S)) ->
  exists prf, ps_hash_verify S H g h X Y
    (map (fun i => (nth i X 0 ^ e i) mod sP S) (seq 0 (length X)))
    (map (fun i => (nth i Y 0 ^ e i) mod sP S) (seq 0 (length X))) prf = Some true.
Proof.
  intros S OK H g h X Y e K LY Hg Hh HX HY HE. apply all_group_forall in HX, HY.
  pose proof (sP_gt1 S OK) as HP. pose proof (sQ_gt1 S OK) as HQ.
  set (f := fun i => match modinv (e i) (sQ S) with Some v => v | None => 0 end).
  exists (enc_proof S (forge_ps S H (length X) g f)).
  unfold ps_hash_verify. rewrite !map_length, !seq_length, LY, Nat.eqb_refl. cbn [andb negb].
  destruct (Nat.leb_spec (length X) 1); [lia|].
  rewrite <- (app_nil_r (enc_proof S _)). rewrite (ps_parse_enc S OK (length X)) by (now apply forge_ps_wf).
  apply forge_ps_ok with (e := e); try assumption; try reflexivity; try (now rewrite map_length, seq_length).
  intros i Hi. destruct (HE i Hi) as (E0 & EU).
  split; [|split].
  - change (at_ (tab (length X) (fun i => (nth i X 0 ^ e i) mod sP S)) i = zexp (sP S) (at_ X i) (e i)).
    rewrite at_tab by assumption. now rewrite zexp_pos by lia.
  - change (at_ (tab (length X) (fun i => (nth i Y 0 ^ e i) mod sP S)) i = zexp (sP S) (at_ Y i) (e i)).
    rewrite at_tab by assumption. now rewrite zexp_pos by lia.
  - destruct (modinv_some (e i) (sQ S) HQ EU) as (v & Ev & _). unfold f. rewrite Ev.
    unfold eqm. rewrite (proj2 (modinv_sound _ _ _ HQ Ev)). now rewrite Z.mod_1_l.
Qed.

(** Product of a list modulo p. *)
Definition prod_mod (p : Z) (l : list Z) : Z := fold_right (fun a b => (a * b) mod p) 1 l.

Lemma prod_big S (l : list Z) : prod_mod (sP S) l = big S (at_ l) (seq 0 (length l)).
Proof.
  induction l as [|a l IH]; [reflexivity|]. cbn [prod_mod fold_right length seq big]. unfold mulm.
  change (fold_right (fun a b => (a * b) mod sP S) 1 l) with (prod_mod (sP S) l). rewrite IH.
  rewrite <- seq_shift. rewrite big_map. reflexivity.
Qed.

(** REFUTED, concretely: squared outputs are accepted although they are not a shuffle of
    the inputs, whenever the product of the plaintexts is not 1. *)
Theorem C36_only_shuffles_refuted : forall S, suite_ok S -> forall H g x X Y ms,
  (2 <= length X)%nat -> length Y = length X -> length ms = length X -> sQ S mod 2 = 1 ->
  in_group S g -> 0 <= x -> Forall (in_group S) X -> Forall (in_group S) Y -> Forall (in_group S) ms ->
  (forall i, (i < length X)%nat -> decrypts (sP S) x (nth i X 0) (nth i Y 0) (nth i ms 0)) ->
  prod_mod (sP S) ms <> 1 ->
  let h := (g ^ x) mod sP S in
  exists Xb Yb prf, ps_hash_verify S H g h X Y Xb Yb prf = Some true /\
    ~ reencrypts (sP S) g h X Y Xb Yb.
Proof.
  intros S OK H g x X Y ms K LY LM HQ2 Hg Hx HX HY HM HD HPR h.
  pose proof (sP_gt1 S OK) as HP. pose proof (sQ_gt1 S OK) as HQ.
  assert (Hh : in_group S h) by (unfold h; rewrite <- zexp_pos by lia; in_grp).
  assert (R2 : rel_prime 2 (sQ S)).
  { apply rel_prime_sym. apply rel_prime_mod_rev; [lia|]. rewrite HQ2. apply rel_prime_1. }
  destruct (C36_forged_accepted S OK H g h X Y (fun _ => 2) K LY Hg Hh HX HY) as (prf & V); [intros; split; [lia|exact R2]|].
  eexists _, _, prf. split; [exact V|].
  intros (pi & b & PP & _ & _ & _ & HE). apply HPR.
  rewrite prod_big. rewrite LM. set (k := length X) in *.
  apply all_group_forall in HX, HY, HM.
  pose proof (Permutation_length PP) as LP. rewrite seq_length in LP.
  assert (MG : forall i, In i (seq 0 k) -> in_group S (at_ ms i)) by (intros i Hi; apply in_seq in Hi; apply HM; lia).
  assert (Step : forall i, In i (seq 0 k) -> at_ ms (nth i pi 0%nat) = mulm (sP S) (at_ ms i) (at_ ms i)).
  { intros i Hi. pose proof (MG i Hi) as M1. apply in_seq in Hi. destruct (HE i ltac:(lia)) as (B & EX & EY).
    pose proof (perm_nth_lt pi k i PP ltac:(lia)) as Hj. set (j := nth i pi 0%nat) in *.
    assert (M2 : in_group S (at_ ms j)) by (apply HM; lia).
    assert (X1 : in_group S (at_ X i)) by (apply HX; fold k; lia).
    assert (X2 : in_group S (at_ X j)) by (apply HX; fold k; lia).
    assert (DD : forall n, (n < k)%nat -> at_ Y n = mulm (sP S) (at_ ms n) (zexp (sP S) (at_ X n) x)).
    { intros n Hn. unfold at_. rewrite (HD n Hn). rewrite zexp_pos by lia. unfold mulm. now rewrite Z.mul_mod_idemp_r by lia. }
    change (at_ (tab k (fun i => (nth i X 0 ^ 2) mod sP S)) i = (g ^ b i * at_ X j) mod sP S) in EX.
    change (at_ (tab k (fun i => (nth i Y 0 ^ 2) mod sP S)) i = (h ^ b i * at_ Y j) mod sP S) in EY.
    rewrite at_tab in EX, EY by lia. fold (at_ X i) in EX. fold (at_ Y i) in EY.
    rewrite <- zexp_pos in EX, EY by lia.
    assert (EX' : zexp (sP S) (at_ X i) 2 = mulm (sP S) (zexp (sP S) g (b i)) (at_ X j)).
    { rewrite EX. rewrite zexp_pos by lia. unfold mulm. now rewrite Z.mul_mod_idemp_l by lia. }
    assert (EY' : zexp (sP S) (at_ Y i) 2 = mulm (sP S) (zexp (sP S) (zexp (sP S) g x) (b i)) (at_ Y j)).
    { rewrite EY. rewrite !zexp_pos by lia. fold h. unfold mulm. now rewrite Z.mul_mod_idemp_l by lia. }
    rewrite !DD in EY' by lia.
    (* divide by (X_i^2)^x *)
    assert (Q1 : mulm (sP S) (zexp (sP S) (at_ X i) 2) (zexp (sP S) (mulm (sP S) (zexp (sP S) g (b i)) (at_ X j)) (-1)) = 1).
    { rewrite EX'. grpS S. }
    transitivity (mulm (sP S) (mulm (sP S) (zexp (sP S) (zexp (sP S) g x) (b i)) (mulm (sP S) (at_ ms j) (zexp (sP S) (at_ X j) x)))
       (zexp (sP S) (mulm (sP S) (zexp (sP S) g (b i)) (at_ X j)) (- x))); [grpS S|].
    rewrite <- EY', <- EX'. grpS S. }
  assert (Big : big S (at_ ms) (seq 0 k) = mulm (sP S) (big S (at_ ms) (seq 0 k)) (big S (at_ ms) (seq 0 k))).
  { rewrite <- (big_mulm S OK) by assumption. rewrite <- (big_ext S (fun i => at_ ms (nth i pi 0%nat)) (fun i => mulm (sP S) (at_ ms i) (at_ ms i)) (seq 0 k) Step).
    rewrite <- (big_map S (at_ ms) (fun i => nth i pi 0%nat)). rewrite map_nth_seq by assumption.
    apply (big_perm S OK). now symmetry. }
  assert (BG : in_group S (big S (at_ ms) (seq 0 k))) by (now apply big_group).
  set (M := big S (at_ ms) (seq 0 k)) in *. clearbody M.
  transitivity (mulm (sP S) (mulm (sP S) M M) (zexp (sP S) M (-1))); [grpS S|]. rewrite <- Big. grpS S.
Qed.

(** What is checked, exactly (for points of the group): the embedded argument, which is
    tied to nothing but Gamma; Gamma^sigma_i = W_i D_i; and two product equations. *)
Theorem C36_accept_exact_partial : forall S, suite_ok S -> forall H k g h X Y Xbar Ybar pf,
  length X = k -> length Y = k -> length Xbar = k -> length Ybar = k ->
  Forall (in_group S) X -> Forall (in_group S) Y -> Forall (in_group S) Xbar -> Forall (in_group S) Ybar ->
  length (psU pf) = k -> Forall (in_group S) (psU pf) ->
  let rho := H (enc_p1 S pf) in
  ps_verify S H k g h X Y Xbar Ybar pf = Some true <->
  ss_verify S H g (psGamma pf) (psSS pf) (enc_p1 S pf ++ enc_p3 S pf ++ enc_p5 S pf) = true /\
  (forall i, (i < k)%nat -> pt_mul S (psGamma pf) (nth i (psSigma pf) 0) = pt_add S (nth i (psW pf) 0) (nth i (psD pf) 0)) /\
  pt_add S (psL1 pf) (pt_mul S g (psTau pf)) =
    prod_mod (sP S) (map (fun i => mulm (sP S) (pt_mul S (nth i Xbar 0) (nth i (psSigma pf) 0)) (pt_mul S (nth i X 0) (- rho i))) (seq 0 k)) /\
  pt_add S (psL2 pf) (pt_mul S h (psTau pf)) =
    prod_mod (sP S) (map (fun i => mulm (sP S) (pt_mul S (nth i Ybar 0) (nth i (psSigma pf) 0)) (pt_mul S (nth i Y 0) (- rho i))) (seq 0 k)).
Proof.
  intros S OK H k g h X Y Xbar Ybar pf L1 L2 L3 L4 G1 G2 G3 G4 LU GU rho.
  apply all_group_forall in G1, G2, G3, G4, GU.
  rewrite (ps_verify_spec S OK H k g h X Y Xbar Ybar pf) by assumption.
  assert (EB : forall f l, big S f l = prod_mod (sP S) (map f l)).
  { intros f l. induction l as [|a l IH]; cbn; [reflexivity|]. now rewrite IH. }
  rewrite !EB. fold rho. split.
  - intros [= E]. rewrite !andb_true_iff, !Z.eqb_eq in E. destruct E as (((E1 & E2) & E3) & E4).
    split; [exact E1|]. split; [|split; assumption].
    intros i Hi. rewrite forallb_forall in E2. specialize (E2 i). unfold check33 in E2. rewrite Z.eqb_eq in E2.
    apply E2. apply in_seq. lia.
  - intros (E1 & E2 & E3 & E4). f_equal. rewrite !andb_true_iff, !Z.eqb_eq. split; [split; [split|]|]; try assumption.
    apply forallb_forall. intros i Hi. apply in_seq in Hi. unfold check33. apply Z.eqb_eq. apply E2. lia.
Qed.

(** ** C37: the binary shuffle *)
(** The honest outputs satisfy the chosen branch with the secrets given to the prover. *)
Theorem C37_honest : forall S, suite_ok S -> forall G H X Y bit beta,
  in_group S G -> in_group S H -> pair_ok S X -> pair_ok S Y ->
  let out := biffle S G H X Y bit beta in
  exists pts, biffle_points S G H X Y (fst out) (snd out) = Some pts /\
    holds S (slookup pts) (biffle_secrets beta) (branch bit) /\
    holds S (slookup pts) (biffle_secrets beta) biffle_pred.
Proof.
  intros S OK G H X Y bit beta HG HH OX OY out.
  destruct (biffle_points_some S OK G H X Y (fst out) (snd out) OX OY) as (pts & E).
  assert (HB : holds S (slookup pts) (biffle_secrets beta) (branch bit)).
  { destruct OX as [X0 X1]. destruct OY as [Y0 Y1].
    apply (branch_holds S OK G H X Y (fst out) (snd out)); try assumption; try (split; assumption).
    - split; cbn; unfold pt_add, pt_mul; destruct bit; cbn; in_grp.
    - split; cbn; unfold pt_add, pt_mul; destruct bit; cbn; in_grp.
    - intros []; destruct bit; cbn; split; reflexivity. }
  exists pts. split; [exact E|]. split; [exact HB|]. cbn [biffle_pred holds].
  destruct bit; [right; left|left]; exact HB.
Qed.
(** The predicate is satisfiable exactly when the outputs are the two inputs, re-encrypted,
    in one of the two orders. *)
Theorem C37_exact : forall S, suite_ok S -> forall G H X Y Xb Yb pts,
  in_group S G -> in_group S H -> pair_ok S X -> pair_ok S Y -> pair_ok S Xb -> pair_ok S Yb ->
  biffle_points S G H X Y Xb Yb = Some pts ->
  (exists secs, (forall x, 0 <= secs x) /\ holds S (slookup pts) secs biffle_pred) <->
  reencrypts (sP S) G H [fst X; snd X] [fst Y; snd Y] [fst Xb; snd Xb] [fst Yb; snd Yb].
Proof.
  intros S OK G H X Y Xb Yb pts HG HH OX OY OXb OYb E. pose proof (sP_gt1 S OK) as HP.
  assert (EQ : forall B b z, 0 <= b -> mulm (sP S) (zexp (sP S) B b) z = (B ^ b * z) mod sP S).
  { intros B b z Hb. rewrite zexp_pos by lia. unfold mulm. now rewrite Z.mul_mod_idemp_l by lia. }
  split.
  - intros (secs & HS & Hh). cbn [biffle_pred holds] in Hh.
    assert (HB : exists bit, holds S (slookup pts) secs (branch bit)).
    { destruct Hh as [Hh|[Hh|[]]]; [exists false|exists true]; exact Hh. }
    destruct HB as (bit & HB). rewrite (branch_holds S OK G H X Y Xb Yb pts secs bit HG HH OX OY OXb OYb E) in HB.
    pose proof (HB false) as [A0 B0]. pose proof (HB true) as [A1 B1].
    exists (if bit then [1; 0]%nat else [0; 1]%nat),
      (fun i => secs (sel bit (negb (Nat.eqb i 0)) ("beta0"%str, "beta1"%str))).
    split; [destruct bit; [apply perm_swap|reflexivity]|]. do 3 (split; [reflexivity|]).
    intros i Hi. split; [apply HS|]. rewrite !EQ in * by apply HS.
    destruct i as [|[|i]]; [| |cbn in Hi; lia]; destruct bit; cbn in *; split; assumption.
  - intros (pi & b & PP & _ & _ & _ & HE).
    pose proof (HE 0%nat ltac:(cbn; lia)) as (B0 & X0 & Y0). pose proof (HE 1%nat ltac:(cbn; lia)) as (B1 & X1 & Y1).
    assert (HPi : pi = [0; 1]%nat \/ pi = [1; 0]%nat).
    { cbn in PP. pose proof (Permutation_length PP) as L. destruct pi as [|a [|c [|]]]; try discriminate.
      assert (Ia : In a [0;1]%nat) by (eapply Permutation_in; [exact PP|now left]).
      assert (Ic : In c [0;1]%nat) by (eapply Permutation_in; [exact PP|right; now left]).
      assert (ND : NoDup [a; c]) by (eapply Permutation_NoDup; [symmetry; exact PP|repeat constructor; cbn; intuition discriminate]).
      inversion ND as [|? ? N _]; subst. cbn in Ia, Ic, N.
      destruct Ia as [<-|[<-|[]]]; destruct Ic as [<-|[<-|[]]]; try tauto; exfalso; apply N; now left. }
    destruct HPi as [-> | ->]; cbn [nth fst snd] in *.
    + exists (fun x => if String.eqb x "beta0"%str then b 0%nat else if String.eqb x "beta1"%str then b 1%nat else 0).
      split; [intros x; destruct (String.eqb x _); [assumption|]; destruct (String.eqb x _); [assumption|lia]|].
      cbn [biffle_pred holds]. left. apply (branch_holds S OK G H X Y Xb Yb); try assumption.
      intros []; cbn; rewrite !EQ by assumption; split; assumption.
    + exists (fun x => if String.eqb x "beta0"%str then b 1%nat else if String.eqb x "beta1"%str then b 0%nat else 0).
      split; [intros x; destruct (String.eqb x _); [assumption|]; destruct (String.eqb x _); [assumption|lia]|].
      cbn [biffle_pred holds]. right. left. apply (branch_holds S OK G H X Y Xb Yb); try assumption.
      intros []; cbn; rewrite !EQ by assumption; split; assumption.
Qed.

(** ** Instances *)
Definition toy_oracle : oracle := fun l i => (be_to_z l * 3 + Z.of_nat i * 2 + 2) mod 11.
Definition toy_ps : ps_rand := PsRand [3; 4; 5] [6; 2; 9] [1; 7; 8] 4 5 [1; 2; 3; 4; 5].
Definition toy_X : list Z := [4; 16; 18].
Definition toy_Y : list Z := [2; 3; 8].
Definition toy_u (n : nat) : Z := Z.of_nat (n * 7 + 2).
Example C31_instance : draw_perm toy_u 3 = [0; 2; 1]%nat /\ draw_perm (fun _ => 1) 3 = [0; 2; 1]%nat /\
  draw_perm (fun _ => 0) 3 = [1; 2; 0]%nat.
Proof. vm_compute. repeat split. Qed.
Example C32_instance : exists sh, shuffle toy_suite 4 18 toy_X toy_Y toy_u [7; 2; 5] = Some sh /\
  shPi sh = [0; 2; 1]%nat /\ convert_to_origin toy_suite (shY sh) (shTY sh) = Some [2; 8; 3] /\
  Forall (in_group toy_suite) toy_X /\ Forall (in_group toy_suite) toy_Y.
Proof.
  eexists. split; [vm_compute; reflexivity|]. split; [reflexivity|]. split; [vm_compute; reflexivity|].
  split; repeat constructor.
Qed.
Example C33_instance : rebind [2; 3; 8] [12; 13; 9] [8; 2; 3] = [Some 9; Some 12; Some 13].
Proof. vm_compute. reflexivity. Qed.
Example C34_instance : exists pf, ss_prove toy_suite toy_oracle 4 5 [1; 2; 7] [5; 2; 10] [3; 1; 4; 1; 5] [] = Some pf /\
  ss_verify toy_suite toy_oracle 4 (pt_mul toy_suite 4 5) pf [] = true /\
  forallb (fun i => (nth i [5; 2; 10] 0) mod 11 =? (5 * nth (nth i [0; 2; 1]%nat 0%nat) [1; 2; 7] 0) mod 11) [0; 1; 2]%nat = true.
Proof. eexists. split; [vm_compute; reflexivity|]. split; vm_compute; reflexivity. Qed.
Example C35_instance : exists sh pf, shuffle toy_suite 4 18 toy_X toy_Y toy_u [7; 2; 5] = Some sh /\
  ps_prove toy_suite toy_oracle 3 (shPi sh) 4 18 [7; 2; 5] toy_X toy_Y toy_ps = Some pf /\
  ps_hash_verify toy_suite toy_oracle 4 18 toy_X toy_Y (shX sh) (shY sh) (enc_proof toy_suite pf) = Some true /\
  ps_hash_verify toy_suite toy_oracle 4 18 toy_X toy_Y (shY sh) (shX sh) (enc_proof toy_suite pf) = Some false.
Proof. do 2 eexists. split; [vm_compute; reflexivity|]. split; [vm_compute; reflexivity|]. split; vm_compute; reflexivity. Qed.
Example C36_instance : sQ toy_suite mod 2 = 1 /\ prod_mod 23 [2; 3; 8] <> 1 /\ Forall (in_group toy_suite) [2; 3; 8] /\
  Forall2 (fun X Y => exists m, decrypts 23 3 X Y m) [4; 4; 4] [(2 * 4 ^ 3) mod 23; (3 * 4 ^ 3) mod 23; (8 * 4 ^ 3) mod 23].
Proof.
  split; [reflexivity|]. split; [vm_compute; discriminate|]. split; [repeat constructor|].
  constructor; [exists 2; reflexivity|]. constructor; [exists 3; reflexivity|]. constructor; [exists 8; reflexivity|constructor].
Qed.
Example C37_instance : biffle toy_suite 4 18 (4, 16) (2, 3) true (7, 2) = ((3, 9), (6, 12)) /\
  pair_ok toy_suite (4, 16) /\ pair_ok toy_suite (2, 3).
Proof. split; [vm_compute; reflexivity|]. split; split; split; cbn; try lia; reflexivity. Qed.

Print Assumptions C31_permutation.
Print Assumptions C31_every_permutation.
Print Assumptions C32_reencrypts.
Print Assumptions C32_total.
Print Assumptions C32_decrypts.
Print Assumptions C32_unblind.
Print Assumptions C33_rebind.
Print Assumptions C33_same_table.
Print Assumptions C34_accepted.
Print Assumptions C35_honest_accepted.
Print Assumptions C35_prover_succeeds.
Print Assumptions C35_server_accepted.
Print Assumptions C36_forged_accepted.
Print Assumptions C36_only_shuffles_refuted.
Print Assumptions C36_accept_exact_partial.
Print Assumptions C37_honest.
Print Assumptions C37_exact.
