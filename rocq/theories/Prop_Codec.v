(** Encodings and lookups: C23, C24, C27, C30. *)
From Coq Require Import ZArith Znumtheory Lia List Bool.
From Coq Require Import Strings.Byte.
From Verif Require Import ZMod Bytes Suite Spec FujiOkam Equality Codec Prop_Pedersen.
Import ListNotations.
Open Scope Z_scope.

(** ** C23 *)
(** Group elements survive encoding; the encoding has fixed length. *)
Theorem C23_point_round_trip : forall S, suite_ok S -> forall p, member (sP S) (sQ S) p ->
  dec_point S (enc_point S p) = Some p /\ List.length (enc_point S p) = plen S.
Proof.
  intros S OK p H. apply member_in_group in H. split; [now apply dec_enc_point|].
  apply enc_point_length; [assumption|]. destruct H. lia.
Qed.

(** Decoding gives the big-endian value exactly when it denotes a group element
    and fails on every other byte string. *)
Theorem C23_point_decode_exact : forall S, suite_ok S -> forall l p,
  (dec_point S l = Some p <-> member (sP S) (sQ S) p /\ be_to_z l = p) /\
  (dec_point S l = None <-> ~ member (sP S) (sQ S) (be_to_z l)).
Proof.
  intros S OK l p. unfold dec_point. pose proof (pt_valid_iff S OK (be_to_z l)) as V.
  destruct (pt_valid S (be_to_z l)).
  - assert (I := proj1 V eq_refl). apply member_in_group in I. split.
    + split; [intros [= <-]; tauto|]. intros [_ ->]. reflexivity.
    + split; [discriminate|tauto].
  - split.
    + split; [discriminate|]. intros [M <-]. apply member_in_group in M. apply V in M. discriminate.
    + split; [intros _ M; apply member_in_group in M; apply V in M; discriminate|reflexivity].
Qed.

Theorem C23_secret_round_trip : forall S, suite_ok S -> forall s, 0 <= s < sQ S ->
  dec_secret S (enc_secret S s) = Some s /\ List.length (enc_secret S s) = slen S.
Proof.
  intros S OK s H. split; [now apply dec_enc_secret|]. now apply enc_secret_length.
Qed.

Theorem C23_secret_decode_exact : forall S l s,
  (dec_secret S l = Some s <-> s < sQ S /\ be_to_z l = s) /\
  (dec_secret S l = None <-> sQ S <= be_to_z l).
Proof.
  intros S l s. unfold dec_secret. destruct (Z.ltb_spec (be_to_z l) (sQ S)); split; split;
    try discriminate; try lia; try tauto.
  - intros [= <-]. tauto.
  - intros [_ ->]. reflexivity.
Qed.

Theorem C23_bigint_inverse : forall S, suite_ok S -> forall p, member (sP S) (sQ S) p ->
  point_to_bigint S p = p /\ bigint_to_point p = p /\ secret_to_bigint p = p.
Proof.
  intros S OK p [R _]. unfold point_to_bigint, bigint_to_point, enc_point, dec_point_unchecked.
  rewrite be_pad, be_z_bytes, Z.abs_eq by lia. tauto.
Qed.

(** Lists of points, secrets and booleans survive encoding. *)
Theorem C23_lists : forall S, suite_ok S -> forall ps ss bs,
  (forall p, In p ps -> member (sP S) (sQ S) p) ->
  (forall s, In s ss -> 0 <= s < sQ S) ->
  dec_points S (enc_points S ps) = Some ps /\
  dec_secrets S (enc_secrets S ss) = Some ss /\
  dec_bools (enc_bools bs) = Some bs.
Proof.
  intros S OK ps ss bs HP HS. repeat split.
  - unfold dec_points, enc_points.
    apply (repeated_round_trip (dec_point S) (enc_point S)).
    intros a Ha. apply dec_enc_point; [assumption|]. now apply member_in_group, HP.
  - unfold dec_secrets, enc_secrets.
    apply (repeated_round_trip (dec_secret S) (enc_secret S)).
    intros a Ha. apply dec_enc_secret. now apply HS.
  - unfold dec_bools, enc_bools.
    set (payload := concat (map (fun b : bool => uvarint (if b then 1 else 0)) bs)).
    pose proof (pb_parse_fields [(1, payload)]) as E. cbn [map concat fst snd] in E.
    rewrite app_nil_r in E. rewrite E by (intros f [<-|[]]; cbn; lia).
    cbn [map dec_repeated fst snd].
    assert (D : forall l fuel, (List.length l <= fuel)%nat ->
      dec_packed fuel (concat (map (fun b : bool => uvarint (if b then 1 else 0)) l)) = Some l).
    { induction l as [|b l IH]; intros fuel HL; cbn [List.length] in HL.
      - destruct fuel; reflexivity.
      - destruct fuel as [|fuel]; [lia|]. destruct b; cbn; rewrite IH by lia; reflexivity. }
    assert (Dp : dec_packed (List.length payload) payload = Some bs);
      [apply D|rewrite Dp; cbn [concat]; now rewrite app_nil_r].
    subst payload. clear. induction bs as [|b bs IH]; cbn; [lia|].
    destruct b; cbn [uvarint put_uv app List.length]; cbn; lia.
Qed.

(** ** C24 *)
Theorem C24_int_to_byte : forall n,
  int_to_byte n = map z_byte [n / 2 ^ 24; n / 2 ^ 16; n / 2 ^ 8; n] /\
  byte_to_int (int_to_byte n) = Some (n mod 2 ^ 32) /\
  (byte_to_int (int_to_byte n) = Some n <-> 0 <= n < 2 ^ 32).
Proof.
  intros n.
  assert (A : byte_to_int (int_to_byte n) = Some (n mod 2 ^ 32)).
  { unfold byte_to_int, int_to_byte. rewrite z_to_be_length. cbn [Nat.ltb Nat.leb].
    rewrite firstn_all2 by (rewrite z_to_be_length; lia).
    rewrite be_z_to_be. unfold uint32. f_equal. change (256 ^ Z.of_nat 4) with (2 ^ 32).
    now rewrite Z.mod_mod by lia. }
  split; [|split; [exact A|]].
  - unfold int_to_byte, uint32. cbn [z_to_be map app].
    assert (B : forall k, 0 <= k <= 24 -> (n mod 2 ^ 32 / 2 ^ k) mod 256 = (n / 2 ^ k) mod 256).
    { intros k Hk. apply Z.bits_inj'. intros i Hi. change 256 with (2 ^ 8).
      rewrite <- !Z.land_ones, <- !Z.shiftr_div_pow2 by lia.
      rewrite !Z.land_spec, !Z.shiftr_spec by lia.
      destruct (Z.ltb_spec i 8).
      - rewrite Z.land_spec, (Z.ones_spec_low 32) by lia. now rewrite Bool.andb_true_r.
      - rewrite (Z.ones_spec_high 8) by lia. now rewrite !Bool.andb_false_r. }
    rewrite !Z.div_div by lia.
    assert (ZB : forall a b, a mod 256 = b mod 256 -> z_byte a = z_byte b).
    { intros a b E. unfold z_byte. now rewrite E. }
    f_equal; [|f_equal; [|f_equal; [|f_equal]]]; apply ZB.
    + apply (B 24). lia.
    + apply (B 16). lia.
    + apply (B 8). lia.
    + pose proof (B 0 ltac:(lia)) as B0. rewrite Z.pow_0_r, !Z.div_1_r in B0. exact B0.
  - rewrite A. split; intros E.
    + injection E as E. pose proof (Z.mod_pos_bound n (2 ^ 32) ltac:(lia)). lia.
    + now rewrite Z.mod_small.
Qed.

(** ** C27 *)
Definition assignment_ok (S : suite) (a : assignment) : Prop :=
  (forall p, asNymR a = Some p -> member (sP S) (sQ S) p) /\
  (forall p, asNym a = Some p -> member (sP S) (sQ S) p).

Lemma assignment_round_trip S a : suite_ok S -> assignment_ok S a ->
  dec_assignment S (enc_assignment S a) = Some a.
Proof.
  intros OK [H1 H2]. destruct a as [r ad n]. unfold dec_assignment, enc_assignment.
  cbn [asNymR asAddr asNym] in *.
  set (fs := match r with Some p => [(1, enc_point S p)] | None => [] end ++ [(2, ad)] ++
             match n with Some p => [(3, enc_point S p)] | None => [] end).
  pose proof (pb_parse_fields fs) as E.
  replace (_ ++ pb_bytes 2 ad ++ _) with (concat (map (fun f : Z * bytes => pb_bytes (fst f) (snd f)) fs)).
  - rewrite E.
    + subst fs. destruct r as [p|], n as [q|]; cbn [app map fst snd dec_assignment_fields asNymR asAddr asNym];
        rewrite ?(dec_enc_point S OK) by (now apply member_in_group, H1);
        cbn [app map fst snd dec_assignment_fields asNymR asAddr asNym];
        rewrite ?(dec_enc_point S OK) by (now apply member_in_group, H2);
        cbn [app map fst snd dec_assignment_fields asNymR asAddr asNym]; try reflexivity.
    + subst fs. intros f Hf. destruct r, n; cbn in Hf; intuition (subst; cbn; lia).
  - subst fs. destruct r, n; cbn [app map concat fst snd]; rewrite ?app_nil_r; reflexivity.
Qed.

Theorem C27_assignments_round_trip : forall S G, suite_ok S -> gob_ok G -> forall l,
  (forall a, In a l -> assignment_ok S a) ->
  dec_assignments S G (enc_assignments S G l) = Some l.
Proof.
  intros S G OK GK l H. unfold dec_assignments, enc_assignments. rewrite (g_2d G GK).
  apply dec_all_map. intros a Ha. apply assignment_round_trip; [assumption|now apply H].
Qed.

(** ** C30 *)
(** [i] is the first position of [k] in [l]. *)
Definition first_at (l : list Z) (k : Z) (i : nat) : Prop :=
  nth_error l i = Some k /\ forall j, (j < i)%nat -> nth_error l j <> Some k.

Lemma first_at_cons_eq l k : first_at (k :: l) k 0.
Proof. split; [reflexivity|]. intros j Hj. lia. Qed.
Lemma first_at_cons_ne l k a i : a <> k -> first_at l k i -> first_at (a :: l) k (S i).
Proof.
  intros N [H1 H2]. split; [exact H1|]. intros [|j] Hj; cbn; [congruence|]. apply H2. lia.
Qed.
Lemma first_at_unique l k i j : first_at l k i -> first_at l k j -> i = j.
Proof.
  intros [A1 A2] [B1 B2]. destruct (lt_eq_lt_dec i j) as [[L|]|L]; [|assumption|].
  - now apply B2 in L.
  - now apply A2 in L.
Qed.
Lemma first_at_ex l k : In k l -> exists i, first_at l k i.
Proof.
  induction l as [|a l IH]; [intros []|]. intros I. destruct (Z.eq_dec a k) as [->|N].
  - exists 0%nat. apply first_at_cons_eq.
  - destruct I as [E|I]; [congruence|]. destruct (IH I) as (i & Hi). exists (S i). now apply first_at_cons_ne.
Qed.
Lemma first_at_in l k i : first_at l k i -> In k l.
Proof. intros [H _]. now apply nth_error_In in H. Qed.

Lemma find_index_from_spec keys nym : forall b,
  (forall i, first_at keys nym i -> find_index_from b keys nym = b + Z.of_nat i) /\
  (~ In nym keys -> find_index_from b keys nym = -1).
Proof.
  induction keys as [|k keys IH]; intros b; cbn [find_index_from].
  - split; [|reflexivity]. intros i F. now apply first_at_in in F.
  - destruct (Z.eqb_spec nym k) as [->|N].
    + split; [|intros H; exfalso; apply H; now left].
      intros i F. assert (i = 0%nat) as -> by (eapply first_at_unique; [exact F|apply first_at_cons_eq]). lia.
    + destruct (IH (b + 1)) as [H1 H2]. split.
      * intros i F. destruct (first_at_in _ _ _ F) as [|I]; [congruence|].
        destruct (first_at_ex _ _ I) as (j & Hj). rewrite (H1 j Hj).
        assert (i = S j) as -> by (eapply first_at_unique; [exact F|now apply first_at_cons_ne; [congruence|]]).
        lia.
      * intros NI. apply H2. intros I. apply NI. now right.
Qed.

Theorem C30_find_index : forall keys nym,
  (forall i, first_at keys nym i -> find_index keys nym = Z.of_nat i) /\
  (~ In nym keys -> find_index keys nym = -1).
Proof.
  intros keys nym. destruct (find_index_from_spec keys nym 0) as [H1 H2].
  split; [|exact H2]. intros i F. apply H1 in F. exact F.
Qed.

Theorem C30_find_int : forall keys diffs nym,
  (forall i, first_at keys nym i -> find_int keys diffs nym = nth_error diffs i) /\
  (~ In nym keys -> find_int keys diffs nym = Some 0).
Proof.
  intros keys diffs nym. unfold find_int.
  enough (G : forall b,
    (forall i, first_at keys nym i -> find_int_from b keys diffs nym = nth_error diffs (b + i)) /\
    (~ In nym keys -> find_int_from b keys diffs nym = Some 0)) by apply (G 0%nat).
  induction keys as [|k keys IH]; intros b; cbn [find_int_from].
  - split; [|reflexivity]. intros i F. now apply first_at_in in F.
  - destruct (Z.eqb_spec nym k) as [->|N].
    + split; [|intros H; exfalso; apply H; now left].
      intros i F. assert (i = 0%nat) as -> by (eapply first_at_unique; [exact F|apply first_at_cons_eq]).
      f_equal. lia.
    + destruct (IH (S b)) as [H1 H2]. split.
      * intros i F. destruct (first_at_in _ _ _ F) as [|I]; [congruence|].
        destruct (first_at_ex _ _ I) as (j & Hj). rewrite (H1 j Hj).
        assert (i = S j) as -> by (eapply first_at_unique; [exact F|now apply first_at_cons_ne; [congruence|]]).
        f_equal. lia.
      * intros NI. apply H2. intros I. apply NI. now right.
Qed.

Theorem C30_find_comm : forall keys vals es nym,
  (forall i v e, first_at keys nym i -> nth_error vals i = Some v -> nth_error es i = Some e ->
     find_comm keys vals es nym = Some (Some (v, e))) /\
  (~ In nym keys -> find_comm keys vals es nym = Some None).
Proof.
  intros keys vals es nym. unfold find_comm.
  enough (G : forall b,
    (forall i v e, first_at keys nym i -> nth_error vals (b + i) = Some v -> nth_error es (b + i) = Some e ->
       find_comm_from b keys vals es nym = Some (Some (v, e))) /\
    (~ In nym keys -> find_comm_from b keys vals es nym = Some None)) by apply (G 0%nat).
  induction keys as [|k keys IH]; intros b; cbn [find_comm_from].
  - split; [|reflexivity]. intros i v e F. now apply first_at_in in F.
  - destruct (Z.eqb_spec nym k) as [->|N].
    + split; [|intros H; exfalso; apply H; now left].
      intros i v e F. assert (i = 0%nat) as -> by (eapply first_at_unique; [exact F|apply first_at_cons_eq]).
      rewrite Nat.add_0_r. intros -> ->. reflexivity.
    + destruct (IH (S b)) as [H1 H2]. split.
      * intros i v e F HV HE. destruct (first_at_in _ _ _ F) as [|I]; [congruence|].
        destruct (first_at_ex _ _ I) as (j & Hj).
        assert (i = S j) as -> by (eapply first_at_unique; [exact F|now apply first_at_cons_ne; [congruence|]]).
        apply (H1 j); [assumption| |]; now rewrite <- Nat.add_succ_comm in *.
      * intros NI. apply H2. intros I. apply NI. now right.
Qed.

(** ** A concrete gob codec, for non-vacuity: length-prefixed fields. *)
Definition toy_z (z : Z) : bytes := pb_bytes (if z <? 0 then 2 else 1) (z_bytes z).
Definition toy_unz (f : Z * wire) : option Z :=
  match f with
  | (1, WBytes b) => Some (be_to_z b)
  | (2, WBytes b) => Some (- be_to_z b)
  | _ => None
  end.
Definition toy_zs (l : list Z) : bytes := concat (map toy_z l).
Definition toy_unzs (b : bytes) : option (list Z) := olet fs := pb_parse b in dec_all toy_unz fs.

Lemma toy_zs_ok l : toy_unzs (toy_zs l) = Some l.
Proof.
  unfold toy_unzs, toy_zs.
  replace (map toy_z l) with
    (map (fun f : Z * bytes => pb_bytes (fst f) (snd f)) (map (fun z => ((if z <? 0 then 2 else 1), z_bytes z)) l))
    by (rewrite map_map; reflexivity).
  rewrite pb_parse_fields.
  - rewrite map_map. cbn [fst snd].
    apply (dec_all_map toy_unz (fun z => ((if z <? 0 then 2 else 1), WBytes (z_bytes z)))).
    intros z _. unfold toy_unz. destruct (Z.ltb_spec z 0); rewrite be_z_bytes; f_equal; lia.
  - intros f Hf. apply in_map_iff in Hf. destruct Hf as (z & <- & _). cbn. destruct (z <? 0); lia.
Qed.

Definition toy_gob : gob := Gob
  (fun a => toy_zs [nnCommitrx a; nnC a; nnCr a; nnR a; nnX a; nnA a; nnB a; nnD a; nnR_ a])
  (fun b => match toy_unzs b with
            | Some [a1; a2; a3; a4; a5; a6; a7; a8; a9] => Some (ArgNonneg a1 a2 a3 a4 a5 a6 a7 a8 a9)
            | _ => None end)
  (fun a => toy_zs [aqC a; aqS1 a; aqS2 a; aqS3 a])
  (fun b => match toy_unzs b with Some [a1; a2; a3; a4] => Some (ArgEqual a1 a2 a3 a4) | _ => None end)
  (fun l => concat (map (fun x => pb_bytes 1 x) l))
  (fun b => olet fs := pb_parse b in dec_repeated Some fs)
  toy_zs toy_unzs toy_zs toy_unzs.

Lemma toy_gob_ok : gob_ok toy_gob.
Proof.
  constructor; cbn [gdec_nonneg genc_nonneg gdec_equal genc_equal gdec_2d genc_2d gdec_ints genc_ints
                    gdec_bigints genc_bigints toy_gob]; intros.
  - rewrite toy_zs_ok. now destruct a.
  - rewrite toy_zs_ok. now destruct a.
  - apply (repeated_round_trip Some (fun x => x)). reflexivity.
  - apply toy_zs_ok.
  - apply toy_zs_ok.
Qed.

(** ** Instances *)
Example C23_instance : dec_point toy_suite (enc_point toy_suite 18) = Some 18 /\
  dec_point toy_suite [x05]%byte = None /\ dec_secret toy_suite [x0b]%byte = None /\
  dec_points toy_suite (enc_points toy_suite [2; 3; 18]) = Some [2; 3; 18].
Proof. vm_compute. repeat split. Qed.
Example C24_instance : int_to_byte (-2) = [xff; xff; xff; xfe]%byte /\
  byte_to_int (int_to_byte 4294967295) = Some 4294967295.
Proof. vm_compute. split; reflexivity. Qed.
Example C27_instance :
  dec_assignments toy_suite toy_gob (enc_assignments toy_suite toy_gob
    [Assign (Some 2) [x61]%byte (Some 18); Assign None [] (Some 3)]) =
  Some [Assign (Some 2) [x61]%byte (Some 18); Assign None [] (Some 3)].
Proof. vm_compute. reflexivity. Qed.
Example C30_instance : find_index [3; 8; 4; 8] 8 = 1 /\ find_index [3; 8] 5 = -1 /\
  find_int [3; 8; 4; 8] [7; -2; 9; 1] 8 = Some (-2) /\ find_int [3] [] 3 = None.
Proof. vm_compute. repeat split. Qed.

Print Assumptions C23_point_round_trip.
Print Assumptions C23_point_decode_exact.
Print Assumptions C23_secret_round_trip.
Print Assumptions C23_secret_decode_exact.
Print Assumptions C23_bigint_inverse.
Print Assumptions C23_lists.
Print Assumptions C24_int_to_byte.
Print Assumptions C27_assignments_round_trip.
Print Assumptions C30_find_index.
Print Assumptions C30_find_int.
Print Assumptions C30_find_comm.
