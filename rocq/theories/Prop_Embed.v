(** C84: data embedded in a point. *)
From Coq Require Import ZArith Znumtheory Lia List Bool.
From Coq Require Import Strings.Byte.
From Verif Require Import ZMod Bytes Suite Codec Spec QR512 Embed.
Import ListNotations.
Open Scope Z_scope.

(** What of [data] goes into one point: as many bytes as fit. *)
Definition fitting (S : suite) (data : bytes) : bytes := firstn (Z.to_nat (pick_len S)) data.

Section Embedding.
Context (S : suite) (OK : suite_ok S).

Lemma embed_len_firstn data : 0 <= pick_len S -> firstn (Z.to_nat (embed_len S data)) data = fitting S data /\
  length (fitting S data) = Z.to_nat (embed_len S data).
Proof.
  intros H. unfold fitting, embed_len. destruct (Z.ltb_spec (Z.of_nat (length data)) (pick_len S)).
  - rewrite !firstn_all2 by lia. split; [reflexivity|lia].
  - split; [reflexivity|]. rewrite firstn_length. lia.
Qed.

Lemma data_embed data b b' : 0 <= pick_len S < 65536 -> embed S data b = Some b' ->
  pt_data S (be_to_z b') = Some (Some (fitting S data)).
Proof.
  intros HP E. pose proof (embed_length S data b b' E) as LB. pose proof (pick_len_room S OK (proj1 HP)) as RO.
  destruct (embed_len_range S data (proj1 HP)) as [ER EL]. destruct (embed_len_firstn data (proj1 HP)) as [EF LF].
  assert (EP : pad_be (plen S) (be_to_z b') = b').
  { rewrite <- LB. rewrite pad_be_eq by apply be_to_z_range. apply z_to_be_be. }
  unfold pt_data. rewrite EP. cbv zeta.
  unfold embed in E. destruct (Z.ltb_spec (embed_len S data) 0); [discriminate|].
  destruct (Z.ltb_spec (Z.of_nat (plen S) - embed_len S data - 2) 0); [discriminate|].
  destruct (Nat.eqb_spec (length b) (plen S)) as [LB0|]; [|discriminate]. cbn [orb negb] in E. injection E as E.
  rewrite EF in E. set (dl := embed_len S data) in *. set (pre := firstn (Z.to_nat (Z.of_nat (plen S) - dl - 2)) b) in *.
  assert (LP : length pre = Z.to_nat (Z.of_nat (plen S) - dl - 2)) by (unfold pre; rewrite firstn_length; lia).
  rewrite LB. destruct (Nat.ltb_spec (plen S) (plen S)); [lia|]. destruct (Nat.ltb_spec (plen S) 2); [lia|]. cbn [orb].
  assert (N1 : nth (plen S - 2) b' x00 = z_byte (dl / 256)).
  { rewrite <- E, app_assoc, app_nth2; rewrite app_length, LP, LF; [|lia].
    replace (plen S - 2 - _)%nat with 0%nat by lia. reflexivity. }
  assert (N2 : nth (plen S - 1) b' x00 = z_byte dl).
  { rewrite <- E, app_assoc, app_nth2; rewrite app_length, LP, LF; [|lia].
    replace (plen S - 1 - _)%nat with 1%nat by lia. reflexivity. }
  rewrite N1, N2, !z_byte_z.
  assert (ED : (dl / 256) mod 256 * 256 + dl mod 256 = dl).
  { rewrite (Z.mod_small (dl / 256)) by (split; [apply Z.div_pos; lia|apply Z.div_lt_upper_bound; lia]).
    pose proof (Z.div_mod dl 256). lia. }
  rewrite ED. destruct (Z.ltb_spec (pick_len S) dl); [lia|]. destruct (Z.ltb_spec (Z.of_nat (plen S) - dl - 2) 0); [lia|].
  rewrite <- E, (skipn_exact _ pre) by exact LP. now rewrite (firstn_exact _ (fitting S data)) by exact LF.
Qed.

(** C84: whatever is drawn, a point that Pick returns is an element of the group, Data returns
    the part of the data that fits into one point, and what Pick returns is the rest. *)
Theorem C84_embedded_data_is_read_back : forall data draws p rest, 0 <= pick_len S < 65536 ->
  pick S (Some data) draws = Some (p, rest) ->
  in_group S p /\ pt_data S p = Some (Some (fitting S data)) /\ data = fitting S data ++ rest.
Proof.
  intros data draws p rest HP. induction draws as [|b draws IH]; cbn [pick]; [discriminate|].
  destruct (embed S data b) as [b'|] eqn:E; [|discriminate]. cbv zeta.
  destruct (pt_valid S (be_to_z b')) eqn:EV; [|exact IH]. intros [= <- <-].
  split; [now apply (pt_valid_iff S OK)|]. split; [exact (data_embed data b b' HP E)|].
  rewrite <- (proj1 (embed_len_firstn data (proj1 HP))). symmetry. apply firstn_skipn.
Qed.

Theorem C84_short_data_fits : forall data draws p rest, pick_len S < 65536 ->
  Z.of_nat (length data) <= pick_len S ->
  pick S (Some data) draws = Some (p, rest) -> rest = [] /\ pt_data S p = Some (Some data).
Proof.
  intros data draws p rest HP LD E. destruct (C84_embedded_data_is_read_back data draws p rest) as (_ & E2 & E3); [lia|assumption|].
  assert (EF : fitting S data = data) by (unfold fitting; apply firstn_all2; lia).
  rewrite EF in E2, E3. split; [|assumption]. apply (app_inv_head data). now rewrite app_nil_r.
Qed.

(** Pick stops at the first candidate that gives a group element, and goes on otherwise. *)
Theorem C84_pick_stops : forall data draws, 0 <= pick_len S -> Forall (fun b => length b = plen S) draws ->
  (pick S (Some data) draws <> None <-> exists b b', In b draws /\ embed S data b = Some b' /\ in_group S (be_to_z b')).
Proof.
  intros data draws HP F. induction F as [|b draws L F IH]; cbn [pick].
  { split; [now intros []|intros (b & b' & [] & _)]. }
  destruct (embed_len_range S data HP) as [ER EL]. pose proof (pick_len_room S OK HP) as RO.
  assert (EB : exists b', embed S data b = Some b').
  { unfold embed. destruct (Z.ltb_spec (embed_len S data) 0); [lia|]. destruct (Z.ltb_spec (Z.of_nat (plen S) - embed_len S data - 2) 0); [lia|].
    rewrite L, Nat.eqb_refl. eexists. reflexivity. }
  destruct EB as [b' EB]. rewrite EB. cbv zeta. destruct (pt_valid S (be_to_z b')) eqn:EV.
  - split; [|discriminate]. intros _. exists b, b'. split; [now left|]. split; [assumption|]. now apply (pt_valid_iff S OK).
  - rewrite IH. split; intros (x & x' & I & E & V).
    + exists x, x'. auto with datatypes.
    + destruct I as [->|I]; [|now exists x, x']. exfalso. rewrite EB in E. injection E as <-. apply (pt_valid_iff S OK) in V. congruence.
Qed.

(** A message of any length over several points: the rest goes into the next one. *)
Fixpoint pick_all (S : suite) (data : bytes) (dss : list (list bytes)) : option (list Z * bytes) :=
  match dss with
  | [] => Some ([], data)
  | ds :: dss => olet (p, rest) := pick S (Some data) ds in olet (ps, r) := pick_all S rest dss in Some (p :: ps, r)
  end.
Theorem C84_message_over_points : forall dss data ps, 0 <= pick_len S < 65536 ->
  pick_all S data dss = Some (ps, []) ->
  exists parts, Forall2 (fun p part => in_group S p /\ pt_data S p = Some (Some part)) ps parts /\ concat parts = data.
Proof.
  intros dss. induction dss as [|ds dss IH]; intros data ps HP; cbn [pick_all].
  - intros [= <- ->]. exists []. split; [constructor|reflexivity].
  - destruct (pick S (Some data) ds) as [[p rest]|] eqn:EP; [|discriminate].
    destruct (pick_all S rest dss) as [[ps' r]|] eqn:EA; [|discriminate]. intros X. injection X as <- ->.
    destruct (IH rest ps' HP EA) as (parts & F & C). destruct (C84_embedded_data_is_read_back data ds p rest HP EP) as (I1 & I2 & I3).
    exists (fitting S data :: parts). split; [constructor; auto|]. cbn [concat]. now rewrite C.
Qed.

(** Data never runs out of a slice on a group element; it says whether there can be data. *)
Theorem C84_data_never_stops : forall p, in_group S p -> 0 <= pick_len S -> pt_data S p <> None.
Proof.
  intros p [[G1 G2] _] HP. pose proof (pick_len_room S OK HP) as RO.
  assert (B : Z.abs p < 256 ^ Z.of_nat (plen S)) by (pose proof (plen_bound S OK p); lia).
  unfold pt_data. cbv zeta. rewrite (pad_be_length (plen S) p B).
  destruct (Nat.ltb_spec (plen S) (plen S)); [lia|]. destruct (Nat.ltb_spec (plen S) 2); [lia|]. cbn [orb].
  match goal with |- context [pick_len S <? ?x] => destruct (Z.ltb_spec (pick_len S) x); [discriminate|] end.
  match goal with |- context [?x <? 0] => destruct (Z.ltb_spec x 0); [lia|discriminate] end.
Qed.

(** Neg gives the inverse element. *)
Theorem C84_neg_inverts : forall old p, in_group S p -> in_group S (pt_neg S old p) /\ pt_add S p (pt_neg S old p) = pt_null.
Proof.
  intros old p IG. pose proof (sP_gt1 S OK) as HP. pose proof (sQ_gt1 S OK) as HQ. pose proof (in_group_unit S OK p IG) as U.
  destruct (modinv_some p (sP S) HP U) as (i & E & RI & EI). unfold pt_neg. rewrite E. split; [|exact EI].
  assert (NI : i <> 0) by (intros ->; rewrite Z.mul_0_r, Z.mod_0_l in EI; lia).
  split; [lia|]. destruct IG as [_ EQ].
  assert (X : (p ^ sQ S * i ^ sQ S) mod sP S = 1).
  { rewrite <- Z.pow_mul_l. rewrite Zpow_facts.Zpower_mod by lia. rewrite EI, Z.pow_1_l by lia. apply Z.mod_small. lia. }
  rewrite <- Z.mul_mod_idemp_l, EQ, Z.mul_1_l in X by lia. exact X.
Qed.
End Embedding.

(** ** The group of the program: 61 bytes fit into a point *)
Definition the_suite : suite := qr512_suite (fun b => b) (fun _ _ => 1) (fun _ => 1).
Lemma the_suite_ok : suite_ok the_suite.
Proof. apply qr512_ok; intros; vm_compute; split; reflexivity. Qed.
Example C84_instance_len : pick_len the_suite = 61 /\ plen the_suite = 64%nat.
Proof. split; vm_compute; reflexivity. Qed.
(** A group of 48 bits: the first candidate is no square, the second is taken. *)
Definition mid_suite : suite := Suite 211106232536699 105553116268349 4 (fun b => b) (fun _ _ => 1) (fun _ => 1).
Lemma mid_suite_ok : suite_ok mid_suite.
Proof.
  constructor; [reflexivity|reflexivity|vm_compute; congruence| |intros; vm_compute; split; reflexivity|intros; vm_compute; split; reflexivity].
  unfold in_group. rewrite <- powm_spec by (vm_compute; congruence). vm_compute. repeat split; congruence.
Qed.
Example C84_instance : let draws := [x01 :: repeat x07 5; x02 :: repeat x07 5]%byte in
  Forall (fun b => length b = plen mid_suite) draws /\ pick_len mid_suite = 3 /\
  exists p, pick mid_suite (Some [x61; x62; x63]%byte) draws = Some (p, []) /\
    pt_data mid_suite p = Some (Some [x61; x62; x63]%byte) /\
    pick mid_suite (Some [x61; x62; x63]%byte) (firstn 1 draws) = None.
Proof.
  intros draws. split; [repeat constructor|]. split; [reflexivity|].
  exists (be_to_z [x02; x61; x62; x63; x00; x03]%byte). split; [|split]; vm_compute; reflexivity.
Qed.

Print Assumptions C84_embedded_data_is_read_back.
Print Assumptions C84_short_data_fits.
Print Assumptions C84_pick_stops.
Print Assumptions C84_message_over_points.
Print Assumptions C84_data_never_stops.
Print Assumptions C84_neg_inverts.
