(** Fields a reader does not know are skipped, whatever their wire type: C89. *)
From Coq Require Import ZArith Lia List Bool.
From Coq Require Import Strings.Byte.
From Verif Require Import ZMod Bytes Suite Spec Codec Prop_Pedersen Prop_Codec.
Import ListNotations.
Open Scope Z_scope.

(** ** Specification *)
(** A protobuf message is a sequence of fields: a number, and a varint, eight
    bytes, a byte string or four bytes. *)
Inductive pbvalue := Varint (n : Z) | Fixed64 (b : bytes) | Delimited (b : bytes) | Fixed32 (b : bytes).
Definition pbfield := (Z * pbvalue)%type.
(** What may be sent: nonnegative numbers, and fixed values of their size. *)
Definition sendable (w : pbfield) : Prop :=
  0 <= fst w /\
  match snd w with
  | Varint n => 0 <= n
  | Fixed64 b => List.length b = 8%nat
  | Delimited _ => True
  | Fixed32 b => List.length b = 4%nat
  end.
(** The bytes of one field (protobuf encoding: key = 8 * number + wire type). *)
Definition put_field (w : pbfield) : bytes :=
  match snd w with
  | Varint n => uvarint (fst w * 8) ++ uvarint n
  | Fixed64 b => uvarint (fst w * 8 + 1) ++ b
  | Delimited b => uvarint (fst w * 8 + 2) ++ uvarint (Z.of_nat (List.length b)) ++ b
  | Fixed32 b => uvarint (fst w * 8 + 5) ++ b
  end.
Definition put_message (ws : list pbfield) : bytes := concat (map put_field ws).
(** The fields with one of the given numbers, in order. *)
Definition only (nums : list Z) (ws : list pbfield) : list pbfield :=
  filter (fun w => existsb (Z.eqb (fst w)) nums) ws.

(** ** Parsing *)
Definition as_wire (w : pbfield) : Z * wire :=
  (fst w, match snd w with Varint n => WVar n | Fixed64 b => WFixed b | Delimited b => WBytes b | Fixed32 b => WFixed b end).

Lemma parse_put w rest : sendable w ->
  parse_field (put_field w ++ rest) = Some (fst (as_wire w), snd (as_wire w), rest).
Proof.
  destruct w as [f v]. unfold sendable, put_field, as_wire. cbn [fst snd]. intros (Hf & Hv). unfold parse_field.
  destruct v; rewrite <- !app_assoc; rewrite get_uvarint_app by lia.
  - replace (f * 8) with (0 + f * 8) by lia. rewrite Z.mod_add, Z.div_add by lia.
    change (0 mod 8) with 0. change (0 / 8) with 0. cbn iota. rewrite get_uvarint_app by lia. now rewrite Z.add_0_l.
  - replace (f * 8 + 1) with (1 + f * 8) by lia. rewrite Z.mod_add, Z.div_add by lia.
    change (1 mod 8) with 1. change (1 / 8) with 0. cbn iota.
    change 8%nat with 8%nat in Hv. rewrite <- Hv, take_app. now rewrite Z.add_0_l.
  - replace (f * 8 + 2) with (2 + f * 8) by lia. rewrite Z.mod_add, Z.div_add by lia.
    change (2 mod 8) with 2. change (2 / 8) with 0. cbn iota. rewrite get_uvarint_app by lia.
    rewrite Nat2Z.id, take_app. now rewrite Z.add_0_l.
  - replace (f * 8 + 5) with (5 + f * 8) by lia. rewrite Z.mod_add, Z.div_add by lia.
    change (5 mod 8) with 5. change (5 / 8) with 0. cbn iota. rewrite <- Hv, take_app. now rewrite Z.add_0_l.
Qed.

Lemma put_field_length w : (1 <= List.length (put_field w))%nat.
Proof.
  assert (U : forall n l, (1 <= List.length (uvarint n ++ l))%nat).
  { intros n l. rewrite app_length. unfold uvarint. pose proof (put_uv_nonempty (Z.to_nat (Z.log2 n)) n).
    destruct (put_uv (Z.to_nat (Z.log2 n)) n); [congruence|cbn [List.length]; lia]. }
  unfold put_field. destruct (snd w); apply U.
Qed.

Lemma parse_message ws : Forall sendable ws -> forall fuel, (List.length ws <= fuel)%nat ->
  parse_fields fuel (put_message ws) = Some (map as_wire ws).
Proof.
  induction 1 as [|w ws Hw _ IH]; intros fuel HL; unfold put_message in *; cbn [map concat List.length] in *.
  - destruct fuel; reflexivity.
  - destruct fuel as [|fuel]; [lia|]. cbn [parse_fields].
    pose proof (put_field_length w). rewrite parse_put by assumption.
    destruct (put_field w ++ concat (map put_field ws)) eqn:E.
    + apply (f_equal (@List.length _)) in E. rewrite app_length in E. cbn in E. lia.
    + rewrite IH by lia. now destruct (as_wire w).
Qed.

Lemma message_length ws : (List.length ws <= List.length (put_message ws))%nat.
Proof.
  induction ws as [|w ws IH]; unfold put_message in *; cbn [map concat List.length]; [lia|].
  rewrite app_length. pose proof (put_field_length w). lia.
Qed.

Lemma only_sendable nums ws : Forall sendable ws -> Forall sendable (only nums ws).
Proof. intros H. unfold only. rewrite Forall_forall in *. intros w I. apply filter_In in I. now apply H. Qed.

Lemma dec_repeated_only {A} (dec : bytes -> option A) ws :
  dec_repeated dec (map as_wire ws) = dec_repeated dec (map as_wire (only [1] ws)).
Proof.
  induction ws as [|[f v] ws IH]; [reflexivity|]. unfold only in *. cbn [map filter existsb fst].
  destruct (Z.eqb_spec f 1) as [->|N]; cbn [orb map].
  - unfold as_wire at 1 3. cbn [fst snd]. cbn [dec_repeated]. destruct v; try reflexivity. now rewrite IH.
  - etransitivity; [|exact IH]. unfold as_wire at 1. cbn [fst snd]. cbn [dec_repeated].
    destruct f as [|[| |]|]; try reflexivity. congruence.
Qed.

Lemma dec_assignment_only S ws : forall a,
  dec_assignment_fields S (map as_wire ws) a = dec_assignment_fields S (map as_wire (only [1; 2; 3] ws)) a.
Proof.
  induction ws as [|[f v] ws IH]; intros a; [reflexivity|]. unfold only in *. cbn [map filter existsb fst].
  destruct (Z.eqb_spec f 1) as [->|N1]; [|destruct (Z.eqb_spec f 2) as [->|N2]; [|destruct (Z.eqb_spec f 3) as [->|N3]]];
    cbn [orb map].
  - unfold as_wire at 1 3. cbn [fst snd dec_assignment_fields]. destruct v; try reflexivity.
    destruct (dec_point S b); [apply IH|reflexivity].
  - unfold as_wire at 1 3. cbn [fst snd dec_assignment_fields]. destruct v; try reflexivity. apply IH.
  - unfold as_wire at 1 3. cbn [fst snd dec_assignment_fields]. destruct v; try reflexivity.
    destruct (dec_point S b); [apply IH|reflexivity].
  - etransitivity; [|exact (IH a)]. unfold as_wire at 1. cbn [fst snd dec_assignment_fields].
    destruct f as [|[[| |]|[| |]|]|]; try reflexivity; congruence.
Qed.

(** ** C89 *)
(** Lists of points, of secrets and of booleans, and assignments: the outcome
    depends on the fields the reader knows only, whatever fields of whatever wire
    type stand before, between and after them. *)
Theorem C89_unknown_fields_skipped : forall S ws, Forall sendable ws ->
  dec_points S (put_message ws) = dec_points S (put_message (only [1] ws)) /\
  dec_secrets S (put_message ws) = dec_secrets S (put_message (only [1] ws)) /\
  dec_bools (put_message ws) = dec_bools (put_message (only [1] ws)) /\
  dec_assignment S (put_message ws) = dec_assignment S (put_message (only [1; 2; 3] ws)).
Proof.
  intros S ws H. unfold dec_points, dec_secrets, dec_bools, dec_assignment, pb_parse.
  rewrite !parse_message by (try apply only_sendable; try assumption; apply message_length).
  repeat split; try apply dec_repeated_only; [|apply dec_assignment_only].
  now rewrite dec_repeated_only.
Qed.

(** What is read then: a list of points is read when every field 1 is a byte
    string that denotes a group element, and its value is those elements in
    order; it is rejected otherwise. *)
Theorem C89_points_read : forall S, suite_ok S -> forall ws, Forall sendable ws -> forall l,
  dec_points S (put_message ws) = Some l <->
  Forall2 (fun w p => exists b, snd w = Delimited b /\ be_to_z b = p /\ member (sP S) (sQ S) p) (only [1] ws) l.
Proof.
  intros S OK ws H l. destruct (C89_unknown_fields_skipped S ws H) as (-> & _).
  pose proof (only_sendable [1] ws H) as H1.
  unfold dec_points, pb_parse. rewrite parse_message by (assumption || apply message_length).
  assert (F : forall w, In w (only [1] ws) -> fst w = 1).
  { intros w I. apply filter_In in I. destruct I as (_ & I). cbn [existsb] in I. destruct (Z.eqb_spec (fst w) 1); [assumption|discriminate]. }
  clear H. revert l. induction H1 as [|w us Hw _ IH]; intros l; cbn [map dec_repeated].
  - split; [intros [= <-]; constructor|]. intros Q. now inversion Q.
  - assert (Fw : fst w = 1) by (apply F; now left). destruct w as [f v]. cbn [fst] in Fw. subst f.
    unfold as_wire at 1. cbn [fst snd].
    assert (IH' := IH (fun u I => F u (or_intror I))). clear IH.
    assert (B : forall X, (exists b, v = Delimited b /\ be_to_z b = X /\ member (sP S) (sQ S) X) <->
      exists b, v = Delimited b /\ dec_point S b = Some X).
    { intros X. split; intros (b & E & Q); exists b; (split; [exact E|]).
      - apply (C23_point_decode_exact S OK). destruct Q. now split.
      - apply (C23_point_decode_exact S OK) in Q. destruct Q. now split. }
    destruct v as [n|b|b|b]; cbn [dec_repeated];
      try (split; [discriminate|intros Q; inversion Q as [|? ? ? ? (b' & E & _)]; discriminate E]).
    destruct (dec_point S b) as [p|] eqn:D.
    + destruct (dec_repeated (dec_point S) (map as_wire us)) as [r|].
      * split.
        -- intros [= <-]. constructor; [apply B; now exists b|]. now apply IH'.
        -- intros Q. inversion Q as [|? y ? l' Hy Ht]. subst. apply B in Hy. destruct Hy as (b' & [= <-] & Hy).
           apply IH' in Ht. congruence.
      * split; [discriminate|]. intros Q. inversion Q as [|? y ? l' Hy Ht]. subst. apply IH' in Ht. discriminate.
    + split; [discriminate|]. intros Q. inversion Q as [|? y ? l' Hy Ht]. subst. apply B in Hy.
      destruct Hy as (b' & [= <-] & Hy). congruence.
Qed.

(** An assignment into whose encoding other fields were put is read as before. *)
Theorem C89_assignment_extended : forall S, suite_ok S -> forall nymR addr nym x0 x1 x2 x3,
  member (sP S) (sQ S) nymR -> member (sP S) (sQ S) nym ->
  Forall sendable (x0 ++ x1 ++ x2 ++ x3) -> (forall w, In w (x0 ++ x1 ++ x2 ++ x3) -> ~ In (fst w) [1; 2; 3]) ->
  dec_assignment S (put_message (x0 ++ (1, Delimited (enc_point S nymR)) :: x1 ++ (2, Delimited addr) :: x2
                                    ++ (3, Delimited (enc_point S nym)) :: x3))
  = Some (Assign (Some nymR) addr (Some nym)).
Proof.
  intros S OK nymR addr nym x0 x1 x2 x3 M1 M2 HS HN.
  assert (SD : forall f b, 0 <= f -> sendable (f, Delimited b)) by (intros; split; [assumption|exact I]).
  destruct (C89_unknown_fields_skipped S (x0 ++ (1, Delimited (enc_point S nymR)) :: x1 ++ (2, Delimited addr) :: x2
                                    ++ (3, Delimited (enc_point S nym)) :: x3)) as (_ & _ & _ & ->).
  { rewrite !Forall_app in HS. destruct HS as (? & ? & ? & ?).
    rewrite Forall_app. split; [assumption|]. constructor; [apply SD; lia|].
    rewrite Forall_app. split; [assumption|]. constructor; [apply SD; lia|].
    rewrite Forall_app. split; [assumption|]. constructor; [apply SD; lia|assumption]. }
  assert (Z : forall l, (forall w, In w l -> ~ In (fst w) [1; 2; 3]) -> only [1; 2; 3] l = []).
  { induction l as [|w l IH]; intros Hl; [reflexivity|]. unfold only in *. cbn [filter].
    destruct (existsb (Z.eqb (fst w)) [1; 2; 3]) eqn:E.
    - exfalso. apply existsb_exists in E. destruct E as (y & Iy & Ey). apply Z.eqb_eq in Ey. subst y.
      exact (Hl w (or_introl eq_refl) Iy).
    - apply IH. intros u Iu. apply Hl. now right. }
  assert (A : forall l1 l2, only [1; 2; 3] (l1 ++ l2) = only [1; 2; 3] l1 ++ only [1; 2; 3] l2) by (intros; apply filter_app).
  assert (C : forall f v l, In f [1; 2; 3] -> only [1; 2; 3] ((f, v) :: l) = (f, v) :: only [1; 2; 3] l).
  { intros f v l If. unfold only. cbn [filter fst]. replace (existsb (Z.eqb f) [1; 2; 3]) with true; [reflexivity|].
    symmetry. apply existsb_exists. exists f. split; [assumption|]. apply Z.eqb_refl. }
  rewrite A, C by (cbn; tauto). rewrite A, C by (cbn; tauto). rewrite A, C by (cbn; tauto).
  rewrite !Z by (intros w Iw; apply HN; rewrite !in_app_iff; tauto). cbn [app].
  unfold dec_assignment, pb_parse. rewrite parse_message;
    [|repeat constructor; cbn [fst snd]; try lia|apply message_length].
  cbn [map as_wire fst snd dec_assignment_fields asNymR asAddr asNym].
  destruct (C23_point_round_trip S OK nymR M1) as (-> & _). destruct (C23_point_round_trip S OK nym M2) as (-> & _).
  reflexivity.
Qed.

(** ** Instances *)
(** Fields of all four wire types around a list of two points. *)
Example C89_instance :
  let ws := [(4, Varint 300); (1, Delimited (enc_point toy_suite 2)); (5, Fixed64 (repeat x01 8)); (6, Fixed32 (repeat x0a 4));
             (1, Delimited (enc_point toy_suite 18)); (7, Delimited [x0a; x01]%byte)] in
  Forall sendable ws /\ dec_points toy_suite (put_message ws) = Some [2; 18] /\
  put_message (only [1] ws) = enc_points toy_suite [2; 18] /\
  dec_points toy_suite (put_message ((1, Varint 2) :: ws)) = None.
Proof.
  split; [|vm_compute; repeat split].
  repeat (constructor; [split; cbn [fst snd]; try lia; try reflexivity; exact I|]). constructor.
Qed.

Print Assumptions C89_unknown_fields_skipped.
Print Assumptions C89_points_read.
Print Assumptions C89_assignment_extended.
