(** Encodings, message parameters and table lookups: /repo/util/Util.go,
    /repo/util/DataTypes.go, /repo/cmd/bridge/bridge.go:151-189. *)
From Coq Require Import ZArith Znumtheory Lia List Bool.
From Coq Require Import Strings.Byte.
From Coq Require String.
Notation string := String.string.
From Verif Require Import ZMod Bytes Suite FujiOkam Equality.
Import ListNotations.
Open Scope Z_scope.

Notation "'olet' x ':=' a 'in' b" := (match a with Some x => b | None => None end)
  (at level 200, x pattern, a at level 100, b at level 200).

(** ** Integers *)
(** uint32(n) of Util.go:311 *)
Definition uint32 (n : Z) : Z := n mod 2 ^ 32.
(** Util.go:309-313 IntToByte *)
Definition int_to_byte (n : Z) : bytes := z_to_be 4 (uint32 n).
(** Util.go:303-307 ByteToInt: reads the first four bytes, panics when there are
    fewer. *)
Definition byte_to_int (l : bytes) : option Z :=
  if (List.length l <? 4)%nat then None else Some (be_to_z (firstn 4 l)).

(** ** Message parameters: map[string]interface{} (proto/Event.go), with the
    dynamic types the handlers use.  [VArr] is []util.ByteArray. *)
Inductive value :=
| VInt (z : Z)
| VBytes (b : bytes)
| VStr (s : bytes)
| VArr (l : list bytes)
| VBool (b : bool).
Definition params := list (string * value).

(** params[k]: a nil interface when absent. *)
Fixpoint lookup (p : params) (k : string) : option value :=
  match p with
  | [] => None
  | (k', v) :: rest => if String.eqb k k' then Some v else lookup rest k
  end.
(** params[k].([]byte) etc.: the type assertion panics (None) when the key is
    missing or has another dynamic type. *)
Definition get_int (p : params) (k : string) : option Z :=
  match lookup p k with Some (VInt z) => Some z | _ => None end.
Definition get_bytes (p : params) (k : string) : option bytes :=
  match lookup p k with Some (VBytes b) => Some b | _ => None end.
Definition get_str (p : params) (k : string) : option bytes :=
  match lookup p k with Some (VStr b) => Some b | _ => None end.
Definition get_arr (p : params) (k : string) : option (list bytes) :=
  match lookup p k with Some (VArr l) => Some l | _ => None end.
Definition get_bool (p : params) (k : string) : option bool :=
  match lookup p k with Some (VBool b) => Some b | _ => None end.
(** v, ok := params[k] *)
Definition has_key (p : params) (k : string) : bool :=
  match lookup p k with Some _ => true | None => false end.

(** ** Table lookups on lists of (non-nil) points *)
(** Util.go:353-360 FindIndexWithinKeyList *)
Fixpoint find_index_from (i : Z) (keys : list Z) (nym : Z) : Z :=
  match keys with
  | [] => -1
  | k :: rest => if nym =? k then i else find_index_from (i + 1) rest nym
  end.
Definition find_index (keys : list Z) (nym : Z) : Z := find_index_from 0 keys nym.
(** Util.go:362-370 FindIntUsingKeyList; None = index out of range. *)
Fixpoint find_int_from (i : nat) (keys diffs : list Z) (nym : Z) : option Z :=
  match keys with
  | [] => Some 0
  | k :: rest => if nym =? k then nth_error diffs i else find_int_from (S i) rest diffs nym
  end.
Definition find_int (keys diffs : list Z) (nym : Z) : option Z := find_int_from 0 keys diffs nym.
(** Util.go:342-349 FindCommUsingKeyList; Some None = (nil, nil). *)
Fixpoint find_comm_from (i : nat) (keys vals es : list Z) (nym : Z) : option (option (Z * Z)) :=
  match keys with
  | [] => Some None
  | k :: rest =>
      if nym =? k then
        match nth_error vals i, nth_error es i with
        | Some v, Some e => Some (Some (v, e))
        | _, _ => None
        end
      else find_comm_from (S i) rest vals es nym
  end.
Definition find_comm (keys vals es : list Z) (nym : Z) : option (option (Z * Z)) :=
  find_comm_from 0 keys vals es nym.

(** ** go.dedis.ch/protobuf (external): standard protobuf wire format.
    Modelled: varints, length-delimited fields, skipping of unknown fields.
    (Go's 64-bit overflow check of varints is not modelled.) *)
Fixpoint put_uv (k : nat) (n : Z) : bytes :=
  match k with
  | O => [z_byte n]
  | S k' => if n <? 128 then [z_byte n] else z_byte (n mod 128 + 128) :: put_uv k' (n / 128)
  end.
Definition uvarint (n : Z) : bytes := put_uv (Z.to_nat (Z.log2 n)) n.
Fixpoint get_uvarint (l : bytes) : option (Z * bytes) :=
  match l with
  | [] => None
  | b :: rest =>
      if byte_z b <? 128 then Some (byte_z b, rest)
      else match get_uvarint rest with
           | Some (v, rest') => Some (byte_z b - 128 + 128 * v, rest')
           | None => None
           end
  end.

Inductive wire := WVar (z : Z) | WBytes (b : bytes) | WFixed (b : bytes).

Definition take (n : nat) (l : bytes) : option (bytes * bytes) :=
  if (List.length l <? n)%nat then None else Some (firstn n l, skipn n l).

(** One field: key varint, then the value by wire type. *)
Definition parse_field (l : bytes) : option (Z * wire * bytes) :=
  olet (key, l1) := get_uvarint l in
  let field := key / 8 in
  match key mod 8 with
  | 0 => olet (v, l2) := get_uvarint l1 in Some (field, WVar v, l2)
  | 1 => olet (b, l2) := take 8 l1 in Some (field, WFixed b, l2)
  | 2 => olet (n, l2) := get_uvarint l1 in
         olet (b, l3) := take (Z.to_nat n) l2 in Some (field, WBytes b, l3)
  | 5 => olet (b, l2) := take 4 l1 in Some (field, WFixed b, l2)
  | _ => None
  end.
Fixpoint parse_fields (fuel : nat) (l : bytes) : option (list (Z * wire)) :=
  match l with
  | [] => Some []
  | _ => match fuel with
         | O => None
         | S fuel' => olet (f, w, rest) := parse_field l in
                      olet fs := parse_fields fuel' rest in Some ((f, w) :: fs)
         end
  end.
(** Every field takes at least one byte, so [length l] is enough fuel. *)
Definition pb_parse (l : bytes) : option (list (Z * wire)) := parse_fields (List.length l) l.

Definition pb_bytes (field : Z) (payload : bytes) : bytes :=
  uvarint (field * 8 + 2) ++ uvarint (Z.of_nat (List.length payload)) ++ payload.

(** Util.go:257-263 ProtobufEncodePointList: field 1 repeated. *)
Definition enc_points (S : suite) (l : list Z) : bytes :=
  concat (map (fun p => pb_bytes 1 (enc_point S p)) l).
(** A repeated field 1 of values decoded by [dec]; other fields are skipped. *)
Fixpoint dec_repeated {A} (dec : bytes -> option A) (fs : list (Z * wire)) : option (list A) :=
  match fs with
  | [] => Some []
  | (1, WBytes b) :: rest =>
      olet a := dec b in olet r := dec_repeated dec rest in Some (a :: r)
  | (1, _) :: rest => None
  | _ :: rest => dec_repeated dec rest
  end.
(** Util.go:265-278 ProtobufDecodePointList; an invalid point is an error, which
    is fatal. *)
Definition dec_points (S : suite) (l : bytes) : option (list Z) :=
  olet fs := pb_parse l in dec_repeated (dec_point S) fs.
(** Util.go:280-301 secrets *)
Definition enc_secrets (S : suite) (l : list Z) : bytes :=
  concat (map (fun s => pb_bytes 1 (enc_secret S s)) l).
Definition dec_secrets (S : suite) (l : bytes) : option (list Z) :=
  olet fs := pb_parse l in dec_repeated (dec_secret S) fs.
(** Util.go:113-133 bool lists: one packed field of varints 0/1. *)
Definition enc_bools (l : list bool) : bytes :=
  pb_bytes 1 (concat (map (fun b : bool => uvarint (if b then 1 else 0)) l)).
Fixpoint dec_packed (fuel : nat) (l : bytes) : option (list bool) :=
  match l with
  | [] => Some []
  | _ => match fuel with
         | O => None
         | S fuel' => olet (v, rest) := get_uvarint l in
                      olet r := dec_packed fuel' rest in Some (negb (v =? 0) :: r)
         end
  end.
Definition dec_bools (l : bytes) : option (list bool) :=
  olet fs := pb_parse l in
  olet ls := dec_repeated (fun b => dec_packed (List.length b) b) fs in Some (concat ls).

(** bridge.go:26-30.  A nil point is None. *)
Record assignment := Assign { asNymR : option Z; asAddr : bytes; asNym : option Z }.

(** bridge.go:167-171 EncodeAssignment: fields 1..3; a nil interface is omitted. *)
Definition enc_assignment (S : suite) (a : assignment) : bytes :=
  match asNymR a with Some p => pb_bytes 1 (enc_point S p) | None => [] end ++
  pb_bytes 2 (asAddr a) ++
  match asNym a with Some p => pb_bytes 3 (enc_point S p) | None => [] end.
(** bridge.go:173-189 DecodeAssignment; CheckErr panics on an error. *)
Fixpoint dec_assignment_fields (S : suite) (fs : list (Z * wire)) (a : assignment) : option assignment :=
  match fs with
  | [] => Some a
  | (1, WBytes b) :: rest =>
      olet p := dec_point S b in dec_assignment_fields S rest (Assign (Some p) (asAddr a) (asNym a))
  | (2, WBytes b) :: rest => dec_assignment_fields S rest (Assign (asNymR a) b (asNym a))
  | (3, WBytes b) :: rest =>
      olet p := dec_point S b in dec_assignment_fields S rest (Assign (asNymR a) (asAddr a) (Some p))
  | (1, _) :: _ | (2, _) :: _ | (3, _) :: _ => None
  | _ :: rest => dec_assignment_fields S rest a
  end.
Definition dec_assignment (S : suite) (l : bytes) : option assignment :=
  olet fs := pb_parse l in dec_assignment_fields S fs (Assign None [] None).

(** ** encoding/gob (external): abstract encoders and decoders.  A decoder gives
    None when gob reports an error (all callers panic or log.Fatal) and when a
    field needed later is nil. *)
Record gob := Gob {
  genc_nonneg : arg_nonneg -> bytes;      gdec_nonneg : bytes -> option arg_nonneg;   (* Util.go:160-179 *)
  genc_equal : arg_equal -> bytes;        gdec_equal : bytes -> option arg_equal;     (* Util.go:185-204 *)
  genc_2d : list bytes -> bytes;          gdec_2d : bytes -> option (list bytes);     (* Util.go:38-52 *)
  genc_ints : list Z -> bytes;            gdec_ints : bytes -> option (list Z);       (* Util.go:236-255 *)
  genc_bigints : list Z -> bytes;         gdec_bigints : bytes -> option (list Z)     (* Util.go:135-154 *)
}.
(** gob decodes what it encoded. *)
Record gob_ok (G : gob) : Prop := {
  g_nonneg : forall a, gdec_nonneg G (genc_nonneg G a) = Some a;
  g_equal : forall a, gdec_equal G (genc_equal G a) = Some a;
  g_2d : forall a, gdec_2d G (genc_2d G a) = Some a;
  g_ints : forall a, gdec_ints G (genc_ints G a) = Some a;
  g_bigints : forall a, gdec_bigints G (genc_bigints G a) = Some a
}.

(** bridge.go:151-157 EncodeAssignmentList *)
Definition enc_assignments (S : suite) (G : gob) (l : list assignment) : bytes :=
  genc_2d G (map (enc_assignment S) l).
(** bridge.go:159-165 DecodeAssignmentList *)
Fixpoint dec_all {A B} (dec : A -> option B) (l : list A) : option (list B) :=
  match l with
  | [] => Some []
  | x :: rest => olet a := dec x in olet r := dec_all dec rest in Some (a :: r)
  end.
Definition dec_assignments (S : suite) (G : gob) (l : bytes) : option (list assignment) :=
  olet raw := gdec_2d G l in dec_all (dec_assignment S) raw.

(** ** Lemmas *)
Lemma get_put k : forall n rest, 0 <= n < 128 * 2 ^ Z.of_nat k ->
  get_uvarint (put_uv k n ++ rest) = Some (n, rest).
Proof.
  induction k as [|k IH]; intros n rest Hn.
  - cbn [Z.of_nat] in Hn. rewrite Z.pow_0_r in Hn. cbn [put_uv app get_uvarint]. rewrite z_byte_z.
    rewrite Z.mod_small by lia. destruct (Z.ltb_spec n 128); [reflexivity|lia].
  - cbn [put_uv]. destruct (Z.ltb_spec n 128) as [H|H].
    + cbn [app get_uvarint]. rewrite z_byte_z.
      rewrite Z.mod_small by lia. destruct (Z.ltb_spec n 128); [reflexivity|lia].
    + cbn [app get_uvarint]. rewrite z_byte_z. pose proof (Z.mod_pos_bound n 128 ltac:(lia)).
      rewrite (Z.mod_small (n mod 128 + 128)) by lia.
      destruct (Z.ltb_spec (n mod 128 + 128) 128); [lia|].
      rewrite Nat2Z.inj_succ, Z.pow_succ_r in Hn by lia.
      rewrite IH.
      * f_equal. f_equal. pose proof (Z.div_mod n 128 ltac:(lia)). lia.
      * split; [apply Z.div_pos; lia|]. apply Z.div_lt_upper_bound; lia.
Qed.

Lemma get_uvarint_app n rest : 0 <= n -> get_uvarint (uvarint n ++ rest) = Some (n, rest).
Proof.
  intros Hn. apply get_put. split; [assumption|]. pose proof (Z.log2_nonneg n).
  rewrite Z2Nat.id by assumption. destruct (Z.eq_dec n 0) as [->|N]; [cbn; lia|].
  pose proof (Z.log2_spec n ltac:(lia)) as [_ L]. rewrite Z.pow_succ_r in L by lia. lia.
Qed.

Lemma put_uv_nonempty k n : put_uv k n <> [].
Proof. destruct k; cbn [put_uv]; [discriminate|]. destruct (n <? 128); discriminate. Qed.

Lemma take_app (a b : bytes) : take (List.length a) (a ++ b) = Some (a, b).
Proof.
  unfold take. rewrite app_length. destruct (Nat.ltb_spec (List.length a + List.length b) (List.length a)); [lia|].
  rewrite firstn_exact, skipn_exact by reflexivity. reflexivity.
Qed.

Lemma parse_pb_bytes f payload rest : 0 <= f ->
  parse_field (pb_bytes f payload ++ rest) = Some (f, WBytes payload, rest).
Proof.
  intros Hf. unfold parse_field, pb_bytes. rewrite <- !app_assoc.
  rewrite get_uvarint_app by lia.
  replace (f * 8 + 2) with (2 + f * 8) by lia. rewrite Z.mod_add by lia.
  rewrite Z.div_add by lia. change (2 mod 8) with 2. change (2 / 8) with 0. cbn iota.
  rewrite get_uvarint_app by lia. rewrite Nat2Z.id, take_app. now rewrite Z.add_0_l.
Qed.

Lemma pb_bytes_length f payload : (1 <= List.length (pb_bytes f payload))%nat.
Proof.
  unfold pb_bytes. rewrite app_length. pose proof (put_uv_nonempty (Z.to_nat (Z.log2 (f * 8 + 2))) (f * 8 + 2)).
  unfold uvarint. destruct (put_uv (Z.to_nat (Z.log2 (f * 8 + 2))) (f * 8 + 2)); [congruence|].
  cbn [List.length]. lia.
Qed.

Lemma parse_fields_cons f payload rest : 0 <= f -> forall fuel,
  parse_fields (S fuel) (pb_bytes f payload ++ rest) =
  olet fs := parse_fields fuel rest in Some ((f, WBytes payload) :: fs).
Proof.
  intros Hf fuel. cbn [parse_fields]. rewrite parse_pb_bytes by assumption.
  pose proof (pb_bytes_length f payload). destruct (pb_bytes f payload ++ rest) eqn:E; [|reflexivity].
  apply (f_equal (@List.length _)) in E. rewrite app_length in E. cbn in E. lia.
Qed.

Lemma parse_fields_concat : forall (fs : list (Z * bytes)) fuel, (List.length fs <= fuel)%nat ->
  (forall f, In f fs -> 0 <= fst f) ->
  parse_fields fuel (concat (map (fun f => pb_bytes (fst f) (snd f)) fs)) =
  Some (map (fun f => (fst f, WBytes (snd f))) fs).
Proof.
  induction fs as [|[f b] fs IH]; intros fuel HL HF; cbn [map concat List.length fst snd] in *.
  - destruct fuel; reflexivity.
  - destruct fuel as [|fuel]; [lia|]. rewrite parse_fields_cons by (apply (HF (f, b)); now left).
    rewrite IH; [reflexivity|lia|]. intros g Hg. apply HF. now right.
Qed.

Lemma concat_pb_length (fs : list (Z * bytes)) :
  (List.length fs <= List.length (concat (map (fun f => pb_bytes (fst f) (snd f)) fs)))%nat.
Proof.
  induction fs as [|[f b] fs IH]; cbn [map concat List.length fst snd]; [lia|].
  rewrite app_length. pose proof (pb_bytes_length f b). lia.
Qed.

Lemma pb_parse_fields (fs : list (Z * bytes)) : (forall f, In f fs -> 0 <= fst f) ->
  pb_parse (concat (map (fun f => pb_bytes (fst f) (snd f)) fs)) =
  Some (map (fun f => (fst f, WBytes (snd f))) fs).
Proof. intros H. apply parse_fields_concat; [apply concat_pb_length|exact H]. Qed.

Lemma dec_repeated_map {A} (dec : bytes -> option A) (enc : A -> bytes) l :
  (forall a, In a l -> dec (enc a) = Some a) ->
  dec_repeated dec (map (fun f => (fst f, WBytes (snd f))) (map (fun a => (1, enc a)) l)) = Some l.
Proof.
  induction l as [|a l IH]; intros H; cbn [map dec_repeated fst snd]; [reflexivity|].
  rewrite H by now left. rewrite IH; [reflexivity|]. intros b Hb. apply H. now right.
Qed.

Lemma repeated_round_trip {A} (dec : bytes -> option A) (enc : A -> bytes) l :
  (forall a, In a l -> dec (enc a) = Some a) ->
  (olet fs := pb_parse (concat (map (fun a => pb_bytes 1 (enc a)) l)) in dec_repeated dec fs) = Some l.
Proof.
  intros H. replace (map (fun a => pb_bytes 1 (enc a)) l) with
    (map (fun f : Z * bytes => pb_bytes (fst f) (snd f)) (map (fun a => (1, enc a)) l))
    by (rewrite map_map; reflexivity).
  rewrite pb_parse_fields.
  - now apply dec_repeated_map.
  - intros f Hf. apply in_map_iff in Hf. destruct Hf as (a & <- & _). cbn. lia.
Qed.

Lemma dec_all_map {A B} (dec : B -> option A) (enc : A -> B) l :
  (forall a, In a l -> dec (enc a) = Some a) -> dec_all dec (map enc l) = Some l.
Proof.
  induction l as [|a l IH]; intros H; cbn [map dec_all]; [reflexivity|].
  rewrite H by now left. rewrite IH; [reflexivity|]. intros b Hb. apply H. now right.
Qed.
