(** The binary shuffle of /repo/util/shuffle/biffle.go. *)
From Coq Require Import ZArith Znumtheory Lia List Bool Permutation.
From Coq Require String.
From Verif Require Import ZMod Bytes Suite Codec.
Import ListNotations.
Import String.StringSyntax.
Open Scope Z_scope.
Delimit Scope string_scope with str.

(** dedis/crypto/proof predicates (external): Rep(P, x, B) states P = B^x (only this
    arity is used), And, Or.  The argument itself is external: an accepted proof shows
    that some assignment of secrets satisfies the predicate. *)
Inductive pred :=
| Rep (P x B : string)
| And (l : list pred)
| Or (l : list pred).

Fixpoint holds (S : suite) (pts : string -> option Z) (secs : string -> Z) (f : pred) : Prop :=
  match f with
  | Rep P x B => exists p b, pts P = Some p /\ pts B = Some b /\ p = pt_mul S b (secs x)
  | And l => (fix all l := match l with [] => True | f :: r => holds S pts secs f /\ all r end) l
  | Or l => (fix any l := match l with [] => False | f :: r => holds S pts secs f \/ any r end) l
  end.

(** biffle.go:9-29 bifflePred *)
Definition rep000 := Rep "Xbar0-X0"%str "beta0"%str "G"%str.
Definition rep001 := Rep "Ybar0-Y0"%str "beta0"%str "H"%str.
Definition rep010 := Rep "Xbar1-X1"%str "beta1"%str "G"%str.
Definition rep011 := Rep "Ybar1-Y1"%str "beta1"%str "H"%str.
Definition rep100 := Rep "Xbar0-X1"%str "beta1"%str "G"%str.
Definition rep101 := Rep "Ybar0-Y1"%str "beta1"%str "H"%str.
Definition rep110 := Rep "Xbar1-X0"%str "beta0"%str "G"%str.
Definition rep111 := Rep "Ybar1-Y0"%str "beta0"%str "H"%str.
Definition branch (bit : bool) : pred :=
  if bit then And [rep100; rep101; rep110; rep111] else And [rep000; rep001; rep010; rep011].
Definition biffle_pred : pred := Or [branch false; branch true].

(** biffle.go:31-46 bifflePoints; None = panic in Sub. *)
Definition biffle_points (S : suite) (G H : Z) (X Y Xbar Ybar : Z * Z) : option (list (string * Z)) :=
  olet a := pt_sub S (fst Xbar) (fst X) in
  olet b := pt_sub S (fst Ybar) (fst Y) in
  olet c := pt_sub S (snd Xbar) (snd X) in
  olet d := pt_sub S (snd Ybar) (snd Y) in
  olet e := pt_sub S (fst Xbar) (snd X) in
  olet f := pt_sub S (fst Ybar) (snd Y) in
  olet g := pt_sub S (snd Xbar) (fst X) in
  olet h := pt_sub S (snd Ybar) (fst Y) in
  Some [("G"%str, G); ("H"%str, H);
        ("Xbar0-X0"%str, a); ("Ybar0-Y0"%str, b); ("Xbar1-X1"%str, c); ("Ybar1-Y1"%str, d);
        ("Xbar0-X1"%str, e); ("Ybar0-Y1"%str, f); ("Xbar1-X0"%str, g); ("Ybar1-Y0"%str, h)].
Fixpoint slookup (m : list (string * Z)) (k : string) : option Z :=
  match m with [] => None | (k', v) :: r => if String.eqb k k' then Some v else slookup r k end.

(** biffle.go:60-77: i ^ bit and the outputs. *)
Definition sel {A} (bit : bool) (i : bool) (x : A * A) : A := if xorb i bit then snd x else fst x.
Definition biffle (S : suite) (G H : Z) (X Y : Z * Z) (bit : bool) (beta : Z * Z) : (Z * Z) * (Z * Z) :=
  let out B Z0 i := pt_add S (pt_mul S B (sel bit i beta)) (sel bit i Z0) in
  ((out G X false, out G X true), (out H Y false, out H Y true)).
(** biffle.go:80-82: the secrets given to the prover. *)
Definition biffle_secrets (beta : Z * Z) (x : string) : Z :=
  if String.eqb x "beta0"%str then fst beta else if String.eqb x "beta1"%str then snd beta else 0.

Section BiffleLemmas.
Context (S : suite) (OK : suite_ok S).

Lemma sub_eq B x a b r : in_group S B -> in_group S a -> in_group S b -> pt_sub S a b = Some r ->
  (r = pt_mul S B x <-> a = mulm (sP S) (zexp (sP S) B x) b).
Proof.
  intros HB Ha Hb E. rewrite pt_sub_group in E by assumption. injection E as <-. split.
  - intros E. transitivity (mulm (sP S) (pt_add S a (zexp (sP S) b (-1))) b); [grpS S|].
    unfold pt_add. rewrite E. reflexivity.
  - intros ->. grpS S.
Qed.

Definition pair_ok (x : Z * Z) : Prop := in_group S (fst x) /\ in_group S (snd x).

Lemma biffle_points_some G H X Y Xbar Ybar : pair_ok X -> pair_ok Y ->
  exists pts, biffle_points S G H X Y Xbar Ybar = Some pts.
Proof.
  intros [] []. unfold biffle_points. rewrite !pt_sub_group by assumption. eexists. reflexivity.
Qed.

(** The predicate in plain equations. *)
Lemma branch_holds G H X Y Xbar Ybar pts secs bit :
  in_group S G -> in_group S H -> pair_ok X -> pair_ok Y -> pair_ok Xbar -> pair_ok Ybar ->
  biffle_points S G H X Y Xbar Ybar = Some pts ->
  (holds S (slookup pts) secs (branch bit) <->
   forall i : bool,
     let b := secs (sel bit i ("beta0"%str, "beta1"%str)) in
     sel false i Xbar = mulm (sP S) (zexp (sP S) G b) (sel bit i X) /\
     sel false i Ybar = mulm (sP S) (zexp (sP S) H b) (sel bit i Y)).
Proof.
  intros HG HH [X0 X1] [Y0 Y1] [XB0 XB1] [YB0 YB1] E. unfold biffle_points in E.
  repeat match type of E with (olet x := ?a in _) = _ => let e := fresh "E" in destruct a eqn:e; [|discriminate E] end.
  injection E as <-.
  assert (R : forall x p b, (exists p0 b0, Some p = Some p0 /\ Some b = Some b0 /\ p0 = pt_mul S b0 (secs x)) <->
     p = pt_mul S b (secs x)).
  { intros x p b. split; [intros (? & ? & [= <-] & [= <-] & ->); reflexivity|intros ->; repeat eexists]. }
  destruct bit; cbn [branch holds slookup rep000 rep001 rep010 rep011 rep100 rep101 rep110 rep111];
    cbn [String.eqb Ascii.eqb Bool.eqb]; rewrite !R.
  - rewrite (sub_eq G (secs "beta1"%str) _ _ _ HG XB0 X1) by eassumption.
    rewrite (sub_eq H (secs "beta1"%str) _ _ _ HH YB0 Y1) by eassumption.
    rewrite (sub_eq G (secs "beta0"%str) _ _ _ HG XB1 X0) by eassumption.
    rewrite (sub_eq H (secs "beta0"%str) _ _ _ HH YB1 Y0) by eassumption.
    split; [intros (? & ? & ? & ? & _) []; cbn; auto|].
    intros Hall. pose proof (Hall false) as [? ?]. pose proof (Hall true) as [? ?]. cbn in *. auto.
  - rewrite (sub_eq G (secs "beta0"%str) _ _ _ HG XB0 X0) by eassumption.
    rewrite (sub_eq H (secs "beta0"%str) _ _ _ HH YB0 Y0) by eassumption.
    rewrite (sub_eq G (secs "beta1"%str) _ _ _ HG XB1 X1) by eassumption.
    rewrite (sub_eq H (secs "beta1"%str) _ _ _ HH YB1 Y1) by eassumption.
    split; [intros (? & ? & ? & ? & _) []; cbn; auto|].
    intros Hall. pose proof (Hall false) as [? ?]. pose proof (Hall true) as [? ?]. cbn in *. auto.
Qed.

End BiffleLemmas.
