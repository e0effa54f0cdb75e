(** Fujisaki-Okamoto commitments over Z_N and the non-negativity argument:
    /repo/primitive/fujiokam/FujiOkamCommitment.go and point.go *)
From Coq Require Import ZArith Znumtheory Lia List Bool.
From Verif Require Import ZMod Bytes Suite.
Import ListNotations.
Open Scope Z_scope.

(** ** Points of Z_N: point.go.  A Point is its value V; M is always N. *)
(** point.go:87-91 Mul *)
Definition fo_mul (N a b : Z) : Z := mulm N a b.
(** point.go:93-96 Exp into a Point currently holding [prev]: big.Int.Exp leaves
    the receiver unchanged when the exponent is negative and the base is not
    invertible.  (Go 1.16 has a sign bug for a negative base with a negative
    exponent; negative bases do not occur.) *)
Definition exp_into (prev N a e : Z) : Z :=
  match bigexp a e N with Some v => v | None => prev end.
(** Exp into a fresh Point (value 0). *)
Definition fo_exp (N a e : Z) : Z := exp_into 0 N a e.

(** ** The base: FujiOkamCommitment.go:12-32.  RandomRadius and RandomDiameter
    only bound the range of the random values; they are functions of N below. *)
Record fobase := FoBase {
  fN : Z; fH1 : Z;
  fG1 : Z; fG2 : Z; fG3 : Z; fG4 : Z; fG5 : Z; fG6 : Z
}.
(** The fields only the coordinator fills (alpha1..alpha6, P, Q). *)
Record fotrap := FoTrap {
  fA1 : Z; fA2 : Z; fA3 : Z; fA4 : Z; fA5 : Z; fA6 : Z;
  fP : Z; fQ : Z
}.

(** FujiOkamCommitment.go:115-121 *)
Definition fo_radius (N : Z) : Z := 2 ^ 80 * N.
Definition fo_diameter (N : Z) : Z := fo_radius N * 2.
(** FujiOkamCommitment.go:42-71 genRandomSecret; [u] = random.Int(diameter) is in
    [0, diameter). *)
Definition gen_random_secret (N u : Z) : Z := u - fo_radius N.

(** FujiOkamCommitment.go:81-108 genH: draws until a value passes; [draws] is the
    stream of random.Int(N) results.  None = the finite prefix was exhausted (the
    code keeps drawing). *)
Fixpoint gen_h (p q N : Z) (draws : list Z) : option Z :=
  match draws with
  | [] => None
  | h1 :: rest =>
      if h1 =? 1 then gen_h p q N rest
      else if h1 mod (p + p + 1) =? 0 then gen_h p q N rest
      else if h1 mod (q + q + 1) =? 0 then gen_h p q N rest
      else Some (fo_mul N h1 h1)
  end.

(** FujiOkamCommitment.go:74-78 genGn; [u] is the drawn random integer. *)
Definition gen_gn (N h1 u : Z) : Z * Z :=
  let alpha := gen_random_secret N u in (fo_exp N h1 alpha, alpha).

(** FujiOkamCommitment.go:143-163 CreateBaseFromSuite; [dpa1], [dqa1] are the safe
    primes delivered by openssl, [draws] genH's random values, [us] those of the
    six genGn. *)
Definition fo_create_base (dpa1 dqa1 : Z) (draws : list Z) (u1 u2 u3 u4 u5 u6 : Z)
  : option (fobase * fotrap) :=
  let p := dpa1 / 2 in
  let q := dqa1 / 2 in
  let n := dpa1 * dqa1 in
  match gen_h p q n draws with
  | None => None
  | Some h =>
      let '(g1, a1) := gen_gn n h u1 in
      let '(g2, a2) := gen_gn n h u2 in
      let '(g3, a3) := gen_gn n h u3 in
      let '(g4, a4) := gen_gn n h u4 in
      let '(g5, a5) := gen_gn n h u5 in
      let '(g6, a6) := gen_gn n h u6 in
      Some (FoBase n h g1 g2 g3 g4 g5 g6, FoTrap a1 a2 a3 a4 a5 a6 p q)
  end.

(** FujiOkamCommitment.go:361-366 CommitWithR *)
Definition fo_commit_r (b : fobase) (x r : Z) : Z :=
  let c := fo_exp (fN b) (fG1 b) x in
  let tp := fo_exp (fN b) (fH1 b) r in
  fo_mul (fN b) c tp.
(** FujiOkamCommitment.go:355-359 Commit; [u] is the drawn random integer. *)
Definition fo_commit (b : fobase) (x u : Z) : Z * Z :=
  let r := gen_random_secret (fN b) u in (fo_commit_r b x r, r).

(** ** Three squares: FujiOkamCommitment.go:323-349 *)
(** int64 arithmetic wraps around. *)
Definition int64 (z : Z) : Z := (z + 2 ^ 63) mod 2 ^ 64 - 2 ^ 63.

(** float64(goal) for an int64 [goal] >= 0: rounded to 53 bits, ties to even. *)
Definition round53 (n : Z) : Z :=
  if n <=? 0 then n else
  let k := Z.log2 n - 52 in
  if k <=? 0 then n
  else let u := 2 ^ k in
       let lo := n / u in
       let r := n mod u in
       if 2 * r <? u then lo * u
       else if u <? 2 * r then (lo + 1) * u
       else if Z.even lo then lo * u else (lo + 1) * u.
(** int64(math.Sqrt(f)) for an integral float64 [f] >= 1: the square root
    correctly rounded to 53 bits (j fractional bits; a tie is impossible), then
    truncated. *)
Definition trunc_sqrt (f : Z) : Z :=
  if f <=? 0 then 0 else
  let j := 52 - Z.log2 (Z.sqrt f) in
  let m := f * 4 ^ j in
  let s := Z.sqrt m in
  let t := if s * s + s <? m then s + 1 else s in
  t / 2 ^ j.
(** FujiOkamCommitment.go:325 (for negative goals math.Sqrt is NaN, whose
    conversion is the minimal int64 on amd64: no iteration). *)
Definition sq_bound (goal : Z) : Z :=
  if goal <? 0 then - 2 ^ 63 else trunc_sqrt (round53 goal).

(** for v = lo; v < lo + n; v++ { body }, stopping at the first result. *)
Fixpoint first_from {A} (n : nat) (lo : Z) (body : Z -> option A) : option A :=
  match n with
  | O => None
  | S n' => match body lo with
            | Some r => Some r
            | None => first_from n' (lo + 1) body
            end
  end.

(** FujiOkamCommitment.go:323-344 decomposeThreeSquareHelper; None = panic(1). *)
Definition decompose_helper (x : Z) : option (Z * Z * Z) :=
  let goal := int64 (4 * x + 1) in
  let bound := sq_bound goal in
  first_from (Z.to_nat (bound + 1)) 0 (fun a =>
    let aa := int64 (a * a) in
    first_from (Z.to_nat (bound + 1)) 0 (fun b =>
      let bb := int64 (b * b) in
      if goal <? int64 (aa + bb) then None
      else first_from (Z.to_nat bound) 0 (fun d =>
        let dd := int64 (d * d) in
        if int64 (int64 (aa + bb) + dd) =? goal then Some (a, b, d) else None))).

(** FujiOkamCommitment.go:346-349 decomposeThreeSquare *)
Definition decompose (x : Z) : option (Z * Z * Z) := decompose_helper (int64 x).

(** ** Non-negativity argument *)
(** FujiOkamCommitment.go:372-382 ARGnonneg *)
Record arg_nonneg := ArgNonneg {
  nnCommitrx : Z; nnC : Z; nnCr : Z; nnR : Z;
  nnX : Z; nnA : Z; nnB : Z; nnD : Z; nnR_ : Z
}.

(** The hash is sha256 (FujiOkamCommitment.go:462), the suite's hash. *)
Definition nonneg_challenge (S : suite) (commitx C Cr : Z) : Z :=
  be_to_z (sHash S (z_bytes commitx ++ z_bytes C ++ z_bytes Cr)).

(** Random values of ProveNonnegHelper in drawing order. *)
Record nn_rand := NnRand { nrx : Z; nra : Z; nrb : Z; nrd : Z; nr : Z; nrr : Z; nrrx : Z }.

(** FujiOkamCommitment.go:384-489 ProveNonneg/ProveNonnegHelper, for a given
    decomposition (a, b, d) (lines 404-488).  The two Points C and Cr are
    accumulated exactly as in the code; tp is one re-used Point. *)
Definition prove_nonneg_with (S : suite) (fb : fobase) (x commitx rc a b d : Z) (rn : nn_rand)
  : arg_nonneg :=
  let N := fN fb in
  let '(NnRand rx ra rb rd r rr rrx) := rn in
  let delta := 4 * rx - 2 * a * ra - 2 * b * rb - 2 * d * rd in
  let C := exp_into 0 N (fG2 fb) x in
  let tp := exp_into 0 N (fG3 fb) a in
  let C := fo_mul N C tp in
  let tp := exp_into tp N (fG4 fb) b in
  let C := fo_mul N C tp in
  let tp := exp_into tp N (fG5 fb) d in
  let C := fo_mul N C tp in
  let tp := exp_into tp N (fG6 fb) delta in
  let C := fo_mul N C tp in
  let tp := exp_into tp N (fH1 fb) r in
  let C := fo_mul N C tp in
  let Cr := exp_into 0 N (fG2 fb) rx in
  let tp := exp_into tp N (fG3 fb) ra in
  let Cr := fo_mul N Cr tp in
  let tp := exp_into tp N (fG4 fb) rb in
  let Cr := fo_mul N Cr tp in
  let tp := exp_into tp N (fG5 fb) rd in
  let Cr := fo_mul N Cr tp in
  let tp := exp_into tp N (fG6 fb) (- (ra * ra)) in
  let Cr := fo_mul N Cr tp in
  let tp := exp_into tp N (fG6 fb) (- (rb * rb)) in
  let Cr := fo_mul N Cr tp in
  let tp := exp_into tp N (fG6 fb) (- (rd * rd)) in
  let Cr := fo_mul N Cr tp in
  let tp := exp_into tp N (fH1 fb) rr in
  let Cr := fo_mul N Cr tp in
  let commitrx := fo_commit_r fb rx rrx in
  let e := nonneg_challenge S commitx C Cr in
  ArgNonneg commitrx C Cr (e * rc + rrx)
    (x * e + rx) (a * e + ra) (b * e + rb) (d * e + rd) (r * e + rr).

(** FujiOkamCommitment.go:399-403: panic for negative x. *)
Definition prove_nonneg (S : suite) (fb : fobase) (x commitx rc : Z) (rn : nn_rand)
  : option arg_nonneg :=
  if x <? 0 then None
  else match decompose x with
       | None => None
       | Some (a, b, d) => Some (prove_nonneg_with S fb x commitx rc a b d rn)
       end.

(** FujiOkamCommitment.go:491-554 VerifyNonneg/VerifyNonnegHelper *)
Definition verify_nonneg (S : suite) (fb : fobase) (commitx : Z) (arg : arg_nonneg) : bool :=
  let N := fN fb in
  let '(ArgNonneg commitrx C Cr R x_ a_ b_ d_ r_) := arg in
  let e := nonneg_challenge S commitx C Cr in
  let delta_ := e * (4 * x_ + e) - a_ * a_ - b_ * b_ - d_ * d_ in
  let Lside := exp_into 0 N C e in
  let Lside := fo_mul N Lside Cr in
  let Rside := exp_into 0 N (fG2 fb) x_ in
  let tp := exp_into 0 N (fG3 fb) a_ in
  let Rside := fo_mul N Rside tp in
  let tp := exp_into tp N (fG4 fb) b_ in
  let Rside := fo_mul N Rside tp in
  let tp := exp_into tp N (fG5 fb) d_ in
  let Rside := fo_mul N Rside tp in
  let tp := exp_into tp N (fG6 fb) delta_ in
  let Rside := fo_mul N Rside tp in
  let tp := exp_into tp N (fH1 fb) r_ in
  let Rside := fo_mul N Rside tp in
  if negb (Lside =? Rside) then false
  else
    let Lside := exp_into Lside N commitx e in
    let Lside := fo_mul N Lside commitrx in
    let Rside := exp_into Rside N (fG1 fb) x_ in
    let tp := exp_into tp N (fH1 fb) R in
    let Rside := fo_mul N Rside tp in
    if negb (Lside =? Rside) then false else true.

(** ** Generator honesty proofs: FujiOkamCommitment.go:187-314 *)
Definition gn_size : nat := 80.  (* line 191 *)

(** FujiOkamCommitment.go:166-185 sampleZpq: rejection sampling from the draws. *)
Fixpoint sample_zpq (p q : Z) (draws : list Z) : option Z :=
  match draws with
  | [] => None
  | r :: rest =>
      if r =? 1 then sample_zpq p q rest
      else if r mod p =? 0 then sample_zpq p q rest
      else if r mod q =? 0 then sample_zpq p q rest
      else Some r
  end.

(** FujiOkamCommitment.go:193-203 GenerateGnHonestyProof: [gammas] are the sampled
    secrets; publics are H1^gamma.  None = length panic. *)
Definition gn_generate (b : fobase) (gammas : list Z) : option (list Z) :=
  if (length gammas =? gn_size)%nat
  then Some (map (fun g => fo_exp (fN b) (fH1 b) g) gammas) else None.

(** FujiOkamCommitment.go:214-228 AnswerGnHonesty *)
Definition gn_answer (bits : list bool) (secrets : list Z) (alpha : Z) : option (list Z) :=
  if (length bits =? gn_size)%nat && (length secrets =? gn_size)%nat
  then Some (map (fun bs : bool * Z => if fst bs then snd bs + alpha else snd bs)
                 (combine bits secrets))
  else None.

(** FujiOkamCommitment.go:234-249: one iteration of the check. *)
Definition gn_check1 (b : fobase) (gn : Z) (answer : Z) (bit : bool) (public : Z) : bool :=
  let Lside := fo_exp (fN b) (fH1 b) answer in
  let Rside := if bit then fo_mul (fN b) public gn else public in
  Lside =? Rside.

(** FujiOkamCommitment.go:230-251 CheckGnHonesty *)
Definition gn_check (b : fobase) (gn : Z) (answers : list Z) (bits : list bool) (publics : list Z)
  : option bool :=
  if (length answers =? gn_size)%nat && (length bits =? gn_size)%nat && (length publics =? gn_size)%nat
  then Some (forallb (fun abp : Z * (bool * Z) => gn_check1 b gn (fst abp) (fst (snd abp)) (snd (snd abp)))
                     (combine answers (combine bits publics)))
  else None.

(** Block i of a vector of 6*W entries, [i*W : (i+1)*W].  A Go slice expression
    beyond the capacity panics; a too short result fails the length check below,
    which panics as well. *)
Definition block {A} (i : nat) (l : list A) : list A := firstn gn_size (skipn (i * gn_size) l).

(** FujiOkamCommitment.go:253-265 GenerateAllGnHonestyProof: secrets and publics. *)
Definition gn_generate_all (b : fobase) (gammas : list Z) : list Z * list Z :=
  (gammas, map (fun g => fo_exp (fN b) (fH1 b) g) gammas).

Definition fo_alpha (t : fotrap) (i : nat) : Z :=
  nth i [fA1 t; fA2 t; fA3 t; fA4 t; fA5 t; fA6 t] 0.
Definition fo_gen (b : fobase) (i : nat) : Z :=
  nth i [fG1 b; fG2 b; fG3 b; fG4 b; fG5 b; fG6 b] 0.

(** FujiOkamCommitment.go:279-289 AnswerAllGnHonesty *)
Definition gn_answer_all (t : fotrap) (bits : list bool) (secrets : list Z) : option (list Z) :=
  match gn_answer (block 0 bits) (block 0 secrets) (fA1 t),
        gn_answer (block 1 bits) (block 1 secrets) (fA2 t),
        gn_answer (block 2 bits) (block 2 secrets) (fA3 t),
        gn_answer (block 3 bits) (block 3 secrets) (fA4 t),
        gn_answer (block 4 bits) (block 4 secrets) (fA5 t),
        gn_answer (block 5 bits) (block 5 secrets) (fA6 t) with
  | Some l1, Some l2, Some l3, Some l4, Some l5, Some l6 =>
      Some (l1 ++ l2 ++ l3 ++ l4 ++ l5 ++ l6)
  | _, _, _, _, _, _ => None
  end.

(** FujiOkamCommitment.go:291-314 CheckAllGnHonesty: 0 or the first failing block. *)
Definition gn_check_all (b : fobase) (answers : list Z) (bits : list bool) (publics : list Z)
  : option Z :=
  match gn_check b (fG1 b) (block 0 answers) (block 0 bits) (block 0 publics) with
  | None => None | Some false => Some 1 | Some true =>
  match gn_check b (fG2 b) (block 1 answers) (block 1 bits) (block 1 publics) with
  | None => None | Some false => Some 2 | Some true =>
  match gn_check b (fG3 b) (block 2 answers) (block 2 bits) (block 2 publics) with
  | None => None | Some false => Some 3 | Some true =>
  match gn_check b (fG4 b) (block 3 answers) (block 3 bits) (block 3 publics) with
  | None => None | Some false => Some 4 | Some true =>
  match gn_check b (fG5 b) (block 4 answers) (block 4 bits) (block 4 publics) with
  | None => None | Some false => Some 5 | Some true =>
  match gn_check b (fG6 b) (block 5 answers) (block 5 bits) (block 5 publics) with
  | None => None | Some false => Some 6 | Some true => Some 0
  end end end end end end.

(** ** Lemmas *)
(** A base all of whose generators are units modulo N > 1. *)
Record fobase_ok (b : fobase) : Prop := {
  fo_N : 1 < fN b;
  fo_H1 : unit (fH1 b) (fN b);
  fo_G1 : unit (fG1 b) (fN b); fo_G2 : unit (fG2 b) (fN b); fo_G3 : unit (fG3 b) (fN b);
  fo_G4 : unit (fG4 b) (fN b); fo_G5 : unit (fG5 b) (fN b); fo_G6 : unit (fG6 b) (fN b)
}.

Lemma exp_into_unit prev N a e : 1 < N -> unit a N -> exp_into prev N a e = zexp N a e.
Proof. intros HN U. unfold exp_into. now rewrite bigexp_unit. Qed.

Lemma exp_into_nonneg prev N a e : 0 <= e -> exp_into prev N a e = zexp N a e.
Proof. intros. unfold exp_into. now rewrite bigexp_nonneg. Qed.

Lemma fo_exp_zexp N a e : fo_exp N a e = zexp N a e.
Proof. reflexivity. Qed.

Lemma fo_commit_zexp b x r : fo_commit_r b x r = mulm (fN b) (zexp (fN b) (fG1 b) x) (zexp (fN b) (fH1 b) r).
Proof. reflexivity. Qed.

Lemma fo_commit_unit b x r : fobase_ok b -> unit (fo_commit_r b x r) (fN b).
Proof.
  intros []. rewrite fo_commit_zexp. apply unit_mulm; [lia|now apply unit_zexp..].
Qed.

Lemma nonneg_challenge_nonneg S a b c : 0 <= nonneg_challenge S a b c.
Proof. apply be_to_z_range. Qed.

Ltac exp_units fb :=
  rewrite ?(exp_into_unit _ _ (fG1 fb)), ?(exp_into_unit _ _ (fG2 fb)), ?(exp_into_unit _ _ (fG3 fb)),
    ?(exp_into_unit _ _ (fG4 fb)), ?(exp_into_unit _ _ (fG5 fb)), ?(exp_into_unit _ _ (fG6 fb)),
    ?(exp_into_unit _ _ (fH1 fb)) by assumption.

(** Simplify a verification with a good base. *)
Lemma verify_nonneg_eqs S fb commitx commitrx C Cr R x_ a_ b_ d_ r_ : fobase_ok fb ->
  let e := nonneg_challenge S commitx C Cr in
  let N := fN fb in
  verify_nonneg S fb commitx (ArgNonneg commitrx C Cr R x_ a_ b_ d_ r_) = true <->
  mulm N (zexp N C e) Cr =
    mulm N (mulm N (mulm N (mulm N (mulm N (zexp N (fG2 fb) x_) (zexp N (fG3 fb) a_))
       (zexp N (fG4 fb) b_)) (zexp N (fG5 fb) d_))
       (zexp N (fG6 fb) (e * (4 * x_ + e) - a_ * a_ - b_ * b_ - d_ * d_))) (zexp N (fH1 fb) r_)
  /\ mulm N (zexp N commitx e) commitrx = mulm N (zexp N (fG1 fb) x_) (zexp N (fH1 fb) R).
Proof.
  intros [HN U1 U2 U3 U4 U5 U6 U7] e N.
  assert (He : 0 <= e) by apply nonneg_challenge_nonneg.
  unfold verify_nonneg. fold e. fold N.
  exp_units fb. rewrite !(exp_into_nonneg _ _ _ e) by assumption.
  unfold fo_mul.
  match goal with |- (if negb (?a =? ?b) then _ else if negb (?c =? ?d) then _ else _) = _ <-> _ =>
    destruct (Z.eqb_spec a b), (Z.eqb_spec c d) end; cbn [negb]; intuition congruence.
Qed.

Lemma prove_nonneg_complete S fb x rc a b d rn : fobase_ok fb ->
  a * a + b * b + d * d = 4 * x + 1 ->
  verify_nonneg S fb (fo_commit_r fb x rc)
     (prove_nonneg_with S fb x (fo_commit_r fb x rc) rc a b d rn) = true.
Proof.
  intros B SQ. pose proof B as [HN U1 U2 U3 U4 U5 U6 U7].
  destruct rn as [rx ra rb rd r rr rrx]. unfold prove_nonneg_with.
  exp_units fb.
  apply verify_nonneg_eqs; [assumption|].
  match goal with |- context [nonneg_challenge S ?cx ?c ?cr] =>
    set (CC := c); set (CR := cr); set (e := nonneg_challenge S cx CC CR) end.
  assert (He : 0 <= e) by apply nonneg_challenge_nonneg.
  clearbody e. subst CC CR. unfold fo_mul. split.
  - replace (4 * x) with (a * a + b * b + d * d - 1) by lia. 
    assert (X : e * (4 * (x * e + rx) + e) - (a * e + ra) * (a * e + ra) - (b * e + rb) * (b * e + rb) - (d * e + rd) * (d * e + rd)
       = e * (4 * rx - 2 * a * ra - 2 * b * rb - 2 * d * rd) - ra * ra - rb * rb - rd * rd).
    { replace (4 * (x * e + rx)) with ((4 * x) * e + 4 * rx) by ring.
      replace (4 * x) with (a * a + b * b + d * d - 1) by lia. ring. }
    rewrite X. grp (fN fb).
  - rewrite !fo_commit_zexp. grp (fN fb).
Qed.
