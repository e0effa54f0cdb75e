(** Specification vocabulary: plain integer arithmetic only.  Nothing here
    refers to the model's functions; property theorems relate the model to
    these definitions. *)
From Coq Require Import ZArith Znumtheory List Permutation.
Import ListNotations.
Open Scope Z_scope.

(** [c] is the Pedersen commitment to [x] with randomness [r]. *)
Definition commits_to (p gt ht x r c : Z) : Prop := c = (gt ^ x * ht ^ r) mod p.

(** [x] is an element of the subgroup of Z_p^* of exponent q. *)
Definition member (p q x : Z) : Prop := 0 < x < p /\ (x ^ q) mod p = 1.

(** Every element of the subgroup is a power of [h]. *)
Definition generates (p q h : Z) : Prop :=
  forall y, member p q y -> exists k, 0 <= k /\ y = (h ^ k) mod p.

(** [c] commits to the integer [x] with randomness [r] modulo [n], for exponents
    of either sign: whichever factors have negative exponents are moved to the
    other side. *)
Definition zpos (z : Z) : Z := Z.max z 0.
Definition zneg (z : Z) : Z := Z.max (- z) 0.
Definition commits_int (n g h x r c : Z) : Prop :=
  0 <= c < n /\
  (c * (g ^ zneg x * h ^ zneg r)) mod n = (g ^ zpos x * h ^ zpos r) mod n.

(** [y] is [b] raised to the integer [e] (of either sign) modulo [n]. *)
Definition is_power (n b e y : Z) : Prop :=
  0 <= y < n /\ (y * b ^ zneg e) mod n = (b ^ zpos e) mod n.

(** The verification equation of a sigma protocol for u = g^x h^y modulo n:
    T * u^c = g^s * h^t, with integer exponents of either sign. *)
Definition sigma_eq (n g h u T c s t : Z) : Prop :=
  exists A B D, is_power n g s A /\ is_power n h t B /\ is_power n u c D /\
    (T * D) mod n = (A * B) mod n.

(** The pairs (Xb_i, Yb_i) are the pairs (X_i, Y_i) in some order, each multiplied by
    a pair (g^b, h^b): ElGamal re-encryptions under (g, h). *)
Definition reencrypts (p g h : Z) (X Y Xb Yb : list Z) : Prop :=
  exists (pi : list nat) (b : nat -> Z),
    Permutation pi (seq 0 (length X)) /\
    length Y = length X /\ length Xb = length X /\ length Yb = length X /\
    forall i, (i < length X)%nat -> 0 <= b i /\
      nth i Xb 0 = (g ^ b i * nth (nth i pi 0%nat) X 0) mod p /\
      nth i Yb 0 = (h ^ b i * nth (nth i pi 0%nat) Y 0) mod p.

(** The pair (X, Y) decrypts to m with the private key x: Y = m * X^x. *)
Definition decrypts (p x X Y m : Z) : Prop := Y = (m * X ^ x) mod p.
