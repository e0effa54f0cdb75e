(** The safe primes the coordinator gets from openssl: /repo/primitive/fujiokam/FujiOkamCommitment.go:130-163 *)
From Coq Require Import ZArith List Bool.
From Coq Require Import Strings.Byte.
From Verif Require Import ZMod Bytes Suite FujiOkam Maps Console.
Import ListNotations.
Open Scope Z_scope.

(** SetString of math/big.Int with base 10 (external): an optional sign, then digits up to the
    end of the string, at least one; None = not ok. *)
Fixpoint digits_val (acc : Z) (l : bytes) : option Z :=
  match l with
  | [] => Some acc
  | b :: r => match digit b with Some d => digits_val (acc * 10 + d) r | None => None end
  end.
Definition unsigned_val (l : bytes) : option Z := match l with [] => None | _ => digits_val 0 l end.
Definition set_string10 (l : bytes) : option Z :=
  match l with
  | [] => None
  | b :: r => if Byte.eqb b x2b%byte then unsigned_val r
              else if Byte.eqb b x2d%byte then option_map Z.opp (unsigned_val r)
              else unsigned_val l
  end.

(** FujiOkamCommitment.go:130-141 genSafePrime512; [out] is what the command printed, None if
    it failed.  The last byte is cut off whatever it is; None = panic, also of the slice
    expression when nothing was printed. *)
Definition gen_safe_prime (out : option bytes) : option Z :=
  match out with
  | None => None
  | Some [] => None
  | Some st => set_string10 (removelast st)
  end.

(** FujiOkamCommitment.go:143-163 CreateBaseFromSuite, with the output of the two commands. *)
Definition create_base_openssl (out1 out2 : option bytes) (draws : list Z) (u1 u2 u3 u4 u5 u6 : Z)
  : option (fobase * fotrap) :=
  match gen_safe_prime out1 with
  | None => None
  | Some dpa1 =>
      match gen_safe_prime out2 with
      | None => None
      | Some dqa1 => fo_create_base dpa1 dqa1 draws u1 u2 u3 u4 u5 u6
      end
  end.
