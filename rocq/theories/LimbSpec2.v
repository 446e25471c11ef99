(** Specifications for exponentiation, greatest common divisor, inverse and primes *)
From Coq Require Import Znumtheory.
From Verif Require Import Base MpiModel LimbModel LimbSpec.

(** The object a caller may pass to exp_mod to keep R^2 mod N between calls: unused so far, or left by a call with the same N *)
Definition cache_ok (N : mpi) (rr : option mpi) : Prop :=
  match rr with
  | Some P => mpi_ok P /\ mlen P <= 10000 /\ (mp P = [] \/ mval P = LB ^ (2 * mlen N) mod mval N)
  | None => True
  end.
