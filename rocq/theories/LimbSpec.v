(** What the objects of the big-number library stand for *)
From Verif Require Import Base MpiModel LimbModel.

(** The base of the limbs *)
Definition LB : Z := 2 ^ 64.
Definition is_limb (x : Z) : Prop := 0 <= x < LB.
(** The number written in base 2^64, least significant digit first *)
Fixpoint lval (l : list Z) : Z := match l with [] => 0 | x :: l => x + LB * lval l end.
(** The integer an object stands for: sign and magnitude; two representations of zero, any number of leading zeros *)
Definition mval (X : mpi) : Z := ms X * lval (mp X).
Definition mpi_ok (X : mpi) : Prop := (ms X = 1 \/ ms X = -1) /\ Forall is_limb (mp X).
(** The number of limbs it occupies *)
Definition mlen (X : mpi) : Z := zlen (mp X).
(** [a] and [b] are values a caller may pass for the same pointer only if they are equal *)
Definition alias (same : bool) (X A : mpi) : Prop := same = true -> X = A.
(** An output argument that may be null receives the number [v] if it is there *)
Definition receives (P P' : option mpi) (v : Z) : Prop :=
  match P, P' with Some _, Some p' => mpi_ok p' /\ mval p' = v | None, None => True | _, _ => False end.
Definition opt_mpi_ok (P : option mpi) : Prop := match P with Some p => mpi_ok p | None => True end.
(** What a three-way comparison of integers answers *)
Definition three_way (x y : Z) : Z := if x <? y then -1 else if y <? x then 1 else 0.
(** The number of bits of a natural number: the least k with v < 2^k *)
Definition bits_of (v k : Z) : Prop := 0 <= k /\ v < 2 ^ k /\ forall j, 0 <= j < k -> 2 ^ j <= v.
(** Every object with at most 10000 limbs stands for a number whose absolute value is below this *)
Definition mpi_bound : Z := LB ^ 10000.
