(** Property C77, continued: growing and shrinking keep the number. *)
From Verif Require Import Base MpiModel LimbModel LimbSpec LimbResize.

Theorem C77_grow : forall X n, mpi_ok X -> Z.of_nat n <= 10000 ->
  exists R, l_grow X n = ret R /\ mpi_ok R /\ mval R = mval X /\ mlen R = Z.max (mlen X) (Z.of_nat n).
Proof. exact grow_f. Qed.
Print Assumptions C77_grow.
Theorem C77_grow_too_long : forall X n, 10000 < Z.of_nat n -> l_grow X n = err ERR_MPI_ALLOC_FAILED.
Proof. exact grow_too_long. Qed.
Print Assumptions C77_grow_too_long.
(** Shrinking leaves no more limbs than asked for, unless the number needs them. *)
Theorem C77_shrink : forall X n, mpi_ok X -> Z.of_nat n <= 10000 ->
  exists R, l_shrink X n = ret R /\ mpi_ok R /\ mval R = mval X /\ Z.of_nat n <= mlen R <= Z.max (mlen X) (Z.of_nat n) /\
    (Z.of_nat n < mlen R -> mlen R = 1 \/ LB ^ (mlen R - 1) <= Z.abs (mval X)).
Proof. exact shrink_f. Qed.
Print Assumptions C77_shrink.
Example C77_shrink_example : l_shrink (MkMpi (-1) [5; 0; 7; 0; 0; 0]) 2 = ret (MkMpi (-1) [5; 0; 7]) /\
  l_shrink (MkMpi 1 [0; 0; 0]) 0 = ret (MkMpi 1 [0]) /\ l_grow (MkMpi 1 [4]) 3 = ret (MkMpi 1 [4; 0; 0]).
Proof. repeat split. Qed.
