(** Properties C84-C86: modular exponentiation, greatest common divisor and modular inverse of the big-number library, at the level of
    its limbs. *)
From Coq Require Import Znumtheory.
From Verif Require Import Base BaseFacts MpiModel LimbModel LimbModel2 LimbSpec LimbSpec2 LimbProperties LimbProofs14.

Ltac small_mpi := split; [(now left) || (now right) | repeat (apply Forall_cons || apply Forall_nil); split; reflexivity || discriminate].

(** * C84 *)
(** The power is exact for every odd modulus and every exponent, with or without a kept constant, in place or not.  Missing: a base
    marked negative (minus zero included) and an odd exponent when the power is a multiple of N; a base that was never assigned. *)
Theorem C84_exp_mod_partial : forall xa X A E N rr, mpi_ok X -> mpi_ok A -> mpi_ok E -> mpi_ok N -> cache_ok N rr -> alias xa X A ->
  xa = true \/ mp A <> [] -> 0 < mval N -> Z.odd (mval N) = true -> 0 <= mval E -> mlen N <= 4990 -> mlen A <= 9990 -> mlen X <= 9990 ->
  ~ (ms A = -1 /\ Z.odd (mval E) = true /\ (mval N | mval A ^ mval E)) ->
  exists R rr', l_exp_mod xa X A E N rr = ret (R, rr') /\ mpi_ok R /\ mval R = mval A ^ mval E mod mval N /\
    cache_ok N rr' /\ (rr = None <-> rr' = None).
Proof. exact exp_mod_f. Qed.
Print Assumptions C84_exp_mod_partial.
Theorem C84_bad_input : forall xa X A E N rr, mpi_ok E -> mpi_ok N -> mp N <> [] -> mval N <= 0 \/ Z.odd (mval N) = false \/ mval E < 0 ->
  l_exp_mod xa X A E N rr = err ERR_MPI_BAD_INPUT_DATA.
Proof. exact exp_mod_bad_f. Qed.
Print Assumptions C84_bad_input.
(** In that case the answer is N itself, which is not reduced *)
Theorem C84_negative_multiple : forall xa X A E N rr, mpi_ok X -> mpi_ok A -> mpi_ok E -> mpi_ok N -> cache_ok N rr -> alias xa X A ->
  xa = true \/ mp A <> [] -> 0 < mval N -> Z.odd (mval N) = true -> 0 <= mval E -> mlen N <= 4990 -> mlen A <= 9990 -> mlen X <= 9990 ->
  ms A = -1 -> Z.odd (mval E) = true -> (mval N | mval A ^ mval E) ->
  exists R rr', l_exp_mod xa X A E N rr = ret (R, rr') /\ mpi_ok R /\ mval R = mval N.
Proof. exact exp_mod_neg_f. Qed.
Print Assumptions C84_negative_multiple.
Theorem C84_reduced_refuted : exists X A E N R, mpi_ok X /\ mpi_ok A /\ mpi_ok E /\ mpi_ok N /\ mval A = -7 /\ mval E = 1 /\ mval N = 7 /\
  l_exp_mod false X A E N None = ret (R, None) /\ mval R = 7 /\ mval A ^ mval E mod mval N = 0.
Proof.
  exists l_init, (MkMpi (-1) [7]), (MkMpi 1 [1]), (MkMpi 1 [7]), (MkMpi 1 [7; 0]). split; [small_mpi|]. split; [small_mpi|]. split; [small_mpi|].
  split; [small_mpi|]. repeat split; vm_compute; reflexivity.
Qed.
Print Assumptions C84_reduced_refuted.
(** The limb a[0] of an object without limbs is read *)
Theorem C84_unassigned_refuted : exists X A E N, mpi_ok X /\ mpi_ok A /\ mpi_ok E /\ mpi_ok N /\ mval A = 0 /\ mval E = 3 /\ mval N = 7 /\
  l_exp_mod false X A E N None = UB /\ l_exp_mod false X E E A None = UB.
Proof.
  exists l_init, l_init, (MkMpi 1 [3]), (MkMpi 1 [7]). split; [small_mpi|]. split; [small_mpi|]. split; [small_mpi|]. split; [small_mpi|].
  repeat split; vm_compute; reflexivity.
Qed.
Print Assumptions C84_unassigned_refuted.
(** A negative base of two limbs in place, a modulus of two limbs, an exponent of 67 bits (windows of three bits); the constant that is
    kept; the next call with it *)
Example C84_example :
  let N := MkMpi 1 [13; 1] in let E := MkMpi 1 [1025; 5] in let K := MkMpi 1 [28561; 0; 0; 0; 0] in
  mpi_ok neg /\ mpi_ok N /\ mpi_ok E /\ mval N = 2 ^ 64 + 13 /\ cache_ok N (Some l_init) /\
  (exists r, l_exp_mod true neg neg E N (Some l_init) = ret (MkMpi 1 [r; 0; 0], Some K) /\
             l_exp_mod false l_init neg E N (Some K) = ret (MkMpi 1 [r; 0; 0], Some K) /\ r = 7016291138082198049).
Proof.
  split; [exact neg_ok|]. split; [small_mpi|]. split; [small_mpi|]. split; [reflexivity|]. split; [split; [small_mpi|]; split; [discriminate | now left]|].
  exists 7016291138082198049. split; [vm_compute; reflexivity|]. split; [vm_compute; reflexivity | reflexivity].
Qed.

(** * C85 *)
(** The greatest common divisor, if the second number is not zero; otherwise the answer is 0 and not the first number *)
Theorem C85_gcd_partial : forall G A B, mpi_ok G -> mpi_ok A -> mpi_ok B -> mlen A <= 10000 -> mlen B <= 10000 -> mval B <> 0 ->
  exists R, l_gcd G A B = ret R /\ mpi_ok R /\ mval R = Z.gcd (mval A) (mval B).
Proof. exact gcd_f. Qed.
Print Assumptions C85_gcd_partial.
Theorem C85_second_zero : forall G A B, mpi_ok G -> mpi_ok A -> mpi_ok B -> mlen A <= 10000 -> mlen B <= 10000 -> mval B = 0 ->
  exists R, l_gcd G A B = ret R /\ mpi_ok R /\ mval R = 0.
Proof. exact gcd_zero_f. Qed.
Print Assumptions C85_second_zero.
Theorem C85_gcd_refuted : exists G A B R, mpi_ok G /\ mpi_ok A /\ mpi_ok B /\ l_gcd G A B = ret R /\ mval R = 0 /\ Z.gcd (mval A) (mval B) = 12.
Proof.
  exists l_init, (MkMpi 1 [12]), (MkMpi 1 [0]), (MkMpi 1 [0]). split; [small_mpi|]. split; [small_mpi|]. split; [small_mpi|].
  repeat split; vm_compute; reflexivity.
Qed.
Print Assumptions C85_gcd_refuted.
(** Two limbs, a negative number, a common power of two beyond a limb *)
Example C85_example : mpi_ok (MkMpi (-1) [0; 12]) /\ mpi_ok (MkMpi 1 [0; 18; 0]) /\
  l_gcd l_init (MkMpi (-1) [0; 12]) (MkMpi 1 [0; 18; 0]) = ret (MkMpi 1 [0; 6]) /\ l_gcd big (MkMpi 1 [0]) neg = ret (MkMpi 1 [5; 1; 0]).
Proof. split; [small_mpi|]. split; [small_mpi|]. split; vm_compute; reflexivity. Qed.

(** * C86 *)
(** The inverse in [0, N) if there is one; which error otherwise *)
Theorem C86_inv_mod : forall X A N, mpi_ok X -> mpi_ok A -> mpi_ok N -> mlen A <= 9990 -> mlen N <= 9990 ->
  if mval N <=? 1 then l_inv_mod X A N = err ERR_MPI_BAD_INPUT_DATA
  else if Z.gcd (mval A) (mval N) =? 1 then exists R, l_inv_mod X A N = ret R /\ mpi_ok R /\ 0 <= mval R < mval N /\ (mval R * mval A) mod mval N = 1
  else l_inv_mod X A N = err ERR_MPI_NOT_ACCEPTABLE.
Proof. exact inv_mod_f. Qed.
Print Assumptions C86_inv_mod.
(** A negative number and an even modulus of two limbs; no inverse; modulus 1 *)
Example C86_example : mpi_ok neg /\ mpi_ok (MkMpi 1 [4; 3]) /\
  l_inv_mod l_init neg (MkMpi 1 [4; 3]) = ret (MkMpi 1 [13415813871788764815; 2]) /\
  l_inv_mod l_init (MkMpi 1 [6]) (MkMpi 1 [4; 3]) = err ERR_MPI_NOT_ACCEPTABLE /\
  l_inv_mod l_init neg (MkMpi 1 [1]) = err ERR_MPI_BAD_INPUT_DATA.
Proof. split; [exact neg_ok|]. split; [small_mpi|]. repeat split; vm_compute; reflexivity. Qed.
