(** Properties C87-C89: the primality test and the generation of primes, at the level of limbs.  The random generator is any function of
    the number of calls so far and the number of bytes asked for ([rng_ok]). *)
From Coq Require Import Znumtheory.
From Verif Require Import Base BaseFacts MpiModel LimbModel LimbModel2 LimbSpec LimbSpec3 LimbProperties LimbProperties2 LimbProofs18.

(** * C87 *)
(** A prime of at most 128 limbs is accepted, unless the generator fails or answers useless numbers 31 times in a row *)
Theorem C87_primes_accepted_partial : forall f X c, rng_ok f -> mpi_ok X -> mlen X <= 128 -> prime (Z.abs (mval X)) ->
  Z.abs (mval X) <= 997 \/ rng_useful f (length (mp X) * 8) (Z.abs (mval X)) -> exists c', l_is_prime f X c = Ok (inr tt, c').
Proof. exact primes_accepted_f. Qed.
Print Assumptions C87_primes_accepted_partial.
Theorem C87_rejections : forall f X c, rng_ok f -> mpi_ok X -> forall e c', mlen X <= 128 -> l_is_prime f X c = Ok (inl e, c') ->
  (e = ERR_MPI_NOT_ACCEPTABLE /\ (~ prime (Z.abs (mval X)) \/ rng_stuck f (length (mp X) * 8) c c' (Z.abs (mval X)))) \/
  rng_fails f (length (mp X) * 8) c c' e.
Proof. exact rejected_f. Qed.
Print Assumptions C87_rejections.
Theorem C87_always_answers : forall f X c, rng_ok f -> mpi_ok X -> mlen X < 10000 -> exists r c', l_is_prime f X c = Ok (r, c').
Proof. exact decides_f. Qed.
Print Assumptions C87_always_answers.
(** Above, the answer is BAD_INPUT_DATA, even if most of the limbs are zeros: no more than 1024 random bytes are drawn *)
Theorem C87_long_refuted : exists f X, rng_ok f /\ rng_good f /\ mpi_ok X /\ mval X = 1009 /\ prime 1009 /\ l_is_prime f X 0%nat = Ok (inl ERR_MPI_BAD_INPUT_DATA, 0%nat).
Proof.
  exists const_two, (MkMpi 1 (1009 :: repeat 0 128)). split; [exact const_two_ok|]. split; [exact const_two_good|].
  split; [split; [now left | constructor; [split; reflexivity || discriminate | apply Forall_forall; intros y I; apply repeat_spec in I; subst; split; reflexivity || discriminate]]|].
  split; [vm_compute; reflexivity|]. split; [apply (LimbProofs15.trial_prime 1009); [split; reflexivity | vm_compute; reflexivity] | vm_compute; reflexivity].
Qed.
Print Assumptions C87_long_refuted.
(** Two limbs, minus a prime; 27 bases, two calls for each *)
Example C87_example : rng_ok const_two /\ rng_good const_two /\ mpi_ok (MkMpi (-1) [1009; 0]) /\
  l_is_prime const_two (MkMpi (-1) [1009; 0]) 5%nat = Ok (inr tt, 59%nat) /\ l_is_prime const_two (MkMpi 1 [997]) 5%nat = Ok (inr tt, 5%nat).
Proof. split; [exact const_two_ok|]. split; [exact const_two_good|]. split; [small_mpi|]. split; vm_compute; reflexivity. Qed.

(** * C88 *)
(** An accepted number is a prime up to 997, or it has no prime factor up to 997 and behaves like a prime for as many bases as the table
    says, each drawn by a call of its own *)
Theorem C88_accepted : forall f X c, rng_ok f -> mpi_ok X -> forall c', mlen X < 10000 -> l_is_prime f X c = Ok (inr tt, c') ->
  (prime (Z.abs (mval X)) /\ Z.abs (mval X) <= 997) \/
  (997 < Z.abs (mval X) /\ (forall p, prime p -> p <= 997 -> ~ (p | Z.abs (mval X))) /\
   exists k, bits_of (Z.abs (mval X)) k /\ passed f (length (mp X) * 8) c c' (bases_for k) (Z.abs (mval X))).
Proof. exact accepted_f. Qed.
Print Assumptions C88_accepted.
(** Numbers below 998^2 are accepted only if they are primes, whatever the generator *)
Theorem C88_small_partial : forall f X c, rng_ok f -> mpi_ok X -> forall c', mlen X < 10000 -> l_is_prime f X c = Ok (inr tt, c') ->
  Z.abs (mval X) < 998 * 998 -> prime (Z.abs (mval X)).
Proof. exact small_exact_f. Qed.
Print Assumptions C88_small_partial.
(** Larger ones are not: 1678541 = 1013 * 1657 behaves like a prime for the base 2 *)
Theorem C88_composite_refuted : exists f X c', rng_ok f /\ rng_good f /\ mpi_ok X /\ mval X = 1013 * 1657 /\ l_is_prime f X 0%nat = Ok (inr tt, c').
Proof.
  exists const_two, (MkMpi 1 [1678541]), 54%nat. split; [exact const_two_ok|]. split; [exact const_two_good|]. split; [small_mpi|]. split; vm_compute; reflexivity.
Qed.
Print Assumptions C88_composite_refuted.
Example C88_example : l_is_prime const_two (MkMpi 1 [1009 * 1013]) 0%nat = Ok (inl ERR_MPI_NOT_ACCEPTABLE, 2%nat) /\
  l_is_prime const_two (MkMpi 1 [961]) 0%nat = Ok (inl ERR_MPI_NOT_ACCEPTABLE, 0%nat).
Proof. split; vm_compute; reflexivity. Qed.

(** * C89 *)
(** A generated number is odd, has at least the bits asked for and was accepted by the test; it is the first number accepted from the
    starting point on, and with a good generator no prime in between was skipped *)
Theorem C89_gen_prime_partial : forall f X nbits fuel c, rng_ok f -> mpi_ok X -> mlen X <= 128 -> 3 <= nbits <= 8192 ->
  forall X' c', Z.of_nat fuel <= LB ^ 128 -> l_gen_prime fuel f X nbits c = Ok (inr X', c') ->
  mpi_ok X' /\ Z.odd (mval X') = true /\ 2 ^ (nbits - 1) <= mval X' /\ (exists c1, (c <= c1 <= c')%nat /\ l_is_prime f X' c1 = Ok (inr tt, c')) /\
  exists b, f c (Z.to_nat ((nbits + 63) / 64) * 8)%nat = inr b /\ 2 ^ (nbits - 1) <= search_start nbits (be_decode b) < 2 ^ nbits /\
    search_start nbits (be_decode b) <= mval X' /\ (rng_good f -> forall y, search_start nbits (be_decode b) <= y < mval X' -> ~ prime y).
Proof. exact gen_found_f. Qed.
Print Assumptions C89_gen_prime_partial.
(** If there is a prime between the starting point and 2^nbits the search ends, with exactly nbits bits *)
Theorem C89_search_ends : forall f X nbits fuel c, rng_ok f -> mpi_ok X -> mlen X <= 128 -> 3 <= nbits <= 8192 ->
  forall b p, rng_good f -> f c (Z.to_nat ((nbits + 63) / 64) * 8)%nat = inr b -> prime p -> search_start nbits (be_decode b) <= p < 2 ^ nbits ->
  p < search_start nbits (be_decode b) + 2 * Z.of_nat fuel -> Z.of_nat fuel <= LB ^ 128 ->
  exists X' c', l_gen_prime fuel f X nbits c = Ok (inr X', c') /\ 2 ^ (nbits - 1) <= mval X' < 2 ^ nbits.
Proof. exact gen_finds_f. Qed.
Print Assumptions C89_search_ends.
(** No undefined behaviour; which errors *)
Theorem C89_errors : forall f X nbits fuel c, rng_ok f -> mpi_ok X -> mlen X <= 128 -> 3 <= nbits <= 8192 -> Z.of_nat fuel <= LB ^ 128 ->
  l_gen_prime fuel f X nbits c = Diverge \/ exists r c', l_gen_prime fuel f X nbits c = Ok (r, c') /\
    forall e, r = inl e -> e = ERR_MPI_BAD_INPUT_DATA \/ exists sz, rng_fails f sz c c' e.
Proof. exact gen_safe_f. Qed.
Print Assumptions C89_errors.
Theorem C89_bad_bits : forall f X nbits fuel c, nbits < 3 \/ 8192 < nbits -> l_gen_prime fuel f X nbits c = Ok (inl ERR_MPI_BAD_INPUT_DATA, c).
Proof. exact gen_bad_f. Qed.
Print Assumptions C89_bad_bits.
(** Four bits were asked for *)
Theorem C89_bits_refuted : exists f X X' c', rng_ok f /\ mpi_ok X /\ l_gen_prime 5%nat f X 4 0%nat = Ok (inr X', c') /\ mval X' = 17 /\ ~ 17 < 2 ^ 4.
Proof.
  exists (fun _ n => inr (repeat 255 n)), l_init, (MkMpi 1 [17]), 1%nat.
  split; [intros c n; split; [apply Forall_forall; intros y I; apply repeat_spec in I; subst; split; reflexivity || discriminate | apply repeat_length]|].
  split; [small_mpi|]. split; [vm_compute; reflexivity|]. split; [reflexivity | discriminate].
Qed.
Print Assumptions C89_bits_refuted.
Example C89_example : search_start 12 2 = 2051 /\ l_gen_prime 10%nat const_two l_init 12 0%nat = Ok (inr (MkMpi 1 [2053]), 55%nat).
Proof. split; vm_compute; reflexivity. Qed.
