(** Properties C76-C83: the big-number library at the level of its limbs.  [mpi_ok X]: the sign is 1 or -1 and the limbs are 64-bit
    numbers; nothing is said about leading zeros or about the sign of zero.  [mlen X] is the number of limbs allocated; no object has
    more than 10000. *)
From Verif Require Import Base BaseFacts MpiModel LimbModel LimbSpec LimbProofs6 LimbProofs7 LimbProofs8.

(** A number of three limbs with a leading zero, a negative one, and minus zero *)
Definition big : mpi := MkMpi 1 [2 ^ 64 - 1; 2 ^ 64 - 1; 0].
Definition neg : mpi := MkMpi (-1) [5; 1].
Definition mzero : mpi := MkMpi (-1) [0; 0].
Lemma big_ok : mpi_ok big. Proof. split; [now left|]. repeat (apply Forall_cons || apply Forall_nil); split; reflexivity || discriminate. Qed.
Lemma neg_ok : mpi_ok neg. Proof. split; [now right|]. repeat (apply Forall_cons || apply Forall_nil); split; reflexivity || discriminate. Qed.
Lemma mzero_ok : mpi_ok mzero. Proof. split; [now right|]. repeat (apply Forall_cons || apply Forall_nil); split; reflexivity || discriminate. Qed.

(** * C76 *)
(** Sums and differences are exact whatever the signs, the leading zeros, the old content of the result and the aliasing of the three
    arguments ([xa]: X == A, [xb]: X == B) *)
Theorem C76_add : forall xa xb X A B, mpi_ok X -> mpi_ok A -> mpi_ok B -> alias xa X A -> alias xb X B ->
  mlen X < 10000 -> mlen A < 10000 -> mlen B < 10000 -> exists R, l_add xa xb X A B = ret R /\ mpi_ok R /\ mval R = mval A + mval B.
Proof. exact add_f. Qed.
Print Assumptions C76_add.
Theorem C76_sub : forall xa xb X A B, mpi_ok X -> mpi_ok A -> mpi_ok B -> alias xa X A -> alias xb X B ->
  mlen X < 10000 -> mlen A < 10000 -> mlen B < 10000 -> exists R, l_sub xa xb X A B = ret R /\ mpi_ok R /\ mval R = mval A - mval B.
Proof. exact sub_f. Qed.
Print Assumptions C76_sub.
Theorem C76_add_abs : forall xa xb X A B, mpi_ok X -> mpi_ok A -> mpi_ok B -> alias xa X A -> alias xb X B ->
  mlen X < 10000 -> mlen A < 10000 -> mlen B < 10000 ->
  exists R, l_add_abs xa xb X A B = ret R /\ mpi_ok R /\ mval R = Z.abs (mval A) + Z.abs (mval B).
Proof. exact add_abs_f. Qed.
Print Assumptions C76_add_abs.
Theorem C76_sub_abs : forall xa xb X A B, mpi_ok X -> mpi_ok A -> mpi_ok B -> alias xa X A -> alias xb X B ->
  mlen A <= 10000 -> mlen B <= 10000 ->
  if Z.abs (mval A) <? Z.abs (mval B) then l_sub_abs xa xb X A B = err ERR_MPI_NEGATIVE_VALUE
  else exists R, l_sub_abs xa xb X A B = ret R /\ mpi_ok R /\ mval R = Z.abs (mval A) - Z.abs (mval B).
Proof. exact sub_abs_f. Qed.
Print Assumptions C76_sub_abs.
Theorem C76_add_int : forall xa X A z, mpi_ok X -> mpi_ok A -> alias xa X A -> mlen X < 10000 -> mlen A < 10000 -> - 2 ^ 63 < z < 2 ^ 63 ->
  exists R, l_add_int xa X A z = ret R /\ mpi_ok R /\ mval R = mval A + z.
Proof. exact add_int_f. Qed.
Print Assumptions C76_add_int.
Theorem C76_sub_int : forall xa X A z, mpi_ok X -> mpi_ok A -> alias xa X A -> mlen X < 10000 -> mlen A < 10000 -> - 2 ^ 63 < z < 2 ^ 63 ->
  exists R, l_sub_int xa X A z = ret R /\ mpi_ok R /\ mval R = mval A - z.
Proof. exact sub_int_f. Qed.
Print Assumptions C76_sub_int.
(** Results in place; a carry through all limbs; a difference that is minus zero *)
Example C76_example : mpi_ok big /\ mpi_ok neg /\ mlen big = 3 /\
  l_add false true neg big neg = ret (MkMpi 1 [2 ^ 64 - 6; 2 ^ 64 - 2]) /\
  l_add true true big big big = ret (MkMpi 1 [2 ^ 64 - 2; 2 ^ 64 - 1; 1]) /\
  l_add_int true big big 1 = ret (MkMpi 1 [0; 0; 1]) /\ l_sub true true neg neg neg = ret (MkMpi (-1) [0; 0]).
Proof. split; [exact big_ok|]. split; [exact neg_ok|]. repeat split. Qed.

(** * C77 *)
(** Comparisons see the numbers only, not the representation *)
Theorem C77_cmp : forall X Y, mpi_ok X -> mpi_ok Y -> l_cmp X Y = Ok (three_way (mval X) (mval Y)).
Proof. exact cmp_f. Qed.
Print Assumptions C77_cmp.
Theorem C77_cmp_abs : forall X Y, mpi_ok X -> mpi_ok Y -> l_cmp_abs X Y = Ok (three_way (Z.abs (mval X)) (Z.abs (mval Y))).
Proof. exact cmp_abs_f. Qed.
Print Assumptions C77_cmp_abs.
Theorem C77_cmp_int : forall X z, mpi_ok X -> - 2 ^ 63 < z < 2 ^ 63 -> l_cmp_int X z = Ok (three_way (mval X) z).
Proof. exact cmp_int_f. Qed.
Print Assumptions C77_cmp_int.
Example C77_example : mpi_ok mzero /\ mpi_ok big /\ l_cmp mzero l_init = Ok 0 /\ l_cmp big neg = Ok 1 /\ l_cmp neg mzero = Ok (-1) /\ l_cmp_int mzero 0 = Ok 0.
Proof. split; [exact mzero_ok|]. split; [exact big_ok|]. repeat split. Qed.
(** Assignments and copies keep the number *)
Theorem C77_lset : forall X z, mpi_ok X -> - 2 ^ 63 < z < 2 ^ 63 -> exists R, l_lset X z = ret R /\ mpi_ok R /\ mval R = z.
Proof. exact lset_f. Qed.
Print Assumptions C77_lset.
Theorem C77_copy : forall same X Y, mpi_ok X -> mpi_ok Y -> alias same X Y -> mlen Y <= 10000 ->
  exists R, l_copy same X Y = ret R /\ mpi_ok R /\ mval R = mval Y.
Proof. exact copy_f. Qed.
Print Assumptions C77_copy.
Example C77_copy_example : l_copy false big neg = ret (MkMpi (-1) [5; 1; 0]) /\ l_lset big (-7) = ret (MkMpi (-1) [7; 0; 0]).
Proof. split; reflexivity. Qed.
(** The smallest signed number is outside: its negation overflows *)
Theorem C77_lset_smallest_refuted : exists X z, mpi_ok X /\ - 2 ^ 63 <= z < 2 ^ 63 /\ l_lset X z = UB.
Proof. exists big, (- 2 ^ 63). split; [exact big_ok|]. split; [split; reflexivity || discriminate|]. vm_compute. reflexivity. Qed.
Print Assumptions C77_lset_smallest_refuted.

(** * C78 *)
Theorem C78_mul : forall xa xb X A B, mpi_ok X -> mpi_ok A -> mpi_ok B -> alias xa X A -> alias xb X B -> mlen A + mlen B <= 10000 ->
  exists R, l_mul xa xb X A B = ret R /\ mpi_ok R /\ mval R = mval A * mval B.
Proof. exact mul_f. Qed.
Print Assumptions C78_mul.
Theorem C78_mul_int : forall xa X A, mpi_ok X -> mpi_ok A -> alias xa X A -> forall b, mlen A < 10000 -> 0 <= b < 2 ^ 64 ->
  exists R, l_mul_int xa X A b = ret R /\ mpi_ok R /\ mval R = mval A * b.
Proof. exact mul_int_f. Qed.
Print Assumptions C78_mul_int.
Example C78_example : mpi_ok big /\ l_mul true true big big big = ret (MkMpi 1 [1; 0; 2 ^ 64 - 2; 2 ^ 64 - 1]) /\
  l_mul_int true neg neg (2 ^ 64 - 1) = ret (MkMpi (-1) [2 ^ 64 - 5; 3; 1]).
Proof. split; [exact big_ok|]. split; vm_compute; reflexivity. Qed.

(** * C79 *)
Theorem C79_shift_l_partial : forall X count, mpi_ok X -> 0 <= count -> Z.abs (mval X) * 2 ^ count < mpi_bound -> mval X <> 0 ->
  exists R, l_shift_l X count = ret R /\ mpi_ok R /\ mval R = mval X * 2 ^ count.
Proof. exact shift_l_f. Qed.
Print Assumptions C79_shift_l_partial.
(** To the right, towards zero *)
Theorem C79_shift_r : forall X count, mpi_ok X -> 0 <= count -> exists R, l_shift_r X count = ret R /\ mpi_ok R /\ mval R = Z.quot (mval X) (2 ^ count).
Proof. exact shift_r_f. Qed.
Print Assumptions C79_shift_r.
Example C79_example : mpi_ok neg /\ l_shift_l neg 67 = ret (MkMpi (-1) [0; 40; 8]) /\ l_shift_r neg 1 = ret (MkMpi (-1) [2 ^ 63 + 2; 0]) /\
  l_shift_r neg 128 = ret (MkMpi (-1) [0; 0]) /\ l_shift_r neg 129 = ret (MkMpi 1 [0; 0]).
Proof. split; [exact neg_ok|]. repeat split. Qed.
(** The size computation wraps: a shift to the left by almost 2^64 bits answers success and zero *)
Theorem C79_shift_l_refuted : exists X count R, mpi_ok X /\ 0 <= count < 2 ^ 64 /\ l_shift_l X count = ret R /\ mval X = 1 /\ mval R = 0.
Proof.
  exists (MkMpi 1 [1]), (2 ^ 64 - 1), (MkMpi 1 [0]). split; [split; [now left | constructor; [split; reflexivity || discriminate | constructor]]|].
  split; [split; reflexivity || discriminate|]. vm_compute. repeat split.
Qed.
Print Assumptions C79_shift_l_refuted.

(** * C80 *)
(** Truncated division with any null or aliased outputs, as long as Q is not A ([ra]: R == A) *)
Theorem C80_div_partial : forall ra Q R A B, opt_mpi_ok Q -> opt_mpi_ok R -> mpi_ok A -> mpi_ok B -> (ra = true -> R = Some A) ->
  mlen A <= 9990 -> mlen B <= 10000 ->
  if mval B =? 0 then l_div false ra Q R A B = err ERR_MPI_DIVISION_BY_ZERO
  else exists Q' R', l_div false ra Q R A B = ret (Q', R') /\ receives Q Q' (Z.quot (mval A) (mval B)) /\ receives R R' (Z.rem (mval A) (mval B)).
Proof. exact div_f. Qed.
Print Assumptions C80_div_partial.
(** Four limbs by three; and a remainder in place, without a quotient *)
Example C80_example : l_div false false (Some l_init) (Some l_init) (MkMpi (-1) [0; 0; 2 ^ 63; 2 ^ 62]) (MkMpi 1 [2 ^ 64 - 1; 0; 2 ^ 63]) =
    ret (Some (MkMpi (-1) [2 ^ 63]), Some (MkMpi (-1) [2 ^ 63; 2 ^ 63; 2 ^ 63 - 1])) /\
  l_div false true None (Some neg) neg (MkMpi 1 [3]) = ret (None, Some (MkMpi 1 [0; 0])).
Proof. split; vm_compute; reflexivity. Qed.
(** With Q == A, the signs are taken from A after it was overwritten, and a dividend smaller than the divisor is lost *)
Theorem C80_quotient_in_place_refuted : exists A B Q' R', mpi_ok A /\ mpi_ok B /\ mval B <> 0 /\
  l_div true false (Some A) (Some l_init) A B = ret (Some Q', Some R') /\
  mval A = -7 /\ mval B = 2 /\ mval Q' = 3 /\ mval R' = 1.
Proof.
  exists (MkMpi (-1) [7]), (MkMpi 1 [2]), (MkMpi 1 [3]), (MkMpi 1 [1]).
  split; [split; [now right | constructor; [split; reflexivity || discriminate | constructor]]|].
  split; [split; [now left | constructor; [split; reflexivity || discriminate | constructor]]|]. vm_compute. repeat split. discriminate.
Qed.
Print Assumptions C80_quotient_in_place_refuted.
Theorem C80_small_dividend_in_place_refuted : exists A B Q' R', mpi_ok A /\ mpi_ok B /\ mval B <> 0 /\
  l_div true false (Some A) (Some l_init) A B = ret (Some Q', Some R') /\ mval A = 1 /\ mval B = 2 /\ mval Q' = 0 /\ mval R' = 0.
Proof.
  exists (MkMpi 1 [1]), (MkMpi 1 [2]), (MkMpi 1 [0]), (MkMpi 1 [0]).
  split; [split; [now left | constructor; [split; reflexivity || discriminate | constructor]]|].
  split; [split; [now left | constructor; [split; reflexivity || discriminate | constructor]]|]. vm_compute. repeat split. discriminate.
Qed.
Print Assumptions C80_small_dividend_in_place_refuted.

(** * C81 *)
Theorem C81_mod : forall ra R A B, mpi_ok R -> mpi_ok A -> mpi_ok B -> alias ra R A -> mlen R < 10000 -> mlen A <= 9990 -> mlen B < 10000 ->
  if mval B <? 0 then l_mod ra R A B = err ERR_MPI_NEGATIVE_VALUE
  else if mval B =? 0 then l_mod ra R A B = err ERR_MPI_DIVISION_BY_ZERO
  else exists R', l_mod ra R A B = ret R' /\ mpi_ok R' /\ mval R' = mval A mod mval B.
Proof. exact mod_f. Qed.
Print Assumptions C81_mod.
Example C81_example : mpi_ok neg /\ l_mod true neg neg (MkMpi 1 [10]) = ret (MkMpi 1 [9; 0]) /\ mval neg mod 10 = 9.
Proof. split; [exact neg_ok|]. split; vm_compute; reflexivity. Qed.
(** Modulo a limb: exact up to 2^32 *)
Theorem C81_mod_int_partial : forall A b, mpi_ok A -> 0 < b <= 2 ^ 32 -> (b = 2 -> mp A <> []) -> l_mod_int A b = ret (mval A mod b).
Proof. exact mod_int_ok. Qed.
Print Assumptions C81_mod_int_partial.
Example C81_mod_int_example : l_mod_int neg 1000 = ret 379 /\ mval neg mod 1000 = 379.
Proof. split; vm_compute; reflexivity. Qed.
(** Above, half a limb is shifted out; and a number without limbs is read when the divisor is two *)
Theorem C81_mod_int_refuted : exists A b r, mpi_ok A /\ 0 < b < 2 ^ 63 /\ l_mod_int A b = ret r /\ r <> mval A mod b.
Proof.
  exists (MkMpi 1 [2 ^ 63; 1]), (2 ^ 40 + 1), 1099503239169.
  split; [split; [now left | repeat (apply Forall_cons || apply Forall_nil); split; reflexivity || discriminate]|].
  split; [split; reflexivity || discriminate|]. split; [vm_compute; reflexivity | vm_compute; discriminate].
Qed.
Print Assumptions C81_mod_int_refuted.
Theorem C81_mod_two_refuted : exists A, mpi_ok A /\ mval A = 0 /\ l_mod_int A 2 = UB.
Proof. exists l_init. split; [split; [now left | constructor]|]. split; reflexivity. Qed.
Print Assumptions C81_mod_two_refuted.

(** * C82 *)
Theorem C82_read_binary : forall X buf, mpi_ok X -> is_bytes buf ->
  if be_decode buf <? mpi_bound then exists R, l_read_binary X buf = ret R /\ mpi_ok R /\ mval R = be_decode buf
  else l_read_binary X buf = err ERR_MPI_ALLOC_FAILED.
Proof. exact read_f. Qed.
Print Assumptions C82_read_binary.
Theorem C82_write_binary : forall X buf, mpi_ok X -> exists k, bits_of (Z.abs (mval X)) k /\
  l_write_binary X buf = if zlen buf <? (k + 7) / 8 then err ERR_MPI_BUFFER_TOO_SMALL else ret (be_encode (length buf) (Z.abs (mval X))).
Proof. exact write_f. Qed.
Print Assumptions C82_write_binary.
Example C82_example : l_read_binary neg [0; 1; 2; 3; 4; 5; 6; 7; 8; 9] = ret (MkMpi 1 [144964032628459529; 1]) /\
  l_write_binary (MkMpi 1 [144964032628459529; 1; 0]) [7; 7; 7; 7; 7; 7; 7; 7; 7; 7] = ret [0; 1; 2; 3; 4; 5; 6; 7; 8; 9] /\
  l_write_binary (MkMpi 1 [144964032628459529; 1; 0]) [7; 7; 7; 7; 7; 7; 7; 7] = err ERR_MPI_BUFFER_TOO_SMALL.
Proof. repeat split. Qed.

(** * C83 *)
Theorem C83_bitlen : forall X, mpi_ok X -> exists k, l_bitlen X = Ok k /\ bits_of (Z.abs (mval X)) k /\ l_size X = Ok ((k + 7) / 8).
Proof. exact bitlen_f. Qed.
Print Assumptions C83_bitlen.
Theorem C83_lsb : forall X, mpi_ok X -> mval X <> 0 -> 0 <= l_lsb X /\ (2 ^ l_lsb X | mval X) /\ ~ (2 ^ (l_lsb X + 1) | mval X).
Proof. exact lsb_f. Qed.
Print Assumptions C83_lsb.
Theorem C83_get_bit : forall X pos, mpi_ok X -> 0 <= pos -> l_get_bit X pos = Ok (Z.b2z (Z.testbit (Z.abs (mval X)) pos)).
Proof. exact get_bit_f. Qed.
Print Assumptions C83_get_bit.
Theorem C83_set_bit : forall X pos v, mpi_ok X -> 0 <= pos < 640000 -> (v = 0 \/ v = 1) ->
  exists R, l_set_bit X pos v = ret R /\ mpi_ok R /\ ms R = ms X /\
    forall m, 0 <= m -> Z.testbit (Z.abs (mval R)) m = if m =? pos then v =? 1 else Z.testbit (Z.abs (mval X)) m.
Proof. exact set_bit_f. Qed.
Print Assumptions C83_set_bit.
Theorem C83_cond_assign : forall X Y a, mpi_ok X -> mpi_ok Y -> 0 <= a < 256 -> mlen Y <= 10000 ->
  exists R, l_cond_assign X Y a = ret R /\ mpi_ok R /\ mval R = if a =? 0 then mval X else mval Y.
Proof. exact cond_assign_f. Qed.
Print Assumptions C83_cond_assign.
Theorem C83_cond_swap : forall X Y a, mpi_ok X -> mpi_ok Y -> 0 <= a < 256 -> mlen X <= 10000 -> mlen Y <= 10000 ->
  exists X' Y', l_cond_swap X Y a = ret (X', Y') /\ mpi_ok X' /\ mpi_ok Y' /\
    mval X' = (if a =? 0 then mval X else mval Y) /\ mval Y' = (if a =? 0 then mval Y else mval X).
Proof. exact cond_swap_f. Qed.
Print Assumptions C83_cond_swap.
Example C83_example : mpi_ok big /\ l_bitlen big = Ok 128 /\ l_lsb (MkMpi 1 [0; 8]) = 67 /\ l_get_bit neg 64 = Ok 1 /\
  l_set_bit neg 130 1 = ret (MkMpi (-1) [5; 1; 4]) /\ l_cond_assign big neg 2 = ret (MkMpi (-1) [5; 1; 0]) /\
  l_cond_swap big neg 255 = ret (MkMpi (-1) [5; 1; 0], big).
Proof. split; [exact big_ok|]. repeat split. Qed.
