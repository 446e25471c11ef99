(** Properties of the inner loops of the big-number library: C105, C106 *)
From Coq Require Import Lia.
From Verif Require Import Base LimbModel LimbSpec LimbProofs BnMulModel BnMulSpec BnMulProofs BnMulProofs2 BnMulProofs3.

(** * C105: the inner loop of the multiplication, in each of its three variants, adds b times the number at s to the number at d and
    changes nothing else.  [fuel] bounds the rounds of the carry loop. *)
Theorem C105_assembly : forall junk flag fuel m ps pd ys ds b,
  Forall is_limb ys -> Forall is_limb ds -> is_limb b -> holds m ps ys -> holds m pd ds -> apart ps (length ys) pd (length ds) ->
  (length ys < length ds)%nat -> lval ds + b * lval ys < LB ^ zlen ds -> (length ds <= fuel)%nat ->
  exists m' ds', hlp_mem (asm_block junk flag) fuel m (length ys) ps pd b = Ok m' /\
    holds m' pd ds' /\ Forall is_limb ds' /\ length ds' = length ds /\ only_at pd (length ds) m m' /\ lval ds' = lval ds + b * lval ys.
Proof. exact hlp_asm. Qed.
Print Assumptions C105_assembly.
Theorem C105_double_limbs : forall fuel m ps pd ys ds b,
  Forall is_limb ys -> Forall is_limb ds -> is_limb b -> holds m ps ys -> holds m pd ds -> apart ps (length ys) pd (length ds) ->
  (length ys < length ds)%nat -> lval ds + b * lval ys < LB ^ zlen ds -> (length ds <= fuel)%nat ->
  exists m' ds', hlp_mem udbl_block fuel m (length ys) ps pd b = Ok m' /\
    holds m' pd ds' /\ Forall is_limb ds' /\ length ds' = length ds /\ only_at pd (length ds) m m' /\ lval ds' = lval ds + b * lval ys.
Proof. exact hlp_udbl. Qed.
Print Assumptions C105_double_limbs.
Theorem C105_half_limbs : forall fuel m ps pd ys ds b,
  Forall is_limb ys -> Forall is_limb ds -> is_limb b -> holds m ps ys -> holds m pd ds -> apart ps (length ys) pd (length ds) ->
  (length ys < length ds)%nat -> lval ds + b * lval ys < LB ^ zlen ds -> (length ds <= fuel)%nat ->
  exists m' ds', hlp_mem half_block fuel m (length ys) ps pd b = Ok m' /\
    holds m' pd ds' /\ Forall is_limb ds' /\ length ds' = length ds /\ only_at pd (length ds) m m' /\ lval ds' = lval ds + b * lval ys.
Proof. exact hlp_half. Qed.
Print Assumptions C105_half_limbs.
(** ... so that the theorems about [LimbModel], whose [mul_hlp] works on lists, hold for the assembly *)
Theorem C105_assembly_is_the_model : forall junk flag fuel m ps pd ys ds b,
  Forall is_limb ys -> Forall is_limb ds -> is_limb b -> holds m ps ys -> holds m pd ds -> apart ps (length ys) pd (length ds) ->
  (length ys < length ds)%nat -> lval ds + b * lval ys < LB ^ zlen ds -> (length ds <= fuel)%nat ->
  exists m' ds', hlp_mem (asm_block junk flag) fuel m (length ys) ps pd b = Ok m' /\ mul_hlp (length ys) ys ds b = Ok ds' /\
    holds m' pd ds' /\ only_at pd (length ds) m m'.
Proof. exact hlp_asm_list. Qed.
Print Assumptions C105_assembly_is_the_model.
(** Without room for the last limb the loop writes out of bounds, even for the factor 0 *)
Theorem C105_needs_a_limb_more : forall junk flag fuel m ps pd ys ds b,
  Forall is_limb ys -> Forall is_limb ds -> is_limb b -> holds m ps ys -> holds m pd ds -> apart ps (length ys) pd (length ds) ->
  length ys = length ds -> m (pd + 8 * zlen ds) = None -> (0 < fuel)%nat ->
  hlp_mem (asm_block junk flag) fuel m (length ys) ps pd b = UB.
Proof. exact hlp_asm_short. Qed.
Print Assumptions C105_needs_a_limb_more.
(** Nine limbs (one block of eight and one alone) at 4096, eleven at 8192, all ones: the carry runs through all of them *)
Definition ones (n : nat) : list Z := repeat (2 ^ 64 - 1) n.
Definition two_arrays (p : Z) (a : list Z) (q : Z) (b : list Z) : mem := fun x =>
  if (p <=? x) && (x <? p + 8 * zlen a) then nth_error a (Z.to_nat ((x - p) / 8))
  else if (q <=? x) && (x <? q + 8 * zlen b) then nth_error b (Z.to_nat ((x - q) / 8)) else None.
Definition limbs_at (m : mem) (p : Z) (n : nat) : list (option Z) := map (fun k => m (p + 8 * Z.of_nat k)) (seq 0 n).
Example C105_run : let m := two_arrays 4096 (ones 9) 8192 (ones 10 ++ [0]) in
  match hlp_mem (asm_block (fun _ => 77) true) 20 m 9 4096 8192 (2 ^ 64 - 1) with
  | Ok m' => limbs_at m' 8192 12 = map Some ([0] ++ ones 8 ++ [2 ^ 64 - 2; 1]) ++ [None]
  | _ => False
  end.
Proof. vm_compute. reflexivity. Qed.
Example C105_same_runs : let m := two_arrays 4096 (ones 9) 8192 (ones 10 ++ [0]) in
  match hlp_mem udbl_block 20 m 9 4096 8192 (2 ^ 64 - 1), hlp_mem half_block 20 m 9 4096 8192 (2 ^ 64 - 1) with
  | Ok m1, Ok m2 => limbs_at m1 8192 12 = limbs_at m2 8192 12 /\ nth 10 (limbs_at m1 8192 12) None = Some 1
  | _, _ => False
  end.
Proof. vm_compute. split; reflexivity. Qed.

(** * C106: dividing two limbs by one, without a 128-bit type *)
Theorem C106_int_div_partial : forall u1 u0 d, is_limb u1 -> is_limb u0 -> 0 < d < 2 ^ 63 -> u1 < d ->
  int_div_half u1 u0 d = Ok ((u1 * 2 ^ 64 + u0) / d).
Proof. exact int_div_half_ok. Qed.
Print Assumptions C106_int_div_partial.
Theorem C106_same_as_double_partial : forall u1 u0 d, is_limb u1 -> is_limb u0 -> 0 <= d < 2 ^ 63 -> int_div_half u1 u0 d = Ok (int_div_int u1 u0 d).
Proof. exact int_div_half_same. Qed.
Print Assumptions C106_same_as_double_partial.
(** The divisors of the only caller have 63 bits: mbedtls_mpi_div_mpi normalises to 63 bits, not 64 *)
Theorem C106_divisor_of_caller : forall B Y b, mpi_ok B -> mpi_ok Y -> mval B <> 0 -> bits_of (Z.abs (mval B)) b ->
  Z.abs (mval Y) = Z.abs (mval B) * 2 ^ (if b mod 64 <? 63 then 63 - b mod 64 else 0) -> 2 ^ 62 <= nth (sig (mp Y) - 1) (mp Y) 0 < 2 ^ 63.
Proof. exact normalised. Qed.
Print Assumptions C106_divisor_of_caller.
Theorem C106_all_large_divisors_undefined : forall u1 u0 d, is_limb u1 -> is_limb u0 -> 2 ^ 63 <= d < 2 ^ 64 -> u1 < d -> int_div_half u1 u0 d = UB.
Proof. exact int_div_half_ub. Qed.
Print Assumptions C106_all_large_divisors_undefined.
Theorem C106_int_div_refuted : exists u1 u0 d, is_limb u1 /\ is_limb u0 /\ is_limb d /\ 0 < d /\ u1 < d /\ int_div_half u1 u0 d <> Ok ((u1 * 2 ^ 64 + u0) / d).
Proof. exact int_div_half_bad. Qed.
Print Assumptions C106_int_div_refuted.
Example C106_case : int_div_half (2 ^ 62) (2 ^ 64 - 1) (2 ^ 63 - 1) = Ok (2 ^ 63 + 3) /\ int_div_half (2 ^ 63 - 2) 0 (2 ^ 63 - 1) = Ok (2 ^ 64 - 3).
Proof. vm_compute. split; reflexivity. Qed.
