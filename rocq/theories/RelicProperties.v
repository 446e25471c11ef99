(** Properties C109 to C117: the wrappers around RELIC, the initialisation of the library, interpolation. *)
From Coq Require Import Znumtheory.
From Verif Require Import Base PpkeModel PpkeSpec PpkeExample RelicModel RelicSpec RelicProofs RelicProofs2 RelicProofs3 LagrangeProofs.

(** * C109: scalars in reduced form are a field *)
Theorem C109_ring n gext mxp x y : arith_ok n gext mxp -> member n x -> member n y ->
  represents n (zr_add n x y) (x + y) /\ represents n (zr_sub n x y) (x - y) /\ represents n (zr_neg n x) (- x) /\
  represents n (zr_mul n x y) (x * y).
Proof. exact (ring_rep n gext mxp x y). Qed.
Print Assumptions C109_ring.

Theorem C109_division n gext mxp x y : arith_ok n gext mxp -> member n x -> member n y ->
  (y = 0 -> zr_div n gext x y = Throw LogicError) /\
  (y <> 0 -> exists d, zr_div n gext x y = Ok d /\ member n d /\ (n | d * y - x)) /\
  (y <> 0 -> member n (zr_inverse n gext y) /\ (n | y * zr_inverse n gext y - 1)).
Proof. exact (division_rep n gext mxp x y). Qed.
Print Assumptions C109_division.

Theorem C109_power n gext mxp x r : arith_ok n gext mxp -> member n x -> 0 <= r ->
  represents n (zr_power n mxp x r) (x ^ r) /\
  (r <= INT_MAX -> exists z, zr_power_int n mxp x r = Ok z /\ represents n z (x ^ r)).
Proof. exact (powers_rep n gext mxp x r). Qed.
Print Assumptions C109_power.

Theorem C109_shift n gext mxp x b : arith_ok n gext mxp -> member n x -> 0 <= b ->
  represents n (zr_shl n x b) (x * 2 ^ b) /\
  member n (zr_shr x b) /\ zr_shr x b * 2 ^ b <= x < (zr_shr x b + 1) * 2 ^ b.
Proof. exact (shifts_rep n gext mxp x b). Qed.
Print Assumptions C109_shift.

Theorem C109_comparison n z : (zr_is_member n z = true <-> member n z) /\
  (forall x y, member n x -> member n y -> zr_eq x y = true <-> (n | x - y)).
Proof. exact (comparison_ok n z). Qed.
Print Assumptions C109_comparison.

Example C109_meets_hypotheses : arith_ok 101 (gcd_ext toy) (fun x r n => x ^ r mod n) /\ member 101 77 /\ member 101 50 /\
  zr_add 101 77 50 = 26 /\ zr_sub 101 50 77 = 74 /\ zr_mul 101 77 50 = 12 /\ zr_neg 101 77 = 24 /\
  zr_div 101 (gcd_ext toy) 77 50 = Ok 48 /\ zr_shl 101 77 3 = 10.
Proof. exact arith_example. Qed.

(** * C110: scalars that are not in reduced form *)
Theorem C110_residue_partial n gext mxp x y b : arith_ok n gext mxp -> 0 <= b ->
  (n | zr_add n x y - (x + y)) /\ (n | zr_sub n x y - (x - y)) /\ (n | zr_neg n x - - x) /\ (n | zr_mul n x y - x * y) /\
  (n | zr_shl n x b - x * 2 ^ b) /\
  member n (zr_add n x y) /\ (member n (zr_sub n x y) <-> - n <= x - y) /\ (member n (zr_mul n x y) <-> - n <= x * y).
Proof. exact (residues n gext mxp x y b). Qed.
Print Assumptions C110_residue_partial.

Theorem C110_int_partial x : INT_MIN < x <= INT_MAX -> zr_of_int x = Ok x.
Proof. exact (of_int_ok x). Qed.
Print Assumptions C110_int_partial.

Theorem C110_hash_partial R b : relic_ok R ->
  (order R | hash_to_zr R b - be_decode (sha R (1 :: b))) /\
  (member (order R) (hash_to_zr R b) <-> be_decode (sha R (1 :: b)) <> order R).
Proof. exact (hash_member R b). Qed.
Print Assumptions C110_hash_partial.

Theorem C110_and_partial a b : bn_normal a -> bn_normal b -> bn_neg a = false -> bn_neg b = false ->
  bn_value (zr_and a b) = Z.land (bn_value a) (bn_value b) /\ Forall is_digit (bn_dp (zr_and a b)).
Proof. exact (and_ok a b). Qed.
Print Assumptions C110_and_partial.

(** For every order: ZR(-2) times the largest scalar is negative; so it differs from the scalar with the same residue. *)
Theorem C110_product_refuted n : 2 < n -> exists x y z, zr_of_int x = Ok z /\ member n y /\ ~ member n (zr_mul n z y) /\
  zr_eq (zr_mul n z y) ((z * y) mod n) = false.
Proof. exact (product_refuted n). Qed.
Print Assumptions C110_product_refuted.

(** The least int overflows. *)
Theorem C110_least_int_refuted : exists x, INT_MIN <= x <= INT_MAX /\ zr_of_int x = UB.
Proof. exact least_int. Qed.
Print Assumptions C110_least_int_refuted.

(** Dividing by a multiple of the order that is not zero, and inverting zero, return something. *)
Theorem C110_division_refuted n gext mxp x : arith_ok n gext mxp -> 0 < x < n -> exists y b d, is_bytes b /\ y = zr_of_bytes b /\
  (n | y) /\ zr_div n gext x y = Ok d /\ ~ (n | d * y - x).
Proof. exact (division_refuted n gext mxp x). Qed.
Print Assumptions C110_division_refuted.
Theorem C110_inverse_refuted n gext mxp : arith_ok n gext mxp -> exists x, member n x /\ ~ (n | x * zr_inverse n gext x - 1).
Proof. exact (inverse_refuted n gext mxp). Qed.
Print Assumptions C110_inverse_refuted.

(** A digest equal to the order is not reduced. *)
Theorem C110_hash_refuted : exists R b, relic_ok R /\ ~ member (order R) (hash_to_zr R b).
Proof. exact hash_refuted. Qed.
Print Assumptions C110_hash_refuted.

(** The conjunction may have zero as its last digit. *)
Theorem C110_and_refuted : exists a b, bn_normal a /\ bn_normal b /\ ~ bn_normal (zr_and a b).
Proof. exact and_refuted. Qed.
Print Assumptions C110_and_refuted.

(** * C111: the bytes of a scalar *)
Theorem C111_bytes_partial len z : 0 <= z < 256 ^ Z.of_nat len ->
  exists b, zr_get_bytes len z = Ok b /\ length b = len /\ is_bytes b /\ zr_of_bytes b = z.
Proof. exact (bytes_roundtrip len z). Qed.
Print Assumptions C111_bytes_partial.
Theorem C111_unique_partial b : is_bytes b -> zr_get_bytes (length b) (zr_of_bytes b) = Ok b.
Proof. exact (read_get_bytes b). Qed.
Print Assumptions C111_unique_partial.
Theorem C111_sign_refuted len : (0 < len)%nat -> exists x z b, zr_of_int x = Ok z /\ zr_get_bytes len z = Ok b /\ zr_of_bytes b <> z.
Proof. exact (sign_lost len). Qed.
Print Assumptions C111_sign_refuted.
Example C111_meets_hypotheses : zr_get_bytes 3 70000 = Ok [1; 17; 112].
Proof. reflexivity. Qed.

(** * C112: the hashes to scalars and to points *)
Theorem C112_separated_partial b b' : hash_zr_input b <> hash_g1_input b' /\ hash_zr_input b <> hash_g2_input b' /\
  (hash_zr_input b = hash_zr_input b' -> b = b') /\ (hash_g1_input b = hash_g1_input b' -> b = b') /\
  (hash_g2_input b = hash_g2_input b' -> b = b').
Proof. exact (inputs_separated b b'). Qed.
Print Assumptions C112_separated_partial.
(** The hashes to the two groups read the same input. *)
Theorem C112_groups_refuted b : exists b', hash_g1_input b = hash_g2_input b'.
Proof. exact (groups_not_separated b). Qed.
Print Assumptions C112_groups_refuted.

(** * C113: printing elements *)
Theorem C113_defined_partial data st : is_bytes data ->
  ((exists st', print_element data st = Ok st') <-> Forall (fun i => i < zlen data) data) /\
  (forall st', print_element data st = Ok st' -> st_flags st' = st_flags st).
Proof. exact (print_defined_flags data st). Qed.
Print Assumptions C113_defined_partial.
Theorem C113_text_partial data st' : print_element data new_stream = Ok st' -> st_text st' = hex_text (map (look data) data).
Proof. exact (print_text_only data st'). Qed.
Print Assumptions C113_text_partial.
(** Every element with a byte that is not below the number of bytes. *)
Theorem C113_undefined_refuted data st : is_bytes data -> (exists i, In i data /\ zlen data <= i) -> print_element data st = UB.
Proof. exact (print_undefined data st). Qed.
Print Assumptions C113_undefined_refuted.
(** Where it is defined, the text is not that of the bytes, and does not determine them. *)
Theorem C113_text_refuted : exists data data' st', data <> data' /\ length data = length data' /\
  print_element data new_stream = Ok st' /\ print_element data' new_stream = Ok st' /\ st_text st' <> hex_text data.
Proof. exact print_text_refuted. Qed.
Print Assumptions C113_text_refuted.
Example C113_meets_hypotheses : exists st', print_element [0] new_stream = Ok st' /\ st_text st' = [48; 120; 48; 10] /\
  print_element (4 :: repeat 200 64) new_stream = UB.
Proof. exact print_example. Qed.

(** * C114: functions on int *)
Theorem C114_int_partial g h r :
  (int_add g h = Ok r <-> r = g + h /\ INT_MIN <= g + h <= INT_MAX) /\
  (int_sub g h = Ok r <-> r = g - h /\ INT_MIN <= g - h <= INT_MAX) /\
  (int_mul g h = Ok r <-> r = g * h /\ INT_MIN <= g * h <= INT_MAX) /\
  (int_div g h = Ok r <-> h <> 0 /\ r = Z.quot g h /\ INT_MIN <= Z.quot g h <= INT_MAX) /\
  (int_div g 0 = Throw LogicError).
Proof. exact (int_functions g h r). Qed.
Print Assumptions C114_int_partial.
Theorem C114_power_partial R a zr : relic_ok R -> 0 <= a -> -1 <= zr <= INT_MAX ->
  let power := gt_power (gt_inv R) (pow (GT R)) in
  exp_int power (pow (GT R) (genT R) a) zr = Ok (pow (GT R) (genT R) ((a * zr) mod order R)).
Proof. exact (gt_exp_int R a zr). Qed.
Print Assumptions C114_power_partial.
Theorem C114_overflow_refuted : exists g h, INT_MIN <= g <= INT_MAX /\ INT_MIN <= h <= INT_MAX /\ h <> 0 /\
  int_add g g = UB /\ int_sub g (- h) = UB /\ int_mul g h = UB /\ int_div g h = UB.
Proof. exact int_overflow. Qed.
Print Assumptions C114_overflow_refuted.
Theorem C114_power_refuted : exists r, INT_MIN <= r <= INT_MAX /\ forall (X : Type) (power : X -> Z -> X) g, exp_int power g r = UB.
Proof. exact exp_overflow. Qed.
Print Assumptions C114_power_refuted.
Example C114_meets_hypotheses : relic_ok toy /\ int_div (-7) 2 = Ok (-3) /\
  exp_int (gt_power (gt_inv toy) (pow (GT toy))) 30 (-1) = Ok 71.
Proof. exact int_example. Qed.

(** * C115: RELIC is initialised while a handle is alive *)
Theorem C115_scoped_partial l : Forall scoped l ->
  (fst (hrun l) <> [] <-> snd (hrun l) = Some true) /\ (fst (hrun l) = [] <-> snd (hrun l) = None).
Proof. exact (scoped_alive l). Qed.
Print Assumptions C115_scoped_partial.
(** Two handles, the first destroyed first: the constructors throw though a handle is alive. *)
Theorem C115_order_refuted e : relic_starts e -> exists k, fst (hrun [New e; New e; Del k]) <> [] /\
  error_if_relic_not_init (snd (hrun [New e; New e; Del k])) = Throw RuntimeError.
Proof. exact (order_refuted e). Qed.
Print Assumptions C115_order_refuted.
(** A curve that cannot be set: the exception leaves RELIC started, and the next handle does not set the curve. *)
Theorem C115_failure_refuted e : e_core_init e = 0 -> e_param e <> 0 -> forall e', relic_starts e' ->
  fst (handle_new true e None) = Throw RuntimeError /\ hrun [New e; New e'] = ([false], Some false).
Proof. exact (failure_refuted e). Qed.
Print Assumptions C115_failure_refuted.
Example C115_meets_hypotheses : let e := env_ok_0 in relic_starts e /\ Forall scoped [New e; New e; Del 0; New e] /\
  hrun [New e; New e; Del 0; New e] = ([false; true], Some true).
Proof. exact scoped_example. Qed.

(** * C116: init_crypto_lib and cleanup_crypto_lib *)
Theorem C116_ready_partial ossl e s : good_env e -> released s ->
  fst (init_crypto_lib ossl e s) = Ok tt /\
  let s' := snd (init_crypto_lib ossl e s) in
  l_core s' = Some true /\ error_if_relic_not_init (l_core s') = Ok tt /\ l_callbacks s' = ossl /\ take_lock s' = Ok tt /\
  l_misuse s' = true /\ l_prp s' = Some (e_aesni e) /\ released (cleanup_crypto_lib ossl s').
Proof. exact (init_ready ossl e s). Qed.
Print Assumptions C116_ready_partial.
Theorem C116_pairs_partial ossl es : Forall good_env es -> released (lrun ossl (pairs es)).
Proof. exact (pairs_from_fresh ossl es). Qed.
Print Assumptions C116_pairs_partial.
Theorem C116_locks_partial ossl l : mallocs_again false l -> take_lock (lrun ossl l) = Ok tt.
Proof. exact (locks_again ossl l). Qed.
Print Assumptions C116_locks_partial.
Theorem C116_relic_partial ossl l : Forall starts l ->
  l_core (lrun ossl l) <> None <-> l_handle (lrun ossl l) = Some true \/ In true (l_lost (lrun ossl l)).
Proof. exact (core_iff ossl l). Qed.
Print Assumptions C116_relic_partial.
Theorem C116_cleanup_partial ossl s : cleanup_crypto_lib ossl (cleanup_crypto_lib ossl s) = cleanup_crypto_lib ossl s.
Proof. exact (cleanup_twice ossl s). Qed.
Print Assumptions C116_cleanup_partial.
(** Initialising twice: cleaning up, as often as one wants, leaves RELIC initialised and an array of mutexes allocated. *)
Theorem C116_twice_refuted e k : good_env e ->
  let s := lrun true ([Init e; Init e] ++ repeat Cleanup k) in l_core s = Some true /\ l_lost_locks s = 1 /\ l_lost s = [true].
Proof. exact (twice_refuted e k). Qed.
Print Assumptions C116_twice_refuted.
(** An initialisation that throws keeps what it has acquired. *)
Theorem C116_failure_refuted : exists e, fst (init_crypto_lib true e fresh) = Throw RuntimeError /\ ~ released (snd (init_crypto_lib true e fresh)).
Proof. exact init_failure_refuted. Qed.
Print Assumptions C116_failure_refuted.
(** The result of init_locks is not looked at: initialising again without memory succeeds, and the next lock dereferences null. *)
Theorem C116_locks_refuted : exists e e', fst (init_crypto_lib true e fresh) = Ok tt /\
  fst (init_crypto_lib true e' (snd (init_crypto_lib true e fresh))) = Ok tt /\ take_lock (lrun true [Init e; Init e']) = UB.
Proof. exact locks_refuted. Qed.
Print Assumptions C116_locks_refuted.
Example C116_meets_locks : mallocs_again false [Init {| e_core_init := 0; e_core_left := None; e_param := 0; e_new := true; e_malloc := false; e_sodium := 0; e_aesni := true |}; Cleanup; Init env_ok_0].
Proof. cbn. split; [discriminate|split; [discriminate|exact I]]. Qed.
Example C116_meets_hypotheses : good_env env_ok_0 /\ released fresh /\ l_core (lrun true [Init env_ok_0]) = Some true.
Proof. exact lib_example. Qed.

(** * C117: interpolation in the exponent *)
Theorem C117_interpolates R G g x xs q : relic_ok R -> generates G g (order R) ->
  NoDup xs -> Forall (member (order R)) xs -> 0 <= x <= order R -> Forall (fun a => 0 <= a) q -> (length q <= length xs)%nat ->
  lagrange_interp (order R) (gcd_ext R) G x xs (map (fun a => pow G g (poly q a)) xs) = Ok (pow G g (poly q x)).
Proof. exact (interpolates R G g x xs q). Qed.
Print Assumptions C117_interpolates.
Theorem C117_equal_points R G x xs ys : relic_ok R -> Forall (member (order R)) xs -> ~ NoDup xs -> length ys = length xs ->
  0 <= x <= order R -> lagrange_interp (order R) (gcd_ext R) G x xs ys = Throw LogicError.
Proof. exact (equal_points R G x xs ys). Qed.
Print Assumptions C117_equal_points.
Theorem C117_too_many_values R G x xs ys : relic_ok R -> NoDup xs -> Forall (member (order R)) xs -> (length xs < length ys)%nat ->
  0 <= x <= order R -> lagrange_interp (order R) (gcd_ext R) G x xs ys = Throw OutOfRange.
Proof. exact (too_many R G x xs ys). Qed.
Print Assumptions C117_too_many_values.
(** 4 + 3 X + 2 X^2 + X^3 at 60, from its values at 5, 0, 100, 7 *)
Example C117_meets_hypotheses : relic_ok toy /\ NoDup [5; 0; 100; 7] /\ Forall (member (order toy)) [5; 0; 100; 7] /\
  lagrange_interp 101 (gcd_ext toy) (GT toy) 60 [5; 0; 100; 7] (map (fun a => poly [4; 3; 2; 1] a mod 101) [5; 0; 100; 7]) =
  Ok (poly [4; 3; 2; 1] 60 mod 101).
Proof. exact interp_example. Qed.
