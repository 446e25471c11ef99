(** The statements of the properties of the wrappers, assembled. *)
From Coq Require Import Lia Znumtheory.
From Verif Require Import Base BaseFacts PpkeModel PpkeSpec PpkeExample PpkeProofs RelicModel RelicSpec RelicProofs RelicProofs2 LagrangeProofs.

Lemma ring_rep n gext mxp x y : arith_ok n gext mxp -> member n x -> member n y ->
  represents n (zr_add n x y) (x + y) /\ represents n (zr_sub n x y) (x - y) /\ represents n (zr_neg n x) (- x) /\
  represents n (zr_mul n x y) (x * y).
Proof.
  intros AO Hx Hy. split; [exact (add_rep _ _ _ AO x y)|]. split; [exact (sub_rep _ _ _ AO x y Hx Hy)|].
  split; [exact (neg_rep n x Hx)|exact (mul_rep _ _ _ AO x y Hx Hy)].
Qed.
Lemma division_rep n gext mxp x y : arith_ok n gext mxp -> member n x -> member n y ->
  (y = 0 -> zr_div n gext x y = Throw LogicError) /\
  (y <> 0 -> exists d, zr_div n gext x y = Ok d /\ member n d /\ (n | d * y - x)) /\
  (y <> 0 -> member n (zr_inverse n gext y) /\ (n | y * zr_inverse n gext y - 1)).
Proof.
  intros AO Hx Hy. split; [intros ->; reflexivity|]. split; intros Hz.
  - exact (div_rep _ _ _ AO x y Hx Hy Hz).
  - exact (inv_rep _ _ _ AO y Hy Hz).
Qed.
Lemma powers_rep n gext mxp x r : arith_ok n gext mxp -> member n x -> 0 <= r ->
  represents n (zr_power n mxp x r) (x ^ r) /\
  (r <= INT_MAX -> exists z, zr_power_int n mxp x r = Ok z /\ represents n z (x ^ r)).
Proof.
  intros AO Hx Hr. split; [exact (power_rep _ _ _ AO x r Hx Hr)|]. intros L. exact (power_int_rep _ _ _ AO x r Hx (conj Hr L)).
Qed.
Lemma shifts_rep n gext mxp x b : arith_ok n gext mxp -> member n x -> 0 <= b ->
  represents n (zr_shl n x b) (x * 2 ^ b) /\
  member n (zr_shr x b) /\ zr_shr x b * 2 ^ b <= x < (zr_shr x b + 1) * 2 ^ b.
Proof. intros AO Hx Hb. split; [exact (shl_rep _ _ _ AO x b Hx Hb)|exact (shr_member n x b Hx Hb)]. Qed.
Lemma comparison_ok n z : (zr_is_member n z = true <-> member n z) /\
  (forall x y, member n x -> member n y -> zr_eq x y = true <-> (n | x - y)).
Proof. split; [apply is_member_iff|apply eq_iff]. Qed.

Lemma toy_arith : arith_ok 101 (gcd_ext toy) (fun x r n => x ^ r mod n).
Proof.
  split.
  - exact toy_prime.
  - discriminate.
  - intros a Ha. destruct (ok_gcd_ext toy toy_ok a Ha) as [H1 H2]. change (order toy) with 101 in *.
    assert (B : gcd_ext toy a 101 < 0).
    { change (gcd_ext toy a 101) with (a ^ (101 - 2) mod 101 - 101). pose proof (Z.mod_pos_bound (a ^ (101 - 2)) 101 eq_refl). lia. }
    split.
    + split; [|lia]. destruct (Z.eq_dec (gcd_ext toy a 101) (-101)) as [E|E]; [|lia]. rewrite E in H2.
      rewrite (Z.mod_mul a (-101)) in H2 || (replace (a * -101) with (- a * 101) in H2 by ring; rewrite Z.mod_mul in H2); discriminate.
    + apply Zmod_divide; [lia|]. rewrite Zminus_mod, H2. reflexivity.
  - reflexivity.
Qed.
Lemma arith_example : arith_ok 101 (gcd_ext toy) (fun x r n => x ^ r mod n) /\ member 101 77 /\ member 101 50 /\
  zr_add 101 77 50 = 26 /\ zr_sub 101 50 77 = 74 /\ zr_mul 101 77 50 = 12 /\ zr_neg 101 77 = 24 /\
  zr_div 101 (gcd_ext toy) 77 50 = Ok 48 /\ zr_shl 101 77 3 = 10.
Proof. split; [exact toy_arith|]. unfold member. repeat split; try lia; vm_compute; reflexivity. Qed.

Lemma residues n gext mxp x y b : arith_ok n gext mxp -> 0 <= b ->
  (n | zr_add n x y - (x + y)) /\ (n | zr_sub n x y - (x - y)) /\ (n | zr_neg n x - - x) /\ (n | zr_mul n x y - x * y) /\
  (n | zr_shl n x b - x * 2 ^ b) /\
  member n (zr_add n x y) /\ (member n (zr_sub n x y) <-> - n <= x - y) /\ (member n (zr_mul n x y) <-> - n <= x * y).
Proof.
  intros AO Hb. pose proof (n_gt _ _ _ AO) as Hn. split; [apply (add_rep _ _ _ AO)|]. split; [apply (shift_div _ _ _ AO)|].
  split; [unfold zr_neg; cbv zeta; destruct (- x <? 0); [exists 1|exists 0]; ring|]. split; [apply (shift_div _ _ _ AO)|].
  split; [unfold zr_shl; cbv zeta; destruct (n <? x * 2 ^ b); [apply mod_rep; lia|exists 0; ring]|].
  split; [apply (add_rep _ _ _ AO)|]. split; apply (shift_member _ _ _ AO).
Qed.
Lemma hash_member R b : relic_ok R ->
  (order R | hash_to_zr R b - be_decode (sha R (1 :: b))) /\
  (member (order R) (hash_to_zr R b) <-> be_decode (sha R (1 :: b)) <> order R).
Proof.
  intros RO. pose proof (n_pos R RO) as Hn. pose proof (be_decode_range _ (ok_sha R RO (1 :: b))) as Hr.
  unfold hash_to_zr, member. cbv zeta. destruct (order R <? be_decode (sha R (1 :: b))) eqn:E; [apply Z.ltb_lt in E|apply Z.ltb_ge in E].
  - split; [apply mod_rep; lia|]. pose proof (Z.mod_pos_bound (be_decode (sha R (1 :: b))) (order R) ltac:(lia)). split; lia.
  - split; [exists 0; ring|]. lia.
Qed.
Lemma land_digit d e : is_digit d -> is_digit e -> is_digit (Z.land d e).
Proof.
  unfold is_digit. intros Hd He. split; [apply Z.land_nonneg; lia|]. destruct (Z.eq_dec (Z.land d e) 0) as [->|N]; [reflexivity|].
  apply Z.log2_lt_pow2; [pose proof (proj2 (Z.land_nonneg d e) ltac:(lia)); lia|].
  apply Z.le_lt_trans with (Z.min (Z.log2 d) (Z.log2 e)); [apply Z.log2_land; lia|].
  apply Z.le_lt_trans with (Z.log2 d); [apply Z.le_min_l|]. destruct (Z.eq_dec d 0) as [->|Hd0]; [reflexivity|]. apply Z.log2_lt_pow2; lia.
Qed.
Lemma and_ok a b : bn_normal a -> bn_normal b -> bn_neg a = false -> bn_neg b = false ->
  bn_value (zr_and a b) = Z.land (bn_value a) (bn_value b) /\ Forall is_digit (bn_dp (zr_and a b)).
Proof.
  intros [Da _] [Db _] Na Nb. unfold bn_value. rewrite Na, Nb. cbn [zr_and bn_neg bn_dp]. split; [apply and_value; assumption|].
  clear Na Nb. revert Da Db. generalize (bn_dp a) (bn_dp b). intros l m Dl. revert m. induction Dl as [|d l Hd _ IH]; intros m Dm; [constructor|].
  destruct Dm as [|e m He Dm]; [constructor|]. cbn [and_digits]. constructor; [apply land_digit; assumption|apply IH; exact Dm].
Qed.
Lemma product_refuted n : 2 < n -> exists x y z, zr_of_int x = Ok z /\ member n y /\ ~ member n (zr_mul n z y) /\
  zr_eq (zr_mul n z y) ((z * y) mod n) = false.
Proof.
  intros Hn. exists (-2), (n - 1), (-2). pose proof (product_not_member n Hn) as N. split; [reflexivity|]. split; [unfold member; lia|]. split; [exact N|].
  apply Z.eqb_neq. intros E. apply N. rewrite E. apply Z.mod_pos_bound. lia.
Qed.
Lemma least_int : exists x, INT_MIN <= x <= INT_MAX /\ zr_of_int x = UB.
Proof. exists INT_MIN. split; [unfold INT_MIN, INT_MAX; lia|reflexivity]. Qed.
Lemma division_refuted n gext mxp x : arith_ok n gext mxp -> 0 < x < n -> exists y b d, is_bytes b /\ y = zr_of_bytes b /\
  (n | y) /\ zr_div n gext x y = Ok d /\ ~ (n | d * y - x).
Proof.
  intros AO Hx. set (k := Z.to_nat (Z.log2 n + 1)).
  assert (B : 0 <= n < 256 ^ Z.of_nat k).
  { split; [lia|]. unfold k. pose proof (Z.log2_nonneg n). rewrite Z2Nat.id by lia. pose proof (Z.log2_spec n ltac:(lia)) as [_ L].
    apply Z.lt_le_trans with (2 ^ Z.succ (Z.log2 n)); [exact L|]. apply Z.pow_le_mono_l. lia. }
  exists n, (be_encode k n). eexists. split; [apply be_encode_bytes|]. split; [symmetry; apply be_decode_encode; exact B|].
  split; [apply Z.divide_refl|]. unfold zr_div. destruct (n =? 0) eqn:E; [apply Z.eqb_eq in E; lia|]. split; [reflexivity|].
  generalize (zr_mul n x (zr_inv n gext n)). intros d [c C]. assert (D : (n | x)) by (exists (d - c); rewrite Z.mul_sub_distr_r, <- C; ring). apply Z.divide_pos_le in D; lia.
Qed.
Lemma inverse_refuted n gext mxp : arith_ok n gext mxp -> exists x, member n x /\ ~ (n | x * zr_inverse n gext x - 1).
Proof.
  intros AO. pose proof (n_gt _ _ _ AO) as Hn. exists 0. split; [unfold member; lia|]. rewrite Z.mul_0_l. intros D.
  assert (D1 : (n | 1)) by (apply Z.divide_opp_r; exact D). apply Z.divide_pos_le in D1; lia.
Qed.
Lemma hash_refuted : exists R b, relic_ok R /\ ~ member (order R) (hash_to_zr R b).
Proof. exists toy, [88]. split; [exact toy_ok|]. vm_compute. intros [_ H]. discriminate H. Qed.
Lemma and_refuted : exists a b, bn_normal a /\ bn_normal b /\ ~ bn_normal (zr_and a b).
Proof.
  exists {| bn_neg := false; bn_dp := [1; 1] |}, {| bn_neg := false; bn_dp := [1; 2] |}. unfold bn_normal, is_digit, dig_bits. cbn [bn_dp last].
  split; [split; [repeat constructor; lia|discriminate]|]. split; [split; [repeat constructor; lia|discriminate]|]. intros [_ H]. apply H. reflexivity.
Qed.

Lemma bytes_roundtrip len z : 0 <= z < 256 ^ Z.of_nat len ->
  exists b, zr_get_bytes len z = Ok b /\ length b = len /\ is_bytes b /\ zr_of_bytes b = z.
Proof. intros H. destruct (get_bytes_ok len z H) as [b E]. exists b. split; [exact E|]. apply (get_bytes_read len z b); [lia|exact E]. Qed.
Lemma sign_lost len : (0 < len)%nat -> exists x z b, zr_of_int x = Ok z /\ zr_get_bytes len z = Ok b /\ zr_of_bytes b <> z.
Proof.
  intros H. exists (-1), (-1), (be_encode len 1). split; [reflexivity|].
  assert (B : 0 <= 1 < 256 ^ Z.of_nat len) by (split; [lia|]; apply Z.lt_le_trans with (256 ^ 1); [reflexivity|apply Z.pow_le_mono_r; lia]).
  unfold zr_get_bytes. change (Z.abs (-1)) with 1. destruct (1 <? _) eqn:E; [|apply Z.ltb_ge in E; lia]. split; [reflexivity|].
  unfold zr_of_bytes. rewrite be_decode_encode by exact B. discriminate.
Qed.

Lemma inputs_separated b b' : hash_zr_input b <> hash_g1_input b' /\ hash_zr_input b <> hash_g2_input b' /\
  (hash_zr_input b = hash_zr_input b' -> b = b') /\ (hash_g1_input b = hash_g1_input b' -> b = b') /\
  (hash_g2_input b = hash_g2_input b' -> b = b').
Proof. repeat split; try discriminate; intros H; injection H; auto. Qed.
Lemma groups_not_separated b : exists b', hash_g1_input b = hash_g2_input b'.
Proof. exists b. reflexivity. Qed.

Lemma print_defined_flags data st : is_bytes data ->
  ((exists st', print_element data st = Ok st') <-> Forall (fun i => i < zlen data) data) /\
  (forall st', print_element data st = Ok st' -> st_flags st' = st_flags st).
Proof. intros B. split; [apply print_defined; exact B|apply print_flags]. Qed.
Lemma print_text_only data st' : print_element data new_stream = Ok st' -> st_text st' = hex_text (map (look data) data).
Proof. intros E. apply print_text. exact E. Qed.
Lemma print_text_refuted : exists data data' st', data <> data' /\ length data = length data' /\
  print_element data new_stream = Ok st' /\ print_element data' new_stream = Ok st' /\ st_text st' <> hex_text data.
Proof.
  exists [1; 0], [0; 1]. eexists. split; [discriminate|]. split; [reflexivity|]. split; [reflexivity|]. split; [reflexivity|].
  vm_compute. discriminate.
Qed.
Lemma print_example : exists st', print_element [0] new_stream = Ok st' /\ st_text st' = [48; 120; 48; 10] /\
  print_element (4 :: repeat 200 64) new_stream = UB.
Proof. eexists. split; [reflexivity|]. split; reflexivity. Qed.

Lemma int_functions g h r :
  (int_add g h = Ok r <-> r = g + h /\ INT_MIN <= g + h <= INT_MAX) /\
  (int_sub g h = Ok r <-> r = g - h /\ INT_MIN <= g - h <= INT_MAX) /\
  (int_mul g h = Ok r <-> r = g * h /\ INT_MIN <= g * h <= INT_MAX) /\
  (int_div g h = Ok r <-> h <> 0 /\ r = Z.quot g h /\ INT_MIN <= Z.quot g h <= INT_MAX) /\
  (int_div g 0 = Throw LogicError).
Proof. split; [apply c_int_iff|]. split; [apply c_int_iff|]. split; [apply c_int_iff|]. split; [apply int_div_iff|reflexivity]. Qed.
Lemma gt_exp_int R a zr : relic_ok R -> 0 <= a -> -1 <= zr <= INT_MAX ->
  let power := gt_power (gt_inv R) (pow (GT R)) in
  exp_int power (pow (GT R) (genT R) a) zr = Ok (pow (GT R) (genT R) ((a * zr) mod order R)).
Proof.
  intros RO Ha Hz. cbv zeta. unfold exp_int. rewrite of_int_ok by (unfold INT_MIN; lia). cbn [bind]. f_equal. apply gt_power_ok; [exact RO|exact Ha|lia].
Qed.
Lemma int_overflow : exists g h, INT_MIN <= g <= INT_MAX /\ INT_MIN <= h <= INT_MAX /\ h <> 0 /\
  int_add g g = UB /\ int_sub g (- h) = UB /\ int_mul g h = UB /\ int_div g h = UB.
Proof. exists INT_MIN, (-1). unfold INT_MIN, INT_MAX. repeat split; try lia; reflexivity. Qed.
Lemma exp_overflow : exists r, INT_MIN <= r <= INT_MAX /\ forall (X : Type) (power : X -> Z -> X) g, exp_int power g r = UB.
Proof. exists INT_MIN. split; [unfold INT_MIN, INT_MAX; lia|reflexivity]. Qed.
Lemma int_example : relic_ok toy /\ int_div (-7) 2 = Ok (-3) /\
  exp_int (gt_power (gt_inv toy) (pow (GT toy))) 30 (-1) = Ok 71.
Proof. split; [exact toy_ok|]. split; reflexivity. Qed.

Definition env_ok_0 : env :=
  {| e_core_init := 0; e_core_left := None; e_param := 0; e_new := true; e_malloc := true; e_sodium := 0; e_aesni := true |}.
Lemma order_refuted e : relic_starts e -> exists k, fst (hrun [New e; New e; Del k]) <> [] /\
  error_if_relic_not_init (snd (hrun [New e; New e; Del k])) = Throw RuntimeError.
Proof.
  intros S. exists 1%nat. unfold hrun. cbn [fold_left hstep fst snd]. rewrite handle_new_starts by exact S. cbn [fst snd].
  rewrite handle_new_starts by exact S. cbn [fst snd nth_error remove_nth handle_delete]. split; [discriminate|reflexivity].
Qed.
Lemma failure_refuted e : e_core_init e = 0 -> e_param e <> 0 -> forall e', relic_starts e' ->
  fst (handle_new true e None) = Throw RuntimeError /\ hrun [New e; New e'] = ([false], Some false).
Proof.
  intros C P e' S. assert (H : handle_new true e None = (Throw RuntimeError, Some false)).
  { unfold handle_new. rewrite C. destruct (e_param e =? 0) eqn:E; [apply Z.eqb_eq in E; contradiction|]. reflexivity. }
  rewrite H. split; [reflexivity|]. unfold hrun. cbn [fold_left hstep fst snd]. rewrite H. cbn [fst snd]. rewrite handle_new_starts by exact S. reflexivity.
Qed.
Lemma scoped_example : let e := env_ok_0 in relic_starts e /\ Forall scoped [New e; New e; Del 0; New e] /\
  hrun [New e; New e; Del 0; New e] = ([false; true], Some true).
Proof. cbv zeta. split; [split; reflexivity|]. split; [repeat constructor|reflexivity]. Qed.

Lemma fresh_released : released fresh.
Proof. repeat split. Qed.
Lemma pairs_from_fresh ossl es : Forall good_env es -> released (lrun ossl (pairs es)).
Proof. intros F. apply pairs_released; [exact F|exact fresh_released]. Qed.
Lemma twice_refuted e k : good_env e ->
  let s := lrun true ([Init e; Init e] ++ repeat Cleanup k) in l_core s = Some true /\ l_lost_locks s = 1 /\ l_lost s = [true].
Proof.
  intros G. cbv zeta. unfold lrun. rewrite fold_left_app.
  assert (I : forall s, (l_core s = Some true /\ l_lost_locks s = 1 /\ l_lost s = [true] /\ l_handle s <> Some true) ->
    let s' := fold_left (lstep true) (repeat Cleanup k) s in l_core s' = Some true /\ l_lost_locks s' = 1 /\ l_lost s' = [true]).
  { induction k as [|k IH]; intros s [H1 [H2 [H3 H4]]]; [cbn; auto|]. cbn [repeat fold_left]. apply IH. cbn [lstep]. unfold cleanup_crypto_lib, kill_locks.
    cbn [andb l_locks]. destruct (l_handle s) as [[|]|]; [exfalso; apply H4; reflexivity| |]; destruct (l_locks s); cbn [l_core l_lost_locks l_lost l_handle handle_delete]; repeat split; auto; discriminate. }
  apply I. cbn [fold_left lstep]. rewrite (init_good true e fresh G). cbn [snd]. rewrite (init_good true e _ G).
  cbn [snd l_core l_lost_locks l_lost l_handle l_locks fresh andb]. repeat split. discriminate.
Qed.
Lemma init_failure_refuted : exists e, fst (init_crypto_lib true e fresh) = Throw RuntimeError /\ ~ released (snd (init_crypto_lib true e fresh)).
Proof.
  exists {| e_core_init := 0; e_core_left := None; e_param := 0; e_new := true; e_malloc := true; e_sodium := -1; e_aesni := true |}.
  split; [reflexivity|]. intros [H _]. discriminate H.
Qed.
Lemma locks_refuted : exists e e', fst (init_crypto_lib true e fresh) = Ok tt /\
  fst (init_crypto_lib true e' (snd (init_crypto_lib true e fresh))) = Ok tt /\ take_lock (lrun true [Init e; Init e']) = UB.
Proof.
  exists env_ok_0, {| e_core_init := 0; e_core_left := None; e_param := 0; e_new := true; e_malloc := false; e_sodium := 1; e_aesni := true |}.
  repeat split.
Qed.
Lemma lib_example : good_env env_ok_0 /\ released fresh /\ l_core (lrun true [Init env_ok_0]) = Some true.
Proof. split; [repeat split; discriminate|]. split; [exact fresh_released|reflexivity]. Qed.

Lemma interpolates R G g x xs q : relic_ok R -> generates G g (order R) ->
  NoDup xs -> Forall (member (order R)) xs -> 0 <= x <= order R -> Forall (fun a => 0 <= a) q -> (length q <= length xs)%nat ->
  lagrange_interp (order R) (gcd_ext R) G x xs (map (fun a => pow G g (poly q a)) xs) = Ok (pow G g (poly q x)).
Proof. intros RO Ge ND M Hx Q L. exact (interp_ok R RO G g x xs q Ge ND M Hx Q L). Qed.
Lemma equal_points R G x xs ys : relic_ok R -> Forall (member (order R)) xs -> ~ NoDup xs -> length ys = length xs ->
  0 <= x <= order R -> lagrange_interp (order R) (gcd_ext R) G x xs ys = Throw LogicError.
Proof. intros RO M ND L Hx. exact (interp_equal R RO G x xs ys M ND L Hx). Qed.
Lemma too_many R G x xs ys : relic_ok R -> NoDup xs -> Forall (member (order R)) xs -> (length xs < length ys)%nat ->
  0 <= x <= order R -> lagrange_interp (order R) (gcd_ext R) G x xs ys = Throw OutOfRange.
Proof.
  intros RO ND M L Hx. unfold lagrange_interp. generalize (gunit G).
  assert (Gen : forall ys j, (length xs < j + length ys)%nat -> (j <= length xs)%nat -> forall p, lagrange_exp (order R) (gcd_ext R) G x xs j ys p = Throw OutOfRange).
  { clear ys L. induction ys as [|y ys IH]; intros j L Hj p; cbn [length] in L; [lia|]. cbn [lagrange_exp].
    destruct (Nat.eq_dec j (length xs)) as [->|N].
    - unfold lagrange_basis. rewrite (proj2 (nth_error_None xs (length xs))) by lia. reflexivity.
    - destruct (basis_ok R RO xs j x ND M ltac:(lia) Hx) as [c [-> _]]. cbn [bind]. apply IH; lia. }
  intros p. apply Gen; lia.
Qed.
Lemma interp_example : relic_ok toy /\ NoDup [5; 0; 100; 7] /\ Forall (member (order toy)) [5; 0; 100; 7] /\
  lagrange_interp 101 (gcd_ext toy) (GT toy) 60 [5; 0; 100; 7] (map (fun a => poly [4; 3; 2; 1] a mod 101) [5; 0; 100; 7]) =
  Ok (poly [4; 3; 2; 1] 60 mod 101).
Proof.
  split; [exact toy_ok|]. split; [repeat constructor; cbn [In]; lia|]. split; [|vm_compute; reflexivity].
  change (order toy) with 101. unfold member. repeat constructor; lia.
Qed.
