From Coq Require Import Lia.
From Verif Require Import Base BaseFacts MpiModel MpiProofs LimbModel LimbSpec LimbProofs LimbProofs2.

(** * Limb access *)
Lemma lupd_wp l i x : (i < length l)%nat -> Forall is_limb l -> is_limb x ->
  wpo (lupd l i x) (fun r => Forall is_limb r /\ length r = length l /\ lval r = lval l + LB ^ Z.of_nat i * (x - nth i l 0)).
Proof.
  intros Hi Hl Hx. rewrite lupd_ok by exact Hi. apply wpo_ok. repeat split.
  - apply Forall_app. split; [now apply Forall_firstn'|]. constructor; [exact Hx | now apply Forall_skipn'].
  - rewrite app_length, firstn_length. cbn [length]. rewrite skipn_length. lia.
  - rewrite (lval_split i l), lval_app, firstn_length, Nat.min_l, lval_cons, (nth_skipn_lval l i Hi) by lia. ring.
Qed.
Lemma nth_lval l i : Forall is_limb l -> nth i l 0 = lval l / LB ^ Z.of_nat i mod LB.
Proof.
  intros H. destruct (Nat.ltb_spec i (length l)) as [L|L].
  - pose proof (lval_split i l) as E. rewrite firstn_length, Nat.min_l in E by lia.
    pose proof (lval_lt (firstn i l) i (Forall_firstn' _ i _ H) ltac:(rewrite firstn_length; lia)) as B. pose proof (lval_nonneg _ (Forall_firstn' _ i _ H)) as B0.
    rewrite <- (Z.div_unique_pos (lval l) (LB ^ Z.of_nat i) (lval (skipn i l)) (lval (firstn i l))) by lia.
    pose proof (nth_skipn_lval l i L) as E2. pose proof (nth_limb l i H) as N. unfold is_limb in N.
    apply (Z.mod_unique_pos _ _ (lval (skipn (S i) l))); lia.
  - rewrite nth_overflow by exact L. rewrite Z.div_small; [reflexivity|]. split; [now apply lval_nonneg | now apply lval_lt].
Qed.

(** * Binary import and export *)
Lemma p256 n : 256 ^ n = 2 ^ (8 * n).
Proof. destruct (Z_lt_ge_dec n 0); [rewrite !Z.pow_neg_r by lia; reflexivity|]. rewrite Z.pow_mul_r by lia. reflexivity. Qed.
Lemma byte_pos j : 256 ^ Z.of_nat j = LB ^ Z.of_nat (j / 8) * 2 ^ (8 * Z.of_nat (j mod 8)).
Proof.
  rewrite p256, LB_two, <- Z.pow_add_r by lia. f_equal. pose proof (Nat.div_mod j 8 ltac:(lia)). lia.
Qed.
Lemma read_loop_ok bs j p : is_bytes bs -> Forall is_limb p -> (j + length bs <= 8 * length p)%nat -> lval p < 256 ^ Z.of_nat j ->
  wpo (read_loop bs j p) (fun r => Forall is_limb r /\ length r = length p /\ lval r = lval p + 256 ^ Z.of_nat j * le_decode bs).
Proof.
  intros Hb. revert j p. induction Hb as [|b bs Hb Hbs IH]; intros j p Hp L V.
  - cbn [read_loop le_decode]. apply wpo_ok. repeat split; try assumption. lia.
  - cbn [read_loop]. cbn [length] in L. assert (j / 8 < length p)%nat as LJ by (apply Nat.div_lt_upper_bound; lia).
    rewrite (lnth_ok _ _ 0) by exact LJ. cbn [bind]. unfold is_byte in Hb.
    pose proof (Nat.mod_upper_bound j 8 ltac:(lia)) as MJ. set (t := 8 * Z.of_nat (j mod 8)) in *.
    assert (0 <= t <= 56) as Ht by lia. rewrite (byte_pos j) in V. fold t in V.
    set (k := (j / 8)%nat) in *. set (x := nth k p 0).
    pose proof (Z.pow_pos_nonneg 2 t ltac:(lia) ltac:(lia)) as PT. pose proof (LB_pow k) as PK.
    assert (0 <= x < 2 ^ t) as BX.
    { pose proof (nth_limb p k Hp) as N. fold x in N. unfold is_limb in N. split; [lia|].
      pose proof (lval_split k p) as E. rewrite firstn_length, Nat.min_l, (nth_skipn_lval p k LJ) in E by lia. fold x in E.
      pose proof (lval_nonneg _ (Forall_firstn' _ k _ Hp)). pose proof (lval_nonneg _ (Forall_skipn' _ (S k) _ Hp)). pose proof LB_pos.
      apply (Z.mul_lt_mono_pos_l (LB ^ Z.of_nat k)); [exact PK|]. nia. }
    assert (0 <= b * 2 ^ t < LB) as BB.
    { split; [nia|]. rewrite (LB_split t ltac:(lia)). assert (256 <= 2 ^ (64 - t)). { change 256 with (2 ^ 8). apply Z.pow_le_mono_r; lia. } nia. }
    assert (Z.lor x (u64 (Z.shiftl b t)) = x + b * 2 ^ t) as ->.
    { rewrite Z.shiftl_mul_pow2, u64_limb by (lia || exact BB). rewrite Z.lor_comm, lor_add by lia. lia. }
    assert (is_limb (x + b * 2 ^ t)) as LX.
    { unfold is_limb. split; [lia|]. rewrite (LB_split t ltac:(lia)). assert (2 ^ 8 <= 2 ^ (64 - t)) as G by (apply Z.pow_le_mono_r; lia). change (2 ^ 8) with 256 in G. nia. }
    eapply wpo_bind; [apply lupd_wp; [exact LJ | exact Hp | exact LX]|]. intros p' (F & L' & V'). fold x in V'.
    replace (x + b * 2 ^ t - x) with (b * 2 ^ t) in V' by lia.
    assert (lval p' = lval p + 256 ^ Z.of_nat j * b) as V'' by (rewrite V', (byte_pos j); fold k t; ring).
    assert (256 ^ Z.of_nat (S j) = 256 * 256 ^ Z.of_nat j) as PS by (rewrite Nat2Z.inj_succ, Z.pow_succ_r by lia; reflexivity).
    assert (lval p < 256 ^ Z.of_nat j) as V3 by (rewrite (byte_pos j); exact V).
    eapply wpo_mono; [apply IH; [exact F | lia | rewrite V'', PS; nia]|]. intros r (? & ? & VR). repeat split; try assumption; [lia|].
    rewrite VR, V'', PS. cbn [le_decode]. ring.
Qed.
Lemma skip_zeros_ok buf : is_bytes buf -> is_bytes (skip_zeros buf) /\ be_decode (skip_zeros buf) = be_decode buf /\ zlen (skip_zeros buf) = mpi_size (be_decode buf).
Proof.
  intros H. assert (forall b l, be_decode (b :: l) = b * 256 ^ zlen l + be_decode l) as BC.
  { intros b l. unfold be_decode. cbn [rev]. assert (forall a c, le_decode (a ++ [c]) = le_decode a + c * 256 ^ zlen a) as Q.
    { intros a c. induction a as [|x a IH]; cbn [app le_decode]; [change (zlen (@nil Z)) with 0; rewrite Z.pow_0_r; cbn [le_decode]; lia|]. rewrite IH, zlen_cons, Z.pow_add_r by (lia || apply zlen_nonneg). ring. }
    rewrite Q. unfold zlen. rewrite rev_length. ring. }
  induction H as [|b l Hb Hl IH]; [repeat split; constructor|]. cbn [skip_zeros]. destruct (Z.eqb_spec b 0) as [->|N].
  - destruct IH as (I1 & I2 & I3). rewrite BC. repeat split; [exact I1 | lia | rewrite I3; f_equal; lia].
  - split; [now constructor|]. split; [reflexivity|]. rewrite BC. pose proof (be_decode_range l Hl) as R. unfold is_byte in Hb.
    pose proof (zlen_nonneg l) as ZL. pose proof (Z.pow_pos_nonneg 256 (zlen l) ltac:(lia) ltac:(lia)) as PP.
    symmetry. rewrite zlen_cons. unfold mpi_size, mpi_bitlen. destruct (Z.eqb_spec (b * 256 ^ zlen l + be_decode l) 0); [nia|].
    rewrite Z.abs_eq by nia. pose proof (Z.log2_spec b ltac:(lia)) as [L1 L2]. pose proof (Z.log2_nonneg b) as L0.
    rewrite Z.pow_succ_r in L2 by lia.
    assert (Z.log2 b < 8) as L8 by (apply Z.log2_lt_pow2; [lia | change (2 ^ 8) with 256; lia]).
    rewrite (Z.log2_unique _ (8 * zlen l + Z.log2 b)); [| lia |].
    + symmetry. apply (Z.div_unique_pos _ _ _ (Z.log2 b)); lia.
    + rewrite Z.pow_succ_r, Z.pow_add_r, <- p256 by lia. nia.
Qed.
Lemma read_binary_limb X buf : mpi_ok X -> is_bytes buf -> mpi_size (be_decode buf) <= 80000 ->
  wp (l_read_binary X buf) (fun R => mpi_ok R /\ mval R = be_decode buf /\ lval (mp R) = be_decode buf /\ ms R = 1 /\
    length (mp R) = Nat.max 1 (Nat.max (length (mp X)) (Z.to_nat ((mpi_size (be_decode buf) + 7) / 8)))).
Proof.
  intros HX Hb Hn. unfold l_read_binary. destruct (skip_zeros_ok buf Hb) as (B1 & B2 & B3). cbv zeta. rewrite B3.
  set (n := mpi_size (be_decode buf)) in *. pose proof (size_nonneg (be_decode buf)) as N0. fold n in N0.
  unfold MPI_MAX_LIMBS. destruct (Z.ltb_spec (10000 * 8) n) as [Q|Q]; [lia|].
  assert (n / 8 + bz (negb (n mod 8 =? 0)) = (n + 7) / 8) as ->.
  { pose proof (Z.div_mod n 8 ltac:(lia)) as D. pose proof (Z.mod_pos_bound n 8 ltac:(lia)) as M.
    destruct (Z.eqb_spec (n mod 8) 0) as [E|E]; cbn [negb bz]; [apply (Z.div_unique_pos _ _ _ 7); lia | apply (Z.div_unique_pos _ _ _ (n mod 8 - 1)); lia]. }
  assert (0 <= (n + 7) / 8) by (apply Z.div_pos; lia).
  assert ((n + 7) / 8 <= 10000) by (apply Z.lt_succ_r, Z.div_lt_upper_bound; lia).
  pose proof (Z.div_mod (n + 7) 8 ltac:(lia)) as D. pose proof (Z.mod_pos_bound (n + 7) 8 ltac:(lia)) as M.
  eapply wp_bind; [apply grow_ok; [exact HX | lia]|]. intros Y (HY & _ & _ & LY & _).
  eapply wp_bind; [apply lset0_ok; exact HY|]. intros W (HW & PW & SW & _).
  eapply wp_bindo; [apply read_loop_ok|].
  - now apply is_bytes_rev.
  - apply HW.
  - rewrite rev_length, PW, repeat_length. unfold zlen in B3. lia.
  - rewrite PW, lval_zeros. reflexivity.
  - intros r (F & L & V). apply wp_ret. unfold mval. cbn [ms mp]. rewrite V, L, PW, lval_zeros, repeat_length, SW, LY.
    change (256 ^ Z.of_nat 0) with 1. fold (be_decode (skip_zeros buf)). rewrite B2. repeat split; try lia; [now left | exact F].
Qed.
Lemma read_binary_big X buf : is_bytes buf -> 80000 < mpi_size (be_decode buf) -> l_read_binary X buf = err ERR_MPI_ALLOC_FAILED.
Proof.
  intros Hb Hn. unfold l_read_binary. destruct (skip_zeros_ok buf Hb) as (_ & _ & B3). cbv zeta. rewrite B3.
  unfold MPI_MAX_LIMBS. destruct (Z.ltb_spec (10000 * 8) (mpi_size (be_decode buf))) as [Q|Q]; [reflexivity | lia].
Qed.
Lemma limb_byte l j : Forall is_limb l -> u8 (Z.shiftr (nth (j / 8) l 0) (8 * Z.of_nat (j mod 8))) = lval l / 256 ^ Z.of_nat j mod 256.
Proof.
  intros H. rewrite nth_lval by exact H. pose proof (Nat.mod_upper_bound j 8 ltac:(lia)) as MJ.
  rewrite Z.shiftr_div_pow2, (byte_pos j) by lia. set (t := 8 * Z.of_nat (j mod 8)) in *.
  pose proof (Z.pow_pos_nonneg 2 t ltac:(lia) ltac:(lia)) as PT. pose proof (LB_pow (j / 8)) as PK.
  rewrite <- Z.div_div by lia. set (w := lval l / LB ^ Z.of_nat (j / 8)). unfold u8.
  assert (LB = 2 ^ t * (256 * 2 ^ (56 - t))) as E.
  { rewrite (LB_split t) by lia. f_equal. change 256 with (2 ^ 8). rewrite <- Z.pow_add_r by lia. f_equal. lia. }
  pose proof (Z.pow_pos_nonneg 2 (56 - t) ltac:(lia) ltac:(lia)) as P5.
  change (2 ^ 8) with 256.
  rewrite E, Z.rem_mul_r by lia. rewrite (Z.mul_comm (2 ^ t)), Z.div_add by lia. rewrite Z.div_small by (apply Z.mod_pos_bound; lia).
  rewrite Z.add_0_l, Z.rem_mul_r by lia. rewrite (Z.mul_comm 256), Z.mod_add by lia. apply Z.mod_mod. lia.
Qed.
Lemma zlen_repeat' (n : nat) : zlen (repeat 0 n) = Z.of_nat n.
Proof. unfold zlen. now rewrite repeat_length. Qed.
Lemma write_loop_ok p : Forall is_limb p -> forall n j pre post, (j + n <= 8 * length p)%nat -> 
  wpo (write_loop n p j (pre ++ repeat 0 n ++ post) (zlen pre + Z.of_nat n - 1)) (fun r => r = pre ++ be_encode n (lval p / 256 ^ Z.of_nat j) ++ post).
Proof.
  intros Hp. induction n as [|n IH]; intros j pre post L.
  - cbn [write_loop]. apply wpo_ok. reflexivity.
  - cbn [write_loop]. assert (j / 8 < length p)%nat as LJ by (apply Nat.div_lt_upper_bound; lia).
    rewrite (lnth_ok _ _ 0) by exact LJ. cbn [bind]. rewrite limb_byte by exact Hp.
    assert (repeat 0 (S n) = repeat 0 n ++ [0]) as RS by (change [0] with (repeat 0 1); rewrite <- repeat_app; f_equal; lia).
    rewrite RS. set (b := lval p / 256 ^ Z.of_nat j mod 256).
    assert (wr (pre ++ (repeat 0 n ++ [0]) ++ post) (zlen pre + Z.of_nat (S n) - 1) [b] = Ok (pre ++ repeat 0 n ++ [b] ++ post)) as ->.
    { unfold wr. assert (zlen [b] = 1) as -> by reflexivity. rewrite !zlen_app, zlen_repeat'. assert (zlen [0] = 1) as -> by reflexivity.
      pose proof (zlen_nonneg post). pose proof (zlen_nonneg pre).
      destruct (Z.leb_spec 0 (zlen pre + Z.of_nat (S n) - 1)); [|lia].
      destruct (Z.leb_spec (zlen pre + Z.of_nat (S n) - 1 + 1) (zlen pre + (Z.of_nat n + 1 + zlen post))); [|lia]. cbn [andb]. f_equal.
      replace (Z.to_nat (zlen pre + Z.of_nat (S n) - 1)) with (length (pre ++ repeat 0 n)) by (rewrite app_length, repeat_length; unfold zlen; lia).
      assert (pre ++ (repeat 0 n ++ [0]) ++ post = (pre ++ repeat 0 n) ++ [0] ++ post) as -> by (rewrite <- !app_assoc; reflexivity).
      rewrite firstn_app, Nat.sub_diag, firstn_O, app_nil_r, firstn_all.
      rewrite skipn_app, skipn_all2 by (cbn [length]; lia). cbn [length]. rewrite Nat.add_comm, Nat.add_sub. cbn [app skipn].
      rewrite <- !app_assoc. reflexivity. }
    cbn [bind]. replace (zlen pre + Z.of_nat (S n) - 1 - 1) with (zlen pre + Z.of_nat n - 1) by lia.
    eapply wpo_mono; [apply (IH (S j) pre ([b] ++ post)); lia|]. intros r ->. f_equal.
    rewrite app_assoc. f_equal. unfold be_encode. cbn [le_encode rev]. rewrite Nat2Z.inj_succ, Z.pow_succ_r, Z.mul_comm, <- Z.div_div by (try apply Z.pow_pos_nonneg; lia). reflexivity.
Qed.
Lemma be_encode_zeros m n x : 0 <= x < 256 ^ Z.of_nat n -> be_encode (m + n) x = zeros m ++ be_encode n x.
Proof.
  intros H. unfold be_encode, zeros. assert (forall n x, 0 <= x < 256 ^ Z.of_nat n -> le_encode (n + m) x = le_encode n x ++ repeat 0 m) as Q.
  { clear. intros n. induction n as [|n IH]; intros x H.
    - change (256 ^ Z.of_nat 0) with 1 in H. assert (x = 0) as -> by lia. cbn [Nat.add]. cbn [le_encode app]. induction m as [|m IHm]; cbn [le_encode repeat]; [reflexivity|]. rewrite Z.mod_0_l, Z.div_0_l, IHm by lia. reflexivity.
    - cbn [Nat.add le_encode app]. rewrite IH; [reflexivity|]. rewrite Nat2Z.inj_succ, Z.pow_succ_r in H by lia.
      split; [apply Z.div_pos; lia | apply Z.div_lt_upper_bound; lia]. }
  rewrite Nat.add_comm, Q, rev_app_distr by exact H. f_equal. symmetry. rewrite <- (rev_involutive (repeat 0 m)) at 1. f_equal.
  clear. induction m as [|m IH]; [reflexivity|]. cbn [repeat rev]. rewrite IH. change [0] with (repeat 0 1). rewrite <- repeat_app. replace (m + 1)%nat with (S m) by lia. reflexivity.
Qed.
Lemma size_lt x : 0 <= x -> x < 256 ^ mpi_size x.
Proof.
  intros H. rewrite p256. pose proof (bitlen_nonneg x) as B. assert (x < 2 ^ mpi_bitlen x) as L by (apply bitlen_le; [exact H | exact B | lia]).
  eapply Z.lt_le_trans; [exact L|]. apply Z.pow_le_mono_r; [lia|]. unfold mpi_size.
  pose proof (Z.div_mod (mpi_bitlen x + 7) 8 ltac:(lia)). pose proof (Z.mod_pos_bound (mpi_bitlen x + 7) 8 ltac:(lia)). lia.
Qed.
Lemma write_binary_limb X buf : mpi_ok X ->
  l_write_binary X buf = if zlen buf <? mpi_size (lval (mp X)) then err ERR_MPI_BUFFER_TOO_SMALL else ret (be_encode (length buf) (lval (mp X))).
Proof.
  intros HX. unfold l_write_binary. rewrite size_ok by exact HX. cbn [bind]. set (v := lval (mp X)) in *. set (n := mpi_size v) in *.
  destruct (Z.ltb_spec (zlen buf) n) as [Q|Q]; [reflexivity|]. pose proof (size_nonneg v) as N0. fold n in N0.
  pose proof (lval_range _ (proj2 HX)) as R. fold v in R.
  assert (n <= 8 * zlen (mp X)) as NL.
  { unfold n, mpi_size. pose proof (bitlen_len (mp X) (proj2 HX)) as B. fold v in B. apply Z.lt_succ_r. apply Z.div_lt_upper_bound; lia. }
  assert (zeros (length buf) = zeros (length buf - Z.to_nat n) ++ repeat 0 (Z.to_nat n) ++ []) as ->.
  { unfold zeros. rewrite app_nil_r, <- repeat_app. f_equal. unfold zlen in Q. lia. }
  destruct (write_loop_ok (mp X) (proj2 HX) (Z.to_nat n) 0 (zeros (length buf - Z.to_nat n)) []) as (r & E & ->); [unfold zlen in NL; lia|].
  replace (zlen (zeros (length buf - Z.to_nat n)) + Z.of_nat (Z.to_nat n) - 1) with (zlen buf - 1) in E by (unfold zlen, zeros in *; rewrite repeat_length; lia).
  rewrite E. cbn [bind]. unfold ret. f_equal. f_equal. change (256 ^ Z.of_nat 0) with 1. rewrite Z.div_1_r, app_nil_r. fold v.
  replace (length buf) with ((length buf - Z.to_nat n) + Z.to_nat n)%nat at 2 by (unfold zlen in Q; lia).
  symmetry. apply be_encode_zeros. rewrite Z2Nat.id by lia. split; [lia | apply size_lt; lia].
Qed.

(** * Lowest set bit, bit access *)
Lemma limb_lsb_ok k x j : 0 <= j -> 
  match limb_lsb k x j with
  | Some i => j <= i < j + Z.of_nat k /\ Z.testbit x i = true /\ (forall m, j <= m < i -> Z.testbit x m = false)
  | None => forall m, j <= m < j + Z.of_nat k -> Z.testbit x m = false
  end.
Proof.
  revert j. induction k as [|k IH]; intros j Hj; cbn [limb_lsb]; [intros; lia|].
  assert (Z.land (Z.shiftr x j) 1 = bz (Z.testbit x j)) as ->.
  { change 1 with (Z.ones 1). rewrite Z.land_ones, Z.shiftr_div_pow2 by lia. change (2 ^ 1) with 2. rewrite <- Z.testbit_spec' by exact Hj. destruct (Z.testbit x j); reflexivity. }
  destruct (Z.testbit x j) eqn:E; cbn [bz].
  - change (1 =? 0) with false. cbv iota. split; [lia|]. split; [exact E | intros; lia].
  - change (0 =? 0) with true. cbv iota. specialize (IH (j + 1) ltac:(lia)). destruct (limb_lsb k x (j + 1)) as [i|].
    + destruct IH as (I1 & I2 & I3). repeat split; try lia; [exact I2|]. intros m Hm. destruct (Z.eq_dec m j) as [->|]; [exact E | apply I3; lia].
    + intros m Hm. destruct (Z.eq_dec m j) as [->|]; [exact E | apply IH; lia].
Qed.
Lemma testbit_lval x p m : is_limb x -> 0 <= m -> Z.testbit (x + LB * lval p) m = if m <? 64 then Z.testbit x m else Z.testbit (lval p) (m - 64).
Proof.
  intros Hx Hm. unfold is_limb in Hx. replace (x + LB * lval p) with (Z.lor (lval p * 2 ^ 64) x) by (rewrite lor_add by (exact Hx || lia); unfold LB; ring).
  rewrite Z.lor_spec. destruct (Z.ltb_spec m 64).
  - rewrite Z.mul_pow2_bits_low by lia. reflexivity.
  - rewrite Z.mul_pow2_bits by lia. assert (Z.testbit x m = false) as ->; [|apply orb_false_r].
    destruct (Z.eq_dec x 0) as [->|]; [apply Z.bits_0|]. apply Z.bits_above_log2; [lia|]. assert (Z.log2 x < 64) by (apply Z.log2_lt_pow2; [lia | apply Hx]). lia.
Qed.
Lemma lsb_loop_ok p c : Forall is_limb p -> 0 <= c -> lval p <> 0 ->
  let i := lsb_loop p c - c in 0 <= i /\ Z.testbit (lval p) i = true /\ (forall m, 0 <= m < i -> Z.testbit (lval p) m = false).
Proof.
  intros H. revert c. induction H as [|x p Hx Hp IH]; intros c Hc N; [cbn in N; lia|]. cbn [lsb_loop].
  pose proof (limb_lsb_ok 64 x 0 ltac:(lia)) as L. destruct (limb_lsb 64 x 0) as [i|].
  - destruct L as (L1 & L2 & L3). cbv zeta. replace (c + i - c) with i by lia. rewrite lval_cons. split; [lia|]. split.
    + rewrite testbit_lval by (assumption || lia). destruct (Z.ltb_spec i 64); [exact L2 | lia].
    + intros m Hm. rewrite testbit_lval by (assumption || lia). destruct (Z.ltb_spec m 64); [apply L3; lia | lia].
  - assert (x = 0) as ->.
    { apply Z.bits_inj'. intros m Hm. rewrite Z.bits_0. destruct (Z_lt_ge_dec m 64) as [Q|Q]; [apply L; lia|].
      unfold is_limb in Hx. destruct (Z.eq_dec x 0) as [->|]; [apply Z.bits_0|]. apply Z.bits_above_log2; [lia|]. assert (Z.log2 x < 64) by (apply Z.log2_lt_pow2; [lia | apply Hx]). lia. }
    rewrite lval_cons in N. pose proof LB_pos. destruct (IH (c + 64) ltac:(lia) ltac:(nia)) as (I1 & I2 & I3). cbv zeta.
    set (i := lsb_loop p (c + 64) - (c + 64)) in *. replace (lsb_loop p (c + 64) - c) with (i + 64) by lia. rewrite lval_cons. split; [lia|]. split.
    + rewrite testbit_lval by (assumption || lia). destruct (Z.ltb_spec (i + 64) 64); [lia|]. replace (i + 64 - 64) with i by lia. exact I2.
    + intros m Hm. rewrite testbit_lval by (assumption || lia). destruct (Z.ltb_spec m 64); [apply Z.bits_0 | apply I3; lia].
Qed.
Lemma lsb_zero p c : lval p = 0 -> Forall is_limb p -> lsb_loop p c = 0.
Proof.
  intros V H. revert c V. induction H as [|x p Hx Hp IH]; intros c V; [reflexivity|]. rewrite lval_cons in V. unfold is_limb in Hx.
  pose proof (lval_nonneg _ Hp). pose proof LB_pos. assert (x = 0) as -> by nia. assert (lval p = 0) as V0 by nia.
  cbn [lsb_loop]. replace (limb_lsb 64 0 0) with (@None Z) by reflexivity. apply IH. exact V0.
Qed.
(** The greatest power of two dividing the value *)
Lemma lsb_ok X : mpi_ok X -> lval (mp X) <> 0 ->
  0 <= l_lsb X /\ (2 ^ l_lsb X | lval (mp X)) /\ Z.odd (lval (mp X) / 2 ^ l_lsb X) = true.
Proof.
  intros [_ H] N. unfold l_lsb. destruct (lsb_loop_ok (mp X) 0 H ltac:(lia) N) as (L0 & L1 & L2).
  rewrite Z.sub_0_r in *. set (i := lsb_loop (mp X) 0) in *. split; [exact L0|]. split.
  - apply Z.mod_divide; [pose proof (Z.pow_pos_nonneg 2 i); lia|]. rewrite <- Z.land_ones by lia. apply Z.bits_inj'. intros m Hm. rewrite Z.land_spec, Z.bits_0.
    destruct (Z_lt_ge_dec m i) as [Q|Q]; [rewrite L2 by lia; reflexivity|]. rewrite Z.ones_spec_high by lia. apply andb_false_r.
  - rewrite <- Z.shiftr_div_pow2, <- Z.bit0_odd, Z.shiftr_spec, Z.add_0_l by lia. exact L1.
Qed.
