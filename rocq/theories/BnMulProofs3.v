(** Division of two limbs by one without the 128-bit type *)
From Coq Require Import Lia.
From Verif Require Import Base BaseFacts MpiModel MpiProofs LimbModel LimbSpec LimbProofs LimbProofs2 LimbProofs4 BnMulModel BnMulProofs.

Lemma fix_digit_ok d1 d0 u n1 : let d := d1 * H32 + d0 in H32 <= 2 * d1 -> d1 < H32 -> 0 <= d0 < H32 -> 0 <= u < H32 -> 0 <= n1 < d ->
  forall fuel q r0, q * d1 + r0 = n1 -> 0 <= r0 < H32 -> (n1 * H32 + u) / d <= q <= H32 + 1 -> H32 <= r0 + Z.of_nat fuel * d1 ->
  fix_digit fuel q r0 d1 d0 u = Ok ((n1 * H32 + u) / d).
Proof.
  intros d D1 D1' D0 U N. assert (0 < H32) as PH by reflexivity. assert (0 < d) as PD by (unfold d; nia).
  assert (0 <= (n1 * H32 + u) / d < H32) as QT. { split; [apply Z.div_pos; nia|]. apply Z.div_lt_upper_bound; nia. }
  pose proof (Z.div_mod (n1 * H32 + u) d ltac:(lia)) as DM. pose proof (Z.mod_pos_bound (n1 * H32 + u) d PD) as MB.
  set (t := (n1 * H32 + u) / d) in *. set (w := (n1 * H32 + u) mod d) in *. clearbody t w.
  induction fuel as [|fuel IH]; intros q r0 E R Q F; cbn [fix_digit]; change (2 ^ 32) with H32; [lia|].
  assert (q * d = (n1 - r0) * H32 + q * d0) as QD by (unfold d; rewrite <- E; ring).
  assert (u64 (H32 * r0 + u) = H32 * r0 + u) as W1. { apply u64_limb. unfold is_limb. rewrite LB_H32. clear - R U PH. nia. }
  rewrite W1.
  assert (forall x, (H32 <=? q) || (H32 * r0 + u <? u64 (q * d0)) = x -> x = (t <? q)) as COND.
  { intros x <-. destruct (Z.leb_spec H32 q) as [A|A]; cbn [orb]; [symmetry; apply Z.ltb_lt; lia|].
    rewrite u64_limb by (unfold is_limb; rewrite LB_H32; clear - A Q QT D0 PH; nia).
    destruct (Z.ltb_spec (H32 * r0 + u) (q * d0)) as [B|B]; symmetry.
    - apply Z.ltb_lt. clear - B QD DM MB PD. nia.
    - apply Z.ltb_ge. clear - B QD DM MB PD. nia. }
  rewrite (COND _ eq_refl). clear COND. destruct (Z.ltb_spec t q) as [L|L]; [|f_equal; lia].
  rewrite (u64_limb (q - 1)) by (unfold is_limb; rewrite LB_H32; assert (3 < H32) by reflexivity; clear - L Q QT H; nia).
  rewrite (u64_limb (r0 + d1)) by (unfold is_limb; rewrite LB_H32; assert (3 < H32) by reflexivity; clear - R D1 D1' H; nia).
  destruct (Z.leb_spec H32 (r0 + d1)) as [B|B].
  - f_equal. assert ((q - 1) * d <= n1 * H32 + u); [|clear - H L DM MB PD; nia].
    assert ((q - 1) * d = (n1 - (r0 + d1)) * H32 + (q - 1) * d0) as QD' by (unfold d; rewrite <- E; ring). rewrite QD'. clear - B Q D0 U PH QT L. nia.
  - apply IH; try lia.
Qed.
Lemma digit_ok d1 d0 u n1 : H32 <= 2 * d1 -> d1 < H32 -> 0 <= d0 < H32 -> 0 <= u < H32 -> 0 <= n1 < d1 * H32 + d0 ->
  fix_digit 3 (n1 / d1) (u64 (n1 - d1 * (n1 / d1))) d1 d0 u = Ok ((n1 * H32 + u) / (d1 * H32 + d0)).
Proof.
  intros D1 D1' D0 U N. assert (0 < H32) as PH by reflexivity. assert (0 < d1) as PD by lia. pose proof (Z.div_mod n1 d1 ltac:(lia)) as DM. pose proof (Z.mod_pos_bound n1 d1 PD) as MB.
  replace (n1 - d1 * (n1 / d1)) with (n1 mod d1) by lia. rewrite u64_limb by (unfold is_limb; rewrite LB_H32; nia).
  apply (fix_digit_ok d1 d0 u n1); try assumption; try lia. split.
  - apply Z.lt_succ_r. apply Z.div_lt_upper_bound; [nia|]. nia.
  - apply Z.lt_succ_r. apply Z.div_lt_upper_bound; [lia|]. nia.
Qed.
(** Two digits of the quotient *)
Lemma two_digits D n1 x0 l : 0 < D -> 0 <= n1 -> 0 <= x0 < H32 -> 0 <= l < H32 ->
  ((n1 * H32 + x0) * H32 + l) / D = (n1 * H32 + x0) / D * H32 + ((n1 * H32 + x0) mod D * H32 + l) / D.
Proof.
  intros PD N X L. pose proof (Z.div_mod (n1 * H32 + x0) D ltac:(lia)) as E. set (q := (n1 * H32 + x0) / D) in *. set (r := (n1 * H32 + x0) mod D) in *.
  rewrite E. replace ((D * q + r) * H32 + l) with (r * H32 + l + (q * H32) * D) by ring. rewrite Z.div_add by lia. lia.
Qed.
Lemma clz_spec d : is_limb d -> 0 < d -> 0 <= l_clz d < 64 /\ 2 ^ 63 <= d * 2 ^ l_clz d < 2 ^ 64.
Proof.
  intros Hd P. rewrite clz_ok by exact Hd. unfold mpi_bitlen. destruct (Z.eqb_spec d 0); [lia|]. rewrite Z.abs_eq by lia. pose proof (Z.log2_spec d P) as [A B]. pose proof (Z.log2_nonneg d) as C.
  assert (Z.log2 d < 64) as L by (apply Z.log2_lt_pow2; [exact P | apply Hd]). split; [lia|].
  set (g := Z.log2 d) in *. replace (64 - (g + 1)) with (63 - g) by lia.
  assert (2 ^ 63 = 2 ^ g * 2 ^ (63 - g)) as E1 by (rewrite <- Z.pow_add_r by lia; f_equal; lia).
  assert (2 ^ 64 = 2 ^ Z.succ g * 2 ^ (63 - g)) as E2 by (rewrite <- Z.pow_add_r by lia; f_equal; lia).
  assert (0 < 2 ^ (63 - g)) as PP by (apply Z.pow_pos_nonneg; lia). rewrite E1, E2. clear - A B PP. nia.
Qed.
Lemma int_div_half_ok u1 u0 d : is_limb u1 -> is_limb u0 -> 0 < d < 2 ^ 63 -> u1 < d -> int_div_half u1 u0 d = Ok ((u1 * LB + u0) / d).
Proof.
  intros H1 H0 Hd LT. assert (is_limb d) as HD. { unfold is_limb, LB. change (2 ^ 64) with (2 * 2 ^ 63). clear - Hd. lia. }
  unfold int_div_half. destruct (Z.eqb_spec d 0); [lia|]. destruct (Z.leb_spec d u1); [lia|]. cbn [orb].
  destruct (clz_spec d HD ltac:(lia)) as [S1 S2]. set (s := l_clz d) in *. clearbody s.
  destruct (Z.eqb_spec s 0) as [->|S0]; [exfalso; clear - S2 Hd; rewrite Z.pow_0_r in S2; lia|]. destruct (Z.ltb_spec 0 s); [|lia].
  assert (0 < 2 ^ s) as PS by (apply Z.pow_pos_nonneg; lia).
  rewrite !Z.shiftl_mul_pow2, (Z.shiftr_div_pow2 u0) by lia.
  assert (u64 (d * 2 ^ s) = d * 2 ^ s) as -> by (apply u64_limb; unfold is_limb, LB; split; [nia | apply S2]).
  assert (u64 (u1 * 2 ^ s) = u1 * 2 ^ s) as ->. { apply u64_limb. unfold is_limb, LB in *. split; [nia|]. clear - S2 LT PS. nia. }
  assert (2 ^ 64 = 2 ^ s * 2 ^ (64 - s)) as P64 by (rewrite <- Z.pow_add_r by lia; f_equal; lia).
  assert (0 < 2 ^ (64 - s)) as PT by (apply Z.pow_pos_nonneg; lia).
  assert (0 <= u0 / 2 ^ (64 - s) < 2 ^ s) as DB. { unfold is_limb, LB in H0. split; [apply Z.div_pos; lia|]. apply Z.div_lt_upper_bound; [exact PT|]. rewrite Z.mul_comm, <- P64. apply H0. }
  change (2 ^ 64 - 1) with (Z.ones 64). rewrite Z.land_ones by lia. 
  rewrite (Z.mod_small (u0 / 2 ^ (64 - s))) by (split; [apply DB | eapply Z.lt_le_trans; [apply DB | apply Z.pow_le_mono_r; lia]]).
  rewrite lor_add by lia. set (D := d * 2 ^ s) in *. set (n1 := u1 * 2 ^ s + u0 / 2 ^ (64 - s)).
  assert (u0 * 2 ^ s = LB * (u0 / 2 ^ (64 - s)) + u64 (u0 * 2 ^ s)) as EU.
  { rewrite u64_LB. unfold LB. rewrite P64 at 1 2. rewrite (Z.mul_comm u0), Z.mul_mod_distr_l by lia. rewrite (Z.div_mod u0 (2 ^ (64 - s))) at 1 by lia. ring. }
  assert (is_limb (u64 (u0 * 2 ^ s))) as HU by apply is_limb_u64. set (w := u64 (u0 * 2 ^ s)) in *. clearbody w.
  assert ((u1 * LB + u0) / d = (n1 * LB + w) / D) as GOAL.
  { unfold D. rewrite <- (Z.div_mul_cancel_r _ d (2 ^ s)) by lia. f_equal. unfold n1. rewrite Z.mul_add_distr_r, EU. ring. }
  assert (0 <= n1 < D) as NB. { unfold n1, D. unfold is_limb in *. clear - DB LT H1 PS. nia. }
  rewrite GOAL. clearbody n1 D. clear GOAL EU H0 H1 DB P64 PT PS LT Hd HD S0 S1. change (2 ^ 64) with LB in S2. 
  assert (is_limb D) as HD by (unfold is_limb; lia).
  rewrite !Z.shiftr_div_pow2 by lia. change (2 ^ 32 - 1) with (Z.ones 32). rewrite !Z.land_ones by lia. change (2 ^ 32) with H32.
  destruct (halves D HD) as (D1 & D0 & ED). destruct (halves w HU) as (W1 & W0 & EW). 
  assert (H32 <= 2 * (D / H32)) as DT. { clear - S2 ED D0. change (2 ^ 63) with (H32 * 2 ^ 31) in S2. assert (H32 = 2 * 2 ^ 31) as E by reflexivity. assert (0 < 2 ^ 31) as P by reflexivity. rewrite E in *. nia. }
  set (d1 := D / H32) in *. set (d0 := D mod H32) in *. set (w1 := w / H32) in *. set (w0 := w mod H32) in *. clearbody d1 d0 w1 w0.
  assert (D = d1 * H32 + d0) as ED' by lia. assert (0 < H32) as PH by reflexivity. assert (0 < D) as PD by (clear - ED' DT D0 PH; nia).
  rewrite digit_ok by (try assumption; try lia). cbn [bind]. rewrite <- ED'.
  assert (0 <= (n1 * H32 + w1) / D < H32) as Q1. { split; [apply Z.div_pos; [clear - NB W1 PH; nia | exact PD]|]. apply Z.div_lt_upper_bound; [exact PD|]. clear - NB W1 PH. nia. }
  pose proof (Z.div_mod (n1 * H32 + w1) D ltac:(lia)) as DM. pose proof (Z.mod_pos_bound (n1 * H32 + w1) D PD) as MB.
  assert (u64 (n1 * H32 + u64 (w1 - (n1 * H32 + w1) / D * D)) = (n1 * H32 + w1) mod D) as ->.
  { rewrite !u64_LB. rewrite Z.add_mod_idemp_r by (pose proof LB_pos; lia). replace (n1 * H32 + (w1 - (n1 * H32 + w1) / D * D)) with ((n1 * H32 + w1) mod D) by (clear - DM; lia). apply Z.mod_small. clear - MB HD. unfold is_limb in HD. lia. }
  rewrite (Z.mul_comm ((n1 * H32 + w1) mod D / d1) d1). 
  rewrite digit_ok by (try assumption; try lia). cbn [bind]. rewrite <- ED'. f_equal.
  replace (n1 * LB + w) with ((n1 * H32 + w1) * H32 + w0) by (rewrite EW, LB_H32; ring). rewrite two_digits by (try assumption; lia).
  assert (0 <= ((n1 * H32 + w1) mod D * H32 + w0) / D < H32) as Q0. { split; [apply Z.div_pos; [clear - MB W0 PH; nia | exact PD]|]. apply Z.div_lt_upper_bound; [exact PD|]. clear - MB W0 PH. nia. }
  apply u64_limb. unfold is_limb. rewrite LB_H32. clear - Q0 Q1 PH. nia.
Qed.
Lemma int_div_half_same u1 u0 d : is_limb u1 -> is_limb u0 -> 0 <= d < 2 ^ 63 -> int_div_half u1 u0 d = Ok (int_div_int u1 u0 d).
Proof.
  intros H1 H0 Hd. destruct (Z.eqb_spec d 0) as [->|N]; [reflexivity|]. destruct (Z.le_gt_cases d u1) as [L|L].
  - unfold int_div_half, int_div_int. rewrite (proj2 (Z.leb_le _ _) L), orb_true_r. reflexivity.
  - rewrite int_div_half_ok by lia || assumption. rewrite int_div_int_ok; try assumption; [reflexivity|]. unfold is_limb, LB. change (2 ^ 64) with (2 * 2 ^ 63). lia.
Qed.
Lemma int_div_half_ub u1 u0 d : is_limb u1 -> is_limb u0 -> 2 ^ 63 <= d < 2 ^ 64 -> u1 < d -> int_div_half u1 u0 d = UB.
Proof.
  intros H1 H0 Hd LT. unfold int_div_half. destruct (Z.eqb_spec d 0); [lia|]. destruct (Z.leb_spec d u1); [lia|]. cbn [orb].
  assert (l_clz d = 0) as ->; [|reflexivity]. destruct (clz_spec d ltac:(unfold is_limb, LB; lia) ltac:(lia)) as [S1 S2].
  destruct (Z.eq_dec (l_clz d) 0) as [E|E]; [exact E|]. exfalso. assert (2 ^ 1 <= 2 ^ l_clz d) as P by (apply Z.pow_le_mono_r; lia). change (2 ^ 1) with 2 in P. change (2 ^ 64) with (2 * 2 ^ 63) in *. clear - Hd S2 P. nia.
Qed.
From Verif Require Import LimbProofs8.
Lemma bits_of_unique v a b : bits_of v a -> bits_of v b -> a = b.
Proof.
  intros (A0 & A1 & A2) (B0 & B1 & B2). destruct (Z.lt_trichotomy a b) as [L|[L|L]]; [|exact L|]; [specialize (B2 a ltac:(lia)) | specialize (A2 b ltac:(lia))]; lia.
Qed.
Lemma bitlen_shift v k : 0 < v -> 0 <= k -> mpi_bitlen (v * 2 ^ k) = mpi_bitlen v + k.
Proof.
  intros V K. assert (0 < 2 ^ k) by (apply Z.pow_pos_nonneg; lia). unfold mpi_bitlen. destruct (Z.eqb_spec v 0); [lia|]. destruct (Z.eqb_spec (v * 2 ^ k) 0); [nia|].
  rewrite !Z.abs_eq by nia. rewrite Z.log2_mul_pow2 by lia. lia.
Qed.
Lemma normalised B Y b : mpi_ok B -> mpi_ok Y -> mval B <> 0 -> bits_of (Z.abs (mval B)) b ->
  Z.abs (mval Y) = Z.abs (mval B) * 2 ^ (if b mod 64 <? 63 then 63 - b mod 64 else 0) -> 2 ^ 62 <= nth (sig (mp Y) - 1) (mp Y) 0 < 2 ^ 63.
Proof.
  intros HB HY NZ BO E. assert (0 < Z.abs (mval B)) as P by lia. pose proof (bits_of_unique _ _ _ BO (bits_of_bitlen _ (Z.lt_le_incl _ _ P))) as ->.
  set (v := Z.abs (mval B)) in *. set (b := mpi_bitlen v) in *. pose proof (Z.mod_pos_bound b 64 ltac:(lia)) as MB. set (k := if b mod 64 <? 63 then 63 - b mod 64 else 0) in *.
  assert (0 <= k) as K by (unfold k; destruct (Z.ltb_spec (b mod 64) 63); lia).
  assert ((b + k) mod 64 = 63) as M.
  { unfold k. destruct (Z.ltb_spec (b mod 64) 63); [|rewrite Z.add_0_r; lia]. pose proof (Z.div_mod b 64 ltac:(lia)). replace (b + (63 - b mod 64)) with (63 + (b / 64) * 64) by lia. rewrite Z.mod_add by lia. reflexivity. }
  pose proof (bitlen_ok Y HY) as L. rewrite mval_abs in E by exact HY. rewrite E, bitlen_shift in L by assumption. fold b in L. unfold l_bitlen in L.
  assert (0 < 2 ^ k) as PK by (apply Z.pow_pos_nonneg; lia). assert (lval (mp Y) <> 0) as NY by (rewrite E; nia).
  destruct (mp Y) as [|y0 l0] eqn:EY; [cbn in NY; congruence|]. rewrite <- EY in *. clear y0 l0 EY.
  assert (sig (mp Y) <> O) as SG by (intros Q; apply NY, sig_zero; [apply HY | exact Q]). pose proof (sig_le (mp Y)) as SL. replace (Nat.max 1 (sig (mp Y)) - 1)%nat with (sig (mp Y) - 1)%nat in L by lia.
  rewrite (lnth_ok _ _ 0) in L by lia. cbn [bind] in L. assert (is_limb (nth (sig (mp Y) - 1) (mp Y) 0)) as HL by (apply nth_limb, HY).
  assert (nth (sig (mp Y) - 1) (mp Y) 0 <> 0) as N0.
  { destruct (sig (mp Y)) as [|s] eqn:ES; [congruence|]. destruct (sig_nonzero_top _ _ (proj2 HY) ES) as (y & Ny & Y0). replace (S s - 1)%nat with s by lia. now rewrite (nth_error_nth _ _ 0 Ny). }
  set (x := nth _ _ _) in *. destruct (clz_spec x HL ltac:(unfold is_limb in HL; lia)) as [C1 C2]. assert (Z.of_nat (sig (mp Y) - 1) * 64 + (64 - l_clz x) = b + k) as EQ by congruence.
  rewrite <- EQ in M. set (c := l_clz x) in *. clearbody c. rewrite Z.add_comm, Z.mod_add in M by lia.
  assert (c = 1) as ->. { destruct (Z.eq_dec c 0) as [->|]; [rewrite Z.sub_0_r in M; discriminate M|]. rewrite Z.mod_small in M by lia. lia. }
  change (2 ^ 1) with 2 in C2. change (2 ^ 63) with (2 ^ 62 * 2) in C2 at 1. change (2 ^ 64) with (2 ^ 63 * 2) in C2. lia.
Qed.
Lemma int_div_half_bad : exists u1 u0 d, is_limb u1 /\ is_limb u0 /\ is_limb d /\ 0 < d /\ u1 < d /\ int_div_half u1 u0 d <> Ok ((u1 * 2 ^ 64 + u0) / d).
Proof. exists 1, 0, (2 ^ 63). unfold is_limb, LB. split; [lia|]. split; [lia|]. split; [lia|]. split; [lia|]. split; [lia|]. vm_compute. discriminate. Qed.
