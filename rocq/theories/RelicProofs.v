(** Proofs about the wrappers around RELIC. *)
From Coq Require Import Lia Znumtheory.
From Verif Require Import Base BaseFacts PpkeModel RelicModel RelicSpec.

Lemma mod_rep n v : 0 < n -> represents n (v mod n) v.
Proof.
  intros Hn. split; [apply Z.mod_pos_bound; exact Hn|]. exists (- (v / n)). pose proof (Z_div_mod_eq_full v n). lia.
Qed.
Lemma divides_self n k v : (n | v + n * k - v).
Proof. exists k. ring. Qed.

Section Arith.
  Context (n : Z) (gext : Z -> Z -> Z) (mxp : Z -> Z -> Z -> Z) (AO : arith_ok n gext mxp).

  Lemma n_gt : 2 < n.
  Proof. destruct AO as [P O _ _]. destruct P as [P _]. lia. Qed.

  Lemma add_rep x y : represents n (zr_add n x y) (x + y).
  Proof. pose proof n_gt. apply mod_rep. lia. Qed.
  Lemma shift_rep v : - n <= v -> represents n (if v <? 0 then v + n else v mod n) v.
  Proof.
    intros Hv. pose proof n_gt. destruct (v <? 0) eqn:E; [|apply mod_rep; lia]. apply Z.ltb_lt in E.
    split; [unfold member; lia|]. exists 1. ring.
  Qed.
  Lemma shift_div v : (n | (if v <? 0 then v + n else v mod n) - v).
  Proof. pose proof n_gt. destruct (v <? 0); [exists 1; ring|]. apply mod_rep. lia. Qed.
  Lemma shift_member v : member n (if v <? 0 then v + n else v mod n) <-> - n <= v.
  Proof.
    pose proof n_gt. split; [|intros; apply shift_rep; assumption]. destruct (v <? 0) eqn:E; unfold member; [|apply Z.ltb_ge in E]; lia.
  Qed.
  Lemma sub_rep x y : member n x -> member n y -> represents n (zr_sub n x y) (x - y).
  Proof. unfold member. intros Hx Hy. apply shift_rep. lia. Qed.
  Lemma mul_rep x y : member n x -> member n y -> represents n (zr_mul n x y) (x * y).
  Proof. unfold member. intros Hx Hy. apply shift_rep. nia. Qed.
  Lemma neg_rep x : member n x -> represents n (zr_neg n x) (- x).
  Proof.
    unfold member. intros Hx. unfold zr_neg. cbv zeta. destruct (- x <? 0) eqn:E; [apply Z.ltb_lt in E|apply Z.ltb_ge in E].
    - split; [unfold member; lia|]. exists 1. ring.
    - split; [unfold member; lia|]. exists 0. ring.
  Qed.

  Lemma inv_rep y : member n y -> y <> 0 -> member n (zr_inv n gext y) /\ (n | y * zr_inv n gext y - 1).
  Proof.
    unfold member. intros Hy Hz. destruct (ao_gext _ _ _ AO y ltac:(lia)) as [R [k K]]. unfold zr_inv. cbv zeta.
    destruct (gext y n <? 0) eqn:E; [apply Z.ltb_lt in E|apply Z.ltb_ge in E].
    - split; [lia|]. exists (k + y). rewrite Z.mul_add_distr_r, <- K. ring.
    - split; [lia|]. exists k. exact K.
  Qed.
  Lemma div_rep x y : member n x -> member n y -> y <> 0 ->
    exists d, zr_div n gext x y = Ok d /\ member n d /\ (n | d * y - x).
  Proof.
    intros Hx Hy Hz. destruct (inv_rep y Hy Hz) as [Mi [k K]]. unfold zr_div.
    destruct (y =? 0) eqn:E; [apply Z.eqb_eq in E; contradiction|]. eexists. split; [reflexivity|].
    destruct (mul_rep x (zr_inv n gext y) Hx Mi) as [M [j J]]. split; [exact M|].
    exists (j * y + k * x). set (i := zr_inv n gext y) in *. set (m := zr_mul n x i) in *.
    assert (E1 : m * y = (j * n + x * i) * y) by (f_equal; lia). rewrite E1.
    replace ((j * n + x * i) * y - x) with (j * n * y + (y * i - 1) * x) by ring. rewrite K. ring.
  Qed.
  Lemma div_zero x : zr_div n gext x 0 = Throw LogicError.
  Proof. reflexivity. Qed.
  Lemma power_rep x r : member n x -> 0 <= r -> represents n (zr_power n mxp x r) (x ^ r).
  Proof. intros Hx Hr. pose proof n_gt. unfold zr_power. rewrite (ao_mxp _ _ _ AO) by assumption. apply mod_rep. lia. Qed.
  Lemma power_int_rep x r : member n x -> 0 <= r <= INT_MAX -> exists z, zr_power_int n mxp x r = Ok z /\ represents n z (x ^ r).
  Proof.
    intros Hx Hr. pose proof n_gt. exists (zr_power n mxp x r). split; [|apply power_rep; [assumption|lia]].
    unfold zr_power_int, zr_of_int. destruct (r <? 0) eqn:E; [apply Z.ltb_lt in E; lia|]. reflexivity.
  Qed.

  Lemma shl_not_order x b : member n x -> 0 <= b -> x * 2 ^ b <> n.
  Proof.
    unfold member. intros Hx Hb E. pose proof n_gt. pose proof (ao_prime _ _ _ AO) as P.
    destruct (Z.eq_dec b 0) as [->|Hb0]; [rewrite Z.pow_0_r in E; lia|].
    assert (D : (2 | n)).
    { exists (x * 2 ^ (b - 1)). rewrite <- E. replace b with (Z.succ (b - 1)) at 1 by lia. rewrite Z.pow_succ_r by lia. ring. }
    apply prime_div_prime in D; [|exact prime_2|exact P]. lia.
  Qed.
  Lemma shl_rep x b : member n x -> 0 <= b -> represents n (zr_shl n x b) (x * 2 ^ b).
  Proof.
    intros Hx Hb. pose proof n_gt. pose proof (shl_not_order x b Hx Hb) as Hne. unfold zr_shl. cbv zeta.
    destruct (n <? x * 2 ^ b) eqn:E; [apply mod_rep; lia|]. apply Z.ltb_ge in E.
    pose proof (Z.pow_pos_nonneg 2 b ltac:(lia) Hb). unfold member in *. split; [unfold member; nia|]. exists 0. ring.
  Qed.
  Lemma shr_member x b : member n x -> 0 <= b -> member n (zr_shr x b) /\ zr_shr x b * 2 ^ b <= x < (zr_shr x b + 1) * 2 ^ b.
  Proof.
    unfold member. intros Hx Hb. pose proof (Z.pow_pos_nonneg 2 b ltac:(lia) Hb) as P. unfold zr_shr. rewrite (Z.abs_eq x) by lia.
    assert (E : Z.sgn x * (x / 2 ^ b) = x / 2 ^ b).
    { destruct (Z.eq_dec x 0) as [->|Hz]; [rewrite Z.div_0_l by lia; reflexivity|]. rewrite Z.sgn_pos by lia. ring. }
    rewrite E. pose proof (Z_div_mod_eq_full x (2 ^ b)). pose proof (Z.mod_pos_bound x (2 ^ b) P).
    assert (0 <= x / 2 ^ b) by (apply Z.div_pos; lia). assert (x / 2 ^ b <= x) by (apply Z.div_le_upper_bound; [lia|nia]).
    split; [lia|nia].
  Qed.

  Lemma is_member_iff z : zr_is_member n z = true <-> member n z.
  Proof. unfold zr_is_member, member. rewrite andb_true_iff, Z.ltb_lt, Z.leb_le. lia. Qed.
  Lemma eq_iff x y : member n x -> member n y -> zr_eq x y = true <-> (n | x - y).
  Proof.
    unfold member, zr_eq. intros Hx Hy. rewrite Z.eqb_eq. split; [intros ->; exists 0; ring|]. intros [k K].
    assert (k = 0) by nia. subst k. lia.
  Qed.

  Lemma rep_unique z z' v : represents n z v -> represents n z' v -> z = z'.
  Proof.
    intros [M [k K]] [M' [k' K']]. apply Z.eqb_eq. apply (eq_iff z z' M M'). exists (k - k'). lia.
  Qed.
End Arith.

(** Scalars that are not reduced *)
Lemma of_int_ok x : INT_MIN < x <= INT_MAX -> zr_of_int x = Ok x.
Proof.
  unfold INT_MIN, INT_MAX. intros H. unfold zr_of_int, c_int, INT_MIN, INT_MAX. destruct (x <? 0) eqn:E; [|reflexivity]. apply Z.ltb_lt in E.
  destruct (- 2 ^ 31 <=? - x) eqn:E1; [|apply Z.leb_gt in E1; lia]. destruct (- x <=? 2 ^ 31 - 1) eqn:E2; [|apply Z.leb_gt in E2; lia].
  cbn [andb bind]. f_equal. lia.
Qed.
Lemma of_int_range x : INT_MIN <= x <= INT_MAX -> x <> INT_MIN <-> zr_of_int x <> UB.
Proof.
  intros H. split.
  - intros N. rewrite of_int_ok by lia. discriminate.
  - intros N ->. apply N. reflexivity.
Qed.
Lemma product_not_member n : 2 < n -> ~ member n (zr_mul n (-2) (n - 1)).
Proof. intros Hn. unfold zr_mul, member. cbv zeta. destruct (-2 * (n - 1) <? 0) eqn:E; [|apply Z.ltb_ge in E]; lia. Qed.

(** Conjunction of digits *)
Lemma land_split d e a b : 0 <= d < 2 ^ dig_bits -> 0 <= e < 2 ^ dig_bits -> 0 <= a -> 0 <= b ->
  Z.land (d + 2 ^ dig_bits * a) (e + 2 ^ dig_bits * b) = Z.land d e + 2 ^ dig_bits * Z.land a b.
Proof.
  intros Hd He Ha Hb.
  assert (L : forall x y, 0 <= x < 2 ^ dig_bits -> x + 2 ^ dig_bits * y = Z.lor x (Z.shiftl y dig_bits)).
  { intros x y Hx. rewrite Z.shiftl_mul_pow2 by (unfold dig_bits; lia). rewrite (Z.mul_comm y).
    rewrite <- Z.lxor_lor, <- Z.add_nocarry_lxor; [reflexivity| |].
    all: apply Z.bits_inj'; intros i Hi; rewrite Z.land_spec, Z.bits_0, (Z.mul_comm (2 ^ dig_bits)).
    all: destruct (Z.lt_ge_cases i dig_bits) as [C|C].
    all: try (rewrite Z.mul_pow2_bits_low by exact C; apply andb_false_r).
    all: rewrite (Z.bits_above_log2 x) by (first [lia | destruct (Z.eq_dec x 0) as [->|Hx0]; [cbn; unfold dig_bits in C; lia|]; apply Z.lt_le_trans with dig_bits; [apply Z.log2_lt_pow2; lia|exact C]]); reflexivity. }
  assert (R : 0 <= Z.land d e < 2 ^ dig_bits).
  { split; [apply Z.land_nonneg; lia|]. destruct (Z.eq_dec (Z.land d e) 0) as [->|N]; [reflexivity|].
    apply Z.log2_lt_pow2; [pose proof (proj2 (Z.land_nonneg d e) ltac:(lia)); lia|].
    apply Z.le_lt_trans with (Z.min (Z.log2 d) (Z.log2 e)); [apply Z.log2_land; lia|].
    apply Z.le_lt_trans with (Z.log2 d); [apply Z.le_min_l|]. destruct (Z.eq_dec d 0) as [->|Hd0]; [reflexivity|]. apply Z.log2_lt_pow2; lia. }
  rewrite (L d a Hd), (L e b He), (L (Z.land d e) (Z.land a b) R).
  apply Z.bits_inj'. intros i Hi. rewrite ?Z.lor_spec, ?Z.land_spec, ?Z.lor_spec.
  destruct (Z.lt_ge_cases i dig_bits) as [C|C].
  - rewrite !Z.shiftl_spec_low by exact C. rewrite !orb_false_r. reflexivity.
  - rewrite !Z.shiftl_spec by exact Hi. rewrite !Z.land_spec.
    assert (B : forall x, 0 <= x < 2 ^ dig_bits -> Z.testbit x i = false).
    { intros x Hx. destruct (Z.eq_dec x 0) as [->|N]; [apply Z.bits_0|]. apply Z.bits_above_log2; [lia|].
      apply Z.lt_le_trans with dig_bits; [apply Z.log2_lt_pow2; lia|exact C]. }
    rewrite (B d Hd), (B e He). reflexivity.
Qed.
Lemma value_nonneg l : Forall is_digit l -> 0 <= digits_value l.
Proof.
  induction 1 as [|d l Hd _ IH]; [reflexivity|]. cbn [digits_value]. unfold is_digit in Hd.
  assert (0 <= 2 ^ dig_bits * digits_value l) by (apply Z.mul_nonneg_nonneg; [lia|exact IH]). lia.
Qed.
Lemma and_value a b : Forall is_digit a -> Forall is_digit b ->
  digits_value (and_digits a b) = Z.land (digits_value a) (digits_value b).
Proof.
  intros Ha. revert b. induction Ha as [|d a Hd Ha IH]; intros b Hb.
  - cbn [and_digits digits_value]. rewrite Z.land_0_l. reflexivity.
  - destruct Hb as [|e b He Hb]; [cbn [and_digits digits_value]; rewrite Z.land_0_r; reflexivity|].
    cbn [and_digits digits_value]. rewrite (IH b Hb). symmetry. apply land_split; [exact Hd|exact He|apply value_nonneg; exact Ha|apply value_nonneg; exact Hb].
Qed.

(** Bytes of scalars *)
Lemma get_bytes_read len z b : 0 <= z -> zr_get_bytes len z = Ok b -> length b = len /\ is_bytes b /\ zr_of_bytes b = z.
Proof.
  intros Hz. unfold zr_get_bytes, zr_of_bytes. rewrite Z.abs_eq by exact Hz. destruct (z <? 256 ^ Z.of_nat len) eqn:E; [|discriminate].
  apply Z.ltb_lt in E. intros [= <-]. split; [apply be_encode_length|]. split; [apply be_encode_bytes|]. apply be_decode_encode. lia.
Qed.
Lemma get_bytes_ok len z : 0 <= z < 256 ^ Z.of_nat len -> exists b, zr_get_bytes len z = Ok b.
Proof. intros H. unfold zr_get_bytes. rewrite Z.abs_eq by lia. destruct (z <? _) eqn:E; [eauto|apply Z.ltb_ge in E; lia]. Qed.
Lemma read_get_bytes b : is_bytes b -> zr_get_bytes (length b) (zr_of_bytes b) = Ok b.
Proof.
  intros Hb. pose proof (be_decode_range b Hb) as R. unfold zr_get_bytes, zr_of_bytes. rewrite Z.abs_eq by lia.
  destruct (_ <? _) eqn:E; [|apply Z.ltb_ge in E; unfold zlen in R; lia]. rewrite be_encode_decode by exact Hb. reflexivity.
Qed.
