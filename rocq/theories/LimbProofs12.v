From Coq Require Import Lia Znumtheory.
From Verif Require Import Base BaseFacts MpiModel MpiProofs LimbModel LimbModel2 LimbSpec LimbProofs LimbProofs2 LimbProofs3 LimbProofs4 LimbProofs5 LimbProofs6 LimbProofs7 LimbProofs8 LimbProofs9 LimbProofs10 LimbProofs11.

(** * Greatest common divisor *)
Lemma gcd_cancel m x y : Z.gcd m y = 1 -> Z.gcd (m * x) y = Z.gcd x y.
Proof.
  intros C. apply Z.divide_antisym_nonneg; try apply Z.gcd_nonneg; apply Z.gcd_greatest; try apply Z.gcd_divide_r.
  - apply (Z.gauss _ m); [apply Z.gcd_divide_l|]. apply Z.divide_antisym_nonneg; [apply Z.gcd_nonneg | lia | | apply Z.divide_1_l].
    rewrite <- C. apply Z.gcd_greatest; [apply Z.gcd_divide_r|]. eapply Z.divide_trans; [apply Z.gcd_divide_l | apply Z.gcd_divide_r].
  - apply Z.divide_mul_r, Z.gcd_divide_l.
Qed.
Lemma gcd_2_odd y : Z.odd y = true -> Z.gcd 2 y = 1.
Proof.
  intros O. pose proof (Z.gcd_nonneg 2 y) as P. pose proof (Z.gcd_divide_l 2 y) as D. pose proof (Z.gcd_divide_r 2 y) as D2. pose proof (Z.divide_pos_le (Z.gcd 2 y) 2 ltac:(lia) D) as L.
  assert (Z.gcd 2 y <> 0) by (intros E; apply Z.gcd_eq_0_l in E; lia). assert (Z.gcd 2 y <> 2); [|lia].
  intros E. rewrite E in D2. destruct D2 as [q ->]. rewrite Z.odd_mul, andb_false_r in O. discriminate.
Qed.
Lemma gcd_pow2_odd k y : 0 <= k -> Z.odd y = true -> Z.gcd (2 ^ k) y = 1.
Proof.
  intros Hk O. pattern k. apply natlike_ind; [change (2 ^ 0) with 1; apply Z.gcd_1_l | | exact Hk].
  intros i Hi IH. rewrite Z.pow_succ_r by exact Hi. rewrite gcd_cancel by (now apply gcd_2_odd). exact IH.
Qed.
Lemma gcd_pow2 k x y : 0 <= k -> Z.odd y = true -> Z.gcd (x * 2 ^ k) y = Z.gcd x y.
Proof. intros Hk O. rewrite Z.mul_comm. apply gcd_cancel. now apply gcd_pow2_odd. Qed.
Lemma odd_pow2_factor x k y j : 0 <= k -> 0 <= j -> Z.odd x = true -> Z.odd y = true -> x * 2 ^ k = y * 2 ^ j -> k = j /\ x = y.
Proof.
  intros Hk Hj Ox Oy E.
  assert (forall k j x y, 0 <= k -> 0 <= j -> Z.odd x = true -> x * 2 ^ k = y * 2 ^ j -> j <= k) as L.
  { clear. intros k j x y Hk Hj Ox E. destruct (Z_le_gt_dec j k) as [Q|Q]; [exact Q|]. exfalso.
    replace j with (k + (j - k)) in E by lia. rewrite Z.pow_add_r in E by lia. assert (0 < 2 ^ k) by (apply Z.pow_pos_nonneg; lia).
    assert (x = y * 2 ^ (j - k)) as -> by nia. replace (j - k) with (Z.succ (j - k - 1)) in Ox by lia. rewrite Z.pow_succ_r, !Z.odd_mul in Ox by lia. cbn in Ox. rewrite andb_false_r in Ox. discriminate. }
  pose proof (L k j x y Hk Hj Ox E). pose proof (L j k y x Hj Hk Oy (eq_sym E)). assert (k = j) as -> by lia. split; [reflexivity|].
  assert (0 < 2 ^ j) by (apply Z.pow_pos_nonneg; lia). nia.
Qed.
(** What remains of a number after its trailing zeros *)
Lemma strip_ok X : mpi_ok X -> 0 < mval X ->
  wp (l_shift_r X (l_lsb X)) (fun Y => mpi_ok Y /\ 0 < mval Y <= mval X /\ Z.odd (mval Y) = true /\ mval X = mval Y * 2 ^ l_lsb X /\ 0 <= l_lsb X /\ mlen Y <= Z.max 1 (mlen X)).
Proof.
  intros HX PX. assert (lval (mp X) = mval X) as VX by (apply lval_mval; [exact HX | lia]).
  destruct (lsb_ok X HX ltac:(lia)) as (L0 & D & O). eapply wp_mono; [apply shift_r_ok; [exact HX | exact L0]|].
  cbv beta. intros Y (OY & VY & MY & LY & SY). pose proof (Z.pow_pos_nonneg 2 (l_lsb X) ltac:(lia) L0) as PP.
  assert (ms X = 1) as S1 by (unfold mval in PX; destruct HX as [[E|E] F]; [exact E|]; pose proof (lval_nonneg _ F); rewrite E in PX; lia).
  rewrite VX in *. rewrite S1, Z.mul_1_l in MY. destruct D as [q D]. rewrite D, Z.div_mul in * by lia. rewrite MY.
  split; [exact OY|]. split; [nia|]. split; [exact O|]. split; [reflexivity|]. split; [exact L0|].
  unfold mlen, zlen in *. destruct (_ || _) in LY; lia.
Qed.
Lemma strip_zero X : mpi_ok X -> mval X = 0 -> wp (l_shift_r X (l_lsb X)) (fun Y => mpi_ok Y /\ mval Y = 0 /\ mlen Y <= Z.max 1 (mlen X)).
Proof.
  intros HX ZX. assert (lval (mp X) = 0) as VX by (rewrite <- mval_abs, ZX by exact HX; reflexivity).
  assert (0 <= l_lsb X) as L0.
  { unfold l_lsb. assert (forall p c, 0 <= c -> 0 <= lsb_loop p c) as Q; [|apply Q; lia].
    assert (forall k x c, 0 <= c -> match limb_lsb k x c with Some r => 0 <= r | None => True end) as Q1.
    { induction k as [|k IH]; intros x c Hc; cbn [limb_lsb]; [exact I|]. destruct (_ =? _); [lia || apply IH; lia | lia || apply IH; lia]. }
    induction p as [|x p IH]; intros c Hc; cbn [lsb_loop]; [lia|]. specialize (Q1 64%nat x 0 ltac:(lia)). destruct (limb_lsb 64 x 0); [lia | apply IH; lia]. }
  eapply wp_mono; [apply shift_r_ok; [exact HX | exact L0]|]. cbv beta. intros Y (OY & VY & MY & LY & SY). rewrite VX, Z.div_0_l, Z.mul_0_r in MY by (apply Z.pow_nonzero; lia).
  split; [exact OY|]. split; [exact MY|]. unfold mlen, zlen in *. destruct (_ || _) in LY; lia.
Qed.
Lemma bitlen_mono x y : 0 <= x <= y -> mpi_bitlen x <= mpi_bitlen y.
Proof.
  intros H. pose proof (bitlen_nonneg y) as B. apply bitlen_le; [lia | exact B|]. eapply Z.le_lt_trans; [apply H|]. apply bitlen_le; lia.
Qed.
Lemma bitlen_half x y : 0 <= x -> 0 < y -> 2 * x <= y -> mpi_bitlen x <= mpi_bitlen y - 1.
Proof.
  intros Hx Hy H. destruct (bitlen_pos y Hy) as [B [_ L]]. apply bitlen_le; [exact Hx | lia|].
  replace (mpi_bitlen y) with (Z.succ (mpi_bitlen y - 1)) in L by lia. rewrite Z.pow_succ_r in L by lia. lia.
Qed.
Lemma halve_ok X : mpi_ok X -> 0 <= mval X -> wp (l_shift_r X 1) (fun Y => mpi_ok Y /\ mval Y = mval X / 2 /\ mlen Y <= Z.max 1 (mlen X)).
Proof.
  intros HX PX. assert (lval (mp X) = mval X) as VX by (apply lval_mval; assumption). eapply wp_mono; [apply shift_r_ok; [exact HX | lia]|].
  cbv beta. intros Y (OY & VY & MY & LY & SY). change (2 ^ 1) with 2 in *. split; [exact OY|]. split.
  - rewrite MY. unfold mval in PX. destruct HX as [[E|E] F]; [unfold mval; rewrite E, !Z.mul_1_l; reflexivity|]. pose proof (lval_nonneg _ F).
    assert (lval (mp X) = 0) as E0 by (rewrite E in PX; lia). unfold mval. rewrite E0, Z.mul_0_r. cbn. lia.
  - unfold mlen, zlen in *. destruct (_ || _) in LY; lia.
Qed.
Lemma gcd_loop_zero : forall fuel TA TB, mpi_ok TA -> mpi_ok TB -> 0 <= mval TA -> mval TB = 0 -> 1 <= mlen TA <= 10000 -> mlen TB <= 10000 -> mpi_bitlen (mval TA) < Z.of_nat fuel ->
  wp (gcd_loop fuel TA TB) (fun R => mpi_ok R /\ mval R = 0 /\ mlen R <= Z.max 1 (mlen TB)).
Proof.
  induction fuel as [|fuel IH]; intros TA TB HA HB PA ZB LA LB_ HF; [pose proof (bitlen_nonneg (mval TA)); lia|]. cbn [gcd_loop].
  rewrite cmp_int_ok by (assumption || lia). cbn [bind]. rewrite cmp3_eq. destruct (Z.compare_spec (mval TA) 0) as [E|E|E]; [|lia|].
  - apply wp_ret. split; [exact HB|]. split; [exact ZB | lia].
  - eapply wp_bind; [apply strip_ok; [exact HA | exact E]|]. intros TA1 (OA1 & PA1 & ODA & _ & _ & LA1).
    eapply wp_bind; [apply strip_zero; [exact HB | exact ZB]|]. intros TB1 (OB1 & ZB1 & LB1).
    rewrite cmp_ok by assumption. cbn [bind]. rewrite cmp3_ge. destruct (Z.compare_spec (mval TA1) (mval TB1)) as [C|C|C]; try lia.
    assert (lval (mp TA1) = mval TA1) as VA1 by (apply lval_mval; [exact OA1 | lia]). assert (lval (mp TB1) = mval TB1) as VB1 by (apply lval_mval; [exact OB1 | lia]).
    eapply wp_bind; [apply sub_abs_ok; try assumption; try discriminate; try reflexivity; lia|]. intros TA2 (OA2 & MA2 & _ & LA2 & LA2').
    rewrite VA1, VB1 in MA2. assert (mp TA1 <> []) as NA1 by (apply nonnil_val; lia). specialize (LA2' NA1). 
    eapply wp_bind; [apply halve_ok; [exact OA2 | lia]|]. intros TA3 (OA3 & MA3 & LA3).
    assert (mval TA3 = mval TA1 / 2) as MA3' by (rewrite MA3, MA2, ZB1; f_equal; lia).
    destruct (Z.eq_dec (mval TA3) 0) as [Z3|Z3].
    + destruct fuel as [|fuel]; [destruct (bitlen_pos (mval TA) E); lia|]. cbn [gcd_loop]. rewrite cmp_int_ok by (assumption || lia). cbn [bind]. rewrite cmp3_eq, Z3. cbn [Z.compare].
      apply wp_ret. split; [exact OB1|]. split; [exact ZB1 | exact LB1].
    + eapply wp_mono; [apply (IH TA3 TB1); try assumption|].
      * rewrite MA3'. apply Z.div_pos; lia.
      * assert (mp TA3 <> []) as NA3 by (apply nonnil_val; exact Z3). unfold mlen, zlen in *. split; [destruct (mp TA3); [congruence | cbn; lia]|]. cbn [length] in *. lia.
      * lia.
      * assert (mpi_bitlen (mval TA3) <= mpi_bitlen (mval TA) - 1); [|lia]. pose proof (Z.mul_div_le (mval TA1) 2 ltac:(lia)). apply bitlen_half; [rewrite MA3'; apply Z.div_pos; lia | lia | lia].
      * cbv beta. intros R (OR & MR & LR). split; [exact OR|]. split; [exact MR | lia].
Qed.
Lemma gcd_sub x y : Z.gcd (x - y) y = Z.gcd x y.
Proof. rewrite Z.gcd_comm, Z.gcd_sub_diag_r, Z.gcd_comm. reflexivity. Qed.
Lemma gcd_step x y : Z.odd x = true -> Z.odd y = true -> Z.gcd ((x - y) / 2) y = Z.gcd x y.
Proof.
  intros Ox Oy. rewrite <- (gcd_sub x y). assert (x - y = (x - y) / 2 * 2 ^ 1) as E.
  { change (2 ^ 1) with 2. pose proof (Z.div_mod (x - y) 2 ltac:(lia)) as D. rewrite Zmod_odd, Z.odd_sub, Ox, Oy in D. cbn in D. lia. }
  rewrite E at 2. symmetry. apply gcd_pow2; [lia | exact Oy].
Qed.
Lemma gcd_loop_ok : forall fuel TA TB, mpi_ok TA -> mpi_ok TB -> 0 <= mval TA -> 0 < mval TB -> (mval TA = 0 \/ Z.odd (mval TA) = true \/ Z.odd (mval TB) = true) ->
  mlen TA <= 10000 -> mlen TB <= 10000 -> mpi_bitlen (mval TA) + mpi_bitlen (mval TB) < Z.of_nat fuel ->
  wp (gcd_loop fuel TA TB) (fun R => mpi_ok R /\ mval R = Z.gcd (mval TA) (mval TB) /\ mlen R <= Z.max 1 (mlen TB)).
Proof.
  induction fuel as [|fuel IH]; intros TA TB HA HB PA PB HO LA LB_ HF; [pose proof (bitlen_nonneg (mval TA)); pose proof (bitlen_nonneg (mval TB)); lia|]. cbn [gcd_loop].
  rewrite cmp_int_ok by (assumption || lia). cbn [bind]. rewrite cmp3_eq. destruct (Z.compare_spec (mval TA) 0) as [E|E|E]; [|lia|].
  - apply wp_ret. split; [exact HB|]. rewrite E, Z.gcd_0_l, Z.abs_eq by lia. split; [reflexivity | lia].
  - eapply wp_bind; [apply strip_ok; [exact HA | exact E]|]. intros TA1 (OA1 & PA1 & ODA & EA & KA & LA1).
    eapply wp_bind; [apply strip_ok; [exact HB | exact PB]|]. intros TB1 (OB1 & PB1 & ODB & EB & KB & LB1).
    assert (Z.gcd (mval TA1) (mval TB1) = Z.gcd (mval TA) (mval TB)) as G1.
    { destruct HO as [HO | [HO | HO]]; [lia | |].
      - rewrite EB, (Z.gcd_comm (mval TA)), gcd_pow2, Z.gcd_comm by assumption.
        destruct (odd_pow2_factor (mval TA1) (l_lsb TA) (mval TA) 0 KA ltac:(lia) ODA HO ltac:(rewrite <- EA; change (2 ^ 0) with 1; lia)) as [_ ->]. reflexivity.
      - rewrite EA, gcd_pow2 by assumption.
        destruct (odd_pow2_factor (mval TB1) (l_lsb TB) (mval TB) 0 KB ltac:(lia) ODB HO ltac:(rewrite <- EB; change (2 ^ 0) with 1; lia)) as [_ ->]. reflexivity. }
    pose proof (bitlen_mono (mval TA1) (mval TA) ltac:(lia)) as BA1. pose proof (bitlen_mono (mval TB1) (mval TB) ltac:(lia)) as BB1.
    assert (lval (mp TA1) = mval TA1) as VA1 by (apply lval_mval; [exact OA1 | lia]). assert (lval (mp TB1) = mval TB1) as VB1 by (apply lval_mval; [exact OB1 | lia]).
    rewrite cmp_ok by assumption. cbn [bind]. rewrite cmp3_ge, <- G1. clear EA EB G1 HO. 
    destruct (Z.compare_spec (mval TA1) (mval TB1)) as [C|C|C].
    2: { eapply wp_bind; [apply sub_abs_ok; try assumption; try discriminate; try reflexivity; lia|]. intros TB2 (OB2 & MB2 & _ & LB2 & _). rewrite VA1, VB1 in MB2.
      eapply wp_bind; [apply halve_ok; [exact OB2 | lia]|]. intros TB3 (OB3 & MB3 & LB3). rewrite MB2 in MB3.
      pose proof (gcd_step (mval TB1) (mval TA1) ODB ODA) as GS. rewrite <- MB3 in GS.
      pose proof (Z.mul_div_le (mval TB1 - mval TA1) 2 ltac:(lia)) as ML. rewrite <- MB3 in ML.
      pose proof (Z.div_mod (mval TB1 - mval TA1) 2 ltac:(lia)) as D. rewrite Zmod_odd, Z.odd_sub, ODA, ODB, <- MB3 in D. cbn [xorb] in D.
      eapply wp_mono; [apply (IH TA1 TB3); try assumption; try lia|].
      - right. now left.
      - unfold mlen, zlen in *. lia.
      - assert (mpi_bitlen (mval TB3) <= mpi_bitlen (mval TB1) - 1); [apply bitlen_half; lia | lia].
      - cbv beta. intros R (OR & MR & LR). split; [exact OR|]. split; [rewrite MR, Z.gcd_comm, GS; apply Z.gcd_comm|]. unfold mlen, zlen in *. lia. }
    all: eapply wp_bind; [apply sub_abs_ok; try assumption; try discriminate; try reflexivity; lia|]; intros TA2 (OA2 & MA2 & _ & LA2 & _); rewrite VA1, VB1 in MA2;
      (eapply wp_bind; [apply halve_ok; [exact OA2 | lia]|]); intros TA3 (OA3 & MA3 & LA3); rewrite MA2 in MA3;
      pose proof (gcd_step (mval TA1) (mval TB1) ODA ODB) as GS; rewrite <- MA3 in GS;
      pose proof (Z.mul_div_le (mval TA1 - mval TB1) 2 ltac:(lia)) as ML; rewrite <- MA3 in ML;
      assert (0 <= mval TA3) as P3 by (rewrite MA3; apply Z.div_pos; lia);
      (eapply wp_mono; [apply (IH TA3 TB1); try assumption; try lia|]).
    all: try (right; now right).
    all: try (unfold mlen, zlen in *; lia).
    all: try (assert (mpi_bitlen (mval TA3) <= mpi_bitlen (mval TA1) - 1); [apply bitlen_half; lia | lia]).
    all: cbv beta; intros R (OR & MR & LR); (split; [exact OR|]); (split; [rewrite MR; exact GS|]); unfold mlen, zlen in *; lia.
Qed.
Lemma lsb_zero X : mpi_ok X -> lval (mp X) = 0 -> l_lsb X = 0.
Proof.
  intros [_ F]. unfold l_lsb. generalize 0 at 2. induction F as [|x p Hx Fp IH]; intros c EZ; cbn [lsb_loop]; [reflexivity|].
  cbn [lval] in EZ. unfold is_limb in Hx. pose proof (lval_nonneg p Fp). pose proof LB_gt1. assert (x = 0) as -> by nia. replace (limb_lsb 64 0 0) with (@None Z) by reflexivity. apply IH. lia.
Qed.
(** The number of trailing zeros both have *)
Lemma common_strip TA TB : mpi_ok TA -> mpi_ok TB ->
  let lz := if l_lsb TB <? l_lsb TA then l_lsb TB else l_lsb TA in
  0 <= lz /\ exists a b, lval (mp TA) = a * 2 ^ lz /\ lval (mp TB) = b * 2 ^ lz /\ 0 <= a /\ 0 <= b /\ ((a = 0 \/ b = 0) -> lz = 0) /\ (a = 0 \/ b = 0 \/ Z.odd a = true \/ Z.odd b = true).
Proof.
  intros HA HB. cbv zeta. pose proof (lval_nonneg _ (proj2 HA)) as PA. pose proof (lval_nonneg _ (proj2 HB)) as PB.
  assert (forall X, mpi_ok X -> 0 <= l_lsb X) as L0. { intros X HX. destruct (Z.eq_dec (lval (mp X)) 0) as [E|E]; [rewrite lsb_zero by assumption; lia | apply lsb_ok; assumption]. }
  pose proof (L0 TA HA) as LA. pose proof (L0 TB HB) as LB_.
  destruct (Z.eq_dec (lval (mp TA)) 0) as [EA|EA].
  { rewrite (lsb_zero TA HA EA) in *. replace (if l_lsb TB <? 0 then l_lsb TB else 0) with 0 by (destruct (Z.ltb_spec (l_lsb TB) 0); lia).
    split; [lia|]. exists 0, (lval (mp TB)). change (2 ^ 0) with 1. repeat split; try lia. }
  destruct (Z.eq_dec (lval (mp TB)) 0) as [EB|EB].
  { rewrite (lsb_zero TB HB EB) in *. replace (if 0 <? l_lsb TA then 0 else l_lsb TA) with 0 by (destruct (Z.ltb_spec 0 (l_lsb TA)); lia).
    split; [lia|]. exists (lval (mp TA)), 0. change (2 ^ 0) with 1. repeat split; try lia. }
  destruct (lsb_ok TA HA EA) as (_ & [qa DA] & OA). destruct (lsb_ok TB HB EB) as (_ & [qb DB] & OB).
  assert (0 < 2 ^ l_lsb TA) as P1 by (apply Z.pow_pos_nonneg; lia). assert (0 < 2 ^ l_lsb TB) as P2 by (apply Z.pow_pos_nonneg; lia).
  rewrite DA, Z.div_mul in OA by lia. rewrite DB, Z.div_mul in OB by lia.
  destruct (Z.ltb_spec (l_lsb TB) (l_lsb TA)) as [L|L].
  - split; [lia|]. assert (0 < 2 ^ (l_lsb TA - l_lsb TB)) as P3 by (apply Z.pow_pos_nonneg; lia). exists (qa * 2 ^ (l_lsb TA - l_lsb TB)), qb.
    assert (0 < qa) by nia. assert (0 < qb) by nia. assert (0 < qa * 2 ^ (l_lsb TA - l_lsb TB)) by nia.
    split; [rewrite DA, <- Z.mul_assoc, <- Z.pow_add_r by lia; do 2 f_equal; lia|]. split; [exact DB|]. split; [lia|]. split; [lia|]. split; [lia | tauto].
  - split; [lia|]. assert (0 < 2 ^ (l_lsb TB - l_lsb TA)) as P3 by (apply Z.pow_pos_nonneg; lia). exists qa, (qb * 2 ^ (l_lsb TB - l_lsb TA)).
    assert (0 < qa) by nia. assert (0 < qb) by nia. assert (0 < qb * 2 ^ (l_lsb TB - l_lsb TA)) by nia.
    split; [exact DA|]. split; [rewrite DB, <- Z.mul_assoc, <- Z.pow_add_r by lia; do 2 f_equal; lia|]. split; [lia|]. split; [lia|]. split; [lia | tauto].
Qed.
Definition gcd_spec (a b : Z) : Z := if b =? 0 then 0 else Z.gcd a b.
Lemma gcd_ok G A B : mpi_ok G -> mpi_ok A -> mpi_ok B -> mlen A <= 10000 -> mlen B <= 10000 ->
  wp (l_gcd G A B) (fun R => mpi_ok R /\ mval R = gcd_spec (mval A) (mval B) /\ mlen R <= Z.max (mlen G) (Z.max 1 (mlen B))).
Proof.
  intros HG HA HB LA LB_. unfold l_gcd.
  assert (forall T : nat, (sig (mp A) <= length (mp A))%nat) as SA by (intros _; apply sig_le). specialize (SA O). pose proof (sig_le (mp B)) as SB.
  eapply wp_bind; [apply copy_ok2; [exact init_ok | exact HA | discriminate | exact LA]|]. intros TA (OA & VA & _ & LTA & _). cbn [l_init mp length] in LTA.
  eapply wp_bind; [apply copy_ok2; [exact init_ok | exact HB | discriminate | exact LB_]|]. intros TB (OB & VB & _ & LTB & _). cbn [l_init mp length] in LTB.
  cbv zeta. destruct (common_strip TA TB OA OB) as (L0 & a & b & EA & EB & PA & PB & Z0 & ODD). cbv zeta in *. rewrite VA in EA. rewrite VB in EB.
  set (lz := if l_lsb TB <? l_lsb TA then l_lsb TB else l_lsb TA) in *. clearbody lz.
  pose proof (Z.pow_pos_nonneg 2 lz ltac:(lia) L0) as PP. unfold mlen, zlen in LA, LB_.
  eapply wp_bind; [apply shift_r_ok; [exact OA | exact L0]|]. intros TA1 (OA1 & VA1 & _ & LA1 & _). rewrite VA, EA, Z.div_mul in VA1 by lia.
  eapply wp_bind; [apply shift_r_ok; [exact OB | exact L0]|]. intros TB1 (OB1 & VB1 & _ & LB1 & _). rewrite VB, EB, Z.div_mul in VB1 by lia.
  assert (mlen TA1 <= Z.max 1 (Z.of_nat (length (mp A)))) as LA2 by (unfold mlen, zlen; destruct (_ || _) in LA1; lia).
  assert (mlen TB1 <= Z.max 1 (Z.of_nat (length (mp B)))) as LB2 by (unfold mlen, zlen; destruct (_ || _) in LB1; lia). clear LA1 LB1.
  destruct (with_s_ok TA1 1 OA1 ltac:(now left)) as [OA2 MA2]. destruct (with_s_ok TB1 1 OB1 ltac:(now left)) as [OB2 MB2]. rewrite VA1, Z.mul_1_l in MA2. rewrite VB1, Z.mul_1_l in MB2.
  assert (mlen (with_s TA1 1) = mlen TA1) as LA3 by reflexivity. assert (mlen (with_s TB1 1) = mlen TB1) as LB3 by reflexivity.
  assert (Z.abs (mval A) = a * 2 ^ lz) as AA by (rewrite mval_abs; assumption). assert (Z.abs (mval B) = b * 2 ^ lz) as AB by (rewrite mval_abs; assumption).
  pose proof (bitlen_len (mp A) (proj2 HA)) as BA. pose proof (bitlen_len (mp B) (proj2 HB)) as BB. unfold zlen in BA, BB.
  assert (mpi_bitlen a <= mpi_bitlen (lval (mp A))) as BA' by (apply bitlen_mono; rewrite EA; clear - PA PP; nia).
  assert (mpi_bitlen b <= mpi_bitlen (lval (mp B))) as BB' by (apply bitlen_mono; rewrite EB; clear - PB PP; nia).
  eapply wp_bind with (P := fun R => mpi_ok R /\ mval R = (if b =? 0 then 0 else Z.gcd a b) /\ mlen R <= Z.max 1 (Z.of_nat (length (mp B)))).
  { destruct (Z.eqb_spec b 0) as [B0|B0].
    - destruct (Z.eq_dec a 0) as [A0|A0].
      + rewrite Nat.add_1_r. cbn [gcd_loop]. rewrite cmp_int_ok by (assumption || lia). cbn [bind]. rewrite cmp3_eq, MA2, A0. cbn [Z.compare]. apply wp_ret. split; [exact OB2|]. split; lia.
      + eapply wp_mono; [apply gcd_loop_zero; try assumption; try lia|].
        * assert (mp (with_s TA1 1) <> []) as NE by (apply nonnil_val; lia). unfold mlen, zlen. split; [destruct (mp (with_s TA1 1)); [congruence | cbn; lia]|]. unfold mlen, zlen in LA2, LA3. lia.
        * rewrite MA2. lia.
        * cbv beta. intros R (OR & MR & LR). split; [exact OR|]. split; [exact MR | lia].
    - eapply wp_mono; [apply gcd_loop_ok; try assumption; try lia|].
      + rewrite MA2, MB2. tauto.
      + rewrite MA2, MB2. lia.
      + cbv beta. intros R (OR & MR & LR). split; [exact OR|]. split; [rewrite MR, MA2, MB2; reflexivity | lia]. }
  intros R (OR & MR & LR).
  assert (0 <= mval R) as PR by (rewrite MR; destruct (b =? 0); [lia | apply Z.gcd_nonneg]).
  assert (mval R * 2 ^ lz = gcd_spec (mval A) (mval B)) as EG.
  { unfold gcd_spec. rewrite MR. destruct (Z.eqb_spec b 0) as [B0|B0]; destruct (Z.eqb_spec (mval B) 0) as [B1|B1]; try (clear - B0 B1 AB PP PB; nia).
    rewrite <- (Z.gcd_abs_l (mval A)), <- (Z.gcd_abs_r _ (mval B)), AA, AB. rewrite Z.gcd_mul_mono_r_nonneg by lia. reflexivity. }
  assert (lval (mp R) = mval R) as VR by (apply lval_mval; assumption).
  assert (mpi_bitlen (mval R) + lz <= 64 * Z.of_nat (length (mp B))) as BR.
  { destruct (Z.eq_dec b 0) as [B0|B0]; [rewrite MR, B0, (Z0 ltac:(tauto)); cbn; lia|].
    assert (0 < mval R) as PR'. { rewrite MR. destruct (Z.eqb_spec b 0); [lia|]. pose proof (Z.gcd_nonneg a b). assert (Z.gcd a b <> 0) by (intros E; apply Z.gcd_eq_0_r in E; lia). lia. }
    rewrite <- bitlen_mul_pow2 by lia. etransitivity; [|exact BB]. apply bitlen_mono. rewrite EB. split; [clear - PR' PP; nia|]. apply Z.mul_le_mono_nonneg_r; [lia|].
    rewrite MR. destruct (Z.eqb_spec b 0); [lia|]. apply Z.divide_pos_le; [lia | apply Z.gcd_divide_r]. }
  eapply wp_bind; [apply shift_l_ok; [exact OR | exact L0 | rewrite VR; lia]|]. intros R2 (OR2 & MR2 & _ & _ & LR2). rewrite VR in LR2.
  assert ((mpi_bitlen (mval R) + lz + 63) / 64 <= Z.of_nat (length (mp B))) as LD by (apply Z.lt_succ_r; apply Z.div_lt_upper_bound; lia).
  assert (mlen R2 <= Z.max 1 (Z.of_nat (length (mp B)))) as LR3 by (clear - LR2 LD LR; unfold mlen, zlen in *; lia).
  eapply wp_mono; [apply copy_ok2; [exact HG | exact OR2 | discriminate | clear - LR3 LB_; unfold mlen in LR3; lia]|].
  cbv beta. intros R3 (OR3 & _ & MR3 & LR4 & _). split; [exact OR3|]. split; [rewrite MR3, MR2, EG; reflexivity|]. pose proof (sig_le (mp R2)) as SR. clear - LR3 LR4 SR. unfold mlen, zlen in *. lia.
Qed.
