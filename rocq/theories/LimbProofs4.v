From Coq Require Import Lia.
From Verif Require Import Base BaseFacts MpiModel MpiProofs LimbModel LimbSpec LimbProofs LimbProofs2 LimbProofs3.

(** * Division *)
Lemma lval_mval X : mpi_ok X -> 0 <= mval X -> lval (mp X) = mval X.
Proof. intros [S H] V. unfold mval in *. pose proof (lval_nonneg _ H). destruct S as [E|E]; rewrite E in *; lia. Qed.
Lemma mval_abs X : mpi_ok X -> Z.abs (mval X) = lval (mp X).
Proof. intros [S H]. unfold mval. pose proof (lval_nonneg _ H). destruct S as [E|E]; rewrite E; lia. Qed.
Lemma copy_ok2 same X Y : mpi_ok X -> mpi_ok Y -> (same = true -> X = Y) -> zlen (mp Y) <= 10000 ->
  wp (l_copy same X Y) (fun R => mpi_ok R /\ lval (mp R) = lval (mp Y) /\ mval R = mval Y /\
    (length (mp R) <= Nat.max (length (mp X)) (Nat.max 1 (sig (mp Y))))%nat /\ (mp Y <> [] -> (length (mp X) <= length (mp R))%nat /\ mp R <> [])).
Proof.
  intros HX HY E Hn. destruct same.
  - rewrite (E eq_refl) in *. cbn. apply wp_ret. repeat split; try apply HY; try lia. assumption.
  - clear E. destruct (list_eq_dec Z.eq_dec (mp Y) []) as [N|N].
    + unfold l_copy. rewrite N. apply wp_ret. unfold mval. rewrite N. repeat split; cbn; try lia; [constructor | congruence | congruence].
    + eapply wp_mono; [now apply copy_new|]. intros R (HR & V & S & L). unfold mval. rewrite V, S. repeat split; try apply HR; try lia.
      intros E. rewrite E in L. cbn [length] in L. lia.
Qed.

Lemma est_bounds X Y D U S K y1 y0 x2 x1 x0 q0 q : 0 < S -> 0 < K -> 0 <= X -> 0 < y1 -> is_limb y1 -> is_limb y0 -> is_limb x2 -> is_limb x1 -> is_limb x0 ->
  D = y1 * LB + y0 -> U = x2 * (LB * LB) + x1 * LB + x0 ->
  D * S <= Y * LB < (D + 1) * S -> U * (S * K) <= X * LB < (U + 1) * (S * K) -> X < Y * LB * K ->
  q0 = (if y1 <=? x2 then LB - 1 else (x2 * LB + x1) / y1) ->
  0 <= q <= q0 -> q * D <= U -> (q = q0 \/ U < (q + 1) * D) ->
  X / (Y * K) <= q <= X / (Y * K) + 1.
Proof.
  intros HS HK HX Hy1 Ly1 Ly0 Lx2 Lx1 Lx0 HD HU HY HXU HXY Hq0 Hq Hle Hq2. pose proof LB_gt1 as G. unfold is_limb in *.
  assert (0 < D) as PD by nia.
  assert (y1 * S <= Y) as YS by nia.
  assert (0 < Y) as PY by nia. assert (0 < Y * K) as PYK by nia.
  set (Q := X / (Y * K)). pose proof (Z.div_mod X (Y * K) ltac:(lia)) as DM. pose proof (Z.mod_pos_bound X (Y * K) PYK) as MB. fold Q in DM.
  assert (0 <= Q) as Q0 by (apply Z.div_pos; lia).
  assert (Q < LB) as QL by (apply Z.div_lt_upper_bound; [lia|]; replace (Y * K * LB) with (Y * LB * K) by ring; exact HXY).
  assert (Q * D <= U) as QD.
  { assert (Q * D * (S * K) < (U + 1) * (S * K)) as H; [|apply Z.mul_lt_mono_pos_r in H; nia].
    eapply Z.le_lt_trans; [|apply HXU]. transitivity (Q * (Y * LB) * K).
    - replace (Q * D * (S * K)) with (Q * (D * S) * K) by ring. apply Z.mul_le_mono_nonneg_r; [lia|]. apply Z.mul_le_mono_nonneg_l; lia.
    - replace (Q * (Y * LB) * K) with (Y * K * Q * LB) by ring. apply Z.mul_le_mono_nonneg_r; lia. }
  assert (Q <= q0) as QQ.
  { rewrite Hq0. destruct (Z.leb_spec y1 x2) as [L|L]; [lia|]. apply Z.div_le_lower_bound; [lia|].
    assert (Q * y1 * LB < (x2 * LB + x1 + 1) * LB) as H; [|apply Z.mul_lt_mono_pos_r in H; lia].
    pose proof (Z.mul_nonneg_nonneg Q y0 Q0 ltac:(lia)). rewrite HD in QD. rewrite HU in QD. clear - QD H Lx0. lia. }
  split.
  - destruct (Z_le_gt_dec Q q) as [L|L]; [exact L|]. exfalso. destruct Hq2 as [E|E]; [lia|].
    assert ((q + 1) * D <= Q * D) as H by (apply Z.mul_le_mono_nonneg_r; [clear - PD; lia | clear - L; clearbody Q; lia]). clear - H E QD. lia.
  - destruct (Z_le_gt_dec q 0) as [L|L]; [lia|].
    assert ((q - 1) * (Y * K) < X) as H.
    { assert (q * (Y * LB) * K < X * LB + LB * (Y * K)) as H1.
      { assert (q * (Y * LB) * K < q * ((D + 1) * S) * K) as H2.
        { apply Z.mul_lt_mono_pos_r; [lia|]. apply Z.mul_lt_mono_pos_l; lia. }
        assert (q * ((D + 1) * S) * K = q * D * (S * K) + q * (S * K)) as H3 by ring.
        assert (q * D * (S * K) <= U * (S * K)) as H4 by (apply Z.mul_le_mono_nonneg_r; nia).
        assert (q0 < LB) as H7. { rewrite Hq0. destruct (Z.leb_spec y1 x2) as [B|B]; [clear; lia|]. apply Z.div_lt_upper_bound; [exact Hy1|]. clear - B Lx2 Lx1 G. nia. }
        assert (q * (S * K) <= LB * (S * K)) as H5 by (apply Z.mul_le_mono_nonneg_r; nia).
        assert (S * K <= Y * K) as H6 by (apply Z.mul_le_mono_nonneg_r; [lia | clear - YS Hy1 HS; nia]).
        assert (LB * (S * K) <= LB * (Y * K)) by (apply Z.mul_le_mono_nonneg_l; lia). lia. }
      apply (Z.mul_lt_mono_pos_r LB); [lia|]. replace ((q - 1) * (Y * K) * LB) with (q * (Y * LB) * K - LB * (Y * K)) by ring. lia. }
    assert (q - 1 <= Q); [|lia]. apply Z.div_le_lower_bound; [exact PYK|]. lia.
Qed.
Lemma est_fuel y1 y0 x2 x1 x0 q0 : is_limb y1 -> is_limb y0 -> is_limb x2 -> is_limb x1 -> is_limb x0 -> LB <= 4 * y1 ->
  q0 = (if y1 <=? x2 then LB - 1 else (x2 * LB + x1) / y1) -> is_limb q0 /\ (4 <= q0 -> (q0 - 4) * (y1 * LB + y0) <= x2 * (LB * LB) + x1 * LB + x0).
Proof.
  intros Ly1 Ly0 Lx2 Lx1 Lx0 Hn ->. pose proof LB_gt1. unfold is_limb in *.
  assert (exists q, q = (if y1 <=? x2 then LB - 1 else (x2 * LB + x1) / y1) /\ 0 <= q < LB /\ q * y1 <= x2 * LB + x1) as (q & <- & Hq & HV).
  { eexists. split; [reflexivity|]. destruct (Z.leb_spec y1 x2) as [L|L]; [nia|].
    split; [split; [apply Z.div_pos; nia | apply Z.div_lt_upper_bound; nia]|]. rewrite Z.mul_comm. apply Z.mul_div_le. lia. }
  split; [exact Hq|]. intros H4.
  assert (q * y1 * LB <= (x2 * LB + x1) * LB) by (apply Z.mul_le_mono_nonneg_r; lia).
  assert ((q - 4) * y0 <= LB * LB) by nia. assert (LB * LB <= 4 * y1 * LB) by nia. nia.
Qed.
Lemma lset0_shape T k : mpi_ok T -> (k <= length (mp T))%nat -> (1 <= k)%nat ->
  wp (l_lset T 0) (fun R => mpi_ok R /\ ms R = 1 /\ exists r, mp R = repeat 0 k ++ repeat 0 r /\ (k + r = length (mp T))%nat).
Proof.
  intros HT L K. eapply wp_mono; [apply lset0_ok; exact HT|]. intros R (HR & P & S & _). repeat split; try apply HR; try assumption.
  exists (length (mp T) - k)%nat. rewrite P, <- repeat_app. split; [f_equal; lia | lia].
Qed.
Lemma div_est_ok X Y i t x2 x1 x0 y1 y0 N : Forall is_limb (mp X) -> Forall is_limb (mp Y) ->
  (1 <= i < length (mp X))%nat -> (t < length (mp Y))%nat ->
  x2 = nth i (mp X) 0 -> x1 = nth (i - 1) (mp X) 0 -> x0 = (if (i <? 2)%nat then 0 else nth (i - 2) (mp X) 0) ->
  y1 = nth t (mp Y) 0 -> y0 = (if (t <? 1)%nat then 0 else nth (t - 1) (mp Y) 0) -> (3 <= N)%nat -> Z.of_nat N < 10000 ->
  forall fuel q0 T1 T2, is_limb q0 -> (exists m, (m < fuel)%nat /\ Z.of_nat m <= q0 /\ (q0 - Z.of_nat m) * (y1 * LB + y0) <= x2 * (LB * LB) + x1 * LB + x0) ->
  mpi_ok T1 -> mpi_ok T2 -> (2 <= length (mp T1) <= N)%nat -> (3 <= length (mp T2) <= N)%nat ->
  wp (div_est fuel X Y T1 T2 i t (u64 (q0 + 1))) (fun r => let '(T1', T2', q) := r in mpi_ok T1' /\ mpi_ok T2' /\
    (2 <= length (mp T1') <= N)%nat /\ (3 <= length (mp T2') <= N)%nat /\
    0 <= q <= q0 /\ q * (y1 * LB + y0) <= x2 * (LB * LB) + x1 * LB + x0 /\ (q = q0 \/ x2 * (LB * LB) + x1 * LB + x0 < (q + 1) * (y1 * LB + y0))).
Proof.
  intros FX FY Li Lt Hx2 Hx1 Hx0 Hy1 Hy0 HN HN2.
  assert (is_limb x2) as Lx2 by (subst; now apply nth_limb). assert (is_limb x1) as Lx1 by (subst; now apply nth_limb).
  assert (is_limb x0) as Lx0 by (subst; destruct (i <? 2)%nat; [exact is_limb_0 | now apply nth_limb]).
  assert (is_limb y1) as Ly1 by (subst; now apply nth_limb). assert (is_limb y0) as Ly0 by (subst; destruct (t <? 1)%nat; [exact is_limb_0 | now apply nth_limb]).
  pose proof LB_gt1 as G. pose proof (LB_pow 0) as P0.
  induction fuel as [|fuel IH]; intros q0 T1 T2 Lq Hm HT1 HT2 L1 L2; [destruct Hm as (m & ? & _); lia|].
  cbn [div_est]. assert (u64 (u64 (q0 + 1) - 1) = q0) as EQ.
  { rewrite !u64_LB. rewrite Zminus_mod_idemp_l. replace (q0 + 1 - 1) with q0 by lia. apply Z.mod_small. exact Lq. }
  rewrite EQ.
  eapply wp_bind; [apply (lset0_shape T1 2); [exact HT1 | lia | lia]|]. intros R1 (HR1 & S1 & r1 & P1 & LR1). rewrite P1.
  assert ((if (t <? 1)%nat then Ok 0 else lnth (mp Y) (t - 1)) = Ok y0) as ->.
  { subst y0. destruct (t <? 1)%nat; [reflexivity | apply lnth_ok; lia]. }
  rewrite (lnth_ok (mp Y) t 0) by lia. rewrite <- Hy1. cbn [bind repeat app lupd].
  assert (mpi_ok (MkMpi (ms R1) (y0 :: y1 :: repeat 0 r1))) as HW1 by (split; [rewrite S1; now left | constructor; [exact Ly0 | constructor; [exact Ly1 | apply limbs_zeros]]]).
  assert (lval (y0 :: y1 :: repeat 0 r1) = y1 * LB + y0) as VW1 by (rewrite !lval_cons, lval_zeros; ring).
  eapply wp_bind; [apply mul_int_ok; [exact HW1 | exact HW1 | reflexivity | unfold mlen, zlen; cbn [mp length]; rewrite repeat_length; lia | exact Lq]|].
  intros T1' (HT1' & MT1 & VT1 & LT1). unfold mval in MT1. cbn [mp ms] in *. rewrite VW1, S1 in *.
  assert (2 <= length (mp T1') <= N)%nat as LT1'.
  { rewrite LT1. cbn [length]. rewrite repeat_length. assert (sig (y0 :: y1 :: repeat 0%Z r1) <= 2)%nat.
    { apply sig_bound; [apply HW1|]. rewrite VW1. change (Z.of_nat 2) with (1 + 1). rewrite Z.pow_add_r, Z.pow_1_r by lia. unfold is_limb in *. nia. }
    pose proof (sig_le [q0]). cbn [length] in *. lia. }
  eapply wp_bind; [apply (lset0_shape T2 3); [exact HT2 | lia | lia]|]. intros R2 (HR2 & S2 & r2 & P2 & LR2). rewrite P2.
  assert ((if (i <? 2)%nat then Ok 0 else lnth (mp X) (i - 2)) = Ok x0) as ->.
  { subst x0. destruct (i <? 2)%nat; [reflexivity | apply lnth_ok; lia]. }
  assert ((if (i <? 1)%nat then Ok 0 else lnth (mp X) (i - 1)) = Ok x1) as ->.
  { subst x1. destruct (Nat.ltb_spec i 1); [lia | apply lnth_ok; lia]. }
  rewrite (lnth_ok (mp X) i 0) by lia. rewrite <- Hx2. cbn [bind repeat app lupd].
  assert (mpi_ok (MkMpi (ms R2) (x0 :: x1 :: x2 :: repeat 0 r2))) as HW2 by (split; [rewrite S2; now left | constructor; [exact Lx0 | constructor; [exact Lx1 | constructor; [exact Lx2 | apply limbs_zeros]]]]).
  rewrite cmp_ok by assumption. cbn [bind]. rewrite cmp3_gt.
  assert (mval (MkMpi (ms R2) (x0 :: x1 :: x2 :: repeat 0 r2)) = x2 * (LB * LB) + x1 * LB + x0) as VW2 by (unfold mval; cbn [ms mp]; rewrite S2, !lval_cons, lval_zeros; ring).
  assert (length (x0 :: x1 :: x2 :: repeat 0 r2) = length (mp T2)) as LW2 by (cbn [length]; rewrite repeat_length; lia).
  rewrite VW2. assert (mval T1' = q0 * (y1 * LB + y0)) as VT by (unfold mval; rewrite MT1; ring). rewrite VT.
  assert (0 <= q0) as Q0 by apply Lq. unfold is_limb in *.
  destruct (Z.compare_spec (q0 * (y1 * LB + y0)) (x2 * (LB * LB) + x1 * LB + x0)) as [E|E|E].
  1, 2: (apply wp_ret; cbn [mp]; repeat split; try apply HT1'; try apply HW2; try lia).
  assert (1 <= q0) as Q1. { destruct (Z.eq_dec q0 0) as [->|]; [|lia]. exfalso. assert (0 <= x2 * (LB * LB)) by (apply Z.mul_nonneg_nonneg; nia). assert (0 <= x1 * LB) by nia. lia. }
  assert (q0 = u64 (q0 - 1 + 1)) as EU by (replace (q0 - 1 + 1) with q0 by lia; symmetry; apply u64_limb; exact Lq).
  rewrite EU.
  eapply wp_mono; [apply IH; try assumption|].
  - lia.
  - destruct Hm as (m & M1 & M2 & M3). destruct m as [|m]; [change (Z.of_nat 0) with 0 in M3; rewrite Z.sub_0_r in M3; lia|].
    exists m. split; [lia|]. split; [lia|]. replace (q0 - 1 - Z.of_nat m) with (q0 - Z.of_nat (S m)) by lia. exact M3.
  - cbn [mp]. lia.
  - intros [[T1'' T2''] q] (H1 & H2 & H3 & H4 & H5 & H6 & H7). repeat split; try apply H1; try apply H2; try apply H3; try apply H4; try lia.
Qed.

(** The value of the leading limbs *)
Lemma top3 X i x2 x1 x0 : Forall is_limb X -> (1 <= i < length X)%nat -> lval X < LB ^ Z.of_nat (S i) ->
  x2 = nth i X 0 -> x1 = nth (i - 1) X 0 -> x0 = (if (i <? 2)%nat then 0 else nth (i - 2) X 0) ->
  (x2 * (LB * LB) + x1 * LB + x0) * LB ^ Z.of_nat (i - 1) <= lval X * LB < (x2 * (LB * LB) + x1 * LB + x0 + 1) * LB ^ Z.of_nat (i - 1).
Proof.
  intros H Hi Hv -> -> ->. rewrite <- (lval_firstn X (S i)) by (apply sig_bound; assumption).
  rewrite (firstn_S_nth X i 0), lval_app, firstn_length, Nat.min_l by lia.
  destruct i as [|i]; [lia|]. rewrite (firstn_S_nth X i 0), lval_app, firstn_length, Nat.min_l by lia.
  replace (S i - 1)%nat with i by lia. rewrite LB_powS. pose proof (LB_pow i) as P. pose proof LB_pos as G. cbn [lval].
  destruct (Nat.ltb_spec (S i) 2) as [L|L].
  - assert (i = O) as -> by lia. change (LB ^ Z.of_nat 0) with 1 in *. cbn [firstn lval]. nia.
  - destruct i as [|i]; [lia|]. rewrite (firstn_S_nth X i 0), lval_app, firstn_length, Nat.min_l by lia. cbn [lval].
    replace (S (S i) - 2)%nat with i by lia. rewrite LB_powS in *. pose proof (LB_pow i) as P2.
    pose proof (lval_nonneg _ (Forall_firstn' _ i _ H)) as F0. pose proof (lval_lt (firstn i X) i (Forall_firstn' _ i _ H) ltac:(rewrite firstn_length; lia)) as F1.
    set (f := lval (firstn i X)) in *. set (W := LB ^ Z.of_nat i) in *. clearbody f W.
    set (a := nth (S (S i)) X 0). set (b := nth (S i) X 0). set (c := nth i X 0). clearbody a b c. clear - F0 F1 P2 G. nia.
Qed.
Lemma top2 Y t y1 y0 : Forall is_limb Y -> (t < length Y)%nat -> lval Y < LB ^ Z.of_nat (S t) ->
  y1 = nth t Y 0 -> y0 = (if (t <? 1)%nat then 0 else nth (t - 1) Y 0) ->
  (y1 * LB + y0) * LB ^ Z.of_nat t <= lval Y * LB < (y1 * LB + y0 + 1) * LB ^ Z.of_nat t.
Proof.
  intros H Ht Hv -> ->. rewrite <- (lval_firstn Y (S t)) by (apply sig_bound; assumption).
  rewrite (firstn_S_nth Y t 0), lval_app, firstn_length, Nat.min_l by lia. pose proof (LB_pow t) as P. pose proof LB_pos as G. cbn [lval].
  destruct (Nat.ltb_spec t 1) as [L|L].
  - assert (t = O) as -> by lia. change (LB ^ Z.of_nat 0) with 1 in *. cbn [firstn lval]. nia.
  - destruct t as [|t]; [lia|]. rewrite (firstn_S_nth Y t 0), lval_app, firstn_length, Nat.min_l by lia. cbn [lval].
    replace (S t - 1)%nat with t by lia. rewrite LB_powS in *. pose proof (LB_pow t) as P2.
    pose proof (lval_nonneg _ (Forall_firstn' _ t _ H)) as F0. pose proof (lval_lt (firstn t Y) t (Forall_firstn' _ t _ H) ltac:(rewrite firstn_length; lia)) as F1.
    set (f := lval (firstn t Y)) in *. set (W := LB ^ Z.of_nat t) in *. clearbody f W.
    set (b := nth (S t) Y 0). set (c := nth t Y 0). clearbody b c. clear - F0 F1 P2 G. nia.
Qed.
Lemma int_div_int_ok u1 u0 d : is_limb u1 -> is_limb u0 -> is_limb d -> u1 < d -> int_div_int u1 u0 d = (u1 * LB + u0) / d.
Proof.
  intros H1 H0 Hd L. unfold int_div_int. unfold is_limb in *. destruct (Z.eqb_spec d 0); [lia|]. destruct (Z.leb_spec d u1); [lia|]. cbn [orb].
  rewrite Z.shiftl_mul_pow2 by lia. rewrite lor_add by (lia || exact H0). change (2 ^ 64) with LB.
  assert ((u1 * LB + u0) / d < LB) by (apply Z.div_lt_upper_bound; nia).
  destruct (Z.ltb_spec (LB - 1) ((u1 * LB + u0) / d)); lia.
Qed.
Lemma nonnil_len {A} (l : list A) : (0 < length l)%nat -> l <> []. Proof. intros H ->. cbn in H. lia. Qed.
Lemma sig_abs_bound R n : mpi_ok R -> Z.abs (mval R) < LB ^ Z.of_nat n -> (sig (mp R) <= n)%nat.
Proof. intros H V. apply sig_bound; [apply H|]. rewrite <- mval_abs by exact H. exact V. Qed.
Lemma shift_limbs_ok T k N : mpi_ok T -> lval (mp T) * LB ^ Z.of_nat k < LB ^ Z.of_nat N -> Z.of_nat N <= 10000 -> (k <= N)%nat ->
  wp (l_shift_l T (64 * Z.of_nat k)) (fun R => mpi_ok R /\ mval R = mval T * LB ^ Z.of_nat k /\ lval (mp R) = lval (mp T) * LB ^ Z.of_nat k /\ ms R = ms T /\
    (length (mp T) <= length (mp R) <= Nat.max (length (mp T)) N)%nat).
Proof.
  intros HT HV HN HK. pose proof (lval_nonneg _ (proj2 HT)) as V0.
  assert (mpi_bitlen (lval (mp T)) + 64 * Z.of_nat k <= 64 * Z.of_nat N) as B.
  { assert (mpi_bitlen (lval (mp T)) <= 64 * Z.of_nat (N - k)); [|lia]. apply bitlen_le; [exact V0 | lia|]. rewrite <- LB_two.
    apply (Z.mul_lt_mono_pos_r (LB ^ Z.of_nat k)); [apply LB_pow|]. eapply Z.lt_le_trans; [exact HV|]. rewrite <- LB_powadd. apply Z.eq_le_incl. do 2 f_equal. lia. }
  eapply wp_mono; [apply shift_l_ok; [exact HT | lia | lia]|]. intros R (HR & M & V & S & L). rewrite <- LB_two in *.
  pose proof (bitlen_nonneg (lval (mp T))).
  assert ((mpi_bitlen (lval (mp T)) + 64 * Z.of_nat k + 63) / 64 <= Z.of_nat N) by (apply Z.lt_succ_r; apply Z.div_lt_upper_bound; lia).
  assert (0 <= (mpi_bitlen (lval (mp T)) + 64 * Z.of_nat k + 63) / 64) by (apply Z.div_pos; lia).
  repeat split; try apply HR; try assumption; lia.
Qed.
Ltac lenlia := repeat match goal with
  | H : context [Z.pow] |- _ => clear H | H : context [Z.mul] |- _ => clear H | H : mpi_ok _ |- _ => clear H | H : is_limb _ |- _ => clear H
  | H : mval _ = _ |- _ => clear H | H : lval _ = _ |- _ => clear H | H : context [wp] |- _ => clear H end; lia.
Lemma div_loop_ok Y t N : mpi_ok Y -> 0 <= mval Y -> (t < length (mp Y))%nat -> mval Y < LB ^ Z.of_nat (S t) -> LB <= 4 * nth t (mp Y) 0 ->
  (3 <= N)%nat -> Z.of_nat N < 10000 -> (length (mp Y) <= N)%nat -> forall k X Zq T1 T2, (t + k + 1 <= N)%nat ->
  mpi_ok X -> mpi_ok Zq -> mpi_ok T1 -> mpi_ok T2 -> (t + k < length (mp X) <= N)%nat -> (2 <= length (mp T1) <= N)%nat -> (3 <= length (mp T2) <= N)%nat ->
  (k <= length (mp Zq))%nat -> 0 <= mval X < mval Y * LB ^ Z.of_nat k ->
  wp (div_loop k X Y Zq T1 T2 t) (fun r => let '(X', Zq') := r in mpi_ok X' /\ mpi_ok Zq' /\ ms Zq' = ms Zq /\ mval X' = mval X mod mval Y /\
    lval (mp Zq') = LB ^ Z.of_nat k * lval (skipn k (mp Zq)) + mval X / mval Y /\ (t < length (mp X') <= N)%nat /\ length (mp Zq') = length (mp Zq)).
Proof.
  intros HY Y0 Lt YB Yn HN HN2 LY. induction k as [|k IH]; intros X Zq T1 T2 Hk HX HZ HT1 HT2 LX L1 L2 LZ HV.
  - cbn [div_loop]. apply wp_ret. change (LB ^ Z.of_nat 0) with 1 in *. rewrite Z.mul_1_r in HV. rewrite Z.mod_small, Z.div_small by exact HV. cbn [skipn].
    repeat split; try apply HX; try apply HZ; lia.
  - cbn [div_loop]. set (i := (t + S k)%nat) in *.
    assert (i = t + S k)%nat as Ei by reflexivity. clearbody i. assert (i < N)%nat as iN by lia.
    pose proof (lval_mval X HX (proj1 HV)) as VX. pose proof (lval_mval Y HY Y0) as VY.
    set (x2 := nth i (mp X) 0). set (x1 := nth (i - 1) (mp X) 0). set (x0 := if (i <? 2)%nat then 0 else nth (i - 2) (mp X) 0).
    set (y1 := nth t (mp Y) 0) in *. set (y0 := if (t <? 1)%nat then 0 else nth (t - 1) (mp Y) 0).
    assert (is_limb x2) as Lx2 by (apply nth_limb, HX). assert (is_limb x1) as Lx1 by (apply nth_limb, HX).
    assert (is_limb x0) as Lx0 by (unfold x0; destruct (i <? 2)%nat; [exact is_limb_0 | apply nth_limb, HX]).
    assert (is_limb y1) as Ly1 by (apply nth_limb, HY). assert (is_limb y0) as Ly0 by (unfold y0; destruct (t <? 1)%nat; [exact is_limb_0 | apply nth_limb, HY]).
    rewrite (lnth_ok (mp X) i 0) by lia. rewrite (lnth_ok (mp Y) t 0) by lia. cbn [bind]. fold x2 y1.
    assert ((if y1 <=? x2 then Ok (2 ^ 64 - 1) else bind (lnth (mp X) (i - 1)) (fun x1 => Ok (int_div_int x2 x1 y1))) =
      Ok (if y1 <=? x2 then LB - 1 else (x2 * LB + x1) / y1)) as ->.
    { destruct (Z.leb_spec y1 x2); [reflexivity|]. rewrite (lnth_ok (mp X) (i - 1) 0) by lia. cbn [bind]. fold x1. now rewrite int_div_int_ok. }
    cbn [bind].
    assert (exists q0, q0 = (if y1 <=? x2 then LB - 1 else (x2 * LB + x1) / y1)) as [q0 Eq0] by (eexists; reflexivity). rewrite <- Eq0.
    destruct (est_fuel y1 y0 x2 x1 x0 q0 Ly1 Ly0 Lx2 Lx1 Lx0 Yn Eq0) as [Lq0 Fq].
    pose proof (LB_pow k) as PK. pose proof (LB_pow t) as PT. pose proof LB_gt1 as G.
    assert (0 < y1) as Py1 by lia.
    pose proof (top2 (mp Y) t y1 y0 (proj2 HY) Lt ltac:(lia) eq_refl eq_refl) as T2Y.
    assert (0 < mval Y) as PY.
    { rewrite <- VY. pose proof T2Y as T. unfold is_limb in *. nia. }
    eapply wp_bind.
    { apply (div_est_ok X Y i t x2 x1 x0 y1 y0 N (proj2 HX) (proj2 HY)); try reflexivity; try lia; try assumption.
      destruct (Z_le_gt_dec 4 q0) as [Q|Q].
      - exists 4%nat. split; [lia|]. split; [lia|]. apply Fq. exact Q.
      - unfold is_limb in Lq0. exists (Z.to_nat q0). split; [lia|]. split; [lia|]. rewrite Z2Nat.id, Z.sub_diag, Z.mul_0_l by lia. clear - Lx2 Lx1 Lx0 G. unfold is_limb in *. nia. }
    intros [[T1' T2'] q] (HT1' & HT2' & L1' & L2' & Hq & HqU & Hqs).
    assert (LB ^ Z.of_nat (S k) = LB * LB ^ Z.of_nat k) as ES by apply LB_powS.
    assert (mval X < mval Y * LB * LB ^ Z.of_nat k) as HV2 by (rewrite ES in HV; lia).
    assert (LB ^ Z.of_nat (i - 1) = LB ^ Z.of_nat t * LB ^ Z.of_nat k) as EI by (rewrite <- LB_powadd; do 2 f_equal; lenlia).
    assert (mval X < LB ^ Z.of_nat (S i)) as XB.
    { replace (S i) with (S t + S k)%nat by lenlia. rewrite LB_powadd. eapply Z.lt_trans; [apply HV|]. apply Z.mul_lt_mono_pos_r; [apply LB_pow | lia]. }
    pose proof (est_bounds (mval X) (mval Y) (y1 * LB + y0) (x2 * (LB * LB) + x1 * LB + x0) (LB ^ Z.of_nat t) (LB ^ Z.of_nat k) y1 y0 x2 x1 x0 q0 q
      PT PK (proj1 HV) Py1 Ly1 Ly0 Lx2 Lx1 Lx0 eq_refl eq_refl) as EB.
    rewrite <- VY in EB at 1 2. rewrite <- VX in EB at 1 2. rewrite <- EI in EB.
    specialize (EB T2Y).
    specialize (EB (top3 (mp X) i x2 x1 x0 (proj2 HX) ltac:(lenlia) ltac:(lia) eq_refl eq_refl eq_refl)).
    specialize (EB HV2 Eq0 Hq HqU Hqs).
    assert (exists K, K = LB ^ Z.of_nat k) as [K EK] by (eexists; reflexivity). rewrite <- EK in *. set (Qs := mval X / (mval Y * K)) in *.
    assert (0 < mval Y * K) as PYK by (apply Z.mul_pos_pos; [exact PY | exact PK]).
    pose proof (Z.div_mod (mval X) (mval Y * K) ltac:(lia)) as DM. pose proof (Z.mod_pos_bound (mval X) (mval Y * K) PYK) as MB. fold Qs in DM.
    set (rem := mval X mod (mval Y * K)) in *. assert (0 <= Qs) as Qs0 by (apply Z.div_pos; [apply HV | exact PYK]).
    clear Hqs HqU Fq Eq0 Lx2 Lx1 Lx0 Ly0. clearbody Qs rem x2 x1 x0 y0 y1.
    assert (is_limb q) as Lq by (unfold is_limb in *; lia).
    assert (mval Y * K < LB ^ Z.of_nat i) as YKB.
    { replace i with (S t + k)%nat by lenlia. rewrite LB_powadd, <- EK. apply Z.mul_lt_mono_pos_r; [exact PK | lia]. }
    assert (mval Y * q * K < LB ^ Z.of_nat N) as TB.
    { eapply Z.lt_le_trans; [|apply (LB_pow_le (S i) N); lenlia]. rewrite LB_powS. unfold is_limb in Lq.
      apply Z.le_lt_trans with (mval Y * K * LB); [rewrite <- Z.mul_assoc, (Z.mul_comm q), Z.mul_assoc; apply Z.mul_le_mono_nonneg_l; lia|]. rewrite Z.mul_comm. apply Z.mul_lt_mono_pos_l; lia. }
    eapply wp_bind.
    { apply mul_int_ok; [exact HT1' | exact HY | discriminate | unfold mlen, zlen; lenlia | exact Lq]. }
    intros U1 (HU1 & MU1 & VU1 & LU1). rewrite VY in VU1.
    assert (sig (mp Y) <= S t)%nat as SY by (apply sig_abs_bound; [exact HY | lia]).
    assert (2 <= length (mp U1) <= N)%nat as LU1'.
    { rewrite LU1. pose proof (sig_le [q]). cbn [length] in *. lenlia. }
    clear LU1. eapply wp_bind.
    { apply (shift_limbs_ok U1 k N); [exact HU1 | rewrite VU1, <- EK; exact TB | lenlia | lenlia]. }
    intros U2 (HU2 & MU2 & VU2 & SU2 & LU2). rewrite <- EK in MU2. rewrite MU1 in MU2.
    assert (2 <= length (mp U2) <= N)%nat as LU2' by (clear - LU2 LU1'; lia). clear LU2 LU1'.
    assert (mp X <> []) as NX by (apply nonnil_len; clear - LX; lia). assert (mp U2 <> []) as NU by (apply nonnil_len; clear - LU2'; lia).
    eapply wp_bind.
    { apply sub_ok; [exact HX | exact HX | exact HU2 | reflexivity | discriminate | unfold mlen, zlen; lenlia | unfold mlen, zlen; lenlia | unfold mlen, zlen; lenlia]. }
    intros W (HW & MW & LW1 & LW2). specialize (LW2 NX NU). rewrite MU2 in MW.
    assert (Z.abs (mval W) < LB ^ Z.of_nat i) as WB.
    { eapply Z.le_lt_trans; [|exact YKB]. rewrite MW. clear - EB DM MB. nia. }
    assert (sig (mp W) <= N)%nat as SW by (pose proof (sig_abs_bound W i HW WB) as Q; clear - Q iN; lia).
    assert (length (mp X) <= length (mp W) <= N)%nat as LW by (clear - LW1 LW2 SW LX LU2'; lia). clear LW1 LW2.
    assert (mp W <> []) as NW by (apply nonnil_len; clear - LW LX; lia). assert (mp Y <> []) as NY by (apply nonnil_len; clear - Lt; lia).
    rewrite cmp_int_ok by (assumption || (clear; lia)). cbn [bind]. rewrite cmp3_lt.
    assert (forall X' T' q', mpi_ok X' -> mpi_ok T' -> mval X' = rem -> q' = Qs -> (t + k < length (mp X') <= N)%nat -> (2 <= length (mp T') <= N)%nat ->
      wp (bind (lupd (mp Zq) k q') (fun p => div_loop k X' Y (MkMpi (ms Zq) p) T' T2' t))
       (fun r => let '(X', Zq') := r in mpi_ok X' /\ mpi_ok Zq' /\ ms Zq' = ms Zq /\ mval X' = mval X mod mval Y /\
        lval (mp Zq') = LB ^ Z.of_nat (S k) * lval (skipn (S k) (mp Zq)) + mval X / mval Y /\ (t < length (mp X') <= N)%nat /\ length (mp Zq') = length (mp Zq))) as FIN.
    { intros X' T' q' HX' HT' MX' -> LX' LT'. rewrite lupd_ok by lenlia. cbn [bind].
      eapply wp_mono; [apply IH; try assumption; try lia|].
      - split; [apply HZ|]. cbn [mp]. apply Forall_app. split; [apply Forall_firstn', HZ|]. constructor; [unfold is_limb in *; lia | apply Forall_skipn', HZ].
      - cbn [mp]. rewrite app_length, firstn_length. lia.
      - intros [X'' Zq''] (H1 & H2 & H3 & H4 & H5 & H6 & H7). cbn [ms mp] in *.
        split; [exact H1|]. split; [exact H2|]. split; [exact H3|].
        assert (mval X = Qs * K * mval Y + rem) as DX by (rewrite DM; ring).
        split; [rewrite H4, MX', DX, Z.add_comm, Z.mod_add by lia; reflexivity|].
        split; [|split; [exact H6 | rewrite H7, app_length, firstn_length; cbn [length]; rewrite skipn_length; lia]].
        rewrite H5, MX', DX, (Z.add_comm _ rem), Z.div_add by lia.
        rewrite skipn_app, firstn_length, Nat.min_l, Nat.sub_diag, skipn_O by lia. rewrite (skipn_all2 (firstn k (mp Zq))) by (rewrite firstn_length; lia). cbn [app].
        rewrite lval_cons, ES. try rewrite <- EK. ring. }
    destruct (Z.compare_spec (mval W) 0) as [E|E|E].
    1, 3: (cbn [bindr bind ret]; assert (q = Qs) as Eq by (clear - EB DM MB MW E PYK; nia);
      apply FIN; [exact HW | exact HU2 | rewrite MW, Eq; clear - DM; lia | exact Eq | lenlia | lia]).
    assert (q = Qs + 1) as Eq by (clear - EB DM MB MW E PYK; nia).
    eapply wp_bind.
    { eapply wp_bind; [apply (copy_ok2 false U2 Y); [exact HU2 | exact HY | discriminate | unfold zlen; lenlia]|].
      intros V1 (HV1 & VV1 & MV1 & LV1 & LV1'). destruct (LV1' NY) as [LV2 _].
      assert (2 <= length (mp V1) <= N)%nat as LV by (clear - LV1 LV2 LU2' SY iN Ei HN; lia). clear LV1 LV2 LV1'.
      eapply wp_bind; [apply (shift_limbs_ok V1 k N); [exact HV1 | | lenlia | lenlia]|].
      { rewrite VV1, VY. rewrite <- EK. eapply Z.lt_le_trans; [exact YKB|]. apply LB_pow_le. lenlia. }
      intros V2 (HV2' & MV2 & _ & _ & LV3). rewrite <- EK in MV2. rewrite MV1 in MV2. assert (2 <= length (mp V2) <= N)%nat as LV4 by (clear - LV LV3; lia). clear LV3 LV. assert (mp V2 <> []) as NV by (apply nonnil_len; clear - LV4; lia).
      eapply wp_bind; [apply add_ok; [exact HW | exact HW | exact HV2' | reflexivity | discriminate | unfold mlen, zlen; lenlia | unfold mlen, zlen; lenlia | unfold mlen, zlen; lenlia]|].
      intros W2 (HW2 & MW2 & LW3 & LW4). specialize (LW4 NW NV).
      assert (mval W2 = rem) as ER by (rewrite MW2, MW, MV2, Eq; clear - DM; lia).
      assert (sig (mp W2) <= N)%nat as SW2.
      { pose proof (sig_abs_bound W2 i HW2) as B. rewrite ER in B. specialize (B ltac:(rewrite Z.abs_eq; clear - MB YKB; lia)). clear - B iN. lia. }
      apply wp_ret. instantiate (1 := fun r => let '(X', T', q') := r in mpi_ok X' /\ mpi_ok T' /\ mval X' = rem /\ q' = Qs /\ (t + k < length (mp X') <= N)%nat /\ (2 <= length (mp T') <= N)%nat).
      cbv beta iota. split; [exact HW2|]. split; [exact HV2'|]. split; [exact ER|]. split; [|split; lenlia].
      rewrite u64_limb by (unfold is_limb in *; clear - Eq Lq Qs0; lia). clear - Eq; lia. }
    intros [[X' T'] q'] (H1 & H2 & H3 & H4 & H5 & H6). now apply FIN.
Qed.
