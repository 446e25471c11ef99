From Coq Require Import Lia.
From Verif Require Import Base BaseFacts MpiModel MpiProofs LimbModel LimbSpec LimbProofs LimbProofs2 LimbProofs3 LimbProofs4.

Lemma div_top_ok Y k N : mpi_ok Y -> 0 < mval Y -> Z.of_nat N < 10000 -> (0 < length (mp Y) <= N)%nat -> forall fuel X Zq,
  mpi_ok X -> mpi_ok Zq -> (k < length (mp Zq))%nat -> (0 < length (mp X) <= N)%nat -> 0 <= mval X < Z.of_nat fuel * mval Y -> nth k (mp Zq) 0 + mval X / mval Y < LB ->
  wp (div_top fuel X Y Zq k) (fun r => let '(X', Zq') := r in mpi_ok X' /\ mpi_ok Zq' /\ ms Zq' = ms Zq /\ mval X' = mval X mod mval Y /\
    mp Zq' = firstn k (mp Zq) ++ (nth k (mp Zq) 0 + mval X / mval Y) :: skipn (S k) (mp Zq) /\ (length (mp X) <= length (mp X') <= N)%nat).
Proof.
  intros HY PY HN LY. induction fuel as [|fuel IH]; intros X Zq HX HZ LZ LX HV HO; [lia|].
  cbn [div_top]. rewrite cmp_ok by assumption. cbn [bind]. rewrite cmp3_lt.
  assert (forall P : Prop, mval Y <= mval X -> (wp (z <- lnth (mp Zq) k;; p <- lupd (mp Zq) k (u64 (z + 1));; X <-? l_sub true false X X Y;; div_top fuel X Y (MkMpi (ms Zq) p) k)
    (fun r => let '(X', Zq') := r in mpi_ok X' /\ mpi_ok Zq' /\ ms Zq' = ms Zq /\ mval X' = mval X mod mval Y /\
    mp Zq' = firstn k (mp Zq) ++ (nth k (mp Zq) 0 + mval X / mval Y) :: skipn (S k) (mp Zq) /\ (length (mp X) <= length (mp X') <= N)%nat) -> P) -> P) as GE.
  { intros P HGE HP. apply HP. clear HP P. rewrite (lnth_ok _ _ 0) by exact LZ. cbn [bind]. set (z := nth k (mp Zq) 0) in *.
    assert (is_limb z) as Lz by (apply nth_limb, HZ). unfold is_limb in Lz.
    assert (mval X / mval Y = (mval X - mval Y) / mval Y + 1) as ED.
    { replace (mval X) with (mval X - mval Y + 1 * mval Y) at 1 by ring. rewrite Z.div_add by lia. reflexivity. }
    assert (0 <= (mval X - mval Y) / mval Y) as D0 by (apply Z.div_pos; lia).
    rewrite u64_limb by (unfold is_limb; lia).
    rewrite lupd_ok by exact LZ. cbn [bind].
    eapply wp_bind; [apply sub_ok; [exact HX | exact HX | exact HY | reflexivity | discriminate | unfold mlen, zlen; lia | unfold mlen, zlen; lia | unfold mlen, zlen; lia]|].
    intros W (HW & MW & LW1 & LW2). specialize (LW2 ltac:(apply nonnil_len; lia) ltac:(apply nonnil_len; lia)).
    assert (sig (mp W) <= sig (mp X))%nat as SW.
    { apply sig_mono; [apply HW | apply HX|]. rewrite !lval_mval by (assumption || lia). lia. }
    pose proof (sig_le (mp X)).
    assert (nth k (firstn k (mp Zq) ++ (z + 1) :: skipn (S k) (mp Zq)) 0 = z + 1) as NTH.
    { rewrite app_nth2, firstn_length, Nat.min_l, Nat.sub_diag by (rewrite ?firstn_length; lia). reflexivity. }
    eapply wp_mono; [apply IH; cbn [mp ms]|].
    - exact HW.
    - split; [apply HZ|]. cbn [mp]. apply Forall_app. split; [apply Forall_firstn', HZ|]. constructor; [unfold is_limb; lia | apply Forall_skipn', HZ].
    - rewrite app_length, firstn_length. cbn [length]. rewrite skipn_length. lia.
    - lia.
    - rewrite MW. lia.
    - rewrite NTH, MW. lia.
    - intros [X' Zq'] (H1 & H2 & H3 & H4 & H5 & H6). cbn [ms mp] in *. rewrite NTH, MW in *.
      split; [exact H1|]. split; [exact H2|]. split; [exact H3|]. split.
      { rewrite H4. replace (mval X) with (mval X - mval Y + 1 * mval Y) at 2 by ring. rewrite Z.mod_add by lia. reflexivity. }
      split; [|lia]. rewrite H5, ED. rewrite firstn_app, firstn_length, Nat.min_l, Nat.sub_diag, firstn_O, app_nil_r, firstn_firstn, Nat.min_id by lia. f_equal. f_equal; [lia|].
      rewrite skipn_app, firstn_length, Nat.min_l by lia. rewrite (skipn_all2 (firstn k (mp Zq))) by (rewrite firstn_length; lia).
      replace (S k - k)%nat with 1%nat by lia. reflexivity. }
  destruct (Z.compare_spec (mval X) (mval Y)) as [E|E|E].
  - apply GE; [lia | easy].
  - apply wp_ret. rewrite Z.mod_small, Z.div_small, Z.add_0_r by lia. repeat split; try apply HX; try apply HZ; try lia.
    rewrite <- (firstn_skipn k (mp Zq)) at 1. f_equal. clear - LZ. revert LZ. generalize (mp Zq). intros l. revert k. induction l as [|x l IH]; intros k L; [cbn in L; lia|].
    destruct k; [reflexivity|]. cbn [skipn nth]. apply IH. cbn in L. lia.
  - apply GE; [lia | easy].
Qed.

Lemma len_of_bits l : Forall is_limb l -> lval l <> 0 -> Z.of_nat (sig l) = (mpi_bitlen (lval l) + 63) / 64.
Proof.
  intros H N. destruct (sig l) as [|k] eqn:E; [apply (sig_zero l H) in E; lia|].
  pose proof (sig_ge l k H E) as G. pose proof (sig_lt l H) as L. rewrite E in L. rewrite LB_two in *.
  pose proof (lval_nonneg _ H). assert (64 * Z.of_nat k < mpi_bitlen (lval l)) as B1.
  { destruct (Z_lt_ge_dec (64 * Z.of_nat k) (mpi_bitlen (lval l))) as [Q|Q]; [exact Q|].
    assert (lval l < 2 ^ (64 * Z.of_nat k)) by (apply bitlen_le; lia). lia. }
  assert (mpi_bitlen (lval l) <= 64 * Z.of_nat (S k)) as B2 by (apply bitlen_le; lia).
  apply (Z.div_unique_pos _ _ _ (mpi_bitlen (lval l) + 63 - 64 * Z.of_nat (S k))); lia.
Qed.
Lemma bitlen_mul_pow2 x k : 0 < x -> 0 <= k -> mpi_bitlen (x * 2 ^ k) = mpi_bitlen x + k.
Proof.
  intros Hx Hk. pose proof (Z.pow_pos_nonneg 2 k ltac:(lia) Hk). unfold mpi_bitlen.
  destruct (Z.eqb_spec (x * 2 ^ k) 0); [nia|]. destruct (Z.eqb_spec x 0); [lia|]. rewrite !Z.abs_eq by nia. rewrite Z.log2_mul_pow2 by lia. lia.
Qed.
Lemma bitlen_lower x : 0 < x -> 2 ^ (mpi_bitlen x - 1) <= x < 2 ^ mpi_bitlen x.
Proof.
  intros Hx. unfold mpi_bitlen. destruct (Z.eqb_spec x 0); [lia|]. rewrite Z.abs_eq by lia. replace (Z.log2 x + 1 - 1) with (Z.log2 x) by lia.
  apply Z.log2_spec. exact Hx.
Qed.
(** The normalised operands: the top limb of Y has exactly 63 bits, the top limb of X is not zero *)
Lemma normalise_ok X Y : mpi_ok X -> mpi_ok Y -> ms X = 1 -> ms Y = 1 -> lval (mp X) <> 0 -> lval (mp Y) <> 0 -> length (mp X) = sig (mp X) -> length (mp Y) = sig (mp Y) ->
  Z.of_nat (length (mp X)) <= 9997 -> Z.of_nat (length (mp Y)) <= 9997 ->
  wp (b <- l_bitlen Y ;; (let k := b mod 64 in
    if k <? 63 then let k := 63 - k in X <-? l_shift_l X k ;; Y <-? l_shift_l Y k ;; ret (X, Y, k) else ret (X, Y, 0)))
  (fun r => let '(X', Y', k) := r in 0 <= k /\ mpi_ok X' /\ mpi_ok Y' /\ lval (mp X') = lval (mp X) * 2 ^ k /\ lval (mp Y') = lval (mp Y) * 2 ^ k /\ ms X' = 1 /\ ms Y' = 1 /\
    length (mp X') = sig (mp X') /\ length (mp Y') = sig (mp Y') /\ LB <= 4 * nth (length (mp Y') - 1) (mp Y') 0 /\
    (length (mp X) <= length (mp X') <= S (length (mp X)))%nat /\ (length (mp Y) <= length (mp Y') <= S (length (mp Y)))%nat).
Proof.
  intros HX HY SX SY NX NY LX LY BX BY. rewrite bitlen_ok by exact HY. cbn [bind]. cbv zeta.
  pose proof (lval_nonneg _ (proj2 HX)) as PX. pose proof (lval_nonneg _ (proj2 HY)) as PY.
  pose proof (len_of_bits _ (proj2 HX) NX) as EX. pose proof (len_of_bits _ (proj2 HY) NY) as EY.
  set (bx := mpi_bitlen (lval (mp X))) in *. set (by_ := mpi_bitlen (lval (mp Y))) in *.
  pose proof (bitlen_lower (lval (mp Y)) ltac:(lia)) as [BL1 BL2]. fold by_ in BL1, BL2.
  pose proof (bitlen_nonneg (lval (mp X))) as BX0. fold bx in BX0.
  assert (1 <= by_) as BY1. { destruct (Z_le_gt_dec 1 by_) as [Q|Q]; [exact Q|]. pose proof (Z.pow_le_mono_r 2 by_ 0 ltac:(lia) ltac:(lia)). change (2 ^ 0) with 1 in *. lia. }
  assert (forall Y', mpi_ok Y' -> length (mp Y') = sig (mp Y') -> lval (mp Y') <> 0 -> mpi_bitlen (lval (mp Y')) mod 64 = 63 -> LB <= 4 * nth (length (mp Y') - 1) (mp Y') 0) as TOP.
  { clear. intros Y [_ F] LS N B. pose proof (lval_nonneg _ F). destruct (sig (mp Y)) as [|s] eqn:ES; [apply (sig_zero _ F) in ES; lia|].
    rewrite LS. replace (S s - 1)%nat with s by lia.
    pose proof (bitlen_lower (lval (mp Y)) ltac:(lia)) as [B1 B2]. pose proof (len_of_bits _ F N) as E. rewrite ES in E.
    set (b := mpi_bitlen (lval (mp Y))) in *.
    pose proof (Z.div_mod b 64 ltac:(lia)) as D. rewrite B in D.
    assert (b = 64 * Z.of_nat s + 63) as Eb.
    { pose proof (Z.div_mod (b + 63) 64 ltac:(lia)). pose proof (Z.mod_pos_bound (b + 63) 64 ltac:(lia)). lia. }
    rewrite Eb in B1. replace (64 * Z.of_nat s + 63 - 1) with (64 * Z.of_nat s + 62) in B1 by lia. rewrite Z.pow_add_r, <- LB_two in B1 by lia.
    rewrite <- (lval_firstn (mp Y) (S s)) in B1 by lia. rewrite (firstn_S_nth _ _ 0), lval_app, firstn_length, Nat.min_l in B1 by lia. cbn [lval] in B1.
    pose proof (lval_lt (firstn s (mp Y)) s (Forall_firstn' _ s _ F) ltac:(rewrite firstn_length; lia)) as F1. pose proof (LB_pow s) as P.
    set (y := nth s (mp Y) 0) in *. set (W := LB ^ Z.of_nat s) in *. clearbody y W. change LB with (4 * 2 ^ 62).
    assert (2 ^ 62 < y + 1); [|lia]. apply (Z.mul_lt_mono_pos_l W); [exact P|]. rewrite Z.mul_add_distr_l. lia. }
  pose proof (Z.mod_pos_bound by_ 64 ltac:(lia)) as MB. pose proof (Z.div_mod by_ 64 ltac:(lia)) as DB.
  destruct (Z.ltb_spec (by_ mod 64) 63) as [L|L].
  - set (k := 63 - by_ mod 64) in *. assert (0 <= k <= 63) as Hk by lia. pose proof (Z.pow_pos_nonneg 2 k ltac:(lia) ltac:(lia)) as Pk.
    pose proof (bitlen_len _ (proj2 HX)) as BLX. pose proof (bitlen_len _ (proj2 HY)) as BLY. unfold zlen in BLX, BLY. fold bx in BLX. fold by_ in BLY.
    eapply wp_bind; [apply shift_l_ok; [exact HX | lia | fold bx; lia]|]. intros X' (HX' & _ & VX & SX' & LX'). fold bx in LX'.
    eapply wp_bind; [apply shift_l_ok; [exact HY | lia | fold by_; lia]|]. intros Y' (HY' & _ & VY & SY' & LY'). fold by_ in LY'.
    assert (lval (mp X') <> 0) as NX' by (rewrite VX; nia). assert (lval (mp Y') <> 0) as NY' by (rewrite VY; nia).
    pose proof (len_of_bits _ (proj2 HX') NX') as EX'. pose proof (len_of_bits _ (proj2 HY') NY') as EY'.
    rewrite VX, bitlen_mul_pow2 in EX' by lia. rewrite VY, bitlen_mul_pow2 in EY' by lia. fold bx in EX'. fold by_ in EY'.
    pose proof (sig_le (mp X')). pose proof (sig_le (mp Y')).
    assert ((bx + 63) / 64 <= (bx + k + 63) / 64 <= (bx + 63) / 64 + 1) as DX.
    { split; [apply Z.div_le_mono; lia|]. replace ((bx + 63) / 64 + 1) with ((bx + 63 + 1 * 64) / 64) by (rewrite Z.div_add by lia; reflexivity). apply Z.div_le_mono; lia. }
    assert ((by_ + 63) / 64 <= (by_ + k + 63) / 64 <= (by_ + 63) / 64 + 1) as DY.
    { split; [apply Z.div_le_mono; lia|]. replace ((by_ + 63) / 64 + 1) with ((by_ + 63 + 1 * 64) / 64) by (rewrite Z.div_add by lia; reflexivity). apply Z.div_le_mono; lia. }
    set (dx := (bx + k + 63) / 64) in *. set (dy := (by_ + k + 63) / 64) in *. set (ex := (bx + 63) / 64) in *. set (ey := (by_ + 63) / 64) in *.
    assert (length (mp X') = sig (mp X')) as LSX by (clear - LX' LX EX EX' DX; lia).
    assert (length (mp Y') = sig (mp Y')) as LSY by (clear - LY' LY EY EY' DY; lia).
    assert (length (mp X) <= length (mp X') <= S (length (mp X)))%nat as LLX by (clear - LX' LX EX EX' DX LSX; lia).
    assert (length (mp Y) <= length (mp Y') <= S (length (mp Y)))%nat as LLY by (clear - LY' LY EY EY' DY LSY; lia).
    apply wp_ret. split; [lia|]. split; [exact HX'|]. split; [exact HY'|]. split; [exact VX|]. split; [exact VY|]. split; [congruence|]. split; [congruence|].
    split; [exact LSX|]. split; [exact LSY|]. split; [|split; assumption].
    apply TOP; [exact HY' | exact LSY | exact NY'|]. rewrite VY, bitlen_mul_pow2 by lia. fold by_.
    symmetry. apply (Z.mod_unique_pos _ _ (by_ / 64)); [lia | unfold k; lia].
  - apply wp_ret. rewrite Z.mul_1_r, Z.mul_1_r. split; [lia|]. split; [exact HX|]. split; [exact HY|]. split; [reflexivity|]. split; [reflexivity|]. split; [exact SX|]. split; [exact SY|].
    split; [exact LX|]. split; [exact LY|]. split; [|split; lia]. apply TOP; [exact HY | exact LY | exact NY | fold by_; lia].
Qed.
Lemma wp_bind_in {A B C} (x : outcome A) (f : A -> res B) (g : B -> res C) P Q : wp (bind x f) P -> (forall a, P a -> wp (g a) Q) -> wp (bind x (fun b => bindr (f b) g)) Q.
Proof.
  intros H K. assert (bind x (fun b => bindr (f b) g) = bindr (bind x f) g) as ->. { destruct x; reflexivity. } eapply wp_bind; eassumption.
Qed.
Lemma skipn_top k n c : (k < n)%nat -> lval (skipn k (firstn k (repeat 0 n) ++ (nth k (repeat 0 n) 0 + c) :: skipn (S k) (repeat 0 n))) = c.
Proof.
  intros L. rewrite skipn_app, firstn_length, repeat_length, Nat.min_l, Nat.sub_diag, skipn_O by lia. rewrite skipn_all2 by (rewrite firstn_length; lia).
  cbn [app]. rewrite lval_cons. assert (forall k n, nth k (repeat 0 n) 0 = 0) as N0.
  { clear. intros k n. revert k. induction n; intros [|k]; cbn; auto. }
  rewrite N0. assert (lval (skipn (S k) (repeat 0 n)) = 0) as ->; [|lia].
  apply lval_skipn_zero; [apply limbs_zeros|]. rewrite (proj2 (sig_zero _ (limbs_zeros _))); [lia | apply lval_zeros].
Qed.
Lemma div_core_ok A B : mpi_ok A -> mpi_ok B -> lval (mp B) <> 0 -> lval (mp B) <= lval (mp A) -> mlen A <= 9990 -> mlen B <= 10000 ->
  wp (div_core A B) (fun r => let '(X, Zq, k) := r in mpi_ok X /\ mpi_ok Zq /\ 0 <= k /\ ms Zq = 1 /\ mval X = (lval (mp A) mod lval (mp B)) * 2 ^ k /\
    lval (mp Zq) = lval (mp A) / lval (mp B) /\ 0 < mlen X < 10000 /\ length (mp Zq) = (length (mp A) + 2)%nat).
Proof.
  unfold mlen, zlen. intros HA HB NB GE LA LB'. unfold div_core.
  pose proof (lval_nonneg _ (proj2 HB)) as PB. pose proof (sig_le (mp A)) as SLA. pose proof (sig_le (mp B)) as SLB.
  pose proof (sig_mono (mp B) (mp A) (proj2 HB) (proj2 HA) GE) as SAB.
  assert (sig (mp B) <> O) as SB0 by (intros E; apply (sig_zero _ (proj2 HB)) in E; lia).
  eapply wp_bind; [apply copy_new; [exact init_ok | exact HA | apply nonnil_len; lia | unfold zlen; lia]|]. intros X (HX & VX & _ & LX).
  eapply wp_bind; [apply copy_new; [exact init_ok | exact HB | apply nonnil_len; lia | unfold zlen; lia]|]. intros Y (HY & VY & _ & LY).
  cbn [l_init mp length] in LX, LY.
  assert (sig (mp X) = sig (mp A)) as SX by (apply Nat.le_antisymm; apply sig_mono; try apply HX; try apply HA; lia).
  assert (sig (mp Y) = sig (mp B)) as SY by (apply Nat.le_antisymm; apply sig_mono; try apply HY; try apply HB; lia).
  cbv zeta.
  eapply wp_bind; [apply grow_ok; [exact init_ok | lia]|]. intros Z0 (HZ0 & _ & _ & LZ0 & _). cbn [l_init mp length] in LZ0.
  eapply wp_bind; [apply lset0_ok; exact HZ0|]. intros Zq (HZ & PZ & SZ & _). rewrite LZ0 in PZ.
  replace (Nat.max 1 (Nat.max 0 (length (mp A) + 2))) with (length (mp A) + 2)%nat in PZ by lia.
  eapply wp_bind; [apply grow_ok; [exact init_ok | lia]|]. intros T1 (HT1 & _ & _ & LT1 & _).
  eapply wp_bind; [apply grow_ok; [exact init_ok | lia]|]. intros T2 (HT2 & _ & _ & LT2 & _). cbn [l_init mp length] in LT1, LT2.
  eapply wp_bind_in.
  { apply (normalise_ok (with_s X 1) (with_s Y 1)); cbn [mp ms with_s]; try reflexivity; try (split; [now left | apply HX || apply HY]); try lia. }
  intros [[X' Y'] k] (K0 & HX' & HY' & VX' & VY' & SX' & SY' & LSX & LSY & TOP & LLX & LLY). cbn [mp with_s] in *. rewrite VX in VX'. rewrite VY in VY'.
  pose proof (Z.pow_pos_nonneg 2 k ltac:(lia) K0) as PK.
  assert (lval (mp Y') <= lval (mp X')) as GE' by (rewrite VX', VY'; apply Z.mul_le_mono_nonneg_r; lia).
  assert (0 < lval (mp Y')) as PY' by (rewrite VY'; apply Z.mul_pos_pos; lia).
  pose proof (sig_mono _ _ (proj2 HY') (proj2 HX') GE') as SXY.
  assert (1 <= length (mp Y'))%nat as L1Y by lia.
  destruct (Nat.ltb_spec (length (mp X') - 1) (length (mp Y') - 1)) as [Q|Q]; [lia|].
  set (n := (length (mp X') - 1)%nat) in *. set (t := (length (mp Y') - 1)%nat) in *.
  assert (length (mp X') = S n) as LXn by lia. assert (length (mp Y') = S t) as LYt by lia. clearbody n t.
  assert (S n <= S (length (mp A)))%nat as NA by lia.
  assert (mval X' = lval (mp X')) as MX' by (unfold mval; rewrite SX'; lia). assert (mval Y' = lval (mp Y')) as MY' by (unfold mval; rewrite SY'; lia).
  pose proof (lval_lt (mp X') (S n) (proj2 HX') ltac:(lia)) as XB. pose proof (lval_lt (mp Y') (S t) (proj2 HY') ltac:(lia)) as YB.
  pose proof (LB_pow (n - t)) as PM. set (m := (n - t)%nat) in *. assert (n = t + m)%nat as En by (unfold m; clear - Q; lia). clearbody m.
  clear LX LY LLX LLY LZ0 SLA SLB. change (Nat.max 0 2) with 2%nat in LT1. change (Nat.max 0 3) with 3%nat in LT2.
  eapply wp_bind; [apply (shift_limbs_ok Y' m (S n)); [exact HY' | | clear - NA LA; lia | clear - En; lia]|].
  { rewrite En. change (S (t + m)) with (S t + m)%nat. rewrite LB_powadd. apply Z.mul_lt_mono_pos_r; [exact PM | exact YB]. }
  intros Y2 (HY2 & MY2 & VY2 & SY2 & LY2).
  assert (length (mp Y2) = S n) as LY2'.
  { assert (S n <= sig (mp Y2))%nat; [|pose proof (sig_le (mp Y2)); clear LSX LSY SXY SX SY SAB TOP; lia]. rewrite LSY in LYt. pose proof (sig_ge (mp Y') t (proj2 HY') LYt) as G.
    apply sig_gt; [apply HY2|]. rewrite VY2, En, LB_powadd. clear - G PM. apply Z.mul_le_mono_nonneg_r; lia. }
  assert (0 < mval Y2) as PY2 by (rewrite MY2, MY'; apply Z.mul_pos_pos; assumption).
  assert (LB ^ Z.of_nat (S n) <= 4 * mval Y2) as B4.
  { rewrite MY2, MY'. 
    assert (nth t (mp Y') 0 * LB ^ Z.of_nat t <= lval (mp Y')) as GT.
    { rewrite <- (firstn_all (mp Y')) at 2. rewrite LYt, (firstn_S_nth _ _ 0), lval_app, firstn_length, Nat.min_l by (clear - LYt; lia). cbn [lval]. pose proof (lval_nonneg _ (Forall_firstn' _ t _ (proj2 HY'))) as LN. clear - LN. lia. }
    rewrite LB_powS, En, LB_powadd. pose proof (LB_pow t) as PT. 
    assert (LB * LB ^ Z.of_nat t <= 4 * lval (mp Y')) as G by (clear - GT TOP PT; nia).
    replace (LB * (LB ^ Z.of_nat t * LB ^ Z.of_nat m)) with (LB * LB ^ Z.of_nat t * LB ^ Z.of_nat m) by ring. rewrite Z.mul_assoc. clear - G PM. apply Z.mul_le_mono_nonneg_r; lia. }
  pose proof (lval_nonneg _ (proj2 HX')) as PX'.
  assert (mval X' / mval Y2 < 4) as C4 by (clear - PY2 XB MX' B4; apply Z.div_lt_upper_bound; lia).
  pose proof LB_gt1 as G1. assert (4 < LB) as G4 by (unfold LB; reflexivity).
  assert (forall k n, nth k (repeat 0 n) 0 = 0) as N0. { clear. intros k n. revert k. induction n; intros [|k]; cbn; auto. }
  eapply wp_bind.
  { apply (div_top_ok Y2 m (S n) HY2 PY2); [lia | lia | exact HX' | exact HZ | rewrite PZ, repeat_length; lia | lia | lia | rewrite PZ, N0; lia]. }
  intros [X2 Z2] (HX2 & HZ2 & SZ2 & MX2 & PZ2 & LX2).
  assert (64 * Z.of_nat m / 64 = Z.of_nat m) as D64 by (rewrite Z.mul_comm; apply Z.div_mul; lia).
  eapply wp_bind; [apply shift_r_ok; [exact HY2 | lia]|]. intros Y3 (HY3 & VY3 & _ & LY3 & SY3). rewrite D64 in LY3.
  unfold zlen in LY3. rewrite LY2' in LY3.
  destruct (Z.ltb_spec (Z.of_nat (S n)) (Z.of_nat m)) as [F1|F1]; [clear - F1 En; lia|]. destruct (Z.eqb_spec (Z.of_nat m) (Z.of_nat (S n))) as [F2|F2]; [clear - F2 En; lia|]. cbn [orb andb] in LY3.
  rewrite <- LB_two, VY2, Z.div_mul in VY3 by lia.
  assert (ms Y3 = 1) as SY3' by (destruct SY3; congruence).
  assert (mval Y3 = lval (mp Y')) as MY3 by (unfold mval; rewrite SY3', VY3; lia).
  assert (nth t (mp Y3) 0 = nth t (mp Y') 0) as NT by (rewrite !nth_lval by (apply HY3 || apply HY'); rewrite VY3; reflexivity).
  assert (mval Y2 = lval (mp Y') * LB ^ Z.of_nat m) as MY2' by (rewrite MY2, MY'; reflexivity).
   rewrite SZ in SZ2.
  assert (lval (skipn m (mp Z2)) = mval X' / mval Y2) as LSK.
  { rewrite PZ2, PZ. apply skipn_top. lia. }
  assert (length (mp Z2) = length (mp A) + 2)%nat as LZ2.
  { rewrite PZ2, PZ, app_length, firstn_length, repeat_length. cbn [length]. rewrite skipn_length, repeat_length. lia. }
  pose proof (Z.mod_pos_bound (mval X') (mval Y2) PY2) as MB.
  clear PZ2 PZ LSX LSY SXY SAB SX SY SX' SY'.
  eapply wp_bind.
  { apply (div_loop_ok Y3 t (length (mp A) + 3) HY3); try assumption.
    - lia.
    - lia.
    - rewrite MY3. exact YB.
    - rewrite NT. exact TOP.
    - lia.
    - lia.
    - lia.
    - lia.
    - lia.
    - lia.
    - lia.
    - lia.
    - rewrite MX2, MY3, <- MY2'. exact MB. }
  intros [X3 Z3] (HX3 & HZ3 & SZ3 & MX3 & VZ3 & LX3 & LZ3).
  apply wp_ret. cbv beta iota. rewrite MX2, MY3, LSK, MX', MY2' in *.
  pose proof (Z.div_mod (lval (mp X')) (lval (mp Y') * LB ^ Z.of_nat m) ltac:(lia)) as DM.
  set (c := lval (mp X') / (lval (mp Y') * LB ^ Z.of_nat m)) in *. set (r := lval (mp X') mod (lval (mp Y') * LB ^ Z.of_nat m)) in *.
  assert (lval (mp X') = r + (LB ^ Z.of_nat m * c) * lval (mp Y')) as DM' by (rewrite DM; ring).
  split; [exact HX3|]. split; [exact HZ3|]. split; [exact K0|]. split; [congruence|]. split; [|split; [|split; [lia | lia]]].
  - rewrite MX3. rewrite <- Z.mul_mod_distr_r by lia. rewrite <- VX', <- VY'. rewrite DM', Z.mod_add by lia. reflexivity.
  - rewrite VZ3. rewrite <- (Z.div_mul_cancel_r (lval (mp A)) (lval (mp B)) (2 ^ k)) by lia. rewrite <- VX', <- VY', DM', Z.div_add by lia. lia.
Qed.
