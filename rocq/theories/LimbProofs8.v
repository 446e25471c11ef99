(** The statements of LimbProperties.v *)
From Verif Require Import Base BaseFacts MpiModel LimbModel LimbSpec LimbProofs LimbProofs2 LimbProofs3 LimbProofs4 LimbProofs5 LimbProofs6 LimbProofs7.

Ltac fin lem := let R := fresh in let H := fresh in let E := fresh in
  match goal with |- exists _, _ = ret _ /\ _ => destruct lem as (R & E & H); exists R; split; [exact E|] end.
Section Aliasing.
  Context (xa xb : bool) (X A B : mpi).
  Hypothesis HX : mpi_ok X. Hypothesis HA : mpi_ok A. Hypothesis HB : mpi_ok B.
  Hypothesis XA : alias xa X A. Hypothesis XB : alias xb X B.
  Lemma add_f : mlen X < 10000 -> mlen A < 10000 -> mlen B < 10000 -> exists R, l_add xa xb X A B = ret R /\ mpi_ok R /\ mval R = mval A + mval B.
  Proof using All. intros L1 L2 L3. fin (add_ok xa xb X A B HX HA HB XA XB L1 L2 L3). tauto. Qed.
  Lemma sub_f : mlen X < 10000 -> mlen A < 10000 -> mlen B < 10000 -> exists R, l_sub xa xb X A B = ret R /\ mpi_ok R /\ mval R = mval A - mval B.
  Proof using All. intros L1 L2 L3. fin (sub_ok xa xb X A B HX HA HB XA XB L1 L2 L3). tauto. Qed.
  Lemma add_abs_f : mlen X < 10000 -> mlen A < 10000 -> mlen B < 10000 -> exists R, l_add_abs xa xb X A B = ret R /\ mpi_ok R /\ mval R = Z.abs (mval A) + Z.abs (mval B).
  Proof using All. intros L1 L2 L3. fin (add_abs_ok xa xb X A B HX HA HB XA XB L1 L2 L3). rewrite !mval_abs by assumption. tauto. Qed.
  Lemma sub_abs_f : mlen A <= 10000 -> mlen B <= 10000 ->
    if Z.abs (mval A) <? Z.abs (mval B) then l_sub_abs xa xb X A B = err ERR_MPI_NEGATIVE_VALUE
    else exists R, l_sub_abs xa xb X A B = ret R /\ mpi_ok R /\ mval R = Z.abs (mval A) - Z.abs (mval B).
  Proof using All.
    intros L1 L2. rewrite !mval_abs by assumption. destruct (Z.ltb_spec (lval (mp A)) (lval (mp B))) as [Q|Q]; [now apply sub_abs_neg|].
    fin (sub_abs_ok xa xb X A B HX HA HB XA XB L1 L2 Q). tauto.
  Qed.
  Lemma mul_f : mlen A + mlen B <= 10000 -> exists R, l_mul xa xb X A B = ret R /\ mpi_ok R /\ mval R = mval A * mval B.
  Proof using All. intros L. fin (mul_ok xa xb X A B HX HA HB XA XB L). tauto. Qed.
  Lemma mul_int_f b : mlen A < 10000 -> 0 <= b < 2 ^ 64 -> exists R, l_mul_int xa X A b = ret R /\ mpi_ok R /\ mval R = mval A * b.
  Proof using HX HA XA. intros L Hb. fin (mul_int_ok xa X A b HX HA XA L Hb). tauto. Qed.
End Aliasing.
Lemma sint_f z : - 2 ^ 63 < z < 2 ^ 63 -> exists Y, l_sint z = Ok Y /\ mpi_ok Y /\ mval Y = z /\ mlen Y = 1.
Proof. intros H. destruct (sint_ok z H) as (Y & E & OK & V & L). exists Y. repeat split; try assumption; try apply OK. unfold mlen, zlen. now rewrite L. Qed.
Lemma add_int_f xa X A z : mpi_ok X -> mpi_ok A -> alias xa X A -> mlen X < 10000 -> mlen A < 10000 -> - 2 ^ 63 < z < 2 ^ 63 ->
  exists R, l_add_int xa X A z = ret R /\ mpi_ok R /\ mval R = mval A + z.
Proof.
  intros HX HA XA L1 L2 Hz. destruct (sint_f z Hz) as (Y & E & OK & V & L). unfold l_add_int. rewrite E. cbn [bind]. rewrite <- V. apply add_f; try assumption; [intros; discriminate | lia].
Qed.
Lemma sub_int_f xa X A z : mpi_ok X -> mpi_ok A -> alias xa X A -> mlen X < 10000 -> mlen A < 10000 -> - 2 ^ 63 < z < 2 ^ 63 ->
  exists R, l_sub_int xa X A z = ret R /\ mpi_ok R /\ mval R = mval A - z.
Proof.
  intros HX HA XA L1 L2 Hz. destruct (sint_f z Hz) as (Y & E & OK & V & L). unfold l_sub_int. rewrite E. cbn [bind]. rewrite <- V. apply sub_f; try assumption; [intros; discriminate | lia].
Qed.
Lemma three_way_cmp x y : cmp3 1 (-1) (x ?= y) = three_way x y.
Proof. unfold three_way. destruct (Z.compare_spec x y), (Z.ltb_spec x y), (Z.ltb_spec y x); lia || reflexivity. Qed.
Lemma cmp_abs_f X Y : mpi_ok X -> mpi_ok Y -> l_cmp_abs X Y = Ok (three_way (Z.abs (mval X)) (Z.abs (mval Y))).
Proof. intros HX HY. rewrite !mval_abs by assumption. rewrite <- three_way_cmp. now apply cmp_abs_ok. Qed.
Lemma cmp_f X Y : mpi_ok X -> mpi_ok Y -> l_cmp X Y = Ok (three_way (mval X) (mval Y)).
Proof. intros HX HY. rewrite <- three_way_cmp. now apply cmp_ok. Qed.
Lemma cmp_int_f X z : mpi_ok X -> - 2 ^ 63 < z < 2 ^ 63 -> l_cmp_int X z = Ok (three_way (mval X) z).
Proof. intros HX HY. rewrite <- three_way_cmp. now apply cmp_int_ok. Qed.
Lemma lset_f X z : mpi_ok X -> - 2 ^ 63 < z < 2 ^ 63 -> exists R, l_lset X z = ret R /\ mpi_ok R /\ mval R = z.
Proof. intros HX Hz. fin (lset_ok X z HX Hz). tauto. Qed.
Lemma copy_f same X Y : mpi_ok X -> mpi_ok Y -> alias same X Y -> mlen Y <= 10000 -> exists R, l_copy same X Y = ret R /\ mpi_ok R /\ mval R = mval Y.
Proof.
  intros HX HY S L. destruct (mp Y) eqn:E.
  - unfold l_copy. rewrite E. destruct same.
    + exists X. rewrite (S eq_refl) in *. now split.
    + exists l_init. split; [reflexivity|]. split; [apply init_ok|]. unfold mval. rewrite E. cbn. lia.
  - fin (copy_ok same X Y HX HY S L). tauto.
Qed.
Lemma bits_of_bitlen v : 0 <= v -> bits_of v (mpi_bitlen v).
Proof.
  intros H. unfold mpi_bitlen, bits_of. destruct (Z.eqb_spec v 0) as [->|N]; [repeat split; lia|]. rewrite Z.abs_eq by exact H.
  pose proof (Z.log2_spec v ltac:(lia)) as S. pose proof (Z.log2_nonneg v). replace (Z.log2 v + 1) with (Z.succ (Z.log2 v)) by lia.
  split; [lia|]. split; [apply S|]. intros j Hj. transitivity (2 ^ Z.log2 v); [apply Z.pow_le_mono_r; lia | apply S].
Qed.
Lemma bitlen_f X : mpi_ok X -> exists k, l_bitlen X = Ok k /\ bits_of (Z.abs (mval X)) k /\ l_size X = Ok ((k + 7) / 8).
Proof.
  intros HX. exists (mpi_bitlen (lval (mp X))). split; [now apply bitlen_ok|]. rewrite mval_abs by exact HX. split; [apply bits_of_bitlen, lval_nonneg, HX|]. now apply size_ok.
Qed.
Lemma get_bit_f X pos : mpi_ok X -> 0 <= pos -> l_get_bit X pos = Ok (Z.b2z (Z.testbit (Z.abs (mval X)) pos)).
Proof. intros HX Hp. rewrite mval_abs by exact HX. now apply get_bit_ok. Qed.
Lemma set_bit_f X pos v : mpi_ok X -> 0 <= pos < 640000 -> (v = 0 \/ v = 1) ->
  exists R, l_set_bit X pos v = ret R /\ mpi_ok R /\ ms R = ms X /\ forall m, 0 <= m -> Z.testbit (Z.abs (mval R)) m = if m =? pos then v =? 1 else Z.testbit (Z.abs (mval X)) m.
Proof.
  intros HX Hp Hv. fin (set_bit_ok X pos v HX Hp Hv). destruct H0 as (OK & S & T). split; [exact OK|]. split; [exact S|]. rewrite !mval_abs by assumption. exact T.
Qed.
Lemma lsb_f X : mpi_ok X -> mval X <> 0 -> 0 <= l_lsb X /\ (2 ^ l_lsb X | mval X) /\ ~ (2 ^ (l_lsb X + 1) | mval X).
Proof.
  intros HX N. assert (lval (mp X) <> 0) as N' by (intros E; apply N; unfold mval; rewrite E; lia).
  destruct (lsb_ok X HX N') as (P & D & O). split; [exact P|].
  assert (forall d, (d | mval X) <-> (d | lval (mp X))) as W.
  { intros d. rewrite <- mval_abs by exact HX. symmetry. apply Z.divide_abs_r. }
  rewrite !W. split; [exact D|]. intros [k Hk]. rewrite Hk in O. rewrite Z.pow_add_r in O by lia. change (2 ^ 1) with 2 in O.
  pose proof (Z.pow_pos_nonneg 2 (l_lsb X) ltac:(lia) P). replace (k * (2 ^ l_lsb X * 2)) with (2 * k * 2 ^ l_lsb X) in O by ring.
  rewrite Z.div_mul, Z.odd_mul in O by lia. discriminate.
Qed.
Lemma pow_log v k : 0 < v -> (v < 2 ^ k <-> Z.log2 v < k) /\ (2 ^ k <= v -> k <= Z.log2 v).
Proof. intros H. split; [apply Z.log2_lt_pow2, H | apply Z.log2_le_pow2, H]. Qed.
Lemma bound_log n k v : k = 64 * n -> 0 <= n -> 0 < v -> (v < LB ^ n <-> Z.log2 v < k) /\ (LB ^ n <= v -> k <= Z.log2 v).
Proof. intros -> Hn Hv. unfold LB. rewrite <- Z.pow_mul_r by lia. now apply pow_log. Qed.
Lemma mpi_bound_pos : 0 < mpi_bound. Proof. unfold mpi_bound. apply Z.pow_pos_nonneg; [exact LB_pos | easy]. Qed.
Lemma lt_bound v : 0 < v -> v < mpi_bound <-> Z.log2 v < 640000.
Proof. exact (fun H => proj1 (bound_log 10000 640000 v eq_refl ltac:(easy) H)). Qed.
Lemma bound_le v : 0 < v -> mpi_bound <= v -> 640000 <= Z.log2 v.
Proof. exact (fun H => proj2 (bound_log 10000 640000 v eq_refl ltac:(easy) H)). Qed.
Lemma shift_l_f X count : mpi_ok X -> 0 <= count -> Z.abs (mval X) * 2 ^ count < mpi_bound -> mval X <> 0 ->
  exists R, l_shift_l X count = ret R /\ mpi_ok R /\ mval R = mval X * 2 ^ count.
Proof.
  intros HX Hc Hb N. assert (mpi_bitlen (lval (mp X)) + count <= 640000) as HB.
  { rewrite mval_abs in Hb by exact HX. pose proof (lval_nonneg _ (proj2 HX)) as P. unfold mpi_bitlen. rewrite Z.abs_eq by exact P.
    assert (lval (mp X) <> 0) as N' by (intros E; apply N; unfold mval; rewrite E; lia). rewrite (proj2 (Z.eqb_neq _ _) N').
    pose proof (Z.pow_pos_nonneg 2 count ltac:(lia) Hc) as PC.
    assert (0 < lval (mp X) * 2 ^ count) as PP' by (apply Z.mul_pos_pos; [clear - P N'; lia | exact PC]). pose proof (proj1 (lt_bound _ PP') Hb) as Hb'. clear Hb. rename Hb' into Hb. rewrite Z.log2_mul_pow2 in Hb; [lia | clear - P N'; lia | exact Hc]. }
  fin (shift_l_ok X count HX Hc HB). tauto.
Qed.
Lemma shift_r_f X count : mpi_ok X -> 0 <= count -> exists R, l_shift_r X count = ret R /\ mpi_ok R /\ mval R = Z.quot (mval X) (2 ^ count).
Proof.
  intros HX Hc. fin (shift_r_ok X count HX Hc). destruct H0 as (OK & _ & V & _). split; [exact OK|]. rewrite V. unfold mval.
  pose proof (Z.pow_pos_nonneg 2 count ltac:(lia) Hc). pose proof (lval_nonneg _ (proj2 HX)) as P.
  rewrite <- Z.quot_div_nonneg by lia. destruct (proj1 HX) as [-> | ->]; [now rewrite !Z.mul_1_l|].
  replace (-1 * lval (mp X)) with (- lval (mp X)) by lia. rewrite Z.quot_opp_l by lia. lia.
Qed.
Lemma div_f ra Q R A B : opt_mpi_ok Q -> opt_mpi_ok R -> mpi_ok A -> mpi_ok B -> (ra = true -> R = Some A) -> mlen A <= 9990 -> mlen B <= 10000 ->
  if mval B =? 0 then l_div false ra Q R A B = err ERR_MPI_DIVISION_BY_ZERO
  else exists Q' R', l_div false ra Q R A B = ret (Q', R') /\ receives Q Q' (Z.quot (mval A) (mval B)) /\ receives R R' (Z.rem (mval A) (mval B)).
Proof.
  intros HQ HR HA HB RA LA LB_. destruct (Z.eqb_spec (mval B) 0) as [E|N]; [now apply div_zero|].
  destruct (div_ok ra Q R A B HQ HR HA HB RA N LA LB_) as ([Q' R'] & E & O1 & O2). exists Q', R'. split; [exact E|]. cbn [fst snd] in *.
  unfold out_ok, receives in *. split; [destruct Q, Q' | destruct R, R']; tauto.
Qed.
Lemma mod_f ra R A B : mpi_ok R -> mpi_ok A -> mpi_ok B -> alias ra R A -> mlen R < 10000 -> mlen A <= 9990 -> mlen B < 10000 ->
  if mval B <? 0 then l_mod ra R A B = err ERR_MPI_NEGATIVE_VALUE
  else if mval B =? 0 then l_mod ra R A B = err ERR_MPI_DIVISION_BY_ZERO
  else exists R', l_mod ra R A B = ret R' /\ mpi_ok R' /\ mval R' = mval A mod mval B.
Proof.
  intros HR HA HB RA L1 L2 L3. destruct (Z.ltb_spec (mval B) 0) as [N|N]; [now apply mod_neg|]. destruct (Z.eqb_spec (mval B) 0) as [E|E]; [now apply mod_zero|].
  fin (mod_ok ra R A B HR HA HB RA ltac:(lia) L1 L2 L3). tauto.
Qed.
Lemma read_f X buf : mpi_ok X -> is_bytes buf ->
  if be_decode buf <? mpi_bound then exists R, l_read_binary X buf = ret R /\ mpi_ok R /\ mval R = be_decode buf
  else l_read_binary X buf = err ERR_MPI_ALLOC_FAILED.
Proof.
  intros HX Hb. pose proof (proj1 (be_decode_range buf Hb)) as P. destruct (Z.ltb_spec (be_decode buf) mpi_bound) as [Q|Q].
  - assert (mpi_size (be_decode buf) <= 80000) as S.
    { unfold mpi_size, mpi_bitlen. destruct (Z.eqb_spec (be_decode buf) 0); [discriminate|]. rewrite Z.abs_eq by exact P.
      pose proof (proj1 (lt_bound (be_decode buf) ltac:(clear - P n; lia)) Q) as Q'. clear Q. rename Q' into Q. assert ((Z.log2 (be_decode buf) + 1 + 7) / 8 < 80001); [apply Z.div_lt_upper_bound; lia | lia]. }
    fin (read_binary_limb X buf HX Hb S). tauto.
  - apply read_binary_big; [exact Hb|]. unfold mpi_size, mpi_bitlen. pose proof mpi_bound_pos as MP.
    destruct (Z.eqb_spec (be_decode buf) 0) as [E|E]; [rewrite E in Q; clear - Q MP; lia|].
    rewrite Z.abs_eq by exact P. apply bound_le in Q; [|clear - P E; lia].
    assert (80001 <= (Z.log2 (be_decode buf) + 1 + 7) / 8); [apply Z.div_le_lower_bound; lia | lia].
Qed.
Lemma write_f X buf : mpi_ok X -> exists k, bits_of (Z.abs (mval X)) k /\
  l_write_binary X buf = if zlen buf <? (k + 7) / 8 then err ERR_MPI_BUFFER_TOO_SMALL else ret (be_encode (length buf) (Z.abs (mval X))).
Proof.
  intros HX. exists (mpi_bitlen (lval (mp X))). rewrite mval_abs by exact HX. split; [apply bits_of_bitlen, lval_nonneg, HX|]. now apply write_binary_limb.
Qed.
Lemma cond_assign_f X Y a : mpi_ok X -> mpi_ok Y -> 0 <= a < 256 -> mlen Y <= 10000 ->
  exists R, l_cond_assign X Y a = ret R /\ mpi_ok R /\ mval R = if a =? 0 then mval X else mval Y.
Proof. intros HX HY Ha L. fin (cond_assign_ok X Y a HX HY Ha L). tauto. Qed.
Lemma cond_swap_f X Y a : mpi_ok X -> mpi_ok Y -> 0 <= a < 256 -> mlen X <= 10000 -> mlen Y <= 10000 ->
  exists X' Y', l_cond_swap X Y a = ret (X', Y') /\ mpi_ok X' /\ mpi_ok Y' /\ mval X' = (if a =? 0 then mval X else mval Y) /\ mval Y' = (if a =? 0 then mval Y else mval X).
Proof. intros HX HY Ha L1 L2. destruct (cond_swap_ok X Y a HX HY Ha L1 L2) as ([X' Y'] & E & H). exists X', Y'. split; [exact E | exact H]. Qed.
