(** Single bits, conditional assignment and conditional swap *)
From Verif Require Import Base BaseFacts MpiModel LimbModel LimbSpec LimbProofs LimbProofs2 LimbProofs3 LimbProofs4.

Lemma norm_bool_ok a : 0 <= a < 256 -> norm_bool a = if a =? 0 then 0 else 1.
Proof.
  intros H. assert (forallb (fun n => norm_bool (Z.of_nat n) =? (if Z.of_nat n =? 0 then 0 else 1)) (seq 0 256) = true) as E by reflexivity.
  rewrite forallb_forall in E. specialize (E (Z.to_nat a)). rewrite Z2Nat.id in E by lia. apply Z.eqb_eq, E, in_seq. lia.
Qed.
Lemma sel0_map (l : list (Z * Z)) : Forall (fun xy => is_limb (fst xy)) l -> map (fun xy => u64 (fst xy * (1 - 0) + snd xy * 0)) l = map fst l.
Proof. induction 1 as [|[x y] l H HL IH]; [reflexivity|]. cbn [map fst snd] in *. rewrite IH. f_equal. rewrite u64_limb; [lia|]. now replace (x * (1 - 0) + y * 0) with x by lia. Qed.
Lemma sel1_map (l : list (Z * Z)) : Forall (fun xy => is_limb (snd xy)) l -> map (fun xy => u64 (fst xy * (1 - 1) + snd xy * 1)) l = map snd l.
Proof. induction 1 as [|[x y] l H HL IH]; [reflexivity|]. cbn [map fst snd] in *. rewrite IH. f_equal. rewrite u64_limb; [lia|]. now replace (x * (1 - 1) + y * 1) with y by lia. Qed.
Lemma sel0_map' (l : list (Z * Z)) : Forall (fun xy => is_limb (snd xy)) l -> map (fun xy => u64 (snd xy * (1 - 0) + fst xy * 0)) l = map snd l.
Proof. induction 1 as [|[x y] l H HL IH]; [reflexivity|]. cbn [map fst snd] in *. rewrite IH. f_equal. rewrite u64_limb; [lia|]. now replace (y * (1 - 0) + x * 0) with y by lia. Qed.
Lemma sel1_map' (l : list (Z * Z)) : Forall (fun xy => is_limb (fst xy)) l -> map (fun xy => u64 (snd xy * (1 - 1) + fst xy * 1)) l = map fst l.
Proof. induction 1 as [|[x y] l H HL IH]; [reflexivity|]. cbn [map fst snd] in *. rewrite IH. f_equal. rewrite u64_limb; [lia|]. now replace (y * (1 - 1) + x * 1) with x by lia. Qed.
Lemma combine_fst (a b : list Z) : (length a <= length b)%nat -> map fst (combine a b) = a.
Proof. revert b; induction a as [|x a IH]; intros [|y b] H; cbn in *; try reflexivity; try lia. f_equal. apply IH. lia. Qed.
Lemma combine_snd (a b : list Z) : (length b <= length a)%nat -> map snd (combine a b) = b.
Proof. revert b; induction a as [|x a IH]; intros [|y b] H; cbn in *; try reflexivity; try lia. f_equal. apply IH. lia. Qed.
Lemma combine_Forall (P Q : Z -> Prop) (a b : list Z) : Forall P a -> Forall Q b -> Forall (fun xy => P (fst xy)) (combine a b) /\ Forall (fun xy => Q (snd xy)) (combine a b).
Proof.
  intros Ha; revert b; induction Ha as [|x a Hx Ha IH]; intros b Hb; [split; constructor|].
  destruct Hb as [|y b Hy Hb]; [split; constructor|]. cbn [combine]. destruct (IH b Hb) as [I1 I2]. split; constructor; assumption.
Qed.
Lemma sel_zero l : map (fun x => u64 (x * (1 - 1))) l = repeat 0 (length l).
Proof. induction l as [|x l IH]; [reflexivity|]. cbn [map length repeat]. rewrite IH. f_equal. replace (x * (1 - 1)) with 0 by lia. reflexivity. Qed.
Lemma sel_keep l : Forall is_limb l -> map (fun x => u64 (x * (1 - 0))) l = l.
Proof. induction 1 as [|x l H HL IH]; [reflexivity|]. cbn [map]. rewrite IH. f_equal. replace (x * (1 - 0)) with x by lia. now apply u64_limb. Qed.

Lemma cond_assign_ok X Y a : mpi_ok X -> mpi_ok Y -> 0 <= a < 256 -> mlen Y <= 10000 ->
  wp (l_cond_assign X Y a) (fun R => mpi_ok R /\ mval R = (if a =? 0 then mval X else mval Y) /\ length (mp R) = Nat.max (length (mp X)) (length (mp Y))).
Proof.
  intros HX HY Ha LY. unfold l_cond_assign. rewrite norm_bool_ok by exact Ha. unfold mlen in LY.
  eapply wp_bind; [apply (grow_ok X (length (mp Y)) HX); unfold zlen in LY; lia|]. cbv beta.
  intros R (OK & V & SS & L & _). apply wp_ret.
  assert (mval R = mval X) as VX by (unfold mval; now rewrite V, SS). assert (length (mp R) = Nat.max (length (mp X)) (length (mp Y))) as LR by lia.
  assert (length (firstn (length (mp Y)) (mp R)) = length (mp Y)) as LF by (rewrite firstn_length; lia).
  destruct OK as [SR FR]. destruct HY as [SY FY].
  destruct (combine_Forall is_limb is_limb (firstn (length (mp Y)) (mp R)) (mp Y)) as [C1 C2]; [now apply Forall_firstn' | exact FY|].
  destruct (a =? 0).
  - rewrite sel0_map, sel_keep, combine_fst, firstn_skipn by (try lia; try assumption; now apply Forall_skipn').
    replace (ms R * (1 - 0) + ms Y * 0) with (ms R) by lia. destruct R as [sr pr]. cbn [ms mp] in *. repeat split; assumption.
  - rewrite sel1_map, sel_zero, combine_snd by (try lia; assumption). replace (ms R * (1 - 1) + ms Y * 1) with (ms Y) by lia.
    split; [split; [exact SY | cbn [mp]; apply Forall_app; split; [exact FY | apply limbs_zeros]]|].
    split; [unfold mval; cbn [ms mp]; rewrite lval_app, lval_zeros; ring|]. cbn [mp]. rewrite app_length, repeat_length, skipn_length. lia.
Qed.
Lemma cond_swap_ok X Y a : mpi_ok X -> mpi_ok Y -> 0 <= a < 256 -> mlen X <= 10000 -> mlen Y <= 10000 ->
  wp (l_cond_swap X Y a) (fun R => mpi_ok (fst R) /\ mpi_ok (snd R) /\ mval (fst R) = (if a =? 0 then mval X else mval Y) /\ mval (snd R) = (if a =? 0 then mval Y else mval X)).
Proof.
  intros HX HY Ha LX LY. unfold l_cond_swap. rewrite norm_bool_ok by exact Ha. unfold mlen, zlen in LX, LY.
  eapply wp_bind; [apply (grow_ok X (length (mp Y)) HX); lia|]. cbv beta. intros X' (OX & VX & SX' & L1 & _).
  eapply wp_bind; [apply (grow_ok Y (length (mp X')) HY); lia|]. cbv beta. intros Y' (OY & VY & SY' & L2 & _). apply wp_ret. cbn [fst snd].
  assert (length (mp X') = length (mp Y')) as LE by lia. clear L1 L2.
  assert (mval X' = mval X) as V1 by (unfold mval; now rewrite VX, SX'). assert (mval Y' = mval Y) as V2 by (unfold mval; now rewrite VY, SY').
  destruct OX as [SX FX]. destruct OY as [SY FY]. destruct (combine_Forall is_limb is_limb (mp X') (mp Y') FX FY) as [C1 C2].
  destruct (a =? 0).
  - rewrite sel0_map, sel0_map', combine_fst, combine_snd by (try assumption; lia).
    replace (ms X' * (1 - 0) + ms Y' * 0) with (ms X') by lia. replace (ms Y' * (1 - 0) + ms X' * 0) with (ms Y') by lia.
    split; [now split|]. split; [now split|]. split; assumption.
  - rewrite sel1_map, sel1_map', combine_fst, combine_snd by (try assumption; lia).
    replace (ms X' * (1 - 1) + ms Y' * 1) with (ms Y') by lia. replace (ms Y' * (1 - 1) + ms X' * 1) with (ms X') by lia.
    split; [now split|]. split; [now split|]. split; assumption.
Qed.

Lemma testbit_nth l i m : Forall is_limb l -> 0 <= m < 64 -> Z.testbit (nth i l 0) m = Z.testbit (lval l) (64 * Z.of_nat i + m).
Proof.
  intros H Hm. rewrite nth_lval by exact H. unfold LB. rewrite Z.mod_pow2_bits_low by lia.
  rewrite <- Z.pow_mul_r, Z.div_pow2_bits by lia. f_equal. lia.
Qed.
Lemma testbit_high l m : Forall is_limb l -> 64 * zlen l <= m -> Z.testbit (lval l) m = false.
Proof.
  intros H Hm. pose proof (lval_range l H) as R. destruct (Z.eq_dec (lval l) 0) as [->|N]; [apply Z.bits_0|].
  apply Z.bits_above_log2; [lia|]. assert (Z.log2 (lval l) < 64 * zlen l); [|lia].
  apply Z.log2_lt_pow2; [lia|]. unfold LB in R. rewrite <- Z.pow_mul_r in R by (unfold zlen; lia). apply R.
Qed.
Lemma get_bit_ok X pos : mpi_ok X -> 0 <= pos -> l_get_bit X pos = Ok (Z.b2z (Z.testbit (lval (mp X)) pos)).
Proof.
  intros [_ F] Hp. unfold l_get_bit. destruct (Z.leb_spec (zlen (mp X) * 64) pos) as [Q|Q].
  - rewrite testbit_high by (try assumption; lia). reflexivity.
  - pose proof (Z.div_mod pos 64 ltac:(lia)) as D. pose proof (Z.mod_pos_bound pos 64 ltac:(lia)) as M.
    assert (0 <= pos / 64 < zlen (mp X)) as B by (split; [apply Z.div_pos; lia | apply Z.div_lt_upper_bound; lia]).
    rewrite (lnth_ok _ _ 0) by (unfold zlen in B; lia). cbn [bind]. f_equal.
    change 1 with (Z.ones 1). rewrite Z.land_ones by lia. change (2 ^ 1) with 2. rewrite <- Z.bit0_mod, Z.shiftr_spec by lia. rewrite Z.add_0_l.
    rewrite testbit_nth by (try assumption; lia). rewrite Z2Nat.id by lia. do 2 f_equal. lia.
Qed.

Lemma nth_upd (l : list Z) i x j : (i < length l)%nat -> nth j (firstn i l ++ x :: skipn (S i) l) 0 = if (j =? i)%nat then x else nth j l 0.
Proof.
  revert i j; induction l as [|y l IH]; intros i j H; cbn [length] in H; [lia|]. destruct i as [|i]; [destruct j; reflexivity|].
  destruct j as [|j]; [reflexivity|]. cbn [firstn skipn app nth]. change (S j =? S i)%nat with (j =? i)%nat. apply IH. lia.
Qed.
Lemma mask_bits x v idx m : is_limb x -> 0 <= idx < 64 -> (v = 0 \/ v = 1) -> 0 <= m < 64 ->
  Z.testbit (Z.lor (Z.land x (2 ^ 64 - 1 - u64 (Z.shiftl 1 idx))) (u64 (Z.shiftl v idx))) m = if m =? idx then v =? 1 else Z.testbit x m.
Proof.
  intros Hx Hi Hv Hm.
  assert (2 ^ idx < 2 ^ 64) as PI by (apply Z.pow_lt_mono_r; lia). pose proof (Z.pow_pos_nonneg 2 idx ltac:(lia) ltac:(lia)) as PP.
  assert (u64 (Z.shiftl 1 idx) = 2 ^ idx) as -> by (rewrite Z.shiftl_1_l; apply u64_limb; split; [lia | exact PI]).
  assert (u64 (Z.shiftl v idx) = v * 2 ^ idx) as -> by (rewrite Z.shiftl_mul_pow2 by lia; apply u64_limb; unfold is_limb, LB; destruct Hv as [-> | ->]; lia).
  assert (2 ^ 64 - 1 - 2 ^ idx = Z.ldiff (Z.ones 64) (2 ^ idx)) as ->.
  { change (2 ^ 64 - 1) with (Z.ones 64). apply Z.sub_nocarry_ldiff. apply Z.ldiff_ones_r_low; [lia|]. rewrite Z.log2_pow2; lia. }
  rewrite Z.lor_spec, Z.land_spec, Z.ldiff_spec, Z.ones_spec_low, Z.pow2_bits_eqb by lia. rewrite (Z.eqb_sym idx m).
  destruct Hv as [-> | ->].
  - rewrite Z.mul_0_l, Z.bits_0, orb_false_r. destruct (m =? idx); [now rewrite andb_false_r | now rewrite andb_true_r].
  - rewrite Z.mul_1_l, Z.pow2_bits_eqb by lia. rewrite (Z.eqb_sym idx m). destruct (m =? idx); [now rewrite orb_true_r | now rewrite orb_false_r, andb_true_r].
Qed.
Lemma mask_limb x v idx : is_limb x -> is_limb (Z.lor (Z.land x (2 ^ 64 - 1 - u64 (Z.shiftl 1 idx))) (u64 (Z.shiftl v idx))).
Proof.
  intros Hx. pose proof (is_limb_u64 (Z.shiftl v idx)) as H2. set (b := u64 (Z.shiftl v idx)) in *. pose proof (is_limb_u64 (Z.shiftl 1 idx)) as H1. set (a := 2 ^ 64 - 1 - u64 (Z.shiftl 1 idx)) in *.
  assert (0 <= a < LB) as Ha by (unfold is_limb, LB in H1; unfold a, LB; lia).
  assert (forall y, is_limb y -> y = Z.land y (Z.ones 64)) as N by (intros y Hy; rewrite Z.land_ones by lia; symmetry; apply Z.mod_small, Hy).
  assert (forall y, 0 <= y -> y = Z.land y (Z.ones 64) -> is_limb y) as M by (intros y _ ->; rewrite Z.land_ones by lia; apply Z.mod_pos_bound; reflexivity).
  apply M.
  - apply Z.lor_nonneg. split; [|apply H2]. apply Z.land_nonneg. left. apply Hx.
  - rewrite Z.land_lor_distr_l, <- Z.land_assoc. rewrite <- (N a) by exact Ha. now rewrite <- (N b) by exact H2.
Qed.
Lemma set_bit_ok X pos v : mpi_ok X -> 0 <= pos < 640000 -> (v = 0 \/ v = 1) ->
  wp (l_set_bit X pos v) (fun R => mpi_ok R /\ ms R = ms X /\ forall m, 0 <= m -> Z.testbit (lval (mp R)) m = if m =? pos then v =? 1 else Z.testbit (lval (mp X)) m).
Proof.
  intros HX Hp Hv. unfold l_set_bit. pose proof (Z.div_mod pos 64 ltac:(lia)) as D. pose proof (Z.mod_pos_bound pos 64 ltac:(lia)) as M.
  assert (0 <= pos / 64 < 10000) as B by (split; [apply Z.div_pos; lia | apply Z.div_lt_upper_bound; lia]).
  set (off := pos / 64) in *. set (idx := pos mod 64) in *. clearbody off idx. 
  replace (negb (v =? 0) && negb (v =? 1)) with false by (destruct Hv as [-> | ->]; reflexivity).
  destruct (Z.leb_spec (zlen (mp X) * 64) pos) as [Q|Q]; destruct Hv as [-> | ->]; cbn [andb Z.eqb].
  1: { apply wp_ret. split; [exact HX|]. split; [reflexivity|]. intros m Hm. destruct (Z.eqb_spec m pos) as [-> |]; [|reflexivity]. apply testbit_high; [apply HX | lia]. }
  all: eapply wp_bind with (P := fun X' => mpi_ok X' /\ ms X' = ms X /\ lval (mp X') = lval (mp X) /\ off < zlen (mp X')).
  1: { unfold MPI_MAX_LIMBS. destruct (Z.ltb_spec 10000 (off + 1)); [lia|]. eapply wp_mono; [apply (grow_ok X (Z.to_nat (off + 1)) HX); lia|]. cbv beta.
       intros R (OK & V & S & L & _). split; [exact OK|]. split; [exact S|]. split; [exact V|]. unfold zlen. lia. }
  2, 4: apply wp_ret; split; [exact HX|]; split; [reflexivity|]; split; [reflexivity | lia].
  all: intros X' ([SX FX] & SS & V & L); unfold zlen in L; assert (Z.to_nat off < length (mp X'))%nat as LO by lia;
    rewrite (lnth_ok _ _ 0) by exact LO; cbn [bind]; rewrite lupd_ok by exact LO; cbn [bind]; apply wp_ret; cbn [ms mp];
    pose proof (nth_limb (mp X') (Z.to_nat off) FX) as NL.
  all: match goal with |- mpi_ok (MkMpi _ (_ ++ ?y :: _)) /\ _ => set (y0 := y) end;
    (assert (is_limb y0) as LY by (unfold y0; now apply mask_limb));
    (assert (Forall is_limb (firstn (Z.to_nat off) (mp X') ++ y0 :: skipn (S (Z.to_nat off)) (mp X'))) as FF
      by (apply Forall_app; split; [now apply Forall_firstn' | constructor; [exact LY | now apply Forall_skipn']]));
    (split; [split; [exact SX | exact FF]|]); (split; [exact SS|]); intros m Hm; rewrite <- V;
    pose proof (Z.div_mod m 64 ltac:(lia)) as DM; pose proof (Z.mod_pos_bound m 64 ltac:(lia)) as MM; pose proof (Z.div_pos m 64 ltac:(lia) ltac:(lia)) as DP;
    (assert (m = 64 * Z.of_nat (Z.to_nat (m / 64)) + m mod 64) as EM by (rewrite Z2Nat.id by exact DP; lia));
    rewrite EM at 1 3; rewrite <- !testbit_nth by assumption; rewrite nth_upd by exact LO;
    destruct (Nat.eqb_spec (Z.to_nat (m / 64)) (Z.to_nat off)) as [E|E].
  1, 3, 5: unfold y0; rewrite mask_bits by (try assumption; try lia; auto);
    replace (m =? pos) with (m mod 64 =? idx) by (destruct (Z.eqb_spec (m mod 64) idx), (Z.eqb_spec m pos); reflexivity || lia); rewrite <- E; reflexivity.
  all: destruct (Z.eqb_spec m pos); [exfalso; apply E; f_equal; subst m; lia | reflexivity].
Qed.
