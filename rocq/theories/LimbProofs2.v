From Coq Require Import Lia.
From Verif Require Import Base BaseFacts MpiModel MpiProofs LimbModel LimbSpec LimbProofs.

(** * Multiplication *)
Lemma mul_bound y b : is_limb y -> is_limb b -> 0 <= y * b <= (LB - 1) * (LB - 1).
Proof. unfold is_limb. intros. nia. Qed.
Lemma muladd_step y b x c : is_limb y -> is_limb b -> is_limb x -> is_limb c ->
  let r0 := u64 (u64 (y * b) + c) in
  let r1 := u64 (Z.shiftr (y * b) 64 + bz (r0 <? c)) in
  u64 (r0 + x) = (y * b + x + c) mod LB /\ u64 (r1 + bz (u64 (r0 + x) <? x)) = (y * b + x + c) / LB /\ is_limb ((y * b + x + c) / LB).
Proof.
  intros Hy Hb Hx Hc. pose proof (mul_bound y b Hy Hb) as MB. cbv zeta.
  rewrite Z.shiftr_div_pow2 by lia. change (2 ^ 64) with LB. pose proof LB_gt1 as G.
  set (m := y * b) in *. clearbody m.
  pose proof (Z.div_mod m LB ltac:(lia)) as D0. pose proof (Z.mod_pos_bound m LB ltac:(lia)) as M0.
  rewrite (u64_LB m). destruct (add_step (m mod LB) c M0 Hc) as [E1 E2]. rewrite E1, E2.
  pose proof (Z.div_mod (m mod LB + c) LB ltac:(lia)) as D1. pose proof (Z.mod_pos_bound (m mod LB + c) LB ltac:(lia)) as M1.
  destruct (add_step ((m mod LB + c) mod LB) x M1 Hx) as [E3 E4]. rewrite E3, E4.
  pose proof (Z.div_mod ((m mod LB + c) mod LB + x) LB ltac:(lia)) as D2. pose proof (Z.mod_pos_bound ((m mod LB + c) mod LB + x) LB ltac:(lia)) as M2.
  unfold is_limb in *.
  set (a0 := m mod LB) in *. set (q0 := m / LB) in *. set (a1 := (a0 + c) mod LB) in *. set (q1 := (a0 + c) / LB) in *.
  set (a2 := (a1 + x) mod LB) in *. set (q2 := (a1 + x) / LB) in *. clearbody a0 q0 a1 q1 a2 q2.
  assert (m + x + c = LB * (q0 + q1 + q2) + a2) as S by lia.
  assert (0 <= q0 + q1 + q2 < LB) by nia.
  assert (0 <= q0 + q1 < LB) by nia.
  rewrite (u64_limb (q0 + q1)) by (unfold is_limb; lia). rewrite (u64_limb (q0 + q1 + q2)) by (unfold is_limb; lia).
  rewrite S. rewrite <- (Z.mod_unique_pos (LB * (q0 + q1 + q2) + a2) LB (q0 + q1 + q2) a2) by lia.
  rewrite <- (Z.div_unique_pos (LB * (q0 + q1 + q2) + a2) LB (q0 + q1 + q2) a2) by lia. lia.
Qed.
Lemma mul_carry_ok d c : Forall is_limb d -> d <> [] -> is_limb c -> lval d + c < LB ^ zlen d ->
  wpo (mul_carry d c) (fun r => Forall is_limb r /\ lval r = lval d + c /\ length r = length d).
Proof.
  intros H. revert c. induction H as [|x d Hx Hd IH]; intros c N Hc Hv; [congruence|].
  cbn [mul_carry]. pose proof LB_gt1. destruct (add_step x c Hx Hc) as [E1 E2]. rewrite E1, E2.
  pose proof (Z.div_mod (x + c) LB ltac:(lia)) as D. pose proof (Z.mod_pos_bound (x + c) LB ltac:(lia)) as M.
  unfold is_limb in Hx, Hc. rewrite zlen_cons, Z.pow_add_r, lval_cons, Z.pow_1_r in Hv by (lia || apply zlen_nonneg).
  set (q := (x + c) / LB) in *. set (m := (x + c) mod LB) in *. clearbody q m.
  destruct (Z.eqb_spec q 0) as [Q|Q].
  - apply wpo_ok. repeat split; [constructor; assumption | rewrite !lval_cons; lia].
  - assert (q = 1) as -> by nia.
    assert (d <> []) as ND. { intros ->. cbn [zlen length lval] in Hv. change (LB ^ zlen []) with 1 in Hv. lia. }
    eapply wpo_bind; [apply IH; [exact ND | exact is_limb_1 | nia]|].
    intros r (F & V & L). apply wpo_ok. repeat split; [constructor; assumption | rewrite !lval_cons, V; lia | cbn [length]; lia].
Qed.
Lemma mul_loop_ok s d b c : Forall is_limb s -> Forall is_limb d -> (length s < length d)%nat -> is_limb b -> is_limb c ->
  lval d + b * lval s + c < LB ^ zlen d ->
  wpo (mul_loop s d b c) (fun r => Forall is_limb r /\ lval r = lval d + b * lval s + c /\ length r = length d).
Proof.
  intros Hs. revert d c. induction Hs as [|y s Hy Hs IH]; intros d c Hd L Hb Hc Hv.
  - destruct d as [|x d]; [cbn in L; lia|]. cbn [mul_loop]. eapply wpo_mono; [apply mul_carry_ok; [assumption | discriminate | assumption | cbn [lval] in *; lia]|].
    intros r (F & V & Lr). repeat split; try assumption. rewrite V. cbn [lval]. lia.
  - destruct d as [|x d]; [cbn in L; lia|]. inversion Hd as [|? ? Hx Hd']; subst. cbn [mul_loop].
    destruct (muladd_step y b x c Hy Hb Hx Hc) as (E1 & E2 & HL). cbv zeta in E1, E2. rewrite E1 in *. rewrite E2.
    pose proof LB_gt1. pose proof (Z.div_mod (y * b + x + c) LB ltac:(lia)) as D. pose proof (Z.mod_pos_bound (y * b + x + c) LB ltac:(lia)) as M.
    rewrite zlen_cons, Z.pow_add_r, !lval_cons, Z.pow_1_r in Hv by (lia || apply zlen_nonneg).
    set (q := (y * b + x + c) / LB) in *. set (m := (y * b + x + c) mod LB) in *. clearbody q m.
    assert (lval d + b * lval s + q < LB ^ zlen d).
    { apply (Zmult_lt_reg_r _ _ LB); [lia|]. nia. }
    eapply wpo_bind; [apply (IH d q); try assumption; cbn in L; lia|].
    intros r (F & V & Lr). apply wpo_ok. repeat split; [constructor; assumption | rewrite !lval_cons, V; nia | cbn [length]; lia].
Qed.
Lemma mul_hlp_ok i s d b : Forall is_limb s -> Forall is_limb d -> (i <= length s)%nat -> (i < length d)%nat -> is_limb b ->
  lval d + b * lval (firstn i s) < LB ^ zlen d ->
  wpo (mul_hlp i s d b) (fun r => Forall is_limb r /\ lval r = lval d + b * lval (firstn i s) /\ length r = length d).
Proof.
  intros Hs Hd L1 L2 Hb Hv. unfold mul_hlp. destruct (Nat.ltb_spec (length s) i); [lia|].
  eapply wpo_mono; [apply mul_loop_ok; [now apply Forall_firstn' | assumption | rewrite firstn_length; lia | assumption | exact is_limb_0 | lia]|].
  intros r (? & V & ?). repeat split; try assumption. lia.
Qed.
Lemma at_off_ok k f p (Q : limbs -> Prop) : (k <= length p)%nat -> wpo (f (skipn k p)) Q ->
  wpo (at_off k f p) (fun r => exists d, r = firstn k p ++ d /\ Q d).
Proof.
  intros L (d & E & H). unfold at_off. destruct (Nat.ltb_spec (length p) k); [lia|]. rewrite E. apply wpo_ok. now exists d.
Qed.
Lemma nth_skipn_lval b j : (j < length b)%nat -> lval (skipn j b) = nth j b 0 + LB * lval (skipn (S j) b).
Proof.
  revert j. induction b as [|x b IH]; intros j H; [cbn in H; lia|]. destruct j as [|j]; [reflexivity|].
  cbn [skipn nth]. apply IH. cbn in H. lia.
Qed.
Lemma lval_skipn_lt b j : Forall is_limb b -> (j <= sig b)%nat -> lval (skipn j b) < LB ^ Z.of_nat (sig b - j).
Proof.
  intros H L. pose proof (sig_le b). pose proof (lval_split j b) as E. rewrite firstn_length, Nat.min_l in E by lia.
  pose proof (sig_lt b H) as S. replace (sig b) with (j + (sig b - j))%nat in S at 1 by lia. rewrite LB_powadd in S.
  pose proof (lval_nonneg _ (Forall_firstn' _ j _ H)). pose proof (LB_pow j). nia.
Qed.
Lemma mul_rows_ok i a b : Forall is_limb a -> Forall is_limb b -> i = sig a -> forall j x, (j <= sig b)%nat -> Forall is_limb x ->
  (i + sig b <= length x)%nat -> (1 <= length x)%nat -> lval (firstn j x) = 0 -> lval (skipn j x) = lval a * lval (skipn j b) ->
  wpo (mul_rows i j a b x) (fun r => Forall is_limb r /\ lval r = lval a * lval b /\ length r = length x).
Proof.
  intros Ha Hb Ei. pose proof (sig_le a). pose proof (sig_le b).
  induction j as [|j IH]; intros x Lj Hx Lx Lx1 Z0 V.
  - cbn [mul_rows]. apply wpo_ok. cbn [skipn] in V. now repeat split.
  - cbn [mul_rows]. rewrite (lnth_ok b j 0) by lia. cbn [bind].
    assert (lval (skipn j x) = LB * lval a * lval (skipn (S j) b)) as VX.
    { rewrite nth_skipn_lval by lia. rewrite V. rewrite (firstn_S_nth x j 0), lval_app, firstn_length, Nat.min_l in Z0 by lia. cbn [lval] in Z0.
      pose proof (lval_nonneg _ (Forall_firstn' _ j _ Hx)). pose proof (nth_limb x j Hx) as N. unfold is_limb in N. pose proof (LB_pow j). assert (nth j x 0 = 0) as -> by nia. ring. }
    assert (lval (firstn j x) = 0) as Z1.
    { rewrite (firstn_S_nth x j 0), lval_app, firstn_length, Nat.min_l in Z0 by lia. cbn [lval] in Z0.
      pose proof (lval_nonneg _ (Forall_firstn' _ j _ Hx)). pose proof (nth_limb x j Hx) as N. unfold is_limb in N. pose proof (LB_pow j). nia. }
    pose proof (nth_skipn_lval b j ltac:(lia)) as NB.
    assert (lval a * lval (skipn j b) < LB ^ Z.of_nat (length x - j)) as BND.
    { pose proof (sig_lt a Ha) as A1. pose proof (lval_skipn_lt b j Hb ltac:(lia)) as B1. pose proof (lval_nonneg _ Ha). pose proof (lval_nonneg _ (Forall_skipn' _ j _ Hb)).
      pose proof (LB_pow_le (sig a + (sig b - j)) (length x - j) ltac:(lia)) as P. rewrite LB_powadd in P. nia. }
    eapply wpo_bind.
    + apply at_off_ok; [lia|]. apply mul_hlp_ok; [assumption | now apply Forall_skipn' | lia | rewrite skipn_length; lia | now apply nth_limb |].
      rewrite Ei, lval_firstn by lia. unfold zlen. rewrite skipn_length, VX. nia.
    + intros x' (d & -> & F & Vd & Ld). rewrite skipn_length in Ld. rewrite Ei, lval_firstn, VX in Vd by lia.
      eapply wpo_mono; [apply IH|].
      * lia.
      * apply Forall_app. split; [now apply Forall_firstn' | exact F].
      * rewrite app_length, firstn_length, Ld. lia.
      * rewrite app_length, firstn_length, Ld. lia.
      * rewrite firstn_app, firstn_length, Nat.min_l, Nat.sub_diag, firstn_O, app_nil_r, firstn_firstn, Nat.min_id by lia. exact Z1.
      * rewrite skipn_app, firstn_length, Nat.min_l, Nat.sub_diag, skipn_O by lia.
        rewrite (skipn_all2 (firstn j x)) by (rewrite firstn_length; lia). cbn [app]. rewrite Vd, NB. ring.
      * intros r (? & ? & Lr). repeat split; try assumption. rewrite Lr, app_length, firstn_length, Ld. lia.
Qed.
Lemma lset0_ok X : mpi_ok X -> wp (l_lset X 0) (fun R => mpi_ok R /\ mp R = repeat 0 (Nat.max 1 (length (mp X))) /\ ms R = 1 /\ mval R = 0).
Proof.
  intros HX. eapply wp_mono; [apply lset_ok; [exact HX | lia]|]. intros R (HR & V & P & S). repeat split; try apply HR; try assumption.
  rewrite P. change (Z.abs 0) with 0. destruct (length (mp X)) as [|[|m]]; reflexivity.
Qed.
(** X = A * B *)
Lemma mul_ok xa xb X A B : mpi_ok X -> mpi_ok A -> mpi_ok B -> (xa = true -> X = A) -> (xb = true -> X = B) ->
  mlen A + mlen B <= 10000 ->
  wp (l_mul xa xb X A B) (fun R => mpi_ok R /\ mval R = mval A * mval B /\ lval (mp R) = lval (mp A) * lval (mp B) /\
    length (mp R) = Nat.max 1 (Nat.max (length (mp X)) (sig (mp A) + sig (mp B)))).
Proof.
  unfold mlen, zlen. intros HX HA HB EA EB LA. unfold l_mul.
  assert (forall (x : bool) C, mpi_ok C -> Z.of_nat (length (mp C)) <= 10000 ->
    wp (if x then l_copy false l_init C else ret C) (fun C' => mpi_ok C' /\ lval (mp C') = lval (mp C) /\ mval C' = mval C /\ sig (mp C') = sig (mp C))) as CP.
  { intros x C HC LC. destruct x; [|apply wp_ret; repeat split; apply HC].
    eapply wp_mono; [apply copy_ok; [exact init_ok | assumption | discriminate | unfold zlen; lia]|].
    intros C' (HC' & V & M & _). repeat split; try apply HC'; try assumption.
    apply Nat.le_antisymm; (apply sig_mono; [apply HC' || apply HC | apply HC' || apply HC | lia]). }
  eapply wp_bind; [apply (CP xa A HA); lia|]. intros A' (HA' & VA & MA & SA).
  eapply wp_bind; [apply (CP xb B HB); lia|]. intros B' (HB' & VB & MB & SB).
  cbv zeta. rewrite SA, SB. pose proof (sig_le (mp A)). pose proof (sig_le (mp B)).
  eapply wp_bind; [apply grow_ok; [assumption | lia]|]. intros Y (HY & _ & _ & LY & _).
  eapply wp_bind; [apply lset0_ok; exact HY|]. intros R (HR & PR & SR & _).
  eapply wp_bindo.
  - apply mul_rows_ok; [apply HA' | apply HB' | symmetry; exact SA | lia | apply HR | | | |].
    + rewrite PR, repeat_length. lia.
    + rewrite PR, repeat_length. lia.
    + rewrite PR. assert (forall k n, lval (firstn k (repeat 0 n)) = 0) as Q.
      { intros k n. pose proof (lval_split k (repeat 0 n)) as E. rewrite lval_zeros in E. pose proof (lval_nonneg _ (Forall_firstn' _ k _ (limbs_zeros n))). pose proof (lval_nonneg _ (Forall_skipn' _ k _ (limbs_zeros n))). pose proof (LB_pow (length (firstn k (repeat 0 n)))). nia. }
      apply Q.
    + rewrite <- SB, (lval_skipn_zero (mp B')) by (apply HB' || lia). rewrite PR, Z.mul_0_r. apply lval_skipn_zero; [apply limbs_zeros|].
      rewrite (proj2 (sig_zero _ (limbs_zeros _))); [lia | apply lval_zeros].
  - intros r (F & V & L). apply wp_ret. cbn [ms mp]. rewrite PR, repeat_length, LY in L.
    assert (ms A' * ms B' = 1 \/ ms A' * ms B' = -1) as S by (destruct HA' as [[-> | ->] _]; destruct HB' as [[-> | ->] _]; lia).
    repeat split; [exact S | exact F | | rewrite V, VA, VB; reflexivity | rewrite L; lia].
    unfold mval in *. cbn [ms mp]. rewrite V, <- MA, <- MB. ring.
Qed.
Lemma mul_int_ok xa X A b : mpi_ok X -> mpi_ok A -> (xa = true -> X = A) -> mlen A < 10000 -> is_limb b ->
  wp (l_mul_int xa X A b) (fun R => mpi_ok R /\ mval R = mval A * b /\ lval (mp R) = lval (mp A) * b /\
    length (mp R) = Nat.max 1 (Nat.max (length (mp X)) (sig (mp A) + sig [b]))).
Proof.
  intros HX HA EA LA Hb. unfold l_mul_int. rewrite (u64_limb b Hb). unfold mlen in *.
  eapply wp_mono.
  { apply mul_ok; try assumption; [split; [now left | cbn [mp]; constructor; [exact Hb | constructor]] | discriminate | unfold mlen; cbn [mp]; rewrite zlen_cons, zlen_nil; lia]. }
  intros R (HR & V & VL & L). cbn [lval ms mp] in *. repeat split; try apply HR; [rewrite V; unfold mval; cbn [ms mp lval]; ring | rewrite VL; ring | exact L].
Qed.

(** * Bits *)
Lemma land_bit x k : 0 <= k -> Z.land x (2 ^ k) =? 0 = negb (Z.testbit x k).
Proof.
  intros Hk. destruct (Z.testbit x k) eqn:E; cbn [negb].
  - apply Z.eqb_neq. intros H. apply (f_equal (fun z => Z.testbit z k)) in H. rewrite Z.land_spec, E, Z.pow2_bits_true, Z.bits_0 in H by lia. discriminate.
  - apply Z.eqb_eq. apply Z.bits_inj'. intros n Hn. rewrite Z.land_spec, Z.bits_0. destruct (Z.eq_dec n k) as [->|N]; [rewrite E; reflexivity|].
    rewrite Z.pow2_bits_false by lia. apply andb_false_r.
Qed.
Lemma clz_loop_ok k x j : 0 <= x < 2 ^ Z.of_nat k -> clz_loop k x (2 ^ (Z.of_nat k - 1)) j = j + (Z.of_nat k - mpi_bitlen x).
Proof.
  revert x j. induction k as [|k IH]; intros x j H.
  - change (2 ^ Z.of_nat 0) with 1 in H. assert (x = 0) as -> by lia. cbn. lia.
  - cbn [clz_loop]. replace (Z.of_nat (S k) - 1) with (Z.of_nat k) by lia. rewrite land_bit by lia.
    replace (Z.of_nat (S k)) with (Z.of_nat k + 1) in * by lia. rewrite Z.pow_add_r, Z.pow_1_r in H by lia.
    destruct (Z.testbit x (Z.of_nat k)) eqn:E; cbn [negb].
    + assert (2 ^ Z.of_nat k <= x). { destruct (Z_lt_ge_dec x (2 ^ Z.of_nat k)) as [L|L]; [|lia]. apply (Z.testbit_true x (Z.of_nat k)) in E; [|lia]. rewrite Z.div_small in E by lia. discriminate. }
      unfold mpi_bitlen. destruct (Z.eqb_spec x 0); [pose proof (Z.pow_pos_nonneg 2 (Z.of_nat k)); lia|].
      rewrite Z.abs_eq, (Z.log2_unique x (Z.of_nat k)) by (try rewrite Z.pow_succ_r by lia; lia). lia.
    + assert (x < 2 ^ Z.of_nat k).
      { apply (Z.testbit_false x (Z.of_nat k)) in E; [|lia]. destruct (Z_lt_ge_dec x (2 ^ Z.of_nat k)) as [L|L]; [exact L|].
        rewrite <- (Z.div_unique x (2 ^ Z.of_nat k) 1 (x - 2 ^ Z.of_nat k)) in E by lia. discriminate. }
      rewrite Z.shiftr_div_pow2, Z.pow_1_r by lia.
      destruct k as [|k'].
      * cbn [clz_loop]. change (2 ^ Z.of_nat 0) with 1 in *. assert (x = 0) as -> by lia. cbn. lia.
      * replace (2 ^ Z.of_nat (S k') / 2) with (2 ^ (Z.of_nat (S k') - 1)).
        -- rewrite IH by lia. lia.
        -- replace (Z.of_nat (S k')) with (1 + (Z.of_nat (S k') - 1)) at 2 by lia. rewrite Z.pow_add_r, Z.pow_1_r, Z.mul_comm, Z.div_mul by lia. reflexivity.
Qed.
Lemma clz_ok x : is_limb x -> l_clz x = 64 - mpi_bitlen x.
Proof. intros H. unfold l_clz. change (2 ^ 63) with (2 ^ (Z.of_nat 64 - 1)). rewrite clz_loop_ok by exact H. lia. Qed.
Lemma LB_two k : LB ^ Z.of_nat k = 2 ^ (64 * Z.of_nat k).
Proof. unfold LB. rewrite <- Z.pow_mul_r by lia. reflexivity. Qed.
Lemma bitlen_ok X : mpi_ok X -> l_bitlen X = Ok (mpi_bitlen (lval (mp X))).
Proof.
  intros [_ H]. unfold l_bitlen. destruct (list_eq_dec Z.eq_dec (mp X) []) as [N|N]; [rewrite N; reflexivity|].
  assert (1 <= length (mp X))%nat by (destruct (mp X); [congruence | cbn [length]; lia]).
  destruct (mp X) as [|x0 l0] eqn:EX; [congruence|]. rewrite <- EX in *. clear x0 l0 EX.
  pose proof (sig_le (mp X)) as SL. rewrite (lnth_ok _ _ 0) by lia. cbn [bind]. rewrite clz_ok by (now apply nth_limb). f_equal.
  destruct (sig (mp X)) as [|k] eqn:ES.
  - rewrite (proj1 (sig_zero _ H) ES). change (Nat.max 1 0 - 1)%nat with O.
    pose proof (proj1 (sig_zero _ H) ES) as V. destruct (mp X) as [|x l]; [congruence|]. rewrite lval_cons in V. inversion H as [|? ? Hx Hl]; subst.
    pose proof (lval_nonneg _ Hl). unfold is_limb in Hx. pose proof LB_pos. assert (x = 0) as -> by nia. reflexivity.
  - replace (Nat.max 1 (S k) - 1)%nat with k by lia.
    destruct (sig_nonzero_top _ _ H ES) as (y & Ny & N0). rewrite (nth_error_nth _ _ 0 Ny).
    pose proof (nth_limb (mp X) k H) as HL. rewrite (nth_error_nth _ _ 0 Ny) in HL. unfold is_limb in HL.
    assert (lval (mp X) = lval (firstn k (mp X)) + LB ^ Z.of_nat k * y) as V.
    { rewrite <- (lval_firstn (mp X) (S k)) by lia. rewrite (firstn_S_nth _ _ 0), lval_app, firstn_length, Nat.min_l by lia. rewrite (nth_error_nth _ _ 0 Ny). cbn [lval]. ring. }
    pose proof (lval_nonneg _ (Forall_firstn' _ k _ H)) as F0. pose proof (lval_lt (firstn k (mp X)) k (Forall_firstn' _ k _ H) ltac:(rewrite firstn_length; lia)) as F1.
    pose proof (LB_pow k) as P. unfold mpi_bitlen. destruct (Z.eqb_spec y 0); [lia|]. destruct (Z.eqb_spec (lval (mp X)) 0); [nia|].
    rewrite !Z.abs_eq by nia. rewrite (Z.log2_unique (lval (mp X)) (64 * Z.of_nat k + Z.log2 y)); [lia | pose proof (Z.log2_nonneg y); lia|].
    pose proof (Z.log2_spec y ltac:(lia)) as [L1 L2]. rewrite Z.pow_succ_r in L2 by apply Z.log2_nonneg.
    pose proof (Z.log2_nonneg y). rewrite Z.pow_succ_r, Z.pow_add_r, <- LB_two by lia. rewrite V. nia.
Qed.
Lemma size_ok X : mpi_ok X -> l_size X = Ok (mpi_size (lval (mp X))).
Proof. intros H. unfold l_size. rewrite bitlen_ok by exact H. cbn [bind]. unfold mpi_size. rewrite Z.shiftr_div_pow2 by lia. reflexivity. Qed.
Lemma bitlen_len l : Forall is_limb l -> mpi_bitlen (lval l) <= 64 * zlen l.
Proof.
  intros H. pose proof (lval_range l H) as R. apply bitlen_le; [lia | pose proof (zlen_nonneg l); lia|]. unfold zlen in *. rewrite <- LB_two. lia.
Qed.

(** * Shifts *)
Lemma lor_add a r t : 0 <= t -> 0 <= r < 2 ^ t -> Z.lor (a * 2 ^ t) r = a * 2 ^ t + r.
Proof.
  intros Ht Hr. symmetry.
  assert (Z.land (a * 2 ^ t) r = 0) as E; [|rewrite Z.add_nocarry_lxor by exact E; apply Z.lxor_lor; exact E].
  apply Z.bits_inj'. intros n Hn. rewrite Z.land_spec, Z.bits_0.
  destruct (Z_lt_ge_dec n t) as [L|L].
  - rewrite Z.mul_pow2_bits_low by lia. reflexivity.
  - destruct (Z.eq_dec r 0) as [->|Nr]; [rewrite Z.bits_0; apply andb_false_r|].
    rewrite (Z.bits_above_log2 r n); [apply andb_false_r | lia|]. apply Z.log2_lt_pow2; [lia|]. pose proof (Z.pow_le_mono_r 2 t n ltac:(lia) ltac:(lia)). lia.
Qed.
Lemma LB_split t : 0 <= t <= 64 -> LB = 2 ^ t * 2 ^ (64 - t).
Proof. intros H. rewrite <- Z.pow_add_r by lia. unfold LB. f_equal. lia. Qed.
Lemma shl_step x t r0 : is_limb x -> 0 <= t <= 64 -> 0 <= r0 < 2 ^ t ->
  Z.lor (u64 (Z.shiftl x t)) r0 = (x * 2 ^ t) mod LB + r0 /\ 0 <= (x * 2 ^ t) mod LB + r0 < LB /\
  Z.shiftr x (64 - t) = x * 2 ^ t / LB /\ 0 <= x * 2 ^ t / LB < 2 ^ t.
Proof.
  intros Hx Ht Hr. rewrite Z.shiftl_mul_pow2, Z.shiftr_div_pow2, u64_LB by lia. rewrite (LB_split t Ht).
  pose proof (Z.pow_pos_nonneg 2 t ltac:(lia) ltac:(lia)) as P1. pose proof (Z.pow_pos_nonneg 2 (64 - t) ltac:(lia) ltac:(lia)) as P2.
  rewrite (Z.mul_comm x), Zmult_mod_distr_l, Z.div_mul_cancel_l by lia.
  pose proof (Z.mod_pos_bound x (2 ^ (64 - t)) P2) as M. unfold is_limb in Hx. rewrite (LB_split t Ht) in Hx.
  pose proof (Z.div_mod x (2 ^ (64 - t)) ltac:(lia)) as D.
  repeat split; try nia.
  - rewrite (Z.mul_comm (2 ^ t)). apply lor_add; lia.
Qed.
Lemma shl_loop_ok t p r0 : Forall is_limb p -> 0 <= t <= 64 -> 0 <= r0 < 2 ^ t ->
  Forall is_limb (shl_loop t p r0) /\ lval (shl_loop t p r0) = (2 ^ t * lval p + r0) mod LB ^ zlen p /\ length (shl_loop t p r0) = length p.
Proof.
  intros H Ht. revert r0. induction H as [|x p Hx Hp IH]; intros r0 Hr.
  - repeat split; [constructor|]. change (LB ^ zlen []) with 1. now rewrite Z.mod_1_r.
  - cbn [shl_loop]. destruct (shl_step x t r0 Hx Ht Hr) as (E1 & B1 & E2 & B2). rewrite E1, E2.
    destruct (IH _ B2) as (F & V & L). repeat split; [constructor; assumption | | cbn [length]; clear - L; lia].
    rewrite !lval_cons, V, zlen_cons, Z.pow_add_r, Z.pow_1_r by (apply zlen_nonneg || (clear; lia)).
    pose proof LB_pos. pose proof (Z.div_mod (x * 2 ^ t) LB ltac:(lia)) as D.
    pose proof (LB_pow (length p)) as PP. unfold zlen.
    set (q := x * 2 ^ t / LB) in *. set (m := (x * 2 ^ t) mod LB) in *. set (P := LB ^ Z.of_nat (length p)) in *. clearbody q m P.
    pose proof (Z.div_mod (2 ^ t * lval p + q) P ltac:(lia)) as D3. pose proof (Z.mod_pos_bound (2 ^ t * lval p + q) P ltac:(lia)) as M3.
    set (M := (2 ^ t * lval p + q) mod P) in *. set (W := (2 ^ t * lval p + q) / P) in *. clearbody M W.
    apply (Z.mod_unique_pos _ _ W); [clear - B1 M3 PP H; nia|].
    replace (2 ^ t * (x + LB * lval p)) with (x * 2 ^ t + LB * (2 ^ t * lval p)) by ring. rewrite D.
    replace (2 ^ t * lval p) with (P * W + M - q) by (clear - D3; lia). ring.
Qed.
Lemma land63 c : 0 <= c -> Z.land c 63 = c mod 64.
Proof. intros. change 63 with (Z.ones 6). rewrite Z.land_ones by lia. reflexivity. Qed.
Lemma pow_split c : 0 <= c -> 2 ^ c = LB ^ (c / 64) * 2 ^ (c mod 64).
Proof.
  intros H. unfold LB. rewrite <- Z.pow_mul_r, <- Z.pow_add_r by (try apply Z.mod_pos_bound; try apply Z.div_pos; lia).
  f_equal. apply Z.div_mod. lia.
Qed.
(** X <<= count *)
Lemma shift_l_ok X count : mpi_ok X -> 0 <= count -> mpi_bitlen (lval (mp X)) + count <= 640000 ->
  wp (l_shift_l X count) (fun R => mpi_ok R /\ mval R = mval X * 2 ^ count /\ lval (mp R) = lval (mp X) * 2 ^ count /\ ms R = ms X /\
    length (mp R) = Nat.max (length (mp X)) (Z.to_nat ((mpi_bitlen (lval (mp X)) + count + 63) / 64))).
Proof.
  intros HX Hc Hb. unfold l_shift_l. rewrite bitlen_ok by exact HX. cbn [bind]. rewrite land63 by exact Hc.
  set (b := mpi_bitlen (lval (mp X))) in *. pose proof (bitlen_nonneg (lval (mp X))) as B0. fold b in B0.
  assert (lval (mp X) < 2 ^ b) as VB by (apply bitlen_le; [apply lval_nonneg, HX | exact B0 | apply Z.le_refl]).
  cbv zeta. assert (u64 (b + count) = b + count) as -> by (apply u64_limb; unfold is_limb, LB; lia).
  assert (exists n, Z.of_nat n = (b + count + 63) / 64) as [n Hn]. { exists (Z.to_nat ((b + count + 63) / 64)). rewrite Z2Nat.id; [reflexivity | apply Z.div_pos; lia]. }
  rewrite <- Hn, Nat2Z.id.
  pose proof (Z.div_mod (b + count + 63) 64 ltac:(lia)) as DN. pose proof (Z.mod_pos_bound (b + count + 63) 64 ltac:(lia)) as MN. rewrite <- Hn in DN.
  eapply wp_bind with (P := fun Y => mpi_ok Y /\ lval (mp Y) = lval (mp X) /\ ms Y = ms X /\ length (mp Y) = Nat.max (length (mp X)) n).
  { unfold mlen, zlen. destruct (Z.ltb_spec (Z.of_nat (length (mp X)) * 64) (b + count)) as [L|L].
    - unfold MPI_MAX_LIMBS. destruct (Z.ltb_spec (10000 * 64) (b + count)) as [Q|Q]; [lia|].
      replace ((b + count) / 64 + bz (negb ((b + count) mod 64 =? 0))) with (Z.of_nat n).
      + rewrite Nat2Z.id. eapply wp_mono; [apply grow_ok; [exact HX | lia]|]. intros Y (? & ? & ? & ? & _). tauto.
      + pose proof (Z.div_mod (b + count) 64 ltac:(lia)) as D. pose proof (Z.mod_pos_bound (b + count) 64 ltac:(lia)) as M.
        destruct (Z.eqb_spec ((b + count) mod 64) 0) as [E|E]; cbn [negb bz]; lia.
    - apply wp_ret. repeat split; try apply HX. lia. }
  intros Y (HY & VY & SY & LY). apply wp_ret. cbn [ms mp].
  set (v0 := count / 64). set (t1 := count mod 64).
  pose proof (Z.div_mod count 64 ltac:(lia)) as DC. fold v0 t1 in DC. pose proof (Z.mod_pos_bound count 64 ltac:(lia)) as MC. fold t1 in MC.
  assert (0 <= v0) as V0 by (apply Z.div_pos; lia).
  assert (b + count <= 64 * Z.of_nat (length (mp Y))) as FIT by lia.
  (* the limbs after the first loop *)
  set (p1 := if 0 <? v0 then shl_limbs v0 (mp Y) else mp Y).
  assert (Forall is_limb p1 /\ length p1 = length (mp Y) /\ lval p1 = LB ^ v0 * lval (mp X) /\
    ((Z.to_nat v0 < length (mp Y))%nat -> firstn (Z.to_nat v0) p1 = repeat 0 (Z.to_nat v0) /\ lval (skipn (Z.to_nat v0) p1) = lval (mp X))) as (F1 & L1 & W1 & S1).
  { subst p1. rewrite <- VY. destruct (Z.ltb_spec 0 v0) as [Q|Q].
    - unfold shl_limbs, zlen. destruct (Z.leb_spec (Z.of_nat (length (mp Y))) v0) as [R|R].
      + assert (b = 0) as Eb by lia. rewrite Eb in VB. change (2 ^ 0) with 1 in VB. pose proof (lval_nonneg _ (proj2 HX)). assert (lval (mp Y) = 0) as -> by lia.
        unfold zeros. rewrite lval_zeros, repeat_length, Z.mul_0_r. repeat split; [apply limbs_zeros | | ]; lia.
      + assert (Z.of_nat (Z.to_nat v0) = v0) as EV by lia. set (k := Z.to_nat v0) in *.
        assert (sig (mp Y) <= length (mp Y) - k)%nat as SG.
        { apply sig_bound; [apply HY|]. rewrite VY, LB_two. eapply Z.lt_le_trans; [exact VB|]. apply Z.pow_le_mono_r; lia. }
        unfold zeros. rewrite app_length, repeat_length, firstn_length, lval_app, lval_zeros, repeat_length, lval_firstn, EV by exact SG.
        repeat split.
        * apply Forall_app. split; [apply limbs_zeros | apply Forall_firstn', HY].
        * lia.
        * rewrite firstn_app, repeat_length, Nat.sub_diag, firstn_O, app_nil_r. rewrite firstn_all2 by (rewrite repeat_length; lia). reflexivity.
        * rewrite skipn_app, repeat_length, Nat.sub_diag, skipn_O, skipn_all2 by (rewrite repeat_length; lia). cbn [app]. apply lval_firstn. exact SG.
    - assert (v0 = 0) as -> by lia. rewrite Z.pow_0_r. repeat split; try apply HY; lia. }
  clearbody p1.
  assert (lval (mp X) * 2 ^ count < LB ^ Z.of_nat (length (mp Y))) as FITV.
  { rewrite LB_two. pose proof (lval_nonneg _ (proj2 HX)). pose proof (Z.pow_pos_nonneg 2 count ltac:(lia) ltac:(lia)).
    apply Z.lt_le_trans with (2 ^ b * 2 ^ count); [nia|]. rewrite <- Z.pow_add_r by lia. apply Z.pow_le_mono_r; lia. }
  set (p2 := if 0 <? t1 then shl_bits v0 t1 p1 else p1).
  assert (Forall is_limb p2 /\ length p2 = length (mp Y) /\ lval p2 = lval (mp X) * 2 ^ count) as (F2 & L2 & W2).
  { subst p2. rewrite (pow_split count Hc). fold v0 t1. destruct (Z.ltb_spec 0 t1) as [Q|Q].
    - unfold shl_bits, zlen. rewrite L1. destruct (Z.leb_spec (Z.of_nat (length (mp Y))) v0) as [R|R].
      + assert (b = 0) as Eb by lia. rewrite Eb in VB. change (2 ^ 0) with 1 in VB. pose proof (lval_nonneg _ (proj2 HX)). assert (lval (mp X) = 0) as E0 by lia.
        rewrite E0 in *. repeat split; try assumption; lia.
      + destruct (S1 ltac:(lia)) as [S1a S1b]. assert (Z.of_nat (Z.to_nat v0) = v0) as EV by lia. set (k := Z.to_nat v0) in *.
        destruct (shl_loop_ok t1 (skipn k p1) 0 (Forall_skipn' _ _ _ F1) ltac:(lia) ltac:(pose proof (Z.pow_pos_nonneg 2 t1); lia)) as (FL & VL & LL).
        rewrite S1a, app_length, repeat_length, lval_app, lval_zeros, repeat_length, VL, LL, S1b, skipn_length, EV.
        split; [apply Forall_app; split; [apply limbs_zeros | exact FL]|]. split; [clear - L1 R EV; clearbody k v0; lia|].
        rewrite Z.mod_small; [ring|]. unfold zlen. rewrite skipn_length, L1. rewrite (pow_split count Hc) in FITV. fold v0 t1 in FITV.
        assert (k + (length (mp Y) - k) = length (mp Y))%nat as EK by (clear -R EV; lia).
        rewrite <- EK, LB_powadd, EV in FITV.
        pose proof (lval_nonneg _ (proj2 HX)). pose proof (Z.pow_pos_nonneg 2 t1 ltac:(lia) ltac:(lia)). pose proof (Z.pow_pos_nonneg LB v0 LB_pos ltac:(lia)) as PL.
        split; [rewrite Z.add_0_r; apply Z.mul_nonneg_nonneg; lia|]. apply (Z.mul_lt_mono_pos_l (LB ^ v0)); [exact PL|].
        eapply Z.le_lt_trans; [|exact FITV]. apply Z.eq_le_incl. ring.
    - assert (t1 = 0) as -> by lia. rewrite Z.pow_0_r. repeat split; try assumption. lia. }
  clearbody p2. unfold mval. cbn [ms mp]. rewrite W2, L2, SY. repeat split; [apply HX | exact F2 | ring | exact LY].
Qed.
Lemma shr_loop_ok v p : Forall is_limb p -> 0 <= v <= 64 ->
  Forall is_limb (fst (shr_loop v p)) /\ lval (fst (shr_loop v p)) = lval p / 2 ^ v /\ length (fst (shr_loop v p)) = length p /\
  snd (shr_loop v p) = (lval p mod 2 ^ v) * 2 ^ (64 - v).
Proof.
  intros H Hv. pose proof (Z.pow_pos_nonneg 2 v ltac:(lia) ltac:(lia)) as P1. pose proof (Z.pow_pos_nonneg 2 (64 - v) ltac:(lia) ltac:(lia)) as P2.
  pose proof (LB_split v Hv) as LS.
  induction H as [|x p Hx Hp IH].
  - cbn [shr_loop fst snd lval]. rewrite Z.div_0_l, Z.mod_0_l by lia. repeat split; constructor.
  - cbn [shr_loop]. destruct (shr_loop v p) as [q r0]. cbn [fst snd] in *. destruct IH as (F & V & L & R).
    rewrite Z.shiftr_div_pow2, Z.shiftl_mul_pow2, u64_LB by lia. unfold is_limb in Hx.
    pose proof (Z.div_mod x (2 ^ v) ltac:(lia)) as DX. pose proof (Z.mod_pos_bound x (2 ^ v) P1) as MX.
    pose proof (Z.div_mod (lval p) (2 ^ v) ltac:(lia)) as DP. pose proof (Z.mod_pos_bound (lval p) (2 ^ v) P1) as MP.
    assert (0 <= x / 2 ^ v < 2 ^ (64 - v)) as BX by (split; [apply Z.div_pos; lia | apply Z.div_lt_upper_bound; lia]).
    assert (Z.lor (x / 2 ^ v) r0 = x / 2 ^ v + r0) as ->.
    { rewrite R, Z.lor_comm, lor_add by lia. lia. }
    rewrite R, !lval_cons. cbn [length].
    set (qx := x / 2 ^ v) in *. set (mx := x mod 2 ^ v) in *. set (qp := lval p / 2 ^ v) in *. set (mq := lval p mod 2 ^ v) in *.
    assert (x + LB * lval p = 2 ^ v * (qx + mq * 2 ^ (64 - v) + LB * qp) + mx) as EQ.
    { rewrite DX at 1. rewrite DP at 1. rewrite LS at 1. rewrite LS. ring. }
    rewrite <- (Z.div_unique_pos (x + LB * lval p) (2 ^ v) _ mx ltac:(lia) EQ).
    rewrite <- (Z.mod_unique_pos (x + LB * lval p) (2 ^ v) _ mx ltac:(lia) EQ).
    repeat split.
    + constructor; [|exact F]. unfold is_limb. rewrite LS. clearbody qx mx qp mq. nia.
    + rewrite V. reflexivity.
    + lia.
    + rewrite LS. rewrite (Z.mul_comm (2 ^ v)), (Z.mul_comm x), Zmult_mod_distr_l. fold mx. ring.
Qed.
(** X >>= count *)
Lemma shift_r_ok X count : mpi_ok X -> 0 <= count ->
  wp (l_shift_r X count) (fun R => mpi_ok R /\ lval (mp R) = lval (mp X) / 2 ^ count /\ mval R = ms X * (lval (mp X) / 2 ^ count) /\
    length (mp R) = (if (zlen (mp X) <? count / 64) || ((count / 64 =? zlen (mp X)) && (0 <? count mod 64)) then Nat.max 1 (length (mp X)) else length (mp X)) /\
    (ms R = ms X \/ ms R = 1)).
Proof.
  intros HX Hc. unfold l_shift_r. rewrite land63 by exact Hc. cbv zeta. set (v0 := count / 64). set (v1 := count mod 64).
  pose proof (Z.div_mod count 64 ltac:(lia)) as DC. fold v0 v1 in DC. pose proof (Z.mod_pos_bound count 64 ltac:(lia)) as MC. fold v1 in MC.
  assert (0 <= v0) as V0 by (apply Z.div_pos; lia). pose proof (zlen_nonneg (mp X)) as ZN.
  pose proof (lval_range _ (proj2 HX)) as RX.
  destruct ((zlen (mp X) <? v0) || ((v0 =? zlen (mp X)) && (0 <? v1))) eqn:E.
  - eapply wp_mono; [apply lset0_ok; exact HX|]. intros R (HR & PR & SR & _). rewrite PR, repeat_length, lval_zeros.
    assert (lval (mp X) / 2 ^ count = 0) as ->.
    { apply Z.div_small. split; [lia|]. eapply Z.lt_le_trans; [apply RX|]. unfold LB. rewrite <- Z.pow_mul_r by lia. apply Z.pow_le_mono_r; lia. }
    repeat split; try apply HR; try lia. unfold mval. rewrite PR, lval_zeros. lia.
  - apply wp_ret. cbn [ms mp].
    assert (v0 <= zlen (mp X)) as LV by lia. unfold zlen in *. set (k := Z.to_nat v0). assert (Z.of_nat k = v0) as EV by lia.
    set (p1 := if 0 <? v0 then skipn k (mp X) ++ zeros k else mp X).
    assert (Forall is_limb p1 /\ length p1 = length (mp X) /\ lval p1 = lval (mp X) / LB ^ v0) as (F1 & L1 & W1).
    { subst p1. destruct (Z.ltb_spec 0 v0) as [Q|Q].
      - unfold zeros. rewrite app_length, skipn_length, repeat_length, lval_app, lval_zeros.
        repeat split; [apply Forall_app; split; [apply Forall_skipn', HX | apply limbs_zeros] | lia|].
        pose proof (lval_split k (mp X)) as SP. rewrite firstn_length, Nat.min_l, EV in SP by lia.
        pose proof (lval_nonneg _ (Forall_firstn' _ k _ (proj2 HX))). pose proof (lval_lt (firstn k (mp X)) k (Forall_firstn' _ k _ (proj2 HX)) ltac:(rewrite firstn_length; lia)) as FL. rewrite EV in FL.
        rewrite (Z.div_unique_pos (lval (mp X)) (LB ^ v0) (lval (skipn k (mp X))) (lval (firstn k (mp X)))) by lia. lia.
      - assert (v0 = 0) as -> by lia. rewrite Z.pow_0_r, Z.div_1_r. repeat split. apply HX. }
    clearbody p1. set (p2 := if 0 <? v1 then fst (shr_loop v1 p1) else p1).
    assert (Forall is_limb p2 /\ length p2 = length (mp X) /\ lval p2 = lval (mp X) / 2 ^ count) as (F2 & L2 & W2).
    { subst p2. rewrite (pow_split count Hc). fold v0 v1. pose proof (Z.pow_pos_nonneg LB v0 LB_pos V0). pose proof (Z.pow_pos_nonneg 2 v1 ltac:(lia) ltac:(lia)).
      rewrite <- Z.div_div, <- W1 by lia. destruct (Z.ltb_spec 0 v1) as [Q|Q].
      - destruct (shr_loop_ok v1 p1 F1 ltac:(lia)) as (? & ? & ? & _). repeat split; [assumption | lia | assumption].
      - assert (v1 = 0) as -> by lia. rewrite Z.pow_0_r, Z.div_1_r. repeat split; assumption. }
    clearbody p2. unfold mval. cbn [ms mp]. rewrite W2. repeat split; [apply HX | exact F2 | exact L2 | now left].
Qed.
