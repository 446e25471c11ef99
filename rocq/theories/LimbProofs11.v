From Coq Require Import Lia Znumtheory.
From Verif Require Import Base BaseFacts MpiModel MpiProofs LimbModel LimbModel2 LimbSpec LimbProofs LimbProofs2 LimbProofs3 LimbProofs4 LimbProofs5 LimbProofs6 LimbProofs7 LimbProofs8 LimbProofs9 LimbProofs10.

Lemma land1_odd x : (Z.land x 1 =? 0) = negb (Z.odd x).
Proof. change 1 with (Z.ones 1). rewrite Z.land_ones by lia. change (2 ^ 1) with 2. rewrite Zmod_odd. destruct (Z.odd x); reflexivity. Qed.
Lemma lval_odd l : Z.odd (lval l) = Z.odd (nth 0 l 0).
Proof. destruct l as [|x l]; [reflexivity|]. cbn [lval nth]. rewrite Z.odd_add, Z.odd_mul. change (Z.odd LB) with false. cbn [andb]. apply xorb_false_r. Qed.
Lemma mval_odd X : mpi_ok X -> Z.odd (mval X) = Z.odd (nth 0 (mp X) 0).
Proof. intros [[E | E] _]; unfold mval; rewrite E, Z.odd_mul, <- lval_odd; reflexivity. Qed.
Lemma window_size_ok i : (1 <= window_size i <= 6)%nat.
Proof. unfold window_size. destruct (671 <? i), (239 <? i), (79 <? i), (23 <? i); lia. Qed.
Lemma nonnil_val X : mval X <> 0 -> mp X <> [].
Proof. intros H E. apply H. unfold mval. rewrite E. cbn. lia. Qed.
(** The constant kept between calls: R^2 mod N, or nothing yet *)
Definition rr_ok (N : mpi) (rr : option mpi) : Prop :=
  match rr with Some P => mpi_ok P /\ mlen P <= 10000 /\ (mp P = [] \/ mval P = RN N ^ 2 mod mval N) | None => True end.
Definition rr_new (N : mpi) (rr rr' : option mpi) : Prop :=
  match rr, rr' with
  | Some _, Some P => mpi_ok P /\ mlen P <= 10000 /\ mp P <> [] /\ mval P = RN N ^ 2 mod mval N
  | None, None => True
  | _, _ => False
  end.
Lemma mont_make N : mpi_ok N -> 0 < mval N -> Z.odd (mval N) = true -> mont N (montg_init (nth 0 (mp N) 0)).
Proof.
  intros HN PN ON. rewrite mval_odd in ON by exact HN. destruct (montg_init_ok (nth 0 (mp N) 0) (nth_limb _ _ (proj2 HN)) ON) as [H1 H2].
  split; [exact HN|]. split; [apply nonnil_val; lia|]. split; assumption.
Qed.
Definition exp_spec (A E N : mpi) : Z :=
  let x := lval (mp A) ^ mval E mod mval N in
  if (ms A =? -1) && Z.odd (mval E) then mval N - x else x.
Lemma exp_mod_ok xa X A E N rr : mpi_ok X -> mpi_ok A -> mpi_ok E -> mpi_ok N -> rr_ok N rr -> alias xa X A -> (xa = true \/ mp A <> []) -> 0 < mval N -> Z.odd (mval N) = true -> 0 <= mval E ->
  mlen N <= 4990 -> mlen A <= 9990 -> mlen X <= 9990 ->
  wp (l_exp_mod xa X A E N rr) (fun r => mpi_ok (fst r) /\ mval (fst r) = exp_spec A E N /\ mlen (fst r) <= Z.max (mlen X) (mlen N + 1) /\ rr_new N rr (snd r)).
Proof.
  intros HX HA HE HN HRR AL NA PN ON PE LN LA LX. pose proof (mont_make N HN PN ON) as HM.
  unfold l_exp_mod. rewrite cmp_int_ok by (assumption || lia). cbn [bind]. rewrite cmp3_lt. destruct (Z.compare_spec (mval N) 0); try lia.
  assert (mp N <> []) as NN by (apply nonnil_val; lia). assert (1 <= length (mp N))%nat as L1 by (destruct (mp N); [congruence | cbn; lia]).
  rewrite (lnth_ok (mp N) 0 0) by lia. cbn [bind]. rewrite land1_odd, <- mval_odd, ON by exact HN. cbn [negb].
  rewrite cmp_int_ok by (assumption || lia). cbn [bind]. rewrite cmp3_lt. replace (match mval E ?= 0 with Lt => true | _ => false end) with false by (destruct (Z.compare_spec (mval E) 0); try reflexivity; lia).
  cbv zeta. set (mm := montg_init (nth 0 (mp N) 0)) in *. clearbody mm.
  rewrite bitlen_ok by exact HE. cbn [bind]. set (ws := window_size _). pose proof (window_size_ok (mpi_bitlen (lval (mp E))) : (1 <= ws <= 6)%nat) as Hws. clearbody ws.
  unfold mlen, zlen in LN, LA, LX. set (n := length (mp N)) in *.
  eapply wp_bind; [apply grow_ok; [exact HX | lia]|]. intros X1 (OX1 & VX1 & SX1 & LX1 & _).
  eapply wp_bind; [apply grow_ok; [exact init_ok | lia]|]. intros W1 (OW1 & _ & _ & LW1 & _). cbn [l_init mp length] in LW1. rewrite Nat.max_0_l in LW1.
  eapply wp_bind; [apply grow_ok; [exact init_ok | lia]|]. intros T (_ & _ & _ & LT & _). cbn [l_init mp length] in LT. rewrite Nat.max_0_l in LT.
  rewrite LT. replace ((n + 1) * 2)%nat with (2 * (n + 1))%nat by lia. set (A1 := if xa then X1 else A).
  assert (mpi_ok A1 /\ lval (mp A1) = lval (mp A) /\ ms A1 = ms A /\ mp A1 <> [] /\ Z.of_nat (length (mp A1)) <= 9990) as (OA1 & VA1 & SA1 & NA1 & LA1).
  { unfold A1. destruct xa.
    - rewrite <- (AL eq_refl). repeat split; try apply OX1; try assumption; [apply nonnil_len; lia | lia].
    - destruct NA as [NA|NA]; [discriminate|]. repeat split; try apply HA; [exact NA | lia]. }
  clearbody A1. rewrite SA1. set (neg := ms A =? -1).
  eapply wp_bind with (P := fun A2 => mpi_ok A2 /\ mval A2 = lval (mp A) /\ lval (mp A2) = lval (mp A) /\ mp A2 <> [] /\ Z.of_nat (length (mp A2)) <= 9990).
  { pose proof (sig_le (mp A1)) as SL. unfold neg. destruct (Z.eqb_spec (ms A) (-1)) as [E1|E1].
    - eapply wp_bind; [apply copy_new; [exact init_ok | exact OA1 | exact NA1 | unfold zlen; lia]|]. intros P (OP & VP & _ & LP). cbn [l_init mp length] in LP. apply wp_ret.
      destruct (with_s_ok P 1 OP ltac:(now left)) as [O1 O2]. split; [exact O1|]. rewrite O2. cbn [mp with_s]. rewrite VP, VA1. split; [lia|]. split; [reflexivity|]. split; [apply nonnil_len; lia | lia].
    - apply wp_ret. assert (ms A1 = 1) as E2 by (rewrite SA1; destruct HA as [[?|?] _]; congruence). split; [exact OA1|]. unfold mval. rewrite E2, VA1, Z.mul_1_l. repeat split; assumption. }
  intros A2 (OA2 & MA2 & VA2 & NA2 & LA2). clear A1 OA1 VA1 SA1 NA1 LA1.
  pose proof (mont_pos N mm HM) as NP. assert (lval (mp N) = mval N) as VN by (apply lval_mval; [exact HN | lia]). rewrite VN in NP.
  pose proof (lval_nonneg _ (proj2 HA)) as A0. set (a := lval (mp A)) in *.
  eapply wp_bind with (P := fun P => mpi_ok P /\ mlen P <= 10000 /\ mp P <> [] /\ mval P = RN N ^ 2 mod mval N).
  { assert (wp (R <-? l_lset l_init 1;; R0 <-? l_shift_l R (zlen (mp N) * 2 * 64);; l_mod true R0 R0 N) (fun P => mpi_ok P /\ mlen P <= 10000 /\ mp P <> [] /\ mval P = RN N ^ 2 mod mval N)) as COMP.
    { eapply wp_bind; [apply lset_ok; [exact init_ok | lia]|]. intros R0 (OR0 & MR0 & PR0 & _). cbn [l_init mp length Z.abs repeat Nat.sub] in PR0. unfold zlen. fold n.
      assert (mpi_bitlen (lval (mp R0)) = 1) as BL by (rewrite PR0; reflexivity).
      eapply wp_bind; [apply shift_l_ok; [exact OR0 | lia | rewrite BL; lia]|]. intros R1 (OR1 & MR1 & _ & _ & LR1). rewrite BL, PR0 in LR1. cbn [length] in LR1.
      replace ((1 + Z.of_nat n * 2 * 64 + 63) / 64) with (Z.of_nat n * 2 + 1) in LR1 by (replace (1 + Z.of_nat n * 2 * 64 + 63) with ((Z.of_nat n * 2 + 1) * 64) by lia; now rewrite Z.div_mul by lia).
      eapply wp_mono; [apply mod_ok; try assumption; unfold mlen, zlen; try lia; reflexivity|].
      cbv beta. intros P (OP & MP & LP & NP'). split; [exact OP|]. split; [unfold mlen, zlen; fold n in LP; lia|]. split; [apply NP'; apply nonnil_len; lia|].
      rewrite MP, MR1, MR0. f_equal. unfold RN. fold n. rewrite LB_two, <- Z.pow_mul_r, Z.mul_1_l by lia. f_equal. lia. }
    destruct rr as [[s [|x l]]|]; [exact COMP | | exact COMP].
    apply wp_ret. destruct HRR as (H1 & H2 & [H3 | H3]); [discriminate|]. split; [exact H1|]. split; [exact H2|]. split; [discriminate | exact H3]. }
  intros RR (ORR & LRR & NRR & MRR).
  pose proof (Z.mod_pos_bound (RN N ^ 2) (mval N) PN) as BRR. rewrite <- MRR in BRR. assert (lval (mp RR) = mval RR) as VRR by (apply lval_mval; [exact ORR | lia]).
  assert (mval N | mval RR - RN N * RN N) as [qr DRR].
  { rewrite MRR. exists (- (RN N ^ 2 / mval N)). pose proof (Z.div_mod (RN N ^ 2) (mval N) ltac:(lia)) as D. rewrite Z.pow_2_r in *. lia. }
  rewrite cmp_ok by assumption. cbn [bind]. rewrite cmp3_ge.
  eapply wp_bind with (P := fun W => mpi_ok W /\ (n + 1 <= length (mp W))%nat /\ Z.of_nat (length (mp W)) <= 9990 /\ lval (mp W) = a mod mval N).
  { pose proof (sig_le (mp A2)). destruct (Z.compare_spec (mval A2) (mval N)) as [C|C|C].
    2: { eapply wp_mono; [apply copy_new; [exact OW1 | exact OA2 | exact NA2 | unfold zlen; lia]|]. cbv beta. intros W (OW & VW & _ & LW). split; [exact OW|]. split; [lia|]. rewrite VW, VA2, Z.mod_small; lia. }
    all: (eapply wp_mono; [apply (mod_ok false); [exact OW1 | exact OA2 | exact HN | discriminate | exact PN | | | ]; unfold mlen, zlen; fold n; lia|]).
    all: cbv beta; intros W (OW & MW & LW & NW); destruct (NW NA2) as [NW1 _]; pose proof (Z.mod_pos_bound (mval A2) (mval N) PN) as MB; fold n in LW;
      (split; [exact OW|]); (split; [lia|]); (split; [lia|]); rewrite lval_mval, MW, MA2 by (exact OW || lia); reflexivity. }
  intros W2 (OW2 & LW2 & LW2' & VW2). pose proof (Z.mod_pos_bound a (mval N) PN) as MBA.
  eapply wp_bind; [apply montmul_ok; [exact HM | exact OW2 | exact ORR | exact NRR | rewrite VW2; lia | rewrite VRR, VN; lia | fold n; lia]|].
  cbv beta. intros W3 (OW3 & _ & LW3 & BW3 & [q3 D3]). rewrite VW2, VRR, VN in *.
  assert (rep N W3 a) as RW3.
  { split; [exact OW3|]. split; [fold n; lia|]. rewrite VN. split; [exact BW3|]. rewrite <- VN. apply (RN_cancel N mm HM). rewrite VN.
    pose proof (Z.div_mod a (mval N) ltac:(lia)) as DA. set (am := a mod mval N) in *. set (aq := a / mval N) in *.
    exists (q3 + am * qr - aq * RN N * RN N). transitivity ((lval (mp W3) * RN N - am * mval RR) + am * (mval RR - RN N * RN N) - (a - am) * RN N * RN N); [ring|].
    rewrite D3, DRR. replace (a - am) with (mval N * aq) by lia. ring. }
  eapply wp_bind; [apply copy_new; [exact OX1 | exact ORR | exact NRR | exact LRR]|]. intros X2 (OX2 & VX2 & SX2 & LX2).
  assert (sig (mp RR) <= n)%nat as SRR by (apply sig_bound; [apply ORR | change (LB ^ Z.of_nat n) with (RN N); rewrite VRR; lia]).
  rewrite LX1 in LX2. replace (Nat.max (Nat.max (length (mp X)) (n + 1)) (Nat.max 1 (sig (mp RR)))) with (Nat.max (length (mp X)) (n + 1)) in LX2 by lia.
  eapply wp_bind; [apply montred_ok; [exact HM | exact OX2 | rewrite VX2, VRR; lia | fold n; lia]|].
  cbv beta. intros X3 (OX3 & SX3 & LX3 & BX3 & [qx DX3]). rewrite VX2, VRR, VN in *.
  assert (rep N X3 (a ^ 0)) as RX3.
  { split; [exact OX3|]. split; [fold n; lia|]. rewrite VN. split; [exact BX3|]. rewrite <- VN. apply (RN_cancel N mm HM). rewrite VN.
    exists (qx + qr). transitivity ((lval (mp X3) * RN N - mval RR) + (mval RR - RN N * RN N)); [ring|]. rewrite DX3, DRR. ring. }
  destruct (table_init N a W3 RW3) as (W & EW & LW & W1' & WI). rewrite EW. cbn [bind].
  assert (mp (nth 0 W l_init) = []) as W0 by (cbn in EW; injection EW as <-; reflexivity).
  eapply wp_bind; [apply (table_ok N mm HM a LN ws W Hws LW); [rewrite W1'; exact RW3 | exact WI | rewrite W1'; unfold zlen; lia | exact W0]|].
  intros W4 [TW4 E4]. rewrite W1' in E4. fold n.
  eapply wp_bind; [apply (exp_limbs_ok N mm HM a ws W4 X3 (mp E) Hws TW4 (proj2 HE) (length (mp E)) 0); [lia|]|].
  { split; [lia|]. split; [apply keeps_refl|]. split; [cbn [enb]; lia|]. left. cbn [enb ewb est ex]. split; [reflexivity|]. split; [reflexivity|]. split; [exact RX3 | now right]. }
  intros s (_ & KS & NS & HS). rewrite firstn_all, Z.mul_0_l, Z.add_0_l in HS. rewrite (lval_mval E HE PE) in HS.
  destruct TW4 as (LW4 & RW4 & _). rewrite (lnth_ok W4 1 l_init) by lia. cbn [bind].
  eapply wp_bind with (P := fun X5 => rep N X5 (a ^ mval E) /\ keeps X3 X5).
  { destruct HS as [(N0 & B0 & RS & _) | (_ & p0 & w & P0 & EP & BW & N1 & EWB & RS)].
    - rewrite N0, B0. cbn [exp_rest]. apply wp_ret. split; assumption.
    - rewrite EWB. assert (0 < 2 ^ (Z.of_nat (enb s) - 1)) as PP by (apply Z.pow_pos_nonneg; lia).
      eapply wp_mono; [apply (exp_rest_ok N mm HM a ws (nth 1 W4 l_init) w Hws RW4 ltac:(lia) (enb s) (ex s) p0 NS P0 RS)|].
      cbv beta. rewrite Z.mod_small, <- EP by lia. intros X5 [R5 K5]. split; [exact R5 | eapply keeps_trans; eassumption]. }
  intros X5 [R5 K5]. fold n. eapply wp_bind; [apply (final_red N mm HM X5 _ R5)|]. intros X6 (OX6 & K6 & VX6). rewrite VN in VX6.
  destruct (keeps_trans _ _ _ K5 K6) as [S6 L6]. set (x := a ^ mval E mod mval N) in *. pose proof (Z.mod_pos_bound (a ^ mval E) (mval N) PN) as BX. fold x in BX.
  assert (mval X6 = x) as MX6.
  { assert (ms RR = 1 \/ mval RR = 0) as [SR | SR].
    { destruct ORR as [[S1|S1] _]; [now left | right]. unfold mval in *. rewrite S1 in *. lia. }
    - unfold mval. rewrite VX6, S6, SX3, SX2, SR. lia.
    - rewrite SR in DRR. assert (mval N = 1) as N1.
      { pose proof (RN_prime N mm HM) as RP. rewrite VN in RP. assert (mval N | RN N * RN N) as D by (exists (- qr); lia). apply Gauss in D; [|exact RP].
        destruct RP as [_ _ RP]. specialize (RP (mval N) (Z.divide_refl _) D). apply Z.divide_1_r_nonneg in RP; lia. }
      assert (x = 0) as X0 by (clear - BX N1; lia). unfold mval. rewrite VX6, X0. apply Z.mul_0_r. }
  assert (mlen X6 <= Z.max (mlen X) (mlen N + 1)) as ML6 by (unfold mlen, zlen; fold n; rewrite L6, LX3, LX2; lia).
  eapply wp_bind with (P := fun X7 => mpi_ok X7 /\ mval X7 = exp_spec A E N /\ mlen X7 <= Z.max (mlen X) (mlen N + 1)).
  { unfold exp_spec. fold a x neg.
    assert (forall b : bool, b = Z.odd (mval E) -> wp (if neg && b then l_add false true (with_s X6 (-1)) N (with_s X6 (-1)) else ret X6)
       (fun X7 => mpi_ok X7 /\ mval X7 = (if neg && Z.odd (mval E) then mval N - x else x) /\ mlen X7 <= Z.max (mlen X) (mlen N + 1))) as FIN.
    { intros b ->. destruct (neg && Z.odd (mval E)).
      - destruct (with_s_ok X6 (-1) OX6 ltac:(now right)) as [O1 O2]. unfold mlen, zlen in ML6 |- *. fold n in ML6 |- *.
        eapply wp_mono; [apply (add_ok false true (with_s X6 (-1)) N (with_s X6 (-1))); [exact O1 | exact HN | exact O1 | discriminate | reflexivity | | | ]; unfold mlen, zlen; cbn [mp with_s]; fold n; lia|].
        cbv beta. intros X7 (O7 & M7 & L7 & _). rewrite O2, VX6 in M7. split; [exact O7|]. clearbody x. clear - O7 M7 L7 L6 BX ML6 HN LN NP. split; [lia|].
        assert (sig (mp X7) <= n)%nat. { apply sig_bound; [apply O7|]. change (LB ^ Z.of_nat n) with (RN N). rewrite <- mval_abs by exact O7. lia. }
        cbn [mp with_s] in L7. fold n in L7. lia.
      - apply wp_ret. split; [exact OX6|]. split; [exact MX6 | exact ML6]. }
    destruct (mp E) as [|e0 l] eqn:EE.
    - specialize (FIN false). rewrite andb_false_r in FIN. apply FIN. rewrite mval_odd by exact HE. rewrite EE. reflexivity.
    - apply FIN. rewrite land1_odd, negb_involutive, mval_odd by exact HE. rewrite EE. reflexivity. }
  intros X7 (O7 & M7 & L7). apply wp_ret. cbn [fst snd]. split; [exact O7|]. split; [exact M7|]. split; [exact L7|].
  destruct rr; [|exact I]. cbn [rr_new]. tauto.
Qed.
