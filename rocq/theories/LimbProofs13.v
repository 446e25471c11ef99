From Coq Require Import Lia Znumtheory.
From Verif Require Import Base BaseFacts MpiModel MpiProofs LimbModel LimbModel2 LimbSpec LimbProofs LimbProofs2 LimbProofs3 LimbProofs4 LimbProofs5 LimbProofs6 LimbProofs7 LimbProofs8 LimbProofs9 LimbProofs10 LimbProofs11 LimbProofs12.

(** * Modular inverse *)
Lemma len_pos {A} (l : list A) : l <> [] -> (1 <= length l)%nat. Proof. destruct l; [congruence | cbn; lia]. Qed.
Lemma half_even X : mpi_ok X -> mp X <> [] -> Z.odd (mval X) = false ->
  wp (l_shift_r X 1) (fun Y => mpi_ok Y /\ 2 * mval Y = mval X /\ length (mp Y) = length (mp X) /\ mp Y <> []).
Proof.
  intros HX NX EX. eapply wp_mono; [apply shift_r_ok; [exact HX | lia]|]. cbv beta. intros Y (OY & VY & MY & LY & _). change (2 ^ 1) with 2 in *.
  pose proof (len_pos _ NX) as L1. assert (length (mp Y) = length (mp X)) as LL by (destruct (_ || _) in LY; lia).
  split; [exact OY|]. split; [|split; [exact LL | apply nonnil_len; lia]].
  rewrite MY. unfold mval. rewrite mval_odd, <- lval_odd in EX by exact HX. pose proof (Z.div_mod (lval (mp X)) 2 ltac:(lia)) as D. rewrite Zmod_odd, EX in D. 
  set (q := lval (mp X) / 2) in *. clearbody q. rewrite D. ring.
Qed.
(** A value of at most n + 1 limbs, with at least one *)
Definition small (n : nat) (X : mpi) : Prop := mpi_ok X /\ mp X <> [] /\ (length (mp X) <= n + 1)%nat.
Lemma small_sig n X : mpi_ok X -> Z.abs (mval X) < LB ^ Z.of_nat (n + 1) -> (sig (mp X) <= n + 1)%nat.
Proof. intros HX B. apply sig_abs_bound; assumption. Qed.
Lemma add_small n X B : Z.of_nat n <= 9990 -> small n X -> small n B -> Z.abs (mval X + mval B) < LB ^ Z.of_nat (n + 1) ->
  wp (l_add true false X X B) (fun R => small n R /\ mval R = mval X + mval B).
Proof.
  intros Hn (OX & NX & LX) (OB & NB & LB_) HB. eapply wp_mono; [apply add_ok; try assumption; try reflexivity; try discriminate; unfold mlen, zlen; lia|].
  cbv beta. intros R (OR & MR & L1 & L2). split; [|exact MR]. specialize (L2 NX NB). pose proof (len_pos _ NX). rewrite <- MR in HB. pose proof (small_sig n R OR HB).
  split; [exact OR|]. split; [apply nonnil_len; lia | lia].
Qed.
Lemma sub_small n X B : Z.of_nat n <= 9990 -> small n X -> small n B -> Z.abs (mval X - mval B) < LB ^ Z.of_nat (n + 1) ->
  wp (l_sub true false X X B) (fun R => small n R /\ mval R = mval X - mval B).
Proof.
  intros Hn (OX & NX & LX) (OB & NB & LB_) HB. eapply wp_mono; [apply sub_ok; try assumption; try reflexivity; try discriminate; unfold mlen, zlen; lia|].
  cbv beta. intros R (OR & MR & L1 & L2). split; [|exact MR]. specialize (L2 NX NB). pose proof (len_pos _ NX). rewrite <- MR in HB. pose proof (small_sig n R OR HB).
  split; [exact OR|]. split; [apply nonnil_len; lia | lia].
Qed.
Lemma half_small n X : small n X -> Z.odd (mval X) = false -> wp (l_shift_r X 1) (fun R => small n R /\ 2 * mval R = mval X).
Proof.
  intros (OX & NX & LX) E. eapply wp_mono; [apply half_even; assumption|]. cbv beta. intros Y (OY & MY & LY & NY). split; [|exact MY]. split; [exact OY|]. split; [exact NY | lia].
Qed.
Lemma low_odd n X : small n X -> lnth (mp X) 0 = Ok (nth 0 (mp X) 0) /\ (Z.land (nth 0 (mp X) 0) 1 =? 0) = negb (Z.odd (mval X)).
Proof. intros (OX & NX & _). split; [apply lnth_ok; now apply len_pos|]. rewrite land1_odd, <- mval_odd by exact OX. reflexivity. Qed.

(** Making a pair of coefficients even *)
Lemma even_pair u1 u2 ta tb t : Z.gcd ta tb = 1 -> u1 * ta + u2 * tb = t -> Z.odd t = false ->
  (Z.odd u1 || Z.odd u2 = true -> Z.odd (u1 + tb) = false /\ Z.odd (u2 - ta) = false) /\ (Z.odd u1 || Z.odd u2 = false -> Z.odd u1 = false /\ Z.odd u2 = false).
Proof.
  intros G E O. rewrite <- E, Z.odd_add, !Z.odd_mul in O. rewrite Z.odd_add, Z.odd_sub.
  assert (Z.odd ta || Z.odd tb = true) as OO.
  { destruct (Z.odd ta) eqn:A; [reflexivity|]. destruct (Z.odd tb) eqn:B; [reflexivity|]. exfalso.
    assert (2 | Z.gcd ta tb) as D. { apply Z.gcd_greatest; apply Z.mod_divide; try lia; rewrite Zmod_odd; [rewrite A | rewrite B]; reflexivity. }
    rewrite G in D. apply Z.divide_1_r_nonneg in D; lia. }
  destruct (Z.odd u1), (Z.odd u2), (Z.odd ta), (Z.odd tb); cbn in *; try discriminate; split; intros; try discriminate; split; reflexivity.
Qed.
Lemma coeff_bound u1 u2 ta tb t : 0 <= ta < tb -> 0 <= t <= tb -> u1 * ta + u2 * tb = t -> Z.abs u2 <= 1 + Z.abs u1.
Proof.
  intros Ha Ht E. assert (Z.abs (u2 * tb) <= (1 + Z.abs u1) * tb) as B.
  { replace (u2 * tb) with (t - u1 * ta) by lia. assert (Z.abs (u1 * ta) <= Z.abs u1 * tb) by (rewrite Z.abs_mul, (Z.abs_eq ta) by lia; apply Z.mul_le_mono_nonneg_l; lia). lia. }
  rewrite Z.abs_mul, (Z.abs_eq tb) in B by lia. apply (Z.mul_le_mono_pos_r _ _ tb); [lia | exact B].
Qed.
Section Inv.
  Variables (n : nat) (TA TB : mpi).
  Hypothesis Hn : Z.of_nat n <= 9990.
  Hypothesis SA : small n TA.
  Hypothesis SB : small n TB.
  Hypothesis RA : 0 <= mval TA < mval TB.
  Hypothesis RB : mval TB < LB ^ Z.of_nat n.
  Hypothesis G1 : Z.gcd (mval TA) (mval TB) = 1.
  Let ta := mval TA.
  Let tb := mval TB.
  Lemma LBn : 0 < LB ^ Z.of_nat n /\ LB ^ Z.of_nat (n + 1) = LB * LB ^ Z.of_nat n.
  Proof. split; [apply LB_pow|]. replace (n + 1)%nat with (S n) by lia. apply LB_powS. Qed.
  Lemma inv_halve_ok : forall k T U1 U2, small n T -> small n U1 -> small n U2 -> 0 < mval T <= tb -> mval U1 * ta + mval U2 * tb = mval T ->
    Z.max (Z.abs (mval U1)) tb + 2 * tb + 2 <= LB ^ Z.of_nat (n + 1) -> mpi_bitlen (mval T) < Z.of_nat k ->
    wp (inv_halve k T U1 U2 TA TB) (fun r => let '(T', U1', U2') := r in small n T' /\ small n U1' /\ small n U2' /\ Z.odd (mval T') = true /\ (exists j, 0 <= j /\ mval T = mval T' * 2 ^ j) /\
      mval U1' * ta + mval U2' * tb = mval T' /\ (Z.odd (mval T) = true -> mval T' = mval T /\ mval U1' = mval U1) /\
      (Z.odd (mval T) = false -> 2 * mval T' <= mval T /\ 2 * Z.abs (mval U1') <= Z.max (Z.abs (mval U1)) tb + tb)).
  Proof.
    pose proof (RA : 0 <= ta < tb) as RA'. pose proof (proj1 LBn) as LN.
    induction k as [|k IH]; intros T U1 U2 ST S1 S2 PT EQ BD HK; [pose proof (bitlen_nonneg (mval T)); lia|]. cbn [inv_halve].
    destruct (low_odd n T ST) as [E0 E1]. rewrite E0. cbn [bind]. rewrite E1. destruct (Z.odd (mval T)) eqn:OT; cbn [negb].
    - apply wp_ret. split; [exact ST|]. split; [exact S1|]. split; [exact S2|]. split; [exact OT|]. split; [exists 0; change (2 ^ 0) with 1; lia|]. split; [exact EQ|]. split; [tauto | discriminate].
    - eapply wp_bind; [apply half_small; [exact ST | exact OT]|]. intros T' [ST' MT'].
      destruct (low_odd n U1 S1) as [F0 F1]. destruct (low_odd n U2 S2) as [F2 F3]. rewrite F0, F2. cbn [bind]. rewrite F1, F3, !negb_involutive.
      destruct (even_pair (mval U1) (mval U2) ta tb (mval T) G1 EQ OT) as [EV1 EV2].
      assert (Z.abs (mval U2) <= 1 + Z.abs (mval U1)) as B2 by (apply (coeff_bound _ _ ta tb (mval T)); [exact RA | lia | exact EQ]).
      assert ((if Z.odd (mval U1) then Ok true else Ok (Z.odd (mval U2))) = Ok (Z.odd (mval U1) || Z.odd (mval U2))) as -> by (destruct (Z.odd (mval U1)); reflexivity). cbn [bind].
      eapply wp_bind with (P := fun r => let '(V1, V2) := r in small n V1 /\ small n V2 /\ Z.odd (mval V1) = false /\ Z.odd (mval V2) = false /\ mval V1 * ta + mval V2 * tb = mval T /\ Z.abs (mval V1) <= Z.abs (mval U1) + tb).
      { destruct (Z.odd (mval U1) || Z.odd (mval U2)).
        - destruct (EV1 eq_refl) as [X1 X2].
          eapply wp_bind; [apply (add_small n); [exact Hn | exact S1 | exact SB | fold tb; clear - BD RA'; lia]|]. intros V1 [SV1 MV1]. fold tb in MV1.
          eapply wp_bind; [apply (sub_small n); [exact Hn | exact S2 | exact SA | fold ta; clear - BD RA' B2; lia]|]. intros V2 [SV2 MV2]. fold ta in MV2.
          apply wp_ret. rewrite MV1, MV2. split; [exact SV1|]. split; [exact SV2|]. split; [exact X1|]. split; [exact X2|]. split; [rewrite <- EQ; ring | clear - RA'; lia].
        - destruct (EV2 eq_refl) as [X1 X2]. apply wp_ret. split; [exact S1|]. split; [exact S2|]. split; [exact X1|]. split; [exact X2|]. split; [exact EQ | clear - RA'; lia]. }
      intros [V1 V2] (SV1 & SV2 & OV1 & OV2 & EQV & BV).
      eapply wp_bind; [apply half_small; [exact SV1 | exact OV1]|]. intros W1 [SW1 MW1].
      eapply wp_bind; [apply half_small; [exact SV2 | exact OV2]|]. intros W2 [SW2 MW2].
      assert (mval W1 * ta + mval W2 * tb = mval T') as EQW by (clear - EQV MW1 MW2 MT'; nia).
      assert (2 * Z.abs (mval W1) <= Z.abs (mval U1) + tb) as BW by (clear - BV MW1; lia).
      eapply wp_mono; [apply (IH T' W1 W2 ST' SW1 SW2 ltac:(lia) EQW)|].
      + clear - BW BD RA'. lia.
      + assert (mpi_bitlen (mval T') <= mpi_bitlen (mval T) - 1) by (apply bitlen_half; clear - MT' PT; lia). clear - H HK. lia.
      + cbv beta. intros [[T2 X1] X2] (Q1 & Q2 & Q3 & Q4 & (j & J0 & Q5) & Q6 & Q7 & Q8). split; [exact Q1|]. split; [exact Q2|]. split; [exact Q3|]. split; [exact Q4|].
        split; [exists (Z.succ j); split; [lia|]; rewrite Z.pow_succ_r, <- MT', Q5 by exact J0; ring|]. split; [exact Q6|]. split; [discriminate|]. intros _.
        destruct (Z.odd (mval T')) eqn:OT'.
        * destruct (Q7 eq_refl) as [R1 R2]. rewrite R1, R2. clear - MT' BW RA' PT. lia.
        * destruct (Q8 eq_refl) as [R1 R2]. clear - MT' BW RA' PT R1 R2. lia.
  Qed.
  Lemma gcd_div1 x x' y y' : Z.gcd x y = 1 -> (x' | x) -> (y' | y) -> Z.gcd x' y' = 1.
  Proof.
    intros G D1 D2. apply Z.divide_antisym_nonneg; [apply Z.gcd_nonneg | lia | | apply Z.divide_1_l]. rewrite <- G.
    apply Z.gcd_greatest; eapply Z.divide_trans; [apply Z.gcd_divide_l | exact D1 | apply Z.gcd_divide_r | exact D2].
  Qed.
  Lemma inv_step_bound m t v (b : bool) u u' : tb <= m -> b = Z.odd t -> (b = true -> 2 * Z.abs u <= m /\ u' = u) -> (b = false -> Z.abs u <= m /\ 2 * Z.abs u' <= Z.max (Z.abs u) v + v) -> v = tb -> 0 < tb ->
    2 * Z.abs u' <= m + tb.
  Proof. intros Hm _ H1 H2 -> P. destruct b; [destruct (H1 eq_refl) as [? ->]; lia | destruct (H2 eq_refl); lia]. Qed.
  Lemma inv_loop_ok k : 2 <= tb -> mpi_bitlen tb < Z.of_nat k -> forall fuel m TU U1 U2 TV V1 V2,
    small n TU -> small n U1 -> small n U2 -> small n TV -> small n V1 -> small n V2 ->
    0 < mval TU <= tb -> 0 < mval TV <= tb -> Z.gcd (mval TU) (mval TV) = 1 ->
    mval U1 * ta + mval U2 * tb = mval TU -> mval V1 * ta + mval V2 * tb = mval TV -> tb <= m -> m + (Z.of_nat fuel + 4) * tb <= LB ^ Z.of_nat (n + 1) ->
    Z.abs (mval U1) <= m -> Z.abs (mval V1) <= m -> (Z.odd (mval TU) = true -> 2 * Z.abs (mval U1) <= m) -> (Z.odd (mval TV) = true -> 2 * Z.abs (mval V1) <= m) ->
    (if Z.odd (mval TU) && Z.odd (mval TV) then 1 else 0) + mpi_bitlen (mval TU) + mpi_bitlen (mval TV) <= Z.of_nat fuel ->
    wp (inv_loop fuel k TU U1 U2 TV V1 V2 TA TB) (fun R => small n R /\ (tb | mval R * ta - 1) /\ 2 * Z.abs (mval R) <= m + Z.of_nat fuel * tb).
  Proof.
    pose proof (RA : 0 <= ta < tb) as RA'. pose proof (proj1 LBn) as LN. intros T2 HK.
    induction fuel as [|fuel IH]; intros m TU U1 U2 TV V1 V2 SU S1 S2 SV SV1 SV2 PU PV GG EU EV Hm BD BU BV OU OV HF.
    { destruct (bitlen_pos (mval TU) ltac:(lia)). pose proof (bitlen_nonneg (mval TV)). destruct (_ && _) in HF; lia. }
    cbn [inv_loop].
    assert (forall x, 0 < x <= tb -> mpi_bitlen x < Z.of_nat k) as HKx by (intros x Hx; pose proof (bitlen_mono x tb ltac:(lia)); lia).
    assert (m + 4 * tb <= LB ^ Z.of_nat (n + 1)) as BD1 by (clear - BD T2; nia).
    eapply wp_bind; [apply (inv_halve_ok k TU U1 U2 SU S1 S2 PU EU); [clear - BD1 BU Hm T2; lia | apply HKx; exact PU]|].
    intros [[TU' U1'] U2'] (SU' & S1' & S2' & OU' & (ju & JU & EJU) & EU' & HU1 & HU2).
    eapply wp_bind; [apply (inv_halve_ok k TV V1 V2 SV SV1 SV2 PV EV); [clear - BD1 BV Hm T2; lia | apply HKx; exact PV]|].
    intros [[TV' V1'] V2'] (SV' & SV1' & SV2' & OV' & (jv & JV & EJV) & EV' & HV1 & HV2).
    assert (2 * Z.abs (mval U1') <= m + tb) as BU'. { clear - HU1 HU2 OU BU Hm T2. destruct (Z.odd (mval TU)); [destruct (HU1 eq_refl) as [_ ->]; specialize (OU eq_refl); lia | destruct (HU2 eq_refl); lia]. }
    assert (2 * Z.abs (mval V1') <= m + tb) as BV'. { clear - HV1 HV2 OV BV Hm T2. destruct (Z.odd (mval TV)); [destruct (HV1 eq_refl) as [_ ->]; specialize (OV eq_refl); lia | destruct (HV2 eq_refl); lia]. }
    assert (0 < 2 ^ ju) as PJU by (apply Z.pow_pos_nonneg; lia). assert (0 < 2 ^ jv) as PJV by (apply Z.pow_pos_nonneg; lia).
    assert (0 < mval TU' <= mval TU) as PU' by (clear - PU EJU PJU; nia). assert (0 < mval TV' <= mval TV) as PV' by (clear - PV EJV PJV; nia).
    assert (Z.gcd (mval TU') (mval TV') = 1) as GG' by (apply (gcd_div1 (mval TU) _ (mval TV)); [exact GG | exists (2 ^ ju); rewrite EJU; ring | exists (2 ^ jv); rewrite EJV; ring]).
    assert (mpi_bitlen (mval TU') + mpi_bitlen (mval TV') <= Z.of_nat fuel) as HF'.
    { pose proof (bitlen_mono (mval TU') (mval TU) ltac:(lia)) as Q1. pose proof (bitlen_mono (mval TV') (mval TV) ltac:(lia)) as Q2. clear IH.
      destruct (Z.odd (mval TU)) eqn:O1; [destruct (Z.odd (mval TV)) eqn:O2|]; cbn [andb] in HF.
      - clear - HF Q1 Q2. lia.
      - destruct (HV2 eq_refl) as [R1 _]. pose proof (bitlen_half (mval TV') (mval TV) ltac:(lia) ltac:(lia) R1). clear - HF Q1 H. lia.
      - destruct (HU2 eq_refl) as [R1 _]. pose proof (bitlen_half (mval TU') (mval TU) ltac:(lia) ltac:(lia) R1). clear - HF Q2 H. lia. }
    assert (Z.abs (mval U2') <= 1 + Z.abs (mval U1')) as B2 by (apply (coeff_bound _ _ ta tb (mval TU')); [exact RA' | clear - PU' PU; lia | exact EU']).
    assert (Z.abs (mval V2') <= 1 + Z.abs (mval V1')) as B3 by (apply (coeff_bound _ _ ta tb (mval TV')); [exact RA' | clear - PV' PV; lia | exact EV']).
    assert (m + tb + (Z.of_nat fuel + 4) * tb <= LB ^ Z.of_nat (n + 1)) as BD2 by (clear - BD; lia).
    assert (tb <= LB ^ Z.of_nat (n + 1)) as BT by (clear - BD1 Hm T2; lia).
    rewrite cmp_ok by (apply SU' || apply SV'). cbn [bind]. rewrite cmp3_ge.
    destruct (Z.compare_spec (mval TU') (mval TV')) as [C|C|C]; cbn [negb].
    - assert (mval TV' = 1) as V1E by (rewrite C, Z.gcd_diag, Z.abs_eq in GG' by (clear - PV'; lia); exact GG').
      eapply wp_bind with (P := fun s => let '(TU2, U12, U22, TV2, V12, V22) := s in mpi_ok TU2 /\ mval TU2 = 0 /\ V12 = V1').
      { eapply wp_bind; [apply (sub_small n); [exact Hn | exact SU' | exact SV' | clear - C LN BT T2; lia]|]. intros X1 [O1 M1].
        eapply wp_bind; [apply (sub_small n); [exact Hn | exact S1' | exact SV1' | clear - BU' BV' BD1 T2; lia]|]. intros X2 [O2 M2].
        eapply wp_bind; [apply (sub_small n); [exact Hn | exact S2' | exact SV2' | clear - BU' BV' B2 B3 BD1 T2; lia]|]. intros X3 [O3 M3].
        apply wp_ret. split; [apply O1|]. split; [clear - M1 C; lia | reflexivity]. }
      intros [[[[[TU2 U12] U22] TV2] V12] V22] (O2 & M2 & ->). rewrite cmp_int_ok by (assumption || lia). cbn [bind]. rewrite cmp3_eq, M2. cbn [Z.compare].
      apply wp_ret. split; [exact SV1'|]. split; [exists (- mval V2'); rewrite V1E in EV'; clear - EV'; lia | clear - BV' T2; lia].
    - eapply wp_bind with (P := fun s => let '(TU2, U12, U22, TV2, V12, V22) := s in TU2 = TU' /\ U12 = U1' /\ U22 = U2' /\ small n TV2 /\ small n V12 /\ small n V22 /\ mval TV2 = mval TV' - mval TU' /\ mval V12 = mval V1' - mval U1' /\ mval V22 = mval V2' - mval U2').
      { eapply wp_bind; [apply (sub_small n); [exact Hn | exact SV' | exact SU' | clear - C PU' PU PV' PV LN BT T2; lia]|]. intros X1 [O1 M1].
        eapply wp_bind; [apply (sub_small n); [exact Hn | exact SV1' | exact S1' | clear - BU' BV' BD1 T2; lia]|]. intros X2 [O2 M2].
        eapply wp_bind; [apply (sub_small n); [exact Hn | exact SV2' | exact S2' | clear - BU' BV' B2 B3 BD1 T2; lia]|]. intros X3 [O3 M3].
        apply wp_ret. repeat (split; [reflexivity || assumption|]). exact M3. }
      intros [[[[[TU2 U12] U22] TV2] V12] V22] (-> & -> & -> & O1 & O2 & O3 & M1 & M2 & M3). rewrite cmp_int_ok by (apply SU' || lia). cbn [bind]. rewrite cmp3_eq.
      destruct (Z.compare_spec (mval TU') 0) as [Q|Q|Q]; [clear - Q PU'; lia | clear - Q PU'; lia|].
      assert (Z.odd (mval TV2) = false) as OE by (rewrite M1, Z.odd_sub, OU', OV'; reflexivity).
      eapply wp_mono; [apply (IH (m + tb) TU' U1' U2' TV2 V12 V22); try assumption|].
      + clear - PU' PU. lia.
      + rewrite M1. clear - C PU' PV' PV. lia.
      + rewrite M1, Z.gcd_comm, gcd_sub, Z.gcd_comm. exact GG'.
      + rewrite M1, M2, M3, <- EU', <- EV'. ring.
      + clear - Hm T2. lia.
      + clear - BU' T2 Hm. lia.
      + rewrite M2. clear - BU' BV' T2. lia.
      + intros _. exact BU'.
      + rewrite OE. discriminate.
      + rewrite OE, andb_false_r, M1. pose proof (bitlen_mono (mval TV' - mval TU') (mval TV') ltac:(clear - C PU'; lia)) as Q1. clear - Q1 HF'. lia.
      + cbv beta. intros R (R1 & R2 & R3). split; [exact R1|]. split; [exact R2|]. clear - R3. lia.
    - eapply wp_bind with (P := fun s => let '(TU2, U12, U22, TV2, V12, V22) := s in TV2 = TV' /\ V12 = V1' /\ V22 = V2' /\ small n TU2 /\ small n U12 /\ small n U22 /\ mval TU2 = mval TU' - mval TV' /\ mval U12 = mval U1' - mval V1' /\ mval U22 = mval U2' - mval V2').
      { eapply wp_bind; [apply (sub_small n); [exact Hn | exact SU' | exact SV' | clear - C PU' PU PV' PV LN BT T2; lia]|]. intros X1 [O1 M1].
        eapply wp_bind; [apply (sub_small n); [exact Hn | exact S1' | exact SV1' | clear - BU' BV' BD1 T2; lia]|]. intros X2 [O2 M2].
        eapply wp_bind; [apply (sub_small n); [exact Hn | exact S2' | exact SV2' | clear - BU' BV' B2 B3 BD1 T2; lia]|]. intros X3 [O3 M3].
        apply wp_ret. repeat (split; [reflexivity || assumption|]). exact M3. }
      intros [[[[[TU2 U12] U22] TV2] V12] V22] (-> & -> & -> & O1 & O2 & O3 & M1 & M2 & M3). rewrite cmp_int_ok by (apply O1 || lia). cbn [bind]. rewrite cmp3_eq.
      destruct (Z.compare_spec (mval TU2) 0) as [Q|Q|Q]; [clear - Q M1 C; lia | clear - Q M1 C; lia|].
      assert (Z.odd (mval TU2) = false) as OE by (rewrite M1, Z.odd_sub, OU', OV'; reflexivity).
      eapply wp_mono; [apply (IH (m + tb) TU2 U12 U22 TV' V1' V2'); try assumption|].
      + rewrite M1. clear - C PV' PU' PU. lia.
      + clear - PV' PV. lia.
      + rewrite M1, gcd_sub. exact GG'.
      + rewrite M1, M2, M3, <- EU', <- EV'. ring.
      + clear - Hm T2. lia.
      + rewrite M2. clear - BU' BV' T2. lia.
      + clear - BV' T2 Hm. lia.
      + rewrite OE. discriminate.
      + intros _. exact BV'.
      + rewrite OE, M1. cbn [andb]. pose proof (bitlen_mono (mval TU' - mval TV') (mval TU') ltac:(clear - C PV'; lia)) as Q1. clear - Q1 HF'. lia.
      + cbv beta. intros R (R1 & R2 & R3). split; [exact R1|]. split; [exact R2|]. clear - R3. lia.
  Qed.
End Inv.
Lemma inv_up_ok n N : Z.of_nat n <= 9990 -> small n N -> 0 < mval N -> forall fuel V, small n V -> Z.max (Z.abs (mval V)) (mval N) + mval N < LB ^ Z.of_nat (n + 1) -> - mval V <= (Z.of_nat fuel - 1) * mval N ->
  (1 <= fuel)%nat -> wp (inv_up fuel V N) (fun R => small n R /\ (mval N | mval R - mval V) /\ (0 <= mval V -> R = V) /\ (mval V < 0 -> 0 <= mval R < mval N)).
Proof.
  intros Hn SN PN. induction fuel as [|fuel IH]; intros V SV BV HF H1; [lia|]. cbn [inv_up]. rewrite cmp_int_ok by (apply SV || lia). cbn [bind]. rewrite cmp3_lt.
  destruct (Z.compare_spec (mval V) 0) as [C|C|C].
  1, 3: (apply wp_ret; (split; [exact SV|]); (split; [exists 0; lia|]); split; [reflexivity | lia]).
  eapply wp_bind; [apply (add_small n); [exact Hn | exact SV | exact SN | lia]|]. intros W [SW MW].
  destruct fuel as [|fuel]; [|].
  { exfalso. change (Z.of_nat 1 - 1) with 0 in HF. lia. }
  eapply wp_mono; [apply (IH W); [exact SW | lia | | lia]|].
  - rewrite MW. replace (Z.of_nat (S (S fuel)) - 1) with (Z.succ (Z.of_nat (S fuel) - 1)) in HF by lia. rewrite Z.mul_succ_l in HF. lia.
  - cbv beta. intros R (SR & [q D] & R1 & R2). split; [exact SR|]. split; [exists (q + 1); lia|]. split; [lia|]. intros _.
    destruct (Z_lt_ge_dec (mval W) 0) as [L|L]; [apply R2; exact L|]. rewrite R1 by lia. lia.
Qed.
Lemma inv_down_ok n N : Z.of_nat n <= 9990 -> small n N -> 0 < mval N -> forall fuel V, small n V -> 0 <= mval V -> mval V < LB ^ Z.of_nat (n + 1) -> mval V < Z.of_nat fuel * mval N ->
  wp (inv_down fuel V N) (fun R => small n R /\ (mval N | mval R - mval V) /\ 0 <= mval R < mval N).
Proof.
  intros Hn SN PN. induction fuel as [|fuel IH]; intros V SV PV BV HF; [lia|]. cbn [inv_down]. rewrite cmp_ok by (apply SV || apply SN). cbn [bind]. rewrite cmp3_ge.
  destruct (Z.compare_spec (mval V) (mval N)) as [C|C|C].
  2: { apply wp_ret. split; [exact SV|]. split; [exists 0; lia | lia]. }
  all: (eapply wp_bind; [apply (sub_small n); [exact Hn | exact SV | exact SN | lia]|]); intros W [SW MW];
    (eapply wp_mono; [apply (IH W); [exact SW | lia | lia | rewrite Nat2Z.inj_succ, Z.mul_succ_l in HF; lia]|]);
    cbv beta; intros R (SR & [q D] & R2); (split; [exact SR|]); (split; [exists (q - 1); lia | exact R2]).
Qed.
Lemma copy_small n Y : small n Y -> Z.of_nat n <= 9990 -> wp (l_copy false l_init Y) (fun R => small n R /\ mval R = mval Y).
Proof.
  intros (OY & NY & LY) Hn. eapply wp_mono; [apply copy_ok2; [exact init_ok | exact OY | discriminate | unfold zlen; lia]|]. cbv beta. intros R (OR & _ & MR & L1 & L2).
  split; [|exact MR]. pose proof (sig_le (mp Y)). cbn [l_init mp length] in L1. split; [exact OR|]. split; [apply L2; exact NY | pose proof (len_pos _ NY); lia].
Qed.
Lemma lset_small n z : - 2 ^ 63 < z < 2 ^ 63 -> wp (l_lset l_init z) (fun R => small n R /\ mval R = z).
Proof.
  intros Hz. eapply wp_mono; [apply lset_ok; [exact init_ok | exact Hz]|]. cbv beta. intros R (OR & MR & PR & _). split; [|exact MR]. split; [exact OR|]. rewrite PR. cbn. split; [discriminate | lia].
Qed.
Lemma inv_mod_ok X A N : mpi_ok X -> mpi_ok A -> mpi_ok N -> 1 < mval N -> Z.gcd (mval A) (mval N) = 1 -> mlen A <= 9990 -> mlen N <= 9990 ->
  wp (l_inv_mod X A N) (fun R => mpi_ok R /\ 0 <= mval R < mval N /\ (mval N | mval R * mval A - 1) /\ mlen R <= Z.max (mlen X) (mlen N + 1)).
Proof.
  intros HX HA HN PN GA LA LN. unfold l_inv_mod. rewrite cmp_int_ok by (assumption || lia). cbn [bind].
  replace (cmp3 1 (-1) (mval N ?= 1) <=? 0) with false by (destruct (Z.compare_spec (mval N) 1); try reflexivity; lia).
  eapply wp_bind; [apply gcd_ok; [exact init_ok | exact HA | exact HN | lia | lia]|]. intros G (OG & MG & _). unfold gcd_spec in MG. rewrite GA in MG. destruct (Z.eqb_spec (mval N) 0) as [NZ|NZ]; [lia|].
  rewrite cmp_int_ok by (assumption || lia). cbn [bind]. rewrite cmp3_eq, MG. cbn [Z.compare Pos.compare Pos.compare_cont negb].
  assert (mval A <> 0) as NA by (intros E; rewrite E, Z.gcd_0_l, Z.abs_eq in GA by lia; lia).
  unfold mlen, zlen in LA, LN. pose proof (Z.mod_pos_bound (mval A) (mval N) ltac:(lia)) as MB.
  set (n := length (mp N)) in *. assert (1 <= n)%nat as N1 by (apply len_pos, nonnil_val; lia).
  assert (small n N) as SN by (split; [exact HN|]; split; [apply nonnil_val; lia | unfold n; lia]).
  assert (mval N < LB ^ Z.of_nat n) as BN by (rewrite <- (lval_mval N) by (assumption || lia); apply lval_lt; [apply HN | reflexivity]).
  eapply wp_bind; [apply (mod_ok false); try exact init_ok; try assumption; try discriminate; try lia; unfold mlen, zlen; cbn [l_init mp length]; fold n; lia|].
  intros TA (OTA & MTA & LTA & NTA). destruct (NTA (nonnil_val _ NA)) as [_ NTA']. clear NTA. cbn [l_init mp length] in LTA. fold n in LTA.
  assert (small n TA) as STA by (split; [exact OTA|]; split; [exact NTA' | lia]).
  eapply wp_bind; [apply (copy_small n); [exact STA | lia]|]. intros TU [STU MTU]. rewrite MTA in MTU.
  eapply wp_bind; [apply (copy_small n); [exact SN | lia]|]. intros TB [STB MTB].
  eapply wp_bind; [apply (copy_small n); [exact SN | lia]|]. intros TV [STV MTV].
  eapply wp_bind; [apply (lset_small n 1); lia|]. intros U1 [SU1 MU1].
  eapply wp_bind; [apply (lset_small n 0); lia|]. intros U2 [SU2 MU2].
  eapply wp_bind; [apply (lset_small n 0); lia|]. intros V1 [SV1 MV1].
  eapply wp_bind; [apply (lset_small n 1); lia|]. intros V2 [SV2 MV2]. cbv zeta.
  assert (Z.gcd (mval A mod mval N) (mval N) = 1) as GM by (rewrite Z.gcd_mod, Z.gcd_comm by lia; exact GA).
  assert (0 < mval A mod mval N) as PM by (assert (mval A mod mval N <> 0); [|lia]; intros E; rewrite E, Z.gcd_0_l, Z.abs_eq in GM by lia; lia).
  assert (mpi_bitlen (mval N) <= 64 * Z.of_nat n) as BB by (apply bitlen_le; [lia | lia | rewrite <- LB_two; exact BN]).
  pose proof (bitlen_mono (mval A mod mval N) (mval N) ltac:(lia)) as BB2.
  assert (LB ^ Z.of_nat (n + 1) = LB * LB ^ Z.of_nat n) as PS by (replace (n + 1)%nat with (S n) by lia; apply LB_powS).
  assert (Z.of_nat (64 * n) = 64 * Z.of_nat n) as EB by lia. set (bits := (64 * n)%nat) in *. clearbody bits.
  assert ((Z.of_nat bits * 2 + 8) * mval N < LB ^ Z.of_nat (n + 1)) as SP.
  { rewrite PS. apply Z.mul_lt_mono_nonneg; [lia | unfold LB; lia | lia | exact BN]. }
  assert (forall c, 0 <= c <= Z.of_nat bits * 2 + 8 -> c * mval N < LB ^ Z.of_nat (n + 1)) as SPc.
  { intros c Hc. eapply Z.le_lt_trans; [|exact SP]. apply Z.mul_le_mono_nonneg_r; lia. }
  eapply wp_bind.
  { apply (inv_loop_ok n TA TB ltac:(lia) STA STB) with (m := mval N); try assumption; rewrite ?MTA, ?MTB, ?MTU, ?MTV, ?MU1, ?MU2, ?MV1, ?MV2; try assumption; try (clear - PM MB PN BB EB; lia).
    - specialize (SPc (Z.of_nat bits * 2 + 6) ltac:(clear; lia)). replace (Z.of_nat (2 * bits + 1) + 4) with (Z.of_nat bits * 2 + 5) by lia.
      replace (mval N + (Z.of_nat bits * 2 + 5) * mval N) with ((Z.of_nat bits * 2 + 6) * mval N) by ring. clear - SPc. lia.
    - destruct (Z.odd (mval A mod mval N) && Z.odd (mval N)); clear - BB BB2 EB; lia. }
  cbv beta. intros W (SW & [q DW] & BW). rewrite MTA, MTB in *.
  assert (2 * Z.abs (mval W) <= (Z.of_nat bits + 1) * mval N * 2) as BW' by (clear - BW; lia). clear BW.
  eapply wp_bind.
  { apply (inv_up_ok n N ltac:(lia) SN ltac:(lia) _ W SW).
    - assert (Z.max (Z.abs (mval W)) (mval N) + mval N <= (Z.of_nat bits + 2) * mval N) as Q by (clear - BW' PN; nia). eapply Z.le_lt_trans; [exact Q|]. apply SPc. clear; lia.
    - clear - BW' PN. nia.
    - clear; lia. }
  cbv beta. intros W2 (SW2 & [q2 D2] & R1 & R2).
  assert (0 <= mval W2 <= (Z.of_nat bits + 1) * mval N) as BW2.
  { destruct (Z_lt_ge_dec (mval W) 0) as [L|L]; [specialize (R2 L); clear - R2 PN; nia|]. rewrite R1 by lia. clear - L BW'. lia. }
  eapply wp_bind.
  { apply (inv_down_ok n N ltac:(lia) SN ltac:(lia) _ W2 SW2).
    - apply BW2.
    - eapply Z.le_lt_trans; [apply BW2|]. apply SPc. clear; lia.
    - clear - BW2 PN. nia. }
  cbv beta. intros W3 (SW3 & [q3 D3] & R3).
  eapply wp_mono; [apply copy_ok2; [exact HX | apply SW3 | discriminate | destruct SW3 as (_ & _ & ?); unfold zlen; clear - H LN; lia]|].
  cbv beta. intros R (OR & _ & MR & L1 & _). split; [exact OR|]. rewrite MR. split; [exact R3|]. split.
  - pose proof (Z.div_mod (mval A) (mval N) ltac:(lia)) as DA. set (am := mval A mod mval N) in *. set (aq := mval A / mval N) in *.
    exists (q + (q2 + q3) * am + mval W3 * aq). rewrite DA.
    replace (mval W3) with (mval W + (q2 + q3) * mval N) by (clear - D2 D3; lia).
    transitivity ((mval W * am - 1) + (q2 + q3) * mval N * am + (mval W + (q2 + q3) * mval N) * aq * mval N); [ring|]. rewrite DW. ring.
  - destruct SW3 as (_ & _ & L3). pose proof (sig_le (mp W3)). unfold mlen, zlen. fold n. clear - L1 L3 H. lia.
Qed.
Lemma inv_mod_bad X A N : mpi_ok N -> mval N <= 1 -> l_inv_mod X A N = err ERR_MPI_BAD_INPUT_DATA.
Proof.
  intros HN PN. unfold l_inv_mod. rewrite cmp_int_ok by (assumption || lia). cbn [bind].
  replace (cmp3 1 (-1) (mval N ?= 1) <=? 0) with true by (destruct (Z.compare_spec (mval N) 1); try reflexivity; lia). reflexivity.
Qed.
Lemma inv_mod_none X A N : mpi_ok A -> mpi_ok N -> 1 < mval N -> Z.gcd (mval A) (mval N) <> 1 -> mlen A <= 9990 -> mlen N <= 9990 ->
  l_inv_mod X A N = err ERR_MPI_NOT_ACCEPTABLE.
Proof.
  intros HA HN PN GA LA LN. unfold l_inv_mod. rewrite cmp_int_ok by (assumption || lia). cbn [bind].
  replace (cmp3 1 (-1) (mval N ?= 1) <=? 0) with false by (destruct (Z.compare_spec (mval N) 1); try reflexivity; lia).
  destruct (gcd_ok l_init A N init_ok HA HN ltac:(lia) ltac:(lia)) as (G & E & OG & MG & _). rewrite E. unfold gcd_spec in MG. destruct (Z.eqb_spec (mval N) 0) as [NZ|NZ]; [lia|].
  cbn [bindr bind ret]. rewrite cmp_int_ok by (assumption || lia). cbn [bind]. rewrite cmp3_eq, MG. destruct (Z.compare_spec (Z.gcd (mval A) (mval N)) 1); [congruence | reflexivity | reflexivity].
Qed.
