From Coq Require Import Lia Znumtheory.
From Coq Require Zpow_facts.
From Verif Require Import Base BaseFacts MpiModel MpiProofs LimbModel LimbModel2 LimbSpec LimbProofs LimbProofs2 LimbProofs3 LimbProofs4 LimbProofs5 LimbProofs6 LimbProofs7 LimbProofs8 LimbProofs9.

(** * Modular exponentiation *)
Lemma nth_upd' {A} (l : list A) i x j d : (i < length l)%nat -> nth j (firstn i l ++ x :: skipn (S i) l) d = if (j =? i)%nat then x else nth j l d.
Proof.
  revert i j. induction l as [|y l IH]; intros i j H; [cbn in H; lia|]. cbn [length] in H. destruct i; destruct j; cbn; try reflexivity. apply IH. lia.
Qed.
Lemma upd_length {A} (l : list A) i x : (i < length l)%nat -> length (firstn i l ++ x :: skipn (S i) l) = length l.
Proof. intros H. rewrite app_length, firstn_length. cbn [length]. rewrite skipn_length. lia. Qed.

Section Exp.
  Variables (N : mpi) (mm : Z).
  Hypothesis HM : mont N mm.
  Let n := length (mp N).
  Let Nv := lval (mp N).
  Let R := RN N.
  Let tn := (2 * (n + 1))%nat.
  Lemma RN_prime : rel_prime Nv R.
  Proof.
    destruct HM as (HN & NN & _ & [q D]). unfold R, RN. apply Zpow_facts.rel_prime_Zpower_r; [lia|].
    apply bezout_rel_prime. unfold Nv. destruct (mp N) as [|x l]; [congruence|]. cbn [nth lval] in *.
    apply Bezout_intro with (- mm) (q + lval l * mm). transitivity (- (x * mm + 1) + 1 + q * LB); [|rewrite D; ring]. ring.
  Qed.
  Lemma RN_cancel x y : (Nv | x * R - y * R) -> (Nv | x - y).
  Proof. intros H. apply (Gauss Nv R); [|exact RN_prime]. replace (R * (x - y)) with (x * R - y * R) by ring. exact H. Qed.
  (** The Montgomery form of the residue [v] *)
  Definition rep (X : mpi) (v : Z) : Prop := mpi_ok X /\ (n < length (mp X))%nat /\ 0 <= lval (mp X) < Nv /\ (Nv | lval (mp X) - v * R).
  Lemma Nv_pos : 0 < Nv < R. Proof. exact (mont_pos N mm HM). Qed.
  Lemma nonnil_rep X v : rep X v -> mp X <> [].
  Proof. intros (_ & L & _). destruct (mp X); [cbn in L; lia | discriminate]. Qed.
  Definition keeps (X Y : mpi) : Prop := ms Y = ms X /\ length (mp Y) = length (mp X).
  Lemma keeps_refl X : keeps X X. Proof. now split. Qed.
  Lemma keeps_trans X Y Z : keeps X Y -> keeps Y Z -> keeps X Z. Proof. intros [] []. split; congruence. Qed.
  Lemma mul_rep X Y v w : rep X v -> rep Y w -> wp (montmul X Y N mm tn) (fun Z => rep Z (v * w) /\ keeps X Z).
  Proof.
    intros HX HY. pose proof (nonnil_rep Y w HY) as NY. destruct HX as (OX & LX & BX & [qx DX]). destruct HY as (OY & LY & BY & [qy DY]). pose proof Nv_pos as P.
    eapply wp_mono; [apply (montmul_ok X Y N mm HM OX OY NY); fold Nv R; try lia; exact LX|].
    cbv beta. intros Z (OZ & SZ & LZ & BZ & [qz DZ]). fold Nv R in BZ, DZ. split; [|now split].
    split; [exact OZ|]. split; [rewrite LZ; exact LX|]. split; [exact BZ|]. apply RN_cancel.
    exists (qz + qx * lval (mp Y) + v * R * qy).
    transitivity ((lval (mp Z) * R - lval (mp X) * lval (mp Y)) + ((lval (mp X) - v * R) * lval (mp Y)) + v * R * (lval (mp Y) - w * R)); [ring|].
    rewrite DZ, DX, DY. ring.
  Qed.
  Lemma square_n_rep k : forall X a, rep X a -> wp (square_n k X N mm tn) (fun Z => rep Z (a ^ (2 ^ Z.of_nat k)) /\ keeps X Z).
  Proof.
    induction k as [|k IH]; intros X a HX; cbn [square_n].
    - apply wp_ret. change (2 ^ Z.of_nat 0) with 1. rewrite Z.pow_1_r. split; [exact HX | apply keeps_refl].
    - eapply wp_bind; [apply mul_rep; exact HX|]. intros Y [HY KY]. eapply wp_mono; [apply IH; exact HY|]. cbv beta. intros Z [HZ KZ].
      split; [|eapply keeps_trans; eassumption]. rewrite Nat2Z.inj_succ, Z.pow_succ_r, Z.pow_mul_r by lia. rewrite Z.pow_2_r. exact HZ.
  Qed.

  Variable a : Z.
  (** The table of powers, filled up to [hi] *)
  Definition table (ws hi : nat) (W : list mpi) : Prop :=
    length W = 128%nat /\ rep (nth 1 W l_init) a /\ (forall i, (2 ^ (ws - 1) <= i < hi)%nat -> rep (nth i W l_init) (a ^ Z.of_nat i)) /\ (forall i, (hi <= i)%nat -> nth i W l_init = l_init).
  Lemma table_init W1 : rep W1 a -> exists W, lupd (repeat l_init 128) 1 W1 = Ok W /\ length W = 128%nat /\ nth 1 W l_init = W1 /\ forall i, (2 <= i)%nat -> nth i W l_init = l_init.
  Proof.
    intros H. eexists. split; [reflexivity|]. split; [reflexivity|]. split; [reflexivity|]. intros i Hi. do 2 (destruct i as [|i]; [lia|]).
    destruct (Nat.lt_ge_cases i 126) as [L|L]; [|apply nth_overflow; cbn; lia].
    change (nth i (repeat l_init 126) l_init = l_init). apply nth_repeat.
  Qed.
  Hypothesis SZ : Z.of_nat n <= 4990.
  Lemma copy_rep Wi Y v : mpi_ok Wi -> (n < length (mp Wi))%nat -> zlen (mp Y) <= 10000 -> rep Y v -> wp (l_copy false Wi Y) (fun Z => rep Z v /\ mlen Z <= Z.max (mlen Wi) (Z.max 1 (zlen (mp Y)))).
  Proof.
    intros HW LW HL HY. pose proof (nonnil_rep Y v HY) as NY. destruct HY as (OY & LY & BY & DY).
    eapply wp_mono; [apply copy_new; [exact HW | exact OY | exact NY | exact HL]|]. cbv beta. intros Z (OZ & VZ & _ & LZ). unfold rep. rewrite VZ.
    pose proof (sig_le (mp Y)). split; [|unfold mlen, zlen; lia]. split; [exact OZ|]. split; [lia|]. split; assumption.
  Qed.
  Lemma fill_ok ws : (1 < ws)%nat -> forall k i W, (2 ^ (ws - 1) < i)%nat -> (i + k <= 128)%nat -> table ws i W -> (forall j, zlen (mp (nth j W l_init)) <= 10000) ->
    wp (fill_window k i W N mm tn) (fun W' => table ws (i + k) W' /\ (forall j, zlen (mp (nth j W' l_init)) <= 10000) /\ nth 1 W' l_init = nth 1 W l_init).
  Proof.
    intros Hws. assert (2 <= 2 ^ (ws - 1))%nat as P2. { change 2%nat with (2 ^ 1)%nat at 1. apply Nat.pow_le_mono_r; lia. }
    induction k as [|k IH]; intros i W Hi Hk HT HL; cbn [fill_window].
    - apply wp_ret. rewrite Nat.add_0_r. now split.
    - destruct HT as (LW & H1 & HP & HI).
      rewrite (lnth_ok W i l_init) by lia. cbn [bind]. rewrite (HI i) by lia.
      eapply wp_bind; [apply grow_ok; [exact init_ok | fold n; lia]|]. intros Wi (OW & _ & _ & LWi & _). cbn [l_init mp length] in LWi. rewrite Nat.max_0_l in LWi. fold n in LWi.
      rewrite (lnth_ok W (i - 1) l_init) by lia. cbn [bind].
      eapply wp_bind; [apply (copy_rep Wi _ (a ^ Z.of_nat (i - 1))); [exact OW | lia | apply HL | apply HP; lia]|]. intros Wj [RWj LWj].
      rewrite (lnth_ok W 1 l_init) by lia. cbn [bind].
      eapply wp_bind; [apply mul_rep; [exact RWj | exact H1]|]. intros Wk [RWk [_ LWk]].
      rewrite lupd_ok by lia. cbn [bind]. rewrite <- Nat.add_succ_comm. 
      assert (nth 1 (firstn i W ++ Wk :: skipn (S i) W) l_init = nth 1 W l_init) as E1 by (rewrite nth_upd' by lia; destruct (Nat.eqb_spec 1 i); [lia | reflexivity]).
      rewrite <- E1. apply IH; [lia | lia | |].
      + split; [now rewrite upd_length by lia|]. split; [rewrite E1; exact H1|]. split.
        * intros q Hq. rewrite nth_upd' by lia. destruct (Nat.eqb_spec q i) as [->|NE]; [|apply HP; lia].
          replace (a ^ Z.of_nat i) with (a ^ Z.of_nat (i - 1) * a); [exact RWk|].
          replace (Z.of_nat i) with (Z.succ (Z.of_nat (i - 1))) by lia. rewrite Z.pow_succ_r by lia. ring.
        * intros q Hq. rewrite nth_upd' by lia. destruct (Nat.eqb_spec q i); [lia|]. apply HI. lia.
      + intros q. rewrite nth_upd' by lia. destruct (Nat.eqb_spec q i) as [->|NE]; [|apply HL].
        unfold mlen in LWj. pose proof (HL (i - 1)%nat). unfold zlen in *. lia.
  Qed.
  Lemma table_ok ws W : (1 <= ws <= 6)%nat -> length W = 128%nat -> rep (nth 1 W l_init) a -> (forall i, (2 <= i)%nat -> nth i W l_init = l_init) ->
    zlen (mp (nth 1 W l_init)) <= 10000 -> mp (nth 0 W l_init) = [] ->
    wp (window_table ws W N mm tn) (fun W' => table ws (2 ^ ws) W' /\ nth 1 W' l_init = nth 1 W l_init).
  Proof.
    intros Hws LW H1 HI L1 L0. unfold window_table. destruct (Nat.ltb_spec 1 ws) as [L|L].
    - assert (2 <= 2 ^ (ws - 1))%nat as P2. { change 2%nat with (2 ^ 1)%nat at 1. apply Nat.pow_le_mono_r; lia. }
      assert (2 ^ ws = 2 ^ (ws - 1) + 2 ^ (ws - 1))%nat as P3. { replace ws with (S (ws - 1)) at 1 by lia. cbn [Nat.pow]. lia. }
      assert (2 ^ ws <= 64)%nat as P4. { change 64%nat with (2 ^ 6)%nat. apply Nat.pow_le_mono_r; lia. }
      cbv zeta. rewrite (lnth_ok W _ l_init) by lia. cbn [bind]. rewrite HI by lia.
      eapply wp_bind; [apply grow_ok; [exact init_ok | fold n; lia]|]. intros Wi (OW & _ & _ & LWi & _). cbn [l_init mp length] in LWi. rewrite Nat.max_0_l in LWi. fold n in LWi.
      rewrite (lnth_ok W 1 l_init) by lia. cbn [bind].
      eapply wp_bind; [apply (copy_rep Wi _ a); [exact OW | lia | exact L1 | exact H1]|]. intros Wj [RWj LWj].
      eapply wp_bind; [apply square_n_rep; exact RWj|]. intros Wk [RWk [_ LWk]].
      rewrite lupd_ok by lia. cbn [bind].
      set (j := (2 ^ (ws - 1))%nat) in *. assert (Z.of_nat j = 2 ^ Z.of_nat (ws - 1)) as EJ by (unfold j; now rewrite Nat2Z.inj_pow).
      assert (j + 1 + (2 ^ ws - (j + 1)) = 2 ^ ws)%nat as ES by lia.
      assert (nth 1 (firstn j W ++ Wk :: skipn (S j) W) l_init = nth 1 W l_init) as E1 by (rewrite nth_upd' by lia; destruct (Nat.eqb_spec 1 j); [lia | reflexivity]).
      eapply wp_mono; [apply (fill_ok ws L); fold j; try lia|].
      + split; [now rewrite upd_length by lia|]. split; [rewrite E1; exact H1|]. split.
        * fold j. intros q Hq. rewrite nth_upd' by lia. destruct (Nat.eqb_spec q j) as [->|NE]; [|lia]. rewrite EJ. exact RWk.
        * intros q Hq. rewrite nth_upd' by lia. destruct (Nat.eqb_spec q j); [lia|]. apply HI. lia.
      + intros q. rewrite nth_upd' by lia. destruct (Nat.eqb_spec q j) as [->|NE].
        * unfold mlen, zlen in *. lia.
        * destruct q as [|[|q]]; [rewrite L0; discriminate | exact L1 | rewrite HI by lia; discriminate].
      + cbv beta. rewrite ES, E1. tauto.
    - assert (ws = 1)%nat as -> by lia. apply wp_ret. split; [|reflexivity]. split; [exact LW|]. split; [exact H1|]. split; [|exact HI].
      cbn. intros i Hi. assert (i = 1)%nat as -> by lia. change (Z.of_nat 1) with 1. now rewrite Z.pow_1_r.
  Qed.
  (** The state of the loop over the bits, after the prefix [p] of the exponent *)
  Definition estate (ws : nat) (X0 : mpi) (p : Z) (s : exp_state) : Prop :=
    0 <= p /\ keeps X0 (ex s) /\ (enb s < ws)%nat /\
    ((enb s = O /\ ewb s = 0 /\ rep (ex s) (a ^ p) /\ (est s = 1 \/ (est s = 0 /\ p = 0))) \/
     (est s = 2 /\ exists p0 w, 0 <= p0 /\ p = p0 * 2 ^ Z.of_nat (enb s) + w /\ 2 ^ (Z.of_nat (enb s) - 1) <= w < 2 ^ Z.of_nat (enb s) /\ (1 <= enb s)%nat /\
        ewb s = w * 2 ^ (Z.of_nat ws - Z.of_nat (enb s)) /\ rep (ex s) (a ^ p0))).
  Lemma exp_bit_ok ws W X0 p s b : (1 <= ws <= 6)%nat -> table ws (2 ^ ws) W -> (b = 0 \/ b = 1) -> estate ws X0 p s ->
    wp (exp_bit ws W N mm tn b s) (fun s' => estate ws X0 (2 * p + b) s').
  Proof.
    intros Hws HT Hb (P0 & KX & NB & HS). assert (0 <= 2 * p + b) as PB0 by (clear - P0 Hb; lia).
    assert (forall p0 w, 0 <= p0 -> p = p0 * 2 ^ Z.of_nat (enb s) + w -> 0 <= w < 2 ^ Z.of_nat (enb s) -> 2 ^ Z.of_nat (enb s) <= 2 * w + b ->
      ewb s = w * 2 ^ (Z.of_nat ws - Z.of_nat (enb s)) -> rep (ex s) (a ^ p0) ->
      wp (let nbits := S (enb s) in
          let wbits := Z.lor (ewb s) (Z.shiftl b (Z.of_nat ws - Z.of_nat nbits)) in
          if (nbits =? ws)%nat then
            X <-? square_n ws (ex s) N mm tn ;;
            Wk <- lnth W (Z.to_nat wbits) ;;
            X <-? montmul X Wk N mm tn ;;
            ret (MkExp X 0 0 1)
          else ret (MkExp (ex s) nbits wbits 2)) (fun s' => estate ws X0 (2 * p + b) s')) as MAIN.
    { intros p0 w H0 HP HW HB HE HR. cbv zeta. set (nb := enb s) in *. clearbody nb.
      set (t := Z.of_nat ws - Z.of_nat (S nb)). assert (0 <= t) as T0 by lia. assert (Z.of_nat ws - Z.of_nat nb = t + 1) as E1 by lia.
      assert (Z.lor (ewb s) (Z.shiftl b t) = (2 * w + b) * 2 ^ t) as EW.
      { rewrite HE, E1, Z.shiftl_mul_pow2 by lia. assert (0 < 2 ^ t) as PT by (apply Z.pow_pos_nonneg; lia).
        rewrite lor_add; [rewrite Z.pow_add_r, Z.pow_1_r by lia; ring | lia | rewrite Z.pow_add_r, Z.pow_1_r by lia; destruct Hb as [-> | ->]; lia]. }
      rewrite EW. assert (2 ^ Z.of_nat (S nb) = 2 * 2 ^ Z.of_nat nb) as ES by (rewrite Nat2Z.inj_succ, Z.pow_succ_r by lia; reflexivity).
      assert (2 * w + b < 2 * 2 ^ Z.of_nat nb) as HB2 by lia. set (w' := 2 * w + b) in *.
      assert (2 * p + b = p0 * 2 ^ Z.of_nat (S nb) + w') as EP by (unfold w'; rewrite ES, HP; ring).
      assert (0 < 2 ^ Z.of_nat nb) as PN by (apply Z.pow_pos_nonneg; lia).
      destruct (Nat.eqb_spec (S nb) ws) as [EN|EN].
      - assert (t = 0) as -> by lia. rewrite Z.mul_1_r. destruct HT as (LW & _ & HP2 & _).
        eapply wp_bind; [apply square_n_rep; exact HR|]. intros X1 [R1 K1].
        assert (2 ^ (ws - 1) <= Z.to_nat w' < 2 ^ ws)%nat as BW.
        { assert (Z.of_nat (2 ^ ws) = 2 * 2 ^ Z.of_nat nb) as Q1 by (rewrite Nat2Z.inj_pow, <- EN; exact ES).
          assert (Z.of_nat (2 ^ (ws - 1)) = 2 ^ Z.of_nat nb) as Q2 by (rewrite Nat2Z.inj_pow, <- EN; do 2 f_equal; lia). clearbody w'. clear - Q1 Q2 HB HB2 PN. lia. }
        assert (2 ^ ws <= 64)%nat as P4. { change 64%nat with (2 ^ 6)%nat. apply Nat.pow_le_mono_r; lia. }
        rewrite (lnth_ok W _ l_init) by (clear - BW P4 LW; lia). cbn [bind].
        eapply wp_bind; [apply mul_rep; [exact R1 | apply HP2; exact BW]|]. intros X2 [R2 K2]. apply wp_ret. unfold estate. cbn [ex enb ewb est].
        assert (0 <= p0 * 2 ^ Z.of_nat (S nb)) as PP by (apply Z.mul_nonneg_nonneg; lia).
        split; [exact PB0|]. split; [eapply keeps_trans; [exact KX|]; eapply keeps_trans; eassumption|]. split; [clear - Hws; lia|]. left. split; [reflexivity|]. split; [reflexivity|]. split; [|now left].
        rewrite EN in PP. assert (0 <= w') as PW by (clear - HB PN; lia). assert (0 <= 2 ^ Z.of_nat ws) as PWS by (apply Z.pow_nonneg; clear; lia).
        rewrite EP, EN, Z.pow_add_r, Z.pow_mul_r by assumption. rewrite Z2Nat.id in R2 by exact PW. exact R2.
      - apply wp_ret. unfold estate. cbn [ex enb ewb est]. split; [exact PB0|]. split; [exact KX|]. split; [clear - NB EN; lia|]. right. split; [reflexivity|]. exists p0, w'. 
        split; [exact H0|]. split; [exact EP|]. split; [split; [|rewrite ES; exact HB2]|]. { replace (Z.of_nat (S nb) - 1) with (Z.of_nat nb) by lia. exact HB. }
        split; [lia|]. split; [reflexivity | exact HR]. }
    unfold exp_bit. destruct HS as [(NB0 & WB0 & RX & HS) | (S2 & p0 & w & H0 & HP & HW & HN1 & HE & HR)].
    - destruct Hb as [-> | ->].
      + destruct HS as [S1 | [S0 Ep]]; rewrite ?S1, ?S0; cbn [Z.eqb Pos.eqb andb].
        * eapply wp_bind; [apply mul_rep; exact RX|]. intros X1 [R1 K1]. apply wp_ret. unfold estate. cbn [ex enb ewb est]. split; [lia|].
          split; [eapply keeps_trans; eassumption|]. split; [exact NB|]. left. rewrite Z.add_0_r. split; [exact NB0|]. split; [exact WB0|]. split; [|now left].
          replace (a ^ (2 * p)) with (a ^ p * a ^ p) by (rewrite <- Z.pow_add_r by lia; f_equal; lia). exact R1.
        * apply wp_ret. rewrite Ep, Z.mul_0_r, Z.add_0_r in *. unfold estate. split; [lia|]. split; [exact KX|]. split; [exact NB|]. left. tauto.
      + cbn [Z.eqb andb]. apply (MAIN p 0); try exact RX; rewrite ?NB0; cbn [Z.of_nat]; change (2 ^ 0) with 1; clear - P0 WB0; lia.
    - rewrite S2. replace ((b =? 0) && (2 =? 0)) with false by (destruct Hb as [-> | ->]; reflexivity). replace ((b =? 0) && (2 =? 1)) with false by (destruct Hb as [-> | ->]; reflexivity).
      assert (2 ^ Z.of_nat (enb s) = 2 * 2 ^ (Z.of_nat (enb s) - 1)) as E by (rewrite <- Z.pow_succ_r by lia; f_equal; lia).
      assert (0 < 2 ^ (Z.of_nat (enb s) - 1)) as PN by (apply Z.pow_pos_nonneg; lia).
      apply (MAIN p0 w); try assumption; [lia | destruct Hb; lia].
  Qed.
  Lemma exp_bits_ok ws W X0 e : (1 <= ws <= 6)%nat -> table ws (2 ^ ws) W -> 0 <= e -> forall k p s, estate ws X0 p s ->
    wp (exp_bits k e ws W N mm tn s) (fun s' => estate ws X0 (p * 2 ^ Z.of_nat k + e mod 2 ^ Z.of_nat k) s').
  Proof.
    intros Hws HT He. induction k as [|k IH]; intros p s HS; cbn [exp_bits].
    - apply wp_ret. change (2 ^ Z.of_nat 0) with 1. rewrite Z.mod_1_r. replace (p * 1 + 0) with p by lia. exact HS.
    - assert (Z.land (Z.shiftr e (Z.of_nat k)) 1 = (e / 2 ^ Z.of_nat k) mod 2) as -> by (change 1 with (Z.ones 1); rewrite Z.land_ones, Z.shiftr_div_pow2 by lia; reflexivity).
      pose proof (Z.mod_pos_bound (e / 2 ^ Z.of_nat k) 2 ltac:(lia)) as MB.
      eapply wp_bind; [apply (exp_bit_ok ws W X0 p); [exact Hws | exact HT | lia | exact HS]|]. intros s1 HS1.
      eapply wp_mono; [apply IH; exact HS1|]. cbv beta. intros s2 HS2.
      replace (p * 2 ^ Z.of_nat (S k) + e mod 2 ^ Z.of_nat (S k)) with ((2 * p + (e / 2 ^ Z.of_nat k) mod 2) * 2 ^ Z.of_nat k + e mod 2 ^ Z.of_nat k); [exact HS2|].
      rewrite Nat2Z.inj_succ, Z.pow_succ_r by lia. assert (0 < 2 ^ Z.of_nat k) by (apply Z.pow_pos_nonneg; lia). rewrite (Z.mul_comm 2 (2 ^ _)), Z.rem_mul_r by lia. ring.
  Qed.
  Lemma exp_limbs_ok ws W X0 E : (1 <= ws <= 6)%nat -> table ws (2 ^ ws) W -> Forall is_limb E -> forall k p s, (k <= length E)%nat -> estate ws X0 p s ->
    wp (exp_limbs k E ws W N mm tn s) (fun s' => estate ws X0 (p * LB ^ Z.of_nat k + lval (firstn k E)) s').
  Proof.
    intros Hws HT HE. induction k as [|k IH]; intros p s Hk HS; cbn [exp_limbs].
    - apply wp_ret. change (LB ^ Z.of_nat 0) with 1. cbn [firstn lval]. replace (p * 1 + 0) with p by lia. exact HS.
    - rewrite (lnth_ok E k 0) by lia. cbn [bind]. pose proof (nth_limb E k HE) as HL. unfold is_limb in HL.
      eapply wp_bind; [apply (exp_bits_ok ws W X0 (nth k E 0) Hws HT ltac:(lia) 64 p s HS)|]. intros s1 HS1. change (2 ^ Z.of_nat 64) with LB in HS1. rewrite Z.mod_small in HS1 by exact HL.
      eapply wp_mono; [apply IH; [lia | exact HS1]|]. cbv beta. intros s2 HS2.
      rewrite (firstn_S_nth E k 0), lval_app, firstn_length, Nat.min_l, LB_powS by lia. cbn [lval].
      replace (p * (LB * LB ^ Z.of_nat k) + (lval (firstn k E) + LB ^ Z.of_nat k * (nth k E 0 + LB * 0))) with ((p * LB + nth k E 0) * LB ^ Z.of_nat k + lval (firstn k E)) by ring. exact HS2.
  Qed.
  Lemma exp_rest_ok ws W1 w : (1 <= ws <= 6)%nat -> rep W1 a -> 0 <= w -> forall r X v, (r < ws)%nat -> 0 <= v -> rep X (a ^ v) ->
    wp (exp_rest r (w * 2 ^ (Z.of_nat ws - Z.of_nat r)) ws X W1 N mm tn) (fun X' => rep X' (a ^ (v * 2 ^ Z.of_nat r + w mod 2 ^ Z.of_nat r)) /\ keeps X X').
  Proof.
    intros Hws HW Hw. induction r as [|r IH]; intros X v Hr Hv HX; cbn [exp_rest].
    - apply wp_ret. change (2 ^ Z.of_nat 0) with 1. rewrite Z.mod_1_r. replace (v * 1 + 0) with v by lia. split; [exact HX | apply keeps_refl].
    - eapply wp_bind; [apply mul_rep; exact HX|]. intros X1 [R1 K1]. rewrite <- Z.pow_add_r in R1 by lia. cbv zeta.
      set (t := Z.of_nat ws - Z.of_nat r). assert (Z.shiftl (w * 2 ^ (Z.of_nat ws - Z.of_nat (S r))) 1 = w * 2 ^ t) as ->.
      { rewrite Z.shiftl_mul_pow2, <- Z.mul_assoc, <- Z.pow_add_r by lia. do 2 f_equal. lia. }
      assert (negb (Z.land (w * 2 ^ t) (Z.shiftl 1 (Z.of_nat ws)) =? 0) = Z.testbit w (Z.of_nat r)) as ->.
      { rewrite Z.shiftl_1_l. replace (Z.testbit w (Z.of_nat r)) with (Z.testbit (w * 2 ^ t) (Z.of_nat ws)) by (rewrite Z.mul_pow2_bits by lia; f_equal; lia).
        set (u := w * 2 ^ t). destruct (Z.testbit u (Z.of_nat ws)) eqn:TB.
        - apply negb_true_iff, Z.eqb_neq. intros E0. assert (Z.testbit (Z.land u (2 ^ Z.of_nat ws)) (Z.of_nat ws) = false) as C by (rewrite E0; apply Z.bits_0).
          rewrite Z.land_spec, TB, Z.pow2_bits_true in C by lia. discriminate.
        - apply negb_false_iff, Z.eqb_eq. apply Z.bits_inj'. intros i Hi. rewrite Z.land_spec, Z.bits_0. destruct (Z.eq_dec i (Z.of_nat ws)) as [->|NE]; [now rewrite TB|].
          rewrite Z.pow2_bits_false by lia. apply andb_false_r. }
      assert (0 < 2 ^ Z.of_nat r) as PR by (apply Z.pow_pos_nonneg; lia).
      assert (w mod 2 ^ Z.of_nat (S r) = (if Z.testbit w (Z.of_nat r) then 2 ^ Z.of_nat r else 0) + w mod 2 ^ Z.of_nat r) as EM.
      { rewrite Nat2Z.inj_succ, Z.pow_succ_r by lia. rewrite (Z.mul_comm 2 (2 ^ _)), Z.rem_mul_r by lia.
        pose proof (Z.testbit_spec' w (Z.of_nat r) ltac:(lia)) as TS. rewrite <- TS. destruct (Z.testbit w (Z.of_nat r)); cbn [Z.b2z]; ring. }
      eapply wp_bind with (P := fun X2 => rep X2 (a ^ (v + v + (if Z.testbit w (Z.of_nat r) then 1 else 0))) /\ keeps X1 X2).
      { destruct (Z.testbit w (Z.of_nat r)).
        - rewrite Z.pow_add_r, Z.pow_1_r by lia. apply mul_rep; [exact R1 | exact HW].
        - apply wp_ret. rewrite Z.add_0_r. split; [exact R1 | apply keeps_refl]. }
      intros X2 [R2 K2]. eapply wp_mono; [apply (IH X2); [lia | | exact R2]; destruct (Z.testbit w (Z.of_nat r)); lia|]. cbv beta. intros X3 [R3 K3].
      split; [|eapply keeps_trans; [exact K1|]; eapply keeps_trans; eassumption].
      rewrite EM, Nat2Z.inj_succ, Z.pow_succ_r by lia.
      replace (v * (2 * 2 ^ Z.of_nat r) + ((if Z.testbit w (Z.of_nat r) then 2 ^ Z.of_nat r else 0) + w mod 2 ^ Z.of_nat r)) with ((v + v + (if Z.testbit w (Z.of_nat r) then 1 else 0)) * 2 ^ Z.of_nat r + w mod 2 ^ Z.of_nat r); [exact R3|].
      destruct (Z.testbit w (Z.of_nat r)); ring.
  Qed.
  (** From the Montgomery form to the residue *)
  Lemma final_red X v : rep X v -> wp (montred X N mm tn) (fun Z => mpi_ok Z /\ keeps X Z /\ lval (mp Z) = v mod Nv).
  Proof.
    intros (OX & LX & BX & [q D]). pose proof Nv_pos as P. eapply wp_mono; [apply (montred_ok X N mm HM OX); fold Nv R n; lia|].
    cbv beta. intros Z (OZ & SZ' & LZ & BZ & [q2 D2]). fold Nv R in BZ, D2. split; [exact OZ|]. split; [split; assumption|].
    assert (Nv | lval (mp Z) - v) as [q3 D3]. { apply RN_cancel. exists (q2 + q). rewrite Z.mul_add_distr_r, <- D, <- D2. ring. }
    apply (Z.mod_unique_pos _ _ (- q3)); [exact BZ|]. rewrite Z.mul_opp_r, (Z.mul_comm Nv), <- D3. ring.
  Qed.
End Exp.
