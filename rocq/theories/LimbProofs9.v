(** Montgomery multiplication *)
From Coq Require Import Znumtheory.
From Verif Require Import Base BaseFacts MpiModel LimbModel LimbSpec LimbModel2 LimbProofs LimbProofs2 LimbProofs3 LimbProofs4.

(** * The constant -1/N modulo 2^64 *)
Lemma u64_ex x : exists q, u64 x = x - LB * q.
Proof. exists (x / LB). rewrite u64_LB, Z.mod_eq by (apply Z.neq_sym, Z.lt_neq, LB_pos). reflexivity. Qed.
Lemma newton_step m x k : 0 <= k -> 2 * k <= 64 -> (exists e, m * x = 1 + 2 ^ k * e) ->
  exists e, m * u64 (x * u64 (2 - u64 (m * x))) = 1 + 2 ^ (2 * k) * e.
Proof.
  intros Hk H2 [e He]. destruct (u64_ex (m * x)) as [q1 ->]. destruct (u64_ex (2 - (m * x - LB * q1))) as [q2 ->].
  destruct (u64_ex (x * (2 - (m * x - LB * q1) - LB * q2))) as [q3 ->].
  assert (LB = 2 ^ (2 * k) * 2 ^ (64 - 2 * k)) as -> by (unfold LB; rewrite <- Z.pow_add_r by lia; f_equal; lia).
  assert (2 ^ (2 * k) = 2 ^ k * 2 ^ k) as P by (rewrite <- Z.pow_add_r by lia; f_equal; lia). rewrite P.
  set (r := 2 ^ (64 - 2 * k)). set (p := 2 ^ k) in *.
  exists (- e * e + m * x * (r * q1 - r * q2) - m * r * q3).
  replace (m * (x * (2 - (m * x - p * p * r * q1) - p * p * r * q2) - p * p * r * q3))
    with ((m * x) * (2 - m * x) + p * p * (m * x * (r * q1 - r * q2) - m * r * q3)) by ring.
  rewrite He at 1 2. ring.
Qed.
Lemma montg_start m : is_limb m -> Z.odd m = true -> exists e, m * u64 (m + u64 (Z.shiftl (Z.land (u64 (m + 2)) 4) 1)) = 1 + 2 ^ 4 * e.
Proof.
  intros Hm Ho.
  assert (forall y, u64 y mod 16 = y mod 16) as U.
  { intros y. destruct (u64_ex y) as [q ->]. replace (y - LB * q) with (y + (- q * 2 ^ 60) * 16) by (unfold LB; ring). apply Z.mod_add. lia. }
  assert (Z.land (u64 (m + 2)) 4 = Z.land ((m mod 16 + 2) mod 16) 4) as L.
  { assert (Z.land (u64 (m + 2)) 4 = Z.land (u64 (m + 2) mod 16) 4) as ->.
    { change 16 with (2 ^ 4). rewrite <- Z.land_ones by lia. rewrite <- Z.land_assoc. reflexivity. }
    rewrite U. rewrite <- (Z.add_mod_idemp_l m 2 16) by lia. reflexivity. }
  set (x := u64 (m + u64 (Z.shiftl (Z.land (u64 (m + 2)) 4) 1))).
  assert (x mod 16 = (m mod 16 + Z.shiftl (Z.land ((m mod 16 + 2) mod 16) 4) 1) mod 16) as X.
  { unfold x. rewrite U, L. set (sh := Z.shiftl _ 1). clearbody sh. rewrite <- (Z.add_mod_idemp_r m), U, Z.add_mod_idemp_r by lia. rewrite Z.add_mod_idemp_l by lia. reflexivity. }
  assert (m * x mod 16 = 1) as E.
  { rewrite Z.mul_mod, X by lia. pose proof (Z.mod_pos_bound m 16 ltac:(lia)) as B. assert (Z.odd (m mod 16) = true) as O.
    { rewrite (Z.div_mod m 16) in Ho by lia. rewrite Z.odd_add, Z.odd_mul in Ho. cbn in Ho. now destruct (Z.odd (m mod 16)). }
    set (r := m mod 16) in *. clearbody r.
    assert (forallb (fun n => implb (Z.odd (Z.of_nat n)) (Z.of_nat n mod 16 * ((Z.of_nat n + Z.shiftl (Z.land ((Z.of_nat n + 2) mod 16) 4) 1) mod 16) mod 16 =? 1)) (seq 0 16) = true) as F by reflexivity.
    rewrite forallb_forall in F. specialize (F (Z.to_nat r)). rewrite Z2Nat.id, O in F by lia. cbn [implb] in F.
    assert (In (Z.to_nat r) (seq 0 16)) as I by (apply in_seq; lia). specialize (F I). apply Z.eqb_eq in F. rewrite (Z.mod_small r 16) in F by lia. exact F. }
  exists (m * x / 16). rewrite (Z.div_mod (m * x) 16) at 1 by lia. rewrite E. lia.
Qed.
Lemma montg_init_ok m : is_limb m -> Z.odd m = true -> is_limb (montg_init m) /\ (LB | m * montg_init m + 1).
Proof.
  intros Hm Ho. unfold montg_init. split; [apply is_limb_u64|]. pose proof (montg_start m Hm Ho) as S0.
  set (x0 := u64 (m + u64 (Z.shiftl (Z.land (u64 (m + 2)) 4) 1))) in *. clearbody x0.
  pose proof (newton_step m x0 4 ltac:(lia) ltac:(lia) S0) as S1. change (2 * 4) with 8 in S1. set (x1 := u64 (x0 * u64 (2 - u64 (m * x0)))) in *. clearbody x1.
  pose proof (newton_step m x1 8 ltac:(lia) ltac:(lia) S1) as S2. change (2 * 8) with 16 in S2. set (x2 := u64 (x1 * u64 (2 - u64 (m * x1)))) in *. clearbody x2.
  pose proof (newton_step m x2 16 ltac:(lia) ltac:(lia) S2) as S3. change (2 * 16) with 32 in S3. set (x3 := u64 (x2 * u64 (2 - u64 (m * x2)))) in *. clearbody x3.
  pose proof (newton_step m x3 32 ltac:(lia) ltac:(lia) S3) as S4. change (2 * 32) with 64 in S4. set (x4 := u64 (x3 * u64 (2 - u64 (m * x3)))) in *. clearbody x4.
  destruct S4 as [e E]. change (2 ^ 64) with LB in *. destruct (u64_ex (LB - 1 - x4 + 1)) as [q ->].
  exists (m * (1 - q) - e). replace (m * (LB - 1 - x4 + 1 - LB * q) + 1) with (LB * (m * (1 - q)) - m * x4 + 1) by ring. rewrite E. ring.
Qed.

(** * Montgomery multiplication *)
Lemma nth_skipn' (l : list Z) i j : nth j (skipn i l) 0 = nth (i + j) l 0.
Proof. revert l; induction i as [|i IH]; intros [|x l]; cbn [skipn nth Nat.add]; try reflexivity; [now destruct j | apply IH]. Qed.
Lemma skipn_nth_cons (l : list Z) i d : (i < length l)%nat -> skipn i l = nth i l d :: skipn (S i) l.
Proof. revert i; induction l as [|x l IH]; intros i H; cbn [length] in H; [lia|]. destruct i as [|i]; [reflexivity|]. cbn [skipn nth]. apply IH. lia. Qed.
Lemma upd_same (l : list Z) i x : (i < length l)%nat -> nth i l 0 = x -> firstn i l ++ x :: skipn (S i) l = l.
Proof. intros H <-. rewrite <- (skipn_nth_cons l i 0) by exact H. apply firstn_skipn. Qed.
Lemma lval_low l : Forall is_limb l -> exists q, lval l = nth 0 l 0 + LB * q.
Proof. intros _. destruct l as [|x l]; [exists 0; cbn; lia | exists (lval l); reflexivity]. Qed.
(** The digit chosen makes the sum divisible by the base *)
Lemma mont_digit V u0 Bv Nv d0 b0 n0 mm : (exists q, V = d0 + LB * q) -> (exists q, Bv = b0 + LB * q) -> (exists q, Nv = n0 + LB * q) -> (LB | n0 * mm + 1) ->
  (LB | V + u0 * Bv + u64 (u64 (d0 + u64 (u0 * b0)) * mm) * Nv).
Proof.
  intros [q1 ->] [q2 ->] [q3 ->] [q4 E]. destruct (u64_ex (u0 * b0)) as [q5 ->]. destruct (u64_ex (d0 + (u0 * b0 - LB * q5))) as [q6 ->].
  destruct (u64_ex ((d0 + (u0 * b0 - LB * q5) - LB * q6) * mm)) as [q7 ->]. set (x := d0 + (u0 * b0 - LB * q5) - LB * q6).
  replace (d0 + LB * q1 + u0 * (b0 + LB * q2) + (x * mm - LB * q7) * (n0 + LB * q3)) with
    (d0 + u0 * b0 + x * (n0 * mm) + LB * (q1 + u0 * q2 - q7 * n0 + (x * mm - LB * q7) * q3)) by ring.
  assert (n0 * mm = q4 * LB - 1) as -> by lia. apply Z.divide_add_r; [|apply Z.divide_factor_l].
  replace (d0 + u0 * b0 + x * (q4 * LB - 1)) with (LB * (q5 + q6 + x * q4)) by (unfold x; ring). apply Z.divide_factor_l.
Qed.
Section Montmul.
  Context (n m : nat) (a b np : limbs) (mm Bv Nv : Z).
  Hypothesis Fa : Forall is_limb a. Hypothesis Fb : Forall is_limb b. Hypothesis Fn : Forall is_limb np.
  Hypothesis Ln : length np = n. Hypothesis La : (n <= length a)%nat. Hypothesis Lm : (m <= length b)%nat. Hypothesis Lmn : (m <= n)%nat.
  Hypothesis Nb : b <> [].
  Hypothesis HB : lval (firstn m b) = Bv. Hypothesis HB' : lval b = Bv. Hypothesis HN : lval np = Nv. Hypothesis BN : Bv <= Nv.
  Hypothesis MM : (LB | nth 0 np 0 * mm + 1). Hypothesis HM : is_limb mm.
  Lemma mont_bounds : 0 <= Bv /\ 0 <= Nv < LB ^ Z.of_nat n.
  Proof using All. split; [rewrite <- HB'; now apply lval_nonneg|]. rewrite <- HN. split; [now apply lval_nonneg | apply lval_lt; [exact Fn | lia]]. Qed.
  Lemma montmul_loop_ok k : forall i t, (k + i = n)%nat -> Forall is_limb t -> length t = (2 * n + 2)%nat -> firstn i t = firstn i a -> lval (skipn i t) < Nv + Bv \/ lval (skipn i t) = 0 ->
    wpo (montmul_loop k i n m a b np mm t) (fun t' => Forall is_limb t' /\ length t' = length t /\ firstn n t' = firstn n a /\
      exists q, 0 <= q < LB ^ Z.of_nat k /\ LB ^ Z.of_nat k * lval (skipn n t') = lval (skipn i t) + lval (firstn k (skipn i a)) * Bv + q * Nv).
  Proof using All.
    pose proof mont_bounds as [B0 [N0 NL]]. pose proof LB_gt1 as G. pose proof LB_pos as LP.
    induction k as [|k IH]; intros i t Hk Ft Lt Hf Hv.
    - cbn [montmul_loop]. assert (i = n) by lia. subst i. apply wpo_ok. split; [exact Ft|]. split; [reflexivity|]. split; [exact Hf|]. exists 0. cbn. lia.
    - cbn [montmul_loop]. rewrite (lnth_ok a i 0) by lia. cbn [bind]. rewrite (lnth_ok t i 0) by lia. cbn [bind].
      destruct b as [|b0 br] eqn:EB; [congruence|]. rewrite <- EB in *. rewrite (lnth_ok b 0 0) by (rewrite EB; cbn; lia). cbn [bind].
      set (u0 := nth i a 0). assert (is_limb u0) as U0 by (now apply nth_limb).
      set (u1 := u64 (u64 (nth i t 0 + u64 (u0 * nth 0 b 0)) * mm)). assert (is_limb u1) as U1 by apply is_limb_u64.
      set (V := lval (skipn i t)) in *.
      assert (0 <= V) as V0 by (apply lval_nonneg; now apply Forall_skipn').
      assert (V <= Nv + Bv) as V1 by (clear - Hv V0 B0 N0; lia).
      assert (zlen (skipn i t) = Z.of_nat (n + 2 + k + 1)) as ZL by (unfold zlen; rewrite skipn_length; lia).
      pose proof (LB_pow n) as PN. pose proof (LB_powS n) as PS. 
      assert (2 * LB ^ Z.of_nat (S n) <= LB ^ zlen (skipn i t)) as PB.
      { rewrite ZL. transitivity (LB * LB ^ Z.of_nat (S n)); [apply Z.mul_le_mono_nonneg_r; [rewrite PS; apply Z.mul_nonneg_nonneg; lia | unfold LB; lia]|].
        rewrite <- LB_powS. apply LB_pow_le. lia. }
      assert (Nv + Bv < 2 * LB ^ Z.of_nat n) as NB by lia.
      assert (u0 * Bv <= (LB - 1) * Bv) as M0 by (apply Z.mul_le_mono_nonneg_r; [exact B0 | unfold is_limb in U0; lia]).
      assert (u1 * Nv <= (LB - 1) * Nv) as M1 by (apply Z.mul_le_mono_nonneg_r; [exact N0 | unfold is_limb in U1; lia]).
      assert (0 <= u0 * Bv) as P0 by (apply Z.mul_nonneg_nonneg; [apply U0 | exact B0]).
      assert (0 <= u1 * Nv) as P1 by (apply Z.mul_nonneg_nonneg; [apply U1 | exact N0]).
      assert (V + u0 * Bv + u1 * Nv <= LB * (Nv + Bv)) as SB by (clear - V1 M0 M1; lia).
      assert (LB * (Nv + Bv) < 2 * LB ^ Z.of_nat (S n)) as SB2 by (rewrite PS; clear - NB LP; nia).
      eapply wpo_bind. { apply at_off_ok; [lia|]. apply mul_hlp_ok; [exact Fb | now apply Forall_skipn' | exact Lm | rewrite skipn_length; lia | exact U0 | rewrite HB; fold V; lia]. }
      cbv beta. intros t1 (d1 & -> & F1 & W1 & L1). rewrite HB in W1. fold V in W1.
      assert (length (firstn i t) = i) as LF by (rewrite firstn_length; lia).
      assert (skipn i (firstn i t ++ d1) = d1) as SK by (rewrite skipn_app, LF, Nat.sub_diag, skipn_all2 by lia; reflexivity).
      assert (firstn i (firstn i t ++ d1) = firstn i t) as FK by (rewrite firstn_app, LF, Nat.sub_diag, firstn_all2, firstn_O, app_nil_r by lia; reflexivity).
      rewrite skipn_length in L1.
      eapply wpo_bind.
      { apply at_off_ok; [rewrite app_length; lia|]. rewrite SK.
        apply mul_hlp_ok; [exact Fn | exact F1 | lia | lia | exact U1|]. rewrite (firstn_all2 np), HN, W1 by lia.
        replace (zlen d1) with (zlen (skipn i t)) by (unfold zlen; rewrite skipn_length; lia). clear - SB SB2 PB. lia. }
      cbv beta. rewrite FK. intros t2 (d2 & -> & F2 & W2 & L2). rewrite (firstn_all2 np), HN, W1 in W2 by lia.
      assert (LB | lval d2) as DV.
      { rewrite W2. unfold u1. replace (nth i t 0) with (nth 0 (skipn i t) 0) by (rewrite nth_skipn'; f_equal; lia).
        apply mont_digit with (n0 := nth 0 np 0).
        - apply lval_low. now apply Forall_skipn'.
        - rewrite <- HB'. now apply lval_low.
        - rewrite <- HN. now apply lval_low.
        - exact MM. }
      destruct d2 as [|x d2]; [cbn in L2; lia|]. inversion F2 as [|? ? Hx F3]; subst x0 l.
      assert (x = 0) as ->.
      { rewrite lval_cons in DV. destruct DV as [z Hz].
        assert (x = LB * (z - lval d2)) as E by lia. unfold is_limb in Hx. set (w := z - lval d2) in *. clearbody w. assert (0 <= w < 1) by (split; [apply (Z.mul_le_mono_pos_l _ _ LB) | apply (Z.mul_lt_mono_pos_l LB)]; clear - E Hx LP; lia). replace w with 0 in E by (clear - H; lia). clear - E; lia. }
      rewrite lval_cons, Z.add_0_l in W2. set (V' := lval d2) in *.
      assert (0 <= V') as V0' by (apply lval_nonneg; exact F3).
      assert (V' <= Nv + Bv) as V1' by (apply (Z.mul_le_mono_pos_l _ _ LB); [exact LP | rewrite W2; exact SB]).
      rewrite lupd_ok by (rewrite app_length; cbn [length]; cbn [length] in L2; lia). cbn [bind].
      assert (firstn i (firstn i t ++ 0 :: d2) = firstn i t) as FK2 by (rewrite firstn_app, LF, Nat.sub_diag, firstn_all2, firstn_O, app_nil_r by lia; reflexivity).
      assert (skipn (S i) (firstn i t ++ 0 :: d2) = d2) as SK2.
      { rewrite skipn_app, LF. replace (S i - i)%nat with 1%nat by lia. rewrite skipn_all2 by lia. reflexivity. }
      rewrite FK2, SK2.
      set (t3 := firstn i t ++ u0 :: d2). cbn [length] in L2.
      assert (length t3 = (2 * n + 2)%nat) as L3 by (unfold t3; rewrite app_length; cbn [length]; lia).
      assert (Forall is_limb t3) as F4 by (unfold t3; apply Forall_app; split; [now apply Forall_firstn' | constructor; assumption]).
      assert (skipn (S i) t3 = d2) as SK3 by (unfold t3; rewrite skipn_app, LF; replace (S i - i)%nat with 1%nat by lia; rewrite skipn_all2 by lia; reflexivity).
      assert (firstn (S i) t3 = firstn (S i) a) as FK3.
      { unfold t3. rewrite firstn_app, LF. replace (S i - i)%nat with 1%nat by lia. rewrite firstn_all2 by lia. cbn [firstn]. rewrite Hf. unfold u0.
        symmetry. apply firstn_S_nth. lia. }
      assert (nth (S i + (n + 1)) t3 0 = 0) as NZ.
      { replace (nth (S i + (n + 1)) t3 0) with (nth (n + 1) (skipn (S i) t3) 0) by (rewrite nth_skipn'; f_equal; lia). rewrite SK3, nth_lval by exact F3. fold V'.
        rewrite Z.div_small; [reflexivity|]. split; [exact V0'|]. eapply Z.le_lt_trans; [exact V1'|]. eapply Z.lt_le_trans; [exact NB|].
        replace (n + 1)%nat with (S n) by lia. rewrite PS. apply Z.mul_le_mono_nonneg_r; [lia | unfold LB; lia]. }
      rewrite lupd_ok by lia. cbn [bind]. rewrite upd_same by (try exact NZ; lia).
      assert (V' < Nv + Bv \/ V' = 0) as HV'.
      { destruct (Z.eq_dec (Nv + Bv) 0) as [E0|E0]; [right; lia | left].
        apply (Z.mul_lt_mono_pos_l LB); [exact LP|]. rewrite W2. clear - Hv M0 M1 E0 G B0 N0. destruct Hv as [Hv|Hv]; [lia|]. rewrite Hv. nia. }
      eapply wpo_mono; [apply (IH (S i) t3); [lia | exact F4 | exact L3 | exact FK3 | rewrite SK3; exact HV']|].
      cbv beta. intros t' (F' & L' & K' & q & Q & E). split; [exact F'|]. split; [lia|]. split; [exact K'|]. rewrite SK3 in E. fold V' in E.
      exists (u1 + LB * q). rewrite LB_powS. unfold is_limb in U1. split; [clear - Q U1 G; nia|].
      rewrite (skipn_nth_cons a i 0) by lia. cbn [firstn lval]. fold u0.
      rewrite <- Z.mul_assoc, E, !Z.mul_add_distr_l. rewrite W2. ring.
  Qed.
End Montmul.
(** A modulus with its constant *)
Definition mont (N : mpi) (mm : Z) : Prop := mpi_ok N /\ mp N <> [] /\ is_limb mm /\ (LB | nth 0 (mp N) 0 * mm + 1).
Definition RN (N : mpi) : Z := LB ^ Z.of_nat (length (mp N)).
Lemma mont_pos N mm : mont N mm -> 0 < lval (mp N) < RN N.
Proof.
  intros ([_ F] & NE & _ & D). split; [|unfold RN; now apply lval_lt]. pose proof (lval_nonneg _ F) as P. destruct (Z.eq_dec (lval (mp N)) 0) as [E|E]; [|lia].
  exfalso. destruct (mp N) as [|x l]; [congruence|]. inversion F as [|? ? Hx Fl]; subst. cbn [lval nth] in *. pose proof (lval_nonneg l Fl). unfold is_limb in Hx. pose proof LB_gt1.
  assert (x = 0) as -> by nia. rewrite Z.mul_0_l, Z.add_0_l in D. apply Z.divide_1_r_nonneg in D; lia.
Qed.
Lemma montmul_ok A B N mm : mont N mm -> mpi_ok A -> mpi_ok B -> mp B <> [] -> lval (mp A) < RN N -> lval (mp B) <= lval (mp N) -> (length (mp N) < length (mp A))%nat ->
  wp (montmul A B N mm (2 * (length (mp N) + 1))) (fun R => mpi_ok R /\ ms R = ms A /\ length (mp R) = length (mp A) /\ 0 <= lval (mp R) < lval (mp N) /\
    (lval (mp N) | lval (mp R) * RN N - lval (mp A) * lval (mp B))).
Proof.
  intros HM HA HB NB AL BN LA. pose proof (mont_pos N mm HM) as NP. destruct HM as (HN & NN & HM & MM). unfold montmul.
  set (n := length (mp N)) in *. unfold RN in *. fold n in AL, NP |- *.
  destruct (Nat.ltb_spec (2 * (n + 1)) (n + 1)); [lia|].
  set (m := if (length (mp B) <? n)%nat then length (mp B) else n).
  assert (m <= length (mp B))%nat as M1 by (unfold m; destruct (Nat.ltb_spec (length (mp B)) n); lia).
  assert (m <= n)%nat as M2 by (unfold m; destruct (Nat.ltb_spec (length (mp B)) n); lia).
  assert (sig (mp B) <= m)%nat as M3.
  { unfold m. destruct (Nat.ltb_spec (length (mp B)) n); [apply sig_le|]. apply sig_bound; [apply HB | lia]. }
  destruct HA as [SA FA]. destruct HB as [SB FB]. destruct HN as [SN FN].
  eapply wp_bindo.
  { apply (montmul_loop_ok n m (mp A) (mp B) (mp N) mm (lval (mp B)) (lval (mp N)) FA FB FN eq_refl ltac:(lia) M1 M2 NB (lval_firstn _ _ M3) eq_refl eq_refl BN MM HM n 0 (repeat 0 (2 * (n + 1)))).
    - lia.
    - apply limbs_zeros.
    - rewrite repeat_length. lia.
    - reflexivity.
    - right. apply lval_zeros. }
  cbv beta. intros t (Ft & Lt & Kt & q & Q & E). rewrite repeat_length in Lt. cbn [skipn] in E. rewrite lval_zeros in E.
  assert (sig (mp A) <= n)%nat as SAn by (apply sig_bound; assumption). rewrite (lval_firstn _ _ SAn) in E. fold n in E.
  set (V := lval (skipn n t)) in *. set (R := LB ^ Z.of_nat n) in *. set (Nv := lval (mp N)) in *. set (Bv := lval (mp B)) in *. set (Av := lval (mp A)) in *.
  assert (0 <= V) as V0 by (apply lval_nonneg; now apply Forall_skipn').
  assert (0 <= Av) as A0 by (now apply lval_nonneg). assert (0 <= Bv) as B0 by (now apply lval_nonneg).
  assert (V < 2 * Nv) as V1.
  { apply (Z.mul_lt_mono_pos_l R); [lia|]. rewrite E. assert (Av * Bv <= R * Nv) by (apply Z.mul_le_mono_nonneg; lia). assert (q * Nv < R * Nv) by (apply Z.mul_lt_mono_pos_r; lia). lia. }
  assert (length (mp A) <? n + 1 = false)%nat as -> by (apply Nat.ltb_ge; lia). assert (length t <? n + (n + 1) = false)%nat as -> by (apply Nat.ltb_ge; lia). cbn [orb].
  assert (LB ^ Z.of_nat (n + 1) = LB * R) as PS by (replace (n + 1)%nat with (S n) by lia; apply LB_powS).
  assert (V < LB ^ Z.of_nat (n + 1)) as V2 by (rewrite PS; pose proof LB_gt1; unfold LB in *; lia).
  set (d := firstn (n + 1) (skipn n t)).
  assert (lval d = V) as Vd by (apply lval_firstn, sig_bound; [now apply Forall_skipn' | exact V2]).
  assert (length d = n + 1)%nat as Ld by (unfold d; rewrite firstn_length, skipn_length; lia).
  assert (Forall is_limb d) as Fd by (now apply Forall_firstn', Forall_skipn').
  set (A' := MkMpi (ms A) (d ++ skipn (n + 1) (mp A))).
  assert (lval (mp A') = V) as VA by (unfold A'; cbn [mp]; rewrite lval_app, Vd, (lval_skipn_zero (mp A)) by (try exact FA; lia); ring).
  assert (length (mp A') = length (mp A)) as LA' by (unfold A'; cbn [mp]; rewrite app_length, skipn_length; lia).
  assert (mpi_ok A') as OA by (split; [exact SA | unfold A'; cbn [mp]; apply Forall_app; split; [exact Fd | now apply Forall_skipn']]).
  rewrite cmp_abs_ok by (exact OA || now split). cbn [bind]. rewrite cmp3_ge, VA. fold Nv.
  destruct (Z.compare_spec V Nv) as [C|C|C].
  2: { eapply wp_bindo.
       { apply sub_hlp_ok; [apply OA | exact Ft | lia | lia|]. rewrite lval_firstn by (apply sig_bound; [apply OA | rewrite VA; fold R; lia]). rewrite VA.
         rewrite (lval_split n t). fold V. rewrite firstn_length, Nat.min_l by lia. fold R. pose proof (lval_nonneg (firstn n t) (Forall_firstn' _ _ _ Ft)).
         assert (1 * V <= R * V) by (apply Z.mul_le_mono_nonneg_r; lia). lia. }
       intros _ _. apply wp_ret. split; [exact OA|]. split; [reflexivity|]. split; [exact LA'|]. split; [rewrite VA; lia|]. rewrite VA. exists q.
       transitivity (R * V - Av * Bv); [ring|]. rewrite E. ring. }
  all: eapply wp_bindo; [apply sub_hlp_ok; [exact FN | apply OA | fold n; lia | lia | rewrite (firstn_all2 (mp N)), VA by (fold n; lia); fold Nv; lia]|];
    cbv beta; intros p (Fp & Vp & Lp); rewrite (firstn_all2 (mp N)), VA in Vp by (fold n; lia); fold Nv in Vp; apply wp_ret; cbn [mp ms];
    (split; [split; [exact SA | exact Fp]|]); (split; [reflexivity|]); (split; [lia|]); (split; [lia|]); rewrite Vp; exists (q - R);
    transitivity (R * V - R * Nv - Av * Bv); [ring|]; rewrite E; ring.
Qed.
Lemma montred_ok A N mm : mont N mm -> mpi_ok A -> lval (mp A) < RN N -> (length (mp N) < length (mp A))%nat ->
  wp (montred A N mm (2 * (length (mp N) + 1))) (fun R => mpi_ok R /\ ms R = ms A /\ length (mp R) = length (mp A) /\ 0 <= lval (mp R) < lval (mp N) /\
    (lval (mp N) | lval (mp R) * RN N - lval (mp A))).
Proof.
  intros HM HA AL LA. pose proof (mont_pos N mm HM) as NP. unfold montred.
  eapply wp_mono; [apply (montmul_ok A (MkMpi 1 [1]) N mm HM HA)|].
  - split; [now left | constructor; [exact is_limb_1 | constructor]].
  - discriminate.
  - exact AL.
  - cbn [mp lval]. lia.
  - exact LA.
  - cbn [mp lval]. intros R (? & ? & ? & ? & D). replace (lval (mp A) * (1 + LB * 0)) with (lval (mp A)) in D by ring. tauto.
Qed.
