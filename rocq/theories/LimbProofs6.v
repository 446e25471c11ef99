From Coq Require Import Lia.
From Verif Require Import Base BaseFacts MpiModel MpiProofs LimbModel LimbSpec LimbProofs LimbProofs2 LimbProofs3 LimbProofs4 LimbProofs5.

Lemma quot_signs sa sb a b : (sa = 1 \/ sa = -1) -> (sb = 1 \/ sb = -1) -> 0 <= a -> 0 < b ->
  Z.quot (sa * a) (sb * b) = sa * sb * (a / b) /\ Z.rem (sa * a) (sb * b) = sa * (a mod b).
Proof.
  intros Ha Hb A0 B0. rewrite <- Z.quot_div_nonneg, <- Z.rem_mod_nonneg by lia.
  assert (forall x, -1 * x = - x) as N by (intros; lia).
  destruct Ha as [-> | ->]; destruct Hb as [-> | ->]; rewrite ?N, ?Z.mul_1_l.
  - split; lia.
  - rewrite Z.quot_opp_r, Z.rem_opp_r by lia. split; lia.
  - rewrite Z.quot_opp_l, Z.rem_opp_l by lia. split; lia.
  - rewrite Z.quot_opp_opp, Z.rem_opp_opp by lia. split; lia.
Qed.
Definition out_ok (A : mpi) (P : option mpi) (P' : option mpi) (v : Z) : Prop :=
  match P, P' with
  | Some p, Some p' => mpi_ok p' /\ mval p' = v /\ (length (mp p') <= Nat.max (length (mp p)) (Nat.max 1 (sig (mp p'))))%nat /\
      (mp A <> [] -> (length (mp p) <= length (mp p'))%nat /\ mp p' <> [])
  | None, None => True
  | _, _ => False
  end.
Definition opt_ok (P : option mpi) : Prop := match P with Some p => mpi_ok p | None => True end.
Lemma sig_same a b : Forall is_limb a -> Forall is_limb b -> lval a = lval b -> sig a = sig b.
Proof. intros Ha Hb E. apply Nat.le_antisymm; apply sig_mono; try assumption; lia. Qed.
Lemma cmp_eqb c : (cmp3 1 (-1) c =? 0) = match c with Eq => true | _ => false end.
Proof. destruct c; reflexivity. Qed.
(** Q = A / B rounded towards zero, R = A - B * Q *)
Lemma div_ok ra Q R A B : opt_ok Q -> opt_ok R -> mpi_ok A -> mpi_ok B -> (ra = true -> R = Some A) -> mval B <> 0 -> mlen A <= 9990 -> mlen B <= 10000 ->
  wp (l_div false ra Q R A B) (fun r => out_ok A Q (fst r) (Z.quot (mval A) (mval B)) /\ out_ok A R (snd r) (Z.rem (mval A) (mval B))).
Proof.
  intros HQ HR HA HB ER NB LA LB'. unfold l_div. rewrite cmp_int_ok by (assumption || lia). cbn [bind]. rewrite cmp_eqb.
  destruct (Z.compare_spec (mval B) 0); [lia | |].
  all: assert (lval (mp B) <> 0) as NB' by (intros E; apply NB; unfold mval; rewrite E; lia).
  all: pose proof (lval_nonneg _ (proj2 HB)) as PB; pose proof (lval_nonneg _ (proj2 HA)) as PA.
  all: destruct (quot_signs (ms A) (ms B) (lval (mp A)) (lval (mp B)) (proj1 HA) (proj1 HB) ltac:(lia) ltac:(lia)) as [EQ EM]; fold (mval A) (mval B) in EQ, EM; rewrite EQ, EM.
  all: rewrite cmp_abs_ok by assumption; cbn [bind]; rewrite cmp3_lt.
  all: assert (wp ('(X, Zq, k) <-? div_core A B ;;
      Q' <-? match Q with
             | Some Q => Q <-? l_copy false Q Zq ;; (let A := A in ret (Some (with_s Q (ms A * ms B))))
             | None => ret None
             end ;;
      (let A := match Q' with Some _ => A | None => A end in
      R <-? match R with
            | Some R => X <-? l_shift_r X k ;; (let X := with_s X (ms A) in R <-? l_copy false R X ;; c <- l_cmp_int R 0 ;; ret (Some (if c =? 0 then with_s R 1 else R)))
            | None => ret None
            end ;;
      ret (Q', R))) (fun r => lval (mp B) <= lval (mp A) -> out_ok A Q (fst r) (ms A * ms B * (lval (mp A) / lval (mp B))) /\ out_ok A R (snd r) (ms A * (lval (mp A) mod lval (mp B)))) \/ lval (mp A) < lval (mp B)) as MAIN.
  1, 3: (destruct (Z_lt_ge_dec (lval (mp A)) (lval (mp B))) as [L|L]; [now right | left];
    (eapply wp_bind; [apply div_core_ok; try assumption; lia|]); intros [[X Zq] k] (HX & HZ & K0 & SZ & MX & VZ & LX & LZ);
    (eapply wp_bind with (P := fun Q' => out_ok A Q Q' (ms A * ms B * (lval (mp A) / lval (mp B))));
     [destruct Q as [q|]; [|apply wp_ret; exact I];
      (eapply wp_bind; [apply copy_ok2; [exact HQ | exact HZ | discriminate | unfold mlen, zlen in *; lia]|]); intros q' (Hq' & Vq' & _ & Lq' & Nq'); cbv zeta; apply wp_ret;
      (destruct (with_s_ok q' (ms A * ms B) Hq' ltac:(destruct HA as [[-> | ->] _]; destruct HB as [[-> | ->] _]; lia)) as [O1 O2]);
      (split; [exact O1|]); (split; [rewrite O2, Vq', VZ; reflexivity|]); cbn [mp with_s]; rewrite (sig_same (mp q') (mp Zq)) by (apply Hq' || apply HZ || exact Vq'); (split; [exact Lq' | intros _; apply Nq'; apply nonnil_len; lia])
     |]);
    intros Q' HQ'; cbv zeta;
    (eapply wp_bind with (P := fun R' => out_ok A R R' (ms A * (lval (mp A) mod lval (mp B))));
     [destruct R as [r|]; [|apply wp_ret; exact I];
      pose proof (Z.mod_pos_bound (lval (mp A)) (lval (mp B)) ltac:(lia)) as MB; pose proof (Z.pow_pos_nonneg 2 k ltac:(lia) K0) as PK;
      (eapply wp_bind; [apply shift_r_ok; [exact HX | exact K0]|]); intros X2 (HX2 & VX2 & _ & LX2 & _);
      rewrite (lval_mval X HX) in VX2 by (rewrite MX; nia); rewrite MX, Z.div_mul in VX2 by lia; cbv zeta;
      (assert (ms (match Q' with Some _ => A | None => A end) = ms A) as -> by (destruct Q'; reflexivity));
      (destruct (with_s_ok X2 (ms A) HX2 (proj1 HA)) as [O1 O2]);
      (eapply wp_bind; [apply (copy_ok2 false r (with_s X2 (ms A))); [exact HR | exact O1 | discriminate | unfold mlen, zlen in *; cbn [mp with_s]; destruct ((Z.of_nat (length (mp X)) <? k / 64) || ((k / 64 =? Z.of_nat (length (mp X))) && (0 <? k mod 64))); lia]|]);
      intros r' (Hr' & Vr' & Mr' & Lr' & Nr'); cbn [mp with_s] in Vr', Lr', Nr'; assert (mp A <> [] -> (length (mp r) <= length (mp r'))%nat /\ mp r' <> []) as Nr2 by (intros _; apply Nr'; apply nonnil_len; clear - LX LX2; unfold mlen, zlen in *; destruct ((Z.of_nat (length (mp X)) <? k / 64) || ((k / 64 =? Z.of_nat (length (mp X))) && (0 <? k mod 64))); lia); rewrite cmp_int_ok by (assumption || lia); cbn [bind]; apply wp_ret; rewrite cmp_eqb;
      rewrite Mr', O2, VX2; rewrite <- (sig_same (mp r') (mp X2)) in Lr' by (apply Hr' || apply HX2 || exact Vr');
      (destruct (with_s_ok r' 1 Hr' ltac:(now left)) as [O3 O4]);
      (destruct (Z.compare_spec (ms A * (lval (mp A) mod lval (mp B))) 0) as [E|E|E]; cbn [out_ok];
       [(split; [exact O3|]); (split; [|split; [exact Lr' | exact Nr2]]); rewrite O4, Vr', VX2; rewrite E; (destruct HA as [[SA | SA] _]; rewrite SA in E; lia)
       | (split; [exact Hr'|]); (split; [rewrite Mr', O2, VX2; reflexivity | split; [exact Lr' | exact Nr2]])
       | (split; [exact Hr'|]); (split; [rewrite Mr', O2, VX2; reflexivity | split; [exact Lr' | exact Nr2]])])
     |]);
    intros R' HR'; apply wp_ret; intros _; split; assumption).
  all: destruct MAIN as [MAIN | SMALL].
  all: destruct (Z.compare_spec (lval (mp A)) (lval (mp B))) as [L|L|L]; try lia.
  all: try (eapply wp_mono; [exact MAIN|]; intros r Hr; apply Hr; lia).
  all: rewrite Z.div_small, Z.mod_small by lia.
  all: (eapply wp_bind with (P := fun Q' => out_ok A Q Q' (ms A * ms B * 0));
    [destruct Q as [q|]; [|apply wp_ret; exact I]; (eapply wp_bind; [apply lset0_ok; exact HQ|]); intros q' (Hq' & Pq' & _ & Vq'); apply wp_ret;
     (split; [exact Hq'|]); (split; [rewrite Vq'; lia|]); rewrite Pq', repeat_length; (split; [lia | intros _; split; [lia | apply nonnil_len; rewrite repeat_length; lia]])|]);
    intros Q' HQ'; cbv zeta; replace (match Q' with Some _ => A | None => A end) with A by (destruct Q'; reflexivity);
    (eapply wp_bind with (P := fun R' => out_ok A R R' (ms A * lval (mp A)));
    [destruct R as [r|]; [|apply wp_ret; exact I]; (eapply wp_bind; [apply copy_ok2; [exact HR | exact HA | intros E; injection (ER E); auto | unfold mlen in *; lia]|]);
     intros r' (Hr' & Vr' & Mr' & Lr' & Nr'); apply wp_ret; (split; [exact Hr'|]); (split; [exact Mr'|]);
     rewrite (sig_same (mp r') (mp A)) by (apply Hr' || apply HA || exact Vr'); (split; [exact Lr' | exact Nr'])|]);
    intros R' HR'; apply wp_ret; split; assumption.
Qed.
Lemma div_zero qa ra Q R A B : mpi_ok B -> mval B = 0 -> l_div qa ra Q R A B = err ERR_MPI_DIVISION_BY_ZERO.
Proof. intros HB E. unfold l_div. rewrite cmp_int_ok, E by (assumption || lia). reflexivity. Qed.

(** * Modulus *)
Lemma mod_ok ra R A B : mpi_ok R -> mpi_ok A -> mpi_ok B -> (ra = true -> R = A) -> 0 < mval B -> mlen R < 10000 -> mlen A <= 9990 -> mlen B < 10000 ->
  wp (l_mod ra R A B) (fun R' => mpi_ok R' /\ mval R' = mval A mod mval B /\ (length (mp R') <= Nat.max (length (mp R)) (Nat.max 1 (length (mp B))))%nat /\
    (mp A <> [] -> (length (mp R) <= length (mp R'))%nat /\ mp R' <> [])).
Proof.
  intros HR HA HB ER PB LR LA LB'. unfold l_mod. rewrite cmp_int_ok by (assumption || lia). cbn [bind]. rewrite cmp3_lt.
  destruct (Z.compare_spec (mval B) 0); try lia.
  eapply wp_bind; [apply (div_ok ra None (Some R)); [exact I | exact HR | exact HA | exact HB | intros E; f_equal; auto | lia | exact LA | lia]|].
  intros [Q' [R1|]] [_ H1]; [|destruct H1]. cbn [snd out_ok] in H1. destruct H1 as (HR1 & MR1 & LR1 & NR1).
  pose proof (Z.quot_rem' (mval A) (mval B)) as QR. pose proof (Z.rem_bound_abs (mval A) (mval B) ltac:(lia)) as RB. rewrite (Z.abs_eq (mval B)) in RB by lia.
  assert (lval (mp B) = mval B) as VB by (apply lval_mval; [exact HB | lia]).
  assert (sig (mp R1) <= length (mp B))%nat as S1.
  { transitivity (sig (mp B)); [|apply sig_le]. apply sig_mono; [apply HR1 | apply HB|]. rewrite VB, <- mval_abs, MR1 by exact HR1. lia. }
  assert (mp B <> []) as NB0 by (intros E; unfold mval in PB; rewrite E in PB; cbn in PB; lia). set (LR0 := length (mp R)) in *. set (N := Nat.max LR0 (Nat.max 1 (length (mp B)))) in *. assert (length (mp R1) <= N)%nat as LN by lia. unfold mlen, zlen in *.
  assert (Z.of_nat N < 10000) as NB by lia. assert (length (mp B) <= N)%nat as LBN by lia. clearbody N.
  assert (forall R2, mpi_ok R2 -> mval R2 = mval A mod mval B -> wp (mod_down 2 R2 B) (fun R' => R' = R2)) as DOWN.
  { intros R2 H2 M2. cbn [mod_down]. rewrite cmp_ok by assumption. cbn [bind]. rewrite cmp3_ge. pose proof (Z.mod_pos_bound (mval A) (mval B) PB).
    destruct (Z.compare_spec (mval R2) (mval B)); try lia. now apply wp_ret. }
  eapply wp_bind with (P := fun R2 => mpi_ok R2 /\ mval R2 = mval A mod mval B /\ (length (mp R2) <= N)%nat /\ (mp A <> [] -> (LR0 <= length (mp R2))%nat /\ mp R2 <> [])).
  - cbn [mod_up]. rewrite cmp_int_ok by (assumption || lia). cbn [bind]. rewrite cmp3_lt. destruct (Z.compare_spec (mval R1) 0) as [E|E|E].
    1, 3: (apply wp_ret; (split; [exact HR1|]); (split; [|split; [exact LN | exact NR1]]); apply (Z.mod_unique_pos _ _ (Z.quot (mval A) (mval B))); lia).
    eapply wp_bind; [apply add_ok; [exact HR1 | exact HR1 | exact HB | reflexivity | discriminate | unfold mlen, zlen; lia | unfold mlen, zlen; lia | unfold mlen, zlen; lia]|].
    intros R2 (HR2 & MR2 & LR2 & LR3). rewrite cmp_int_ok by (assumption || lia). cbn [bind]. rewrite cmp3_lt.
    assert (sig (mp R2) <= N)%nat.
    { transitivity (sig (mp B)); [|pose proof (sig_le (mp B)); lia]. apply sig_mono; [apply HR2 | apply HB|]. rewrite VB, <- mval_abs by exact HR2. rewrite MR2. lia. }
    destruct (Z.compare_spec (mval R2) 0); try lia.
    all: assert (mp R1 <> []) as NR0 by (intros E0; unfold mval in E; rewrite E0 in E; cbn in E; lia).
    all: assert (mp A <> [] -> (LR0 <= length (mp R2))%nat /\ mp R2 <> []) as NR2 by (specialize (LR3 NR0 NB0); intros NA; destruct (NR1 NA) as [Q1 _]; assert (length (mp R1) <> O) by (destruct (mp R1); [congruence | discriminate]); split; [lia | apply nonnil_len; lia]).
    all: apply wp_ret; (split; [exact HR2|]); (split; [|split; [lia | exact NR2]]); apply (Z.mod_unique_pos _ _ (Z.quot (mval A) (mval B) - 1)); lia.
  - intros R2 (HR2 & MR2 & LR2 & NR2). eapply wp_mono; [now apply DOWN|]. intros R' ->. split; [exact HR2|]. split; [exact MR2|]. split; [exact LR2 | exact NR2].
Qed.
Lemma mod_neg ra R A B : mpi_ok B -> mval B < 0 -> l_mod ra R A B = err ERR_MPI_NEGATIVE_VALUE.
Proof. intros HB E. unfold l_mod. rewrite cmp_int_ok by (assumption || lia). cbn [bind]. rewrite cmp3_lt. destruct (Z.compare_spec (mval B) 0); try lia. reflexivity. Qed.
Lemma mod_zero ra R A B : mpi_ok B -> mval B = 0 -> l_mod ra R A B = err ERR_MPI_DIVISION_BY_ZERO.
Proof. intros HB E. unfold l_mod. rewrite cmp_int_ok, E by (assumption || lia). cbn. rewrite div_zero by assumption. reflexivity. Qed.

Lemma mod_int_step y x b : 0 < b <= 2 ^ 32 -> 0 <= y < b -> 0 <= x < 2 ^ 32 ->
  let w := Z.lor (u64 (Z.shiftl y 32)) x in u64 (w - u64 (w / b * b)) = (y * 2 ^ 32 + x) mod b.
Proof.
  intros Hb Hy Hx. assert (2 ^ 64 = 2 ^ 32 * 2 ^ 32) as E by reflexivity. set (H := 2 ^ 32) in *.
  assert (0 <= y * H < LB) as Y1. { change LB with (2 ^ 64). rewrite E. assert (0 < H) by reflexivity. clearbody H. nia. }
  cbv zeta. rewrite Z.shiftl_mul_pow2 by lia. fold H. rewrite (u64_limb (y * H)) by exact Y1. unfold H at 1 2. rewrite lor_add by (lia || exact Hx). fold H.
  set (w := y * H + x). assert (0 <= w < LB) as W. { change LB with (2 ^ 64). rewrite E. unfold w. assert (0 < H) by reflexivity. clearbody H. nia. }
  pose proof (Z.div_mod w b ltac:(lia)) as D. pose proof (Z.mod_pos_bound w b ltac:(lia)) as M. assert (0 <= w / b) by (apply Z.div_pos; lia).
  rewrite (u64_limb (w / b * b)) by (unfold is_limb; nia). rewrite u64_limb by (unfold is_limb; nia). lia.
Qed.
Lemma mod_int_loop_ok p b y : Forall is_limb p -> 0 < b <= 2 ^ 32 -> 0 <= y < b -> mod_int_loop p b y = (y * LB ^ zlen p + lval (rev p)) mod b.
Proof.
  intros H Hb. revert y. induction H as [|x p Hx Hp IH]; intros y Hy.
  - cbn [mod_int_loop rev lval]. change (LB ^ zlen []) with 1. rewrite Z.mul_1_r, Z.add_0_r, Z.mod_small by lia. reflexivity.
  - cbn [mod_int_loop rev]. cbv zeta. unfold is_limb in Hx.
    assert (LB = 2 ^ 32 * 2 ^ 32) as E by reflexivity.
    pose proof (Z.div_mod x (2 ^ 32) ltac:(lia)) as DX. pose proof (Z.mod_pos_bound x (2 ^ 32) ltac:(lia)) as MX.
    assert (Z.shiftr x 32 = x / 2 ^ 32) as S1 by (apply Z.shiftr_div_pow2; lia).
    assert (0 <= x / 2 ^ 32 < 2 ^ 32) as HX by (split; [apply Z.div_pos; lia | apply Z.div_lt_upper_bound; lia]).
    assert (Z.shiftr (u64 (Z.shiftl x 32)) 32 = x mod 2 ^ 32) as S2.
    { rewrite Z.shiftr_div_pow2, Z.shiftl_mul_pow2, u64_LB by lia. rewrite E, Zmult_mod_distr_r, Z.div_mul by lia. reflexivity. }
    rewrite S1, S2. pose proof (mod_int_step y (x / 2 ^ 32) b Hb Hy HX) as E1. cbv zeta in E1. rewrite E1.
    set (y1 := (y * 2 ^ 32 + x / 2 ^ 32) mod b). pose proof (Z.mod_pos_bound (y * 2 ^ 32 + x / 2 ^ 32) b ltac:(lia)) as M1. fold y1 in M1.
    pose proof (mod_int_step y1 (x mod 2 ^ 32) b Hb M1 MX) as E2. cbv zeta in E2. rewrite E2.
    rewrite IH by (apply Z.mod_pos_bound; lia). rewrite zlen_cons, Z.pow_add_r, Z.pow_1_r by (apply zlen_nonneg || (clear; lia)).
    rewrite lval_app. cbn [lval]. rewrite rev_length. fold (zlen p). set (P := LB ^ zlen p).
    rewrite Z.mul_0_r, Z.add_0_r. rewrite <- Zplus_mod_idemp_l, Zmult_mod_idemp_l, Zplus_mod_idemp_l.
    rewrite <- (Zplus_mod_idemp_l ((y1 * 2 ^ 32 + x mod 2 ^ 32) * P)). rewrite <- (Zmult_mod_idemp_l (y1 * 2 ^ 32 + x mod 2 ^ 32)).
    assert ((y1 * 2 ^ 32 + x mod 2 ^ 32) mod b = (y * LB + x) mod b) as ->.
    { unfold y1. rewrite <- Zplus_mod_idemp_l, Zmult_mod_idemp_l, Zplus_mod_idemp_l. f_equal. rewrite E. clear - DX. lia. }
    rewrite Zmult_mod_idemp_l, Zplus_mod_idemp_l. f_equal. ring.
Qed.
Lemma mod_int_ok A b : mpi_ok A -> 0 < b <= 2 ^ 32 -> (b = 2 -> mp A <> []) -> l_mod_int A b = ret (mval A mod b).
Proof.
  intros HA Hb NE. unfold l_mod_int. destruct (Z.eqb_spec b 0); [lia|]. destruct (Z.ltb_spec b 0); [lia|].
  destruct (Z.eqb_spec b 1) as [->|]; [now rewrite Z.mod_1_r|].
  destruct (Z.eqb_spec b 2) as [->|].
  - specialize (NE eq_refl). destruct HA as [S F]. unfold mval. destruct (mp A) as [|x l] eqn:E; [congruence|]. cbn [lnth nth_error bind]. unfold ret. do 2 f_equal.
    change 1 with (Z.ones 1). rewrite Z.land_ones by lia. change (2 ^ 1) with 2. rewrite lval_cons. change LB with (2 ^ 63 * 2).
    destruct S as [-> | ->].
    + rewrite Z.mul_1_l. replace (x + 2 ^ 63 * 2 * lval l) with (x + (2 ^ 63 * lval l) * 2) by ring. now rewrite Z.mod_add by lia.
    + replace (-1 * (x + 2 ^ 63 * 2 * lval l)) with (- x + (- (2 ^ 63 * lval l)) * 2) by ring. rewrite Z.mod_add by lia.
      rewrite !Zmod_odd, Z.odd_opp. reflexivity.
  - cbv zeta. rewrite mod_int_loop_ok by (try apply Forall_rev; try apply HA; lia). rewrite rev_involutive, Z.mul_0_l, Z.add_0_l. unfold mval.
    pose proof (Z.mod_pos_bound (lval (mp A)) b ltac:(lia)). unfold ret. do 2 f_equal.
    destruct HA as [[-> | ->] _]; cbn [Z.ltb Z.compare andb].
    + now rewrite Z.mul_1_l.
    + replace (-1 * lval (mp A)) with (- lval (mp A)) by lia. destruct (Z.eqb_spec (lval (mp A) mod b) 0) as [E|E]; cbn [negb].
      * rewrite Z.mod_opp_l_z by lia. lia.
      * rewrite Z.mod_opp_l_nz by lia. reflexivity.
Qed.
