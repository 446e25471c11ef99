(** The checks of keys on limbs *)
From Coq Require Import Lia Znumtheory.
From Verif Require Import Base BaseFacts MpiModel MpiProofs LimbModel LimbModel2 LimbSpec LimbSpec2 LimbProofs LimbProofs2 LimbProofs3 LimbProofs4 LimbProofs5 LimbProofs6 LimbProofs9 LimbProofs11 LimbProofs12 LimbProofs13 LimbProofs14 LimbProofs16 LimbProofs19 LimbProofs20 LimbProofs21 LimbProofs22 RsaKeyModel TdpKeyModel TdpModel TdpProofs LimbRsaModel LimbRsaSpec.

Definition agrees {A B} (l : res A) (i : res B) (P : A -> B -> Prop) : Prop :=
  match i with
  | Ok (inr v) => exists a, l = ret a /\ P a v
  | Ok (inl e) => l = err e
  | _ => False
  end.
Lemma agrees_bind {A B A' B'} (l : res A) (i : res B) (k : A -> res A') (k' : B -> res B') P Q : agrees l i P -> (forall a v, P a v -> agrees (k a) (k' v) Q) -> agrees (bindr l k) (bindr i k') Q.
Proof.
  unfold agrees. intros H K. destruct i as [[e|v]| | | |]; try contradiction; cbn [bindr bind].
  - rewrite H. reflexivity.
  - destruct H as (a & -> & H). cbn [bindr bind ret]. now apply K.
Qed.
Lemma agrees_l {A A' B'} (l : res A) (k : A -> res A') (i : res B') P Q : wp l P -> (forall a, P a -> agrees (k a) i Q) -> agrees (bindr l k) i Q.
Proof. intros (a & E & H) K. rewrite E. cbn [bindr bind ret]. now apply K. Qed.
Lemma agrees_err_add {A B} code (l : res A) (i : res B) P : agrees l i P -> agrees (err_add code l) (err_add code i) P.
Proof.
  unfold agrees, err_add. intros H. destruct i as [[e|v]| | | |]; try contradiction; cbn [bind].
  - rewrite H. reflexivity.
  - destruct H as (a & -> & H). exists a. split; [reflexivity | exact H].
Qed.
Lemma agrees_unit (l i : res unit) P : agrees l i P -> l = i.
Proof. unfold agrees. destruct i as [[e|[]]| | | |]; try contradiction; intros H; [exact H|]. destruct H as ([] & H & _). exact H. Qed.

Definition rep (n : Z) (X : mpi) (x : Z) : Prop := mpi_ok X /\ mval X = x /\ mlen X <= n.
Lemma agrees_mod ra R A B n : mpi_ok R -> mpi_ok A -> mpi_ok B -> alias ra R A -> mlen R <= n -> 1 <= n -> n < 10000 -> mlen A <= 9990 -> mlen B <= n ->
  agrees (l_mod ra R A B) (mpi_mod (mval A) (mval B)) (fun X x => rep n X x /\ (mp A <> [] -> mp X <> [])).
Proof.
  intros HR HA HB AL LR N1 LN LA LB'. unfold mpi_mod. destruct (Z.ltb_spec (mval B) 0); [now apply mod_neg|]. destruct (Z.eqb_spec (mval B) 0); [now apply mod_zero|]. unfold agrees, ret.
  destruct (s_mod ra R A B HR HA HB AL ltac:(lia) ltac:(lia) LA ltac:(lia)) as (X & E & O & M & L & N & _). exists X. split; [exact E|]. split; [split; [exact O|]; split; [exact M | lia]|]. intros NA. apply mlen_nonnil. now apply N.
Qed.
Lemma agrees_inv X A N n : mpi_ok X -> mpi_ok A -> mpi_ok N -> mlen A <= 9990 -> mlen N <= 9990 -> mlen X <= n -> mlen N + 1 <= n ->
  agrees (l_inv_mod X A N) (mpi_inv_mod (mval A) (mval N)) (fun R x => rep n R x /\ mp R <> []).
Proof.
  intros HX HA HN LA LN LX Ln. destruct (Z_lt_le_dec 1 (mval N)) as [P|P].
  - destruct (Z.eq_dec (Z.gcd (mval A) (mval N)) 1) as [G|G].
    + destruct (s_inv X A N HX HA HN P G LA LN) as (v & E & V1 & V2 & R & ER & O & M & L). rewrite E. unfold agrees, ret. exists R. split; [exact ER|]. split; [split; [exact O|]; split; [exact M | lia]|].
      apply nonnil_val. rewrite M. intros Z0. rewrite Z0, Z.mul_0_l, Z.mod_0_l in V2 by lia. discriminate.
    + unfold mpi_inv_mod, mpi_gcd. destruct (Z.leb_spec (mval N) 1); [lia|]. destruct (Z.eqb_spec (mval N) 0); [lia|]. destruct (Z.eqb_spec (Z.gcd (mval A) (mval N)) 1); [contradiction|]. cbn [negb]. now apply inv_mod_none.
  - unfold mpi_inv_mod. destruct (Z.leb_spec (mval N) 1); [|lia]. now apply inv_mod_bad.
Qed.
Lemma agrees_div A B n : mpi_ok A -> mpi_ok B -> mp A <> [] -> mlen A <= n -> n <= 9990 -> mlen B <= 10000 ->
  agrees (l_div false false (Some l_init) (Some l_init) A B) (mpi_div (mval A) (mval B)) (fun r v => rep n (kept l_init (fst r)) (fst v) /\ rep n (kept l_init (snd r)) (snd v)).
Proof.
  intros HA HB NA LA LN LB'. assert (1 <= mlen A) as L1 by now apply mlen_nonnil. unfold mpi_div. destruct (Z.eqb_spec (mval B) 0) as [Z0|Z0]; [now apply div_zero|].
  destruct (div_ok false (Some l_init) (Some l_init) A B init_ok init_ok HA HB ltac:(discriminate) Z0 ltac:(lia) LB') as ([q r] & E & O1 & O2). unfold agrees, ret. exists (q, r). split; [exact E|]. cbn [fst snd] in *.
  unfold out_ok in *. destruct q as [q|]; [|contradiction]. destruct r as [r|]; [|contradiction]. destruct O1 as (OQ & MQ & LQ & _), O2 as (OR & MR & LR & _). cbn [kept l_init mp length] in *.
  pose proof (abs_lt_len A n HA LA) as BA.
  assert (Z.abs (Z.quot (mval A) (mval B)) <= Z.abs (mval A)) as QB. { rewrite <- Z.quot_abs by exact Z0. clear - Z0. apply Z.quot_le_upper_bound; [lia|]. nia. }
  assert (Z.abs (Z.rem (mval A) (mval B)) <= Z.abs (mval A)) as RB. { rewrite <- Z.rem_abs by exact Z0. clear - Z0. apply Z.rem_le; lia. }
  pose proof (zsig q n OQ ltac:(clear - L1 LA; lia) ltac:(clear - MQ QB BA; lia)). pose proof (zsig r n OR ltac:(clear - L1 LA; lia) ltac:(clear - MR RB BA; lia)). clear QB RB BA.
  split; (split; [assumption|]; split; [assumption|]; unfold mlen, zlen in *; lia).
Qed.

Lemma no_limbs_false X : 1 <= mlen X -> no_limbs X = false.
Proof. intros H. unfold no_limbs. apply mlen_nonnil in H. destruct (mp X); [congruence | reflexivity]. Qed.
Lemma low_bit X : mpi_ok X -> 1 <= mlen X -> exists x, lnth (mp X) 0 = Ok x /\ (Z.land x 1 =? 0) = negb (Z.odd (mval X)).
Proof. intros O L. exists (nth 0 (mp X) 0). split; [apply lnth_ok; unfold mlen, zlen in L; lia|]. rewrite land1_odd, mval_odd by exact O. reflexivity. Qed.
Lemma s_bitlen X : mpi_ok X -> l_bitlen X = Ok (mpi_bitlen (mval X)).
Proof. intros O. rewrite bitlen_ok by exact O. rewrite <- mval_abs by exact O. now rewrite bitlen_abs. Qed.
Lemma check_pub_refines c k : ctx_pub c k -> l_check_pubkey c = rsa_check_pubkey k.
Proof.
  intros (_ & (ON & MN & LN) & (OE & ME & LE) & _). unfold l_check_pubkey, rsa_check_pubkey. rewrite !no_limbs_false by lia. cbn [orb].
  destruct (low_bit _ ON ltac:(lia)) as (n0 & -> & BN). destruct (low_bit _ OE ltac:(lia)) as (e0 & -> & BE). cbn [bind]. rewrite BN, BE, MN, ME. destruct (_ || _); [reflexivity|].
  rewrite !s_bitlen by assumption. cbn [bind]. rewrite MN, ME. destruct (_ || _); [reflexivity|]. rewrite cmp_ok by assumption. cbn [bind]. rewrite cmp3_ge, MN, ME.
  replace (match pub_E k ?= pub_N k with Lt => false | _ => true end) with (pub_N k <=? pub_E k); [reflexivity|].
  destruct (Z.compare_spec (pub_E k) (pub_N k)), (Z.leb_spec (pub_N k) (pub_E k)); try lia; reflexivity.
Qed.
Lemma cmp_neq X Y : mpi_ok X -> mpi_ok Y -> exists a, l_cmp X Y = Ok a /\ negb (a =? 0) = negb (mval X =? mval Y).
Proof.
  intros HX HY. exists (cmp3 1 (-1) (mval X ?= mval Y)). split; [now apply cmp_ok|]. rewrite cmp3_eq. destruct (Z.compare_spec (mval X) (mval Y)), (Z.eqb_spec (mval X) (mval Y)); try lia; reflexivity.
Qed.
Lemma cmp_int_neq X z : mpi_ok X -> - 2 ^ 63 < z < 2 ^ 63 -> exists a, l_cmp_int X z = Ok a /\ negb (a =? 0) = negb (mval X =? z).
Proof.
  intros HX HZ. exists (cmp3 1 (-1) (mval X ?= z)). split; [now apply cmp_int_ok|]. rewrite cmp3_eq. destruct (Z.compare_spec (mval X) z), (Z.eqb_spec (mval X) z); try lia; reflexivity.
Qed.
Lemma check_priv_refines c k : ctx_pub c (key_pub k) -> holds (c_D c) (key_D k) -> holds (c_P c) (key_P k) -> holds (c_Q c) (key_Q k) ->
  holds (c_DP c) (key_DP k) -> holds (c_DQ c) (key_DQ k) -> holds (c_QP c) (key_QP k) -> l_check_privkey c = rsa_check_privkey k.
Proof.
  intros PUB (OD & MD & LD) (OP & MP & LP) (OQ & MQ & LQ) (ODP & MDP & LDP) (ODQ & MDQ & LDQ) (OQP & MQP & LQP). pose proof PUB as (_ & (ON & MN & LN) & (OE & ME & LE) & _). cbn [key_pub pub_N pub_E] in *.
  unfold l_check_privkey, rsa_check_privkey. rewrite (check_pub_refines c _ PUB). destruct (rsa_check_pubkey (key_pub k)) as [[e|[]]| | | |]; try reflexivity. cbn [bindr bind]. rewrite !no_limbs_false by lia. cbn [orb].
  apply (agrees_unit _ _ (fun _ _ => True)). apply agrees_err_add. assert (mlen l_init = 0) as L0 by reflexivity.
  eapply agrees_l; [apply s_mul; [exact init_ok | exact OP | exact OQ | discriminate | discriminate | lia]|]. intros PQ (O1 & M1 & L1 & _). rewrite MP, MQ in M1. clear L1.
  eapply agrees_l; [apply s_mul; [exact init_ok | exact OD | exact OE | discriminate | discriminate | lia]|]. intros DE (O2 & M2 & L2 & _). rewrite MD, ME in M2. pose proof (zsig_len (c_D c)) as Z1. pose proof (zsig_len (c_E c)) as Z2.
  assert (mlen DE <= 2000) as K2 by (clear - L2 Z1 Z2 LD LE L0; lia). clear L2 Z1 Z2.
  eapply agrees_l; [apply s_sub_int; [exact init_ok | exact OP | discriminate | lia | lia | lia]|]. intros P1 (O3 & M3 & L3). rewrite MP in M3. assert (mlen P1 <= 1001) as K3 by (clear - L3 LP L0; lia). clear L3.
  eapply agrees_l; [apply s_sub_int; [exact init_ok | exact OQ | discriminate | lia | lia | lia]|]. intros Q1 (O4 & M4 & L4). rewrite MQ in M4. assert (mlen Q1 <= 1001) as K4 by (clear - L4 LQ L0; lia). clear L4.
  eapply agrees_l; [apply s_mul; [exact init_ok | exact O3 | exact O4 | discriminate | discriminate | lia]|]. intros H (O5 & M5 & L5 & _). rewrite M3, M4 in M5. pose proof (zsig_len P1) as Z1. pose proof (zsig_len Q1) as Z2.
  assert (1 <= mlen H <= 2002) as K5 by (clear - L5 Z1 Z2 K3 K4 L0; lia). clear L5 Z1 Z2.
  eapply agrees_l; [apply gcd_ok; [exact init_ok | exact OE | exact O5 | lia | lia]|]. intros G (O6 & M6 & _). rewrite gcd_mpi, ME, M5 in M6.
  eapply agrees_l; [apply gcd_ok; [exact init_ok | exact O3 | exact O4 | lia | lia]|]. intros G2 (O7 & M7 & L7). rewrite gcd_mpi, M3, M4 in M7. assert (mlen G2 <= 1001) as K7 by (clear - L7 K4 L0; lia). clear L7.
  rewrite <- M5, <- M7. eapply agrees_bind; [apply (agrees_div H G2 2002); [exact O5 | exact O7 | apply mlen_nonnil; lia | lia | lia | lia]|]. intros [q r] [v w] ((OL1 & ML1 & LL1) & (OL2 & ML2 & LL2)). cbn [fst snd] in *.
  rewrite <- M2, <- ML1. eapply agrees_bind; [apply (agrees_mod _ _ _ _ 2002); [exact init_ok | exact O2 | exact OL1 | discriminate | lia | lia | lia | lia | lia]|]. intros I i ((OI & MI & LI) & _).
  rewrite <- MD, <- M3. eapply agrees_bind; [apply (agrees_mod _ _ _ _ 2002); [exact init_ok | exact OD | exact O3 | discriminate | lia | lia | lia | lia | lia]|]. intros DP dp ((ODP' & MDP' & LDP') & _).
  rewrite <- M4. eapply agrees_bind; [apply (agrees_mod _ _ _ _ 2002); [exact init_ok | exact OD | exact O4 | discriminate | lia | lia | lia | lia | lia]|]. intros DQ dq ((ODQ' & MDQ' & LDQ') & _).
  rewrite <- MQ, <- MP. eapply agrees_bind; [apply (agrees_inv _ _ _ 2002); [exact init_ok | exact OQ | exact OP | lia | lia | lia | lia]|]. intros QP qp ((OQP' & MQP' & LQP') & _).
  destruct (cmp_neq PQ (c_N c) O1 ON) as (a1 & -> & B1). destruct (cmp_neq DP (c_DP c) ODP' ODP) as (a2 & -> & B2). destruct (cmp_neq DQ (c_DQ c) ODQ' ODQ) as (a3 & -> & B3). destruct (cmp_neq QP (c_QP c) OQP' OQP) as (a4 & -> & B4).
  destruct (cmp_int_neq (kept l_init r) 0 OL2 ltac:(lia)) as (a5 & -> & B5). destruct (cmp_int_neq I 1 OI ltac:(lia)) as (a6 & -> & B6). destruct (cmp_int_neq G 1 O6 ltac:(lia)) as (a7 & -> & B7). cbn [bind].
  rewrite B1, B2, B3, B4, B5, B6, B7, M1, MN, MDP', MDP, MDQ', MDQ, MQP', MQP, ML2, MI, M6, MP, MQ, M5. destruct (_ || _); [reflexivity|]. exists tt. split; [reflexivity | exact I0 || trivial].
Qed.
