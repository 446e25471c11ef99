(** invert_mult on limbs *)
From Coq Require Import Lia Znumtheory.
From Verif Require Import Base BaseFacts MpiModel MpiProofs LimbModel LimbModel2 LimbSpec LimbSpec2 LimbProofs LimbProofs2 LimbProofs3 LimbProofs4 LimbProofs5 LimbProofs6 LimbProofs9 LimbProofs11 LimbProofs12 LimbProofs13 LimbProofs14 LimbProofs16 LimbProofs19 LimbProofs20 LimbProofs21 LimbProofs22 LimbProofs23 LimbProofs24 LimbProofs25 RsaKeyModel RsaKeySpec TdpKeyModel TdpModel TdpProofs LimbRsaModel LimbRsaSpec.

(** A copy into a fresh object: as many limbs as needed *)
Lemma s_copy Y : mpi_ok Y -> mlen Y <= 10000 ->
  wp (l_copy false l_init Y) (fun R => mpi_ok R /\ mval R = mval Y /\ (mp Y = [] -> mp R = []) /\ (mp Y <> [] -> ms R = ms Y /\ mlen R = Z.max 1 (Z.of_nat (sig (mp Y))))).
Proof.
  intros OY LY. destruct (copy_ok2 false l_init Y init_ok OY ltac:(discriminate) LY) as (R & E & O & _ & M & _). exists R. split; [exact E|]. split; [exact O|]. split; [exact M|].
  unfold l_copy in E. destruct (mp Y) as [|y l] eqn:EY; [apply ret_inj in E; subst R; split; [reflexivity | congruence]|]. rewrite <- EY in *. split; [congruence|]. intros _.
  apply bindr_inv in E. destruct E as (X & EX & E). apply ret_inj in E. subst R. cbn [ms mlen mp]. split; [reflexivity|].
  assert (length (mp X) = Nat.max 1 (sig (mp Y))) as LX. { unfold l_grow in EX. cbn [l_init mp length] in EX. destruct (_ <? _) in EX; [discriminate|]. apply ret_inj in EX. subst X. cbn [mp]. rewrite app_length, repeat_length. cbn [length]. apply Nat.sub_0_r. }
  unfold mlen, zlen. cbn [mp]. rewrite app_length, firstn_length, repeat_length, LX. pose proof (zsig_len Y). unfold mlen, zlen in *. assert (length (mp Y) <> 0%nat) by (rewrite EY; discriminate). lia.
Qed.
(** The numbers of the loop: not negative, below LB^1001, in at most 3000 limbs *)
Definition small (X : mpi) (x : Z) : Prop := mpi_ok X /\ mval X = x /\ 0 <= x < LB ^ 1001 /\ 1 <= mlen X <= 3000.
Lemma small_sig X x : small X x -> Z.of_nat (sig (mp X)) <= 1001.
Proof. intros (O & M & B & L). apply zsig; [exact O | lia|]. rewrite M, Z.abs_eq; apply B. Qed.
Lemma step_small xa xb X A B N a b : small X a -> small A a -> small B b -> alias xa X A -> alias xb X B -> mpi_ok N -> 0 < mval N -> mlen N <= 1001 ->
  wp (T <-? l_mul xa xb X A B ;; l_mod true T T N) (fun R => small R ((a * b) mod mval N)).
Proof.
  intros SX SA SB A1 A2 ON PN LN. pose proof (small_sig _ _ SA) as ZA. pose proof (small_sig _ _ SB) as ZB. pose proof SX as (OX & _ & _ & LX). pose proof SA as (OA & MA & _ & LA). pose proof SB as (OB & MB & _ & LB').
  destruct (s_mul xa xb X A B OX OA OB A1 A2 ltac:(lia)) as (T & ET & OT & MT & LT & _). rewrite ET. cbn [bindr bind ret]. rewrite <- MA, <- MB, <- MT. hd MT. assert (1 <= mlen T <= 3000) as LT1 by (clear - LT ZA ZB LX; lia). clear LT.
  eapply wp_mono; [apply s_mod; [exact OT | exact OT | exact ON | intros _; reflexivity | exact PN | clear - LT1; lia | clear - LT1; lia | clear - LN; lia]|].
  cbv beta. intros R (OR & MR & LR & NR & _). specialize (NR (proj1 (mlen_nonnil T) (proj1 LT1))). split; [exact OR|]. split; [exact MR|]. split; [|clear - NR LR LN LT1; lia].
  pose proof (Z.mod_pos_bound (mval T) (mval N) PN) as MB1. pose proof (abs_lt_len N 1001 ON LN) as AN. rewrite Z.abs_eq in AN by (clear - PN; lia). revert MB1 AN. clear. generalize (LB ^ 1001). intros. lia.
Qed.
Lemma insecure_loop_ok N : mpi_ok N -> 0 < mval N -> mlen N <= 1001 -> forall fuel X B x b e, small X x -> small B b -> 0 <= e < 2 ^ Z.of_nat fuel ->
  agrees (l_insecure_loop (S fuel) X B e N) (insecure_loop (S fuel) x b e (mval N)) small.
Proof.
  intros ON PN LN. induction fuel as [|fuel IH]; intros X B x b e SX SB E.
  - cbn [Z.of_nat] in E. change (2 ^ 0) with 1 in E. cbn [l_insecure_loop insecure_loop]. destruct (Z.ltb_spec 0 e); [lia|]. exists X. split; [reflexivity | exact SX].
  - remember (S fuel) as fu eqn:F. cbn [l_insecure_loop insecure_loop]. destruct (Z.ltb_spec 0 e) as [P|P]; [|exists X; split; [reflexivity | exact SX]].
    apply (agrees_bind _ _ _ _ small).
    { destruct (e mod 2 =? 1); [|exists X; split; [reflexivity | exact SX]]. rewrite mod_ret by exact PN. unfold agrees, ret. apply (step_small true false X X B N x b SX SX SB); [intros _; reflexivity | discriminate | assumption..]. }
    intros X1 x1 SX1. rewrite (mod_ret (b * b)) by exact PN. cbn [bindr bind ret]. destruct (step_small true true B B B N b b SB SB SB (fun _ => eq_refl) (fun _ => eq_refl) ON PN LN) as (B1 & EB & SB1).
    apply bindr_inv in EB. destruct EB as (T & ET & EM). rewrite ET. cbn [bindr bind ret]. rewrite EM. cbn [bindr bind ret]. subst fu. apply IH; [exact SX1 | exact SB1|]. rewrite Z.shiftr_div_pow2 by lia. change (2 ^ 1) with 2.
    rewrite Nat2Z.inj_succ, Z.pow_succ_r in E by lia. split; [apply Z.div_pos; lia | apply Z.div_lt_upper_bound; lia].
Qed.
Lemma u64_range e : 0 <= u64 e < 2 ^ Z.of_nat 64.
Proof. unfold u64. apply Z.mod_pos_bound. reflexivity. Qed.
Lemma insecure_ok A E N : mpi_ok A -> 1 <= mlen A <= 1001 -> mpi_ok N -> 0 < mval N -> mlen N <= 1001 ->
  agrees (l_insecure_mod_exp l_init A E N) (insecure_mod_exp (mval A) E (mval N)) small.
Proof.
  intros OA LA ON PN LN. unfold l_insecure_mod_exp, insecure_mod_exp. rewrite mod_ret by exact PN. cbn [bindr bind ret].
  destruct (lset_ok l_init 1 init_ok ltac:(lia)) as (X & EX & OX & MX & PX & _). rewrite EX. cbn [bindr bind ret].
  eapply agrees_l; [apply s_copy; [exact OA | clear - LA; lia]|]. cbv beta. intros B (OB & MB & _ & HB).
  assert (1 <= mlen B <= 1001) as LB1. { destruct (HB (proj1 (mlen_nonnil A) (proj1 LA))) as [_ ->]. pose proof (zsig_len A). lia. }
  eapply (agrees_l _ _ _ (fun R => small R (mval A mod mval N))).
  { eapply wp_mono; [apply s_mod; [exact OB | exact OB | exact ON | intros _; reflexivity | exact PN | lia | lia | lia]|]. cbv beta. intros R (OR & MR & LR & NR & _). specialize (NR (proj1 (mlen_nonnil B) (proj1 LB1))). split; [exact OR|]. split; [now rewrite MR, MB|]. split; [|lia].
    pose proof (Z.mod_pos_bound (mval A) (mval N) PN) as MB1. pose proof (abs_lt_len N 1001 ON LN) as AN. rewrite Z.abs_eq in AN by (clear - PN; lia). revert MB1 AN. clear. generalize (LB ^ 1001). intros. lia. }
  intros R SR. apply (insecure_loop_ok N ON PN LN 64 X R); [|exact SR | apply u64_range].
  split; [exact OX|]. split; [exact MX|]. split; [split; [lia|]; apply Z.pow_gt_1; [reflexivity | lia]|]. unfold mlen, zlen. rewrite PX. cbn. lia.
Qed.

Lemma set_R_priv c k bl RP RQ : ctx_priv c k bl -> cache_ok (c_P c) (Some RP) -> cache_ok (c_Q c) (Some RQ) -> ctx_priv (set_R c (c_RN c) RP RQ) k bl.
Proof. intros (C1 & C2 & C3 & C4 & C5 & C6 & C7 & C8 & C9 & C10) A B. split; [exact C1|]. do 6 (split; [assumption|]). split; [exact A|]. split; [exact B | exact C10]. Qed.
Lemma p1_q1_ok c k bl : ctx_priv c k bl -> 1 < key_P k -> 1 < key_Q k ->
  exists P1 Q1, l_p1_q1 c = Ok (P1, Q1) /\ rep 1001 P1 (key_P k - 1) /\ rep 1001 Q1 (key_Q k - 1).
Proof.
  intros (_ & _ & (OP & MP & LP) & (OQ & MQ & LQ) & _) P Q. unfold l_p1_q1.
  destruct (s_sub_int false l_init (c_P c) 1 init_ok OP ltac:(discriminate) ltac:(change (mlen l_init) with 0; lia) ltac:(lia) ltac:(lia)) as (P1 & E1 & O1 & M1 & L1). rewrite E1, throw_ret.
  destruct (s_sub_int false l_init (c_Q c) 1 init_ok OQ ltac:(discriminate) ltac:(change (mlen l_init) with 0; lia) ltac:(lia) ltac:(lia)) as (Q1 & E2 & O2 & M2 & L2). rewrite E2, throw_ret. change (mlen l_init) with 0 in *.
  exists P1, Q1. split; [reflexivity|]. unfold rep. repeat split; try apply O1; try apply O2; lia.
Qed.
Lemma invert_mult_core_ok c k bl P1 Q1 X order : ctx_priv c k bl -> key_sane k -> 1 < key_P k -> 1 < key_Q k -> rep 1001 P1 (key_P k - 1) -> rep 1001 Q1 (key_Q k - 1) -> mpi_ok X -> ms X = 1 -> 1 <= mlen X <= 2000 ->
  agrees (l_invert_mult_core c P1 Q1 X order) (invert_mult_core k (mval X) order) (fun r v => mpi_ok (fst r) /\ mval (fst r) = v /\ ctx_priv (snd r) k bl).
Proof.
  intros C SN P2 Q2 (O1 & M1 & L1) (O2 & M2 & L2) OX SX LX. pose proof SN as (N1 & NO & SZ & E0 & P0 & PO & Q0 & QO & DP0 & DQ0).
  pose proof C as (_ & _ & (OP & MP & LP) & (OQ & MQ & LQ) & (ODP & MDP & LDP) & (ODQ & MDQ & LDQ) & (OQP & MQP & LQP) & CP & CQ & _).
  assert (Z.odd (mval (c_P c)) = true) as PO' by now rewrite MP. assert (Z.odd (mval (c_Q c)) = true) as QO' by now rewrite MQ.
  unfold l_invert_mult_core, invert_mult_core.
  apply (agrees_bind _ _ _ _ small); [rewrite <- M1, <- MDP; apply insecure_ok; [exact ODP | lia | exact O1 | lia | exact L1]|]. intros dp vdp (ODp & MDp & BDp & LDp).
  apply (agrees_bind _ _ _ _ small); [rewrite <- M2, <- MDQ; apply insecure_ok; [exact ODQ | lia | exact O2 | lia | exact L2]|]. intros dq vdq (ODq & MDq & BDq & LDq).
  assert (0 <= mval dp) as PD by (rewrite MDp; apply BDp). assert (0 <= mval dq) as PQ by (rewrite MDq; apply BDq). clear BDp BDq.
  destruct (s_exp false l_init X dp (c_P c) (c_RP c) init_ok OX ODp OP CP ltac:(discriminate) (or_intror (proj1 (mlen_nonnil X) ltac:(lia))) ltac:(lia) PO' PD ltac:(lia) ltac:(lia) ltac:(change (mlen l_init) with 0; lia) SX) as ([Yp RP] & EP & OYp & MYp & LYp & RP' & ERP & CRP). cbn [fst snd] in *. rewrite EP. cbn [bindr bind ret]. hd MYp. change (mlen l_init) with 0 in *. assert (mlen Yp <= 1001) as KYp by (clear - LYp LP; lia). clear LYp EP.
  destruct (s_exp false l_init X dq (c_Q c) (c_RQ c) init_ok OX ODq OQ CQ ltac:(discriminate) (or_intror (proj1 (mlen_nonnil X) ltac:(lia))) ltac:(lia) QO' PQ ltac:(lia) ltac:(lia) ltac:(change (mlen l_init) with 0; lia) SX) as ([Yq RQ] & EQ & OYq & MYq & LYq & RQ' & ERQ & CRQ). cbn [fst snd] in *. rewrite EQ. cbn [bindr bind ret]. hd MYq. change (mlen l_init) with 0 in *. assert (mlen Yq <= 1001) as KYq by (clear - LYq LQ; lia). clear LYq EQ.
  unfold hide in MYp, MYq. rewrite MDp, MP in MYp. rewrite MDq, MQ in MYq. rewrite TdpProofs.exp_mod_ok by (assumption || lia). cbn [bindr bind ret]. rewrite TdpProofs.exp_mod_ok by (assumption || lia). cbn [bindr bind ret]. rewrite <- MYp, <- MYq. rewrite mod_ret by lia. cbn [bindr bind ret].
  clear MYp MYq. 
  destruct (s_sub false false l_init Yp Yq init_ok OYp OYq ltac:(discriminate) ltac:(discriminate) ltac:(change (mlen l_init) with 0; lia) ltac:(lia) ltac:(lia)) as (T1 & ET1 & OT1 & MT1 & LT1 & _). rewrite ET1. cbn [bindr bind ret]. change (mlen l_init) with 0 in *. assert (mlen T1 <= 1002) as KT1 by (clear - LT1 KYp KYq; lia). clear LT1.
  destruct (s_mul false false Yp T1 (c_QP c) OYp OT1 OQP ltac:(discriminate) ltac:(discriminate) ltac:(clear - KT1 LQP; lia)) as (T2 & ET2 & OT2 & MT2 & LT2 & _). rewrite ET2. cbn [bindr bind ret]. pose proof (zsig_len T1) as ZS0. pose proof (zsig_len (c_QP c)) as ZS1. hd MT2. assert (1 <= mlen T2 <= 2002) as KT2 by (clear - LT2 ZS0 ZS1 KT1 KYp LQP; lia). clear LT2 ZS0 ZS1.
  destruct (s_mod false T1 T2 (c_P c) OT1 OT2 OP ltac:(discriminate) ltac:(clear - MP P0; lia) ltac:(clear - KT1; lia) ltac:(clear - KT2; lia) ltac:(clear - LP; lia)) as (T3 & ET3 & OT3 & MT3 & LT3 & _). rewrite ET3. cbn [bindr bind ret]. hd MT3. assert (mlen T3 <= 1002) as KT3 by (clear - LT3 KT1 LP; lia). clear LT3.
  destruct (s_mul false false T2 T3 (c_Q c) OT2 OT3 OQ ltac:(discriminate) ltac:(discriminate) ltac:(clear - KT3 LQ; lia)) as (T4 & ET4 & OT4 & MT4 & LT4 & _). rewrite ET4. cbn [bindr bind ret]. pose proof (zsig_len T3) as ZS0. pose proof (zsig_len (c_Q c)) as ZS1. hd MT4. assert (1 <= mlen T4 <= 2002) as KT4 by (clear - LT4 ZS0 ZS1 KT3 KT2 LQ; lia). clear LT4 ZS0 ZS1.
  destruct (s_add false false T3 Yq T4 OT3 OYq OT4 ltac:(discriminate) ltac:(discriminate) ltac:(clear - KT3; lia) ltac:(clear - KYq; lia) ltac:(clear - KT4; lia)) as (T5 & ET5 & OT5 & MT5 & _). rewrite ET5. cbn [bindr bind ret].
  unfold agrees, ret. eexists. split; [reflexivity|]. cbn [fst snd]. split; [exact OT5|]. split; [unfold hide in *; rewrite MT5, MT4, MT3, MT2, MT1, MP, MQ, MQP; reflexivity|].
  rewrite ERP, ERQ. cbn [kept]. now apply set_R_priv.
Qed.
Lemma invert_mult_rep c k bl P1' Q1' inp order : ctx_priv c k bl -> private_ok k -> rep 1001 P1' (key_P k - 1) -> rep 1001 Q1' (key_Q k - 1) -> is_bytes inp -> zlen inp <= 8000 ->
  drop (l_tdp_invert_mult c P1' Q1' inp order) = tdp_invert_mult k inp order /\ forall c' y, l_tdp_invert_mult c P1' Q1' inp order = Ok (c', y) -> ctx_priv c' k bl.
Proof.
  intros C PK R1 R2 B L. pose proof (private_sane k PK) as SN. pose proof PK as (_ & P & Q & _).
  pose proof C as ((CL & _) & _). unfold l_tdp_invert_mult, tdp_invert_mult. destruct (order =? 0); [split; [reflexivity|]; intros c' y H; injection H as <- _; exact C|]. rewrite CL. destruct (negb _); [split; [reflexivity | discriminate]|].
  destruct (read_both inp B ltac:(lia)) as (-> & X & EX & OX & MX & SX & LX). rewrite EX, ?throw_ret. rewrite <- MX.
  assert (1 <= mlen X <= 2000) as LX1. { assert ((zlen inp + 7) / 8 <= 1001) by (assert ((zlen inp + 7) / 8 < 1002); [apply Z.div_lt_upper_bound; lia | lia]). lia. }
  pose proof (invert_mult_core_ok c k bl P1' Q1' X order C SN P Q R1 R2 OX SX LX1) as H. unfold agrees in H. destruct (invert_mult_core k (mval X) order) as [[e|v]| | | |]; try contradiction.
  - rewrite H. split; [reflexivity | discriminate].
  - destruct H as ([Y c1] & -> & OY & MY & C1). cbn [fst snd] in *. cbn [bindr bind ret fst snd]. rewrite s_write_bin by exact OY. rewrite MY. change (zlen (zeros 256)) with kMessageSize.
    unfold mpi_write_binary. destruct (_ <? _); cbn [bindr bind ret err]; [split; [reflexivity | discriminate]|]. split; [reflexivity|]. intros c' y H. injection H as <- _. exact C1.
Qed.
Lemma invert_mult_refines c k bl P1 Q1 inp order : ctx_priv c k bl -> private_ok k -> l_p1_q1 c = Ok (P1, Q1) -> is_bytes inp -> zlen inp <= 8000 ->
  drop (l_tdp_invert_mult c P1 Q1 inp order) = tdp_invert_mult k inp order /\ forall c' y, l_tdp_invert_mult c P1 Q1 inp order = Ok (c', y) -> ctx_priv c' k bl.
Proof.
  intros C PK E B L. pose proof PK as (_ & P & Q & _).
  destruct (p1_q1_ok c k bl C P Q) as (P1' & Q1' & E' & R1 & R2). rewrite E' in E. injection E as <- <-.
  now apply invert_mult_rep.
Qed.
