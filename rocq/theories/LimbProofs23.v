(** The private operation on limbs, end *)
From Coq Require Import Lia Znumtheory.
From Verif Require Import Base BaseFacts MpiModel MpiProofs LimbModel LimbModel2 LimbSpec LimbSpec2 LimbProofs LimbProofs2 LimbProofs3 LimbProofs4 LimbProofs5 LimbProofs6 LimbProofs9 LimbProofs11 LimbProofs12 LimbProofs13 LimbProofs14 LimbProofs16 LimbProofs19 LimbProofs20 LimbProofs21 LimbProofs22 RsaKeyModel TdpKeyModel TdpModel TdpProofs LimbRsaModel LimbRsaSpec.

Lemma fill_same f n rnd X sz i : same_random f n rnd -> mpi_ok X -> 0 <= sz <= 1024 ->
  exists R, l_fill_random f X sz (n + i)%nat = Ok (inr R, (n + S i)%nat) /\ mpi_ok R /\ mval R = rnd i sz /\ 0 <= rnd i sz /\ ms R = 1 /\ 1 <= mlen R <= Z.max 1 (Z.max (mlen X) 130).
Proof.
  intros R OX SZ. destruct (R i (Z.to_nat sz) ltac:(lia)) as (bs & F & B & LB' & V). rewrite Z2Nat.id in V by lia.
  destruct (s_fill f X sz (n + i)%nat bs OX SZ F B ltac:(unfold zlen; lia)) as (Y & E & O & M & S1 & L). exists Y. replace (n + S i)%nat with (S (n + i)) by lia. split; [exact E|]. split; [exact O|]. split; [lia|].
  split; [rewrite V; apply (be_decode_range bs B)|]. split; [exact S1|]. assert ((sz + 7) / 8 < 130) by (apply Z.div_lt_upper_bound; lia). lia.
Qed.
Definition hide (P : Prop) : Prop := P.
Ltac hd M := match type of M with ?t => change (hide t) in M end.
Lemma core_ok c k vi vf f n rnd i T : ctx_priv c k (Some (vi, vf)) -> key_sane k -> same_random f n rnd -> mpi_ok T -> ms T = 1 -> 1 <= mlen T <= 200 ->
  exists v, rsa_private_core k vi vf rnd i (mval T) = ret v /\ 
    cwp (l_private_core f T) c (n + i)%nat (fun r c' n' => exists V, r = inr V /\ mpi_ok V /\ mval V = v /\ ctx_priv c' k (Some (vi, vf)) /\ c_len c' = c_len c).
Proof.
  intros C (N1 & NO & SZ & E0 & P0 & PO & Q0 & QO & DP0 & DQ0) R OT ST LT.
  pose proof C as (PUB & (OD & MD & LD) & (OP & MP & LP) & (OQ & MQ & LQ) & (ODP & MDP & LDP) & (ODQ & MDQ & LDQ) & (OQP & MQP & LQP) & CP & CQ & BL).
  destruct PUB as (CL & (ON & MN & LN) & (OE & ME & LE) & CN). cbn [key_pub pub_N pub_E] in *. destruct BL as (OI & OF & LI & LF & NF & SI & MI & MF & RI & RF).
  assert (Z.odd (mval (c_P c)) = true) as PO' by now rewrite MP. assert (Z.odd (mval (c_Q c)) = true) as QO' by now rewrite MQ.
  destruct (s_mul true false T T (c_Vi c) OT OT OI (fun _ => eq_refl) ltac:(discriminate) ltac:(lia)) as (T1 & E1 & O1 & M1 & L1 & S1). pose proof (zsig_len T) as ZS0. pose proof (zsig_len (c_Vi c)) as ZS1. hd M1. change (mlen l_init) with 0 in *. assert (1 <= mlen T1 <= 2200) as KL1 by lia. clear L1 ZS0 ZS1. specialize (S1 ST SI).
  destruct (s_mod true T1 T1 (c_N c) O1 O1 ON (fun _ => eq_refl) ltac:(lia) ltac:(lia) ltac:(lia) ltac:(lia)) as (T2 & E2 & O2 & M2 & L2 & N2 & S2). hd M2. change (mlen l_init) with 0 in *. assert (mlen T2 <= 2200) as KL2 by lia. clear L2. specialize (S2 S1). specialize (N2 (proj1 (mlen_nonnil T1) ltac:(lia))).
  destruct (s_sub_int false l_init (c_P c) 1 init_ok OP ltac:(discriminate) ltac:(change (mlen l_init) with 0; lia) ltac:(lia) ltac:(lia)) as (P1 & E3 & O3 & M3 & L3). change (mlen l_init) with 0 in *. assert (mlen P1 <= 1001) as KL3 by lia. clear L3.
  destruct (s_sub_int false l_init (c_Q c) 1 init_ok OQ ltac:(discriminate) ltac:(change (mlen l_init) with 0; lia) ltac:(lia) ltac:(lia)) as (Q1 & E4 & O4 & M4 & L4). change (mlen l_init) with 0 in *. assert (mlen Q1 <= 1001) as KL4 by lia. clear L4.
  destruct (fill_same f n rnd l_init RSA_EXPONENT_BLINDING i R init_ok ltac:(unfold RSA_EXPONENT_BLINDING; lia)) as (R1 & E5 & O5 & M5 & B5 & S5 & L5). change (mlen l_init) with 0 in *. assert (1 <= mlen R1 <= 130) as KL5 by lia. clear L5.
  destruct (s_mul false false l_init P1 R1 init_ok O3 O5 ltac:(discriminate) ltac:(discriminate) ltac:(lia)) as (D1 & E6 & O6 & M6 & L6 & _). pose proof (zsig_len P1) as ZS0. pose proof (zsig_len R1) as ZS1. hd M6. change (mlen l_init) with 0 in *. assert (1 <= mlen D1 <= 1131) as KL6 by lia. clear L6 ZS0 ZS1.
  destruct (s_add true false D1 D1 (c_DP c) O6 O6 ODP (fun _ => eq_refl) ltac:(discriminate) ltac:(lia) ltac:(lia) ltac:(lia)) as (D2 & E7 & O7 & M7 & L7). hd M7. change (mlen l_init) with 0 in *. assert (mlen D2 <= 1132) as KL7 by lia. clear L7.
  destruct (fill_same f n rnd R1 RSA_EXPONENT_BLINDING (S i) R O5 ltac:(unfold RSA_EXPONENT_BLINDING; lia)) as (R2 & E8 & O8 & M8 & B8 & S8 & L8). change (mlen l_init) with 0 in *. assert (1 <= mlen R2 <= 130) as KL8 by lia. clear L8.
  destruct (s_mul false false l_init Q1 R2 init_ok O4 O8 ltac:(discriminate) ltac:(discriminate) ltac:(lia)) as (F1 & E9 & O9 & M9 & L9 & _). pose proof (zsig_len Q1) as ZS0. pose proof (zsig_len R2) as ZS1. hd M9. change (mlen l_init) with 0 in *. assert (1 <= mlen F1 <= 1131) as KL9 by lia. clear L9 ZS0 ZS1.
  destruct (s_add true false F1 F1 (c_DQ c) O9 O9 ODQ (fun _ => eq_refl) ltac:(discriminate) ltac:(lia) ltac:(lia) ltac:(lia)) as (F2 & E10 & O10 & M10 & L10). hd M10. change (mlen l_init) with 0 in *. assert (mlen F2 <= 1132) as KL10 by lia. clear L10.
  unfold hide in M6, M7, M9, M10.
  assert (mval D2 = (key_P k - 1) * rnd i RSA_EXPONENT_BLINDING + key_DP k) as MD2 by (rewrite M7, M6, M3, M5, MP, MDP; reflexivity).
  assert (mval F2 = (key_Q k - 1) * rnd (S i) RSA_EXPONENT_BLINDING + key_DQ k) as MF2 by (rewrite M10, M9, M4, M8, MQ, MDQ; reflexivity).
  assert (0 <= mval D2) as PD2 by (rewrite MD2; clear - P0 DP0 B5; nia). assert (0 <= mval F2) as PF2 by (rewrite MF2; clear - Q0 DQ0 B8; nia).
  hd M6. hd M7. hd M9. hd M10. hd MD2. hd MF2.
  destruct (s_exp false l_init T2 D2 (c_P c) (c_RP c) init_ok O2 O7 OP CP ltac:(discriminate) (or_intror (proj1 (mlen_nonnil T2) ltac:(lia))) ltac:(lia) PO' PD2 ltac:(lia) ltac:(lia) ltac:(change (mlen l_init) with 0; lia) S2) as ([X1 RP] & E11 & O11 & M11 & L11 & RP' & ERP & CRP). cbn [fst snd] in *. hd M11. change (mlen l_init) with 0 in *. assert (mlen X1 <= 1001) as KL11 by (clear - L11 LP; lia). clear L11.
  cbn [fst snd] in *.
  destruct (s_exp false l_init T2 F2 (c_Q c) (c_RQ c) init_ok O2 O10 OQ CQ ltac:(discriminate) (or_intror (proj1 (mlen_nonnil T2) ltac:(lia))) ltac:(lia) QO' PF2 ltac:(lia) ltac:(lia) ltac:(change (mlen l_init) with 0; lia) S2) as ([X2 RQ] & E12 & O12 & M12 & L12 & RQ' & ERQ & CRQ). cbn [fst snd] in *. hd M12. change (mlen l_init) with 0 in *. assert (mlen X2 <= 1001) as KL12 by (clear - L12 LQ; lia). clear L12.
  cbn [fst snd] in *.
  destruct (s_sub false false T2 X1 X2 O2 O11 O12 ltac:(discriminate) ltac:(discriminate) ltac:(clear - KL2 KL11 KL12; lia) ltac:(clear - KL2 KL11 KL12; lia) ltac:(clear - KL2 KL11 KL12; lia)) as (T3 & E13 & O13 & M13 & L13 & _). hd M13. change (mlen l_init) with 0 in *. assert (mlen T3 <= 2201) as KL13 by (clear - L13 KL2 KL11 KL12; lia). clear L13.
  destruct (s_mul false false X1 T3 (c_QP c) O11 O13 OQP ltac:(discriminate) ltac:(discriminate) ltac:(clear - KL13 LQP; lia)) as (X3 & E14 & O14 & M14 & L14 & _). pose proof (zsig_len T3) as ZS0. pose proof (zsig_len (c_QP c)) as ZS1. hd M14. change (mlen l_init) with 0 in *. assert (1 <= mlen X3 <= 3201) as KL14 by (clear - L14 ZS0 ZS1 KL13 KL11 LQP; lia). clear L14 ZS0 ZS1.
  destruct (s_mod false T3 X3 (c_P c) O13 O14 OP ltac:(discriminate) ltac:(clear - KL13 KL14 LP MP P0; lia) ltac:(clear - KL13 KL14 LP MP P0; lia) ltac:(clear - KL13 KL14 LP MP P0; lia) ltac:(clear - KL13 KL14 LP MP P0; lia)) as (T4 & E15 & O15 & M15 & L15 & _). hd M15. change (mlen l_init) with 0 in *. assert (mlen T4 <= 2201) as KL15 by (clear - L15 KL13 LP; lia). clear L15.
  destruct (s_mul false false X3 T4 (c_Q c) O14 O15 OQ ltac:(discriminate) ltac:(discriminate) ltac:(clear - KL15 LQ; lia)) as (X4 & E16 & O16 & M16 & L16 & _). pose proof (zsig_len T4) as ZS0. pose proof (zsig_len (c_Q c)) as ZS1. hd M16. change (mlen l_init) with 0 in *. assert (1 <= mlen X4 <= 3201) as KL16 by (clear - L16 ZS0 ZS1 KL14 KL15 LQ; lia). clear L16 ZS0 ZS1.
  destruct (s_add false false T4 X2 X4 O15 O12 O16 ltac:(discriminate) ltac:(discriminate) ltac:(clear - KL15 KL12 KL16; lia) ltac:(clear - KL15 KL12 KL16; lia) ltac:(clear - KL15 KL12 KL16; lia)) as (T5 & E17 & O17 & M17 & L17). hd M17. change (mlen l_init) with 0 in *. assert (mlen T5 <= 3202) as KL17 by (clear - L17 KL15 KL12 KL16; lia). clear L17.
  destruct (s_mul true false T5 T5 (c_Vf c) O17 O17 OF (fun _ => eq_refl) ltac:(discriminate) ltac:(clear - KL17 LF; lia)) as (T6 & E18 & O18 & M18 & L18 & _). pose proof (zsig_len T5) as ZS0. pose proof (zsig_len (c_Vf c)) as ZS1. hd M18. change (mlen l_init) with 0 in *. assert (1 <= mlen T6 <= 5202) as KL18 by (clear - L18 ZS0 ZS1 KL17 LF; lia). clear L18 ZS0 ZS1.
  destruct (s_mod true T6 T6 (c_N c) O18 O18 ON (fun _ => eq_refl) ltac:(clear - KL18 LN MN N1; lia) ltac:(clear - KL18 LN MN N1; lia) ltac:(clear - KL18 LN MN N1; lia) ltac:(clear - KL18 LN MN N1; lia)) as (T7 & E19 & O19 & M19 & L19 & _). hd M19. change (mlen l_init) with 0 in *. assert (mlen T7 <= 5202) as KL19 by (clear - L19 KL18 LN; lia). clear L19.
  unfold hide in *. exists (mval T7). split.
  - unfold rsa_private_core. rewrite mod_ret by lia. cbn [bindr bind ret]. rewrite <- MD2, <- MF2. rewrite TdpProofs.exp_mod_ok by (assumption || lia). cbn [bindr bind ret]. rewrite TdpProofs.exp_mod_ok by (assumption || lia). cbn [bindr bind ret].
    rewrite mod_ret by lia. cbn [bindr bind ret]. rewrite mod_ret by lia. unfold ret. do 2 f_equal. rewrite M19, M18, M17, M16, M15, M14, M13, M12, M11, M2, M1, MI, MF, MN, MP, MQ, MQP. reflexivity.
  - unfold l_private_core. apply cwp_get.
    eapply (cwp_lift _ _ _ _ (fun a => a = T1)); [exists T1; split; [exact E1 | reflexivity]|]. intros ? ->.
    eapply (cwp_lift _ _ _ _ (fun a => a = T2)); [exists T2; split; [exact E2 | reflexivity]|]. intros ? ->.
    eapply (cwp_lift _ _ _ _ (fun a => a = P1)); [exists P1; split; [exact E3 | reflexivity]|]. intros ? ->.
    eapply (cwp_lift _ _ _ _ (fun a => a = Q1)); [exists Q1; split; [exact E4 | reflexivity]|]. intros ? ->.
    eapply cwp_rm; [exact E5|].
    eapply (cwp_lift _ _ _ _ (fun a => a = D1)); [exists D1; split; [exact E6 | reflexivity]|]. intros ? ->.
    eapply (cwp_lift _ _ _ _ (fun a => a = D2)); [exists D2; split; [exact E7 | reflexivity]|]. intros ? ->.
    eapply cwp_rm; [exact E8|].
    eapply (cwp_lift _ _ _ _ (fun a => a = F1)); [exists F1; split; [exact E9 | reflexivity]|]. intros ? ->.
    eapply (cwp_lift _ _ _ _ (fun a => a = F2)); [exists F2; split; [exact E10 | reflexivity]|]. intros ? ->.
    eapply (cwp_lift _ _ _ _ (fun a => a = (X1, RP))); [exists (X1, RP); split; [exact E11 | reflexivity]|]. intros ? ->. cbv beta iota. apply cwp_put.
    eapply (cwp_lift _ _ _ _ (fun a => a = (X2, RQ))); [exists (X2, RQ); split; [exact E12 | reflexivity]|]. intros ? ->. cbv beta iota. apply cwp_put.
    eapply (cwp_lift _ _ _ _ (fun a => a = T3)); [exists T3; split; [exact E13 | reflexivity]|]. intros ? ->.
    eapply (cwp_lift _ _ _ _ (fun a => a = X3)); [exists X3; split; [exact E14 | reflexivity]|]. intros ? ->.
    eapply (cwp_lift _ _ _ _ (fun a => a = T4)); [exists T4; split; [exact E15 | reflexivity]|]. intros ? ->.
    eapply (cwp_lift _ _ _ _ (fun a => a = X4)); [exists X4; split; [exact E16 | reflexivity]|]. intros ? ->.
    eapply (cwp_lift _ _ _ _ (fun a => a = T5)); [exists T5; split; [exact E17 | reflexivity]|]. intros ? ->.
    eapply (cwp_lift _ _ _ _ (fun a => a = T6)); [exists T6; split; [exact E18 | reflexivity]|]. intros ? ->.
    eapply (cwp_last _ _ _ (fun a => a = T7)); [exists T7; split; [exact E19 | reflexivity]|]. intros ? ->.
    exists T7. split; [reflexivity|]. split; [exact O19|]. split; [reflexivity|]. split; [|reflexivity]. rewrite ERP, ERQ. cbn [kept].
    destruct C as (C1 & C2 & C3 & C4 & C5 & C6 & C7 & C8 & C9 & C10). split; [exact C1|]. do 6 (split; [assumption|]). split; [exact CRP|]. split; [exact CRQ|]. exact C10.
Qed.

Lemma rd_cases m off n : (exists bs, rd m off n = Ok bs) \/ rd m off n = UB.
Proof. unfold rd. destruct (_ && _); [left; eexists; reflexivity | now right]. Qed.
Lemma wr_cases m off d : (exists m', wr m off d = Ok m') \/ wr m off d = UB.
Proof. unfold wr. destruct (_ && _); [left; eexists; reflexivity | now right]. Qed.
Lemma rd_bytes m n bs : is_bytes m -> 0 <= n -> rd m 0 n = Ok bs -> is_bytes bs /\ zlen bs = n.
Proof.
  intros B N. unfold rd. destruct (_ && _) eqn:E; [|discriminate]. intros H. injection H as <-. split.
  - apply Forall_forall. intros x I. eapply Forall_forall; [exact B|]. unfold window in I; cbn [Z.to_nat skipn] in I. rewrite <- (firstn_skipn (Z.to_nat n) m). apply in_or_app. now left.
  - unfold window. cbn [Z.to_nat skipn]. unfold zlen in *. rewrite firstn_length. apply andb_prop in E. destruct E as [_ E]. apply Z.leb_le in E. change (skipn (Z.to_nat 0) m) with m. lia.
Qed.
Lemma private_refines c k bl f n rnd inp out : ctx_priv c k bl -> key_sane k -> same_random f n rnd -> is_bytes inp ->
  match rsa_private k bl rnd inp out with
  | Ok (bl', r) => exists c' n', l_rsa_private f inp out c n = Ok (r, c', n') /\ ctx_priv c' k bl'
  | UB => l_rsa_private f inp out c n = UB
  | _ => False
  end.
Proof.
  intros C SN R B. pose proof C as (PUB & (OD & MD & LD) & (OP & MP & LP) & (OQ & MQ & LQ) & _). pose proof PUB as (CL & (ON & MN & LN) & _). cbn [key_pub pub_N] in MN.
  pose proof SN as (N1 & _ & SZ & _). remember (l_rsa_private f inp out c n) as L eqn:HL. unfold l_rsa_private in HL. unfold rsa_private. unfold rsa_len in *. cbn [key_pub pub_N] in *.
  assert (forall X, 1 <= mlen X -> no_limbs X = false) as NL by (intros X H; unfold no_limbs; apply mlen_nonnil in H; destruct (mp X); [congruence | reflexivity]).
  unfold cm_bind at 1, cm_get in HL. cbn [bind] in HL. rewrite !NL in HL by lia. cbn [orb] in HL. rewrite CL in HL.
  destruct (rd_cases inp 0 (mpi_size (key_N k))) as [[bs RD]|RD]; rewrite RD in *; cbn [bind] in *; [|exact HL].
  unfold cm_bind at 1, cm_lifto at 1 in HL. cbn [bind] in HL. destruct (rd_bytes inp (mpi_size (key_N k)) bs B ltac:(lia) RD) as [BB LBS].
  destruct (read_both bs BB ltac:(lia)) as (ER & T & ET & OT & MT & ST & LT). rewrite ER. cbn [bind ret]. unfold cm_err_add in HL. unfold cm_bind at 1, cm_lift at 1 in HL. rewrite ET in HL. cbn [bind ret] in HL. unfold cm_bind at 1, cm_lifto at 1 in HL.
  rewrite cmp_ok in HL by assumption. cbn [bind] in HL. rewrite cmp3_ge, MT, MN in HL.
  assert (1 <= mlen T <= 200) as LT1 by (assert ((zlen bs + 7) / 8 < 130) by (apply Z.div_lt_upper_bound; lia); lia).
  destruct (Z.compare_spec (be_decode bs) (key_N k)) as [Q|Q|Q]; destruct (Z.leb_spec (key_N k) (be_decode bs)) as [Q'|Q']; try lia.
  1, 3: exists c, n; split; [exact HL | exact C].
  destruct (LimbProofs22.prepare_ok c k bl f n rnd C SN R) as (bl' & r & c' & n' & EI & EL & C' & NB & CL' & NN). rewrite EI. cbn [bind]. unfold cm_bind at 1 in HL. rewrite EL in HL. cbn [bind] in HL. destruct bl' as [[vi vf]|]; [|congruence]. destruct r as [e|i].
  { cbn [bind] in *. exists c', n'. split; [exact HL | exact C']. }
  rewrite (NN i eq_refl) in *. destruct (core_ok c' k vi vf f n rnd i T C' SN R OT ST LT1) as (v & EC & rr & c2 & n2 & EK & V & -> & OV & MV & C2 & CL2).
  rewrite MT in EC. rewrite EC. cbn [bindr bind ret]. unfold cm_bind at 1 in HL. rewrite EK in HL. cbn [bind] in HL. unfold cm_bind at 1, cm_lift in HL. rewrite s_write_bin in HL by exact OV. rewrite MV in HL. unfold zlen, zeros in HL. rewrite repeat_length, Z2Nat.id in HL by lia.
  destruct (mpi_write_binary v (mpi_size (key_N k))) as [[e|w]| | | |] eqn:EW; unfold mpi_write_binary in EW; try (match type of EW with context [if ?b then _ else _] => destruct b; discriminate end).
  - cbn [bind bindr err ret err_add] in *. exists c2, n2. split; [exact HL | exact C2].
  - cbn [bind bindr ret] in *. unfold cm_lifto in HL. destruct (wr_cases out 0 w) as [[o W]|W]; rewrite W in *; cbn [bind ret err_add] in *; [|exact HL]. exists c2, n2. split; [exact HL | exact C2].
Qed.
Lemma invert_refines c k bl f n rnd g inp : ctx_priv c k bl -> key_sane k -> same_random f n rnd -> is_bytes inp ->
  snd (l_tdp_invert c f n g inp) = snd (tdp_invert k rnd g bl inp) /\ ctx_priv (fst (l_tdp_invert c f n g inp)) k (fst (tdp_invert k rnd g bl inp)).
Proof.
  intros C SN R B. pose proof (private_refines c k bl f n rnd inp g C SN R B) as H. unfold l_tdp_invert, tdp_invert, to_call. destruct (rsa_private k bl rnd inp g) as [[bl' r]| | | |]; try contradiction.
  - destruct H as (c' & n' & -> & C'). destruct r; split; try reflexivity; exact C'.
  - rewrite H. split; [reflexivity | exact C].
Qed.
