(** The private operation on limbs, continued *)
From Coq Require Import Lia Znumtheory Zpow_facts.
From Verif Require Import Base BaseFacts MpiModel MpiProofs LimbModel LimbModel2 LimbSpec LimbSpec2 LimbProofs LimbProofs2 LimbProofs3 LimbProofs4 LimbProofs5 LimbProofs6 LimbProofs9 LimbProofs11 LimbProofs12 LimbProofs13 LimbProofs14 LimbProofs16 LimbProofs19 LimbProofs20 LimbProofs21 RsaKeyModel TdpKeyModel TdpModel TdpProofs LimbRsaModel LimbRsaSpec.

Lemma sig_below X N : mpi_ok X -> mpi_ok N -> 0 <= mval X <= mval N -> Z.of_nat (sig (mp X)) <= mlen N.
Proof. intros OX ON R. apply zsig; [exact OX | apply mlen_nonneg|]. pose proof (abs_lt_len N (mlen N) ON ltac:(lia)). lia. Qed.
Lemma mod_ret a n : 0 < n -> mpi_mod a n = ret (a mod n).
Proof. intros P. unfold mpi_mod. destruct (Z.ltb_spec n 0); [lia|]. destruct (Z.eqb_spec n 0); [lia | reflexivity]. Qed.
Ltac sp := first [assumption | discriminate | (intros _; reflexivity) | lia].
Lemma prepare_ok c k bl f n rnd : ctx_priv c k bl -> key_sane k -> same_random f n rnd ->
  exists bl' r c' n', rsa_prepare_blinding k bl rnd = Ok (bl', r) /\ l_prepare_blinding f c n = Ok (match r with inl e => inl e | inr _ => inr tt end, c', n') /\
    ctx_priv c' k bl' /\ bl' <> None /\ c_len c' = c_len c /\ (forall i, r = inr i -> n' = (n + i)%nat).
Proof.
  intros (PUB & HD & HP & HQ & HDP & HDQ & HQP & CP & CQ & BL) (N1 & NO & SZ & E0 & _) R. destruct PUB as (CL & (ON & MN & LN) & (OE & ME & LE) & CN). cbn [key_pub pub_N pub_E] in *.
  unfold rsa_len in CL. cbn [key_pub pub_N] in CL. destruct BL as (OI & OF & LI & LF & BL).
  assert (forall c1 bl1, c_len c1 = c_len c -> c_N c1 = c_N c -> c_E c1 = c_E c -> c_D c1 = c_D c -> c_P c1 = c_P c -> c_Q c1 = c_Q c -> c_DP c1 = c_DP c -> c_DQ c1 = c_DQ c -> c_QP c1 = c_QP c ->
    c_RP c1 = c_RP c -> c_RQ c1 = c_RQ c -> cache_ok (c_N c) (Some (c_RN c1)) -> holds_blinding c1 bl1 -> ctx_priv c1 k bl1) as KEEP.
  { intros c1 bl1 K1 K2 K3 K4 K5 K6 K7 K8 K9 K10 K11 K12 K13. unfold ctx_priv, ctx_pub. rewrite K1, K2, K3, K4, K5, K6, K7, K8, K9, K10, K11. unfold rsa_len. cbn [key_pub pub_N pub_E]. rewrite <- MN in CL. 
    split; [split; [congruence|]; split; [split; [exact ON | split; assumption]|]; split; [split; [exact OE | split; assumption]|]; exact K12|]. repeat (split; [assumption|]). exact K13. }
  destruct bl as [[vi vf]|].
  - destruct BL as (NF & SI & MI & MF & RI & RF). rewrite MN in RI, RF. cbn [rsa_prepare_blinding]. rewrite !mod_ret by lia. cbn [bind ret].
    destruct (s_mul true true (c_Vi c) (c_Vi c) (c_Vi c) OI OI OI (fun _ => eq_refl) (fun _ => eq_refl) ltac:(lia)) as (A1 & E1 & O1 & M1 & L1 & S1).
    pose proof (sig_below (c_Vi c) (c_N c) OI ON ltac:(lia)) as G1. pose proof (sig_below (c_Vf c) (c_N c) OF ON ltac:(lia)) as G2.
    destruct (s_mod true A1 A1 (c_N c) O1 O1 ON (fun _ => eq_refl) ltac:(lia) ltac:(lia) ltac:(lia) ltac:(lia)) as (A2 & E2 & O2 & M2 & L2 & N2 & S2).
    destruct (s_mul true true (c_Vf c) (c_Vf c) (c_Vf c) OF OF OF (fun _ => eq_refl) (fun _ => eq_refl) ltac:(lia)) as (B1 & E3 & O3 & M3 & L3 & _).
    destruct (s_mod true B1 B1 (c_N c) O3 O3 ON (fun _ => eq_refl) ltac:(lia) ltac:(lia) ltac:(lia) ltac:(lia)) as (B2 & E4 & O4 & M4 & L4 & N4 & _).
    exists (Some ((vi * vi) mod key_N k, (vf * vf) mod key_N k)), (inr O), (set_V c A2 B2), n. split; [reflexivity|]. split.
    { unfold l_prepare_blinding. unfold cm_bind at 1, cm_get. cbn [bind]. replace (no_limbs (c_Vf c)) with false by (unfold no_limbs; destruct (mp (c_Vf c)); [congruence | reflexivity]). cbn [negb].
      unfold cm_bind at 1, cm_lift at 1. rewrite E1. cbn [bind ret]. unfold cm_bind at 1, cm_put at 1. cbn [bind]. unfold cm_bind at 1, cm_lift at 1. rewrite E2. cbn [bind ret]. unfold cm_bind at 1, cm_put at 1. cbn [bind].
      unfold cm_bind at 1, cm_lift at 1. rewrite E3. cbn [bind ret]. unfold cm_bind at 1, cm_put at 1. cbn [bind]. unfold cm_bind at 1, cm_lift at 1. rewrite E4. cbn [bind ret]. reflexivity. }
    split; [|split; [discriminate|]; split; [reflexivity|]; intros i [= <-]; lia].
    apply KEEP; try reflexivity; [exact CN|]. unfold holds_blinding. cbn [set_V c_Vi c_Vf c_N]. split; [exact O2|]. split; [exact O4|]. split; [clear - L2 L1 G1 LI LN SZ; lia|]. split; [clear - L4 L3 G2 LF LN SZ; lia|].
    pose proof (Z.mod_pos_bound (vi * vi) (key_N k) ltac:(lia)). pose proof (Z.mod_pos_bound (vf * vf) (key_N k) ltac:(lia)). rewrite MN.
    split; [apply mlen_nonnil; apply N4, mlen_nonnil; lia|]. split; [apply S2, S1; exact SI|]. split; [rewrite M2, M1, MI, MN; reflexivity|]. split; [rewrite M4, M3, MF, MN; reflexivity|]. lia.
  - cbn [rsa_prepare_blinding]. unfold rsa_len. cbn [key_pub pub_N].
    pose proof (blind_loop_ok f n rnd R 11 c 0 0 0 ON ltac:(lia) ltac:(lia) ltac:(rewrite MN; exact CL) ltac:(rewrite MN; exact SZ) OI OF LI LF ltac:(left; lia)) as H. rewrite MN in H. rewrite Nat.add_0_r in H.
    destruct (blinding_loop 11 (key_N k) (mpi_size (key_N k)) rnd 0 0 0) as [[[vi vf] i] found]. destruct H as (Vi & Vf & EL & OI' & OF' & LI' & LF' & PK & G). destruct PK as (NF & SI & MI & MF & RI & RF). cbn [set_V c_Vi c_Vf c_N] in NF, SI, MI, MF, RI, RF. rewrite MN in RI, RF.
    assert (l_prepare_blinding f c n = cm_bind (l_blind_loop f 11) (fun _ => c <-& cm_get ;; Vi <-& cm_lift (l_inv_mod (c_Vi c) (c_Vf c) (c_N c)) ;; _ <-& cm_put (set_V c Vi (c_Vf c)) ;; VR <-& cm_lift (l_exp_mod true Vi Vi (c_E c) (c_N c) (Some (c_RN c))) ;;
      cm_put (set_R (set_V c (fst VR) (c_Vf c)) (kept (c_RN c) (snd VR)) (c_RP c) (c_RQ c))) c n) as EP.
    { unfold l_prepare_blinding. unfold cm_bind at 1, cm_get at 1. cbn [bind]. unfold no_limbs. rewrite BL. reflexivity. }
    rewrite EP. unfold cm_bind at 1. rewrite EL. cbn [bind]. clear EP EL. destruct found; cbn [negb].
    + specialize (G eq_refl). destruct (s_inv Vi Vf (c_N c) OI' OF' ON ltac:(lia) ltac:(rewrite MF, MN; exact G) ltac:(lia) ltac:(lia)) as (v & Ev & Rv & Iv & W & EW & OW & MW & LW). rewrite MF, MN in Ev. rewrite MN in Rv. rewrite Ev. cbn [bind ret].
      assert (0 < v) as PV. { destruct (Z.eq_dec v 0) as [V0|]; [|lia]. rewrite V0, Z.mul_0_l, Z.mod_0_l in Iv by lia. discriminate. }
      assert (Z.odd (mval (c_N c)) = true) as NO' by now rewrite MN.
      destruct (s_exp true W W (c_E c) (c_N c) (c_RN c) OW OW OE ON CN (fun _ => eq_refl) (or_introl eq_refl) ltac:(lia) NO' ltac:(lia) ltac:(lia) ltac:(lia) ltac:(lia) (pos_sign W OW ltac:(lia))) as (VR & EX & OX & MX & LX & R' & ER & CR').
      rewrite (TdpProofs.exp_mod_ok v (key_E k) (key_N k)) by (assumption || lia). cbn [bind ret].
      eexists; eexists; exists (set_R (set_V c (fst VR) Vf) (kept (c_RN c) (snd VR)) (c_RP c) (c_RQ c)), (n + i)%nat. split; [reflexivity|]. split.
      { unfold cm_bind at 1, cm_get. cbn [bind]. cbn [set_V c_Vi c_Vf c_N c_E c_RN c_RP c_RQ]. unfold cm_bind at 1, cm_lift at 1. rewrite EW. cbn [bind ret]. unfold cm_bind at 1, cm_put at 1. cbn [bind]. unfold cm_bind at 1, cm_lift at 1. rewrite EX. cbn [bind ret]. reflexivity. }
      split; [|split; [discriminate|]; split; [reflexivity|]; intros j [= <-]; reflexivity].
      apply KEEP; try reflexivity; [cbn [set_R c_RN]; rewrite ER; exact CR'|]. unfold holds_blinding. cbn [set_R set_V c_Vi c_Vf c_N]. split; [exact OX|]. split; [exact OF'|]. split; [lia|]. split; [exact LF'|].
      rewrite MW, ME, MN in MX. rewrite MN. pose proof (Z.mod_pos_bound (v ^ key_E k) (key_N k) ltac:(lia)).
      split; [exact NF|]. split; [|split; [exact MX|]; split; [exact MF|]; lia].
      apply pos_sign; [exact OX|]. rewrite MX. assert ((v ^ key_E k) mod key_N k <> 0); [|lia]. intros Z0. apply Z.mod_divide in Z0; [|lia].
      assert (rel_prime (key_N k) (v ^ key_E k)) as RP. { apply rel_prime_Zpower_r; [exact E0|]. apply rel_prime_sym. apply Zgcd_1_rel_prime. assert (Z.gcd v (key_N k) = 1); [|assumption]. rewrite MN, MF in Iv.
        apply Zgcd_1_rel_prime. apply bezout_rel_prime. apply (Bezout_intro v (key_N k) 1 vf (- ((v * vf) / key_N k))). pose proof (Z.div_mod (v * vf) (key_N k) ltac:(lia)). nia. }
      apply Zgcd_1_rel_prime in RP. apply Z.divide_gcd_iff in Z0; [|lia]. lia.
    + exists (Some (vi, vf)), (inl ERR_RSA_RNG_FAILED), (set_V c Vi Vf), (n + i)%nat. split; [reflexivity|]. split; [reflexivity|]. split; [|split; [discriminate|]; split; [reflexivity|]; discriminate].
      apply KEEP; try reflexivity; [exact CN|]. unfold holds_blinding. cbn [set_V c_Vi c_Vf c_N]. rewrite MN. repeat (split; [assumption|]). assumption.
Qed.
