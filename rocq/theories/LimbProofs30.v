(** New keys on limbs; sequences of calls *)
From Coq Require Import Lia ZifyBool Znumtheory.
From Verif Require Import Base BaseFacts MpiModel MpiProofs LimbModel LimbModel2 LimbSpec LimbSpec2 LimbSpec3 LimbProofs LimbProofs2 LimbProofs3 LimbProofs19 LimbProofs20 LimbProofs21 LimbProofs23 LimbProofs24 LimbProofs25 LimbProofs26 LimbProofs27
  RsaKeyModel RsaKeySpec AsnProofs5 RsaKeyProofs TdpKeyModel TdpModel TdpSpec TdpProofs TdpProofs2 TdpProofs3 TdpProofs4 RsaMathProofs LimbSpec3 LimbRsaModel LimbRsaSpec LimbKeyModel.

Lemma gen_key_sound nbits E cand k : 128 <= nbits <= 8192 -> Z.odd E = true -> 3 <= E < 2 ^ 64 -> candidates_ok cand -> rsa_gen_key cand nbits E = ret k ->
  private_ok k /\ mpi_bitlen (key_N k) = nbits /\ key_E k = E /\ (In (key_P k, key_Q k) cand \/ In (key_Q k, key_P k) cand).
Proof.
  intros Hn OE HE Hc G. unfold rsa_gen_key in G. rewrite (proj2 (Z.ltb_ge nbits 128)), (proj2 (Z.ltb_ge E 3)) in G by lia. cbn [orb] in G. destruct (negb _); [discriminate|].
  destruct (gen_loop_total nbits E cand) as [E0|(N & P & Q & H & E1 & E2 & E3)]; [rewrite E0 in G; discriminate|].
  destruct (TdpProofs3.gen_loop_ok nbits E cand N P Q H Hc E1) as (A1 & A2 & A3 & A4 & A5 & A6 & A7 & A8 & _).
  pose proof (odd_ge3 P A2 A4) as P3. pose proof (odd_ge3 Q A3 A5) as Q3. rewrite E1 in G. cbn [bind] in G.
  assert (H1 : 1 < H) by (clear - A6 P3 Q3; nia).
  destruct (MpiProofs.inv_mod_ok E H H1 A8) as (D & ED & BD & HD). rewrite ED, bindr_ret in G. rewrite mod_ok in G by lia. rewrite bindr_ret in G. rewrite mod_ok in G by lia. rewrite bindr_ret in G.
  destruct (inv_mod_total Q P) as (r & ER & HR). rewrite ER in G. destruct r as [e|qp]; [discriminate|]. destruct (proj1 (HR qp) eq_refl) as (_ & Bq & Hq). cbn [bindr bind err_add ret] in G. injection G as <-. cbn [key_N key_E key_P key_Q].
  assert (NP : 0 < N) by (clear - A1 P3 Q3; nia).
  split; [|repeat (split; [first [exact A7|reflexivity]|]); exact E3].
  unfold private_ok. cbn [key_N key_E key_D key_P key_Q key_DP key_DQ key_QP key_pub].
  assert (2 ^ 127 <= N) as BN. { pose proof (proj1 (bitlen_ge N 128 ltac:(lia) ltac:(lia))) as X. apply X. lia. }
  split.
  { unfold public_ok. cbn [key_pub pub_N pub_E key_N key_E]. split; [rewrite A1, Z.odd_mul, A4, A5; reflexivity|]. split; [exact OE|].
    split.
    - split; [exact BN|]. apply (proj1 (bitlen_le N 8192 ltac:(lia) ltac:(lia))). lia.
    - split; [clear - HE; lia|]. apply Z.lt_le_trans with (2 ^ 64); [apply HE|]. apply Z.le_trans with (2 ^ 127); [vm_compute; discriminate|exact BN]. }
  split; [exact A2|]. split; [exact A3|]. split; [exact A1|].
  split. { apply inverse_lcm; [lia|lia|]. now rewrite <- A6. }
  split; [now rewrite <- A6|]. split; [reflexivity|]. split; [reflexivity|]. split; [exact Bq|exact Hq].
Qed.
Lemma candidates_pos f nb cand : 2 <= nb -> Forall (fun pq => candidate f nb (fst pq) /\ candidate f nb (snd pq)) cand -> candidates_ok cand.
Proof.
  intros N F. unfold candidates_ok. eapply Forall_impl; [|exact F]. cbv beta. intros c ((O1 & L1 & _) & (O2 & L2 & _)). assert (2 ^ 1 <= 2 ^ (nb - 1)) by (apply Z.pow_le_mono_r; lia). change (2 ^ 1) with 2 in *. repeat split; try assumption; lia.
Qed.
Lemma tdp_new_limb fuel pf f n : rng_ok f -> Z.of_nat pf <= 2 ^ 8000 ->
  l_tdp_new fuel pf f n = Diverge \/ l_tdp_new fuel pf f n = Throw RuntimeError \/
  exists c P1 Q1 n' k, l_tdp_new fuel pf f n = Ok (c, (P1, Q1), n') /\ ctx_priv c k None /\ l_p1_q1 c = Ok (P1, Q1) /\ private_ok k /\ bits2048 (key_N k) /\ key_E k = 65537 /\
    candidate f 1024 (key_P k) /\ candidate f 1024 (key_Q k).
Proof.
  intros R PF. unfold l_tdp_new. destruct (LimbProofs25.gen_key_ok fuel pf f RSA_MODULUS_SIZE RSA_PK n R ltac:(discriminate) PF ltac:(reflexivity)) as [->|(r & n' & -> & H)]; [now left|]. cbn [bind]. destruct r as [er|c]; [right; left; reflexivity|]. destruct H as (cand & k & FA & RG & PRIV).
  change (Ok (inr c)) with (ret c). rewrite throw_ret. change (RSA_MODULUS_SIZE / 2) with 1024 in FA.
  destruct (gen_key_sound RSA_MODULUS_SIZE RSA_PK cand k ltac:(split; discriminate) eq_refl ltac:(split; [discriminate | reflexivity]) (candidates_pos f 1024 cand ltac:(lia) FA) RG) as (PK & BL & EE & I).
  pose proof PK as (PP & P1 & Q1 & _). pose proof (public_N _ PP) as NP. assert (rsa_check_pubkey (key_pub k) = ret tt) as CK. { destruct PP as (X1 & X2 & X3 & X4). apply (proj2 (check_pubkey_ok (key_pub k) ltac:(clear - NP; lia) ltac:(clear - X4; lia))). exact (conj X1 (conj X2 (conj X3 X4))). }
  rewrite (check_pub_refines c (key_pub k) (proj1 PRIV)), CK, throw_ret. destruct (p1_q1_ok c k None PRIV P1 Q1) as (P1' & Q1' & EP & (O1 & _ & L1) & (O2 & _ & L2)). rewrite EP. cbn [bind fst snd].
  destruct (s_mul false false l_init P1' Q1' init_ok O1 O2 ltac:(discriminate) ltac:(discriminate) ltac:(lia)) as (T & -> & _). rewrite throw_ret. right. right. exists c, P1', Q1', n', k. split; [reflexivity|]. split; [exact PRIV|]. split; [exact EP|]. split; [exact PK|].
  split; [|split; [exact EE|]].
  - destruct (bitlen_pos (key_N k)) as [_ B2]; [cbn [key_pub pub_N] in NP; lia|]. rewrite BL in B2. exact B2.
  - rewrite Forall_forall in FA. destruct I as [I|I]; specialize (FA _ I); cbn [fst snd] in FA; tauto.
Qed.
