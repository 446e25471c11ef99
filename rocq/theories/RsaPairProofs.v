(** Public and private keys that belong together *)
From Coq Require Import Lia Znumtheory Zpow_facts.
From Verif Require Import Base BaseFacts MpiModel LimbModel LimbSpec RsaKeyModel RsaKeySpec LimbRsaModel LimbRsaSpec LimbProofs LimbProofs24 LimbProofs32 LimbProofs33 LimbSpec2 TdpSpec RsaKeyExample RsaMathProofs RsaPairModel RsaPairSpec.

Theorem pair_exact pub prv p k : ctx_pub pub p -> 0 <= pub_N p -> 0 <= pub_E p -> ctx_all prv k ->
  (l_check_pub_priv pub prv = ret tt <-> pair_ok p k) /\ (l_check_pub_priv pub prv = ret tt \/ l_check_pub_priv pub prv = err ERR_RSA_KEY_CHECK_FAILED).
Proof.
  intros CP N0 E0 (CK & HD & HP & HQ & HDP & HDQ & HQP & NN).
  destruct (check_pub_exact pub p CP N0 E0) as (A1 & r1 & R1). destruct (check_priv_exact prv k CK HD HP HQ HDP HDQ HQP NN) as (A2 & r2 & R2).
  unfold l_check_pub_priv, pair_ok. rewrite R1. cbn [bind]. destruct r1 as [e1|[]].
  { split; [|auto]. split; [discriminate|]. intros (P & _). apply A1 in P. rewrite R1 in P. discriminate. }
  rewrite R2. cbn [bind]. destruct r2 as [e2|[]].
  { split; [|auto]. split; [discriminate|]. intros (_ & P & _). apply A2 in P. rewrite R2 in P. discriminate. }
  assert (public_ok p) as K1 by (apply A1; exact R1). assert (private_ok k) as K2 by (apply A2; exact R2).
  destruct CP as (_ & (O1 & M1 & _) & (O2 & M2 & _) & _). destruct CK as (_ & (O3 & M3 & _) & (O4 & M4 & _) & _). cbn [key_pub pub_N pub_E] in M3, M4.
  destruct (cmp_neq _ _ O1 O3) as (a & -> & Ea). cbn [bind]. rewrite Ea, M1, M3. destruct (Z.eqb_spec (pub_N p) (key_N k)) as [En|En]; cbn [negb].
  2: { split; [|auto]. split; [discriminate|]. intros (_ & _ & Q & _). contradiction. }
  destruct (cmp_neq _ _ O2 O4) as (b & -> & Eb). cbn [bind]. rewrite Eb, M2, M4. destruct (Z.eqb_spec (pub_E p) (key_E k)) as [Ee|Ee]; cbn [negb].
  2: { split; [|auto]. split; [discriminate|]. intros (_ & _ & _ & Q). contradiction. }
  split; [|auto]. split; auto.
Qed.
Theorem pair_inverse p k x : pair_ok p k -> 0 <= key_D k -> rsa_factor (key_P k) -> rsa_factor (key_Q k) -> 0 <= x < pub_N p ->
  (x ^ pub_E p mod pub_N p) ^ key_D k mod key_N k = x /\ (x ^ key_D k mod key_N k) ^ pub_E p mod pub_N p = x.
Proof.
  intros (_ & (PO & P1 & Q1 & N & DE & _ & _ & _ & _ & QP) & En & Ee) D0 PP PQ X.
  destruct PO as (_ & _ & _ & E3 & _). cbn [key_pub pub_E] in E3. rewrite En, Ee in *. rewrite N in *.
  set (P := key_P k) in *. set (Q := key_Q k) in *. set (E := key_E k) in *. set (D := key_D k) in *. set (L := Z.lcm (P - 1) (Q - 1)) in *.
  assert (0 < L) as L0.
  { pose proof (Z.lcm_nonneg (P - 1) (Q - 1)) as W. fold L in W. destruct (Z.eq_dec L 0) as [Q0|]; [|lia]. unfold L in Q0. apply Z.lcm_eq_0 in Q0. lia. }
  assert (D <> 0) as D1 by (intros Z0; rewrite Z0, Z.mul_0_l, Z.mod_0_l in DE; lia).
  assert (forall r, 1 < r -> rsa_factor r -> (r - 1 | L) -> x ^ (D * E) mod r = x mod r) as K.
  { intros r R1 PR (c & Ec). rewrite <- (Z.pow_1_r x) at 2. apply factor_pow; [exact PR | lia | nia | lia|].
    destruct (Z.eq_dec r 2) as [->|]; [rewrite !Z.mod_1_r; reflexivity|].
    apply divide_mod_eq; [lia|]. pose proof (Z.div_mod (D * E) L ltac:(lia)) as DM. rewrite DE in DM. exists (D * E / L * c). rewrite Ec in DM at 1. lia. }
  assert (x ^ (D * E) mod (P * Q) = x) as KK.
  { rewrite <- (Z.mod_small x (P * Q)) at 2 by lia. apply crt_unique; [lia | lia | eapply qp_coprime; [exact P1 | exact QP] | |].
    - apply K; [exact P1 | exact PP | apply Z.divide_lcm_l].
    - apply K; [exact Q1 | exact PQ | apply Z.divide_lcm_r]. }
  split.
  - rewrite <- Zpower_mod by lia. rewrite <- Z.pow_mul_r by lia. rewrite (Z.mul_comm E D). exact KK.
  - rewrite <- Zpower_mod by lia. rewrite <- Z.pow_mul_r by lia. exact KK.
Qed.

(** * Examples *)
Lemma num_holds x : (0 <=? x) && (x <? 256 ^ mpi_size x) && (0 <=? mpi_size x) && (mpi_size x <=? 7000) = true -> holds (rd_num (Z.to_nat (mpi_size x)) x) x.
Proof.
  rewrite !andb_true_iff, !Z.leb_le, Z.ltb_lt. intros (((A & B) & C) & D). destruct (rd_num_ok (Z.to_nat (mpi_size x)) x) as (O1 & O2 & O3); rewrite ?Z2Nat.id by exact C; [lia | lia|].
  split; [exact O1|]. split; [exact O2|]. rewrite Z2Nat.id in O3 by exact C. assert ((mpi_size x + 7) / 8 <= 900) by (apply Z.div_le_upper_bound; lia). lia.
Qed.
Lemma priv_ctx_130 : ctx_all (priv_ctx key130) key130.
Proof.
  assert (cache_ok (c_N (priv_ctx key130)) (Some (c_RN (priv_ctx key130)))) as CA.
  { split; [split; [left; reflexivity | apply Forall_nil]|]. split; [discriminate | left; reflexivity]. }
  split; [|split; [|split; [|split; [|split; [|split; [|split]]]]]]; try (apply num_holds; vm_compute; reflexivity).
  - split; [reflexivity|]. split; [apply num_holds; vm_compute; reflexivity|]. split; [apply num_holds; vm_compute; reflexivity | exact CA].
  - unfold key_nonneg. repeat split; vm_compute; discriminate.
Qed.
