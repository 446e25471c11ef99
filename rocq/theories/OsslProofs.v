(** Lemmas on the implementation with OpenSSL: numbers and arrays, evaluation, inversion. *)
From Coq Require Import Znumtheory Zpow_facts Lia.
From Verif Require Import Base BaseFacts MpiModel MpiProofs RsaKeyModel RsaKeySpec TdpKeyModel TdpModel TdpSpec FermatProofs RsaMathProofs TdpProofs TdpProofs2
  LimbProofs3 OsslModel OsslSpec.

Lemma num_bytes x : BN_num_bytes x = mpi_size x.
Proof. reflexivity. Qed.
Lemma rsa_size_len k : RSA_size k = rsa_len k.
Proof. reflexivity. Qed.
Lemma put_ok y : 0 <= y < space -> put_bn y = Ok (message y).
Proof.
  intros H. unfold put_bn, BN_bn2bin. rewrite num_bytes. rewrite (Z.abs_eq y) by lia. unfold kMessageSize.
  pose proof (size_nonneg y) as S0. pose proof (proj2 (size_le y 256 ltac:(lia) ltac:(lia)) (proj2 H)) as S1. pose proof (size_bound y ltac:(lia)) as S2.
  rewrite (proj2 (Z.ltb_ge 256 _) S1). f_equal. unfold message.
  replace 256%nat with (Z.to_nat (256 - mpi_size y) + Z.to_nat (mpi_size y))%nat by (clear - S0 S1; lia).
  symmetry. apply be_encode_zeros. rewrite Z2Nat.id by lia. split; [lia|exact S2].
Qed.
Lemma bn_mod_exp r a p m : 0 < m -> BN_mod_exp r a p m = a ^ p mod m.
Proof.
  intros H. unfold BN_mod_exp. rewrite (proj2 (Z.leb_gt m 0)) by lia. rewrite Zpow_mod_correct by lia. apply Zmod_mod.
Qed.

(** * Evaluation *)
Section Pub.
Context (k : rsa_pub) (HB : bits2048 (pub_N k)).

Lemma o_len : RSA_size k = 256.
Proof using HB. rewrite rsa_size_len. now apply bits2048_len. Qed.
Lemma o_mod_range x : 0 <= x mod pub_N k < space.
Proof using HB. destruct (bits2048_facts _ HB) as (_ & N2 & NS). pose proof (Z.mod_pos_bound x (pub_N k) ltac:(lia)). lia. Qed.
Lemma o_eval_ok inp : ossl_eval k inp = Ok (message (be_decode inp ^ pub_E k mod pub_N k)).
Proof using HB.
  destruct (bits2048_facts _ HB) as (_ & N2 & NS).
  unfold ossl_eval. rewrite o_len. change (kMessageSize =? 256) with true. cbn [negb]. cbv zeta. rewrite bn_mod_exp by lia.
  pose proof (o_mod_range (be_decode inp ^ pub_E k)) as R. rewrite num_bytes.
  rewrite (proj2 (Z.ltb_ge kMessageSize _)); [now apply put_ok|]. apply size_le; [apply R|discriminate|apply R].
Qed.
Lemma o_eval_string_ok s : zlen s = 256 -> ossl_eval_string k s = ossl_eval k s.
Proof using HB.
  intros L. unfold ossl_eval_string. rewrite o_len, L. change (256 =? 256) with true. cbn [negb]. unfold kMessageSize. now rewrite str_data_rd.
Qed.
Lemma o_eval_string_bad s : zlen s <> 256 -> ossl_eval_string k s = Throw InvalidArgument.
Proof using HB. intros L. unfold ossl_eval_string. rewrite o_len, (proj2 (Z.eqb_neq _ _) L). reflexivity. Qed.
Lemma o_repeat_eval : forall n inp, is_bytes inp -> zlen inp = 256 -> 0 <= pub_E k ->
  repeat_call (S n) (ossl_eval k) inp = Ok (message (be_decode inp ^ (pub_E k ^ Z.of_nat (S n)) mod pub_N k)).
Proof using HB.
  destruct (bits2048_facts _ HB) as (_ & N2 & NS).
  induction n as [|n IH]; intros inp Hi Li He.
  - cbn [repeat_call]. rewrite o_eval_ok. cbn [bind]. change (Z.of_nat 1) with 1. now rewrite Z.pow_1_r.
  - change (repeat_call (S (S n)) (ossl_eval k) inp) with (y <- ossl_eval k inp ;; repeat_call (S n) (ossl_eval k) y).
    rewrite o_eval_ok. cbn [bind]. rewrite IH by (first [apply message_bytes|apply message_len|exact He]).
    rewrite message_decode by apply o_mod_range. do 2 f_equal.
    assert (0 <= pub_E k ^ Z.of_nat (S n)) as E0 by (apply Z.pow_nonneg; exact He).
    rewrite (pow_mod_base _ (be_decode inp ^ pub_E k)) by (first [apply Zmod_mod|lia]).
    rewrite <- Z.pow_mul_r by lia. f_equal. f_equal. rewrite (Nat2Z.inj_succ (S n)), Z.pow_succ_r by lia. reflexivity.
Qed.
End Pub.

(** * Inversion *)
Lemma rem_fix a p : 0 < p -> (if Z.rem a p <? 0 then Z.rem a p + p else Z.rem a p) = a mod p.
Proof.
  intros H. pose proof (Z.quot_rem' a p) as E. pose proof (Z.rem_bound_abs a p ltac:(lia)) as B. rewrite (Z.abs_eq p) in B by lia.
  destruct (Z.rem a p <? 0) eqn:C; [apply Z.ltb_lt in C|apply Z.ltb_ge in C].
  - apply Zmod_unique with (Z.quot a p - 1); [lia|]. rewrite E at 1. ring.
  - apply Zmod_unique with (Z.quot a p); [lia|]. exact E.
Qed.

Lemma made_members o : made o -> o = ossl_members (oi_key o).
Proof.
  intros [(gen & H)|(read & sk & H)].
  - unfold ossl_new in H. destruct (gen _ _); [|discriminate]. now injection H as <-.
  - unfold ossl_from_private in H. destruct (read _) as [[k|]|]; try discriminate. now injection H as <-.
Qed.

Section Inv.
Context (k : rsa_key) (HK : tdp_key k).
Let N := key_N k.

Lemma eay_root i : root k i (RSA_eay_mod_exp k i).
Proof using HK.
  destruct (tdp_key_facts k HK) as (F & FP & FQ & HB). pose proof (N_pos k F) as NP.
  pose proof F as [kP kQ kN oP oQ kE kR kqp kDP kDQ]. pose proof (odd_ge3 _ kP oP) as P3. pose proof (odd_ge3 _ kQ oQ) as Q3.
  pose proof (crt_root k F FP FQ i (key_DP k) (key_DQ k) (proj1 (proj1 kDP)) (proj1 (proj1 kDQ)) (proj2 kDP) (proj2 kDQ)) as R. cbn zeta in R.
  unfold RSA_eay_mod_exp. cbv zeta. rewrite !bn_mod_exp by lia.
  rewrite (pow_mod_base (i mod key_Q k) i (key_DQ k) (key_Q k)) by (first [apply Zmod_mod|lia]).
  rewrite (pow_mod_base (i mod key_P k) i (key_DP k) (key_P k)) by (first [apply Zmod_mod|lia]).
  set (t2 := i ^ key_DQ k mod key_Q k) in *. set (t1 := i ^ key_DP k mod key_P k) in *.
  rewrite rem_fix by lia.
  assert (Y : ((if t1 - t2 <? 0 then t1 - t2 + key_P k else t1 - t2) * key_QP k) mod key_P k = ((t1 - t2) * key_QP k) mod key_P k).
  { destruct (t1 - t2 <? 0); [|reflexivity]. rewrite Z.mul_add_distr_r, (Z.mul_comm (key_P k)). apply Z_mod_plus_full. }
  rewrite Y. rewrite Z.add_comm in R. set (y := ((t1 - t2) * key_QP k) mod key_P k * key_Q k + t2) in *. clearbody y.
  destruct R as [B E]. rewrite Zminus_mod, Zmod_mod, E, Z.sub_diag, Zmod_0_l. change (0 =? 0) with true. cbn iota.
  split; assumption.
Qed.

Lemma decrypt_ok g inp : zlen g = 256 -> zlen inp = 256 ->
  RSA_private_decrypt inp g k = if N <=? be_decode inp then Ok (-1, g) else Ok (256, message (RSA_eay_mod_exp k (be_decode inp))).
Proof using HK.
  intros Lg Li. destruct (tdp_key_facts k HK) as (F & FP & FQ & HB).
  unfold RSA_private_decrypt. cbv zeta. rewrite (o_len (key_pub k) HB), Li. change (256 <? 256) with false. cbn iota.
  fold N. destruct (N <=? be_decode inp); [reflexivity|].
  change (be_encode (Z.to_nat 256) (RSA_eay_mod_exp k (be_decode inp))) with (message (RSA_eay_mod_exp k (be_decode inp))).
  rewrite wr_all by (rewrite message_len; congruence). reflexivity.
Qed.
Lemma o_invert_ok o g inp : oi_key o = k -> zlen g = 256 -> zlen inp = 256 -> be_decode inp < N ->
  ossl_invert o g inp = Ok (message (RSA_eay_mod_exp k (be_decode inp))) /\
  ossl_invert_string o g inp = Ok (message (RSA_eay_mod_exp k (be_decode inp))).
Proof using HK.
  intros E Lg Li Hx. unfold ossl_invert, ossl_invert_string. rewrite E, decrypt_ok by assumption. rewrite (proj2 (Z.leb_gt _ _) Hx). cbn [bind].
  split; [reflexivity|]. rewrite Li. change (negb (256 =? kMessageSize)) with false. cbn iota. change (256 <? 0) with false. cbn iota.
  apply rd_all. symmetry. apply message_len.
Qed.
Lemma o_invert_out o g inp : oi_key o = k -> zlen g = 256 -> zlen inp = 256 -> N <= be_decode inp ->
  ossl_invert o g inp = Ok g /\ ossl_invert_string o g inp = Throw RuntimeError.
Proof using HK.
  intros E Lg Li Hx. unfold ossl_invert, ossl_invert_string. rewrite E, decrypt_ok by assumption. rewrite (proj2 (Z.leb_le _ _) Hx). cbn [bind].
  split; [reflexivity|]. rewrite Li. reflexivity.
Qed.

Lemma o_repeat_root o g : oi_key o = k -> zlen g = 256 -> forall n inp, is_bytes inp -> zlen inp = 256 -> be_decode inp < N ->
  exists y, repeat_call n (ossl_invert o g) inp = Ok (message y) /\ nroot k n (be_decode inp) y.
Proof using HK.
  intros E Lg. destruct (tdp_key_facts k HK) as (F & FP & FQ & HB). destruct (bits2048_facts _ HB) as (L & N2 & NS).
  induction n as [|n IH]; intros inp Hi Li Hx.
  - exists (be_decode inp). cbn [repeat_call]. split; [f_equal; now apply message_of|].
    pose proof (decode_range inp Hi Li). split; [unfold N in Hx; lia|]. change (Z.of_nat 0) with 0. now rewrite Z.pow_0_r, Z.pow_1_r.
  - cbn [repeat_call]. rewrite (proj1 (o_invert_ok o g inp E Lg Li Hx)). cbn [bind].
    destruct (eay_root (be_decode inp)) as [Bz Ez]. set (z := RSA_eay_mod_exp k (be_decode inp)) in *. clearbody z.
    destruct (IH (message z) (message_bytes z) (message_len z)) as (y & -> & [By Ey]).
    { rewrite message_decode by lia. unfold N. lia. }
    rewrite message_decode in Ey by lia.
    exists y. split; [reflexivity|]. split; [exact By|].
    rewrite Nat2Z.inj_succ, Z.pow_succ_r by lia. destruct F as [kP kQ kN oP oQ kE kR kqp kDP kDQ].
    assert (0 <= key_E k ^ Z.of_nat n) by (apply Z.pow_nonneg; lia).
    rewrite Z.mul_comm, Z.pow_mul_r by lia.
    rewrite (pow_mod_base _ z) by (first [exact Ey|lia]). exact Ez.
Qed.

(** The exponents of invert_mult are those of the implementation with mbedTLS *)
Lemma exponent_mod d dp m order : 1 < m -> 0 <= order -> dp = d mod m -> d ^ order mod m = dp ^ order mod m.
Proof. intros Hm Ho ->. symmetry. apply pow_mod_base; [lia|exact Ho|apply Zmod_mod]. Qed.

Lemma o_mult_mbed inp order : is_bytes inp -> zlen inp = 256 -> 0 <= order < 2 ^ 32 ->
  ossl_invert_mult (ossl_members k) inp order = tdp_invert_mult k inp order.
Proof using HK.
  intros Hi Li Ho. destruct (Z.eq_dec order 0) as [->|On]; [reflexivity|].
  destruct (invert_mult_root k HK inp order Hi Li ltac:(lia)) as (y & E & [By _]).
  destruct (tdp_key_facts k HK) as (F & FP & FQ & HB). destruct (bits2048_facts _ HB) as (L & N2 & NS).
  rewrite E. unfold tdp_invert_mult in E. rewrite (proj2 (Z.eqb_neq order 0)) in E by lia. rewrite (bits2048_len (key_pub k) HB) in E.
  change (kMessageSize =? 256) with true in E. cbn [negb] in E. rewrite read_256 in E by assumption. cbn [throw_if_err bind ret] in E.
  unfold ossl_invert_mult. cbv zeta. cbn [ossl_members oi_key oi_p_1 oi_q_1]. rewrite (proj2 (Z.eqb_neq order 0)) by lia.
  rewrite (o_len (key_pub k) HB). change (kMessageSize =? 256) with true. cbn [negb].
  destruct F as [kP kQ kN oP oQ kE kR kqp kDP kDQ]. pose proof (odd_ge3 _ kP oP) as P3. pose proof (odd_ge3 _ kQ oQ) as Q3.
  destruct HK as ((_ & _ & _ & _ & _ & _ & EDP & EDQ & _) & _).
  rewrite !bn_mod_exp by lia. unfold BN_mod_sub, BN_mod_mul. rewrite (proj2 (Z.eqb_neq (key_P k) 0)) by lia. rewrite (Z.abs_eq (key_P k)) by lia.
  unfold invert_mult_core in E. rewrite !insecure_mod_exp_ok in E by lia. rewrite !bindr_ret in E.
  pose proof (Z.mod_pos_bound (key_DP k ^ order) (key_P k - 1) ltac:(lia)) as MP. pose proof (Z.mod_pos_bound (key_DQ k ^ order) (key_Q k - 1) ltac:(lia)) as MQ.
  rewrite !exp_mod_ok in E by (first [assumption|clear - P3 Q3 MP MQ; lia]). rewrite !bindr_ret in E. rewrite mod_ok in E by lia. rewrite !bindr_ret in E.
  rewrite (exponent_mod (key_D k) (key_DP k) (key_P k - 1) order) by (first [assumption|lia]).
  rewrite (exponent_mod (key_D k) (key_DQ k) (key_Q k - 1) order) by (first [assumption|lia]).
  set (t1 := be_decode inp ^ (key_DP k ^ order mod (key_P k - 1)) mod key_P k) in *.
  set (t2 := be_decode inp ^ (key_DQ k ^ order mod (key_Q k - 1)) mod key_Q k) in *.
  rewrite (Zmult_mod (t1 - t2)) in E. rewrite (Zmult_mod ((t1 - t2) mod key_P k)), Zmod_mod.
  set (h := ((t1 - t2) mod key_P k * (key_QP k mod key_P k)) mod key_P k) in *.
  assert (Bh : 0 <= h < key_P k) by (apply Z.mod_pos_bound; lia).
  assert (B2 : 0 <= t2 < key_Q k) by (apply Z.mod_pos_bound; lia).
  assert (BV : 0 <= t2 + h * key_Q k < space).
  { clearbody h t2. clear - Bh B2 kN NS. revert NS. generalize space. rewrite kN. intros sp NS.
    assert (t2 + h * key_Q k < key_P k * key_Q k) by nia. split; [nia|]. lia. }
  unfold kMessageSize in E. rewrite write_256 in E by exact BV. cbn [throw_if_err bind ret] in E. rewrite <- E.
  rewrite Z.add_comm. apply put_ok. exact BV.
Qed.
End Inv.
