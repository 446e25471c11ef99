(** Lemmas on the implementation with OpenSSL: pools, generation, agreement with the implementation with mbedTLS. *)
From Coq Require Import Znumtheory Zpow_facts Lia.
From Verif Require Import Base BaseFacts MpiModel MpiProofs RsaKeyModel RsaKeySpec TdpKeyModel TdpModel TdpSpec FermatProofs RsaMathProofs TdpProofs TdpProofs2
  TdpProofs3 TdpProofs4 KeyVal HmacModel HmacSpec HmacProofs2 OsslModel OsslSpec OsslProofs.

(** * Pools *)
Definition key_times (k : rsa_pub) (n : Z) : rsa_pub := {| pub_N := pub_N k; pub_E := pub_E k * 65537 ^ n |}.
Lemma loop_length : forall n k, length (ossl_pool_loop n k) = n.
Proof. induction n; intros k; cbn [ossl_pool_loop length]; [reflexivity|now rewrite IHn]. Qed.
Lemma loop_nth : forall n k i, (i < n)%nat -> nth_error (ossl_pool_loop n k) i = Some (key_times k (Z.of_nat i + 1)).
Proof.
  induction n as [|n IH]; intros k i Hi; [lia|]. cbn [ossl_pool_loop]. destruct i as [|i]; cbn [nth_error].
  - unfold key_times. change (Z.of_nat 0 + 1) with 1. rewrite Z.pow_1_r. reflexivity.
  - rewrite IH by lia. f_equal. unfold key_times, next_key, RSAPublicKey_dup. cbn [pub_N pub_E]. f_equal.
    change RSA_PK with 65537. rewrite Nat2Z.inj_succ. replace (Z.succ (Z.of_nat i) + 1) with (Z.succ (Z.of_nat i + 1)) by lia.
    rewrite Z.pow_succ_r by lia. ring.
Qed.
Lemma opool_new k size : 1 < size < 256 -> ossl_pool_new k size = Ok {| op_key := k; op_keys := ossl_pool_loop (Z.to_nat (size - 1)) k |}.
Proof.
  intros H. unfold ossl_pool_new, u8. cbv zeta. rewrite (Z.mod_small (size - 1)) by lia.
  rewrite (proj2 (Z.eqb_neq size 0)), (proj2 (Z.eqb_neq (size - 1) 0)) by lia. do 2 f_equal.
  replace (Z.to_nat (size - 1)) with (S (Z.to_nat (size - 1 - 1))) by lia. reflexivity.
Qed.
Lemma opool_new_0 k : ossl_pool_new k 0 = Throw InvalidArgument.
Proof. reflexivity. Qed.
Lemma opool_new_1 k : ossl_pool_new k 1 = UB.
Proof. reflexivity. Qed.
Lemma opool_inv k size p : 0 <= size < 256 -> ossl_pool_new k size = Ok p ->
  1 < size /\ p = {| op_key := k; op_keys := ossl_pool_loop (Z.to_nat (size - 1)) k |}.
Proof.
  intros Hs H. destruct (Z.eq_dec size 0) as [->|]; [discriminate|]. destruct (Z.eq_dec size 1) as [->|]; [discriminate|].
  rewrite opool_new in H by lia. injection H as <-. split; [lia|reflexivity].
Qed.
Lemma opool_max k size p : 0 <= size < 256 -> ossl_pool_new k size = Ok p -> ossl_maximum_order p = size.
Proof.
  intros Hs H. destruct (opool_inv _ _ _ Hs H) as [S1 ->]. unfold ossl_maximum_order, zlen. cbn [op_keys]. rewrite loop_length. unfold u8.
  rewrite Z.mod_small; lia.
Qed.
Lemma opool_sizes k size : 2 <= size < 256 -> exists p, ossl_pool_new k size = Ok p /\ ossl_maximum_order p = size /\ op_key p = k.
Proof.
  intros H. eexists. split; [apply opool_new; lia|]. split; [|reflexivity]. apply (opool_max k size); [lia|]. apply opool_new. lia.
Qed.

Lemma encrypt_ok k inp g : bits2048 (pub_N k) -> zlen g = 256 -> zlen inp = 256 ->
  RSA_public_encrypt inp g k = if (pub_N k <=? pub_E k) || (pub_N k <=? be_decode inp) then Ok (-1, g)
                               else Ok (256, message (be_decode inp ^ pub_E k mod pub_N k)).
Proof.
  intros HB Lg Li. destruct (bits2048_facts _ HB) as (_ & N2 & NS).
  unfold RSA_public_encrypt. cbv zeta. change (BN_num_bits (pub_N k)) with (mpi_bitlen (pub_N k)). rewrite (bits2048_bitlen _ HB).
  change (16384 <? 2048) with false. change (3072 <? 2048) with false. cbn iota. cbn [andb].
  rewrite (o_len k HB), Li. change (negb (256 =? 256)) with false. cbn iota.
  destruct (pub_N k <=? pub_E k); [reflexivity|]. cbn [orb]. destruct (pub_N k <=? be_decode inp); [reflexivity|].
  rewrite bn_mod_exp by lia. change (be_encode (Z.to_nat 256)) with message.
  rewrite wr_all by (rewrite message_len; congruence). reflexivity.
Qed.

Lemma opool_eval_val k size p g inp order : bits2048 (pub_N k) -> 0 <= size < 256 -> ossl_pool_new k size = Ok p ->
  zlen g = 256 -> zlen inp = 256 -> 1 <= order <= size ->
  ossl_pool_eval p g inp order =
    if (pub_N k <=? pub_E k * 65537 ^ (order - 1)) || (pub_N k <=? be_decode inp) then Ok g
    else Ok (message (be_decode inp ^ (pub_E k * 65537 ^ (order - 1)) mod pub_N k)).
Proof.
  intros HB Hs Hp Lg Li Ho. pose proof (opool_max _ _ _ Hs Hp) as M. destruct (opool_inv _ _ _ Hs Hp) as [S1 Ep].
  unfold ossl_pool_eval. rewrite M.
  assert (K : (if order =? 1 then Ok (op_key p) else if order <=? size then
      if (0 <=? order - 2) && (order - 2 <? zlen (op_keys p)) then
        match nth_error (op_keys p) (Z.to_nat (order - 2)) with Some k => Ok k | None => UB end else UB else Throw InvalidArgument)
    = Ok (key_times k (order - 1))).
  { rewrite Ep. cbn [op_key op_keys]. unfold zlen. rewrite loop_length. destruct (order =? 1) eqn:C.
    - apply Z.eqb_eq in C. subst order. f_equal. unfold key_times. change (1 - 1) with 0. rewrite Z.pow_0_r, Z.mul_1_r. now destruct k.
    - apply Z.eqb_neq in C. rewrite (proj2 (Z.leb_le order size)), (proj2 (Z.leb_le 0 _)), (proj2 (Z.ltb_lt _ _)) by lia. cbn [andb].
      rewrite loop_nth by lia. do 2 f_equal. lia. }
  rewrite K. cbn [bind]. rewrite (encrypt_ok (key_times k (order - 1))) by assumption. cbn [key_times pub_N pub_E].
  destruct (_ || _); reflexivity.
Qed.
Lemma opool_eval_order_0 p g inp : ossl_pool_eval p g inp 0 = UB.
Proof.
  unfold ossl_pool_eval. change (0 =? 1) with false. cbn iota. unfold ossl_maximum_order, u8.
  pose proof (Z.mod_pos_bound (zlen (op_keys p) + 1) (2 ^ 8) ltac:(reflexivity)) as B.
  rewrite (proj2 (Z.leb_le 0 _)) by lia. reflexivity.
Qed.
Lemma opool_eval_large p g inp order : ossl_maximum_order p < order -> order <> 1 -> ossl_pool_eval p g inp order = Throw InvalidArgument.
Proof. intros H1 H2. unfold ossl_pool_eval. rewrite (proj2 (Z.eqb_neq order 1)), (proj2 (Z.leb_gt _ _)) by assumption. reflexivity. Qed.
Lemma opool_eval_string p g s order : bits2048 (pub_N (op_key p)) ->
  ossl_pool_eval_string p g s order = if zlen s =? 256 then ossl_pool_eval p g s order else Throw InvalidArgument.
Proof.
  intros HB. unfold ossl_pool_eval_string. rewrite (o_len (op_key p) HB). destruct (zlen s =? 256) eqn:E; cbn [negb]; [|reflexivity].
  apply Z.eqb_eq in E. unfold kMessageSize. now rewrite str_data_rd.
Qed.

Lemma pk_pow_small N order : bits2048 N -> 1 <= order <= 127 -> 65537 * 65537 ^ (order - 1) < N.
Proof.
  intros [A _] Ho. apply Z.lt_le_trans with (2 ^ 2047); [|exact A]. rewrite <- Z.pow_succ_r by lia.
  apply Z.le_lt_trans with (65537 ^ 127); [apply Z.pow_le_mono_r; lia|]. vm_compute. reflexivity.
Qed.
Lemma pk_pow_large N order : bits2048 N -> 128 <= order -> N <= 65537 * 65537 ^ (order - 1).
Proof.
  intros [_ B] Ho. apply Z.le_trans with (2 ^ 2048); [now apply Z.lt_le_incl|]. rewrite <- Z.pow_succ_r by lia.
  apply Z.le_trans with (65537 ^ 128); [vm_compute; discriminate|]. apply Z.pow_le_mono_r; lia.
Qed.
Lemma opool_eval_times k size p g inp order : bits2048 (pub_N k) -> pub_E k = 65537 -> 0 <= size < 256 -> ossl_pool_new k size = Ok p ->
  zlen g = 256 -> is_bytes inp -> zlen inp = 256 -> be_decode inp < pub_N k -> 1 <= order <= size -> order <= 127 ->
  ossl_pool_eval p g inp order = repeat_call (Z.to_nat order) (ossl_eval k) inp.
Proof.
  intros HB He Hs Hp Lg Hi Li Hx Ho Ho2. rewrite (opool_eval_val k size) by assumption.
  rewrite (proj2 (Z.leb_gt (pub_N k) (be_decode inp)) Hx). rewrite He.
  rewrite (proj2 (Z.leb_gt _ _) (pk_pow_small (pub_N k) order HB ltac:(lia))). cbn [orb].
  replace (Z.to_nat order) with (S (Z.to_nat (order - 1))) by lia. rewrite o_repeat_eval by (first [assumption|lia]).
  do 4 f_equal. rewrite He. rewrite Nat2Z.inj_succ, Z.pow_succ_r by lia. do 2 f_equal. lia.
Qed.
Lemma opool_eval_uninit k size p g inp order : bits2048 (pub_N k) -> pub_E k = 65537 -> 0 <= size < 256 -> ossl_pool_new k size = Ok p ->
  zlen g = 256 -> zlen inp = 256 -> 1 <= order <= size -> 128 <= order \/ pub_N k <= be_decode inp ->
  ossl_pool_eval p g inp order = Ok g.
Proof.
  intros HB He Hs Hp Lg Li Ho Hc. rewrite (opool_eval_val k size) by assumption. rewrite He. destruct Hc as [Hc|Hc].
  - rewrite (proj2 (Z.leb_le _ _) (pk_pow_large (pub_N k) order HB Hc)). reflexivity.
  - rewrite (proj2 (Z.leb_le _ _) Hc), orb_true_r. reflexivity.
Qed.

(** * Copies *)
Lemma dup_id k : RSAPublicKey_dup k = k.
Proof. now destruct k. Qed.
Lemma copy_id p : ossl_pool_copy p = p.
Proof.
  destruct p as [k ks]. unfold ossl_pool_copy, ossl_copy. cbn [op_key op_keys]. rewrite dup_id. f_equal.
  rewrite (map_ext _ (fun x => x)) by apply dup_id. apply map_id.
Qed.
Lemma assign_val p t : ossl_pool_assign p t = {| op_key := op_key p; op_keys := op_keys t |}.
Proof. unfold ossl_pool_assign. f_equal. rewrite (map_ext _ (fun x => x)) by apply dup_id. apply map_id. Qed.

(** * Generation *)
Lemma bn_rem_ok r m d : 0 <= m -> 0 < d -> BN_rem r m d = m mod d.
Proof. intros Hm Hd. unfold BN_rem. rewrite (proj2 (Z.eqb_neq d 0)) by lia. apply Z.rem_mod_nonneg; lia. Qed.
Lemma o_generate_ok H ml gp kb l seed r t k : bits2048 (pub_N k) -> (forall y, zlen (H y) = 64 /\ is_bytes (H y)) -> sized gp -> zlen kb = 32 ->
  zlen seed < 2 ^ 63 -> zlen r = 264 -> zlen t = zlen seed + 1 ->
  ossl_generate H ml gp r t k (VKey kb l) seed =
    (VKey kb ml, Ok (message (be_decode (ctr_mode (rfc_hmac H 128 kb) seed 264) mod pub_N k))).
Proof.
  intros HB HH Hg Lk Ls Lr Lt. destruct (bits2048_facts _ HB) as (L & N2 & NS).
  unfold ossl_generate, prf_string, kRSAPrfSize. rewrite <- (app_nil_r seed) at 1.
  rewrite prf_ctr by (first [assumption|lia|intros; apply HH]).
  change (264 <=? 64) with false. cbn iota. change (Z.to_nat 264) with 264%nat.
  set (o := ctr_mode _ seed 264).
  assert (Bo : is_bytes o).
  { unfold o, ctr_mode. apply is_bytes_firstn. apply Forall_concat. apply Forall_forall. intros b Hb. apply in_map_iff in Hb.
    destruct Hb as (i & <- & _). apply HH. }
  pose proof (be_decode_range o Bo) as R. f_equal. cbn [bind]. rewrite bn_rem_ok by lia.
  pose proof (Z.mod_pos_bound (be_decode o) (pub_N k) ltac:(lia)). apply put_ok. lia.
Qed.
Lemma o_generate H ml gp kb l seed r t k : bits2048 (pub_N k) -> (forall y, zlen (H y) = 64 /\ is_bytes (H y)) -> sized gp -> zlen kb = 32 ->
  zlen seed < 2 ^ 63 -> zlen r = 264 -> zlen t = zlen seed + 1 ->
  ossl_generate H ml gp r t k (VKey kb l) seed = tdp_generate H ml gp r t k (VKey kb l) seed /\
  ossl_generate_key H ml gp r t k (VKey kb l) seed = tdp_generate_key H ml gp r t k (VKey kb l) seed.
Proof.
  intros. rewrite generate_key_ok by assumption. unfold ossl_generate_key. cbn [prf_ctor v_is_empty].
  rewrite generate_ok by assumption. rewrite !o_generate_ok by assumption. split; reflexivity.
Qed.
