(** C135: mbedtls_rsa_check_pub_priv *)
From Verif Require Import Base MpiModel LimbModel LimbSpec RsaKeyModel RsaKeySpec RsaKeyExample TdpSpec TdpExample LimbRsaModel LimbRsaSpec LimbProofs33 RsaKeyProofs3 RsaPairModel RsaPairSpec RsaPairProofs.

(** The check accepts exactly the pairs that belong together, and otherwise returns MBEDTLS_ERR_RSA_KEY_CHECK_FAILED. *)
Theorem C135_check : forall pub prv p k, ctx_pub pub p -> 0 <= pub_N p -> 0 <= pub_E p -> ctx_all prv k ->
  (l_check_pub_priv pub prv = ret tt <-> pair_ok p k) /\ (l_check_pub_priv pub prv = ret tt \/ l_check_pub_priv pub prv = err ERR_RSA_KEY_CHECK_FAILED).
Proof. exact pair_exact. Qed.
Print Assumptions C135_check.
(** With such a pair the private exponent undoes the public one and the other way round. *)
Theorem C135_inverse : forall p k x, pair_ok p k -> 0 <= key_D k -> rsa_factor (key_P k) -> rsa_factor (key_Q k) -> 0 <= x < pub_N p ->
  (x ^ pub_E p mod pub_N p) ^ key_D k mod key_N k = x /\ (x ^ key_D k mod key_N k) ^ pub_E p mod pub_N p = x.
Proof. exact pair_inverse. Qed.
Print Assumptions C135_inverse.

(** A key of 130 bits with itself, with another exponent and with another private exponent; a key of 2048 bits *)
Example C135_example :
  ctx_all (priv_ctx key130) key130 /\ l_check_pub_priv (priv_ctx key130) (priv_ctx key130) = ret tt /\
  l_check_pub_priv (priv_ctx {| key_N := key_N key130; key_E := key_E key130 + 2; key_D := key_D key130; key_P := key_P key130; key_Q := key_Q key130;
                                key_DP := key_DP key130; key_DQ := key_DQ key130; key_QP := key_QP key130 |}) (priv_ctx key130) = err ERR_RSA_KEY_CHECK_FAILED /\
  l_check_pub_priv (priv_ctx key130) (priv_ctx (with_D key130 (key_D key130 + 1))) = err ERR_RSA_KEY_CHECK_FAILED /\
  pair_ok (key_pub tkey) tkey /\ rsa_factor (key_P tkey) /\ rsa_factor (key_Q tkey) /\ 0 <= key_D tkey.
Proof.
  pose proof tkey_ok as (PK & _ & F1 & F2). split; [exact priv_ctx_130|]. split; [vm_compute; reflexivity|]. split; [vm_compute; reflexivity|]. split; [vm_compute; reflexivity|].
  split; [split; [exact (proj1 PK)|]; split; [exact PK | split; reflexivity]|]. split; [exact F1|]. split; [exact F2|]. vm_compute. discriminate.
Qed.
