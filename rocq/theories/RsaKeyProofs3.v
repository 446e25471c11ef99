(** The example keys are valid. *)
From Coq Require Import Lia.
From Verif Require Import Base MpiModel RsaKeyModel RsaKeySpec AsnProofs5 RsaKeyExample.

(** The conditions of [private_ok] as a boolean: much cheaper to compute than rsa_check_privkey *)
Definition private_okb (k : rsa_key) : bool :=
  Z.odd (key_N k) && Z.odd (key_E k) && (2 ^ 127 <=? key_N k) && (key_N k <? 2 ^ 8192) && (3 <=? key_E k) && (key_E k <? key_N k)
  && (1 <? key_P k) && (1 <? key_Q k) && (key_N k =? key_P k * key_Q k)
  && ((key_D k * key_E k) mod (Z.lcm (key_P k - 1) (key_Q k - 1)) =? 1)
  && (Z.gcd (key_E k) ((key_P k - 1) * (key_Q k - 1)) =? 1)
  && (key_DP k =? key_D k mod (key_P k - 1)) && (key_DQ k =? key_D k mod (key_Q k - 1))
  && (0 <=? key_QP k) && (key_QP k <? key_P k) && ((key_Q k * key_QP k) mod key_P k =? 1).
Lemma private_okb_ok k : private_okb k = true -> private_ok k.
Proof.
  unfold private_okb. rewrite !andb_true_iff, !Z.eqb_eq, !Z.ltb_lt, !Z.leb_le. unfold private_ok, public_ok. cbn [pub_N pub_E key_pub].
  intuition.
Qed.
Lemma key130_ok : private_ok key130.
Proof. apply private_okb_ok. vm_compute. reflexivity. Qed.
Lemma key2048_ok : private_ok key2048.
Proof. apply private_okb_ok. vm_compute. reflexivity. Qed.
