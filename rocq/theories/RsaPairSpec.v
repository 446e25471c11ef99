(** When a public and a private key belong together *)
From Coq Require Import Znumtheory.
From Verif Require Import Base MpiModel LimbModel LimbSpec RsaKeyModel RsaKeySpec LimbRsaModel LimbRsaSpec.

(** The context holds all numbers of the private key [k] *)
Definition ctx_all (c : rsa_ctx) (k : rsa_key) : Prop :=
  ctx_pub c (key_pub k) /\ holds (c_D c) (key_D k) /\ holds (c_P c) (key_P k) /\ holds (c_Q c) (key_Q k) /\
  holds (c_DP c) (key_DP k) /\ holds (c_DQ c) (key_DQ k) /\ holds (c_QP c) (key_QP k) /\ key_nonneg k.
(** Each key is acceptable on its own, and they have the same modulus and the same exponent *)
Definition pair_ok (p : rsa_pub) (k : rsa_key) : Prop := public_ok p /\ private_ok k /\ pub_N p = key_N k /\ pub_E p = key_E k.
