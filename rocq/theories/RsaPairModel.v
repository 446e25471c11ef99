(** Model of mbedtls_rsa_check_pub_priv of src/mbedtls/rsa.c and of the functions of src/mbedtls/pk_wrap.c that use it, on numbers made of limbs *)
From Verif Require Import Base MpiModel LimbModel RsaKeyModel LimbRsaModel.

(** mbedtls_rsa_check_pub_priv, rsa.c:255-271 *)
Definition l_check_pub_priv (pub prv : rsa_ctx) : res unit :=
  r <- l_check_pubkey pub ;;
  match r with
  | inl _ => err ERR_RSA_KEY_CHECK_FAILED
  | inr _ =>
    r <- l_check_privkey prv ;;
    match r with
    | inl _ => err ERR_RSA_KEY_CHECK_FAILED
    | inr _ =>
      a <- l_cmp (c_N pub) (c_N prv) ;;
      if negb (a =? 0) then err ERR_RSA_KEY_CHECK_FAILED
      else
        b <- l_cmp (c_E pub) (c_E prv) ;;
        if negb (b =? 0) then err ERR_RSA_KEY_CHECK_FAILED else ret tt
    end
  end.
(** rsa_check_pair_wrap, pk_wrap.c:58-62 *)
Definition l_rsa_check_pair (pub prv : rsa_ctx) : res unit := l_check_pub_priv pub prv.
(** rsa_get_bitlen, pk_wrap.c:53-56: len is a size_t *)
Definition rsa_get_bitlen (c : rsa_ctx) : Z := u64 (8 * c_len c).
