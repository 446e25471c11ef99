(** The writers of src/mbedtls/asn1write.c and src/mbedtls/rsa_io.c for RSA keys, public_key() and private_key() of src/tdp_impl/tdp_impl_mbedtls.cpp and the serialization of
    src/tdp.cpp once more, from the context of limbs.  RsaKeyModel.v and TdpKeyModel.v start from integers; the functions that do not touch a number are the same. *)
From Verif Require Import Base StrstrModel MpiModel LimbModel LimbModel2 Base64Model PemModel AsnModel RsaKeyModel TdpKeyModel LimbRsaModel LimbKeyModel.

(** mbedtls_asn1_write_mpi, asn1write.c:132-166 *)
Definition l_asn1_write_mpi (b : bytes) (p : Z) (X : mpi) : wres :=
  len <- l_size X ;;
  if (p <? 0) || (p <? len) then err ERR_ASN1_BUF_TOO_SMALL
  else
    let p := p - len in
    old <- rd b p len ;;
    bs <-? l_write_binary X old ;;
    b <- wr b p bs ;;
    top <- (if ms X =? 1 then c <- rd1 b p ;; Ok (negb (Z.land c 0x80 =? 0)) else Ok false) ;;
    if (top : bool) then
      if p <? 1 then err ERR_ASN1_BUF_TOO_SMALL
      else '(b, p) <- push b p 0 ;; asn1_write_header b p (len + 1) TAG_INTEGER
    else asn1_write_header b p len TAG_INTEGER.
(** pk_write_rsa_pubkey, rsa_io.c:100-114 *)
Definition l_write_rsa_pubkey (b : bytes) (c : Z) (x : rsa_ctx) : wres :=
  '(b, c, l1) <-? l_asn1_write_mpi b c (c_E x) ;;
  '(b, c, l2) <-? l_asn1_write_mpi b c (c_N x) ;;
  asn1_write_header b c (l1 + l2) TAG_CONSTRUCTED_SEQUENCE.
(** mbedtls_rsa_write_pubkey_der, rsa_io.c:116-160 *)
Definition l_write_pubkey_der (x : rsa_ctx) (b : bytes) (size : Z) : res (bytes * Z) :=
  '(b, c, len) <-? l_write_rsa_pubkey b size x ;;
  if c <? 1 then err ERR_ASN1_BUF_TOO_SMALL
  else
    '(b, c) <- push b c 0 ;;
    '(b, c, len) <-? asn1_write_header b c (len + 1) TAG_BIT_STRING ;;
    '(b, c, l) <-? asn1_write_algorithm_identifier b c rsa_oid ;;
    '(b, c, len) <-? asn1_write_header b c (len + l) TAG_CONSTRUCTED_SEQUENCE ;;
    ret (b, len).
(** mbedtls_rsa_write_key_der, rsa_io.c:207-230 *)
Definition l_write_key_der (x : rsa_ctx) (b : bytes) (size : Z) : res (bytes * Z) :=
  '(b, c, l1) <-? l_asn1_write_mpi b size (c_QP x) ;;
  '(b, c, l2) <-? l_asn1_write_mpi b c (c_DQ x) ;;
  '(b, c, l3) <-? l_asn1_write_mpi b c (c_DP x) ;;
  '(b, c, l4) <-? l_asn1_write_mpi b c (c_Q x) ;;
  '(b, c, l5) <-? l_asn1_write_mpi b c (c_P x) ;;
  '(b, c, l6) <-? l_asn1_write_mpi b c (c_D x) ;;
  '(b, c, l7) <-? l_asn1_write_mpi b c (c_E x) ;;
  '(b, c, l8) <-? l_asn1_write_mpi b c (c_N x) ;;
  '(b, c, l9) <-? asn1_write_int b c 0 ;;
  '(b, c, len) <-? asn1_write_header b c (l1 + l2 + l3 + l4 + l5 + l6 + l7 + l8 + l9) TAG_CONSTRUCTED_SEQUENCE ;;
  ret (b, len).

Section Alloc.
Context (alloc : Z -> bool).
(** TdpImpl_mbedTLS::public_key, tdp_impl_mbedtls.cpp:127-147; mbedtls_rsa_write_pubkey_pem, rsa_io.c:174-194 *)
Definition l_tdp_public_key (der buf : bytes) (x : rsa_ctx) : outcome bytes :=
  out <- throw_if_err (write_pem alloc (begin_public ++ [chLF]) (end_public ++ [chLF]) (l_write_pubkey_der x der RSA_PUB_DER_MAX_BYTES) RSA_PUB_DER_MAX_BYTES buf tdp_buf_size) ;;
  c_string out.
(** TdpInverseImpl_mbedTLS::private_key, tdp_impl_mbedtls.cpp:450-467; mbedtls_rsa_write_key_pem, rsa_io.c:232-253 *)
Definition l_tdp_private_key (der buf : bytes) (x : rsa_ctx) : outcome bytes :=
  out <- throw_if_err (write_pem alloc (begin_rsa_private ++ [chLF]) (end_rsa_private ++ [chLF]) (l_write_key_der x der RSA_PRV_DER_MAX_BYTES) RSA_PRV_DER_MAX_BYTES buf tdp_buf_size) ;;
  c_string out.
(** TdpInverse::serialized_size, tdp.hpp:587-590 (noexcept) *)
Definition l_tdp_serialized_size (der buf : bytes) (x : rsa_ctx) : outcome Z :=
  match l_tdp_private_key der buf x with
  | Throw _ => Abort
  | o => sk <- o ;; Ok (zlen sk)
  end.
(** TdpInverse::serialize, tdp.cpp:288-293 *)
Definition l_tdp_serialize (der buf : bytes) (x : rsa_ctx) (out : bytes) : outcome bytes :=
  sk <- l_tdp_private_key der buf x ;; wr out 0 sk.
(** TdpInverse::deserialize, tdp.cpp:296-329: the object and n_bytes_read *)
Definition l_tdp_deserialize (buf : bytes) (in_size : Z) : outcome (rsa_ctx * (mpi * mpi) * Z) :=
  r <- strstrn buf in_size tdp_key_suffix tdp_suffix_size ;;
  match r with
  | None => Throw RuntimeError
  | Some pos =>
    if pos <=? 0 then Throw RuntimeError
    else
      let n := u64 (tdp_suffix_size + pos) in
      sk <- rd buf 0 (pos + tdp_suffix_size) ;;
      x <- l_tdp_from_private alloc sk ;;
      n <- (if n <? in_size then c <- rd1 buf n ;; Ok (if c =? 10 then u64 (n + 1) else n) else Ok n) ;;
      Ok (x, n)
  end.
End Alloc.
