(** The parsers of src/mbedtls/pkparse.c and src/mbedtls/rsa_io.c and the constructors of src/tdp_impl/tdp_impl_mbedtls.cpp once more, this
    time with the context of limbs they fill in.  RsaKeyModel.v and TdpKeyModel.v return integers instead; the functions that do not touch
    a number (tags, lengths, identifiers, the PEM container) are the same.  mbedtls_pk_setup is assumed to succeed; it returns a context
    fresh from mbedtls_rsa_init. *)
From Verif Require Import Base MpiModel LimbModel LimbModel2 Base64Model PemModel AsnModel RsaKeyModel TdpKeyModel TdpModel LimbRsaModel.

(** mbedtls_asn1_get_mpi, asn1parse.c:171-186, into an object fresh from mbedtls_mpi_init *)
Definition l_asn1_get_mpi (b : bytes) (p e : Z) : res (Z * mpi) :=
  '(p, len) <-? asn1_get_tag b p e TAG_INTEGER ;;
  bs <- rd b p len ;;
  X <-? l_read_binary l_init bs ;;
  ret (p + len, X).
(** pk_get_rsapubkey, pkparse.c:55-84 *)
Definition l_get_rsapubkey (b : bytes) (p e : Z) : res rsa_ctx :=
  '(p, len) <-? err_add ERR_PK_INVALID_PUBKEY (asn1_get_tag b p e TAG_CONSTRUCTED_SEQUENCE) ;;
  if negb (p + len =? e) then err (ERR_PK_INVALID_PUBKEY + ERR_ASN1_LENGTH_MISMATCH)
  else
    '(p, N) <-? err_add ERR_PK_INVALID_PUBKEY (l_asn1_get_mpi b p e) ;;
    '(p, E) <-? err_add ERR_PK_INVALID_PUBKEY (l_asn1_get_mpi b p e) ;;
    if negb (p =? e) then err (ERR_PK_INVALID_PUBKEY + ERR_ASN1_LENGTH_MISMATCH)
    else
      _ <-? err_set ERR_PK_INVALID_PUBKEY
              (l_check_pubkey (MkCtx 0 N E l_init l_init l_init l_init l_init l_init l_init l_init l_init l_init l_init)) ;;
      len <- l_size N ;;
      ret (MkCtx len N E l_init l_init l_init l_init l_init l_init l_init l_init l_init l_init l_init).
(** mbedtls_pk_parse_subpubkey, pkparse.c:135-184 *)
Definition l_parse_subpubkey (b : bytes) (p e : Z) : res rsa_ctx :=
  '(p, len) <-? err_add ERR_PK_KEY_INVALID_FORMAT (asn1_get_tag b p e TAG_CONSTRUCTED_SEQUENCE) ;;
  let e := p + len in
  p <-? pk_get_pk_alg b p e ;;
  '(p, len) <-? err_add ERR_PK_INVALID_PUBKEY (asn1_get_bitstring_null b p e) ;;
  if negb (p + len =? e) then err (ERR_PK_INVALID_PUBKEY + ERR_ASN1_LENGTH_MISMATCH)
  else l_get_rsapubkey b p e.
(** pk_parse_key_pkcs1_der, pkparse.c:190-269 *)
Definition l_parse_pkcs1 (b : bytes) (p keylen : Z) : res rsa_ctx :=
  '(p, len) <-? err_add ERR_PK_KEY_INVALID_FORMAT (asn1_get_tag b p (p + keylen) TAG_CONSTRUCTED_SEQUENCE) ;;
  let e := p + len in
  '(p, ver) <-? err_add ERR_PK_KEY_INVALID_FORMAT (asn1_get_int b p e) ;;
  if negb (ver =? 0) then err ERR_PK_KEY_INVALID_VERSION
  else
    '(p, N) <-? err_add ERR_PK_KEY_INVALID_FORMAT (l_asn1_get_mpi b p e) ;;
    '(p, E) <-? err_add ERR_PK_KEY_INVALID_FORMAT (l_asn1_get_mpi b p e) ;;
    '(p, D) <-? err_add ERR_PK_KEY_INVALID_FORMAT (l_asn1_get_mpi b p e) ;;
    '(p, P) <-? err_add ERR_PK_KEY_INVALID_FORMAT (l_asn1_get_mpi b p e) ;;
    '(p, Q) <-? err_add ERR_PK_KEY_INVALID_FORMAT (l_asn1_get_mpi b p e) ;;
    '(p, DP) <-? err_add ERR_PK_KEY_INVALID_FORMAT (l_asn1_get_mpi b p e) ;;
    '(p, DQ) <-? err_add ERR_PK_KEY_INVALID_FORMAT (l_asn1_get_mpi b p e) ;;
    '(p, QP) <-? err_add ERR_PK_KEY_INVALID_FORMAT (l_asn1_get_mpi b p e) ;;
    len <- l_size N ;;
    if negb (p =? e) then err (ERR_PK_KEY_INVALID_FORMAT + ERR_ASN1_LENGTH_MISMATCH)
    else
      let c := MkCtx len N E D P Q DP DQ QP l_init l_init l_init l_init l_init in
      _ <-? l_check_privkey c ;;
      ret c.
(** pk_parse_key_pkcs8_unencrypted_der, pkparse.c:275-352 *)
Definition l_parse_pkcs8 (b : bytes) (keylen : Z) : res rsa_ctx :=
  '(p, len) <-? err_add ERR_PK_KEY_INVALID_FORMAT (asn1_get_tag b 0 keylen TAG_CONSTRUCTED_SEQUENCE) ;;
  let e := p + len in
  '(p, ver) <-? err_add ERR_PK_KEY_INVALID_FORMAT (asn1_get_int b p e) ;;
  if negb (ver =? 0) then err ERR_PK_KEY_INVALID_VERSION
  else
    p <-? err_add ERR_PK_KEY_INVALID_FORMAT (pk_get_pk_alg b p e) ;;
    '(p, len) <-? err_add ERR_PK_KEY_INVALID_FORMAT (asn1_get_tag b p e TAG_OCTET_STRING) ;;
    if len <? 1 then err (ERR_PK_KEY_INVALID_FORMAT + ERR_ASN1_OUT_OF_DATA)
    else l_parse_pkcs1 b p len.

Section Alloc.
Context (alloc : Z -> bool).
(** mbedtls_pk_parse_key, pkparse.c:357-458 *)
Definition l_parse_key (key : bytes) (keylen : Z) : res rsa_ctx :=
  r <- read_pem alloc begin_rsa_private end_rsa_private key keylen ;;
  match r with
  | inr buf => l_parse_pkcs1 buf 0 (zlen buf)
  | inl e =>
    if negb (e =? ERR_PEM_NO_HEADER_FOOTER_PRESENT) then err e
    else
      r <- read_pem alloc begin_private end_private key keylen ;;
      match r with
      | inr buf => l_parse_pkcs8 buf (zlen buf)
      | inl e =>
        if negb (e =? ERR_PEM_NO_HEADER_FOOTER_PRESENT) then err e
        else
          r <- l_parse_pkcs8 key keylen ;;
          match r with
          | inr c => ret c
          | inl _ =>
            r <- l_parse_pkcs1 key 0 keylen ;;
            match r with
            | inr c => ret c
            | inl _ => err ERR_PK_KEY_INVALID_FORMAT
            end
          end
      end
  end.
(** mbedtls_pk_parse_public_key, pkparse.c:463-509 *)
Definition l_parse_public_key (key : bytes) (keylen : Z) : res rsa_ctx :=
  r <- read_pem alloc begin_public end_public key keylen ;;
  match r with
  | inr buf => l_parse_subpubkey buf 0 (zlen buf)
  | inl e =>
    if negb (e =? ERR_PEM_NO_HEADER_FOOTER_PRESENT) then err e
    else l_parse_subpubkey key 0 keylen
  end.
(** TdpImpl_mbedTLS::TdpImpl_mbedTLS(const std::string&), tdp_impl_mbedtls.cpp:71-90; mbedtls_rsa_parse_public_key, rsa_io.c:36-60: the
    context of the parser is copied into the member, the error code of the copy is ignored *)
Definition l_tdp_from_public (pk : bytes) : outcome rsa_ctx :=
  c <- throw_if_err (l_parse_public_key (pk ++ [0]) (zlen pk + 1)) ;;
  c <- l_tdp_assign ctx_init c ;;
  _ <- throw_if_err (l_check_pubkey c) ;;
  Ok c.
(** TdpInverseImpl_mbedTLS::TdpInverseImpl_mbedTLS(const std::string&), tdp_impl_mbedtls.cpp:395-437; mbedtls_rsa_parse_key,
    rsa_io.c:65-90: the context and the members p_1_ and q_1_ (phi_ is not used) *)
Definition l_tdp_from_private (sk : bytes) : outcome (rsa_ctx * (mpi * mpi)) :=
  c <- throw_if_err (l_parse_key (sk ++ [0]) (zlen sk + 1)) ;;
  c <- l_tdp_assign ctx_init c ;;
  _ <- throw_if_err (l_check_pubkey c) ;;
  pq <- l_p1_q1 c ;;
  _ <- throw_if_err (l_mul false false l_init (fst pq) (snd pq)) ;;
  Ok (c, pq).
(** TdpInverseImpl_mbedTLS::TdpInverseImpl_mbedTLS(), tdp_impl_mbedtls.cpp:354-393 *)
Definition l_tdp_new (fuel pf : nat) (f : rng) (n : nat) : outcome (rsa_ctx * (mpi * mpi) * nat) :=
  r <- l_rsa_gen_key fuel pf f RSA_MODULUS_SIZE RSA_PK n ;;
  let '(r, n) := r in
  c <- throw_if_err (Ok r) ;;
  _ <- throw_if_err (l_check_pubkey c) ;;
  pq <- l_p1_q1 c ;;
  _ <- throw_if_err (l_mul false false l_init (fst pq) (snd pq)) ;;
  Ok (c, pq, n).
End Alloc.
