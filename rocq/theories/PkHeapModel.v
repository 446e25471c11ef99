(** Model of what is allocated and released when keys are read: mbedtls_pk_setup and mbedtls_pk_free (src/mbedtls/pk.c, pk_wrap.c), the parsers of src/mbedtls/pkparse.c,
    mbedtls_rsa_parse_public_key and mbedtls_rsa_parse_key (src/mbedtls/rsa_io.c) and mbedtls_rsa_copy (rsa.c).

    A block is the buffer of a PEM text, the mbedtls_rsa_context of an mbedtls_pk_context, or the limbs of a number.  Releasing a block twice or as another type is [UB].
    [ora n] says whether the n-th allocation succeeds.  The positions and numbers read are those of RsaKeyModel and AsnModel.  Simplifications: the temporary numbers of
    mbedtls_rsa_check_privkey are one allocation that fails or does not; so is reading a PEM text, whose buffer is released again in mbedtls_pem_read_buffer if that fails
    (see PemHeapModel for these); as in RsaKeyModel, an error code is never 0. *)
From Verif Require Import Base MpiModel Base64Model PemModel AsnModel RsaKeyModel TdpKeyModel.

Inductive kind := KBuffer | KContext | KLimbs.
Record cell := MkCell { kind_of : kind; live : bool }.
Record heap := MkHeap { cells : list cell; clock : nat }.
Definition kind_eqb (a b : kind) : bool := match a, b with KBuffer, KBuffer | KContext, KContext | KLimbs, KLimbs => true | _, _ => false end.
Definition set_nth {A} (l : list A) (i : nat) (x : A) : list A := firstn i l ++ x :: skipn (S i) l.
(** mbedtls_free *)
Definition free (k : kind) (h : heap) (i : nat) : outcome heap :=
  match nth_error (cells h) i with
  | Some c => if kind_eqb (kind_of c) k && live c then Ok (MkHeap (set_nth (cells h) i (MkCell k false)) (clock h)) else UB
  | None => UB
  end.
(** The numbers of an mbedtls_rsa_context: their blocks and values, in the order N E D P Q DP DQ QP *)
Definition numbers := list (nat * Z).
(** An mbedtls_pk_context: None is pk_info == NULL *)
Definition pk_context := option (nat * numbers).

Section Allocations.
Context (ora : nat -> bool).
(** mbedtls_calloc *)
Definition ask (h : heap) : heap * bool := (MkHeap (cells h) (S (clock h)), ora (clock h)).
Definition new (k : kind) (h : heap) : heap * option nat :=
  let '(h, ok) := ask h in
  if ok then (MkHeap (cells h ++ [MkCell k true]) (clock h), Some (length (cells h))) else (h, None).
(** mbedtls_rsa_free, rsa.c:599-610 *)
Fixpoint rsa_free (h : heap) (ns : numbers) : outcome heap :=
  match ns with [] => Ok h | (i, _) :: ns => h <- free KLimbs h i ;; rsa_free h ns end.

(** mbedtls_pk_setup, pk.c:91-102, and rsa_alloc_wrap, pk_wrap.c:64-72; pk.h:39 *)
Definition ERR_PK_ALLOC_FAILED : Z := -0x3F80.
Definition ERR_PK_BAD_INPUT_DATA : Z := -0x3E80.
Definition pk_setup (h : heap) (c : pk_context) : heap * pk_context * (Z + unit) :=
  match c with
  | Some _ => (h, c, inl ERR_PK_BAD_INPUT_DATA)
  | None => let '(h, i) := new KContext h in
            match i with None => (h, None, inl ERR_PK_ALLOC_FAILED) | Some i => (h, Some (i, []), inr tt) end
  end.
(** mbedtls_pk_free, pk.c:56-64, and rsa_free_wrap, pk_wrap.c:74-78 *)
Definition pk_free (h : heap) (c : pk_context) : outcome (heap * pk_context) :=
  match c with
  | None => Ok (h, None)
  | Some (i, ns) => h <- rsa_free h ns ;; h <- free KContext h i ;; Ok (h, None)
  end.

(** [n] calls of mbedtls_asn1_get_mpi, each of which allocates the limbs of one number; pkparse.c:70-71, 240-247 *)
Fixpoint get_numbers (n : nat) (b : bytes) (p e : Z) (h : heap) (ns : numbers) : outcome (heap * numbers * (Z + Z)) :=
  match n with
  | O => Ok (h, ns, inr p)
  | S n =>
    r <- asn1_get_mpi b p e ;;
    match r with
    | inl c => Ok (h, ns, inl c)
    | inr (p, v) =>
      let '(h, i) := new KLimbs h in
      match i with
      | None => Ok (h, ns, inl ERR_MPI_ALLOC_FAILED)
      | Some i => get_numbers n b p e h (ns ++ [(i, v)])
      end
    end
  end.
Definition public_of (ns : numbers) : option rsa_pub :=
  match map snd ns with n :: e :: _ => Some {| pub_N := n; pub_E := e |} | _ => None end.
Definition private_of (ns : numbers) : option rsa_key :=
  match map snd ns with
  | [n; e; d; p; q; dp; dq; qp] => Some {| key_N := n; key_E := e; key_D := d; key_P := p; key_Q := q; key_DP := dp; key_DQ := dq; key_QP := qp |}
  | _ => None
  end.
(** mbedtls_rsa_check_pubkey, rsa.c:170-188: a key without numbers is refused *)
Definition check_pubkey (ns : numbers) : res unit :=
  match public_of ns with None => err ERR_RSA_KEY_CHECK_FAILED | Some k => rsa_check_pubkey k end.
(** mbedtls_rsa_check_privkey, rsa.c:193-250 *)
Definition check_privkey (h : heap) (ns : numbers) : outcome (heap * (Z + unit)) :=
  r <- check_pubkey ns ;;
  match r, private_of ns with
  | inl e, _ => Ok (h, inl e)
  | _, None => Ok (h, inl ERR_RSA_KEY_CHECK_FAILED)
  | _, Some k =>
    let '(h, ok) := ask h in
    if ok then r <- rsa_check_privkey k ;; Ok (h, r) else Ok (h, inl (ERR_RSA_KEY_CHECK_FAILED + ERR_MPI_ALLOC_FAILED))
  end.

(** pk_get_rsapubkey, pkparse.c:55-84: the numbers read, and the error if any *)
Definition get_rsapubkey (h : heap) (b : bytes) (p e : Z) : outcome (heap * numbers * (Z + unit)) :=
  r <- asn1_get_tag b p e TAG_CONSTRUCTED_SEQUENCE ;;
  match r with
  | inl c => Ok (h, [], inl (ERR_PK_INVALID_PUBKEY + c))
  | inr (p, len) =>
    if negb (p + len =? e) then Ok (h, [], inl (ERR_PK_INVALID_PUBKEY + ERR_ASN1_LENGTH_MISMATCH))
    else
      '(h, ns, r) <- get_numbers 2 b p e h [] ;;
      match r with
      | inl c => Ok (h, ns, inl (ERR_PK_INVALID_PUBKEY + c))
      | inr p =>
        if negb (p =? e) then Ok (h, ns, inl (ERR_PK_INVALID_PUBKEY + ERR_ASN1_LENGTH_MISMATCH))
        else
          r <- check_pubkey ns ;;
          match r with inl _ => Ok (h, ns, inl ERR_PK_INVALID_PUBKEY) | inr _ => Ok (h, ns, inr tt) end
      end
  end.

(** mbedtls_pk_parse_subpubkey, pkparse.c:135-184 *)
Definition parse_subpubkey (h : heap) (c : pk_context) (b : bytes) (p e : Z) : outcome (heap * pk_context * (Z + unit)) :=
  r <- ('(p, len) <-? err_add ERR_PK_KEY_INVALID_FORMAT (asn1_get_tag b p e TAG_CONSTRUCTED_SEQUENCE) ;;
        let e := p + len in
        p <-? pk_get_pk_alg b p e ;;
        '(p, len) <-? err_add ERR_PK_INVALID_PUBKEY (asn1_get_bitstring_null b p e) ;;
        if negb (p + len =? e) then err (ERR_PK_INVALID_PUBKEY + ERR_ASN1_LENGTH_MISMATCH) else ret (p, e)) ;;
  match r with
  | inl x => Ok (h, c, inl x)
  | inr (p, e) =>
    let '(h, c, r) := pk_setup h c in
    match r, c with
    | inl x, _ => Ok (h, c, inl x)
    | inr _, None => UB
    | inr _, Some (i, ns) =>
      '(h, ns, r) <- get_rsapubkey h b p e ;;
      match r with
      | inr _ => Ok (h, Some (i, ns), inr tt)
      | inl x => '(h, c) <- pk_free h (Some (i, ns)) ;; Ok (h, c, inl x)
      end
    end
  end.

(** pk_parse_key_pkcs1_der, pkparse.c:190-269: into a context without numbers; the numbers it holds afterwards *)
Definition parse_pkcs1 (h : heap) (b : bytes) (p keylen : Z) : outcome (heap * numbers * (Z + unit)) :=
  r <- ('(p, len) <-? err_add ERR_PK_KEY_INVALID_FORMAT (asn1_get_tag b p (p + keylen) TAG_CONSTRUCTED_SEQUENCE) ;;
        let e := p + len in
        '(p, ver) <-? err_add ERR_PK_KEY_INVALID_FORMAT (asn1_get_int b p e) ;;
        if negb (ver =? 0) then err ERR_PK_KEY_INVALID_VERSION else ret (p, e)) ;;
  match r with
  | inl x => Ok (h, [], inl x)
  | inr (p, e) =>
    '(h, ns, r) <- get_numbers 8 b p e h [] ;;
    match r with
    | inl c => h <- rsa_free h ns ;; Ok (h, [], inl (ERR_PK_KEY_INVALID_FORMAT + c))
    | inr p =>
      if negb (p =? e) then h <- rsa_free h ns ;; Ok (h, [], inl (ERR_PK_KEY_INVALID_FORMAT + ERR_ASN1_LENGTH_MISMATCH))
      else
        '(h, r) <- check_privkey h ns ;;
        match r with
        | inl x => h <- rsa_free h ns ;; Ok (h, [], inl x)
        | inr _ => Ok (h, ns, inr tt)
        end
    end
  end.

(** pk_parse_key_pkcs8_unencrypted_der, pkparse.c:275-352 *)
Definition parse_pkcs8 (h : heap) (c : pk_context) (b : bytes) (keylen : Z) : outcome (heap * pk_context * (Z + unit)) :=
  r <- ('(p, len) <-? err_add ERR_PK_KEY_INVALID_FORMAT (asn1_get_tag b 0 keylen TAG_CONSTRUCTED_SEQUENCE) ;;
        let e := p + len in
        '(p, ver) <-? err_add ERR_PK_KEY_INVALID_FORMAT (asn1_get_int b p e) ;;
        if negb (ver =? 0) then err ERR_PK_KEY_INVALID_VERSION
        else
          p <-? err_add ERR_PK_KEY_INVALID_FORMAT (pk_get_pk_alg b p e) ;;
          '(p, len) <-? err_add ERR_PK_KEY_INVALID_FORMAT (asn1_get_tag b p e TAG_OCTET_STRING) ;;
          if len <? 1 then err (ERR_PK_KEY_INVALID_FORMAT + ERR_ASN1_OUT_OF_DATA) else ret (p, len)) ;;
  match r with
  | inl x => Ok (h, c, inl x)
  | inr (p, len) =>
    let '(h, c, r) := pk_setup h c in
    match r, c with
    | inl x, _ => Ok (h, c, inl x)
    | inr _, None => UB
    | inr _, Some (i, ns) =>
      '(h, ns, r) <- parse_pkcs1 h b p len ;;
      match r with
      | inr _ => Ok (h, Some (i, ns), inr tt)
      | inl x => '(h, c) <- pk_free h (Some (i, ns)) ;; Ok (h, c, inl x)
      end
    end
  end.

(** A PEM text is read into a new buffer (pem.buf) *)
Definition new_pem (h : heap) (header footer key : bytes) (keylen : Z) : outcome (heap * (Z + (nat * bytes))) :=
  let '(h, ok) := ask h in
  r <- read_pem (fun _ => ok) header footer key keylen ;;
  match r with
  | inl x => Ok (h, inl x)
  | inr buf => Ok (MkHeap (cells h ++ [MkCell KBuffer true]) (clock h), inr (length (cells h), buf))
  end.

(** mbedtls_pk_parse_key, pkparse.c:357-458 *)
Definition parse_key (h : heap) (c : pk_context) (key : bytes) (keylen : Z) : outcome (heap * pk_context * (Z + unit)) :=
  '(h, r) <- new_pem h begin_rsa_private end_rsa_private key keylen ;;
  match r with
  | inr (pem, buf) =>
    let '(h, c, r) := pk_setup h c in
    match r, c with
    | inl x, _ => '(h, c) <- pk_free h c ;; h <- free KBuffer h pem ;; Ok (h, c, inl x)
    | inr _, None => UB
    | inr _, Some (i, ns) =>
      '(h, ns, r) <- parse_pkcs1 h buf 0 (zlen buf) ;;
      '(h, c) <- (match r with inl _ => pk_free h (Some (i, ns)) | inr _ => Ok (h, Some (i, ns)) end) ;;
      h <- free KBuffer h pem ;;
      Ok (h, c, r)
    end
  | inl x =>
    if negb (x =? ERR_PEM_NO_HEADER_FOOTER_PRESENT) then Ok (h, c, inl x)
    else
      '(h, r) <- new_pem h begin_private end_private key keylen ;;
      match r with
      | inr (pem, buf) =>
        '(h, c, r) <- parse_pkcs8 h c buf (zlen buf) ;;
        '(h, c) <- (match r with inl _ => pk_free h c | inr _ => Ok (h, c) end) ;;
        h <- free KBuffer h pem ;;
        Ok (h, c, r)
      | inl x =>
        if negb (x =? ERR_PEM_NO_HEADER_FOOTER_PRESENT) then Ok (h, c, inl x)
        else
          '(h, c, r) <- parse_pkcs8 h c key keylen ;;
          match r with
          | inr _ => Ok (h, c, inr tt)
          | inl _ =>
            '(h, c) <- pk_free h c ;;
            let '(h, c, r) := pk_setup h c in
            match r, c with
            | inl _, _ => Ok (h, c, inr tt)   (* pkparse.c:444-448: ret != 0 || ..., return( 0 ) *)
            | inr _, None => UB
            | inr _, Some (i, ns) =>
              '(h, ns, r) <- parse_pkcs1 h key 0 keylen ;;
              match r with
              | inr _ => Ok (h, Some (i, ns), inr tt)
              | inl _ => '(h, c) <- pk_free h (Some (i, ns)) ;; Ok (h, c, inl ERR_PK_KEY_INVALID_FORMAT)
              end
            end
          end
      end
  end.

(** mbedtls_pk_parse_public_key, pkparse.c:463-509 *)
Definition parse_public_key (h : heap) (c : pk_context) (key : bytes) (keylen : Z) : outcome (heap * pk_context * (Z + unit)) :=
  '(h, r) <- new_pem h begin_public end_public key keylen ;;
  match r with
  | inr (pem, buf) =>
    '(h, c, r) <- parse_subpubkey h c buf 0 (zlen buf) ;;
    h <- free KBuffer h pem ;;
    Ok (h, c, r)
  | inl x =>
    if negb (x =? ERR_PEM_NO_HEADER_FOOTER_PRESENT) then Ok (h, c, inl x)
    else parse_subpubkey h c key 0 keylen
  end.

(** mbedtls_rsa_copy, rsa.c:562-594, into a context without numbers *)
Fixpoint copy_numbers (h : heap) (src dst : numbers) : heap * numbers * bool :=
  match src with
  | [] => (h, dst, true)
  | (_, v) :: src =>
    let '(h, i) := new KLimbs h in
    match i with None => (h, dst, false) | Some i => copy_numbers h src (dst ++ [(i, v)]) end
  end.
Definition rsa_copy (h : heap) (src : numbers) : outcome (heap * numbers) :=
  let '(h, dst, ok) := copy_numbers h src [] in
  if ok then Ok (h, dst) else h <- rsa_free h dst ;; Ok (h, []).

(** mbedtls_rsa_parse_public_key and mbedtls_rsa_parse_key, rsa_io.c:36-90, into a context without numbers; what mbedtls_rsa_copy returns is ignored *)
Definition into_context (parse : heap -> pk_context -> outcome (heap * pk_context * (Z + unit))) (h : heap) : outcome (heap * numbers * (Z + unit)) :=
  '(h, c, r) <- parse h None ;;
  '(h, ns, r) <- (match r, c with
                  | inl x, _ => Ok (h, [], inl x)
                  | inr _, Some (_, ns) => '(h, ns) <- rsa_copy h ns ;; Ok (h, ns, inr tt)
                  | inr _, None => Ok (h, [], inl ERR_PK_UNKNOWN_PK_ALG)
                  end) ;;
  '(h, _) <- pk_free h c ;;
  Ok (h, ns, r).
Definition rsa_parse_public_key (h : heap) (key : bytes) : outcome (heap * numbers * (Z + unit)) :=
  into_context (fun h c => parse_public_key h c key (zlen key)) h.
Definition rsa_parse_key (h : heap) (key : bytes) : outcome (heap * numbers * (Z + unit)) :=
  into_context (fun h c => parse_key h c key (zlen key)) h.

(** TdpImpl_mbedTLS(const std::string&), tdp_impl_mbedtls.cpp:71-90, and TdpInverseImpl_mbedTLS(const std::string&) up to its check, tdp_impl_mbedtls.cpp:395-423.
    [true]: an exception; then the numbers of rsa_key_ are released only in the second, by the destructor of the base class. *)
Definition public_constructor (h : heap) (pk : bytes) : outcome (heap * numbers * bool) :=
  '(h, ns, r) <- rsa_parse_public_key h (pk ++ [0]) ;;
  match r with
  | inl _ => Ok (h, ns, true)
  | inr _ => r <- check_pubkey ns ;; match r with inl _ => Ok (h, ns, true) | inr _ => Ok (h, ns, false) end
  end.
Definition private_constructor (h : heap) (sk : bytes) : outcome (heap * numbers * bool) :=
  '(h, ns, r) <- rsa_parse_key h (sk ++ [0]) ;;
  match r with
  | inl _ => h <- rsa_free h ns ;; Ok (h, [], true)
  | inr _ => r <- check_pubkey ns ;; match r with inl _ => h <- rsa_free h ns ;; Ok (h, [], true) | inr _ => Ok (h, ns, false) end
  end.
End Allocations.
