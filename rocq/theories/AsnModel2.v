(** Model of the functions of src/mbedtls/asn1parse.c and src/mbedtls/asn1write.c that RSA keys do not need.
    Conventions as in AsnModel: a pointer into the buffer [b] is an offset; outputs of failing calls are not represented.  Lengths of less than 2^31 (the return values of the writers are of type int). *)
From Verif Require Import Base MpiModel AsnModel.

(** asn1.h:52, 67-80 *)
Definition ERR_ASN1_ALLOC_FAILED : Z := -0x6A.
Definition TAG_BOOLEAN : Z := 0x01.
Definition TAG_PRINTABLE_STRING : Z := 0x13.
Definition TAG_IA5_STRING : Z := 0x16.

(** * Parsing *)
(** mbedtls_asn1_get_bool, asn1parse.c:127-144: new position and value *)
Definition asn1_get_bool (b : bytes) (p e : Z) : res (Z * Z) :=
  '(p, len) <-? asn1_get_tag b p e TAG_BOOLEAN ;;
  if negb (len =? 1) then err ERR_ASN1_INVALID_LENGTH
  else c <- rd1 b p ;; ret (p + 1, if negb (c =? 0) then 1 else 0).

(** mbedtls_asn1_get_bitstring, asn1parse.c:189-217: new position, bs->unused_bits, bs->p and bs->len *)
Definition asn1_get_bitstring (b : bytes) (p e : Z) : res (Z * Z * (Z * Z)) :=
  '(p, len) <-? asn1_get_tag b p e TAG_BIT_STRING ;;
  if len <? 1 then err ERR_ASN1_OUT_OF_DATA
  else
    let len := len - 1 in
    unused <- rd1 b p ;;
    if 7 <? unused then err ERR_ASN1_INVALID_LENGTH
    else
      let p := p + 1 in
      if negb (p + len =? e) then err ERR_ASN1_LENGTH_MISMATCH
      else ret (p + len, unused, (p, len)).

(** The while loop of mbedtls_asn1_get_sequence_of, asn1parse.c:259-284, and the check behind it (asn1parse.c:289): the
    entries (tag, position, length) of the chain from the current one on; [alloc k]: whether the k-th allocation succeeds. *)
Fixpoint seq_loop (fuel : nat) (alloc : nat -> bool) (k : nat) (b : bytes) (p e tag : Z) : res (list (Z * Z * Z)) :=
  match fuel with
  | O => Diverge
  | S fuel' =>
    t <- rd1 b p ;;
    '(p, len) <-? asn1_get_tag b p e tag ;;
    let q := p + len in
    if q <? e then
      if alloc k then
        rest <-? seq_loop fuel' alloc (S k) b q e tag ;;
        ret ((t, p, len) :: rest)
      else err ERR_ASN1_ALLOC_FAILED
    else if negb (q =? e) then err ERR_ASN1_LENGTH_MISMATCH
    else ret [(t, p, len)]
  end.
(** mbedtls_asn1_get_sequence_of, asn1parse.c:241-293: the chain that starts with the caller's entry, whose content is [init] *)
Definition asn1_get_sequence_of (alloc : nat -> bool) (init : Z * Z * Z) (b : bytes) (p e tag : Z) : res (list (Z * Z * Z)) :=
  '(p, len) <-? asn1_get_tag b p e TAG_CONSTRUCTED_SEQUENCE ;;
  if negb (p + len =? e) then err ERR_ASN1_LENGTH_MISMATCH
  else if p <? e then seq_loop (Z.to_nat (e - p)) alloc 0 b p e tag
  else ret [init].

(** mbedtls_asn1_get_alg_null, asn1parse.c:335-351: new position, position and length of the OID *)
Definition asn1_get_alg_null (b : bytes) (p e : Z) : res (Z * (Z * Z)) :=
  '(p, alg, (ptag, plen)) <-? asn1_get_alg b p e ;;
  if (negb (ptag =? TAG_NULL) && negb (ptag =? 0)) || negb (plen =? 0) then err ERR_ASN1_INVALID_DATA
  else ret (p, alg).

(** * Writing *)
(** mbedtls_asn1_write_bool, asn1write.c:217-232 *)
Definition asn1_write_bool (b : bytes) (p v : Z) : wres :=
  if p <? 1 then err ERR_ASN1_BUF_TOO_SMALL
  else
    '(b, p) <- push b p (if negb (v =? 0) then 255 else 0) ;;
    asn1_write_header b p 1 TAG_BOOLEAN.
(** mbedtls_asn1_write_printable_string, asn1write.c:268-281; mbedtls_asn1_write_ia5_string, asn1write.c:283-296;
    mbedtls_asn1_write_octet_string, asn1write.c:324-335 *)
Definition asn1_write_string (tag : Z) (b : bytes) (p : Z) (text : bytes) : wres :=
  '(b, p, l) <-? asn1_write_raw_buffer b p text ;; asn1_write_header b p l tag.
Definition asn1_write_printable_string := asn1_write_string TAG_PRINTABLE_STRING.
Definition asn1_write_ia5_string := asn1_write_string TAG_IA5_STRING.
Definition asn1_write_octet_string := asn1_write_string TAG_OCTET_STRING.
(** mbedtls_asn1_write_bitstring, asn1write.c:298-322; [buf]: the caller's array *)
Definition asn1_write_bitstring (b : bytes) (p : Z) (buf : bytes) (bits : Z) : wres :=
  let size := bits / 8 + (if negb (bits mod 8 =? 0) then 1 else 0) in
  if (p <? 0) || (p <? size + 1) then err ERR_ASN1_BUF_TOO_SMALL
  else
    data <- rd buf 0 size ;;
    b <- wr b (p - size) data ;;
    '(b, p) <- push b (p - size) (u8 (u64 (u64 (size * 8) - bits))) ;;
    asn1_write_header b p (size + 1) TAG_BIT_STRING.
(** mbedtls_asn1_write_algorithm_identifier, asn1write.c:196-215; [par_len]: the length of the parameters already written at [p] *)
Definition asn1_write_algorithm (b : bytes) (p : Z) (oid : bytes) (par_len : Z) : wres :=
  '(b, p, l1) <-? (if par_len =? 0 then asn1_write_null b p else ret (b, p, par_len)) ;;
  '(b, p, l2) <-? asn1_write_oid b p oid ;;
  asn1_write_header b p (l1 + l2) TAG_CONSTRUCTED_SEQUENCE.
