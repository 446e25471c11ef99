(** Model of the parts of src/mbedtls/asn1parse.c and src/mbedtls/asn1write.c used for RSA keys.  A pointer into the buffer
    [b] is an offset; reads and writes outside of the buffer are [UB].  Outputs of failing calls are not represented: all
    callers return at once in that case. *)
From Verif Require Import Base MpiModel.

(** asn1.h:46-52 *)
Definition ERR_ASN1_OUT_OF_DATA : Z := -0x60.
Definition ERR_ASN1_UNEXPECTED_TAG : Z := -0x62.
Definition ERR_ASN1_INVALID_LENGTH : Z := -0x64.
Definition ERR_ASN1_LENGTH_MISMATCH : Z := -0x66.
Definition ERR_ASN1_INVALID_DATA : Z := -0x68.
Definition ERR_ASN1_BUF_TOO_SMALL : Z := -0x6C.
(** asn1.h:67-75 *)
Definition TAG_INTEGER : Z := 0x02.
Definition TAG_BIT_STRING : Z := 0x03.
Definition TAG_OCTET_STRING : Z := 0x04.
Definition TAG_NULL : Z := 0x05.
Definition TAG_OID : Z := 0x06.
Definition TAG_CONSTRUCTED_SEQUENCE : Z := Z.lor 0x20 0x10.

(** * Parsing *)
(** mbedtls_asn1_get_len, asn1parse.c:54-110: new position and length *)
Definition asn1_get_len (b : bytes) (p e : Z) : res (Z * Z) :=
  if e - p <? 1 then err ERR_ASN1_OUT_OF_DATA
  else
    c <- rd1 b p ;;
    '(p, len) <-?
      (if Z.land c 0x80 =? 0 then ret (p + 1, c)
       else
         let k := Z.land c 0x7F in
         if k =? 1 then
           if e - p <? 2 then err ERR_ASN1_OUT_OF_DATA
           else b1 <- rd1 b (p + 1) ;; ret (p + 2, b1)
         else if k =? 2 then
           if e - p <? 3 then err ERR_ASN1_OUT_OF_DATA
           else b1 <- rd1 b (p + 1) ;; b2 <- rd1 b (p + 2) ;; ret (p + 3, Z.lor (Z.shiftl b1 8) b2)
         else if k =? 3 then
           if e - p <? 4 then err ERR_ASN1_OUT_OF_DATA
           else b1 <- rd1 b (p + 1) ;; b2 <- rd1 b (p + 2) ;; b3 <- rd1 b (p + 3) ;;
                ret (p + 4, Z.lor (Z.lor (Z.shiftl b1 16) (Z.shiftl b2 8)) b3)
         else if k =? 4 then
           if e - p <? 5 then err ERR_ASN1_OUT_OF_DATA
           else b1 <- rd1 b (p + 1) ;; b2 <- rd1 b (p + 2) ;; b3 <- rd1 b (p + 3) ;; b4 <- rd1 b (p + 4) ;;
                ret (p + 5, Z.lor (Z.lor (Z.lor (Z.shiftl b1 24) (Z.shiftl b2 16)) (Z.shiftl b3 8)) b4)
         else err ERR_ASN1_INVALID_LENGTH) ;;
    if u64 (e - p) <? len then err ERR_ASN1_OUT_OF_DATA else ret (p, len).

(** mbedtls_asn1_get_tag, asn1parse.c:112-125 *)
Definition asn1_get_tag (b : bytes) (p e tag : Z) : res (Z * Z) :=
  if e - p <? 1 then err ERR_ASN1_OUT_OF_DATA
  else
    c <- rd1 b p ;;
    if negb (c =? tag) then err ERR_ASN1_UNEXPECTED_TAG
    else asn1_get_len b (p + 1) e.

(** The loop of mbedtls_asn1_get_int, asn1parse.c:161-165; a shift of an int beyond its range is undefined *)
Fixpoint get_int_loop (k : nat) (b : bytes) (p v : Z) : outcome (Z * Z) :=
  match k with
  | O => Ok (p, v)
  | S k' =>
    c <- rd1 b p ;;
    if (v <? 0) || (2 ^ 31 <=? v * 256) then UB
    else get_int_loop k' b (p + 1) (Z.lor (Z.shiftl v 8) c)
  end.
(** mbedtls_asn1_get_int, asn1parse.c:146-168: new position and value *)
Definition asn1_get_int (b : bytes) (p e : Z) : res (Z * Z) :=
  '(p, len) <-? asn1_get_tag b p e TAG_INTEGER ;;
  if (len =? 0) || (4 <? len) then err ERR_ASN1_INVALID_LENGTH
  else
    c <- rd1 b p ;;
    if negb (Z.land c 0x80 =? 0) then err ERR_ASN1_INVALID_LENGTH
    else
      '(p, v) <- get_int_loop (Z.to_nat len) b p 0 ;; ret (p, v).

(** mbedtls_asn1_get_mpi, asn1parse.c:171-186 *)
Definition asn1_get_mpi (b : bytes) (p e : Z) : res (Z * Z) :=
  '(p, len) <-? asn1_get_tag b p e TAG_INTEGER ;;
  bs <- rd b p len ;;
  v <-? mpi_read_binary bs ;;
  ret (p + len, v).

(** mbedtls_asn1_get_bitstring_null, asn1parse.c:222-234 *)
Definition asn1_get_bitstring_null (b : bytes) (p e : Z) : res (Z * Z) :=
  '(p, len) <-? asn1_get_tag b p e TAG_BIT_STRING ;;
  if len <? 2 then err ERR_ASN1_INVALID_DATA
  else
    c <- rd1 b p ;;
    if negb (c =? 0) then err ERR_ASN1_INVALID_DATA
    else ret (p + 1, len - 1).

(** mbedtls_asn1_get_alg, asn1parse.c:291-333: new position, position and length of the OID, tag and length of the
    parameters (zero if there are none) *)
Definition asn1_get_alg (b : bytes) (p e : Z) : res (Z * (Z * Z) * (Z * Z)) :=
  '(p, len) <-? asn1_get_tag b p e TAG_CONSTRUCTED_SEQUENCE ;;
  if e - p <? 1 then err ERR_ASN1_OUT_OF_DATA
  else
    _ <- rd1 b p ;;
    let e := p + len in
    '(p, alen) <-? asn1_get_tag b p e TAG_OID ;;
    let ap := p in
    let p := p + alen in
    if p =? e then ret (p, (ap, alen), (0, 0))
    else
      ptag <- rd1 b p ;;
      '(p, plen) <-? asn1_get_len b (p + 1) e ;;
      let p := p + plen in
      if negb (p =? e) then err ERR_ASN1_LENGTH_MISMATCH
      else ret (p, (ap, alen), (ptag, plen)).

(** * Writing, from the end of the buffer towards its start (offset 0) *)
(** [*--( *p ) = x;] *)
Definition push (b : bytes) (p x : Z) : outcome (bytes * Z) := b <- wr b (p - 1) [x] ;; Ok (b, p - 1).
(** The state of a writer: buffer, position and the value returned by the function *)
Definition wres : Type := res (bytes * Z * Z).

(** mbedtls_asn1_write_len, asn1write.c:46-104 *)
Definition asn1_write_len (b : bytes) (p len : Z) : wres :=
  if len <? 0x80 then
    if p <? 1 then err ERR_ASN1_BUF_TOO_SMALL
    else '(b, p) <- push b p (u8 len) ;; ret (b, p, 1)
  else if len <=? 0xFF then
    if p <? 2 then err ERR_ASN1_BUF_TOO_SMALL
    else '(b, p) <- push b p (u8 len) ;; '(b, p) <- push b p 0x81 ;; ret (b, p, 2)
  else if len <=? 0xFFFF then
    if p <? 3 then err ERR_ASN1_BUF_TOO_SMALL
    else
      '(b, p) <- push b p (Z.land len 0xFF) ;; '(b, p) <- push b p (Z.land (Z.shiftr len 8) 0xFF) ;;
      '(b, p) <- push b p 0x82 ;; ret (b, p, 3)
  else if len <=? 0xFFFFFF then
    if p <? 4 then err ERR_ASN1_BUF_TOO_SMALL
    else
      '(b, p) <- push b p (Z.land len 0xFF) ;; '(b, p) <- push b p (Z.land (Z.shiftr len 8) 0xFF) ;;
      '(b, p) <- push b p (Z.land (Z.shiftr len 16) 0xFF) ;;
      '(b, p) <- push b p 0x83 ;; ret (b, p, 4)
  else if len <=? 0xFFFFFFFF then
    if p <? 5 then err ERR_ASN1_BUF_TOO_SMALL
    else
      '(b, p) <- push b p (Z.land len 0xFF) ;; '(b, p) <- push b p (Z.land (Z.shiftr len 8) 0xFF) ;;
      '(b, p) <- push b p (Z.land (Z.shiftr len 16) 0xFF) ;; '(b, p) <- push b p (Z.land (Z.shiftr len 24) 0xFF) ;;
      '(b, p) <- push b p 0x84 ;; ret (b, p, 5)
  else err ERR_ASN1_INVALID_LENGTH.

(** mbedtls_asn1_write_tag, asn1write.c:106-114 *)
Definition asn1_write_tag (b : bytes) (p tag : Z) : wres :=
  if p <? 1 then err ERR_ASN1_BUF_TOO_SMALL
  else '(b, p) <- push b p tag ;; ret (b, p, 1).

(** mbedtls_asn1_write_raw_buffer, asn1write.c:116-129 *)
Definition asn1_write_raw_buffer (b : bytes) (p : Z) (data : bytes) : wres :=
  if (p <? 0) || (p <? zlen data) then err ERR_ASN1_BUF_TOO_SMALL
  else b <- wr b (p - zlen data) data ;; ret (b, p - zlen data, zlen data).

(** Length and tag after the contents, the end of all the following functions *)
Definition asn1_write_header (b : bytes) (p len tag : Z) : wres :=
  '(b, p, l1) <-? asn1_write_len b p len ;;
  '(b, p, l2) <-? asn1_write_tag b p tag ;;
  ret (b, p, len + l1 + l2).

(** mbedtls_asn1_write_mpi, asn1write.c:132-166, for a non-negative value *)
Definition asn1_write_mpi (b : bytes) (p x : Z) : wres :=
  let len := mpi_size x in
  if (p <? 0) || (p <? len) then err ERR_ASN1_BUF_TOO_SMALL
  else
    let p := p - len in
    bs <-? mpi_write_binary x len ;;
    b <- wr b p bs ;;
    c <- rd1 b p ;;
    if negb (Z.land c 0x80 =? 0) then
      if p <? 1 then err ERR_ASN1_BUF_TOO_SMALL
      else '(b, p) <- push b p 0 ;; asn1_write_header b p (len + 1) TAG_INTEGER
    else asn1_write_header b p len TAG_INTEGER.

(** mbedtls_asn1_write_null, asn1write.c:169-180 *)
Definition asn1_write_null (b : bytes) (p : Z) : wres := asn1_write_header b p 0 TAG_NULL.
(** mbedtls_asn1_write_oid, asn1write.c:182-194 *)
Definition asn1_write_oid (b : bytes) (p : Z) (oid : bytes) : wres :=
  '(b, p, l) <-? asn1_write_raw_buffer b p oid ;; asn1_write_header b p l TAG_OID.
(** mbedtls_asn1_write_algorithm_identifier, asn1write.c:196-215, without parameters (par_len = 0) *)
Definition asn1_write_algorithm_identifier (b : bytes) (p : Z) (oid : bytes) : wres :=
  '(b, p, l1) <-? asn1_write_null b p ;;
  '(b, p, l2) <-? asn1_write_oid b p oid ;;
  asn1_write_header b p (l1 + l2) TAG_CONSTRUCTED_SEQUENCE.
(** mbedtls_asn1_write_int, asn1write.c:234-266, for a value between 0 and 255 (the library writes 0 only) *)
Definition asn1_write_int (b : bytes) (p v : Z) : wres :=
  if p <? 1 then err ERR_ASN1_BUF_TOO_SMALL
  else
    '(b, p) <- push b p (u8 v) ;;
    c <- rd1 b p ;;
    if (0 <? v) && negb (Z.land c 0x80 =? 0) then
      if p <? 1 then err ERR_ASN1_BUF_TOO_SMALL
      else '(b, p) <- push b p 0 ;; asn1_write_header b p 2 TAG_INTEGER
    else asn1_write_header b p 1 TAG_INTEGER.
