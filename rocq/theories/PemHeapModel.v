(** Model of src/mbedtls/pem.c with the buffers on the heap of HeapModel. *)
From Verif Require Import Base MpiModel Base64Model PemModel HeapModel.

Section PemHeap.
Context (ora : nat -> bool).
(** mbedtls_pem_context, pem.h:53-59 (info is null in this configuration): buf and buflen *)
Definition pem_context : Type := Z * Z.
(** mbedtls_pem_init, pem.c:53-56 *)
Definition pem_init : pem_context := (0, 0).
(** The decoder and the encoder work on the block itself, so writing past its end is undefined. *)
(** mbedtls_pem_read_buffer, pem.c:58-122, on a context after mbedtls_pem_init: heap, return value and context; [header] and
    [footer] are the characters before the terminating zero *)
Definition h_pem_read (h : heap) (header footer data : bytes) : outcome (heap * Z * pem_context) :=
  let fail e := Ok (h, e, pem_init) in
  r1 <- c_strstr data header ;;
  match r1 with
  | None => fail ERR_PEM_NO_HEADER_FOOTER_PRESENT
  | Some s1 =>
    r2 <- c_strstr data footer ;;
    match r2 with
    | None => fail ERR_PEM_NO_HEADER_FOOTER_PRESENT
    | Some s2 =>
      if s2 <=? s1 then fail ERR_PEM_NO_HEADER_FOOTER_PRESENT
      else
        let s1 := s1 + zlen header in
        s1 <- skip_if data s1 chSP ;;
        s1 <- skip_if data s1 chCR ;;
        x <- rd1 data s1 ;;
        if negb (x =? chLF) then fail ERR_PEM_NO_HEADER_FOOTER_PRESENT
        else
          let s1 := s1 + 1 in
          let e := s2 + zlen footer in
          e <- skip_if data e chSP ;;
          e <- skip_if data e chCR ;;
          e <- skip_if data e chLF ;;
          enc <- (if 22 <=? s2 - s1 then w <- rd data s1 22 ;; Ok (bytes_eqb w proc_type) else Ok false) ;;
          if enc : bool then fail ERR_PEM_FEATURE_UNAVAILABLE
          else if s2 <=? s1 then fail ERR_PEM_INVALID_DATA
          else
            txt <- rd data s1 (s2 - s1) ;;
            '(ret1, len, _) <- base64_decode None 0 txt (s2 - s1) ;;
            if ret1 =? ERR_BASE64_INVALID_CHARACTER then fail (ERR_PEM_INVALID_DATA + ret1)
            else
              let '(buf, h) := calloc ora h (Z.to_nat len) in
              if buf =? 0 then Ok (h, ERR_PEM_ALLOC_FAILED, pem_init)
              else
                '(ret2, len, b) <- base64_decode (lookup (cells h) buf) len txt (s2 - s1) ;;
                match b with
                | None => UB
                | Some b =>
                  let h := with_cells h (store (cells h) buf b) in
                  if negb (ret2 =? 0) then h <- release h buf ;; Ok (h, ERR_PEM_INVALID_DATA + ret2, pem_init)
                  else Ok (h, 0, (buf, len))
                end
    end
  end.
(** mbedtls_pem_free, pem.c:124-130 *)
Definition h_pem_free (h : heap) (c : pem_context) : outcome (heap * pem_context) :=
  h <- release h (fst c) ;;
  h <- release h 0 ;;
  Ok (h, pem_init).
(** mbedtls_pem_write_buffer, pem.c:134-183: heap, return value, *olen and the output buffer *)
Definition h_pem_write (h : heap) (header footer der : bytes) (buf : bytes) (buf_len : Z) : outcome (heap * (Z * Z * bytes)) :=
  '(_, use_len, _) <- base64_encode None 0 der (zlen der) ;;
  let add_len := u64 (zlen header + zlen footer + use_len / 64 + 1) in
  if buf_len <? u64 (use_len + add_len) then Ok (h, (ERR_BASE64_BUFFER_TOO_SMALL, u64 (use_len + add_len), buf))
  else
    let '(p, h) := calloc ora h (Z.to_nat use_len) in
    if p =? 0 then Ok (h, (ERR_PEM_ALLOC_FAILED, 0, buf))
    else
      '(ret1, use_len, enc) <- base64_encode (lookup (cells h) p) use_len der (zlen der) ;;
      match enc with
      | None => UB
      | Some enc =>
        let h := with_cells h (store (cells h) p enc) in
        if negb (ret1 =? 0) then h <- release h p ;; Ok (h, (ret1, 0, buf))
        else
          buf <- wr buf 0 header ;;
          let q := zlen header in
          '(buf, q) <- pem_lines (S (Z.to_nat use_len)) enc 0 use_len buf q ;;
          buf <- wr buf q footer ;;
          let q := q + zlen footer in
          buf <- wr buf q [0] ;;
          h <- release h p ;;
          Ok (h, (0, q + 1, buf))
      end.
End PemHeap.
