(** Model of src/mbedtls/pem.c.  [alloc n] says whether mbedtls_calloc( 1, n ) succeeds. *)
From Verif Require Import Base MpiModel Base64Model.

(** pem.h:34-41 *)
Definition ERR_PEM_NO_HEADER_FOOTER_PRESENT : Z := -0x1080.
Definition ERR_PEM_INVALID_DATA : Z := -0x1100.
Definition ERR_PEM_ALLOC_FAILED : Z := -0x1180.
Definition ERR_PEM_FEATURE_UNAVAILABLE : Z := -0x1400.

(** The C string at the start of a buffer: the bytes before the first zero (undefined behaviour if there is none) *)
Fixpoint c_string (buf : bytes) : outcome bytes :=
  match buf with
  | [] => UB
  | b :: r => if b =? 0 then Ok [] else s <- c_string r ;; Ok (b :: s)
  end.
(** [is_prefixb p s] : [s] starts with [p] *)
Fixpoint is_prefixb (p s : bytes) : bool :=
  match p, s with
  | [], _ => true
  | x :: p', y :: s' => (x =? y) && is_prefixb p' s'
  | _ :: _, [] => false
  end.
(** Standard C strstr on the C string [s]: offset of the first occurrence of [p] *)
Fixpoint find_sub (p s : bytes) (i : Z) : option Z :=
  if is_prefixb p s then Some i
  else match s with
    | [] => None
    | _ :: s' => find_sub p s' (i + 1)
    end.
Definition c_strstr (data p : bytes) : outcome (option Z) := s <- c_string data ;; Ok (find_sub p s 0).

(** [if( *p == c ) p++;] *)
Definition skip_if (data : bytes) (p c : Z) : outcome Z := x <- rd1 data p ;; Ok (if x =? c then p + 1 else p).

(** The 22 characters of Proc-Type: 4,ENCRYPTED, pem.c:96 *)
Definition proc_type : bytes := [80; 114; 111; 99; 45; 84; 121; 112; 101; 58; 32; 52; 44; 69; 78; 67; 82; 89; 80; 84; 69; 68].

Section Pem.
Context (alloc : Z -> bool).

(** mbedtls_pem_read_buffer, pem.c:58-122; [header] and [footer] are the characters before the terminating zero.
    Returns the decoded buffer and *use_len. *)
Definition pem_read_buffer (header footer data : bytes) : res (bytes * Z) :=
  r1 <- c_strstr data header ;;
  match r1 with
  | None => err ERR_PEM_NO_HEADER_FOOTER_PRESENT
  | Some s1 =>
    r2 <- c_strstr data footer ;;
    match r2 with
    | None => err ERR_PEM_NO_HEADER_FOOTER_PRESENT
    | Some s2 =>
      if s2 <=? s1 then err ERR_PEM_NO_HEADER_FOOTER_PRESENT
      else
        let s1 := s1 + zlen header in
        s1 <- skip_if data s1 chSP ;;
        s1 <- skip_if data s1 chCR ;;
        x <- rd1 data s1 ;;
        if negb (x =? chLF) then err ERR_PEM_NO_HEADER_FOOTER_PRESENT
        else
          let s1 := s1 + 1 in
          let e := s2 + zlen footer in
          e <- skip_if data e chSP ;;
          e <- skip_if data e chCR ;;
          e <- skip_if data e chLF ;;
          let use_len := e in
          enc <- (if 22 <=? s2 - s1 then w <- rd data s1 22 ;; Ok (bytes_eqb w proc_type) else Ok false) ;;
          if enc : bool then err ERR_PEM_FEATURE_UNAVAILABLE
          else if s2 <=? s1 then err ERR_PEM_INVALID_DATA
          else
            txt <- rd data s1 (s2 - s1) ;;
            '(ret1, len, _) <- base64_decode None 0 txt (s2 - s1) ;;
            if ret1 =? ERR_BASE64_INVALID_CHARACTER then err (ERR_PEM_INVALID_DATA + ret1)
            else if negb (alloc len) then err ERR_PEM_ALLOC_FAILED
            else
              '(ret2, len, b) <- base64_decode (Some (zeros (Z.to_nat len))) len txt (s2 - s1) ;;
              if negb (ret2 =? 0) then err (ERR_PEM_INVALID_DATA + ret2)
              else match b with
                | Some b => ret (firstn (Z.to_nat len) b, use_len)
                | None => UB
                end
    end
  end.

(** The loop writing lines of 64 characters, pem.c:163-172: from position [c] of the encoded text (of which [use_len]
    characters remain) to position [p] of the output *)
Fixpoint pem_lines (fuel : nat) (enc : bytes) (c use_len : Z) (buf : bytes) (p : Z) : outcome (bytes * Z) :=
  match fuel with
  | O => Diverge
  | S fuel' =>
    if use_len =? 0 then Ok (buf, p)
    else
      let len := if 64 <? use_len then 64 else use_len in
      chunk <- rd enc c len ;;
      buf <- wr buf p chunk ;;
      buf <- wr buf (p + len) [chLF] ;;
      pem_lines fuel' enc (c + len) (use_len - len) buf (p + len + 1)
  end.

(** mbedtls_pem_write_buffer, pem.c:134-183: the return code, *olen and the output buffer *)
Definition pem_write_buffer (header footer der : bytes) (buf : bytes) (buf_len : Z) : outcome (Z * Z * bytes) :=
  '(_, use_len, _) <- base64_encode None 0 der (zlen der) ;;
  let add_len := u64 (zlen header + zlen footer + use_len / 64 + 1) in
  if buf_len <? u64 (use_len + add_len) then Ok (ERR_BASE64_BUFFER_TOO_SMALL, u64 (use_len + add_len), buf)
  else if negb (alloc use_len) then Ok (ERR_PEM_ALLOC_FAILED, 0, buf)
  else
    '(ret1, use_len, enc) <- base64_encode (Some (zeros (Z.to_nat use_len))) use_len der (zlen der) ;;
    if negb (ret1 =? 0) then Ok (ret1, 0, buf)
    else match enc with
      | None => UB
      | Some enc =>
        buf <- wr buf 0 header ;;
        let p := zlen header in
        '(buf, p) <- pem_lines (S (Z.to_nat use_len)) enc 0 use_len buf p ;;
        buf <- wr buf p footer ;;
        let p := p + zlen footer in
        buf <- wr buf p [0] ;;
        Ok (0, p + 1, buf)
      end.
End Pem.
