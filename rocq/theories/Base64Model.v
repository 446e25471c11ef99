(** Model of src/mbedtls/base64.c.  Buffers are byte lists, a null pointer is [None]; any access outside of a buffer
    or of the tables is [UB].  Functions return the return code, *olen and the output buffer. *)
From Verif Require Import Base.

(** base64.h:28-29 *)
Definition ERR_BASE64_BUFFER_TOO_SMALL : Z := -0x2A.
Definition ERR_BASE64_INVALID_CHARACTER : Z := -0x2C.

(** base64.c:43-52 *)
Definition base64_enc_map : bytes :=
  [65; 66; 67; 68; 69; 70; 71; 72; 73; 74; 75; 76; 77; 78; 79; 80; 81; 82; 83; 84; 85; 86; 87; 88; 89; 90;
   97; 98; 99; 100; 101; 102; 103; 104; 105; 106; 107; 108; 109; 110; 111; 112; 113; 114; 115; 116; 117; 118; 119; 120; 121; 122;
   48; 49; 50; 51; 52; 53; 54; 55; 56; 57; 43; 47].
(** base64.c:54-69 *)
Definition base64_dec_map : bytes :=
  [127; 127; 127; 127; 127; 127; 127; 127; 127; 127;
   127; 127; 127; 127; 127; 127; 127; 127; 127; 127;
   127; 127; 127; 127; 127; 127; 127; 127; 127; 127;
   127; 127; 127; 127; 127; 127; 127; 127; 127; 127;
   127; 127; 127;  62; 127; 127; 127;  63;  52;  53;
    54;  55;  56;  57;  58;  59;  60;  61; 127; 127;
   127;  64; 127; 127; 127;   0;   1;   2;   3;   4;
     5;   6;   7;   8;   9;  10;  11;  12;  13;  14;
    15;  16;  17;  18;  19;  20;  21;  22;  23;  24;
    25; 127; 127; 127; 127; 127; 127;  26;  27;  28;
    29;  30;  31;  32;  33;  34;  35;  36;  37;  38;
    39;  40;  41;  42;  43;  44;  45;  46;  47;  48;
    49;  50;  51; 127; 127; 127; 127; 127].

(** The characters used in the code *)
Definition chSP : Z := 32.
Definition chCR : Z := 13.
Definition chLF : Z := 10.
Definition chEQ : Z := 61.

(** *p++ = base64_enc_map[x & 0x3F] *)
Definition put_enc (dst : bytes) (p x : Z) : outcome bytes := c <- rd1 base64_enc_map (Z.land x 0x3F) ;; wr dst p [c].

(** The loop over whole groups, base64.c:107-117, from source position [i] and output position [p]. *)
Fixpoint enc_loop (k : nat) (src : bytes) (i : Z) (dst : bytes) (p : Z) : outcome (bytes * Z * Z) :=
  match k with
  | O => Ok (dst, i, p)
  | S k' =>
    C1 <- rd1 src i ;; C2 <- rd1 src (i + 1) ;; C3 <- rd1 src (i + 2) ;;
    dst <- put_enc dst p (Z.shiftr C1 2) ;;
    dst <- put_enc dst (p + 1) (Z.shiftl (Z.land C1 3) 4 + Z.shiftr C2 4) ;;
    dst <- put_enc dst (p + 2) (Z.shiftl (Z.land C2 15) 2 + Z.shiftr C3 6) ;;
    dst <- put_enc dst (p + 3) C3 ;;
    enc_loop k' src (i + 3) dst (p + 4)
  end.

(** mbedtls_base64_encode, base64.c:76-142 *)
Definition base64_encode (dst : option bytes) (dlen : Z) (src : bytes) (slen : Z) : outcome (Z * Z * option bytes) :=
  if slen =? 0 then Ok (0, 0, dst)
  else
    let n := slen / 3 + (if slen mod 3 =? 0 then 0 else 1) in
    if (SIZE_MAX - 1) / 4 <? n then Ok (ERR_BASE64_BUFFER_TOO_SMALL, SIZE_MAX, dst)
    else
      let n := u64 (n * 4) in
      match dst with
      | None => Ok (ERR_BASE64_BUFFER_TOO_SMALL, u64 (n + 1), dst)
      | Some d =>
        if dlen <? u64 (n + 1) then Ok (ERR_BASE64_BUFFER_TOO_SMALL, u64 (n + 1), dst)
        else
          '(d, i, p) <- enc_loop (Z.to_nat (slen / 3)) src 0 d 0 ;;
          '(d, p) <-
            (if i <? slen then
               C1 <- rd1 src i ;;
               C2 <- (if i + 1 <? slen then rd1 src (i + 1) else Ok 0) ;;
               d <- put_enc d p (Z.shiftr C1 2) ;;
               d <- put_enc d (p + 1) (Z.shiftl (Z.land C1 3) 4 + Z.shiftr C2 4) ;;
               d <- (if i + 1 <? slen then put_enc d (p + 2) (Z.shiftl (Z.land C2 15) 2) else wr d (p + 2) [chEQ]) ;;
               d <- wr d (p + 3) [chEQ] ;;
               Ok (d, p + 4)
             else Ok (d, p)) ;;
          d <- wr d p [0] ;;
          Ok (0, p, Some d)
      end.

(** The spaces before a character, base64.c:159-164; [x] is a uint32_t. *)
Fixpoint skip_spaces (fuel : nat) (src : bytes) (slen i x : Z) : outcome (Z * Z) :=
  match fuel with
  | O => Diverge
  | S fuel' =>
    if i <? slen then
      c <- rd1 src i ;;
      if c =? chSP then skip_spaces fuel' src slen (i + 1) (u32 (x + 1)) else Ok (i, x)
    else Ok (i, x)
  end.

(** The first pass, base64.c:154-191: [inl ret] on error, or i, n and j at the end of the loop. *)
Fixpoint dec_check (fuel : nat) (src : bytes) (slen i n j : Z) : outcome (Z + Z * Z * Z) :=
  match fuel with
  | O => Diverge
  | S fuel' =>
    if i <? slen then
      '(i, x) <- skip_spaces (S (Z.to_nat slen)) src slen i 0 ;;
      if i =? slen then Ok (inr (i, n, j))
      else
        c <- rd1 src i ;;
        crlf <- (if (2 <=? slen - i) && (c =? chCR) then c1 <- rd1 src (i + 1) ;; Ok (c1 =? chLF) else Ok false) ;;
        if crlf : bool then dec_check fuel' src slen (i + 1) n j
        else if c =? chLF then dec_check fuel' src slen (i + 1) n j
        else if negb (x =? 0) then Ok (inl ERR_BASE64_INVALID_CHARACTER)
        else
          let j := if c =? chEQ then u32 (j + 1) else j in
          if (c =? chEQ) && (2 <? j) then Ok (inl ERR_BASE64_INVALID_CHARACTER)
          else if 127 <? c then Ok (inl ERR_BASE64_INVALID_CHARACTER)
          else
            m <- rd1 base64_dec_map c ;;
            if m =? 127 then Ok (inl ERR_BASE64_INVALID_CHARACTER)
            else if (m <? 64) && negb (j =? 0) then Ok (inl ERR_BASE64_INVALID_CHARACTER)
            else dec_check fuel' src slen (i + 1) (u64 (n + 1)) j
    else Ok (inr (i, n, j))
  end.

(** The second pass, base64.c:211-227: [k] characters from position [pos]; returns the buffer and the output position. *)
Fixpoint dec_loop (k : nat) (src : bytes) (pos : Z) (dst : bytes) (p j n x : Z) : outcome (bytes * Z) :=
  match k with
  | O => Ok (dst, p)
  | S k' =>
    c <- rd1 src pos ;;
    if (c =? chCR) || (c =? chLF) || (c =? chSP) then dec_loop k' src (pos + 1) dst p j n x
    else
      m <- rd1 base64_dec_map c ;;
      let j := u32 (j - (if m =? 64 then 1 else 0)) in
      let x := Z.lor (u32 (Z.shiftl x 6)) (Z.land m 0x3F) in
      let n := n + 1 in
      if n =? 4 then
        '(dst, p) <- (if 0 <? j then dst <- wr dst p [u8 (Z.shiftr x 16)] ;; Ok (dst, p + 1) else Ok (dst, p)) ;;
        '(dst, p) <- (if 1 <? j then dst <- wr dst p [u8 (Z.shiftr x 8)] ;; Ok (dst, p + 1) else Ok (dst, p)) ;;
        '(dst, p) <- (if 2 <? j then dst <- wr dst p [u8 x] ;; Ok (dst, p + 1) else Ok (dst, p)) ;;
        dec_loop k' src (pos + 1) dst p j 0 x
      else dec_loop k' src (pos + 1) dst p j n x
  end.

(** mbedtls_base64_decode, base64.c:147-235 *)
Definition base64_decode (dst : option bytes) (dlen : Z) (src : bytes) (slen : Z) : outcome (Z * Z * option bytes) :=
  r <- dec_check (S (Z.to_nat slen)) src slen 0 0 0 ;;
  match r with
  | inl e => Ok (e, 0, dst)      (* *olen is not written; see PemModel for its only use *)
  | inr (i, n, j) =>
    if n =? 0 then Ok (0, 0, dst)
    else
      let n := u64 (6 * Z.shiftr n 3 + Z.shiftr (6 * Z.land n 7 + 7) 3) in
      let n := u64 (n - j) in
      match dst with
      | None => Ok (ERR_BASE64_BUFFER_TOO_SMALL, n, dst)
      | Some d =>
        if dlen <? n then Ok (ERR_BASE64_BUFFER_TOO_SMALL, n, dst)
        else
          '(d, p) <- dec_loop (Z.to_nat i) src 0 d 0 3 0 0 ;;
          Ok (0, p, Some d)
      end
  end.
