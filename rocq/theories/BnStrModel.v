(** The conversions of big numbers from and to text, src/mbedtls/bignum.c:410-602, on objects made of limbs (LimbModel.v).

    A text is the list of its characters without the terminating zero; characters are bytes (the tests of mpi_get_digit answer alike
    for a signed and an unsigned char).  The buffer written to is the list of its bytes, and writing outside of it is [UB]. *)
From Verif Require Import Base MpiModel LimbModel.

(** bignum.h:37 *)
Definition ERR_MPI_INVALID_CHARACTER : Z := -0x06.
(** '-' *)
Definition MINUS : Z := 45.

(** mpi_get_digit, bignum.c:413-425 *)
Definition get_digit (radix c : Z) : res Z :=
  let d := 255 in
  let d := if (0x30 <=? c) && (c <=? 0x39) then c - 0x30 else d in
  let d := if (0x41 <=? c) && (c <=? 0x46) then c - 0x37 else d in
  let d := if (0x61 <=? c) && (c <=? 0x66) then c - 0x57 else d in
  if radix <=? d then err ERR_MPI_INVALID_CHARACTER else ret d.

(** The loop of lines 454-464: [rs] are the characters s[i - 1], s[i - 2], ..., s[0] *)
Fixpoint read_hex (rs : bytes) (j : nat) (X : mpi) : res mpi :=
  match rs with
  | [] => ret X
  | c :: rs' =>
    if match rs' with [] => c =? MINUS | _ => false end then ret (with_s X (-1))
    else
      d <-? get_digit 16 c ;;
      x <- lnth (mp X) (j / 16) ;;
      p <- lupd (mp X) (j / 16) (Z.lor x (u64 (Z.shiftl d (4 * Z.of_nat (j mod 16))))) ;;
      read_hex rs' (S j) (MkMpi (ms X) p)
  end.
(** The loop of lines 470-489: the characters s[i], s[i + 1], ...; [first]: i == 0 *)
Fixpoint read_digits (radix : Z) (first : bool) (s : bytes) (X T : mpi) : res mpi :=
  match s with
  | [] => ret X
  | c :: s =>
    if first && (c =? MINUS) then read_digits radix false s (with_s X (-1)) T
    else
      d <-? get_digit radix c ;;
      T <-? l_mul_int false T X radix ;;
      X <-? (if ms X =? 1 then l_add_int false X T d else l_sub_int false X T d) ;;
      read_digits radix false s X T
  end.
(** mbedtls_mpi_read_string, bignum.c:430-497 (MPI_SIZE_T_MAX >> 2 is 2^62 - 1) *)
Definition l_read_string (X : mpi) (radix : Z) (s : bytes) : res mpi :=
  if (radix <? 2) || (16 <? radix) then err ERR_MPI_BAD_INPUT_DATA
  else if radix =? 16 then
    let slen := zlen s in
    if 2 ^ 62 - 1 <? slen then err ERR_MPI_BAD_INPUT_DATA
    else
      let n := (4 * slen) / 64 + bz (negb ((4 * slen) mod 64 =? 0)) in
      X <-? (if MPI_MAX_LIMBS <? n then err ERR_MPI_ALLOC_FAILED else l_grow X (Z.to_nat n)) ;;
      X <-? l_lset X 0 ;;
      read_hex (rev s) 0 X
  else
    X <-? l_lset X 0 ;;
    read_digits radix true s X l_init.

(** *p++ = c, where p - buf is [pos] *)
Definition put (c : Z) (bp : bytes * nat) : outcome (bytes * nat) :=
  let '(buf, pos) := bp in
  buf <- lupd buf pos c ;; Ok (buf, S pos).
(** mpi_write_hlp, bignum.c:504-526.  Every call divides X by the radix; the recursion stops when it is 0. *)
Fixpoint write_hlp (fuel : nat) (X : mpi) (radix : Z) (bp : bytes * nat) : res (bytes * nat) :=
  match fuel with
  | O => Diverge
  | S fuel =>
    if (radix <? 2) || (16 <? radix) then err ERR_MPI_BAD_INPUT_DATA
    else
      r <-? l_mod_int X radix ;;
      '(Q, _) <-? l_div_int true false (Some X) None X radix ;;
      match Q with
      | None => UB
      | Some X =>
        c <- l_cmp_int X 0 ;;
        bp <-? (if c =? 0 then ret bp else write_hlp fuel X radix bp) ;;
        bp <- put (if r <? 10 then r + 0x30 else r + 0x37) bp ;;
        ret bp
      end
  end.
(** "0123456789ABCDEF" [d] *)
Definition hex_char (d : Z) : Z := if d <? 10 then d + 0x30 else d + 0x37.
(** The loop of lines 571-582 over the bytes of the limb [x] = X->p[i - 1] *)
Fixpoint write_hex_limb (j i : nat) (x : Z) (k : bool) (bp : bytes * nat) : outcome (bool * (bytes * nat)) :=
  match j with
  | O => Ok (k, bp)
  | S j' =>
    let c := Z.land (Z.shiftr x (8 * Z.of_nat j')) 0xFF in
    if (c =? 0) && negb k && negb (i + j =? 2)%nat then write_hex_limb j' i x k bp
    else
      bp <- put (hex_char (c / 16)) bp ;;
      bp <- put (hex_char (c mod 16)) bp ;;
      write_hex_limb j' i x true bp
  end.
(** The loop of lines 569-583 over the limbs, most significant first *)
Fixpoint write_hex (i : nat) (p : limbs) (k : bool) (bp : bytes * nat) : outcome (bytes * nat) :=
  match i with
  | O => Ok bp
  | S i' =>
    x <- lnth p i' ;;
    '(k, bp) <- write_hex_limb 8 i x k bp ;;
    write_hex i' p k bp
  end.
(** The size asked for, lines 542-550 *)
Definition string_size (radix bits : Z) : Z :=
  let n := if 4 <=? radix then Z.shiftr bits 1 else bits in
  let n := if 16 <=? radix then Z.shiftr n 1 else n in
  n + (3 + Z.land (n + 1) 1).
(** mbedtls_mpi_write_string, bignum.c:531-602: the value returned, the buffer afterwards, and *olen if it is written to (with no
    length above 2^62).  What the buffer holds after an error of the helper functions is not modelled. *)
Definition l_write_string (X : mpi) (radix : Z) (buf : bytes) : outcome (Z * bytes * option Z) :=
  if (radix <? 2) || (16 <? radix) then Ok (ERR_MPI_BAD_INPUT_DATA, buf, None)
  else
    b <- l_bitlen X ;;
    let n := string_size radix b in
    if zlen buf <? n then Ok (ERR_MPI_BUFFER_TOO_SMALL, buf, Some n)
    else
      bp <- (if ms X =? -1 then put MINUS (buf, O) else Ok (buf, O)) ;;
      r <- (if radix =? 16 then bp <- write_hex (length (mp X)) (mp X) false bp ;; ret bp
            else
              T <-? l_copy false l_init X ;;
              let T := if ms T =? -1 then with_s T 1 else T in
              write_hlp (S (64 * length (mp T))) T radix bp) ;;
      match r with
      | inl e => Ok (e, buf, None)
      | inr bp => '(buf, pos) <- put 0 bp ;; Ok (0, buf, Some (Z.of_nat pos))
      end.
