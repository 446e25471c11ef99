(** The big-number library src/mbedtls/bignum.c at the level of its 64-bit limbs (MBEDTLS_HAVE_INT64 with a 128-bit type for
    double limbs, bignum.h:103-147).

    An mbedtls_mpi is its sign field and the list of its limbs, least significant first; the field n is the length of that list and
    the pointer p is null exactly when the list is empty (mbedtls_mpi_init, bignum.c:83-91; every allocation has at least one
    limb).  Reading or writing a limb outside of the list is [UB].  Arithmetic on limbs wraps modulo 2^64 where the C code does.
    Allocations succeed up to MBEDTLS_MPI_MAX_LIMBS limbs.  The functions return the error code, or the new value of the object
    written to; what they leave in it on an error is not modelled.  Arguments that may be the same object come with booleans
    telling whether they are, wherever the C code compares the pointers. *)
From Verif Require Import Base MpiModel.

Notation limbs := (list Z).
Record mpi := MkMpi { ms : Z; mp : limbs }.
Definition bz (b : bool) : Z := if b then 1 else 0.
(** mbedtls_mpi_init, bignum.c:83-91 *)
Definition l_init : mpi := MkMpi 1 [].
Definition with_s (X : mpi) (s : Z) : mpi := MkMpi s (mp X).
(** p[i] and an assignment to p[i] *)
Definition lnth {A} (l : list A) (i : nat) : outcome A := match nth_error l i with Some x => Ok x | None => UB end.
Fixpoint lupd {A} (l : list A) (i : nat) (x : A) : outcome (list A) :=
  match l, i with
  | [], _ => UB
  | _ :: l, O => Ok (x :: l)
  | y :: l, S i => r <- lupd l i x ;; Ok (y :: r)
  end.
(** Two's complement reading of a call that expects an mbedtls_mpi_sint: -z overflows for the smallest number *)
Definition sint_abs (z : Z) : outcome Z := if z =? - 2 ^ 63 then UB else Ok (Z.abs z).
Definition sint_sgn (z : Z) : Z := if z <? 0 then -1 else 1.

(** The loops `for( i = X->n; i > 0; i-- ) if( X->p[i - 1] != 0 ) break;': the number of limbs without the leading zeros *)
Fixpoint sig (l : limbs) : nat :=
  match l with
  | [] => O
  | x :: l => match sig l with O => if x =? 0 then O else 1%nat | S k => S (S k) end
  end.

(** mbedtls_mpi_grow, bignum.c:115-139 *)
Definition l_grow (X : mpi) (n : nat) : res mpi :=
  if MPI_MAX_LIMBS <? Z.of_nat n then err ERR_MPI_ALLOC_FAILED
  else ret (MkMpi (ms X) (mp X ++ repeat 0 (n - length (mp X)))).
(** mbedtls_mpi_shrink, bignum.c:146-177 *)
Definition l_shrink (X : mpi) (n : nat) : res mpi :=
  if (length (mp X) <=? n)%nat then l_grow X n
  else ret (MkMpi (ms X) (firstn (Nat.max (Nat.max 1 (sig (mp X))) n) (mp X))).
(** mbedtls_mpi_copy, bignum.c:182-211; [same]: X == Y *)
Definition l_copy (same : bool) (X Y : mpi) : res mpi :=
  if same then ret X
  else match mp Y with
  | [] => ret l_init
  | _ =>
    let i := Nat.max 1 (sig (mp Y)) in
    X <-? l_grow X i ;;
    ret (MkMpi (ms Y) (firstn i (mp Y) ++ repeat 0 (length (mp X) - i)))
  end.
(** mbedtls_mpi_safe_cond_assign, bignum.c:232-252 *)
Definition norm_bool (a : Z) : Z := Z.shiftr (Z.lor a (u8 (- a))) 7.
Definition l_cond_assign (X Y : mpi) (assign : Z) : res mpi :=
  let a := norm_bool assign in
  X <-? l_grow X (length (mp Y)) ;;
  ret (MkMpi (ms X * (1 - a) + ms Y * a)
    (map (fun xy => u64 (fst xy * (1 - a) + snd xy * a)) (combine (firstn (length (mp Y)) (mp X)) (mp Y)) ++
     map (fun x => u64 (x * (1 - a))) (skipn (length (mp Y)) (mp X)))).
(** mbedtls_mpi_safe_cond_swap, bignum.c:260-289, for X != Y *)
Definition l_cond_swap (X Y : mpi) (swap : Z) : res (mpi * mpi) :=
  let a := norm_bool swap in
  X <-? l_grow X (length (mp Y)) ;;
  Y <-? l_grow Y (length (mp X)) ;;
  ret (MkMpi (ms X * (1 - a) + ms Y * a) (map (fun xy => u64 (fst xy * (1 - a) + snd xy * a)) (combine (mp X) (mp Y))),
       MkMpi (ms Y * (1 - a) + ms X * a) (map (fun xy => u64 (snd xy * (1 - a) + fst xy * a)) (combine (mp X) (mp Y)))).
(** mbedtls_mpi_lset, bignum.c:296-309 *)
Definition l_lset (X : mpi) (z : Z) : res mpi :=
  X <-? l_grow X 1 ;;
  a <- sint_abs z ;;
  match mp X with
  | [] => UB
  | _ :: r => ret (MkMpi (sint_sgn z) (a :: repeat 0 (length r)))
  end.
(** mbedtls_mpi_get_bit, bignum.c:314-320 *)
Definition l_get_bit (X : mpi) (pos : Z) : outcome Z :=
  if zlen (mp X) * 64 <=? pos then Ok 0
  else x <- lnth (mp X) (Z.to_nat (pos / 64)) ;; Ok (Z.land (Z.shiftr x (pos mod 64)) 1).
(** mbedtls_mpi_set_bit, bignum.c:325-348 *)
Definition l_set_bit (X : mpi) (pos val : Z) : res mpi :=
  let off := pos / 64 in
  let idx := pos mod 64 in
  if negb (val =? 0) && negb (val =? 1) then err ERR_MPI_BAD_INPUT_DATA
  else if (zlen (mp X) * 64 <=? pos) && (val =? 0) then ret X
  else
    X <-? (if zlen (mp X) * 64 <=? pos then
             if MPI_MAX_LIMBS <? off + 1 then err ERR_MPI_ALLOC_FAILED else l_grow X (Z.to_nat (off + 1))
           else ret X) ;;
    x <- lnth (mp X) (Z.to_nat off) ;;
    p <- lupd (mp X) (Z.to_nat off) (Z.lor (Z.land x (2 ^ 64 - 1 - u64 (Z.shiftl 1 idx))) (u64 (Z.shiftl val idx))) ;;
    ret (MkMpi (ms X) p).
(** mbedtls_mpi_lsb, bignum.c:353-363 *)
Fixpoint limb_lsb (k : nat) (x j : Z) : option Z :=
  match k with
  | O => None
  | S k => if Z.land (Z.shiftr x j) 1 =? 0 then limb_lsb k x (j + 1) else Some j
  end.
Fixpoint lsb_loop (p : limbs) (count : Z) : Z :=
  match p with
  | [] => 0
  | x :: p => match limb_lsb 64 x 0 with Some j => count + j | None => lsb_loop p (count + 64) end
  end.
Definition l_lsb (X : mpi) : Z := lsb_loop (mp X) 0.
(** mbedtls_clz, bignum.c:368-381 *)
Fixpoint clz_loop (k : nat) (x mask j : Z) : Z :=
  match k with
  | O => j
  | S k => if Z.land x mask =? 0 then clz_loop k x (Z.shiftr mask 1) (j + 1) else j
  end.
Definition l_clz (x : Z) : Z := clz_loop 64 x (2 ^ 63) 0.
(** mbedtls_mpi_bitlen, bignum.c:386-400.  The loop of line 393 stops at index 0. *)
Definition l_bitlen (X : mpi) : outcome Z :=
  match mp X with
  | [] => Ok 0
  | _ =>
    let i := (Nat.max 1 (sig (mp X)) - 1)%nat in
    x <- lnth (mp X) i ;;
    Ok (Z.of_nat i * 64 + (64 - l_clz x))
  end.
(** mbedtls_mpi_size, bignum.c:405-408 *)
Definition l_size (X : mpi) : outcome Z := n <- l_bitlen X ;; Ok (Z.shiftr (n + 7) 3).

(** mbedtls_mpi_read_binary, bignum.c:609-627: [bs] are the bytes buf[i - 1], buf[i - 2], ..., buf[n] *)
Fixpoint read_loop (bs : bytes) (j : nat) (p : limbs) : outcome limbs :=
  match bs with
  | [] => Ok p
  | b :: bs =>
    x <- lnth p (j / 8) ;;
    p <- lupd p (j / 8) (Z.lor x (u64 (Z.shiftl b (8 * Z.of_nat (j mod 8))))) ;;
    read_loop bs (S j) p
  end.
Fixpoint skip_zeros (bs : bytes) : bytes :=
  match bs with b :: r => if b =? 0 then skip_zeros r else bs | [] => [] end.
Definition l_read_binary (X : mpi) (buf : bytes) : res mpi :=
  let sb := skip_zeros buf in
  X <-? (if MPI_MAX_LIMBS * 8 <? zlen sb then err ERR_MPI_ALLOC_FAILED
         else l_grow X (Z.to_nat (zlen sb / 8 + bz (negb (zlen sb mod 8 =? 0))))) ;;
  X <-? l_lset X 0 ;;
  p <- read_loop (rev sb) 0 (mp X) ;;
  ret (MkMpi (ms X) p).
(** mbedtls_mpi_write_binary, bignum.c:632-647 *)
Fixpoint write_loop (n : nat) (p : limbs) (j : nat) (buf : bytes) (i : Z) : outcome bytes :=
  match n with
  | O => Ok buf
  | S n =>
    x <- lnth p (j / 8) ;;
    buf <- wr buf i [u8 (Z.shiftr x (8 * Z.of_nat (j mod 8)))] ;;
    write_loop n p (S j) buf (i - 1)
  end.
Definition l_write_binary (X : mpi) (buf : bytes) : res bytes :=
  n <- l_size X ;;
  if zlen buf <? n then err ERR_MPI_BUFFER_TOO_SMALL
  else r <- write_loop (Z.to_nat n) (mp X) 0 (zeros (length buf)) (zlen buf - 1) ;; ret r.

(** mbedtls_mpi_shift_l, bignum.c:652-697: the loops of lines 673-677, and the loop of lines 685-691 from limb v0 on *)
Definition shl_limbs (v0 : Z) (p : limbs) : limbs :=
  if zlen p <=? v0 then zeros (length p) else zeros (Z.to_nat v0) ++ firstn (length p - Z.to_nat v0) p.
Fixpoint shl_loop (t : Z) (p : limbs) (r0 : Z) : limbs :=
  match p with
  | [] => []
  | x :: p => Z.lor (u64 (Z.shiftl x t)) r0 :: shl_loop t p (Z.shiftr x (64 - t))
  end.
Definition shl_bits (v0 t1 : Z) (p : limbs) : limbs :=
  if zlen p <=? v0 then p else firstn (Z.to_nat v0) p ++ shl_loop t1 (skipn (Z.to_nat v0) p) 0.
Definition l_shift_l (X : mpi) (count : Z) : res mpi :=
  let v0 := count / 64 in
  let t1 := Z.land count 63 in
  b <- l_bitlen X ;;
  let i := u64 (b + count) in
  X <-? (if zlen (mp X) * 64 <? i then
           if MPI_MAX_LIMBS * 64 <? i then err ERR_MPI_ALLOC_FAILED
           else l_grow X (Z.to_nat (i / 64 + bz (negb (i mod 64 =? 0))))
         else ret X) ;;
  let p := if 0 <? v0 then shl_limbs v0 (mp X) else mp X in
  let p := if 0 <? t1 then shl_bits v0 t1 p else p in
  ret (MkMpi (ms X) p).
(** mbedtls_mpi_shift_r, bignum.c:702-740 *)
Fixpoint shr_loop (v : Z) (p : limbs) : limbs * Z :=
  match p with
  | [] => ([], 0)
  | x :: p =>
    let '(q, r0) := shr_loop v p in
    (Z.lor (Z.shiftr x v) r0 :: q, u64 (Z.shiftl x (64 - v)))
  end.
Definition l_shift_r (X : mpi) (count : Z) : res mpi :=
  let v0 := count / 64 in
  let v1 := Z.land count 63 in
  if (zlen (mp X) <? v0) || ((v0 =? zlen (mp X)) && (0 <? v1)) then l_lset X 0
  else
    let p := if 0 <? v0 then skipn (Z.to_nat v0) (mp X) ++ zeros (Z.to_nat v0) else mp X in
    let p := if 0 <? v1 then fst (shr_loop v1 p) else p in
    ret (MkMpi (ms X) p).

(** mbedtls_mpi_cmp_abs, bignum.c:745-770: the final loop *)
Fixpoint cmp_loop (i : nat) (x y : limbs) (gt lt : Z) : outcome Z :=
  match i with
  | O => Ok 0
  | S i =>
    a <- lnth x i ;; b <- lnth y i ;;
    if b <? a then Ok gt else if a <? b then Ok lt else cmp_loop i x y gt lt
  end.
Definition l_cmp_abs (X Y : mpi) : outcome Z :=
  let i := sig (mp X) in
  let j := sig (mp Y) in
  if (i =? 0)%nat && (j =? 0)%nat then Ok 0
  else if (j <? i)%nat then Ok 1
  else if (i <? j)%nat then Ok (-1)
  else cmp_loop i (mp X) (mp Y) 1 (-1).
(** mbedtls_mpi_cmp_mpi, bignum.c:775-803 *)
Definition l_cmp (X Y : mpi) : outcome Z :=
  let i := sig (mp X) in
  let j := sig (mp Y) in
  if (i =? 0)%nat && (j =? 0)%nat then Ok 0
  else if (j <? i)%nat then Ok (ms X)
  else if (i <? j)%nat then Ok (- ms Y)
  else if (0 <? ms X) && (ms Y <? 0) then Ok 1
  else if (0 <? ms Y) && (ms X <? 0) then Ok (-1)
  else cmp_loop i (mp X) (mp Y) (ms X) (- ms X).
(** The one-limb number built by the functions with an integer argument, bignum.c:813-816, 1011-1014, ... *)
Definition l_sint (z : Z) : outcome mpi := a <- sint_abs z ;; Ok (MkMpi (sint_sgn z) [a]).
(** mbedtls_mpi_cmp_int, bignum.c:808-819 *)
Definition l_cmp_int (X : mpi) (z : Z) : outcome Z := Y <- l_sint z ;; l_cmp X Y.

(** mbedtls_mpi_add_abs, bignum.c:824-875.  The loop of lines 861-870; a new limb is needed at most once, since it is null
    before the carry is added to it. *)
Fixpoint add_carry (p : limbs) (c : Z) : limbs :=
  if c =? 0 then p
  else match p with
  | [] => [c]
  | x :: p => let x := u64 (x + c) in x :: add_carry p (bz (x <? c))
  end.
(** The loop of lines 854-859 *)
Fixpoint add_loop (o p : limbs) (c : Z) : outcome limbs :=
  match o, p with
  | [], _ => Ok (add_carry p c)
  | _ :: _, [] => UB
  | tmp :: o, x :: p =>
    let x1 := u64 (x + c) in
    let c1 := bz (x1 <? c) in
    let x2 := u64 (x1 + tmp) in
    let c2 := c1 + bz (x2 <? tmp) in
    r <- add_loop o p c2 ;;
    Ok (x2 :: r)
  end.
Definition l_add_abs (xa xb : bool) (X A B : mpi) : res mpi :=
  let '(A, B, xa) := if xb then (X, A, true) else (A, B, xa) in
  X <-? l_copy xa X A ;;
  let j := sig (mp B) in
  X <-? l_grow X j ;;
  p <- add_loop (firstn j (mp B)) (mp X) 0 ;;
  if MPI_MAX_LIMBS <? zlen p then err ERR_MPI_ALLOC_FAILED
  else ret (MkMpi 1 p).
(** mpi_sub_hlp, bignum.c:880-896: the loop of lines 891-895 and the one of lines 885-889 *)
Fixpoint sub_carry (d : limbs) (c : Z) : outcome limbs :=
  if c =? 0 then Ok d
  else match d with
  | [] => UB
  | x :: d => r <- sub_carry d (bz (x <? c)) ;; Ok (u64 (x - c) :: r)
  end.
Fixpoint sub_loop (s d : limbs) (c : Z) : outcome limbs :=
  match s, d with
  | [], _ => sub_carry d c
  | _ :: _, [] => UB
  | y :: s, x :: d =>
    let z := bz (x <? c) in
    let x1 := u64 (x - c) in
    let c1 := bz (x1 <? y) + z in
    r <- sub_loop s d c1 ;;
    Ok (u64 (x1 - y) :: r)
  end.
Definition sub_hlp (n : nat) (s d : limbs) : outcome limbs :=
  if (length s <? n)%nat then UB else sub_loop (firstn n s) d 0.
(** mbedtls_mpi_sub_abs, bignum.c:901-939 *)
Definition l_sub_abs (xa xb : bool) (X A B : mpi) : res mpi :=
  c <- l_cmp_abs A B ;;
  if c <? 0 then err ERR_MPI_NEGATIVE_VALUE
  else
    B <-? (if xb then l_copy false l_init B else ret B) ;;
    X <-? l_copy xa X A ;;
    p <- sub_hlp (sig (mp B)) (mp B) (mp X) ;;
    ret (MkMpi 1 p).
(** mbedtls_mpi_add_mpi, bignum.c:944-970 *)
Definition l_add (xa xb : bool) (X A B : mpi) : res mpi :=
  let s := ms A in
  if ms A * ms B <? 0 then
    c <- l_cmp_abs A B ;;
    if 0 <=? c then X <-? l_sub_abs xa xb X A B ;; ret (with_s X s)
    else X <-? l_sub_abs xb xa X B A ;; ret (with_s X (- s))
  else X <-? l_add_abs xa xb X A B ;; ret (with_s X s).
(** mbedtls_mpi_sub_mpi, bignum.c:975-1001 *)
Definition l_sub (xa xb : bool) (X A B : mpi) : res mpi :=
  let s := ms A in
  if 0 <? ms A * ms B then
    c <- l_cmp_abs A B ;;
    if 0 <=? c then X <-? l_sub_abs xa xb X A B ;; ret (with_s X s)
    else X <-? l_sub_abs xb xa X B A ;; ret (with_s X (- s))
  else X <-? l_add_abs xa xb X A B ;; ret (with_s X s).
(** mbedtls_mpi_add_int, mbedtls_mpi_sub_int, bignum.c:1006-1033 *)
Definition l_add_int (xa : bool) (X A : mpi) (b : Z) : res mpi := B <- l_sint b ;; l_add xa false X A B.
Definition l_sub_int (xa : bool) (X A : mpi) (b : Z) : res mpi := B <- l_sint b ;; l_sub xa false X A B.

(** mpi_mul_hlp, bignum.c:1038-1108: MULADDC_CORE with the 128-bit type, bn_mul.h:846-852 (the unrolled loops of lines 1065-1099
    repeat it i times); then the loop of lines 1104-1107, which writes a limb even without carry *)
Fixpoint mul_carry (d : limbs) (c : Z) : outcome limbs :=
  match d with
  | [] => UB
  | x :: d =>
    let x := u64 (x + c) in
    let c := bz (x <? c) in
    if c =? 0 then Ok (x :: d) else r <- mul_carry d c ;; Ok (x :: r)
  end.
Fixpoint mul_loop (s d : limbs) (b c : Z) : outcome limbs :=
  match s, d with
  | [], _ => mul_carry d c
  | _ :: _, [] => UB
  | y :: s, x :: d =>
    let r := y * b in
    let r0 := u64 r in
    let r1 := Z.shiftr r 64 in
    let r0 := u64 (r0 + c) in
    let r1 := u64 (r1 + bz (r0 <? c)) in
    let r0 := u64 (r0 + x) in
    let r1 := u64 (r1 + bz (r0 <? x)) in
    q <- mul_loop s d b r1 ;;
    Ok (r0 :: q)
  end.
Definition mul_hlp (i : nat) (s d : limbs) (b : Z) : outcome limbs :=
  if (length s <? i)%nat then UB else mul_loop (firstn i s) d b 0.
(** A call with the pointer p + k *)
Definition at_off (k : nat) (f : limbs -> outcome limbs) (p : limbs) : outcome limbs :=
  if (length p <? k)%nat then UB else d <- f (skipn k p) ;; Ok (firstn k p ++ d).
(** mbedtls_mpi_mul_mpi, bignum.c:1113-1145: the loop of lines 1135-1136 *)
Fixpoint mul_rows (i j : nat) (a b x : limbs) : outcome limbs :=
  match j with
  | O => Ok x
  | S j =>
    bj <- lnth b j ;;
    x <- at_off j (fun d => mul_hlp i a d bj) x ;;
    mul_rows i j a b x
  end.
Definition l_mul (xa xb : bool) (X A B : mpi) : res mpi :=
  A <-? (if xa then l_copy false l_init A else ret A) ;;
  B <-? (if xb then l_copy false l_init B else ret B) ;;
  let i := sig (mp A) in
  let j := sig (mp B) in
  X <-? l_grow X (i + j) ;;
  X <-? l_lset X 0 ;;
  p <- mul_rows i j (mp A) (mp B) (mp X) ;;
  ret (MkMpi (ms A * ms B) p).
(** mbedtls_mpi_mul_int, bignum.c:1150-1161 *)
Definition l_mul_int (xa : bool) (X A : mpi) (b : Z) : res mpi := l_mul xa false X A (MkMpi 1 [u64 b]).

(** mbedtls_int_div_int, bignum.c:1167-1257, lines 1180-1200: with the 128-bit type (the remainder is never asked for) *)
Definition int_div_int (u1 u0 d : Z) : Z :=
  if (d =? 0) || (d <=? u1) then 2 ^ 64 - 1
  else
    let dividend := Z.lor (Z.shiftl u1 64) u0 in
    let quotient := dividend / d in
    if 2 ^ 64 - 1 <? quotient then 2 ^ 64 - 1 else quotient.

(** mbedtls_mpi_div_mpi, bignum.c:1262-1372.  The loop of lines 1303-1307: at most 4 subtractions are needed *)
Fixpoint div_top (fuel : nat) (X Y Zq : mpi) (k : nat) : res (mpi * mpi) :=
  match fuel with
  | O => Diverge
  | S f =>
    c <- l_cmp X Y ;;
    if c <? 0 then ret (X, Zq)
    else
      z <- lnth (mp Zq) k ;;
      p <- lupd (mp Zq) k (u64 (z + 1)) ;;
      X <-? l_sub true false X X Y ;;
      div_top f X Y (MkMpi (ms Zq) p) k
  end.
(** The loop of lines 1320-1335: the value of Z.p[i - t - 1] when it ends *)
Fixpoint div_est (fuel : nat) (X Y T1 T2 : mpi) (i t : nat) (q : Z) : res (mpi * mpi * Z) :=
  match fuel with
  | O => Diverge
  | S f =>
    let q := u64 (q - 1) in
    T1 <-? l_lset T1 0 ;;
    y0 <- (if (t <? 1)%nat then Ok 0 else lnth (mp Y) (t - 1)) ;;
    y1 <- lnth (mp Y) t ;;
    p <- lupd (mp T1) 0 y0 ;; p <- lupd p 1 y1 ;;
    let T1 := MkMpi (ms T1) p in
    T1 <-? l_mul_int true T1 T1 q ;;
    T2 <-? l_lset T2 0 ;;
    x0 <- (if (i <? 2)%nat then Ok 0 else lnth (mp X) (i - 2)) ;;
    x1 <- (if (i <? 1)%nat then Ok 0 else lnth (mp X) (i - 1)) ;;
    x2 <- lnth (mp X) i ;;
    p <- lupd (mp T2) 0 x0 ;; p <- lupd p 1 x1 ;; p <- lupd p 2 x2 ;;
    let T2 := MkMpi (ms T2) p in
    c <- l_cmp T1 T2 ;;
    if 0 <? c then div_est f X Y T1 T2 i t q else ret (T1, T2, q)
  end.
(** The loop of lines 1310-1348: [k] iterations are left, i = t + k *)
Fixpoint div_loop (k : nat) (X Y Zq T1 T2 : mpi) (t : nat) : res (mpi * mpi) :=
  match k with
  | O => ret (X, Zq)
  | S k' =>
    let i := (t + k)%nat in
    xi <- lnth (mp X) i ;;
    yt <- lnth (mp Y) t ;;
    q <- (if yt <=? xi then Ok (2 ^ 64 - 1)
          else x1 <- lnth (mp X) (i - 1) ;; Ok (int_div_int xi x1 yt)) ;;
    '(T1, T2, q) <-? div_est 10 X Y T1 T2 i t (u64 (q + 1)) ;;
    T1 <-? l_mul_int false T1 Y q ;;
    T1 <-? l_shift_l T1 (64 * Z.of_nat k') ;;
    X <-? l_sub true false X X T1 ;;
    c <- l_cmp_int X 0 ;;
    '(X, T1, q) <-? (if c <? 0 then
        T1 <-? l_copy false T1 Y ;;
        T1 <-? l_shift_l T1 (64 * Z.of_nat k') ;;
        X <-? l_add true false X X T1 ;;
        ret (X, T1, u64 (q - 1))
      else ret (X, T1, q)) ;;
    p <- lupd (mp Zq) k' q ;;
    div_loop k' X Y (MkMpi (ms Zq) p) T1 T2 t
  end.
(** The quotient and the remainder before they are stored, lines 1281-1348: X, Z and k (n < t, which would wrap around, does not occur) *)
Definition div_core (A B : mpi) : res (mpi * mpi * Z) :=
  X <-? l_copy false l_init A ;;
  Y <-? l_copy false l_init B ;;
  let X := with_s X 1 in
  let Y := with_s Y 1 in
  Zq <-? l_grow l_init (length (mp A) + 2) ;;
  Zq <-? l_lset Zq 0 ;;
  T1 <-? l_grow l_init 2 ;;
  T2 <-? l_grow l_init 3 ;;
  b <- l_bitlen Y ;;
  let k := b mod 64 in
  '(X, Y, k) <-? (if k <? 63 then
      let k := 63 - k in
      X <-? l_shift_l X k ;;
      Y <-? l_shift_l Y k ;;
      ret (X, Y, k)
    else ret (X, Y, 0)) ;;
  let n := (length (mp X) - 1)%nat in
  let t := (length (mp Y) - 1)%nat in
  if (n <? t)%nat then UB
  else
    Y <-? l_shift_l Y (64 * Z.of_nat (n - t)) ;;
    '(X, Zq) <-? div_top 5 X Y Zq (n - t) ;;
    Y <-? l_shift_r Y (64 * Z.of_nat (n - t)) ;;
    '(X, Zq) <-? div_loop (n - t) X Y Zq T1 T2 t ;;
    ret (X, Zq, k).
(** The calls of mbedtls_mpi_div_mpi: the quotient and the remainder, each where its pointer is not null.  [qa], [ra]: Q == A,
    R == A (B is another object than Q, R, and Q another than R). *)
Definition l_div (qa ra : bool) (Q R : option mpi) (A B : mpi) : res (option mpi * option mpi) :=
  c <- l_cmp_int B 0 ;;
  if c =? 0 then err ERR_MPI_DIVISION_BY_ZERO
  else
    c <- l_cmp_abs A B ;;
    if c <? 0 then
      Q' <-? match Q with Some Q => Q <-? l_lset Q 0 ;; ret (Some Q) | None => ret None end ;;
      let A := match Q' with Some Q => if qa then Q else A | None => A end in
      R <-? match R with Some R => R <-? l_copy ra R A ;; ret (Some R) | None => ret None end ;;
      ret (Q', R)
    else
      '(X, Zq, k) <-? div_core A B ;;
      Q' <-? match Q with
             | Some Q =>
               Q <-? l_copy false Q Zq ;;
               let A := if qa then Q else A in
               ret (Some (with_s Q (ms A * ms B)))
             | None => ret None
             end ;;
      let A := match Q' with Some Q => if qa then Q else A | None => A end in
      R <-? match R with
            | Some R =>
              X <-? l_shift_r X k ;;
              let X := with_s X (ms A) in
              R <-? l_copy false R X ;;
              c <- l_cmp_int R 0 ;;
              ret (Some (if c =? 0 then with_s R 1 else R))
            | None => ret None
            end ;;
      ret (Q', R).
(** mbedtls_mpi_div_int, bignum.c:1377-1388 *)
Definition l_div_int (qa ra : bool) (Q R : option mpi) (A : mpi) (b : Z) : res (option mpi * option mpi) :=
  B <- l_sint b ;; l_div qa ra Q R A B.
(** mbedtls_mpi_mod_mpi, bignum.c:1393-1411; [ra]: R == A; B is another object than R *)
Fixpoint mod_up (fuel : nat) (R B : mpi) : res mpi :=
  match fuel with
  | O => Diverge
  | S f => c <- l_cmp_int R 0 ;; if c <? 0 then R <-? l_add true false R R B ;; mod_up f R B else ret R
  end.
Fixpoint mod_down (fuel : nat) (R B : mpi) : res mpi :=
  match fuel with
  | O => Diverge
  | S f => c <- l_cmp R B ;; if 0 <=? c then R <-? l_sub true false R R B ;; mod_down f R B else ret R
  end.
Definition l_mod (ra : bool) (R A B : mpi) : res mpi :=
  c <- l_cmp_int B 0 ;;
  if c <? 0 then err ERR_MPI_NEGATIVE_VALUE
  else
    '(_, R) <-? l_div false ra None (Some R) A B ;;
    match R with
    | None => UB
    | Some R =>
      R <-? mod_up 2 R B ;;
      mod_down 2 R B
    end.
(** mbedtls_mpi_mod_int, bignum.c:1416-1468: the loop of lines 1444-1455 over the limbs, most significant first *)
Fixpoint mod_int_loop (p : limbs) (b y : Z) : Z :=
  match p with
  | [] => y
  | x :: p =>
    let y := Z.lor (u64 (Z.shiftl y 32)) (Z.shiftr x 32) in
    let z := y / b in
    let y := u64 (y - u64 (z * b)) in
    let x := u64 (Z.shiftl x 32) in
    let y := Z.lor (u64 (Z.shiftl y 32)) (Z.shiftr x 32) in
    let z := y / b in
    let y := u64 (y - u64 (z * b)) in
    mod_int_loop p b y
  end.
Definition l_mod_int (A : mpi) (b : Z) : res Z :=
  if b =? 0 then err ERR_MPI_DIVISION_BY_ZERO
  else if b <? 0 then err ERR_MPI_NEGATIVE_VALUE
  else if b =? 1 then ret 0
  else if b =? 2 then x <- lnth (mp A) 0 ;; ret (Z.land x 1)
  else
    let y := mod_int_loop (rev (mp A)) b 0 in
    ret (if (ms A <? 0) && negb (y =? 0) then b - y else y).
