(** The inner loops of the multiplication of big numbers, src/mbedtls/bn_mul.h, and the division of two limbs by one,
    src/mbedtls/bignum.c, in the variants that the preprocessor chooses from.

    config.h:56 defines MBEDTLS_HAVE_ASM, so that on x86-64 with GCC or Clang MULADDC_CORE is the inline assembly of
    bn_mul.h:161-185.  Elsewhere it is the C code with the 128-bit type (bn_mul.h:841-857), or the C code with half limbs
    (bn_mul.h:859-882) when MBEDTLS_NO_UDBL_DIVISION is set.  [LimbModel] has the second one on lists of limbs; here all of them
    work on memory.

    Memory is a map from addresses of limbs to limbs.  Addresses are numbers below 2^64, and only multiples of 8 can be read or
    written.  Reading or writing an address without a limb is [UB].  That the compiler keeps the memory operands of the inline
    assembly up to date (it has no "memory" clobber, bn_mul.h:179-183) is trusted. *)
From Verif Require Import Base LimbModel.

Definition mem := Z -> option Z.
Definition load (m : mem) (a : Z) : outcome Z :=
  if a mod 8 =? 0 then match m a with Some x => Ok x | None => UB end else UB.
Definition store (m : mem) (a x : Z) : outcome mem :=
  _ <- load m a ;; Ok (fun a' => if a' =? a then Some x else m a').

(** * The part of the x86-64 instruction set used in bn_mul.h:163-177 (AT&T syntax, destination last) *)
Inductive reg := RAX | RBX | RCX | RDX | RSI | RDI | R8.
Definition reg_eqb (a b : reg) : bool :=
  match a, b with
  | RAX, RAX | RBX, RBX | RCX, RCX | RDX, RDX | RSI, RSI | RDI, RDI | R8, R8 => true
  | _, _ => false
  end.
Inductive instr :=
| MovLoad (src dst : reg)      (* movq (src), dst *)
| Mov (src dst : reg)          (* movq src, dst *)
| Mul (src : reg)              (* mulq src *)
| AddImm (i : Z) (dst : reg)   (* addq $i, dst *)
| Add (src dst : reg)          (* addq src, dst *)
| AddMem (src dst : reg)       (* addq src, (dst) *)
| AdcImm (i : Z) (dst : reg)   (* adcq $i, dst *)
| Adc (src dst : reg)          (* adcq src, dst *)
| Xor (src dst : reg)          (* xorq src, dst *)
| Nop.                         (* nop *)
(** Registers, carry flag, memory *)
Record cpu := MkCpu { regs : reg -> Z; cf : bool; cmem : mem }.
Definition setr (r : reg) (x : Z) (f : reg -> Z) : reg -> Z := fun r' => if reg_eqb r' r then x else f r'.
Definition step (i : instr) (s : cpu) : outcome cpu :=
  let r := regs s in
  match i with
  | MovLoad a b => x <- load (cmem s) (r a) ;; Ok (MkCpu (setr b x r) (cf s) (cmem s))
  | Mov a b => Ok (MkCpu (setr b (r a) r) (cf s) (cmem s))
  | Mul a =>
    let p := r RAX * r a in
    Ok (MkCpu (setr RDX (p / 2 ^ 64) (setr RAX (p mod 2 ^ 64) r)) (negb (p / 2 ^ 64 =? 0)) (cmem s))
  | AddImm i b => let t := r b + i in Ok (MkCpu (setr b (u64 t) r) (2 ^ 64 <=? t) (cmem s))
  | Add a b => let t := r b + r a in Ok (MkCpu (setr b (u64 t) r) (2 ^ 64 <=? t) (cmem s))
  | AddMem a b =>
    x <- load (cmem s) (r b) ;;
    let t := x + r a in
    m <- store (cmem s) (r b) (u64 t) ;;
    Ok (MkCpu r (2 ^ 64 <=? t) m)
  | AdcImm i b => let t := r b + i + bz (cf s) in Ok (MkCpu (setr b (u64 t) r) (2 ^ 64 <=? t) (cmem s))
  | Adc a b => let t := r b + r a + bz (cf s) in Ok (MkCpu (setr b (u64 t) r) (2 ^ 64 <=? t) (cmem s))
  | Xor a b => Ok (MkCpu (setr b (Z.lxor (r b) (r a)) r) false (cmem s))
  | Nop => Ok s
  end.
Fixpoint exec (p : list instr) (s : cpu) : outcome cpu := match p with [] => Ok s | i :: p => s <- step i s ;; exec p s end.

(** MULADDC_INIT, bn_mul.h:163-165 *)
Definition asm_init : list instr := [Xor R8 R8].
(** MULADDC_CORE, bn_mul.h:167-177 *)
Definition asm_core : list instr :=
  [ MovLoad RSI RAX;
    Mul RBX;
    AddImm 8 RSI;
    Add RCX RAX;
    Mov R8 RCX;
    AdcImm 0 RDX;
    Nop;
    AddMem RAX RDI;
    Adc RDX RCX;
    AddImm 8 RDI ].

(** * A block MULADDC_INIT (MULADDC_CORE)^n MULADDC_STOP, in each variant.  It takes the memory, the pointers s and d, the carry c
    and the factor b, and gives the new memory, pointers and carry. *)
Definition block := nat -> mem -> Z -> Z -> Z -> Z -> outcome (mem * Z * Z * Z).

(** bn_mul.h:161-185.  The constraints of lines 180-182 put c into rcx, d into rdi, s into rsi and b into rbx, and read c, d and s
    back; [junk] is what the other registers and the flag contain before *)
Definition asm_block (junk : reg -> Z) (junkf : bool) : block := fun n m s d c b =>
  st <- exec (asm_init ++ concat (repeat asm_core n)) (MkCpu (setr RBX b (setr RSI s (setr RDI d (setr RCX c junk)))) junkf m) ;;
  Ok (cmem st, regs st RSI, regs st RDI, regs st RCX).

(** A block made of C statements repeated n times *)
Fixpoint c_block (core : mem -> Z -> Z -> Z -> Z -> outcome (mem * Z * Z * Z)) (n : nat) (m : mem) (s d c b : Z) : outcome (mem * Z * Z * Z) :=
  match n with
  | O => Ok (m, s, d, c)
  | S n => r <- core m s d c b ;; let '(m, s, d, c) := r in c_block core n m s d c b
  end.
(** bn_mul.h:846-852, with the 128-bit type *)
Definition udbl_core (m : mem) (s d c b : Z) : outcome (mem * Z * Z * Z) :=
  y <- load m s ;;
  let s := u64 (s + 8) in
  let r := (y * b) mod 2 ^ 128 in
  let r0 := u64 r in
  let r1 := u64 (Z.shiftr r 64) in
  let r0 := u64 (r0 + c) in
  let r1 := u64 (r1 + bz (r0 <? c)) in
  x <- load m d ;;
  let r0 := u64 (r0 + x) in
  let r1 := u64 (r1 + bz (r0 <? x)) in
  let c := r1 in
  m <- store m d r0 ;;
  Ok (m, s, u64 (d + 8), c).
(** bn_mul.h:861-879, with half limbs; b0 and b1 of lines 863-864 are computed in every call *)
Definition half_core (m : mem) (s d c b : Z) : outcome (mem * Z * Z * Z) :=
  let b0 := Z.shiftr (u64 (Z.shiftl b 32)) 32 in
  let b1 := Z.shiftr b 32 in
  y <- load m s ;;
  let s0 := Z.shiftr (u64 (Z.shiftl y 32)) 32 in
  let s1 := Z.shiftr y 32 in
  let s := u64 (s + 8) in
  let rx := u64 (s0 * b1) in
  let r0 := u64 (s0 * b0) in
  let ry := u64 (s1 * b0) in
  let r1 := u64 (s1 * b1) in
  let r1 := u64 (r1 + Z.shiftr rx 32) in
  let r1 := u64 (r1 + Z.shiftr ry 32) in
  let rx := u64 (Z.shiftl rx 32) in
  let ry := u64 (Z.shiftl ry 32) in
  let r0 := u64 (r0 + rx) in
  let r1 := u64 (r1 + bz (r0 <? rx)) in
  let r0 := u64 (r0 + ry) in
  let r1 := u64 (r1 + bz (r0 <? ry)) in
  let r0 := u64 (r0 + c) in
  let r1 := u64 (r1 + bz (r0 <? c)) in
  x <- load m d ;;
  let r0 := u64 (r0 + x) in
  let r1 := u64 (r1 + bz (r0 <? x)) in
  let c := r1 in
  m <- store m d r0 ;;
  Ok (m, s, u64 (d + 8), c).
Definition udbl_block : block := c_block udbl_core.
Definition half_block : block := c_block half_core.

(** * mpi_mul_hlp, bignum.c:1038-1108 (without MULADDC_HUIT, which only the 32-bit variants with SSE2 define) *)
(** `for( ; i >= k; i -= k )' of lines 1065-1080, 1082-1091, 1093-1098; [fuel] is at least the number of rounds *)
Fixpoint hlp_loop (blk : block) (k fuel : nat) (i : nat) (m : mem) (s d c b : Z) : outcome (nat * (mem * Z * Z * Z)) :=
  if (i <? k)%nat then Ok (i, (m, s, d, c))
  else match fuel with
  | O => Diverge
  | S fuel => r <- blk k m s d c b ;; let '(m, s, d, c) := r in hlp_loop blk k fuel (i - k) m s d c b
  end.
(** Lines 1103-1107; [fuel] bounds the number of rounds *)
Fixpoint hlp_carry (fuel : nat) (m : mem) (d c : Z) : outcome mem :=
  match fuel with
  | O => Diverge
  | S fuel =>
    x <- load m d ;;
    let x := u64 (x + c) in
    m <- store m d x ;;
    let c := bz (x <? c) in
    if c =? 0 then Ok m else hlp_carry fuel m (u64 (d + 8)) c
  end.
Definition hlp_mem (blk : block) (fuel : nat) (m : mem) (i : nat) (s d b : Z) : outcome mem :=
  r <- hlp_loop blk 16 i i m s d 0 b ;; let '(i, (m, s, d, c)) := r in
  r <- hlp_loop blk 8 i i m s d c b ;; let '(i, (m, s, d, c)) := r in
  r <- hlp_loop blk 1 i i m s d c b ;; let '(i, (m, s, d, c)) := r in
  hlp_carry fuel m d c.

(** * mbedtls_int_div_int without the 128-bit type, bignum.c:1203-1256 (r is NULL in the only call, line 1316) *)
(** The loops of lines 1230-1236 and 1242-1248: the quotient digit is lowered at most twice *)
Fixpoint fix_digit (fuel : nat) (q r0 d1 d0 u : Z) : outcome Z :=
  if (2 ^ 32 <=? q) || (u64 (2 ^ 32 * r0 + u) <? u64 (q * d0)) then
    match fuel with
    | O => Diverge
    | S fuel =>
      let q := u64 (q - 1) in
      let r0 := u64 (r0 + d1) in
      if 2 ^ 32 <=? r0 then Ok q else fix_digit fuel q r0 d1 d0 u
    end
  else Ok q.
Definition int_div_half (u1 u0 d : Z) : outcome Z :=
  if (d =? 0) || (d <=? u1) then Ok (2 ^ 64 - 1)
  else
    let s := l_clz d in
    let d := u64 (Z.shiftl d s) in
    let u1 := u64 (Z.shiftl u1 s) in
    (* line 1215: shifting a 64-bit number by 64 - s is undefined for s = 0; the mask is all ones for s > 0 *)
    if s =? 0 then UB
    else
    let u1 := Z.lor u1 (Z.land (Z.shiftr u0 (64 - s)) (if 0 <? s then 2 ^ 64 - 1 else 0)) in
    let u0 := u64 (Z.shiftl u0 s) in
    let d1 := Z.shiftr d 32 in
    let d0 := Z.land d (2 ^ 32 - 1) in
    let u0_msw := Z.shiftr u0 32 in
    let u0_lsw := Z.land u0 (2 ^ 32 - 1) in
    let q1 := u1 / d1 in
    let r0 := u64 (u1 - d1 * q1) in
    q1 <- fix_digit 3 q1 r0 d1 d0 u0_msw ;;
    let rAX := u64 (u1 * 2 ^ 32 + u64 (u0_msw - q1 * d)) in
    let q0 := rAX / d1 in
    let r0 := u64 (rAX - q0 * d1) in
    q0 <- fix_digit 3 q0 r0 d1 d0 u0_lsw ;;
    Ok (u64 (q1 * 2 ^ 32 + q0)).
