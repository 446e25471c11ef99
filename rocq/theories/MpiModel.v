(** The big-integer operations of src/mbedtls/bignum.c as used by the RSA code, at the level of the integers they compute
    with: an mbedtls_mpi is its value, a [Z].  Error codes and the treatment of zero and negative arguments follow the C code.
    Allocation is assumed to succeed below MBEDTLS_MPI_MAX_LIMBS. *)
From Coq Require Import Zpow_facts.
From Verif Require Import Base.

(** A C function returning 0 or an error code: [inl] of the error code, or [inr] of its outputs. *)
Definition res (A : Type) : Type := outcome (Z + A).
Definition ret {A} (a : A) : res A := Ok (inr a).
Definition err {A} (e : Z) : res A := Ok (inl e).
Definition bindr {A B} (x : res A) (f : A -> res B) : res B :=
  bind x (fun r => match r with inl e => err e | inr a => f a end).
Notation "x <-? e ;; k" := (bindr e (fun x => k)) (at level 61, e at next level, right associativity).
Notation "' pat <-? e ;; k" := (bindr e (fun x => match x with pat => k end))
  (at level 61, pat pattern, e at next level, right associativity).
(** [return( CODE + ret )] on error *)
Definition err_add {A} (code : Z) (x : res A) : res A :=
  bind x (fun r => match r with inl e => err (code + e) | inr a => ret a end).
(** [return( CODE )] on error *)
Definition err_set {A} (code : Z) (x : res A) : res A :=
  bind x (fun r => match r with inl e => err code | inr a => ret a end).

(** bignum.h:36-43, 49, 72-75 *)
Definition ERR_MPI_BAD_INPUT_DATA : Z := -0x04.
Definition ERR_MPI_BUFFER_TOO_SMALL : Z := -0x08.
Definition ERR_MPI_NEGATIVE_VALUE : Z := -0x0A.
Definition ERR_MPI_DIVISION_BY_ZERO : Z := -0x0C.
Definition ERR_MPI_NOT_ACCEPTABLE : Z := -0x0E.
Definition ERR_MPI_ALLOC_FAILED : Z := -0x10.
Definition MPI_MAX_LIMBS : Z := 10000.
Definition MPI_MAX_SIZE : Z := 1024.
Definition MPI_MAX_BITS : Z := 8 * MPI_MAX_SIZE.

(** mbedtls_mpi_bitlen, bignum.c:386-400 *)
Definition mpi_bitlen (x : Z) : Z := if x =? 0 then 0 else Z.log2 (Z.abs x) + 1.
(** mbedtls_mpi_size, bignum.c:405-408 *)
Definition mpi_size (x : Z) : Z := (mpi_bitlen x + 7) / 8.
(** mbedtls_mpi_read_binary, bignum.c:609-627; CHARS_TO_LIMBS at bignum.c:57-58 *)
Definition mpi_read_binary (bs : bytes) : res Z :=
  let v := be_decode bs in
  let nbytes := mpi_size v in
  if MPI_MAX_LIMBS <? nbytes / 8 + (if nbytes mod 8 =? 0 then 0 else 1) then err ERR_MPI_ALLOC_FAILED else ret v.
(** mbedtls_mpi_write_binary, bignum.c:632-647: the bytes written to the buffer *)
Definition mpi_write_binary (x : Z) (buflen : Z) : res bytes :=
  if buflen <? mpi_size x then err ERR_MPI_BUFFER_TOO_SMALL else ret (be_encode (Z.to_nat buflen) (Z.abs x)).
(** mbedtls_mpi_mod_mpi, bignum.c:1393-1411 *)
Definition mpi_mod (a b : Z) : res Z :=
  if b <? 0 then err ERR_MPI_NEGATIVE_VALUE
  else if b =? 0 then err ERR_MPI_DIVISION_BY_ZERO
  else ret (a mod b).
(** mbedtls_mpi_div_mpi, bignum.c:1262-1372: truncating division *)
Definition mpi_div (a b : Z) : res (Z * Z) :=
  if b =? 0 then err ERR_MPI_DIVISION_BY_ZERO else ret (Z.quot a b, Z.rem a b).
(** mbedtls_mpi_gcd, bignum.c:1755-1802; gcd(A, 0) is computed as 0 *)
Definition mpi_gcd (a b : Z) : Z := if b =? 0 then 0 else Z.gcd a b.
(** mbedtls_mpi_exp_mod, bignum.c:1547-1750; defined for an odd non-negative modulus and a non-negative exponent.
    (The base is non-negative wherever the library uses it.) *)
Definition mpi_exp_mod (a e n : Z) : res Z :=
  if (n <? 0) || Z.even n then err ERR_MPI_BAD_INPUT_DATA
  else if e <? 0 then err ERR_MPI_BAD_INPUT_DATA
  else ret (Zpow_mod a e n mod n).
(** The inverse of [a] modulo [n], computed by the extended Euclidean algorithm *)
Fixpoint egcd (fuel : nat) (r0 r1 s0 s1 : Z) : Z * Z :=
  match fuel with
  | O => (r0, s0)
  | S f => if r1 =? 0 then (r0, s0) else egcd f r1 (r0 mod r1) s1 (s0 - (r0 / r1) * s1)
  end.
(** mbedtls_mpi_inv_mod, bignum.c:1831-1920 *)
Definition mpi_inv_mod (a n : Z) : res Z :=
  if n <=? 1 then err ERR_MPI_BAD_INPUT_DATA
  else if negb (mpi_gcd a n =? 1) then err ERR_MPI_NOT_ACCEPTABLE
  else ret (snd (egcd (S (2 * Z.to_nat (Z.log2_up n) + 2)) (a mod n) n 1 0) mod n).
