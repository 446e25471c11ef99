(** RSA as a trapdoor permutation, independently of the model: messages, keys, and sequences of calls on an object. *)
From Coq Require Import Znumtheory.
From Verif Require Import Base RsaKeyModel RsaKeySpec TdpModel.

(** The 256-byte big-endian encoding of a number *)
Definition message (x : Z) : bytes := be_encode 256 x.
(** A 2048-bit modulus *)
Definition bits2048 (n : Z) : Prop := 2 ^ 2047 <= n < 2 ^ 2048.

(** The numbers P for which exponents count modulo P - 1 (Korselt's criterion): the primes, and otherwise only products of
    distinct primes r such that r - 1 divides P - 1 (Carmichael numbers) *)
Definition rsa_factor (P : Z) : Prop :=
  exists rs, P = fold_right Z.mul 1 rs /\ NoDup rs /\ Forall (fun r => prime r /\ (r - 1 | P - 1)) rs.
(** A private key of the trapdoor permutation; P and Q prime is the usual case, see [prime_rsa_factor] *)
Definition tdp_key (k : rsa_key) : Prop :=
  private_ok k /\ bits2048 (key_N k) /\ rsa_factor (key_P k) /\ rsa_factor (key_Q k).

(** The answers of the random generator during one call: numbers of the requested size, and one of the first eleven of them
    invertible modulo the modulus *)
Definition rng_ok (rnd : nat -> Z -> Z) : Prop := forall i n, 0 <= n -> 0 <= rnd i n < 256 ^ n.
Definition rng_good (n : Z) (rnd : nat -> Z -> Z) : Prop := rng_ok rnd /\ exists i, (i < 11)%nat /\ Z.gcd (rnd i 255) n = 1.

(** [f] applied [n] times, stopping at the first exception *)
Fixpoint repeat_call {A} (n : nat) (f : A -> outcome A) (x : A) : outcome A :=
  match n with O => Ok x | S n' => y <- f x ;; repeat_call n' f y end.

(** A call of invert with a good random generator: the array overload takes 256 bytes, the string overload any number *)
Definition good_call (n : Z) (c : tdp_call) : Prop :=
  rng_good n (call_rnd c) /\ zlen (call_buf c) = 256 /\ is_bytes (call_input c) /\ (call_string c = false -> zlen (call_input c) = 256).

(** A pair of primes that can be the factors of a key with exponent 65537 *)
Definition usable (c : Z * Z) : Prop :=
  fst c <> snd c /\ bits2048 (fst c * snd c) /\ Z.gcd 65537 ((fst c - 1) * (snd c - 1)) = 1.
