(** Specification for Prp. *)
From Verif Require Import Base.

(** R maps 16-byte blocks to 16-byte blocks. *)
Definition block_map (R : bytes -> bytes) : Prop :=
  forall x, is_bytes x -> zlen x = 16 -> is_bytes (R x) /\ zlen (R x) = 16.
Definition is_context (b : bytes) : Prop := is_bytes b /\ zlen b = 112.
(** A buffer for a message of n bytes, with arbitrary content. *)
Definition buffer (n : Z) (g : bytes) : Prop := is_bytes g /\ zlen g = n.

(** Multiplication by x in GF(2^128) modulo x^128 + x^7 + x^2 + x + 1 *)
Definition gf_double (v : Z) : Z := if 2 ^ 127 <=? v then Z.lxor (2 * v - 2 ^ 128) 135 else 2 * v.
