(** Specification of the PRG: one infinite byte stream per key. *)
From Verif Require Import Base.

(** The integers o, o+1, ..., o+n-1. *)
Fixpoint zseq (o : Z) (n : nat) : list Z :=
  match n with
  | O => []
  | S n' => o :: zseq (o + 1) n'
  end.

(** Bytes o .. o+len-1 of a stream. *)
Definition stream_window (S : Z -> Z) (o len : Z) : bytes := map S (zseq o (Z.to_nat len)).

(** The ChaCha20 key stream (64-byte blocks, 64-bit counter starting from 0). *)
Definition chacha_stream (blk : bytes -> Z -> bytes) (key : bytes) (i : Z) : Z :=
  nth (Z.to_nat (i mod 64)) (blk key ((i / 64) mod 2 ^ 64)) 0.

(** [buf] with its first bytes replaced by [w]. *)
Definition prefix_replaced (w buf : bytes) : bytes := w ++ skipn (length w) buf.
