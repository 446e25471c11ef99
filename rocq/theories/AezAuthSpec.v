(** Authenticated encryption of AEZ v4.1, from the definition of the scheme, on top of AezSpec.v. *)
From Verif Require Import Base AezSpec.

Section Aez.
  Variable R : bytes -> bytes.
  Variables I J L : bytes.
  (** The tweak: the length of the authenticator in bits as a block, the nonce, no associated data ([[]] is the one string the code hashes for it) *)
  Definition tweak_of (a : nat) (N : bytes) : list bytes := [be_encode 16 (8 * Z.of_nat a); N; []].
  (** Encryption: the message with a zero bytes is enciphered; for the empty message the ciphertext is the beginning of the PRF of the tweak. *)
  Definition seal (a : nat) (N P : bytes) : bytes :=
    if (length P =? 0)%nat then firstn a (tbc R I J L (-1) 3 (hash R I J L (tweak_of a N)))
    else encipher R I J L (tweak_of a N) (P ++ zeros a).
End Aez.
(** All bits of x are bits of y *)
Definition bits_below (x y : bytes) : Prop := length x = length y /\ forall i k, Z.testbit (nth i x 0) k = true -> Z.testbit (nth i y 0) k = true.
