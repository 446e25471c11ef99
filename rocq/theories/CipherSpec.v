(** What is assumed of the AEAD. *)
From Verif Require Import Base.

Record aead_laws (enc : bytes -> bytes -> bytes -> bytes) (dec : bytes -> bytes -> bytes -> option bytes) : Prop := {
  A_len : forall k n m, length (enc k n m) = (length m + 16)%nat;
  A_dec : forall k n m, dec k n (enc k n m) = Some m;
  (* decryption succeeds on nothing else *)
  A_auth : forall k n c m, dec k n c = Some m -> c = enc k n m
}.

(** The ciphertext of [m] for the key [kb] and the random bytes [r]: the nonce, then the AEAD encryption under the derived key;
    the AEAD nonce is the beginning of [r]. *)
Definition ct (kdf : bytes -> bytes -> bytes) (enc : bytes -> bytes -> bytes -> bytes) (kb r m : bytes) : bytes :=
  r ++ enc (kdf kb r) (firstn 12 r) m.
