(** HMAC as in RFC 2104, and HMAC in counter mode. *)
From Verif Require Import Base PrgSpec.

Section Rfc2104.
  Variable H : bytes -> bytes.
  Variable B : nat.   (* block size *)

  (** "append zeros to the end of K to create a B byte string"; longer keys are hashed first *)
  Definition rfc_key (K : bytes) : bytes :=
    let K' := if Nat.leb (length K) B then K else H K in
    K' ++ zeros (B - length K').
  Definition rfc_hmac (K m : bytes) : bytes :=
    H (xorb_list (rfc_key K) (repeat 0x5c B) ++ H (xorb_list (rfc_key K) (repeat 0x36 B) ++ m)).
End Rfc2104.

(** The first [n] bytes of F(x||0) || F(x||1) || ... (one byte counter). *)
Definition ctr_mode (F : bytes -> bytes) (x : bytes) (n : nat) : bytes :=
  firstn n (concat (map (fun i => F (x ++ [i mod 256])) (zseq 0 (n / 64 + 1)))).
