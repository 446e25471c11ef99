(** Writing backwards into a buffer, and the DER encodings of booleans, strings and sequences (ITU-T X.690). *)
From Verif Require Import Base RsaKeySpec MpiModel AsnModel.

(** The buffer after [d] has been written so that it ends in front of position [p] *)
Definition put (b : bytes) (p : Z) (d : bytes) : bytes := firstn (Z.to_nat (p - zlen d)) b ++ d ++ skipn (Z.to_nat p) b.
(** A writer of [d]: buffer, new position and the count [r] if [d] fits in front of [p]; else it reports that the buffer is too small. *)
Definition writer (w : bytes -> Z -> wres) (d : bytes) (r : Z) : Prop :=
  forall b p, 0 <= p <= zlen b -> w b p = if zlen d <=? p then ret (put b p d, p - zlen d, r) else err ERR_ASN1_BUF_TOO_SMALL.

Definition der_bool (v : bool) : bytes := der_tlv 1 [if v then 255 else 0].
(** BIT STRING of the first [n] bits of [bits]: the number of unused bits, then the bytes *)
Definition der_bits (bits : bytes) (n : Z) : bytes := let k := (n + 7) / 8 in der_tlv 3 (8 * k - n :: firstn (Z.to_nat k) bits).
(** SEQUENCE OF values with the same tag *)
Definition der_sequence_of (tag : Z) (contents : list bytes) : bytes := der_sequence (concat (map (der_tlv tag) contents)).
(** The part of the buffer that an entry (tag, position, length) stands for *)
Definition entry_of (b : bytes) (x : Z * Z * Z) : Z * bytes := let '(t, p, l) := x in (t, firstn (Z.to_nat l) (skipn (Z.to_nat p) b)).
(** Safe: no undefined behaviour, an error or a result with [P] *)
Definition safe {A} (x : res A) (P : A -> Prop) : Prop := (exists e, x = err e) \/ exists a, x = ret a /\ P a.
