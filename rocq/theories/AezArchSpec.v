(** What the ARM path needs of the AES round. *)
From Verif Require Import Base.

(** The round depends only on the 16 bytes of the register. *)
Definition register_map (R : bytes -> bytes) : Prop := forall x, R x = R (firstn 16 x).
