(** Memory with a source and a destination region. *)
From Verif Require Import Base.

(** The [n] bytes from address [p] on *)
Definition bytes_at (m : bytes) (p n : Z) : bytes := firstn (Z.to_nat n) (skipn (Z.to_nat p) m).
(** The memory with [x] at address [p] *)
Definition overlay (m : bytes) (p : Z) (x : bytes) : bytes := firstn (Z.to_nat p) m ++ x ++ skipn (Z.to_nat p + length x) m.
(** Both regions of [n] bytes are in the memory, and they are the same or have no common byte. *)
Definition regions (m : bytes) (sp dp n : Z) : Prop :=
  0 <= sp /\ sp + n <= zlen m /\ 0 <= dp /\ dp + n <= zlen m /\ (sp = dp \/ sp + n <= dp \/ dp + n <= sp).
