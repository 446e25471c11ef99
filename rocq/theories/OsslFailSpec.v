(** What reporting errors means. *)
From Verif Require Import Base.

(** The right result, or an exception *)
Definition reported {A} (x right : outcome A) : Prop := x = right \/ exists e, x = Throw e.
(** Exactly the call with this number fails. *)
Definition only (i j : nat) : bool := (i =? j)%nat.
