(** Specification of temporary memory: what a function leaves behind. *)
From Verif Require Import Base TmpModel.

(** The block has been given back and holds zeros only *)
Definition gone (c : block) : Prop := b_live c = false /\ Forall (fun x => x = 0) (b_bytes c).
(** The function has not touched older blocks, and its own are gone *)
Definition wiped (m m' : list block) : Prop := exists l, m' = m ++ l /\ Forall gone l.
(** The function leaves a block that nobody can give back *)
Definition lost (m m' : list block) : Prop := exists l c, m' = m ++ l /\ In c l /\ b_live c = true.
(** The function leaves the bytes [b] in memory that has been given back *)
Definition left_behind (b : bytes) (m m' : list block) : Prop := exists l c, m' = m ++ l /\ In c l /\ b_live c = false /\ b_bytes c = b.
