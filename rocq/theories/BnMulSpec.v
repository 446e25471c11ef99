(** What the inner loop of the multiplication has to do *)
From Verif Require Import Base LimbSpec BnMulModel.

(** The limbs [l] lie in memory from the address [p] on *)
Definition holds (m : mem) (p : Z) (l : list Z) : Prop :=
  p mod 8 = 0 /\ 0 <= p /\ p + 8 * zlen l < 2 ^ 64 /\ forall k, (k < length l)%nat -> m (p + 8 * Z.of_nat k) = Some (nth k l 0).
(** Two ranges of limbs that do not overlap *)
Definition apart (p : Z) (n : nat) (q : Z) (k : nat) : Prop := p + 8 * Z.of_nat n <= q \/ q + 8 * Z.of_nat k <= p.
(** Nothing changes outside of [n] limbs at [p] *)
Definition only_at (p : Z) (n : nat) (m m' : mem) : Prop := forall a, ~ (p <= a < p + 8 * Z.of_nat n) -> m' a = m a.
