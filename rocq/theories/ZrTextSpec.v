(** Texts of scalars: decimal numerals as in BnStrSpec *)
From Verif Require Import Base BnStrSpec.

(** The text [t] is how the integer [z] is written: a minus sign if it is negative, then its digits without leading zeros *)
Definition decimal (z : Z) (t : bytes) : Prop :=
  0 <= z /\ shortest 10 t z \/ z < 0 /\ exists cs, t = 45 :: cs /\ shortest 10 cs (- z).
(** The text [t] begins with digits that stand for [v] and goes on with something that is no digit, or ends *)
Definition begins (t : bytes) (v : Z) : Prop :=
  exists cs rest, t = cs ++ rest /\ digits 10 cs v /\ forall c rest' d, rest = c :: rest' -> ~ digit 10 c d.
(** What a text is read as: the digits at its beginning, after a minus sign if there is one *)
Definition read_as (t : bytes) (z : Z) : Prop :=
  match t with
  | 45 :: t => exists v, begins t v /\ z = - v
  | _ => begins t z
  end.
