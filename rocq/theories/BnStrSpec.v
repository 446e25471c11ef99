(** What a text in a radix from 2 to 16 stands for *)
From Verif Require Import Base.

(** The character [c] is the digit [d]: '0' to '9', then 'A' or 'a' onwards *)
Definition digit (radix c d : Z) : Prop :=
  0 <= d < radix /\ (d <= 9 /\ c = 48 + d \/ 10 <= d /\ c = 65 + (d - 10) \/ 10 <= d /\ c = 97 + (d - 10)).
(** The digits [cs], most significant first, stand for the natural number [v] *)
Inductive digits (radix : Z) : bytes -> Z -> Prop :=
| digits_none : digits radix [] 0
| digits_snoc cs v c d : digits radix cs v -> digit radix c d -> digits radix (cs ++ [c]) (v * radix + d).
(** The text [s], digits perhaps after a minus sign, stands for the integer [v] *)
Definition numeral (radix : Z) (s : bytes) (v : Z) : Prop :=
  digits radix s v \/ exists cs m, s = 45 :: cs /\ digits radix cs m /\ v = - m.
(** A decimal digit or a capital letter from A to F *)
Definition capital (c : Z) : Prop := 48 <= c <= 57 \/ 65 <= c <= 70.
(** The digits of [m] as they are written out: capitals, and no leading zeros; in radix 16 as many as make whole bytes *)
Definition shortest (radix : Z) (cs : bytes) (m : Z) : Prop :=
  digits radix cs m /\ Forall capital cs /\
  (if radix =? 16 then exists l, 0 <= l /\ zlen cs = 2 * (l + 1) /\ (l = 0 \/ 256 ^ l <= m)
   else 1 <= zlen cs /\ (zlen cs = 1 \/ radix ^ (zlen cs - 1) <= m)).
(** How long a text may be so that it is certain to be read: a hexadecimal digit takes four bits of the 10000 limbs *)
Definition max_text (radix : Z) : Z := if radix =? 16 then 160000 else 100000.
