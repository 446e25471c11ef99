(** Model of operator<< of SetHash, src/set_hash.cpp:78-93, and of the parts of std::ostream that it uses. *)
From Verif Require Import Base.

(** A stream: the flags (base, showbase, uppercase, and whether values are padded to the left side), the fill character, the field
    width, and what was written.  Padding at the right side and internal padding are the same for the values written here *)
Record ostr := mkO { o_base : Z; o_showbase : bool; o_upper : bool; o_left : bool; o_fill : Z; o_width : Z; o_text : bytes }.
(** std::hex, std::setw, std::setfill *)
Definition o_hex (s : ostr) : ostr := mkO 16 (o_showbase s) (o_upper s) (o_left s) (o_fill s) (o_width s) (o_text s).
Definition o_setw (n : Z) (s : ostr) : ostr := mkO (o_base s) (o_showbase s) (o_upper s) (o_left s) (o_fill s) n (o_text s).
Definition o_setfill (c : Z) (s : ostr) : ostr := mkO (o_base s) (o_showbase s) (o_upper s) (o_left s) c (o_width s) (o_text s).
(** os.flags(saved) *)
Definition o_restore (saved : ostr) (s : ostr) : ostr :=
  mkO (o_base saved) (o_showbase saved) (o_upper saved) (o_left saved) (o_fill s) (o_width s) (o_text s).
Definition o_digit (upper : bool) (d : Z) : Z := if d <? 10 then 48 + d else (if upper then 65 else 97) + (d - 10).
(** The digits of a value below 256 in base 8, 10 or 16, without leading zeros *)
Definition o_digits (base : Z) (upper : bool) (v : Z) : bytes :=
  (if v <? base * base then [] else [o_digit upper (v / (base * base))])
  ++ (if v <? base then [] else [o_digit upper ((v / base) mod base)]) ++ [o_digit upper (v mod base)].
Definition o_prefix (base : Z) (upper : bool) (v : Z) : bytes :=
  if v =? 0 then [] else if base =? 16 then [48; if upper then 88 else 120] else if base =? 8 then [48] else [].
(** operator<<(unsigned int) of a value below 256: the prefix, the digits, the padding; the width is reset *)
Definition o_put (v : Z) (s : ostr) : ostr :=
  let t := (if o_showbase s then o_prefix (o_base s) (o_upper s) v else []) ++ o_digits (o_base s) (o_upper s) v in
  let pad := repeat (o_fill s) (Z.to_nat (o_width s - zlen t)) in
  mkO (o_base s) (o_showbase s) (o_upper s) (o_left s) (o_fill s) 0 (o_text s ++ (if o_left s then t ++ pad else pad ++ t)).
(** The loop over the bytes, set_hash.cpp:84-87 *)
Fixpoint sh_print_loop (l : bytes) (s : ostr) : ostr :=
  match l with
  | [] => s
  | b :: l => sh_print_loop l (o_put b (o_setfill 48 (o_setw 2 (o_hex s))))
  end.
(** operator<<, set_hash.cpp:79-93 *)
Definition sh_print (state : bytes) (s : ostr) : ostr := o_restore s (sh_print_loop state s).
