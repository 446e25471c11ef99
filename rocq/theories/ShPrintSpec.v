(** Specification of printing: two hexadecimal digits for every byte. *)
From Verif Require Import Base ShPrintModel.

Definition lower_digits : bytes := [48; 49; 50; 51; 52; 53; 54; 55; 56; 57; 97; 98; 99; 100; 101; 102].
Definition upper_digits : bytes := [48; 49; 50; 51; 52; 53; 54; 55; 56; 57; 65; 66; 67; 68; 69; 70].
Definition hex_of (upper : bool) (l : bytes) : bytes :=
  let digit d := nth (Z.to_nat d) (if upper then upper_digits else lower_digits) 0 in
  flat_map (fun b => [digit (b / 16); digit (b mod 16)]) l.
(** The format of a stream: everything but the text and the width, which every output resets *)
Definition same_flags (s s' : ostr) : Prop :=
  o_base s' = o_base s /\ o_showbase s' = o_showbase s /\ o_upper s' = o_upper s /\ o_left s' = o_left s.
