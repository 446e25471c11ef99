(** Property C148: printing a SetHash. *)
From Verif Require Import Base ShPrintModel ShPrintSpec ShPrintProofs.

(** The 64 digits of the value.  What is missing: streams with showbase or left, see below *)
Theorem C148_text_partial : forall l s, is_bytes l -> zlen l = 32 -> o_showbase s = false -> o_left s = false ->
  o_text (sh_print l s) = o_text s ++ hex_of (o_upper s) l.
Proof. exact print_text. Qed.
Print Assumptions C148_text_partial.
Theorem C148_determines_partial : forall l l' s, is_bytes l -> is_bytes l' -> zlen l = 32 -> zlen l' = 32 -> o_showbase s = false -> o_left s = false ->
  o_text (sh_print l s) = o_text (sh_print l' s) -> l = l'.
Proof. exact print_determines. Qed.
Print Assumptions C148_determines_partial.
(** The flags are restored, for every stream *)
Theorem C148_flags : forall l s, same_flags s (sh_print l s).
Proof. exact print_flags. Qed.
Print Assumptions C148_flags.
(** The fill character is not *)
Theorem C148_fill_refuted : (forall l s, zlen l = 32 -> o_fill (sh_print l s) = 48) /\ (exists s l, zlen l = 32 /\ o_fill (sh_print l s) <> o_fill s).
Proof. split; [exact print_fill|]. exists (mkO 10 false false false 32 0 []), (zeros 32). split; [reflexivity|vm_compute; discriminate]. Qed.
Print Assumptions C148_fill_refuted.
(** With std::left two values have the same text; with std::showbase the text is not that of the digits *)
Theorem C148_format_refuted :
  (exists s l l', is_bytes l /\ is_bytes l' /\ zlen l = 32 /\ zlen l' = 32 /\ l <> l' /\ o_text (sh_print l s) = o_text (sh_print l' s)) /\
  (exists s l, is_bytes l /\ zlen l = 32 /\ o_left s = false /\ zlen (o_text (sh_print l s)) <> 64).
Proof.
  split.
  - exists (mkO 10 false false true 32 0 []), (repeat 1 32), (repeat 16 32).
    split; [apply repeat_bytes; split; [discriminate|reflexivity]|]. split; [apply repeat_bytes; split; [discriminate|reflexivity]|].
    split; [reflexivity|]. split; [reflexivity|]. split; [discriminate|]. vm_compute. reflexivity.
  - exists (mkO 10 true false false 32 0 []), (repeat 1 32).
    split; [apply repeat_bytes; split; [discriminate|reflexivity]|]. split; [reflexivity|]. split; [reflexivity|]. vm_compute. discriminate.
Qed.
Print Assumptions C148_format_refuted.
Example C148_examples :
  sh_print (1 :: 171 :: repeat 9 30) (mkO 10 false false false 32 7 [120]) = mkO 10 false false false 48 0 (120 :: 48 :: 49 :: 97 :: 98 :: hex_of false (repeat 9 30)) /\
  o_text (sh_print (1 :: 171 :: repeat 9 30) (mkO 8 false true false 32 0 [])) = 48 :: 49 :: 65 :: 66 :: hex_of true (repeat 9 30).
Proof. split; vm_compute; reflexivity. Qed.
