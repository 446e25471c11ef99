(** C134: the texts of scalars *)
From Verif Require Import Base BnStrSpec ZrTextModel ZrTextSpec ZrTextProofs.

(** What is put on the stream is the decimal numeral of the scalar and one more character, zero. *)
Theorem C134_print_partial : forall z, exists t, zr_print z = Ok (t ++ [0]) /\ decimal z t.
Proof. exact print_ok. Qed.
Print Assumptions C134_print_partial.
(** ... so it is not the numeral *)
Theorem C134_print_refuted : exists z t, zr_print z = Ok t /\ ~ decimal z t.
Proof. exact print_refuted. Qed.
Print Assumptions C134_print_refuted.

(** Every text is read as the digits at its beginning; [cap] is what RELIC's numbers are below. *)
Theorem C134_read_partial : forall cap s, zlen s < 2 ^ 31 -> exists z, read_as s z /\ (Z.abs z < cap -> zr_of_string cap s = Ok z).
Proof. exact read_total. Qed.
Print Assumptions C134_read_partial.
(** The numeral of a scalar is read as the scalar. *)
Theorem C134_read_decimal : forall cap z t, decimal z t -> Z.abs z < cap -> zlen t < 2 ^ 31 -> zr_of_string cap t = Ok z.
Proof. exact read_decimal. Qed.
Print Assumptions C134_read_decimal.
(** What is printed is read back. *)
Theorem C134_read_back : forall cap z t, zr_print z = Ok t -> Z.abs z < cap -> zlen t < 2 ^ 31 -> zr_of_string cap t = Ok z.
Proof. exact read_back. Qed.
Print Assumptions C134_read_back.
(** Texts that are no numerals are accepted: 12x is read as 12. *)
Theorem C134_read_refuted : exists s z, (forall z', ~ numeral 10 s z') /\ zr_of_string (2 ^ 256) s = Ok z.
Proof. exact read_refuted. Qed.
Print Assumptions C134_read_refuted.

(** -1207 *)
Example C134_example :
  zr_print (-1207) = Ok [45; 49; 50; 48; 55; 0] /\ zr_of_string (2 ^ 256) [45; 49; 50; 48; 55] = Ok (-1207) /\
  decimal (-1207) [45; 49; 50; 48; 55] /\ Z.abs (-1207) < 2 ^ 256 /\ zlen [45; 49; 50; 48; 55] < 2 ^ 31.
Proof.
  split; [vm_compute; reflexivity|]. split; [vm_compute; reflexivity|]. split; [|split; reflexivity].
  destruct (print_ok (-1207)) as (t & P & D). assert (t ++ [0] = [45; 49; 50; 48; 55] ++ [0]) as E by (vm_compute in P; injection P as P; symmetry; exact P).
  apply (f_equal (@rev Z)) in E. rewrite !rev_app_distr in E. injection E as E. apply (f_equal (@rev Z)) in E. rewrite rev_involutive in E. rewrite E in D. exact D.
Qed.
