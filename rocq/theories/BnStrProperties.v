(** C107, C108: big numbers and texts *)
From Coq Require Import Lia.
From Verif Require Import Base MpiModel LimbModel LimbSpec BnStrModel BnStrSpec BnStrProofs2 BnStrProofs5.

(** C107.  A text of digits, perhaps after a minus sign, is read as the number it stands for *)
Theorem C107_read X radix s v : 2 <= radix <= 16 -> mpi_ok X -> mlen X <= 9990 -> zlen s <= max_text radix -> numeral radix s v ->
  exists R, l_read_string X radix s = ret R /\ mpi_ok R /\ mval R = v.
Proof. exact (read_string_numeral X radix s v). Qed.
Print Assumptions C107_read.
(** Every other text is refused *)
Theorem C107_other_texts X radix s : 2 <= radix <= 16 -> mpi_ok X -> mlen X <= 9990 -> zlen s <= max_text radix -> (forall v, ~ numeral radix s v) ->
  l_read_string X radix s = err ERR_MPI_INVALID_CHARACTER.
Proof. exact (read_string_other X radix s). Qed.
Print Assumptions C107_other_texts.
Theorem C107_other_radices X radix s : radix < 2 \/ 16 < radix -> l_read_string X radix s = err ERR_MPI_BAD_INPUT_DATA.
Proof. exact (read_string_radix X radix s). Qed.
Print Assumptions C107_other_radices.
Theorem C107_long_hexadecimal X s : 160000 < zlen s < 2 ^ 62 -> l_read_string X 16 s = err ERR_MPI_ALLOC_FAILED.
Proof. exact (read_string_long X s). Qed.
Print Assumptions C107_long_hexadecimal.

(** C108.  The text written stands for the number, in capitals and without superfluous zeros, and ends with a zero byte; nothing
    beyond it is touched.  Too short a buffer is left alone, and the size then reported suffices. *)
Theorem C108_write_partial X radix : mpi_ok X -> mp X <> [] -> mlen X <= 9990 -> 2 <= radix <= 16 ->
  exists n, forall buf,
    if zlen buf <? n then l_write_string X radix buf = Ok (ERR_MPI_BUFFER_TOO_SMALL, buf, Some n)
    else exists cs, let t := (if ms X =? -1 then [45] else []) ++ cs in
      l_write_string X radix buf = Ok (0, t ++ 0 :: skipn (length t + 1) buf, Some (zlen t + 1)) /\ zlen t + 1 <= n /\
      shortest radix cs (Z.abs (mval X)) /\ numeral radix t (mval X).
Proof. exact (write_f X radix). Qed.
Print Assumptions C108_write_partial.
(** Read back, the text gives the same number *)
Theorem C108_write_then_read_partial X radix : mpi_ok X -> mp X <> [] -> mlen X <= 1500 -> 2 <= radix <= 16 ->
  exists n, l_write_string X radix [] = Ok (ERR_MPI_BUFFER_TOO_SMALL, [], Some n) /\
  forall buf Y, n <= zlen buf -> mpi_ok Y -> mlen Y <= 9990 ->
  exists t rest R, l_write_string X radix buf = Ok (0, t ++ 0 :: rest, Some (zlen t + 1)) /\ zlen (t ++ 0 :: rest) = zlen buf /\ Forall (fun c => c <> 0) t /\
    l_read_string Y radix t = ret R /\ mpi_ok R /\ mval R = mval X.
Proof. exact (write_read X radix). Qed.
Print Assumptions C108_write_then_read_partial.
(** The size reported is not the least one, as bignum.h:366-367 has it: 0 in radix 10 needs two bytes, but four are asked for *)
Theorem C108_least_size_refuted : exists X radix n buf, mpi_ok X /\ l_write_string X radix [] = Ok (ERR_MPI_BUFFER_TOO_SMALL, [], Some n) /\
  zlen buf = n /\ l_write_string X radix buf = Ok (0, [48; 0; 7; 7], Some 2) /\ 2 < n.
Proof. exists (MkMpi 1 [0]), 10, 4, [7; 7; 7; 7]. split; [split; [now left | repeat constructor; discriminate]|]. repeat split; reflexivity. Qed.
Print Assumptions C108_least_size_refuted.
(** The length is not always updated, as bignum.h:363-364 has it *)
Theorem C108_length_always_set_refuted : exists X radix buf e, mpi_ok X /\ l_write_string X radix buf = Ok (e, buf, None).
Proof. exists (MkMpi 1 [5]), 17, [7], ERR_MPI_BAD_INPUT_DATA. split; [split; [now left | repeat constructor; discriminate] | reflexivity]. Qed.
Print Assumptions C108_length_always_set_refuted.
(** Writing an object that was never assigned to in radix 2 reads through the null pointer; in radix 16 it gives no digit at all *)
Theorem C108_unassigned_refuted : exists X buf, mpi_ok X /\ l_write_string X 2 buf = UB /\ l_write_string X 16 buf = Ok (0, [0; 7; 7; 7], Some 1).
Proof. exists l_init, [7; 7; 7; 7]. split; [split; [now left | constructor]|]. split; reflexivity. Qed.
Print Assumptions C108_unassigned_refuted.

(** "-7fFf" in radix 16, "-255" and "300" in radix 10 *)
Example ex_numeral : numeral 16 [45; 55; 102; 70; 102] (-32767).
Proof.
  right. exists [55; 102; 70; 102], 32767. split; [reflexivity|]. split; [|reflexivity].
  apply (digits_snoc 16 [55; 102; 70] 2047 102 15); [|unfold digit; lia].
  apply (digits_snoc 16 [55; 102] 127 70 15); [|unfold digit; lia].
  apply (digits_snoc 16 [55] 7 102 15); [|unfold digit; lia].
  apply (digits_snoc 16 [] 0 55 7); [constructor | unfold digit; lia].
Qed.
Example ex_read_hex : l_read_string l_init 16 [45; 55; 102; 70; 102] = ret (MkMpi (-1) [32767]). Proof. reflexivity. Qed.
Example ex_read_dec : l_read_string (MkMpi 1 [9; 9; 9]) 10 [45; 50; 53; 53] = ret (MkMpi (-1) [255; 0; 0]). Proof. reflexivity. Qed.
Example ex_read_empty : l_read_string l_init 10 [] = ret (MkMpi 1 [0]) /\ l_read_string l_init 10 [45] = ret (MkMpi (-1) [0]). Proof. split; reflexivity. Qed.
Example ex_read_bad : l_read_string l_init 10 [51; 48; 65] = err ERR_MPI_INVALID_CHARACTER /\ l_read_string l_init 16 [49; 45; 50] = err ERR_MPI_INVALID_CHARACTER. Proof. split; reflexivity. Qed.
Example ex_not_numeral : forall v, ~ numeral 2 [50] v.
Proof.
  intros v [H | (cs & m & E & _)]; [|discriminate]. inversion H as [|cs w c d D1 D2 E1 E2]. destruct cs as [|x cs]; [|destruct cs; discriminate]. injection E1 as ->.
  unfold digit in D2. lia.
Qed.
Example ex_write : l_write_string (MkMpi (-1) [32767]) 16 [9; 9; 9; 9; 9; 9; 9; 9] = Ok (0, [45; 55; 70; 70; 70; 0; 9; 9], Some 6) /\
  l_write_string (MkMpi (-1) [255; 0; 0]) 10 [9; 9; 9; 9; 9; 9; 9; 9] = Ok (0, [45; 50; 53; 53; 0; 9; 9; 9], Some 5) /\
  l_write_string (MkMpi 1 [0; 1]) 16 [9; 9; 9] = Ok (ERR_MPI_BUFFER_TOO_SMALL, [9; 9; 9], Some 20).
Proof. repeat split; vm_compute; reflexivity. Qed.
