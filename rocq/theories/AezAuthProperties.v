(** Property C118: aez.c with authentication bytes is the authenticated encryption of AEZ v4.1, except for what is refuted below. *)
From Verif Require Import Base KeyVal AezModel PrpModel PrpSpec AesRound AezSpec AezAuthModel AezAuthSpec AezProofs15 AezProofs16.

(** aez_encrypt with an authenticator of [a] bytes; [g]: what follows the message in the memory of the caller, at least [a] bytes (see C118_overread_refuted). *)
Theorem C118_encrypt_partial : forall R I J L N (a : nat), block_map R -> part I -> part J -> part L -> is_bytes N -> zlen N <= 16 -> (a <= 16)%nat ->
  exists c, aez_setup (I ++ J ++ L) = Ok c /\ forall P g dst, is_bytes P -> is_bytes g -> Z.of_nat a <= zlen g -> zlen P + Z.of_nat a <= UINT_MAX ->
    buffer (zlen P + Z.of_nat a) dst -> aez_encrypt_a R c N (zlen N) (Z.of_nat a) (P ++ g) (zlen P) dst = Ok (seal R I J L a N P).
Proof. exact auth_encrypt. Qed.
Print Assumptions C118_encrypt_partial.
(** aez_decrypt accepts exactly the ciphertexts of messages and gives the message back; the length of an authenticator alone is not covered
    (C118_empty_message_partial, C118_empty_message_refuted). *)
Theorem C118_decrypt_partial : forall R I J L N (a : nat), block_map R -> part I -> part J -> part L -> is_bytes N -> zlen N <= 16 -> (a <= 16)%nat ->
  exists c, aez_setup (I ++ J ++ L) = Ok c /\
  forall C dst, is_bytes C -> zlen C <> Z.of_nat a -> zlen C <= UINT_MAX -> buffer (Z.max 0 (zlen C - Z.of_nat a)) dst ->
    (exists P, is_bytes P /\ zlen P = zlen C - Z.of_nat a /\ C = seal R I J L a N P /\ aez_decrypt_a R c N (zlen N) (Z.of_nat a) C (zlen C) dst = Ok (0, P)) \/
    ((forall P, is_bytes P -> zlen P + Z.of_nat a <= UINT_MAX -> C <> seal R I J L a N P) /\
     exists junk, aez_decrypt_a R c N (zlen N) (Z.of_nat a) C (zlen C) dst = Ok (-1, junk)).
Proof. exact auth_decrypt. Qed.
Print Assumptions C118_decrypt_partial.
(** Empty messages: what is compared is only whether the bits of the given authenticator are among those of the right one. *)
Theorem C118_empty_message_partial : forall R I J L N (a : nat), block_map R -> part I -> part J -> part L -> is_bytes N -> zlen N <= 16 -> (a <= 16)%nat ->
  exists c, aez_setup (I ++ J ++ L) = Ok c /\ forall C dst, is_bytes C -> zlen C = Z.of_nat a ->
    (bits_below C (seal R I J L a N []) -> aez_decrypt_a R c N (zlen N) (Z.of_nat a) C (zlen C) dst = Ok (0, dst)) /\
    (~ bits_below C (seal R I J L a N []) -> aez_decrypt_a R c N (zlen N) (Z.of_nat a) C (zlen C) dst = Ok (-1, dst)).
Proof. exact auth_empty. Qed.
Print Assumptions C118_empty_message_partial.
(** So 16 zero bytes are accepted, though they are the ciphertext of no message. *)
Theorem C118_empty_message_refuted : exists I J L N C c, part I /\ part J /\ part L /\ is_bytes N /\ is_bytes C /\ aez_setup (I ++ J ++ L) = Ok c /\
  (forall P, is_bytes P -> zlen P + 16 <= UINT_MAX -> C <> seal aes_round I J L 16 N P) /\ aez_decrypt_a aes_round c N (zlen N) 16 C (zlen C) [] = Ok (0, []).
Proof. exact empty_forgery. Qed.
Print Assumptions C118_empty_message_refuted.
(** Without readable bytes after the message, encryption with an authenticator reads out of bounds, for all but the short messages. *)
Theorem C118_overread_refuted : exists c, aez_setup (yI ++ yJ ++ yL) = Ok c /\ aez_encrypt_a aes_round c [1] 1 1 (zeros 31) 31 (zeros 32) = UB.
Proof. exact encrypt_overread. Qed.
Print Assumptions C118_overread_refuted.
Theorem C118_overread_always : forall R c N (a : nat) P dst, (1 <= a <= 16)%nat -> 0 < zlen P -> 32 <= zlen P + Z.of_nat a <= UINT_MAX ->
  forall x, aez_encrypt_a R c N (zlen N) (Z.of_nat a) P (zlen P) dst <> Ok x.
Proof. exact overread_all. Qed.
Print Assumptions C118_overread_always.
(** Without an authenticator (prp.cpp), these functions are those of properties C20-C23, C65-C67 and C97. *)
Theorem C118_without_authenticator : forall R I J L N, block_map R -> part I -> part J -> part L -> is_bytes N -> zlen N <= 16 ->
  exists c, aez_setup (I ++ J ++ L) = Ok c /\ forall m dst, is_bytes m -> zlen m <= UINT_MAX -> buffer (zlen m) dst ->
    aez_encrypt_a R c N (zlen N) 0 m (zlen m) dst = aez_encrypt R c N (zlen N) m (zlen m) dst /\
    aez_decrypt_a R c N (zlen N) 0 m (zlen m) dst = aez_decrypt R c N (zlen N) m (zlen m) dst.
Proof. exact without_authenticator. Qed.
Print Assumptions C118_without_authenticator.
(** Keys of any length: with other lengths than 48 bytes the parts are the 48 bytes of the hash, whatever the context was. *)
Theorem C118_key_lengths : forall h key old I J L, part I -> part J -> part L -> zlen (ctx_bytes old) = 112 ->
  (zlen key = 48 -> key = I ++ J ++ L) -> (zlen key <> 48 -> h key = I ++ J ++ L) -> aez_setup_any h key (zlen key) old = aez_setup (I ++ J ++ L).
Proof. exact setup_any. Qed.
Print Assumptions C118_key_lengths.

(** With the AES round: messages of 5 and 20 bytes, authenticators of 4 and 16 bytes; a changed byte is rejected; the right authenticator of the empty message is accepted. *)
Example C118_example : part yI /\ part yJ /\ part yL /\
  forallb (fun '(n, a) => let P := map Z.of_nat (seq 7 n) in let C := seal aes_round yI yJ yL a [9] P in
    match aez_encrypt_a aes_round yc [9] 1 (Z.of_nat a) (P ++ repeat 77 a) (Z.of_nat n) (zeros (n + a)) with Ok x => bytes_eqb x C | _ => false end
    && match aez_decrypt_a aes_round yc [9] 1 (Z.of_nat a) C (Z.of_nat (n + a)) (zeros n) with Ok (0, x) => bytes_eqb x P | _ => false end
    && match aez_decrypt_a aes_round yc [9] 1 (Z.of_nat a) (map (fun b => Z.lxor b 1) C) (Z.of_nat (n + a)) (zeros n) with Ok (r, _) => r =? -1 | _ => false end)
    [(5, 4); (20, 16)]%nat = true.
Proof. destruct yparts as (HI & HJ & HL). split; [exact HI|]. split; [exact HJ|]. split; [exact HL|]. vm_compute. reflexivity. Qed.
