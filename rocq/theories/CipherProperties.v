(** Properties C17-C19, C61, C62: Cipher. *)
From Verif Require Import BaseFacts KeyVal CipherModel CipherSpec CipherProofs PrgSpec.

(** C17.  [r]: the random nonce.  Strings (non-empty), and buffers (any length; the array overloads are instances). *)
Theorem C17_cipher_roundtrip_strings : forall kdf enc dec ml, aead_laws enc dec ->
  forall kb l l' m g r c, zlen r = 16 -> zlen m <= MESSAGEBYTES_MAX -> zlen g = ciphertext_length (zlen m) ->
  encrypt_str kdf enc ml (VKey kb l) m g r = (VKey kb ml, Ok c) ->
  decrypt_str kdf dec ml (VKey kb l') c = (VKey kb ml, Ok m).
Proof. exact strings. Qed.
Print Assumptions C17_cipher_roundtrip_strings.
Theorem C17_cipher_encrypt_strings : forall kdf enc dec ml, aead_laws enc dec ->
  forall kb l m g r, zlen r = 16 -> 0 < zlen m <= MESSAGEBYTES_MAX -> zlen g = ciphertext_length (zlen m) ->
  encrypt_str kdf enc ml (VKey kb l) m g r = (VKey kb ml, Ok (ct kdf enc kb r m)).
Proof. exact encrypt_str_ok. Qed.
Print Assumptions C17_cipher_encrypt_strings.
Theorem C17_cipher_encrypt_buffers : forall kdf enc dec ml, aead_laws enc dec ->
  forall kb l m rest out r, zlen r = 16 -> zlen m <= MESSAGEBYTES_MAX -> zlen m + 32 <= zlen out ->
  encrypt kdf enc ml (VKey kb l) (m ++ rest) (zlen m) out r = (VKey kb ml, Ok (prefix_replaced (ct kdf enc kb r m) out)).
Proof. exact encrypt_ok. Qed.
Print Assumptions C17_cipher_encrypt_buffers.
Theorem C17_cipher_roundtrip_buffers : forall kdf enc dec ml, aead_laws enc dec ->
  forall kb l l' m rest rest' out out' r o, zlen r = 16 -> zlen m <= MESSAGEBYTES_MAX -> zlen m + 32 <= zlen out -> zlen m <= zlen out' ->
  snd (encrypt kdf enc ml (VKey kb l) (m ++ rest) (zlen m) out r) = Ok o ->
  decrypt kdf dec ml (VKey kb l') (o ++ rest') (zlen m + 32) out' = (VKey kb ml, prefix_replaced m out', Ok tt).
Proof. exact buffers. Qed.
Print Assumptions C17_cipher_roundtrip_buffers.
(** Messages that are longer, which libsodium does not accept, end the process. *)
Theorem C17_cipher_longer_messages : forall kdf enc ml kb l m rest out r, zlen r = 16 -> 64 * (2 ^ 32 - 1) < zlen m -> 16 <= zlen out ->
  snd (encrypt kdf enc ml (VKey kb l) (m ++ rest) (zlen m) out r) = Abort.
Proof. exact encrypt_longer. Qed.
Print Assumptions C17_cipher_longer_messages.
(** The laws hold of every construction in the style of RFC 8439, whatever the stream cipher and the MAC. *)
Theorem C17_aead_laws_satisfiable : forall stream mac,
  (forall k n l, length (stream k n l) = l) -> (forall k n c, length (mac k n c) = 16%nat) ->
  aead_laws (stream_mac_enc stream mac) (stream_mac_dec stream mac).
Proof. exact stream_mac_laws. Qed.
Print Assumptions C17_aead_laws_satisfiable.

Definition toy_stream (k n : bytes) (l : nat) : bytes := map (fun j => (hd 0 k + 3 * hd 0 n + 5 * j) mod 256) (zseq 0 l).
Definition toy_mac (k n c : bytes) : bytes := fold_left (fun a b => (31 * a + b) mod 251) (k ++ n ++ c) 7 :: zeros 15.
Definition toy_kdf (k n : bytes) : bytes := map (fun x => (x + hd 0 n) mod 256) k.
Definition toy_enc := stream_mac_enc toy_stream toy_mac.
Definition toy_dec := stream_mac_dec toy_stream toy_mac.
Example toy_laws : aead_laws toy_enc toy_dec.
Proof.
  apply stream_mac_laws; [|reflexivity]. intros. unfold toy_stream. rewrite map_length. generalize 0. induction l; intros; simpl; auto.
Qed.
Example C17_nontrivial :
  let r := [7; 1; 2; 3; 4; 5; 6; 7; 8; 9; 10; 11; 12; 13; 14; 15] in
  let c := ct toy_kdf toy_enc (repeat 9 32) r [1; 2; 3] in
  snd (encrypt_str toy_kdf toy_enc true (VKey (repeat 9 32) true) [1; 2; 3] (repeat 170 35) r) = Ok c /\
  snd (decrypt_str toy_kdf toy_dec true (VKey (repeat 9 32) true) c) = Ok [1; 2; 3] /\ firstn 3 (skipn 16 c) <> [1; 2; 3].
Proof. vm_compute. split; [reflexivity|split; [reflexivity|discriminate]]. Qed.

(** C18 *)
Theorem C18_length_functions : forall n, 0 <= n -> n + 32 < 2 ^ 64 ->
  plaintext_length (ciphertext_length n) = n /\ ciphertext_length n = n + 32.
Proof. exact lengths. Qed.
Print Assumptions C18_length_functions.
Theorem C18_encrypt_length : forall kdf enc dec ml, aead_laws enc dec ->
  forall kb l m g r c, zlen r = 16 -> zlen m <= MESSAGEBYTES_MAX -> zlen g = ciphertext_length (zlen m) ->
  encrypt_str kdf enc ml (VKey kb l) m g r = (VKey kb ml, Ok c) -> zlen c = ciphertext_length (zlen m).
Proof. exact enc_length. Qed.
Print Assumptions C18_encrypt_length.
Theorem C18_decrypt_length : forall kdf enc dec ml, aead_laws enc dec ->
  forall kb l c m, zlen c <= 2 ^ 63 -> snd (decrypt_str kdf dec ml (VKey kb l) c) = Ok m ->
  zlen m = plaintext_length (zlen c) /\ 0 < zlen m.
Proof. exact dec_length. Qed.
Print Assumptions C18_decrypt_length.
Theorem C18_short_inputs : forall kdf enc dec ml k,
  (forall g r, encrypt_str kdf enc ml k [] g r = (k, Throw InvalidArgument)) /\
  (forall inp len out, len < 32 -> decrypt kdf dec ml k inp len out = (k, out, Throw InvalidArgument)) /\
  (forall c, zlen c <= 32 -> decrypt_str kdf dec ml k c = (k, Throw InvalidArgument)).
Proof. exact rejects. Qed.
Print Assumptions C18_short_inputs.
Example C18_nontrivial : plaintext_length (ciphertext_length 5) = 5 /\
  snd (decrypt_str toy_kdf toy_dec true (VKey (repeat 9 32) true) (repeat 3 32)) = Throw InvalidArgument.
Proof. split; vm_compute; reflexivity. Qed.

(** C19.  Every outcome of decryption is one of these two. *)
Theorem C19_cipher_authenticates : forall kdf enc dec ml, aead_laws enc dec ->
  forall kb l c rest out k' out' o, 32 <= zlen c <= 2 ^ 63 -> zlen c - 32 <= zlen out ->
  decrypt kdf dec ml (VKey kb l) (c ++ rest) (zlen c) out = (k', out', o) ->
  (exists r m, o = Ok tt /\ zlen r = 16 /\ c = ct kdf enc kb r m /\ out' = prefix_replaced m out) \/
  (o = Throw RuntimeError /\ (forall r m, zlen r = 16 -> c <> ct kdf enc kb r m) /\
   out' = prefix_replaced (zeros (Z.to_nat (zlen c - 32))) out).
Proof. exact authentic. Qed.
Print Assumptions C19_cipher_authenticates.
Theorem C19_cipher_authenticates_strings : forall kdf enc dec ml, aead_laws enc dec ->
  forall kb l c, zlen c <= 2 ^ 63 ->
  (exists r m, zlen r = 16 /\ 0 < zlen m /\ c = ct kdf enc kb r m /\ decrypt_str kdf dec ml (VKey kb l) c = (VKey kb ml, Ok m)) \/
  ((forall r m, zlen r = 16 -> 0 < zlen m -> c <> ct kdf enc kb r m) /\
    exists e, snd (decrypt_str kdf dec ml (VKey kb l) c) = Throw e).
Proof. exact authentic_str. Qed.
Print Assumptions C19_cipher_authenticates_strings.
Example C19_nontrivial :
  let r := [7; 1; 2; 3; 4; 5; 6; 7; 8; 9; 10; 11; 12; 13; 14; 15] in
  let c := ct toy_kdf toy_enc (repeat 9 32) r [1; 2; 3] in
  decrypt toy_kdf toy_dec true (VKey (repeat 9 32) true) (8 :: tl c) 35 [5; 5; 5; 5] = (VKey (repeat 9 32) true, [0; 0; 0; 5], Throw RuntimeError).
Proof. vm_compute. reflexivity. Qed.

(** C61 *)
Theorem C61_cipher_key_locked : forall kdf enc ml k inp len out r, v_protected ml k -> fst (encrypt kdf enc ml k inp len out r) = k.
Proof. exact encrypt_keeps_key. Qed.
Print Assumptions C61_cipher_key_locked.
Theorem C61_cipher_key_locked_decrypt : forall kdf dec ml k inp len out, v_protected ml k -> fst (fst (decrypt kdf dec ml k inp len out)) = k.
Proof. exact decrypt_keeps_key. Qed.
Print Assumptions C61_cipher_key_locked_decrypt.
Example C61_nontrivial : v_protected true (VKey [1] true) /\ ~ v_protected true (VKey [1] false).
Proof. split; [reflexivity|discriminate]. Qed.

(** C62 *)
Theorem C62_cipher_serialization : forall ml kb l rest n0, zlen kb = 32 -> 0 <= n0 -> n0 + 32 < 2 ^ 64 ->
  cipher_serialize ml (VKey kb l) = (VKey kb ml, Ok kb) /\
  cipher_deserialize ml (kb ++ rest) (zlen (kb ++ rest)) n0 = Ok (VKey kb ml, zeros 32 ++ rest, n0 + 32).
Proof. exact (cipher_roundtrip (fun _ b => b)). Qed.
Print Assumptions C62_cipher_serialization.
Example C62_nontrivial : cipher_deserialize true (repeat 7 32 ++ [1]) 33 0 = Ok (VKey (repeat 7 32) true, repeat 0 32 ++ [1], 32).
Proof. vm_compute. reflexivity. Qed.
