(** Model of src/cipher.cpp and src/include/sse/crypto/cipher.hpp. *)
From Verif Require Import Base KeyVal.

(** cipher.hpp:44-49, cipher.cpp:36 *)
Definition cipher_kKeySize : Z := 32.
Definition kCiphertextExpansion : Z := 32.
Definition NONCE_SIZE : Z := 16.
Definition ABYTES : Z := 16.
(** crypto_aead_chacha20poly1305_ietf_MESSAGEBYTES_MAX of libsodium: above, encrypt calls sodium_misuse() (abort) *)
Definition MESSAGEBYTES_MAX : Z := 64 * (2 ^ 32 - 1).

(** ciphertext_length cipher.hpp:136-140, plaintext_length cipher.hpp:154-158 *)
Definition ciphertext_length (n : Z) : Z := u64 (n + kCiphertextExpansion).
Definition plaintext_length (c : Z) : Z := if kCiphertextExpansion <? c then c - kCiphertextExpansion else 0.

Section Cipher.
  (** blake2b_salt_personal(key, salt, "encryption_key"), 32 bytes *)
  Variable kdf : bytes -> bytes -> bytes.
  (** ChaCha20-Poly1305-IETF with empty additional data: ciphertext || tag, decryption *)
  Variable aead_enc : bytes -> bytes -> bytes -> bytes.
  Variable aead_dec : bytes -> bytes -> bytes -> option bytes.
  Variable ml : bool.

  (** The use of the master key in encrypt/decrypt, cipher.cpp:71-84, 138-152: unlock, derive, lock.
      An emptied key: data() throws with memory locking; without, libsodium aborts on the null key. *)
  Definition derive_subkey (k : vkey) (nonce : bytes) : vkey * outcome bytes :=
    match v_unlock k with
    | VEmpty => (VEmpty, if ml then Throw RuntimeError else Abort)
    | VKey kb l => (v_lock ml (VKey kb l), Ok (kdf kb nonce))
    end.

  (** encrypt(in, len, out) cipher.cpp:61-100; [r]: the 16 random bytes.  Returns the key and the output buffer. *)
  Definition encrypt (k : vkey) (inp : bytes) (len : Z) (out : bytes) (r : bytes) : vkey * outcome bytes :=
    match wr out 0 r with
    | Ok out =>
      match rd out 0 NONCE_SIZE with
      | Ok nonce =>
        match derive_subkey k nonce with
        | (k, Ok ck) =>
          (k, m <- rd inp 0 len ;;
              if MESSAGEBYTES_MAX <? len then Abort else
              n <- rd out 0 12 ;;
              wr out NONCE_SIZE (aead_enc ck n m))
        | (k, Throw e) => (k, Throw e)
        | (k, Abort) => (k, Abort)
        | (k, _) => (k, UB)
        end
      | _ => (k, UB)
      end
    | _ => (k, UB)
    end.

  (** encrypt(string, string) cipher.cpp:102-120; [g]: the uninitialised buffer of ciphertext_length(len) bytes *)
  Definition encrypt_str (k : vkey) (inp : bytes) (g : bytes) (r : bytes) : vkey * outcome bytes :=
    if zlen inp =? 0 then (k, Throw InvalidArgument)
    else encrypt k inp (zlen inp) g r.

  (** decrypt(in, len, out) cipher.cpp:122-172: key, content of the output buffer, outcome.
      libsodium's decryption zeroes the message buffer and sets m_len to 0 on failure. *)
  Definition decrypt (k : vkey) (inp : bytes) (len : Z) (out : bytes) : vkey * bytes * outcome unit :=
    if len <? ciphertext_length 0 then (k, out, Throw InvalidArgument)
    else match rd inp 0 NONCE_SIZE with
    | Ok nonce =>
      match derive_subkey k nonce with
      | (k, Ok ck) =>
        match rd inp NONCE_SIZE (len - NONCE_SIZE), rd inp 0 12 with
        | Ok c, Ok n =>
          match aead_dec ck n c with
          | Some m => match wr out 0 m with Ok out => (k, out, Ok tt) | _ => (k, out, UB) end
          | None => match wr out 0 (zeros (Z.to_nat (len - NONCE_SIZE - ABYTES))) with
                    | Ok out => (k, out, Throw RuntimeError) | _ => (k, out, UB) end
          end
        | _, _ => (k, out, UB)
        end
      | (k, Throw e) => (k, out, Throw e)
      | (k, Abort) => (k, out, Abort)
      | (k, _) => (k, out, UB)
      end
    | _ => (k, out, UB)
    end.

  (** decrypt(string, string) cipher.cpp:174-191 (the vector is zero-initialised) *)
  Definition decrypt_str (k : vkey) (inp : bytes) : vkey * outcome bytes :=
    if zlen inp <=? NONCE_SIZE + ABYTES then (k, Throw InvalidArgument)
    else
      match decrypt k inp (zlen inp) (zeros (Z.to_nat (plaintext_length (zlen inp)))) with
      | (k, out, Ok _) => (k, Ok out)
      | (k, _, Throw e) => (k, Throw e)
      | (k, _, UB) => (k, UB) | (k, _, Abort) => (k, Abort) | (k, _, Diverge) => (k, Diverge)
      end.

  (** The array overloads cipher.hpp:173-179, 194-200 ([N] > 0) *)
  Definition encrypt_arr (k : vkey) (inp out r : bytes) : vkey * outcome bytes := encrypt k inp (zlen inp) out r.
  Definition decrypt_arr (k : vkey) (inp out : bytes) : vkey * bytes * outcome unit := decrypt k inp (ciphertext_length (zlen out)) out.

  (** serialize cipher.cpp:193-198 (see key.hpp:395-404); deserialize cipher.cpp:200-212: note the += on n_bytes_read *)
  Definition cipher_serialize (k : vkey) : vkey * outcome bytes :=
    let k := v_unlock k in
    match v_serialize k with
    | Ok b => (v_lock ml k, Ok b)
    | Throw e => (k, Throw e)
    | _ => (k, UB)
    end.
  Definition cipher_deserialize (buf : bytes) (in_size n0 : Z) : outcome (vkey * bytes * Z) :=
    if in_size <? cipher_kKeySize then Throw InvalidArgument
    else
      b <- rd buf 0 cipher_kKeySize ;;
      buf' <- wr buf 0 (zeros 32) ;;
      Ok (v_make ml b, buf', u64 (n0 + cipher_kKeySize)).
End Cipher.

(** An AEAD in the style of RFC 8439: xor with a key stream, and a tag over the ciphertext. *)
Definition stream_mac_enc (stream : bytes -> bytes -> nat -> bytes) (mac : bytes -> bytes -> bytes -> bytes) (k n m : bytes) : bytes :=
  let c := xorb_list m (stream k n (length m)) in c ++ mac k n c.
Definition stream_mac_dec (stream : bytes -> bytes -> nat -> bytes) (mac : bytes -> bytes -> bytes -> bytes) (k n c : bytes) : option bytes :=
  let l := (length c - 16)%nat in
  if Nat.ltb (length c) 16 then None
  else if bytes_eqb (mac k n (firstn l c)) (skipn l c) then Some (xorb_list (firstn l c) (stream k n l)) else None.
