(** Properties C47, C48 and C52: RSA keys as texts. *)
From Verif Require Import Base MpiModel PemModel AsnModel RsaKeyModel RsaKeySpec TdpKeyModel RsaKeyProofs RsaKeyProofs2 RsaKeyProofs3 RsaKeyExample.

(** * C47 *)
(** public_key() returns the PEM text of the DER encoding of the key, whatever its local buffers contained, and the text is
    read back as the same key. *)
Theorem C47_public_key : forall alloc, (forall n, alloc n = true) -> forall der buf k,
  public_ok k -> pub_N k < 2 ^ 2048 -> zlen der = RSA_PUB_DER_MAX_BYTES -> zlen buf = 5000 ->
  tdp_public_key alloc der buf k = Ok (pem_public_key (pub_N k) (pub_E k)) /\
  tdp_from_public alloc (pem_public_key (pub_N k) (pub_E k)) = Ok k.
Proof. exact public_key_roundtrip. Qed.
Print Assumptions C47_public_key.
Theorem C47_private_key : forall alloc, (forall n, alloc n = true) -> forall der buf k,
  private_ok k -> key_N k < 2 ^ 2048 -> 0 <= key_D k < key_N k -> zlen der = RSA_PRV_DER_MAX_BYTES -> zlen buf = 5000 ->
  tdp_private_key alloc der buf k = Ok (pem_private_key k) /\
  tdp_from_private alloc (pem_private_key k) = Ok k.
Proof. exact private_key_roundtrip. Qed.
Print Assumptions C47_private_key.
(** Keys of 2048 and of 130 bits *)
Example C47_nontrivial : private_ok key2048 /\ 2 ^ 2047 <= key_N key2048 < 2 ^ 2048 /\ 0 <= key_D key2048 < key_N key2048 /\
  private_ok key130 /\ 2 ^ 129 <= key_N key130 < 2 ^ 130 /\
  (sk <- tdp_private_key (fun _ => true) (zeros (Z.to_nat 5679)) (zeros (Z.to_nat 5000)) key130 ;;
   k <- tdp_from_private (fun _ => true) sk ;; Ok (zlen sk, key_P k)) = Ok (201, key_P key130) /\
  (pk <- tdp_public_key (fun _ => true) (zeros (Z.to_nat 2086)) (zeros (Z.to_nat 5000)) (key_pub key130) ;;
   k <- tdp_from_public (fun _ => true) pk ;; Ok (zlen pk, k)) = Ok (117, key_pub key130).
Proof.
  split; [exact key2048_ok|]. split; [split; [discriminate|reflexivity]|]. split; [split; [discriminate|reflexivity]|].
  split; [exact key130_ok|]. split; [split; [discriminate|reflexivity]|]. split; vm_compute; reflexivity.
Qed.

(** * C48 *)
(** For every string, the parsers return an error or a key that passes all the checks: no read outside of the string (with
    its terminating zero) or of the decoded buffer, no integer overflow, and termination. *)
Theorem C48_parse_private : forall alloc key, is_bytes key -> zlen key < 2 ^ 63 ->
  exists r, pk_parse_key alloc key (zlen key) = Ok r /\ forall k, r = inr k -> private_ok k.
Proof. exact parse_key_total. Qed.
Print Assumptions C48_parse_private.
Theorem C48_parse_public : forall alloc key, is_bytes key -> zlen key < 2 ^ 63 ->
  exists r, pk_parse_public_key alloc key (zlen key) = Ok r /\ forall k, r = inr k -> public_ok k.
Proof. exact parse_public_key_total. Qed.
Print Assumptions C48_parse_public.
Theorem C48_tdp : forall alloc s, is_bytes s -> zlen s < 2 ^ 62 ->
  tdp_from_public alloc s = Throw RuntimeError \/ exists k, tdp_from_public alloc s = Ok k /\ public_ok k.
Proof. exact from_public_total. Qed.
Print Assumptions C48_tdp.
Theorem C48_tdp_inverse : forall alloc s, is_bytes s -> zlen s < 2 ^ 62 ->
  tdp_from_private alloc s = Throw RuntimeError \/ exists k, tdp_from_private alloc s = Ok k /\ private_ok k.
Proof. exact from_private_total. Qed.
Print Assumptions C48_tdp_inverse.
(** TdpInverse::deserialize on arbitrary buffers *)
Theorem C48_deserialize : forall alloc b, is_bytes b -> zlen b <= 2 ^ 61 ->
  tdp_deserialize alloc b (zlen b) = Throw RuntimeError \/
  exists k n, tdp_deserialize alloc b (zlen b) = Ok (k, n) /\ private_ok k /\ 0 < n <= zlen b.
Proof. exact deserialize_total. Qed.
Print Assumptions C48_deserialize.
(** A truncated DER text, one with a length beyond the end and one with an integer of the wrong length *)
Example C48_nontrivial :
  pk_parse_key (fun _ => true) [0x30; 0x82; 0x01] 3 = err ERR_PK_KEY_INVALID_FORMAT /\
  pk_parse_key (fun _ => true) [0x30; 0x84; 0xff; 0xff; 0xff; 0xff; 2; 1; 0] 9 = err ERR_PK_KEY_INVALID_FORMAT /\
  pk_parse_key (fun _ => true) [0x30; 0x07; 2; 5; 0; 0; 0; 0; 0] 9 = err ERR_PK_KEY_INVALID_FORMAT /\
  (k <- pk_parse_key (fun _ => true) (der_private_key key130) (zlen (der_private_key key130)) ;; Ok (match k with inr k => key_Q k | _ => 0 end)) =
    Ok (key_Q key130).
Proof. repeat split; vm_compute; reflexivity. Qed.

(** * C52 *)
Theorem C52_deserialize_prefix : forall alloc, (forall n, alloc n = true) -> forall der buf k rest,
  private_ok k -> key_N k < 2 ^ 2048 -> 0 <= key_D k < key_N k -> zlen der = RSA_PRV_DER_MAX_BYTES -> zlen buf = 5000 ->
  zlen rest < 2 ^ 61 ->
  exists t, tdp_serialized_size alloc der buf k = Ok (zlen t) /\
    (forall out, zlen out = zlen t -> tdp_serialize alloc der buf k out = Ok t) /\
    tdp_deserialize alloc (t ++ rest) (zlen (t ++ rest)) = Ok (k, zlen t).
Proof. exact serialize_roundtrip. Qed.
Print Assumptions C52_deserialize_prefix.
(** Followed by a newline and another key *)
Example C52_nontrivial : zlen (pem_private_key key130) = 201 /\
  (r <- tdp_deserialize (fun _ => true) (pem_private_key key130 ++ 10 :: pem_private_key key130) 403 ;; Ok (key_D (fst r), snd r)) = Ok (key_D key130, 201).
Proof. split; vm_compute; reflexivity. Qed.
