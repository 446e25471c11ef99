(** C136: keys written from limbs *)
From Verif Require Import Base MpiModel LimbModel LimbSpec PemModel RsaKeyModel RsaKeySpec RsaKeyExample RsaKeyProofs3 TdpKeyModel TdpModel LimbRsaModel LimbRsaSpec LimbKeyModel LimbProofs33 LimbWriteModel LimbWriteProofs.

(** public_key() of an object of limbs is the PEM text of its key, whatever the local buffers contained, and an object made of that text holds the same key. *)
Theorem C136_public_key : forall alloc, (forall n, alloc n = true) -> forall der buf c k,
  ctx_pub c k -> public_ok k -> pub_N k < 2 ^ 2048 -> zlen der = RSA_PUB_DER_MAX_BYTES -> zlen buf = 5000 ->
  l_tdp_public_key alloc der buf c = Ok (pem_public_key (pub_N k) (pub_E k)) /\ exists c', l_tdp_from_public alloc (pem_public_key (pub_N k) (pub_E k)) = Ok c' /\ pub_object c' k.
Proof. exact public_text. Qed.
Print Assumptions C136_public_key.
(** The same for private_key() and all the numbers of a private key *)
Theorem C136_private_key : forall alloc, (forall n, alloc n = true) -> forall der buf c k bl,
  ctx_priv c k bl -> private_ok k -> key_N k < 2 ^ 2048 -> 0 <= key_D k < key_N k -> zlen der = RSA_PRV_DER_MAX_BYTES -> zlen buf = 5000 ->
  l_tdp_private_key alloc der buf c = Ok (pem_private_key k) /\ exists c' P1 Q1, l_tdp_from_private alloc (pem_private_key k) = Ok (c', (P1, Q1)) /\ l_p1_q1 c' = Ok (P1, Q1) /\ ctx_priv c' k None.
Proof. exact private_text. Qed.
Print Assumptions C136_private_key.
(** serialize writes serialized_size() bytes, and deserialize makes an object with the same key of them whatever follows. *)
Theorem C136_serialize : forall alloc, (forall n, alloc n = true) -> forall der buf c k bl rest,
  ctx_priv c k bl -> private_ok k -> key_N k < 2 ^ 2048 -> 0 <= key_D k < key_N k -> zlen der = RSA_PRV_DER_MAX_BYTES -> zlen buf = 5000 -> is_bytes rest -> zlen rest < 2 ^ 61 ->
  exists t, l_tdp_serialized_size alloc der buf c = Ok (zlen t) /\ (forall out, zlen out = zlen t -> l_tdp_serialize alloc der buf c out = Ok t) /\
    exists c' P1 Q1, l_tdp_deserialize alloc (t ++ rest) (zlen (t ++ rest)) = Ok (c', (P1, Q1), zlen t) /\ l_p1_q1 c' = Ok (P1, Q1) /\ ctx_priv c' k None.
Proof. exact serialize_text. Qed.
Print Assumptions C136_serialize.

(** A key of 130 bits *)
Example C136_example : ctx_priv (priv_ctx key130) key130 None /\ private_ok key130 /\ key_N key130 < 2 ^ 2048 /\ 0 <= key_D key130 < key_N key130 /\
  (sk <- l_tdp_private_key (fun _ => true) (zeros (Z.to_nat 5679)) (zeros (Z.to_nat 5000)) (priv_ctx key130) ;; Ok (zlen sk, bytes_eqb sk (pem_private_key key130))) = Ok (201, true) /\
  (pk <- l_tdp_public_key (fun _ => true) (zeros (Z.to_nat 2086)) (zeros (Z.to_nat 5000)) (priv_ctx key130) ;; Ok (zlen pk)) = Ok 117.
Proof.
  split; [exact ctx_130|]. split; [exact key130_ok|]. split; [reflexivity|]. split; [split; [discriminate | reflexivity]|]. split; vm_compute; reflexivity.
Qed.
