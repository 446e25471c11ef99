(** Model of the key handling of Tdp and TdpInverse: src/tdp_impl/tdp_impl_mbedtls.cpp (constructors from a string, public_key,
    private_key) and the serialization functions of src/tdp.cpp.  The contents of local buffers before they are written are
    parameters ([der], [buf]); [alloc] is the allocation of the PEM buffers. *)
From Verif Require Import Base StrstrModel MpiModel PemModel AsnModel RsaKeyModel.

Definition throw_if_err {A} (x : res A) : outcome A :=
  r <- x ;; match r with inl _ => Throw RuntimeError | inr a => Ok a end.

Section Alloc.
Context (alloc : Z -> bool).

(** TdpImpl_mbedTLS::TdpImpl_mbedTLS(const std::string&), tdp_impl_mbedtls.cpp:71-90; mbedtls_rsa_parse_public_key,
    rsa_io.c:36-60 (copying the parsed key is assumed to succeed) *)
Definition tdp_from_public (pk : bytes) : outcome rsa_pub :=
  k <- throw_if_err (pk_parse_public_key alloc (pk ++ [0]) (zlen pk + 1)) ;;
  _ <- throw_if_err (rsa_check_pubkey k) ;;
  Ok k.
(** TdpInverseImpl_mbedTLS::TdpInverseImpl_mbedTLS(const std::string&), tdp_impl_mbedtls.cpp:395-437; mbedtls_rsa_parse_key,
    rsa_io.c:65-90.  The members p_1_, q_1_ and phi_ are functions of the key. *)
Definition tdp_from_private (sk : bytes) : outcome rsa_key :=
  k <- throw_if_err (pk_parse_key alloc (sk ++ [0]) (zlen sk + 1)) ;;
  _ <- throw_if_err (rsa_check_pubkey (key_pub k)) ;;
  Ok k.

(** sizeof(buf) *)
Definition tdp_buf_size : Z := 5000.
(** TdpImpl_mbedTLS::public_key, tdp_impl_mbedtls.cpp:127-147; std::string(buf) reads up to the first zero *)
Definition tdp_public_key (der buf : bytes) (k : rsa_pub) : outcome bytes :=
  out <- throw_if_err (rsa_write_pubkey_pem alloc der k buf tdp_buf_size) ;;
  c_string out.
(** TdpInverseImpl_mbedTLS::private_key, tdp_impl_mbedtls.cpp:450-467 *)
Definition tdp_private_key (der buf : bytes) (k : rsa_key) : outcome bytes :=
  out <- throw_if_err (rsa_write_key_pem alloc der k buf tdp_buf_size) ;;
  c_string out.

(** TdpInverse::serialized_size, tdp.hpp:587-590; it is noexcept: an exception calls std::terminate *)
Definition tdp_serialized_size (der buf : bytes) (k : rsa_key) : outcome Z :=
  match tdp_private_key der buf k with
  | Throw _ => Abort
  | o => sk <- o ;; Ok (zlen sk)
  end.
(** TdpInverse::serialize, tdp.cpp:288-293 *)
Definition tdp_serialize (der buf : bytes) (k : rsa_key) (out : bytes) : outcome bytes :=
  sk <- tdp_private_key der buf k ;; wr out 0 sk.
(** TdpInverse::deserialize, tdp.cpp:296-329: the key and n_bytes_read *)
Definition tdp_key_suffix : bytes :=
  [45; 45; 45; 45; 45; 69; 78; 68; 32; 82; 83; 65; 32; 80; 82; 73; 86; 65; 84; 69; 32; 75; 69; 89; 45; 45; 45; 45; 45; 0].
Definition tdp_suffix_size : Z := 29.
Definition tdp_deserialize (buf : bytes) (in_size : Z) : outcome (rsa_key * Z) :=
  r <- strstrn buf in_size tdp_key_suffix tdp_suffix_size ;;
  match r with
  | None => Throw RuntimeError
  | Some pos =>
    if pos <=? 0 then Throw RuntimeError
    else
      let n := u64 (tdp_suffix_size + pos) in
      sk <- rd buf 0 (pos + tdp_suffix_size) ;;
      k <- tdp_from_private sk ;;
      n <- (if n <? in_size then c <- rd1 buf n ;; Ok (if c =? 10 then u64 (n + 1) else n) else Ok n) ;;
      Ok (k, n)
  end.
End Alloc.
