(** Model of src/wrapper.cpp and src/include/sse/crypto/wrapper.hpp. *)
From Verif Require Import Base KeyVal HmacModel.

(** wrapper.hpp:91-100, 184 *)
Definition w_kKeySize : Z := 32.
Definition kTagSize : Z := 12.
Definition kRandomIVSize : Z := 16.
Definition w_kCiphertextExpansion : Z := kTagSize + kRandomIVSize.
Definition kEncryptionKeySize : Z := 32.
(** crypto_stream_chacha20_ietf_MESSAGEBYTES_MAX of libsodium: above, sodium_misuse() aborts *)
Definition STREAM_MAX : Z := 64 * 2 ^ 32.

(** What the templates [wrap] and [unwrap] need from a class: type byte (wrapper.hpp:331-382), public context,
    serialized_size, serialize (object afterwards, bytes), deserialize (object, buffer afterwards, bytes read; the reference
    parameter n_bytes_read is 0 before the call). *)
Record wclass := mk_wclass {
  w_obj : Type;
  w_type : Z;
  w_ctx : bytes;
  w_size : w_obj -> outcome Z;
  w_ser : w_obj -> w_obj * outcome bytes;
  w_deser : bytes -> Z -> outcome (w_obj * bytes * Z)
}.

(** The members tag_generator_ and encryption_key_, wrapper.hpp:186-187 *)
Record wrapper := mk_wrapper { tagk : vkey; enck : vkey }.

Section Wrapper.
  (** BLAKE2b *)
  Variable H : bytes -> bytes.
  (** ChaCha20-IETF key stream: key, nonce, length *)
  Variable stream : bytes -> bytes -> nat -> bytes.
  Variable ml : bool.
  (** Content of uninitialised memory of a given size *)
  Variable g : Z -> bytes.

  (** kdf.derive_key(derivation_input) on one byte: prf.hpp:324-342 *)
  Definition w_derive (kdf : vkey) (b : Z) : vkey * outcome vkey :=
    prf_derive_key H ml g kEncryptionKeySize kdf (Some [b]) 1 (g kEncryptionKeySize) (g 2).

  (** Wrapper::Wrapper(Key&&), wrapper.cpp:28-52: the caller's key afterwards and the object. *)
  Definition w_ctor (key : vkey) : vkey * outcome wrapper :=
    match prf_ctor key with
    | (key, Ok kdf) =>
      (key,
       let (kdf, o1) := w_derive kdf 1 in
       k1 <- o1 ;;
       tg <- snd (prf_ctor k1) ;;
       let (kdf, o2) := w_derive kdf 2 in
       k2 <- o2 ;;
       Ok (mk_wrapper tg k2))
    | (key, Throw e) => (key, Throw e)
    | (key, _) => (key, UB)
    end.

  (** tag_generator_.prf(buffer, buffer_size) *)
  Definition w_tag (k : vkey) (buffer : bytes) (buffer_size : Z) : vkey * outcome bytes :=
    prf H ml g kTagSize k (Some buffer) buffer_size (g kTagSize) (g (buffer_size + 1)).

  (** crypto_stream_chacha20_ietf_xor(_, m, n, nonce, key): the bytes written *)
  Definition ietf_xor (key nonce m : bytes) : outcome bytes :=
    if STREAM_MAX <? zlen m then Abort else Ok (xorb_list m (stream key nonce (length m))).

  (** How a call ends: the wrapper, the secure allocation that is still there (nobody frees it when an exception is thrown),
      and the outcome. *)
  Definition wret (A : Type) := (wrapper * option bytes * outcome A)%type.
  Definition fail {A B} (w : wrapper) (buffer : bytes) (o : outcome A) : wret B :=
    match o with
    | Throw e => (w, Some buffer, Throw e)
    | Abort => (w, Some buffer, Abort) | Diverge => (w, Some buffer, Diverge)
    | _ => (w, Some buffer, UB)
    end.

  (** The first bytes of the working buffer: IV, type byte, public context. wrapper.hpp:196-219, 258-283 *)
  Definition header (C : wclass) (buffer iv : bytes) : outcome bytes :=
    buffer <- wr buffer 0 iv ;;
    buffer <- wr buffer kRandomIVSize [w_type C] ;;
    wr buffer (kRandomIVSize + 1) (w_ctx C).

  (** Wrapper::wrap, wrapper.hpp:190-246: [iv] the 16 random bytes.  Also returns the object. *)
  Definition wrap (C : wclass) (w : wrapper) (c : w_obj C) (iv : bytes) : w_obj C * wret bytes :=
    match w_size C c with
    | Ok serialized_size =>
      let serialization_offset := kRandomIVSize + 1 + zlen (w_ctx C) in
      let buffer_size := u64 (kRandomIVSize + serialized_size + zlen (w_ctx C) + 1) in
      let buffer := g buffer_size in
      match header C buffer iv with
      | Ok buffer =>
        match w_ser C c with
        | (c, Ok s) =>
          (c,
           match wr buffer serialization_offset s with
           | Ok buffer =>
             let out := zeros (Z.to_nat (u64 (w_kCiphertextExpansion + serialized_size))) in
             match (i <- rd buffer 0 kRandomIVSize ;; wr out 0 i) with
             | Ok out =>
               match w_tag (tagk w) buffer buffer_size with
               | (tk, Ok tag) =>
                 let w := mk_wrapper tk (enck w) in
                 match wr out (zlen out - kTagSize) tag with
                 | Ok out =>
                   match v_unlock_get (enck w) with
                   | (ek, Ok key) =>
                     match (m <- rd buffer serialization_offset serialized_size ;;
                            x <- ietf_xor key tag m ;; wr out kRandomIVSize x) with
                     | Ok out => (mk_wrapper tk (v_lock ml ek), None, Ok out)
                     | o => fail (mk_wrapper tk ek) buffer o
                     end
                   | (ek, o) => fail (mk_wrapper tk ek) buffer o
                   end
                 | o => fail w buffer o
                 end
               | (tk, o) => fail (mk_wrapper tk (enck w)) buffer o
               end
             | o => fail w buffer o
             end
           | o => fail w buffer o
           end)
        | (c, o) => (c, fail w buffer o)
        end
      | o => (c, fail w buffer o)
      end
    | Throw e => (c, (w, None, Throw e))
    | _ => (c, (w, None, UB))
    end.

  (** Wrapper::unwrap, wrapper.hpp:248-327: also returns the content of [c_rep] afterwards. *)
  Definition unwrap (C : wclass) (w : wrapper) (c_rep : bytes) : bytes * wret (w_obj C) :=
    let size := zlen c_rep in
    if size <=? w_kCiphertextExpansion then (c_rep, (w, None, Throw InvalidArgument))
    else
      let data_size := size - w_kCiphertextExpansion in
      let serialization_offset := kRandomIVSize + 1 + zlen (w_ctx C) in
      let buffer_size := u64 (kRandomIVSize + data_size + zlen (w_ctx C) + 1) in
      let buffer := g buffer_size in
      match (iv <- rd c_rep 0 kRandomIVSize ;; header C buffer iv) with
      | Ok buffer =>
        match rd c_rep (size - kTagSize) kTagSize with
        | Ok expected_tag =>
          match v_unlock_get (enck w) with
          | (ek, Ok key) =>
            match (x <- rd c_rep kRandomIVSize data_size ;;
                   m <- ietf_xor key expected_tag x ;; wr buffer serialization_offset m) with
            | Ok buffer =>
              let w := mk_wrapper (tagk w) (v_lock ml ek) in
              match w_tag (tagk w) buffer buffer_size with
              | (tk, Ok computed_tag) =>
                let w := mk_wrapper tk (enck w) in
                if negb (bytes_eqb expected_tag computed_tag) then (c_rep, (w, Some buffer, Throw RuntimeError))
                else
                  match w_deser C (skipn (Z.to_nat serialization_offset) buffer) data_size with
                  | Ok (c, tl, bytes_read) =>
                    let buffer := firstn (Z.to_nat serialization_offset) buffer ++ tl in
                    if negb (bytes_read =? data_size) then (c_rep, (w, Some buffer, Throw RuntimeError))
                    else (zeros (length c_rep), (w, None, Ok c))
                  | o => (c_rep, fail w buffer o)
                  end
              | (tk, o) => (c_rep, fail (mk_wrapper tk (enck w)) buffer o)
              end
            | o => (c_rep, fail (mk_wrapper (tagk w) ek) buffer o)
            end
          | (ek, o) => (c_rep, fail (mk_wrapper (tagk w) ek) buffer o)
          end
        | o => (c_rep, fail w buffer o)
        end
      | o => (c_rep, fail w buffer o)
      end.
End Wrapper.
