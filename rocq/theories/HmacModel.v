(** Model of src/include/sse/crypto/hmac.hpp (HMac<H,N>), src/include/sse/crypto/prf.hpp (Prf<NBYTES>) and src/hash.cpp.
    The hash function is the parameter [H]; [B] its block size, [D] its digest size. *)
From Verif Require Import Base KeyVal.

Section Hmac.
  Variable H : bytes -> bytes.
  (** H::kBlockSize, H::kDigestSize *)
  Variables B D : Z.
  (** ENABLE_MEMORY_LOCK *)
  Variable ml : bool.

  (** The loops hmac.hpp:216-218, 232-234: xor a constant to the first [B] bytes of a buffer. *)
  Definition xor_const (buf : bytes) (c : Z) : outcome bytes :=
    p <- rd buf 0 B ;; wr buf 0 (map (fun x => Z.lxor x c) p).

  (** The part of [hmac] that works on the key bytes, hmac.hpp:197-241.  [N] = kKeySize, [kb] the key bytes ([N] bytes
      behind the pointer), [g1], [g2]: the uninitialised buffers [buffer] and [tmp].  The output goes to position [opos]
      of the buffer [out]. *)
  Definition hmac_core (N : Z) (kb : bytes) (inp : bytes) (length : Z) (out : bytes) (opos out_len : Z) (g1 g2 : bytes) : outcome bytes :=
    let i_len := u64 (B + length) in
    kN <- rd kb 0 N ;;
    buffer <- wr g1 0 kN ;;
    buffer <- (if N <? B then wr buffer N (zeros (Z.to_nat (B - N))) else Ok buffer) ;;
    buffer <- xor_const buffer 0x36 ;;
    m <- rd inp 0 length ;;
    buffer <- wr buffer B m ;;
    d <- rd buffer 0 i_len ;;
    buffer <- wr buffer 0 (H d) ;;
    kN <- rd kb 0 N ;;
    tmp <- wr g2 0 kN ;;
    tmp <- (if N <? B then wr tmp N (zeros (Z.to_nat (B - N))) else Ok tmp) ;;
    tmp <- xor_const tmp 0x5c ;;
    inner <- rd buffer 0 D ;;
    tmp <- wr tmp B inner ;;
    d <- rd tmp 0 (B + D) ;;
    buffer <- wr buffer 0 (H d) ;;
    r <- rd buffer 0 out_len ;;
    wr out opos r.

  (** Size of [buffer], hmac.hpp:198-200, and of [tmp], hmac.hpp:199. *)
  Definition buffer_len (length : Z) : Z :=
    let i_len := u64 (B + length) in if D <? i_len then i_len else D.
  Definition tmp_len : Z := B + D.

  (** HMac<H,N>::hmac hmac.hpp:178-249.  [inp]/[out] = None is a null pointer.  Returns the key object and the output buffer.
      On an empty key: with memory locking data() throws "Memory is locked"; without it, data() is null and memcpy reads it. *)
  Definition hmac (N : Z) (k : vkey) (inp : option bytes) (length : Z) (out : option bytes) (opos out_len : Z) (g1 g2 : bytes)
    : vkey * outcome bytes :=
    if D <? out_len then (k, Throw InvalidArgument)
    else match inp, out with
    | None, _ => (k, Throw InvalidArgument)
    | _, None => (k, Throw InvalidArgument)
    | Some inp, Some out =>
      match v_unlock k with
      | VEmpty => (VEmpty, if ml then Throw RuntimeError else UB)
      | VKey kb _ =>
        match hmac_core N kb inp length out opos out_len g1 g2 with
        | Ok o => (v_lock ml (VKey kb false), Ok o)
        | Throw e => (VKey kb false, Throw e)
        | UB => (VKey kb false, UB) | Abort => (VKey kb false, Abort) | Diverge => (VKey kb false, Diverge)
        end
      end
    end.

  (** hmac(in, length) hmac.hpp:251-261 and hmac(string) hmac.hpp:263-269; [r] the uninitialised result array. *)
  Definition hmac_array (N : Z) (k : vkey) (inp : option bytes) (length : Z) (r g1 g2 : bytes) : vkey * outcome bytes :=
    hmac N k inp length (Some r) 0 D g1 g2.
  Definition hmac_string (N : Z) (k : vkey) (s r g1 g2 : bytes) : vkey * outcome bytes :=
    hmac_array N k (Some s) (zlen s) r g1 g2.
End Hmac.

Section Prf.
  (** [Hash::hash] (BLAKE2b): 64-byte digest, 128-byte block. *)
  Variable H : bytes -> bytes.
  Variable ml : bool.
  (** Content of the uninitialised buffers of [hmac] *)
  Variable g : Z -> bytes.

  Definition prf_kKeySize : Z := 32.

  Definition base_hmac (k : vkey) (inp : option bytes) (length : Z) (out : option bytes) (opos out_len : Z) : vkey * outcome bytes :=
    hmac H 128 64 ml prf_kKeySize k inp length out opos out_len (g (buffer_len 128 64 length)) (g (tmp_len 128 64)).

  (** The counter mode loop prf.hpp:278-294: [pos] is a uint16_t, [i] a uint8_t.  [pos] only takes the 1024 multiples of 64:
      a loop that is still running after 1025 iterations never ends, which is what running out of [fuel] stands for. *)
  Fixpoint prf_loop (fuel : nat) (NBYTES : Z) (k : vkey) (tmp : bytes) (length : Z) (pos i : Z) (result : bytes) : vkey * outcome bytes :=
    match fuel with
    | O => (k, Diverge)
    | S fuel' =>
      if pos <? NBYTES then
        match wr tmp length [i] with
        | Ok tmp =>
          let n := if 64 <=? NBYTES - pos then 64 else NBYTES - pos in
          match base_hmac k (Some tmp) (length + 1) (Some result) pos n with
          | (k, Ok result) => prf_loop fuel' NBYTES k tmp length (u16 (pos + 64)) (u8 (i + 1)) result
          | r => r
          end
        | _ => (k, UB)
        end
      else (k, Ok result)
    end.
  Definition prf_fuel : nat := Z.to_nat 1025.

  (** Prf<NBYTES>::prf(const unsigned char*, size_t) prf.hpp:260-305; [r]: uninitialised result, [t]: uninitialised [tmp]. *)
  Definition prf (NBYTES : Z) (k : vkey) (inp : option bytes) (length : Z) (r t : bytes) : vkey * outcome bytes :=
    match inp with
    | None => (k, Throw InvalidArgument)
    | Some x =>
      if 64 <? NBYTES then
        match (m <- rd x 0 length ;; wr t 0 m) with
        | Ok tmp => prf_loop prf_fuel NBYTES k tmp length 0 0 r
        | _ => (k, UB)
        end
      else base_hmac k (Some x) length (Some r) 0 NBYTES
    end.

  (** prf(std::string) prf.hpp:307-312, prf(std::array) prf.hpp:314-320. *)
  Definition prf_string (NBYTES : Z) (k : vkey) (s r t : bytes) := prf NBYTES k (Some s) (zlen s) r t.

  (** derive_key prf.hpp:324-342: a key holding the PRF output. *)
  Definition prf_derive_key (NBYTES : Z) (k : vkey) (inp : option bytes) (length : Z) (r t : bytes) : vkey * outcome vkey :=
    match prf NBYTES k inp length r t with
    | (k, Ok o) => (k, Ok (v_make ml o))
    | (k, Throw e) => (k, Throw e)
    | (k, UB) => (k, UB) | (k, Abort) => (k, Abort) | (k, Diverge) => (k, Diverge)
    end.

  (** HMac(Key&& ) hmac.hpp:105-110 / Prf(Key&& ) prf.hpp:100-103: the object's key, and the caller's key. *)
  Definition prf_ctor (k : vkey) : vkey * outcome vkey :=
    if v_is_empty k then (k, Throw InvalidArgument) else (VEmpty, Ok k).

  (** Prf::serialize prf.hpp:223-228; Prf::deserialize prf.hpp:234-247. *)
  Definition prf_serialize (k : vkey) : vkey * outcome bytes :=
    let k := v_unlock k in
    match v_serialize k with
    | Ok b => (v_lock ml k, Ok b)
    | Throw e => (k, Throw e)
    | _ => (k, UB)
    end.
  Definition prf_deserialize (buf : bytes) (in_size : Z) : outcome (vkey * bytes * Z) :=
    if in_size <? prf_kKeySize then Throw InvalidArgument
    else
      b <- rd buf 0 prf_kKeySize ;;
      buf' <- wr buf 0 (zeros 32) ;;
      Ok (v_make ml b, buf', prf_kKeySize).
  (** Prf::public_context prf.hpp:75-79. *)
  Definition prf_public_context (NBYTES : Z) : bytes := [Z.land (Z.shiftr NBYTES 8) 0xFF; Z.land NBYTES 0xFF].
End Prf.

Section Hash.
  Variable H : bytes -> bytes.
  Definition kDigestSize : Z := 64.

  (** Hash::hash(in, len, out) hash.cpp:37-54. *)
  Definition hash (inp : option bytes) (len : Z) (out : option bytes) : outcome bytes :=
    match inp, out with
    | None, _ => Throw InvalidArgument
    | _, None => Throw InvalidArgument
    | Some x, Some o => m <- rd x 0 len ;; wr o 0 (H m)
    end.

  (** Hash::hash(in, len, out_len, out) hash.cpp:56-79; [d]: uninitialised digest array. *)
  Definition hash_trunc (inp : option bytes) (len out_len : Z) (out : option bytes) (d : bytes) : outcome bytes :=
    if kDigestSize <? out_len then Throw InvalidArgument
    else match inp, out with
    | None, _ => Throw InvalidArgument
    | _, None => Throw InvalidArgument
    | Some x, Some o => d <- hash (Some x) len (Some d) ;; t <- rd d 0 out_len ;; wr o 0 t
    end.

  (** Hash::hash(string, string) hash.cpp:81-89, Hash::hash(string) hash.cpp:107-112. *)
  Definition hash_str (s d : bytes) : outcome bytes :=
    d <- hash (Some s) (zlen s) (Some d) ;; rd d 0 kDigestSize.
  (** Hash::hash(string, out_len, string) hash.cpp:91-105, Hash::hash(string, out_len) hash.cpp:114-119. *)
  Definition hash_str_trunc (s : bytes) (out_len : Z) (d : bytes) : outcome bytes :=
    if kDigestSize <? out_len then Throw InvalidArgument
    else d <- hash (Some s) (zlen s) (Some d) ;; rd d 0 out_len.
End Hash.
