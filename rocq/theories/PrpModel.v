(** Model of src/prp.cpp and src/include/sse/crypto/prp.hpp. *)
From Verif Require Import Base KeyVal AezModel.

(** prp.hpp:54, 246 *)
Definition prp_kKeySize : Z := 48.
Definition prp_kContextSize : Z := 112.
(** the limit of unsigned int, prp.cpp:212, 276 *)
Definition UINT_MAX : Z := 4294967295.

Section Prp.
  (** The AES round of the AES instructions, see AezModel. *)
  Variable R : bytes -> bytes.
  (** [ml]: ENABLE_MEMORY_LOCK; [avail]: Prp::is_available() *)
  Variable ml avail : bool.

  (** init_random_aez_ctx and the default constructor, prp.cpp:61-82; [r]: the random bytes of the Key<48>
      (see C05 for the default constructor of Key). *)
  Definition prp_random (r : bytes) : outcome vkey :=
    if negb avail then Throw RuntimeError
    else c <- aez_setup r ;; Ok (v_make ml (ctx_bytes c)).

  (** init_aez_ctx and the constructor from a key, prp.cpp:84-105: the caller's key and the new context.
      An emptied key: unlock_get throws; see C57 for the context being built then. *)
  Definition prp_make (k : vkey) : vkey * outcome vkey :=
    if negb avail then (k, Throw RuntimeError)
    else match v_unlock_get k with
    | (k, Ok b) =>
      match aez_setup b with
      | Ok c => (VEmpty, Ok (v_make ml (ctx_bytes c)))
      | _ => (k, UB)
      end
    | (k, Throw e) => (k, Throw e)
    | (k, _) => (k, UB)
    end.

  (** Prp(Key<kContextSize>&&), prp.cpp:107-115 *)
  Definition prp_of_context (k : vkey) : outcome vkey := if negb avail then Throw RuntimeError else Ok k.

  (** encrypt(in, len, out), prp.cpp:168-199: the context is not locked again. *)
  Definition prp_encrypt (k : vkey) (inp : bytes) (len : Z) (out : bytes) : vkey * outcome bytes :=
    if negb avail then (k, Throw RuntimeError)
    else match v_unlock_get k with
    | (k, Ok b) => (k, aez_encrypt R (ctx_of b) (zeros 16) 16 inp len out)
    | (k, Throw e) => (k, Throw e)
    | (k, _) => (k, UB)
    end.

  (** encrypt(string, string), prp.cpp:201-227; [g]: the uninitialised array of len bytes *)
  Definition prp_encrypt_str (k : vkey) (inp : bytes) (g : bytes) : vkey * outcome bytes :=
    if negb avail then (k, Throw RuntimeError)
    else if UINT_MAX <? zlen inp then (k, Throw RuntimeError)
    else prp_encrypt k inp (u32 (zlen inp)) g.

  (** decrypt(in, len, out), prp.cpp:229-263: the return code of aez_decrypt is ignored. *)
  Definition prp_decrypt (k : vkey) (inp : bytes) (len : Z) (out : bytes) : vkey * outcome bytes :=
    if negb avail then (k, Throw RuntimeError)
    else match v_unlock_get k with
    | (k, Ok b) =>
      match aez_decrypt R (ctx_of b) (zeros 16) 16 inp len out with
      | Ok (_, out) => (v_lock ml k, Ok out)
      | _ => (k, UB)
      end
    | (k, Throw e) => (k, Throw e)
    | (k, _) => (k, UB)
    end.

  (** decrypt(string, string), prp.cpp:265-292 *)
  Definition prp_decrypt_str (k : vkey) (inp : bytes) (g : bytes) : vkey * outcome bytes :=
    if negb avail then (k, Throw RuntimeError)
    else if UINT_MAX <? zlen inp then (k, Throw RuntimeError)
    else prp_decrypt k inp (u32 (zlen inp)) g.

  (** The integer versions, prp.cpp:124-142, 152-166: an integer is its bytes in memory, little-endian;
      [g]: the uninitialised output variable. *)
  Definition prp_int (f : vkey -> bytes -> Z -> bytes -> vkey * outcome bytes) (size : nat) (k : vkey) (x g : Z) : vkey * outcome Z :=
    match f k (le_encode size x) (Z.of_nat size) (le_encode size g) with
    | (k, Ok b) => (k, Ok (le_decode b))
    | (k, Throw e) => (k, Throw e)
    | (k, _) => (k, UB)
    end.
  Definition prp_encrypt_32 : vkey -> Z -> Z -> vkey * outcome Z := prp_int prp_encrypt 4.
  Definition prp_encrypt_64 : vkey -> Z -> Z -> vkey * outcome Z := prp_int prp_encrypt 8.
  Definition prp_decrypt_32 : vkey -> Z -> Z -> vkey * outcome Z := prp_int prp_decrypt 4.
  Definition prp_decrypt_64 : vkey -> Z -> Z -> vkey * outcome Z := prp_int prp_decrypt 8.

  (** serialize, prp.cpp:294-305; deserialize, prp.cpp:307-324: context, buffer, n_bytes_read *)
  Definition prp_serialize (k : vkey) : vkey * outcome bytes :=
    if negb avail then (k, Throw RuntimeError)
    else
      let k := v_unlock k in
      match v_serialize k with
      | Ok b => (v_lock ml k, Ok b)
      | Throw e => (k, Throw e)
      | _ => (k, UB)
      end.
  Definition prp_deserialize (buf : bytes) (in_size : Z) : outcome (vkey * bytes * Z) :=
    if negb avail then Throw RuntimeError
    else if in_size <? prp_kContextSize then Throw InvalidArgument
    else
      b <- rd buf 0 prp_kContextSize ;;
      buf' <- wr buf 0 (zeros 112) ;;
      k <- prp_of_context (v_make ml b) ;;
      Ok (k, buf', prp_kContextSize).
End Prp.
