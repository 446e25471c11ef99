(** Model of src/prg.cpp and of the templates of src/include/sse/crypto/prg.hpp.
    The ChaCha20 block function of libsodium (8-byte nonce, all zero; 64-bit block counter) is the parameter [blk]. *)
From Verif Require Import Base KeyVal.

Definition CHACHA20_BLOCK_SIZE : Z := 64.
Definition prg_kKeySize : Z := 32.

Section Prg.
  (** 64-byte block of the key stream for a key and a block counter. *)
  Variable blk : bytes -> Z -> bytes.
  (** ENABLE_MEMORY_LOCK *)
  Variable ml : bool.

  (** [crypto_stream_chacha20_xor_ic] of libsodium: byte [j] of the input is xored with byte [j mod 64] of the block of
      counter [ic + j/64] (64-bit counter).  External: assumed behaviour. *)
  Fixpoint xor_ic_from (key : bytes) (ic : Z) (j : Z) (data : bytes) : bytes :=
    match data with
    | [] => []
    | b :: data' =>
      Z.lxor b (nth (Z.to_nat (j mod 64)) (blk key (u64 (ic + j / 64))) 0) :: xor_ic_from key ic (j + 1) data'
    end.
  Definition chacha20_xor_ic (key : bytes) (ic : Z) (data : bytes) : bytes := xor_ic_from key ic 0 data.

  (** In-place call on [n] bytes of [out] at [pos]. *)
  Definition xor_ic_at (key : bytes) (ic : Z) (out : bytes) (pos n : Z) : outcome bytes :=
    d <- rd out pos n ;;
    wr out pos (chacha20_xor_ic key ic d).

  (** prg.cpp:44-104.  [out = None] is a null pointer; [out = Some buf] a buffer of at least... the caller's buffer,
      accesses outside of it are [UB].  Arithmetic on size_t is modulo 2^64. *)
  Definition prg_derivation (key : bytes) (offset len : Z) (out : option bytes) : outcome bytes :=
    match out with
    | None => Throw InvalidArgument
    | Some out =>
      if len =? 0 then Ok out
      else
        let mod_offset := offset mod CHACHA20_BLOCK_SIZE in
        let block_offset := offset / CHACHA20_BLOCK_SIZE in
        let max_block_index := u64 (u64 (u64 (len + offset) - 1) / CHACHA20_BLOCK_SIZE + 1) in
        let block_len := u64 (max_block_index - block_offset) in
        out <- wr out 0 (zeros (Z.to_nat len)) ;;
        if offset mod CHACHA20_BLOCK_SIZE =? 0 then
          xor_ic_at key block_offset out 0 len
        else
          let buffer := zeros 64 in
          let prefix_len := CHACHA20_BLOCK_SIZE - mod_offset in
          '(out, prefix_len) <-
            (if 1 <? block_len then
               let tmp_len := u64 (len - prefix_len) in
               out <- xor_ic_at key (u64 (block_offset + 1)) out prefix_len tmp_len ;;
               Ok (out, prefix_len)
             else Ok (out, len)) ;;
          let buffer := chacha20_xor_ic key block_offset buffer in
          pre <- rd buffer mod_offset prefix_len ;;
          wr out 0 pre
    end.

  (** Prg::derive(offset, len, unsigned char* ) prg.cpp:129-139: the key object after the call, and the outcome. *)
  Definition derive_buf (k : vkey) (offset len : Z) (out : option bytes) : vkey * outcome (option bytes) :=
    if len =? 0 then (k, Ok out)
    else
      match v_unlock_get k with
      | (k, Ok kb) =>
        match prg_derivation kb offset len out with
        | Ok o => (v_lock ml k, Ok (Some o))
        | Throw e => (k, Throw e)
        | UB => (k, UB) | Abort => (k, Abort) | Diverge => (k, Diverge)
        end
      | (k, Throw e) => (k, Throw e)
      | (k, _) => (k, UB)
      end.

  (** The result of [new unsigned char[len]] / an uninitialised buffer: any [len] bytes [g] (non-null). *)
  (** std::string(data, len) prg.cpp:112 *)
  Definition to_string (r : vkey * outcome (option bytes)) (len : Z) : vkey * outcome bytes :=
    match r with
    | (k, Ok (Some o)) => (k, rd o 0 len)
    | (k, Ok None) => (k, if len =? 0 then Ok [] else UB)
    | (k, Throw e) => (k, Throw e)
    | (k, UB) => (k, UB) | (k, Abort) => (k, Abort) | (k, Diverge) => (k, Diverge)
    end.

  (** Prg::derive(offset, len, std::string& ) prg.cpp:107-118 and Prg::derive(offset, len) prg.cpp:120-127;
      [g]: content of the fresh buffer. *)
  Definition derive_str (g : bytes) (k : vkey) (offset len : Z) : vkey * outcome bytes :=
    to_string (derive_buf k offset len (Some g)) len.

  (** static Prg::derive(Key&&, offset, len, unsigned char* ) prg.cpp:152-167.  Returns the caller's key object.
      The local key is destroyed on every path. *)
  Definition sderive_buf (k : vkey) (offset len : Z) (out : option bytes) : vkey * outcome (option bytes) :=
    if v_is_empty k then (k, Throw InvalidArgument)
    else
      let local_key := k in
      (VEmpty,
       match v_unlock_get local_key with
       | (_, Ok kb) =>
         o <- prg_derivation kb offset len out ;; Ok (Some o)
       | (_, Throw e) => Throw e
       | (_, _) => UB
       end).

  (** static Prg::derive(Key&&, offset, len, std::string& ) prg.cpp:169-183 and
      static Prg::derive(Key&&, offset, len) prg.cpp:185-199 ([new] never returns null). *)
  Definition sderive_str (g : bytes) (k : vkey) (offset len : Z) : vkey * outcome bytes :=
    to_string (sderive_buf k offset len (Some g)) len.

  (** static Prg::derive(Key&&, len, std::string& ) prg.cpp:141-150: uses a std::vector; [nullempty] tells whether
      [data()] of an empty vector is a null pointer (it is with the usual standard libraries). *)
  Definition sderive_vec (nullempty : bool) (k : vkey) (len : Z) : vkey * outcome bytes :=
    to_string (sderive_buf k 0 len
                 (if (len =? 0) && nullempty then None else Some (zeros (Z.to_nat len)))) len.

  (** The overflow check shared by the derive_key(s) templates: prg.hpp:405-411 etc. *)
  Definition too_large (K n : Z) : bool := (0 <? n) && (SIZE_MAX / n <=? K).

  (** Prg::derive_key<K> prg.hpp:400-418.  [g]: uninitialised content of the new key. *)
  Definition derive_key (g : bytes) (k : vkey) (K key_offset : Z) : vkey * outcome vkey :=
    if too_large K key_offset then (k, Throw InvalidArgument)
    else
      match derive_buf k (u64 (key_offset * K)) K (Some g) with
      | (k, Ok (Some o)) => (k, Ok (v_make ml o))
      | (k, Ok None) => (k, UB)
      | (k, Throw e) => (k, Throw e)
      | (k, UB) => (k, UB) | (k, Abort) => (k, Abort) | (k, Diverge) => (k, Diverge)
      end.

  (** static Prg::derive_key<K>(Key&&, ...) prg.hpp:420-438. *)
  Definition sderive_key (g : bytes) (k : vkey) (K key_offset : Z) : vkey * outcome vkey :=
    if too_large K key_offset then (k, Throw InvalidArgument)
    else
      match sderive_buf k (u64 (key_offset * K)) K (Some g) with
      | (k, Ok (Some o)) => (k, Ok (v_make ml o))
      | (k, Ok None) => (k, UB)
      | (k, Throw e) => (k, Throw e)
      | (k, UB) => (k, UB) | (k, Abort) => (k, Abort) | (k, Diverge) => (k, Diverge)
      end.

  (** The loop that cuts the key buffer, prg.hpp:470-472 / 514-516: key [i] takes (and zeroes) K bytes at [i*K].
      [fuel] counts the remaining iterations [n_keys - i]. *)
  Fixpoint cut_keys (buf : bytes) (K : Z) (i : Z) (fuel : nat) : outcome (list vkey) :=
    match fuel with
    | O => Ok []
    | S fuel' =>
      b <- rd buf (i * K) K ;;
      buf' <- wr buf (i * K) (zeros (Z.to_nat K)) ;;
      ks <- cut_keys buf' K (i + 1) fuel' ;;
      Ok (v_make ml b :: ks)
    end.

  (** Prg::derive_keys<K> prg.hpp:440-477.  [g]: content of the freshly allocated array. *)
  Definition derive_keys (g : bytes) (k : vkey) (K n_keys key_offset : Z) : vkey * outcome (list vkey) :=
    if too_large K n_keys then (k, Throw InvalidArgument)
    else if too_large K key_offset then (k, Throw InvalidArgument)
    else if n_keys =? 0 then (k, Ok [])
    else
      match derive_buf k (u64 (key_offset * K)) (u64 (n_keys * K)) (Some g) with
      | (k, Ok (Some o)) => (k, cut_keys o K 0 (Z.to_nat n_keys))
      | (k, Ok None) => (k, UB)
      | (k, Throw e) => (k, Throw e)
      | (k, UB) => (k, UB) | (k, Abort) => (k, Abort) | (k, Diverge) => (k, Diverge)
      end.

  (** static Prg::derive_keys<K>(Key&&, ...) prg.hpp:480-521. *)
  Definition sderive_keys (g : bytes) (k : vkey) (K n_keys key_offset : Z) : vkey * outcome (list vkey) :=
    if v_is_empty k then (k, Throw InvalidArgument)
    else if n_keys =? 0 then (k, Ok [])
    else if too_large K n_keys then (k, Throw InvalidArgument)
    else if too_large K key_offset then (k, Throw InvalidArgument)
    else
      match sderive_buf k (u64 (key_offset * K)) (u64 (n_keys * K)) (Some g) with
      | (k, Ok (Some o)) => (k, cut_keys o K 0 (Z.to_nat n_keys))
      | (k, Ok None) => (k, UB)
      | (k, Throw e) => (k, Throw e)
      | (k, UB) => (k, UB) | (k, Abort) => (k, Abort) | (k, Diverge) => (k, Diverge)
      end.

  (** Prg::duplicate prg.cpp:201-209. *)
  Definition prg_duplicate (k : vkey) : vkey * outcome vkey :=
    match v_unlock_get k with
    | (k, Ok b) => (v_lock ml k, Ok (v_make ml b))
    | (k, Throw e) => (k, Throw e)
    | (k, _) => (k, UB)
    end.

  (** Prg::serialize prg.cpp:211-216 (into a buffer of 32 bytes). *)
  Definition prg_serialize (k : vkey) : vkey * outcome bytes :=
    let k := v_unlock k in
    match v_serialize k with
    | Ok b => (v_lock ml k, Ok b)
    | Throw e => (k, Throw e)
    | _ => (k, UB)
    end.

  (** Prg::deserialize prg.cpp:218-228: the object, the buffer afterwards (the key bytes are zeroed), bytes read. *)
  Definition prg_deserialize (buf : bytes) (in_size : Z) : outcome (vkey * bytes * Z) :=
    if in_size <? prg_kKeySize then Throw InvalidArgument
    else
      b <- rd buf 0 prg_kKeySize ;;
      buf' <- wr buf 0 (zeros 32) ;;
      Ok (v_make ml b, buf', prg_kKeySize).
End Prg.
