(** Model of the temporary memory of src/prg.cpp, src/cipher.cpp, src/include/sse/crypto/hmac.hpp and prf.hpp: local arrays, vectors
    and arrays made with new, what they hold when the functions return or throw, and memory protections that fail.
    What is computed is as in [PrgModel], [CipherModel] and [HmacModel].
    Simplifications: a block of memory is not used again after its end, so its last content can be seen; the temporary copies made
    by std::string and by the compiler, and the memory of libsodium's functions, are not modelled; new[] succeeds. *)
From Verif Require Import Base KeyVal PrgModel CipherModel HmacModel.

(** A local array or a vector ([Auto]: it ends with the function that made it), or an array made with new *)
Inductive storage := Auto | New.
Record block := mkB { b_kind : storage; b_live : bool; b_bytes : bytes }.
(** The blocks made so far, and the key of the object *)
Record tst := mkT { t_mem : list block; t_key : vkey }.
Definition T (A : Type) : Type := tst -> tst * outcome A.
Definition tret {A} (a : A) : T A := fun s => (s, Ok a).
Definition tlift {A} (x : outcome A) : T A := fun s => (s, x).
Definition tbind {A B} (m : T A) (f : A -> T B) : T B := fun s =>
  match m s with
  | (s, Ok a) => f a s
  | (s, Throw e) => (s, Throw e)
  | (s, UB) => (s, UB) | (s, Abort) => (s, Abort) | (s, Diverge) => (s, Diverge)
  end.
Notation "x <== e ;; k" := (tbind e (fun x => k)) (at level 61, e at next level, right associativity).
Notation "e ;;; k" := (tbind e (fun _ => k)) (at level 61, right associativity).

Fixpoint put_block (l : list block) (n : nat) (c : block) : list block :=
  match l, n with
  | [], _ => []
  | _ :: l', O => c :: l'
  | x :: l', S n' => x :: put_block l' n' c
  end.
(** A new block with the content [g] *)
Definition t_new (k : storage) (g : bytes) : T nat := fun s =>
  (mkT (t_mem s ++ [mkB k true g]) (t_key s), Ok (length (t_mem s))).
(** The content of a block; writing to a part of it *)
Definition t_get (i : nat) : T bytes := fun s =>
  match nth_error (t_mem s) i with
  | Some (mkB _ true b) => (s, Ok b)
  | _ => (s, UB)
  end.
Definition t_wr (i : nat) (pos : Z) (d : bytes) : T unit := fun s =>
  match nth_error (t_mem s) i with
  | Some (mkB k true b) =>
    match wr b pos d with
    | Ok b' => (mkT (put_block (t_mem s) i (mkB k true b')) (t_key s), Ok tt)
    | _ => (s, UB)
    end
  | _ => (s, UB)
  end.
(** sodium_memzero *)
Definition t_wipe (i : nat) (n : Z) : T unit := t_wr i 0 (zeros (Z.to_nat n)).
(** delete[] *)
Definition t_delete (i : nat) : T unit := fun s =>
  match nth_error (t_mem s) i with
  | Some (mkB New true b) => (mkT (put_block (t_mem s) i (mkB New false b)) (t_key s), Ok tt)
  | _ => (s, UB)
  end.
(** The end of a function, by return or by an exception: its arrays and vectors end, their contents stay in memory *)
Definition leave (c : block) : block := match b_kind c with Auto => mkB Auto false (b_bytes c) | New => c end.
Definition scope {A} (m : T A) : T A := fun s =>
  let '(s', r) := m s in
  let n := length (t_mem s) in
  (mkT (firstn n (t_mem s') ++ map leave (skipn n (t_mem s'))) (t_key s'), r).

Section Tmp.
  (** ENABLE_MEMORY_LOCK *)
  Variable ml : bool.

  (** Key::unlock, lock, data and unlock_get (key.hpp:284-321, 357-382); [f]: the change of the protection fails *)
  Definition t_unlock (f : bool) : T unit := fun s =>
    match t_key s with
    | VKey b true => if ml && f then (s, Throw RuntimeError) else (mkT (t_mem s) (VKey b false), Ok tt)
    | _ => (s, Ok tt)
    end.
  Definition t_lock (f : bool) : T unit := fun s =>
    match t_key s with
    | VKey b false => if ml && f then (s, Throw RuntimeError) else (mkT (t_mem s) (VKey b ml), Ok tt)
    | _ => (s, Ok tt)
    end.
  (** An empty key reports that it is locked, with memory locking; without, the pointer is null, [null] being what follows *)
  Definition t_data (null : outcome bytes) : T bytes := fun s =>
    match t_key s with
    | VEmpty => (s, if ml then Throw RuntimeError else null)
    | VKey b l => (s, if ml && l then Throw RuntimeError else Ok b)
    end.
  Definition t_unlock_get (f : bool) : T bytes := fun s =>
    match t_key s with
    | VEmpty => (s, Throw RuntimeError)
    | VKey b _ => match t_unlock f s with (s, Ok _) => (s, Ok b) | (s, Throw e) => (s, Throw e) | (s, _) => (s, UB) end
    end.

  (** * prg.cpp *)
  Section Prg.
    Variable blk : bytes -> Z -> bytes.
    (** prg_derivation prg.cpp:44-104; [g]: the uninitialised content of [buffer] (64 bytes) *)
    Definition t_prg_derivation (g : bytes) (key : bytes) (offset len : Z) (out : option bytes) : T bytes :=
      scope
      match out with
      | None => tlift (Throw InvalidArgument)
      | Some out =>
        if len =? 0 then tret out
        else
          let mod_offset := offset mod CHACHA20_BLOCK_SIZE in
          let block_offset := offset / CHACHA20_BLOCK_SIZE in
          let max_block_index := u64 (u64 (u64 (len + offset) - 1) / CHACHA20_BLOCK_SIZE + 1) in
          let block_len := u64 (max_block_index - block_offset) in
          out <== tlift (wr out 0 (zeros (Z.to_nat len))) ;;
          if offset mod CHACHA20_BLOCK_SIZE =? 0 then tlift (xor_ic_at blk key block_offset out 0 len)
          else
            buffer <== t_new Auto g ;;
            t_wr buffer 0 (zeros 64) ;;;
            let prefix_len := CHACHA20_BLOCK_SIZE - mod_offset in
            p <== (if 1 <? block_len then
                     let tmp_len := u64 (len - prefix_len) in
                     out <== tlift (xor_ic_at blk key (u64 (block_offset + 1)) out prefix_len tmp_len) ;;
                     tret (out, prefix_len)
                   else tret (out, len)) ;;
            b <== t_get buffer ;;
            t_wr buffer 0 (chacha20_xor_ic blk key block_offset b) ;;;
            b <== t_get buffer ;;
            pre <== tlift (rd b mod_offset (snd p)) ;;
            o <== tlift (wr (fst p) 0 pre) ;;
            t_wipe buffer CHACHA20_BLOCK_SIZE ;;;
            tret o
      end.
    (** Prg::derive(offset, len, unsigned char* ) prg.cpp:129-139 *)
    Definition t_derive_buf (g : bytes) (fu fl : bool) (offset len : Z) (out : option bytes) : T (option bytes) :=
      if len =? 0 then tret out
      else
        kb <== t_unlock_get fu ;;
        o <== t_prg_derivation g kb offset len out ;;
        t_lock fl ;;;
        tret (Some o).
    (** Prg::derive(offset, len, std::string& ) prg.cpp:107-118; [gd]: the uninitialised content of [data] *)
    Definition t_derive_str (g gd : bytes) (fu fl : bool) (offset len : Z) : T bytes :=
      data <== t_new New gd ;;
      d <== t_get data ;;
      o <== t_derive_buf g fu fl offset len (Some d) ;;
      match o with
      | None => tlift UB
      | Some o =>
        t_wr data 0 o ;;;
        d <== t_get data ;;
        s <== tlift (rd d 0 len) ;;
        t_wipe data len ;;;
        t_delete data ;;;
        tret s
      end.
    (** static Prg::derive(Key&&, offset, len, unsigned char* ) prg.cpp:152-167; the key of the state is [k], then [local_key] *)
    Definition t_sderive_buf (g : bytes) (fu fl : bool) (offset len : Z) (out : option bytes) : T bytes := fun s =>
      if v_is_empty (t_key s) then (s, Throw InvalidArgument)
      else
        let '(s, r) := (kb <== t_unlock_get fu ;;
                        o <== t_prg_derivation g kb offset len out ;;
                        t_lock fl ;;;
                        tret o) s in
        (mkT (t_mem s) VEmpty, r).
    (** static Prg::derive(Key&&, offset, len, std::string& ) prg.cpp:169-183, and prg.cpp:185-199 *)
    Definition t_sderive_str (g gd : bytes) (fu fl : bool) (offset len : Z) : T bytes :=
      data <== t_new New gd ;;
      d <== t_get data ;;
      o <== t_sderive_buf g fu fl offset len (Some d) ;;
      t_wr data 0 o ;;;
      d <== t_get data ;;
      s <== tlift (rd d 0 len) ;;
      t_wipe data len ;;;
      t_delete data ;;;
      tret s.
  End Prg.

  (** * cipher.cpp *)
  Section Cipher.
    Variable kdf : bytes -> bytes -> bytes.
    Variable aead_enc : bytes -> bytes -> bytes -> bytes.
    Variable aead_dec : bytes -> bytes -> bytes -> option bytes.
    (** encrypt(in, len, out) cipher.cpp:61-100; [g]: the uninitialised content of [chacha_key] (32 bytes) *)
    Definition t_encrypt (g : bytes) (fu fl : bool) (inp : bytes) (len : Z) (out : bytes) (r : bytes) : T bytes :=
      scope
      (chacha_key <== t_new Auto g ;;
       out <== tlift (wr out 0 r) ;;
       t_unlock fu ;;;
       nonce <== tlift (rd out 0 NONCE_SIZE) ;;
       kb <== t_data Abort ;;
       t_wr chacha_key 0 (kdf kb nonce) ;;;
       t_lock fl ;;;
       m <== tlift (rd inp 0 len) ;;
       if MESSAGEBYTES_MAX <? len then tlift Abort else
       n <== tlift (rd out 0 12) ;;
       ck <== t_get chacha_key ;;
       o <== tlift (wr out NONCE_SIZE (aead_enc ck n m)) ;;
       t_wipe chacha_key 32 ;;;
       tret o).
    (** encrypt(string, string) cipher.cpp:102-120 *)
    Definition t_encrypt_str (g gd : bytes) (fu fl : bool) (inp : bytes) (r : bytes) : T bytes :=
      if zlen inp =? 0 then tlift (Throw InvalidArgument)
      else
        data <== t_new New gd ;;
        d <== t_get data ;;
        o <== t_encrypt g fu fl inp (zlen inp) d r ;;
        t_wr data 0 o ;;;
        d <== t_get data ;;
        let c_len := ciphertext_length (zlen inp) in
        s <== tlift (rd d 0 c_len) ;;
        t_wipe data c_len ;;;
        t_delete data ;;;
        tret s.
    (** decrypt(in, len, out) cipher.cpp:122-172: writes [out], a block; libsodium's decryption fills the output with zeros and sets
        m_len to 0 when it fails *)
    Definition t_decrypt (g : bytes) (fu fl : bool) (inp : bytes) (len : Z) (out : nat) : T unit :=
      scope
      (if len <? ciphertext_length 0 then tlift (Throw InvalidArgument)
       else
         chacha_key <== t_new Auto g ;;
         t_unlock fu ;;;
         nonce <== tlift (rd inp 0 NONCE_SIZE) ;;
         kb <== t_data Abort ;;
         t_wr chacha_key 0 (kdf kb nonce) ;;;
         t_lock fl ;;;
         c <== tlift (rd inp NONCE_SIZE (len - NONCE_SIZE)) ;;
         n <== tlift (rd inp 0 12) ;;
         ck <== t_get chacha_key ;;
         match aead_dec ck n c with
         | Some m => t_wr out 0 m ;;; t_wipe chacha_key 32
         | None => t_wr out 0 (zeros (Z.to_nat (len - NONCE_SIZE - ABYTES))) ;;; t_wipe chacha_key 32 ;;; tlift (Throw RuntimeError)
         end).
    (** decrypt(string, string) cipher.cpp:174-191: the vector is not wiped *)
    Definition t_decrypt_str (g : bytes) (fu fl : bool) (inp : bytes) : T bytes :=
      scope
      (if zlen inp <=? NONCE_SIZE + ABYTES then tlift (Throw InvalidArgument)
       else
         let p_len := plaintext_length (zlen inp) in
         data <== t_new Auto (zeros (Z.to_nat p_len)) ;;
         t_decrypt g fu fl inp (zlen inp) data ;;;
         d <== t_get data ;;
         tlift (rd d 0 p_len)).
  End Cipher.

  (** * hmac.hpp and prf.hpp *)
  Section Hmac.
    Variable H : bytes -> bytes.
    Variables B D : Z.
    (** hmac.hpp:178-249; [g1], [g2]: the uninitialised contents of [buffer] and [tmp] *)
    Definition t_hmac (fu fl : bool) (N : Z) (inp : option bytes) (length : Z) (out : option bytes) (opos out_len : Z) (g1 g2 : bytes) : T bytes :=
      scope
      (if D <? out_len then tlift (Throw InvalidArgument)
       else match inp, out with
       | None, _ => tlift (Throw InvalidArgument)
       | _, None => tlift (Throw InvalidArgument)
       | Some inp, Some out =>
         let i_len := u64 (B + length) in
         buffer <== t_new New g1 ;;
         tmp <== t_new Auto g2 ;;
         t_unlock fu ;;;
         kb <== t_data UB ;;
         kN <== tlift (rd kb 0 N) ;;
         t_wr buffer 0 kN ;;;
         (if N <? B then t_wr buffer N (zeros (Z.to_nat (B - N))) else tret tt) ;;;
         b <== t_get buffer ;;
         p <== tlift (rd b 0 B) ;;
         t_wr buffer 0 (map (fun x => Z.lxor x 0x36) p) ;;;
         m <== tlift (rd inp 0 length) ;;
         t_wr buffer B m ;;;
         b <== t_get buffer ;;
         d <== tlift (rd b 0 i_len) ;;
         t_wr buffer 0 (H d) ;;;
         kb <== t_data UB ;;
         kN <== tlift (rd kb 0 N) ;;
         t_wr tmp 0 kN ;;;
         (if N <? B then t_wr tmp N (zeros (Z.to_nat (B - N))) else tret tt) ;;;
         b <== t_get tmp ;;
         p <== tlift (rd b 0 B) ;;
         t_wr tmp 0 (map (fun x => Z.lxor x 0x5c) p) ;;;
         b <== t_get buffer ;;
         inner <== tlift (rd b 0 D) ;;
         t_wr tmp B inner ;;;
         b <== t_get tmp ;;
         d <== tlift (rd b 0 (B + D)) ;;
         t_wr buffer 0 (H d) ;;;
         b <== t_get buffer ;;
         r <== tlift (rd b 0 out_len) ;;
         o <== tlift (wr out opos r) ;;
         t_wipe buffer (buffer_len B D length) ;;;
         t_delete buffer ;;;
         t_wipe tmp (tmp_len B D) ;;;
         t_lock fl ;;;
         tret o
       end).
  End Hmac.

  Section Prf.
    Variable H : bytes -> bytes.
    Variable g : Z -> bytes.
    (** The protections that fail in the call of hmac for counter [i] *)
    Variables fu fl : Z -> bool.
    Definition t_base_hmac (i : Z) (inp : option bytes) (length : Z) (out : option bytes) (opos out_len : Z) : T bytes :=
      t_hmac H 128 64 (fu i) (fl i) prf_kKeySize inp length out opos out_len (g (buffer_len 128 64 length)) (g (tmp_len 128 64)).
    (** The loop prf.hpp:278-294 (see [HmacModel.prf_loop]); [tmp] is a block *)
    Fixpoint t_prf_loop (fuel : nat) (NBYTES : Z) (tmp : nat) (length : Z) (pos i : Z) (result : bytes) : T bytes :=
      match fuel with
      | O => tlift Diverge
      | S fuel' =>
        if pos <? NBYTES then
          t_wr tmp length [i] ;;;
          x <== t_get tmp ;;
          let n := if 64 <=? NBYTES - pos then 64 else NBYTES - pos in
          result <== t_base_hmac i (Some x) (length + 1) (Some result) pos n ;;
          t_prf_loop fuel' NBYTES tmp length (u16 (pos + 64)) (u8 (i + 1)) result
        else tret result
      end.
    (** prf.hpp:260-305; the array [result] is the value returned *)
    Definition t_prf (NBYTES : Z) (inp : option bytes) (length : Z) (r t : bytes) : T bytes :=
      scope
      match inp with
      | None => tlift (Throw InvalidArgument)
      | Some x =>
        if 64 <? NBYTES then
          tmp <== t_new New t ;;
          m <== tlift (rd x 0 length) ;;
          t_wr tmp 0 m ;;;
          result <== t_prf_loop prf_fuel NBYTES tmp length 0 0 r ;;
          t_wipe tmp (length + 1) ;;;
          t_delete tmp ;;;
          tret result
        else t_base_hmac 0 (Some x) length (Some r) 0 NBYTES
      end.
  End Prf.
End Tmp.
