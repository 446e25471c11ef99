(** Model of the trapdoor permutation: src/tdp_impl/tdp_impl_mbedtls.cpp (evaluation, inversion, pools, key generation) and the
    operations of src/mbedtls/rsa.c it uses.  Keys and their parsing are in RsaKeyModel.v and TdpKeyModel.v, big integers in
    MpiModel.v.  Simplifications: the cached Montgomery constants (RN, RP, RQ) are not part of the state (they only depend on
    the modulus they belong to); copying a key (mbedtls_rsa_copy) is assumed to succeed; MBEDTLS_THREADING_C is off.

    The random generator (mbedTLS_rng_wrap, random.hpp:104-112; it cannot fail) is a parameter: [rnd i n] is the number made
    of the [n] bytes of its [i]-th answer during the call.  [g] stands for the contents of an uninitialised array. *)
From Verif Require Import Base MpiModel RsaKeyModel TdpKeyModel KeyVal HmacModel.

(** TdpImpl::kMessageSpaceSize (tdp_impl.hpp:39), Tdp::kMessageSize (tdp.hpp:64), Tdp::kRSAPrfSize (tdp.hpp:70) *)
Definition kMessageSize : Z := 256.
Definition kRSAPrfSize : Z := 264.
(** tdp_impl_mbedtls.cpp:44-46 *)
Definition RSA_MODULUS_SIZE : Z := kMessageSize * 8.
Definition RSA_PK : Z := 0x10001.

(** mbedtls_mpi_write_binary to the whole array [out], the error code being ignored (bignum.c:632-647 writes nothing then) *)
Definition write_array (x : Z) (out : bytes) : outcome bytes :=
  r <- mpi_write_binary x (zlen out) ;;
  Ok (match r with inl _ => out | inr bs => bs end).
(** A std::string seen through data(): a zero follows its bytes *)
Definition str_data (s : bytes) : bytes := s ++ [0].

(** * Evaluation *)
(** TdpImpl_mbedTLS::eval (array), tdp_impl_mbedtls.cpp:170-229 *)
Definition tdp_eval (k : rsa_pub) (g : bytes) (inp : bytes) : outcome bytes :=
  if negb (kMessageSize =? rsa_len k) then Throw RuntimeError
  else
    x <- throw_if_err (mpi_read_binary inp) ;;
    x <- throw_if_err (mpi_mod x (pub_N k)) ;;
    x <- throw_if_err (mpi_exp_mod x (pub_E k) (pub_N k)) ;;
    write_array x g.
(** TdpImpl_mbedTLS::eval (string), tdp_impl_mbedtls.cpp:149-168; the memcpy reads kMessageSpaceSize bytes *)
Definition tdp_eval_string (k : rsa_pub) (g : bytes) (s : bytes) : outcome bytes :=
  if negb (zlen s =? rsa_len k) then Throw InvalidArgument
  else
    inp <- rd (str_data s) 0 kMessageSize ;;
    tdp_eval k g inp.
(** TdpImpl_mbedTLS::sample_array, tdp_impl_mbedtls.cpp:244-274; mbedtls_mpi_fill_random, bignum.c:1811-1826 *)
Definition tdp_sample (k : rsa_pub) (rnd : nat -> Z -> Z) : outcome bytes :=
  x <- throw_if_err (mpi_mod (rnd O kRSAPrfSize) (pub_N k)) ;;
  write_array x (zeros 256).
(** TdpImpl_mbedTLS::generate_array (Prf), tdp_impl_mbedtls.cpp:289-330; [H] is the hash function of the PRF, [gp], [r], [t]
    the uninitialised buffers of Prf::prf *)
Definition tdp_generate (H : bytes -> bytes) (ml : bool) (gp : Z -> bytes) (r t : bytes) (k : rsa_pub) (pk : vkey) (seed : bytes)
  : vkey * outcome bytes :=
  let '(pk, o) := prf_string H ml gp kRSAPrfSize pk seed r t in
  (pk, rnd <- o ;;
       x <- throw_if_err (mpi_read_binary rnd) ;;
       x <- throw_if_err (mpi_mod x (pub_N k)) ;;
       write_array x (zeros 256)).
(** TdpImpl_mbedTLS::generate_array (Key), tdp_impl_mbedtls.cpp:346-353: the caller's key and the result *)
Definition tdp_generate_key (H : bytes -> bytes) (ml : bool) (gp : Z -> bytes) (r t : bytes) (k : rsa_pub) (key : vkey) (seed : bytes)
  : vkey * outcome bytes :=
  match prf_ctor key with
  | (key, Ok pk) => (key, snd (tdp_generate H ml gp r t k pk seed))
  | (key, Throw e) => (key, Throw e)
  | (key, _) => (key, UB)
  end.

(** * The RSA private operation *)
(** The blinding pair (Vi, Vf) of an mbedtls_rsa_context: [None] as long as Vf.p is null *)
Definition blinding := option (Z * Z).
(** rsa.h:85-86; RSA_EXPONENT_BLINDING, rsa.c:375 *)
Definition RSA_EXPONENT_BLINDING : Z := 28.

(** The loop rsa.c:337-344: [n] attempts are left, [vf] and [vi] are the present values of ctx->Vf and ctx->Vi.  Returns them, the
    number of random values used so far and whether an invertible one was found. *)
Fixpoint blinding_loop (n : nat) (N len : Z) (rnd : nat -> Z -> Z) (i : nat) (vi vf : Z) : Z * Z * nat * bool :=
  match n with
  | O => (vi, vf, i, false)
  | S n' =>
    let vf := rnd i (len - 1) in
    let vi := mpi_gcd vf N in
    if vi =? 1 then (vi, vf, S i, true) else blinding_loop n' N len rnd (S i) vi vf
  end.
(** rsa_prepare_blinding, rsa.c:322-354: the new pair, and the error code or the number of random values used.  An error leaves
    the values computed so far in the context. *)
Definition rsa_prepare_blinding (k : rsa_key) (bl : blinding) (rnd : nat -> Z -> Z) : outcome (blinding * (Z + nat)) :=
  match bl with
  | Some (vi, vf) =>
    r <- mpi_mod (vi * vi) (key_N k) ;;
    match r with
    | inl e => Ok (Some (vi * vi, vf), inl e)
    | inr vi =>
      r <- mpi_mod (vf * vf) (key_N k) ;;
      match r with
      | inl e => Ok (Some (vi, vf * vf), inl e)
      | inr vf => Ok (Some (vi, vf), inr O)
      end
    end
  | None =>
    let '(vi, vf, i, found) := blinding_loop 11 (key_N k) (rsa_len (key_pub k)) rnd O 0 0 in
    if negb found then Ok (Some (vi, vf), inl ERR_RSA_RNG_FAILED)
    else
      r <- mpi_inv_mod vf (key_N k) ;;
      match r with
      | inl e => Ok (Some (vi, vf), inl e)
      | inr vi =>
        r <- mpi_exp_mod vi (key_E k) (key_N k) ;;
        match r with
        | inl e => Ok (Some (vi, vf), inl e)
        | inr vi => Ok (Some (vi, vf), inr i)
        end
      end
  end.
(** rsa.c:441-512: the computation once the blinding pair is known; [i] random values have been used *)
Definition rsa_private_core (k : rsa_key) (vi vf : Z) (rnd : nat -> Z -> Z) (i : nat) (T : Z) : res Z :=
  T <-? mpi_mod (T * vi) (key_N k) ;;
  let DP := (key_P k - 1) * rnd i RSA_EXPONENT_BLINDING + key_DP k in
  let DQ := (key_Q k - 1) * rnd (S i) RSA_EXPONENT_BLINDING + key_DQ k in
  T1 <-? mpi_exp_mod T DP (key_P k) ;;
  T2 <-? mpi_exp_mod T DQ (key_Q k) ;;
  T <-? mpi_mod ((T1 - T2) * key_QP k) (key_P k) ;;
  mpi_mod ((T2 + T * key_Q k) * vf) (key_N k).
(** mbedtls_rsa_private, rsa.c:380-557, reading ctx->len bytes of [inp] and writing as many to [out]: the new blinding pair, and
    the error code or the new contents of [out] *)
Definition rsa_private (k : rsa_key) (bl : blinding) (rnd : nat -> Z -> Z) (inp out : bytes) : outcome (blinding * (Z + bytes)) :=
  let len := rsa_len (key_pub k) in
  bs <- rd inp 0 len ;;
  T <- mpi_read_binary bs ;;
  match T with
  | inl e => Ok (bl, inl (ERR_RSA_PRIVATE_FAILED + e))
  | inr T =>
    if key_N k <=? T then Ok (bl, inl (ERR_RSA_PRIVATE_FAILED + ERR_MPI_BAD_INPUT_DATA))
    else
      '(bl, r) <- rsa_prepare_blinding k bl rnd ;;
      match bl, r with
      | Some (vi, vf), inr i =>
        r <- err_add ERR_RSA_PRIVATE_FAILED (
          T <-? rsa_private_core k vi vf rnd i T ;;
          bs <-? mpi_write_binary T len ;;
          out <- wr out 0 bs ;;
          ret out) ;;
        Ok (bl, r)
      | _, inl e => Ok (bl, inl (ERR_RSA_PRIVATE_FAILED + e))
      | None, inr _ => Ok (bl, inl ERR_RSA_PRIVATE_FAILED)
      end
  end.

(** * Inversion *)
(** A call on an object with a blinding pair: the new pair and what the call leads to.  An access out of bounds leaves no state. *)
Definition to_call (x : outcome (blinding * (Z + bytes))) (bl : blinding) : blinding * outcome bytes :=
  match x with
  | Ok (bl, inr out) => (bl, Ok out)
  | Ok (bl, inl _) => (bl, Throw InvalidArgument)
  | Throw e => (bl, Throw e)
  | UB => (bl, UB) | Abort => (bl, Abort) | Diverge => (bl, Diverge)
  end.
(** TdpInverseImpl_mbedTLS::invert (array), tdp_impl_mbedtls.cpp:498-513 *)
Definition tdp_invert (k : rsa_key) (rnd : nat -> Z -> Z) (g : bytes) (bl : blinding) (inp : bytes) : blinding * outcome bytes :=
  to_call (rsa_private k bl rnd inp g) bl.
(** TdpInverseImpl_mbedTLS::invert (string), tdp_impl_mbedtls.cpp:470-496 *)
Definition tdp_invert_string (k : rsa_key) (rnd : nat -> Z -> Z) (g : bytes) (bl : blinding) (s : bytes) : blinding * outcome bytes :=
  if negb (zlen s =? kMessageSize) then (bl, Throw InvalidArgument)
  else to_call (rsa_private k bl rnd (str_data s) g) bl.

(** insecure_mod_exp, tdp_impl_mbedtls.cpp:518-549; the exponent is a uint64_t, so that the loop runs at most 64 times *)
Fixpoint insecure_loop (fuel : nat) (X base exp N : Z) : res Z :=
  match fuel with
  | O => Diverge
  | S f =>
    if 0 <? exp then
      X <-? (if exp mod 2 =? 1 then mpi_mod (X * base) N else ret X) ;;
      base <-? mpi_mod (base * base) N ;;
      insecure_loop f X base (Z.shiftr exp 1) N
    else ret X
  end.
Definition insecure_mod_exp (A E N : Z) : res Z :=
  base <-? mpi_mod A N ;;
  insecure_loop 65 1 base (u64 E) N.
(** TdpInverseImpl_mbedTLS::invert_mult (array), tdp_impl_mbedtls.cpp:551-697 *)
Definition invert_mult_core (k : rsa_key) (x order : Z) : res Z :=
  d_p <-? insecure_mod_exp (key_DP k) order (key_P k - 1) ;;
  d_q <-? insecure_mod_exp (key_DQ k) order (key_Q k - 1) ;;
  y_p <-? mpi_exp_mod x d_p (key_P k) ;;
  y_q <-? mpi_exp_mod x d_q (key_Q k) ;;
  y <-? mpi_mod ((y_p - y_q) * key_QP k) (key_P k) ;;
  ret (y_q + y * key_Q k).
Definition tdp_invert_mult (k : rsa_key) (inp : bytes) (order : Z) : outcome bytes :=
  if order =? 0 then Ok inp
  else if negb (kMessageSize =? rsa_len (key_pub k)) then Throw InvalidArgument
  else
    x <- throw_if_err (mpi_read_binary inp) ;;
    throw_if_err (
      y <-? invert_mult_core k x order ;;
      mpi_write_binary y kMessageSize).
(** TdpInverseImpl_mbedTLS::invert_mult (string), tdp_impl_mbedtls.cpp:699-712 *)
Definition tdp_invert_mult_string (k : rsa_key) (s : bytes) (order : Z) : outcome bytes :=
  inp <- rd (str_data s) 0 kMessageSize ;;
  tdp_invert_mult k inp order.

(** * Key generation *)
(** The loop rsa.c:117-140.  [cand] lists the pairs of numbers returned by the two calls of mbedtls_mpi_gen_prime, one pair for
    each iteration.  (A `continue' evaluates the loop condition with the old value of G, which is not 1.)  Running out of candidates stands for a loop that does not end.
    Returns N, P, Q and H. *)
Fixpoint gen_loop (cand : list (Z * Z)) (nbits E : Z) : outcome (Z * Z * Z * Z) :=
  match cand with
  | [] => Diverge
  | (P, Q) :: cand =>
    if P =? Q then gen_loop cand nbits E
    else
      let N := P * Q in
      if negb (mpi_bitlen N =? nbits) then gen_loop cand nbits E
      else
        let '(P, Q) := if P <? Q then (Q, P) else (P, Q) in
        let H := (P - 1) * (Q - 1) in
        if mpi_gcd E H =? 1 then Ok (N, P, Q, H) else gen_loop cand nbits E
  end.
(** mbedtls_rsa_gen_key, rsa.c:91-163 *)
Definition rsa_gen_key (cand : list (Z * Z)) (nbits exponent : Z) : res rsa_key :=
  if (nbits <? 128) || (exponent <? 3) then err ERR_RSA_BAD_INPUT_DATA
  else if negb (nbits mod 2 =? 0) then err ERR_RSA_BAD_INPUT_DATA
  else
    '(N, P, Q, H) <- gen_loop cand nbits exponent ;;
    err_add ERR_RSA_KEY_GEN_FAILED (
      D <-? mpi_inv_mod exponent H ;;
      DP <-? mpi_mod D (P - 1) ;;
      DQ <-? mpi_mod D (Q - 1) ;;
      QP <-? mpi_inv_mod Q P ;;
      ret {| key_N := N; key_E := exponent; key_D := D; key_P := P; key_Q := Q; key_DP := DP; key_DQ := DQ; key_QP := QP |}).
(** TdpInverseImpl_mbedTLS::TdpInverseImpl_mbedTLS(), tdp_impl_mbedtls.cpp:354-393 *)
Definition tdp_new (cand : list (Z * Z)) : outcome rsa_key :=
  k <- throw_if_err (rsa_gen_key cand RSA_MODULUS_SIZE RSA_PK) ;;
  _ <- throw_if_err (rsa_check_pubkey (key_pub k)) ;;
  Ok k.

(** * Pools *)
(** The public key and the exponents of the array keys_ (all with the same modulus); keys_count_ is the length of the array *)
Record tdp_pool := { pool_key : rsa_pub; pool_exps : list Z }.
Definition with_exp (k : rsa_pub) (e : Z) : rsa_pub := {| pub_N := pub_N k; pub_E := e |}.
(** The iterations [i], ..., keys_count_ - 1 of the loop tdp_impl_mbedtls.cpp:735-747: [n] remaining iterations, [e] the exponent
    of keys_[i - 1] *)
Fixpoint pool_loop (n : nat) (k : rsa_pub) (e : Z) : outcome (list Z) :=
  match n with
  | O => Ok []
  | S n' =>
    let e := e * RSA_PK in
    _ <- throw_if_err (rsa_check_pubkey (with_exp k e)) ;;
    r <- pool_loop n' k e ;;
    Ok (e :: r)
  end.
(** TdpMultPoolImpl_mbedTLS::TdpMultPoolImpl_mbedTLS(const std::string&, uint8_t), tdp_impl_mbedtls.cpp:715-748, after the
    construction of the base class from the text of the key.  keys_[0] is initialised whatever the length of the array. *)
Definition pool_new (k : rsa_pub) (size : Z) : outcome tdp_pool :=
  let keys_count := u8 (size - 1) in
  if size =? 0 then Throw InvalidArgument
  else if keys_count =? 0 then UB
  else
    let e := pub_E k * RSA_PK in
    _ <- throw_if_err (rsa_check_pubkey (with_exp k e)) ;;
    r <- pool_loop (Z.to_nat (keys_count - 1)) k e ;;
    Ok {| pool_key := k; pool_exps := e :: r |}.
Definition pool_from_string (alloc : Z -> bool) (pk : bytes) (size : Z) : outcome tdp_pool :=
  k <- tdp_from_public alloc pk ;; pool_new k size.
(** The copy constructor, tdp_impl_mbedtls.cpp:750-768; TdpMultPool's copy constructor and assignment, tdp.cpp:335-346 *)
Fixpoint pool_copy_loop (k : rsa_pub) (es : list Z) : outcome (list Z) :=
  match es with
  | [] => Ok []
  | e :: es =>
    _ <- throw_if_err (rsa_check_pubkey (with_exp k e)) ;;
    r <- pool_copy_loop k es ;;
    Ok (e :: r)
  end.
Definition pool_copy (p : tdp_pool) : outcome tdp_pool :=
  r <- pool_copy_loop (pool_key p) (pool_exps p) ;;
  Ok {| pool_key := pool_key p; pool_exps := r |}.
(** TdpMultPoolImpl_mbedTLS::maximum_order, tdp_impl_mbedtls.cpp:908-911 *)
Definition pool_maximum_order (p : tdp_pool) : Z := u8 (zlen (pool_exps p) + 1).
(** TdpMultPoolImpl_mbedTLS::eval_pool (array), tdp_impl_mbedtls.cpp:810-886; keys_[order - 2] outside of the array is undefined *)
Definition pool_eval (p : tdp_pool) (g : bytes) (inp : bytes) (order : Z) : outcome bytes :=
  e <- (if order =? 1 then Ok (pub_E (pool_key p))
        else if order <=? pool_maximum_order p then
          if (0 <=? order - 2) && (order - 2 <? zlen (pool_exps p)) then
            match nth_error (pool_exps p) (Z.to_nat (order - 2)) with Some e => Ok e | None => UB end
          else UB
        else Throw InvalidArgument) ;;
  if negb (kMessageSize =? rsa_len (pool_key p)) then Throw RuntimeError
  else
    x <- throw_if_err (mpi_read_binary inp) ;;
    x <- throw_if_err (mpi_exp_mod x e (pub_N (pool_key p))) ;;
    write_array x g.
(** TdpMultPoolImpl_mbedTLS::eval_pool (string), tdp_impl_mbedtls.cpp:889-906 *)
Definition pool_eval_string (p : tdp_pool) (g : bytes) (s : bytes) (order : Z) : outcome bytes :=
  if negb (zlen s =? rsa_len (pool_key p)) then Throw InvalidArgument
  else
    inp <- rd (str_data s) 0 kMessageSize ;;
    pool_eval p g inp order.

(** * Sequences of calls *)
(** The calls that use the blinding pair of a TdpInverse object: invert, on strings or on arrays *)
Record tdp_call := { call_string : bool; call_rnd : nat -> Z -> Z; call_buf : bytes; call_input : bytes }.
Definition tdp_do (k : rsa_key) (bl : blinding) (c : tdp_call) : blinding * outcome bytes :=
  (if call_string c then tdp_invert_string else tdp_invert) k (call_rnd c) (call_buf c) bl (call_input c).
(** The blinding pair after a sequence of calls; an exception does not end the sequence *)
Fixpoint tdp_run (k : rsa_key) (bl : blinding) (cs : list tdp_call) : blinding :=
  match cs with
  | [] => bl
  | c :: cs => tdp_run k (fst (tdp_do k bl c)) cs
  end.
(** invert applied to a message, then to the result, ...; one random generator and one array for each application *)
Fixpoint invert_repeat (k : rsa_key) (bl : blinding) (cs : list ((nat -> Z -> Z) * bytes)) (inp : bytes) : outcome bytes :=
  match cs with
  | [] => Ok inp
  | (rnd, g) :: cs =>
    let '(bl, r) := tdp_invert k rnd g bl inp in
    y <- r ;; invert_repeat k bl cs y
  end.
