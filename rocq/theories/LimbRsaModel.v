(** The RSA operations of src/mbedtls/rsa.c and the trapdoor permutation of src/tdp_impl/tdp_impl_mbedtls.cpp once more, this time on
    the limbs of LimbModel.v and LimbModel2.v, with the objects of the context, the cached constants RN, RP, RQ and the temporaries.
    TdpModel.v computes with integers instead.

    Simplifications: mbedtls_rsa_init (rsa.c:63-75) leaves the sign field of the numbers 0 and not 1 (it is written before it is
    read); what a failing function of bignum.c leaves in the object it writes to is not modelled (the object keeps its old value
    here); the erasure of the temporaries at the end of the functions is not modelled. *)
From Verif Require Import Base MpiModel LimbModel LimbModel2 RsaKeyModel TdpKeyModel TdpModel.

(** mbedtls_rsa_context, rsa.h:61-98 *)
Record rsa_ctx := MkCtx { c_len : Z; c_N : mpi; c_E : mpi; c_D : mpi; c_P : mpi; c_Q : mpi; c_DP : mpi; c_DQ : mpi; c_QP : mpi;
  c_RN : mpi; c_RP : mpi; c_RQ : mpi; c_Vi : mpi; c_Vf : mpi }.
(** mbedtls_rsa_init, rsa.c:63-75 *)
Definition ctx_init : rsa_ctx :=
  MkCtx 0 l_init l_init l_init l_init l_init l_init l_init l_init l_init l_init l_init l_init l_init.
Definition set_E (c : rsa_ctx) (E : mpi) : rsa_ctx :=
  MkCtx (c_len c) (c_N c) E (c_D c) (c_P c) (c_Q c) (c_DP c) (c_DQ c) (c_QP c) (c_RN c) (c_RP c) (c_RQ c) (c_Vi c) (c_Vf c).
Definition set_R (c : rsa_ctx) (RN RP RQ : mpi) : rsa_ctx :=
  MkCtx (c_len c) (c_N c) (c_E c) (c_D c) (c_P c) (c_Q c) (c_DP c) (c_DQ c) (c_QP c) RN RP RQ (c_Vi c) (c_Vf c).
Definition set_V (c : rsa_ctx) (Vi Vf : mpi) : rsa_ctx :=
  MkCtx (c_len c) (c_N c) (c_E c) (c_D c) (c_P c) (c_Q c) (c_DP c) (c_DQ c) (c_QP c) (c_RN c) (c_RP c) (c_RQ c) Vi Vf.
(** p == NULL *)
Definition no_limbs (X : mpi) : bool := match mp X with [] => true | _ => false end.
(** The value exp_mod leaves in its last argument, which is not null here *)
Definition kept (old : mpi) (rr : option mpi) : mpi := match rr with Some P => P | None => old end.

(** mbedtls_rsa_check_pubkey, rsa.c:170-188 *)
Definition l_check_pubkey (c : rsa_ctx) : res unit :=
  if no_limbs (c_N c) || no_limbs (c_E c) then err ERR_RSA_KEY_CHECK_FAILED
  else
    n0 <- lnth (mp (c_N c)) 0 ;;
    e0 <- lnth (mp (c_E c)) 0 ;;
    if (Z.land n0 1 =? 0) || (Z.land e0 1 =? 0) then err ERR_RSA_KEY_CHECK_FAILED
    else
      bn <- l_bitlen (c_N c) ;;
      if (bn <? 128) || (MPI_MAX_BITS <? bn) then err ERR_RSA_KEY_CHECK_FAILED
      else
        be <- l_bitlen (c_E c) ;;
        cmp <- l_cmp (c_E c) (c_N c) ;;
        if (be <? 2) || (0 <=? cmp) then err ERR_RSA_KEY_CHECK_FAILED else ret tt.
(** mbedtls_rsa_check_privkey, rsa.c:193-250 *)
Definition l_check_privkey (c : rsa_ctx) : res unit :=
  _ <-? l_check_pubkey c ;;
  if no_limbs (c_P c) || no_limbs (c_Q c) || no_limbs (c_D c) then err ERR_RSA_KEY_CHECK_FAILED
  else err_add ERR_RSA_KEY_CHECK_FAILED (
    PQ <-? l_mul false false l_init (c_P c) (c_Q c) ;;
    DE <-? l_mul false false l_init (c_D c) (c_E c) ;;
    P1 <-? l_sub_int false l_init (c_P c) 1 ;;
    Q1 <-? l_sub_int false l_init (c_Q c) 1 ;;
    H <-? l_mul false false l_init P1 Q1 ;;
    G <-? l_gcd l_init (c_E c) H ;;
    G2 <-? l_gcd l_init P1 Q1 ;;
    QR <-? l_div false false (Some l_init) (Some l_init) H G2 ;;
    let '(L1, L2) := QR in
    let L1 := kept l_init L1 in
    let L2 := kept l_init L2 in
    I <-? l_mod false l_init DE L1 ;;
    DP <-? l_mod false l_init (c_D c) P1 ;;
    DQ <-? l_mod false l_init (c_D c) Q1 ;;
    QP <-? l_inv_mod l_init (c_Q c) (c_P c) ;;
    a1 <- l_cmp PQ (c_N c) ;;
    a2 <- l_cmp DP (c_DP c) ;;
    a3 <- l_cmp DQ (c_DQ c) ;;
    a4 <- l_cmp QP (c_QP c) ;;
    a5 <- l_cmp_int L2 0 ;;
    a6 <- l_cmp_int I 1 ;;
    a7 <- l_cmp_int G 1 ;;
    if negb (a1 =? 0) || negb (a2 =? 0) || negb (a3 =? 0) || negb (a4 =? 0) || negb (a5 =? 0) || negb (a6 =? 0) || negb (a7 =? 0)
    then err 0 else ret tt).

(** * Key generation *)
(** The objects the loop rsa.c:117-140 works with *)
Record gen_st := MkGen { g_P : mpi; g_Q : mpi; g_N : mpi; g_P1 : mpi; g_Q1 : mpi; g_H : mpi; g_G : mpi }.
(** One iteration; an early end is a `continue' *)
Definition gen_step (pf : nat) (f : rng) (nbits : Z) (E : mpi) (s : gen_st) : rm gen_st :=
  P <-* l_gen_prime pf f (g_P s) (nbits / 2) ;;
  Q <-* l_gen_prime pf f (g_Q s) (nbits / 2) ;;
  c <-* rm_lifto (l_cmp P Q) ;;
  if c =? 0 then rm_ret (MkGen P Q (g_N s) (g_P1 s) (g_Q1 s) (g_H s) (g_G s))
  else
    N <-* rm_lift (l_mul false false (g_N s) P Q) ;;
    bn <-* rm_lifto (l_bitlen N) ;;
    if negb (bn =? nbits) then rm_ret (MkGen P Q N (g_P1 s) (g_Q1 s) (g_H s) (g_G s))
    else
      let '(P, Q) := if c <? 0 then (Q, P) else (P, Q) in
      P1 <-* rm_lift (l_sub_int false (g_P1 s) P 1) ;;
      Q1 <-* rm_lift (l_sub_int false (g_Q1 s) Q 1) ;;
      H <-* rm_lift (l_mul false false (g_H s) P1 Q1) ;;
      G <-* rm_lift (l_gcd (g_G s) E H) ;;
      rm_ret (MkGen P Q N P1 Q1 H G).
Fixpoint gen_steps (fuel pf : nat) (f : rng) (nbits : Z) (E : mpi) (s : gen_st) : rm gen_st :=
  match fuel with
  | O => fun _ => Diverge
  | S fuel =>
    s <-* gen_step pf f nbits E s ;;
    g <-* rm_lifto (l_cmp_int (g_G s) 1) ;;
    if g =? 0 then rm_ret s else gen_steps fuel pf f nbits E s
  end.
Definition rm_err_add {A} (code : Z) (x : rm A) : rm A :=
  fun c => rc <- x c ;; match fst rc with inl e => Ok (inl (code + e), snd rc) | inr a => Ok (inr a, snd rc) end.
(** mbedtls_rsa_gen_key, rsa.c:91-163, on a context just initialised.  [fuel], [pf] bound the loops that need not end. *)
Definition l_rsa_gen_key (fuel pf : nat) (f : rng) (nbits exponent : Z) : rm rsa_ctx :=
  if (nbits <? 128) || (exponent <? 3) then rm_err ERR_RSA_BAD_INPUT_DATA
  else if negb (nbits mod 2 =? 0) then rm_err ERR_RSA_BAD_INPUT_DATA
  else rm_err_add ERR_RSA_KEY_GEN_FAILED (
    E <-* rm_lift (l_lset l_init exponent) ;;
    s <-* gen_steps fuel pf f nbits E (MkGen l_init l_init l_init l_init l_init l_init l_init) ;;
    D <-* rm_lift (l_inv_mod l_init E (g_H s)) ;;
    DP <-* rm_lift (l_mod false l_init D (g_P1 s)) ;;
    DQ <-* rm_lift (l_mod false l_init D (g_Q1 s)) ;;
    QP <-* rm_lift (l_inv_mod l_init (g_Q s) (g_P s)) ;;
    bn <-* rm_lifto (l_bitlen (g_N s)) ;;
    rm_ret (MkCtx (Z.shiftr (bn + 7) 3) (g_N s) E D (g_P s) (g_Q s) DP DQ QP l_init l_init l_init l_init l_init)).

(** * The private operation *)
(** Functions that change the context and call the random generator: the result is an error code or a value, with the new context
    and the number of calls of the generator so far *)
Definition cm (A : Type) := rsa_ctx -> nat -> outcome ((Z + A) * rsa_ctx * nat).
Definition cm_ret {A} (a : A) : cm A := fun x n => Ok (inr a, x, n).
Definition cm_err {A} (e : Z) : cm A := fun x n => Ok (inl e, x, n).
Definition cm_bind {A B} (m : cm A) (k : A -> cm B) : cm B :=
  fun x n => r <- m x n ;;
    match r with (inl e, x, n) => Ok (inl e, x, n) | (inr a, x, n) => k a x n end.
Notation "x <-& e ;; k" := (cm_bind e (fun x => k)) (at level 61, e at next level, right associativity).
Definition cm_lift {A} (r : res A) : cm A := fun x n => v <- r ;; Ok (v, x, n).
Definition cm_lifto {A} (r : outcome A) : cm A := fun x n => v <- r ;; Ok (inr v, x, n).
Definition cm_rm {A} (m : rm A) : cm A := fun x n => r <- m n ;; Ok (fst r, x, snd r).
Definition cm_get : cm rsa_ctx := fun x n => Ok (inr x, x, n).
Definition cm_put (x : rsa_ctx) : cm unit := fun _ n => Ok (inr tt, x, n).

(** The loop rsa.c:337-344; count = 11 - k *)
Fixpoint l_blind_loop (f : rng) (k : nat) : cm unit :=
  match k with
  | O => cm_err ERR_RSA_RNG_FAILED
  | S k =>
    c <-& cm_get ;;
    Vf <-& cm_rm (l_fill_random f (c_Vf c) (c_len c - 1)) ;;
    _ <-& cm_put (set_V c (c_Vi c) Vf) ;;
    Vi <-& cm_lift (l_gcd (c_Vi c) Vf (c_N c)) ;;
    _ <-& cm_put (set_V c Vi Vf) ;;
    g <-& cm_lifto (l_cmp_int Vi 1) ;;
    if g =? 0 then cm_ret tt else l_blind_loop f k
  end.
(** rsa_prepare_blinding, rsa.c:322-354 *)
Definition l_prepare_blinding (f : rng) : cm unit :=
  c <-& cm_get ;;
  if negb (no_limbs (c_Vf c)) then
    Vi <-& cm_lift (l_mul true true (c_Vi c) (c_Vi c) (c_Vi c)) ;;
    _ <-& cm_put (set_V c Vi (c_Vf c)) ;;
    Vi <-& cm_lift (l_mod true Vi Vi (c_N c)) ;;
    _ <-& cm_put (set_V c Vi (c_Vf c)) ;;
    Vf <-& cm_lift (l_mul true true (c_Vf c) (c_Vf c) (c_Vf c)) ;;
    _ <-& cm_put (set_V c Vi Vf) ;;
    Vf <-& cm_lift (l_mod true Vf Vf (c_N c)) ;;
    cm_put (set_V c Vi Vf)
  else
    _ <-& l_blind_loop f 11 ;;
    c <-& cm_get ;;
    Vi <-& cm_lift (l_inv_mod (c_Vi c) (c_Vf c) (c_N c)) ;;
    _ <-& cm_put (set_V c Vi (c_Vf c)) ;;
    VR <-& cm_lift (l_exp_mod true Vi Vi (c_E c) (c_N c) (Some (c_RN c))) ;;
    cm_put (set_R (set_V c (fst VR) (c_Vf c)) (kept (c_RN c) (snd VR)) (c_RP c) (c_RQ c)).
(** rsa.c:441-512: the number to be written *)
Definition l_private_core (f : rng) (T : mpi) : cm mpi :=
  c <-& cm_get ;;
  T <-& cm_lift (l_mul true false T T (c_Vi c)) ;;
  T <-& cm_lift (l_mod true T T (c_N c)) ;;
  P1 <-& cm_lift (l_sub_int false l_init (c_P c) 1) ;;
  Q1 <-& cm_lift (l_sub_int false l_init (c_Q c) 1) ;;
  R <-& cm_rm (l_fill_random f l_init RSA_EXPONENT_BLINDING) ;;
  DP <-& cm_lift (l_mul false false l_init P1 R) ;;
  DP <-& cm_lift (l_add true false DP DP (c_DP c)) ;;
  R <-& cm_rm (l_fill_random f R RSA_EXPONENT_BLINDING) ;;
  DQ <-& cm_lift (l_mul false false l_init Q1 R) ;;
  DQ <-& cm_lift (l_add true false DQ DQ (c_DQ c)) ;;
  TR <-& cm_lift (l_exp_mod false l_init T DP (c_P c) (Some (c_RP c))) ;;
  let '(T1, RP) := TR in
  _ <-& cm_put (set_R c (c_RN c) (kept (c_RP c) RP) (c_RQ c)) ;;
  TR <-& cm_lift (l_exp_mod false l_init T DQ (c_Q c) (Some (c_RQ c))) ;;
  let '(T2, RQ) := TR in
  _ <-& cm_put (set_R c (c_RN c) (kept (c_RP c) RP) (kept (c_RQ c) RQ)) ;;
  T <-& cm_lift (l_sub false false T T1 T2) ;;
  T1 <-& cm_lift (l_mul false false T1 T (c_QP c)) ;;
  T <-& cm_lift (l_mod false T T1 (c_P c)) ;;
  T1 <-& cm_lift (l_mul false false T1 T (c_Q c)) ;;
  T <-& cm_lift (l_add false false T T2 T1) ;;
  T <-& cm_lift (l_mul true false T T (c_Vf c)) ;;
  cm_lift (l_mod true T T (c_N c)).
Definition cm_err_add {A} (code : Z) (m : cm A) : cm A :=
  fun x n => r <- m x n ;;
    match r with (inl e, x, n) => Ok (inl (code + e), x, n) | (inr a, x, n) => Ok (inr a, x, n) end.
(** mbedtls_rsa_private, rsa.c:380-557, with a generator; reads ctx->len bytes of [inp], writes as many to [out] *)
Definition l_rsa_private (f : rng) (inp out : bytes) : cm bytes :=
  c <-& cm_get ;;
  if no_limbs (c_P c) || no_limbs (c_Q c) || no_limbs (c_D c) then cm_err ERR_RSA_BAD_INPUT_DATA
  else
    bs <-& cm_lifto (rd inp 0 (c_len c)) ;;
    cm_err_add ERR_RSA_PRIVATE_FAILED (
      T <-& cm_lift (l_read_binary l_init bs) ;;
      a <-& cm_lifto (l_cmp T (c_N c)) ;;
      if 0 <=? a then cm_err ERR_MPI_BAD_INPUT_DATA
      else
        _ <-& l_prepare_blinding f ;;
        T <-& l_private_core f T ;;
        bs <-& cm_lift (l_write_binary T (zeros (Z.to_nat (c_len c)))) ;;
        cm_lifto (wr out 0 bs)).

(** * The trapdoor permutation *)
(** mbedtls_mpi_write_binary to the whole array, the error code being ignored *)
Definition l_write_array (X : mpi) (out : bytes) : outcome bytes :=
  r <- l_write_binary X out ;;
  Ok (match r with inl _ => out | inr bs => bs end).
(** TdpImpl_mbedTLS::eval (array), tdp_impl_mbedtls.cpp:170-229: the new context and the array *)
Definition l_tdp_eval (c : rsa_ctx) (g inp : bytes) : outcome (rsa_ctx * bytes) :=
  if negb (kMessageSize =? c_len c) then Throw RuntimeError
  else
    x <- throw_if_err (l_read_binary l_init inp) ;;
    x <- throw_if_err (l_mod true x x (c_N c)) ;;
    xr <- throw_if_err (l_exp_mod true x x (c_E c) (c_N c) (Some (c_RN c))) ;;
    out <- l_write_array (fst xr) g ;;
    Ok (set_R c (kept (c_RN c) (snd xr)) (c_RP c) (c_RQ c), out).
(** TdpImpl_mbedTLS::sample_array, tdp_impl_mbedtls.cpp:244-274; the generator does not fail *)
Definition l_tdp_sample (c : rsa_ctx) (f : rng) (n : nat) : outcome bytes :=
  r <- l_fill_random f l_init kRSAPrfSize n ;;
  x <- throw_if_err (Ok (fst r)) ;;
  x <- throw_if_err (l_mod true x x (c_N c)) ;;
  l_write_array x (zeros 256).
(** TdpImpl_mbedTLS::generate_array (Prf), tdp_impl_mbedtls.cpp:293-330: after the call of the PRF, which returned [rnd] *)
Definition l_tdp_generate (c : rsa_ctx) (rnd : bytes) : outcome bytes :=
  x <- throw_if_err (l_read_binary l_init rnd) ;;
  x <- throw_if_err (l_mod true x x (c_N c)) ;;
  l_write_array x (zeros 256).
(** TdpInverseImpl_mbedTLS::invert (array), tdp_impl_mbedtls.cpp:498-513: the new context and what the call leads to *)
Definition l_tdp_invert (c : rsa_ctx) (f : rng) (n : nat) (g inp : bytes) : rsa_ctx * outcome bytes :=
  match l_rsa_private f inp g c n with
  | Ok (inr out, c, _) => (c, Ok out)
  | Ok (inl _, c, _) => (c, Throw InvalidArgument)
  | Throw e => (c, Throw e)
  | UB => (c, UB) | Abort => (c, Abort) | Diverge => (c, Diverge)
  end.
(** insecure_mod_exp, tdp_impl_mbedtls.cpp:518-549 *)
Fixpoint l_insecure_loop (fuel : nat) (X base : mpi) (exp : Z) (N : mpi) : res mpi :=
  match fuel with
  | O => Diverge
  | S fuel =>
    if 0 <? exp then
      X <-? (if exp mod 2 =? 1 then X <-? l_mul true false X X base ;; l_mod true X X N else ret X) ;;
      base <-? l_mul true true base base base ;;
      base <-? l_mod true base base N ;;
      l_insecure_loop fuel X base (Z.shiftr exp 1) N
    else ret X
  end.
Definition l_insecure_mod_exp (X A : mpi) (E : Z) (N : mpi) : res mpi :=
  X <-? l_lset X 1 ;;
  base <-? l_copy false l_init A ;;
  base <-? l_mod true base base N ;;
  l_insecure_loop 65 X base (u64 E) N.
(** TdpInverseImpl_mbedTLS::invert_mult (array), tdp_impl_mbedtls.cpp:551-697; [P1], [Q1] are the members p_1_ and q_1_ computed by the
    constructor (lines 383-392) *)
Definition l_invert_mult_core (c : rsa_ctx) (P1 Q1 x : mpi) (order : Z) : res (mpi * rsa_ctx) :=
  d_p <-? l_insecure_mod_exp l_init (c_DP c) order P1 ;;
  d_q <-? l_insecure_mod_exp l_init (c_DQ c) order Q1 ;;
  yr <-? l_exp_mod false l_init x d_p (c_P c) (Some (c_RP c)) ;;
  let '(y_p, RP) := yr in
  yr <-? l_exp_mod false l_init x d_q (c_Q c) (Some (c_RQ c)) ;;
  let '(y_q, RQ) := yr in
  y <-? l_sub false false l_init y_p y_q ;;
  y_p <-? l_mul false false y_p y (c_QP c) ;;
  y <-? l_mod false y y_p (c_P c) ;;
  y_p <-? l_mul false false y_p y (c_Q c) ;;
  y <-? l_add false false y y_q y_p ;;
  ret (y, set_R c (c_RN c) (kept (c_RP c) RP) (kept (c_RQ c) RQ)).
Definition l_tdp_invert_mult (c : rsa_ctx) (P1 Q1 : mpi) (inp : bytes) (order : Z) : outcome (rsa_ctx * bytes) :=
  if order =? 0 then Ok (c, inp)
  else if negb (kMessageSize =? c_len c) then Throw InvalidArgument
  else
    x <- throw_if_err (l_read_binary l_init inp) ;;
    throw_if_err (
      yc <-? l_invert_mult_core c P1 Q1 x order ;;
      bs <-? l_write_binary (fst yc) (zeros 256) ;;
      ret (snd yc, bs)).
(** The constructors TdpInverseImpl_mbedTLS, tdp_impl_mbedtls.cpp:379-393 and 425-436: p_1_, q_1_ *)
Definition l_p1_q1 (c : rsa_ctx) : outcome (mpi * mpi) :=
  P1 <- throw_if_err (l_sub_int false l_init (c_P c) 1) ;;
  Q1 <- throw_if_err (l_sub_int false l_init (c_Q c) 1) ;;
  Ok (P1, Q1).

(** * Copies *)
(** mbedtls_rsa_copy, rsa.c:562-597; dst and src are different objects *)
Definition l_rsa_copy (dst src : rsa_ctx) : res rsa_ctx :=
  N <-? l_copy false (c_N dst) (c_N src) ;;
  E <-? l_copy false (c_E dst) (c_E src) ;;
  D <-? l_copy false (c_D dst) (c_D src) ;;
  P <-? l_copy false (c_P dst) (c_P src) ;;
  Q <-? l_copy false (c_Q dst) (c_Q src) ;;
  DP <-? l_copy false (c_DP dst) (c_DP src) ;;
  DQ <-? l_copy false (c_DQ dst) (c_DQ src) ;;
  QP <-? l_copy false (c_QP dst) (c_QP src) ;;
  RN <-? l_copy false (c_RN dst) (c_RN src) ;;
  RP <-? l_copy false (c_RP dst) (c_RP src) ;;
  RQ <-? l_copy false (c_RQ dst) (c_RQ src) ;;
  Vi <-? l_copy false (c_Vi dst) (c_Vi src) ;;
  Vf <-? l_copy false (c_Vf dst) (c_Vf src) ;;
  ret (MkCtx (c_len src) N E D P Q DP DQ QP RN RP RQ Vi Vf).
(** The copy constructor of TdpImpl_mbedTLS, tdp_impl_mbedtls.cpp:95-109 (Tdp's copy constructor and assignment call it, tdp.cpp:92-109) *)
Definition l_tdp_copy (src : rsa_ctx) : outcome rsa_ctx :=
  c <- throw_if_err (l_rsa_copy ctx_init src) ;;
  _ <- throw_if_err (l_check_pubkey c) ;;
  Ok c.
(** TdpImpl_mbedTLS::operator=, tdp_impl_mbedtls.cpp:119-126: the error code is ignored (an error frees the context) *)
Definition l_tdp_assign (dst src : rsa_ctx) : outcome rsa_ctx :=
  r <- l_rsa_copy dst src ;;
  Ok (match r with inr c => c | inl _ => ctx_init end).

(** * Pools *)
(** The context of the base class and the array keys_ *)
Record l_pool := MkPool { lp_key : rsa_ctx; lp_keys : list rsa_ctx }.
(** The iterations [i], ..., keys_count_ - 1 of the loop tdp_impl_mbedtls.cpp:735-747; [c] is keys_[i - 1].  mbedtls_rsa_copy and
    mbedtls_mpi_mul_int are called without looking at their error codes; the errors are not modelled further. *)
Fixpoint l_pool_loop (n : nat) (c : rsa_ctx) : outcome (list rsa_ctx) :=
  match n with
  | O => Ok []
  | S n =>
    c' <- throw_if_err (l_rsa_copy ctx_init c) ;;
    E <- throw_if_err (l_mul_int false (c_E c') (c_E c) RSA_PK) ;;
    let c' := set_E c' E in
    _ <- throw_if_err (l_check_pubkey c') ;;
    r <- l_pool_loop n c' ;;
    Ok (c' :: r)
  end.
(** TdpMultPoolImpl_mbedTLS::TdpMultPoolImpl_mbedTLS(const std::string&, uint8_t), tdp_impl_mbedtls.cpp:715-748, after the construction
    of the base class *)
Definition l_pool_new (k : rsa_ctx) (size : Z) : outcome l_pool :=
  let keys_count := u8 (size - 1) in
  if size =? 0 then Throw InvalidArgument
  else if keys_count =? 0 then UB
  else
    c' <- throw_if_err (l_rsa_copy ctx_init k) ;;
    E <- throw_if_err (l_mul_int true (c_E c') (c_E c') RSA_PK) ;;
    let c' := set_E c' E in
    _ <- throw_if_err (l_check_pubkey c') ;;
    r <- l_pool_loop (Z.to_nat (keys_count - 1)) c' ;;
    Ok (MkPool k (c' :: r)).
(** The loops of the copy constructor, tdp_impl_mbedtls.cpp:756-767, and of the assignment, lines 791-802 *)
Fixpoint l_pool_copy_loop (cs : list rsa_ctx) : outcome (list rsa_ctx) :=
  match cs with
  | [] => Ok []
  | c :: cs =>
    c' <- throw_if_err (l_rsa_copy ctx_init c) ;;
    _ <- throw_if_err (l_check_pubkey c') ;;
    r <- l_pool_copy_loop cs ;;
    Ok (c' :: r)
  end.
(** The copy constructor, tdp_impl_mbedtls.cpp:750-768 *)
Definition l_pool_copy (p : l_pool) : outcome l_pool :=
  k <- l_tdp_copy (lp_key p) ;;
  r <- l_pool_copy_loop (lp_keys p) ;;
  Ok (MkPool k r).
(** TdpMultPoolImpl_mbedTLS::operator=, tdp_impl_mbedtls.cpp:770-805: the array is replaced; the context of the base class is not touched *)
Definition l_pool_assign (dst src : l_pool) : outcome l_pool :=
  r <- l_pool_copy_loop (lp_keys src) ;;
  Ok (MkPool (lp_key dst) r).
(** TdpMultPoolImpl_mbedTLS::maximum_order, tdp_impl_mbedtls.cpp:908-911 *)
Definition l_pool_maximum_order (p : l_pool) : Z := u8 (zlen (lp_keys p) + 1).
Definition upd_nth {A} (l : list A) (i : nat) (x : A) : list A := firstn i l ++ x :: skipn (S i) l.
(** TdpMultPoolImpl_mbedTLS::eval_pool (array), tdp_impl_mbedtls.cpp:810-886 *)
Definition l_pool_eval (p : l_pool) (g inp : bytes) (order : Z) : outcome (l_pool * bytes) :=
  ck <- (if order =? 1 then Ok (lp_key p, None)
         else if order <=? l_pool_maximum_order p then
           if order <? 2 then UB
           else c <- lnth (lp_keys p) (Z.to_nat (order - 2)) ;; Ok (c, Some (Z.to_nat (order - 2)))
         else Throw InvalidArgument) ;;
  if negb (kMessageSize =? c_len (lp_key p)) then Throw RuntimeError
  else
    let '(c, at_) := ck in
    x <- throw_if_err (l_read_binary l_init inp) ;;
    xr <- throw_if_err (l_exp_mod true x x (c_E c) (c_N c) (Some (c_RN c))) ;;
    out <- l_write_array (fst xr) g ;;
    let c := set_R c (kept (c_RN c) (snd xr)) (c_RP c) (c_RQ c) in
    Ok (match at_ with
        | None => MkPool c (lp_keys p)
        | Some i => MkPool (lp_key p) (upd_nth (lp_keys p) i c)
        end, out).
