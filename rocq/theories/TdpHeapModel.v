(** Model of the memory of the objects of src/tdp_impl/tdp_impl_mbedtls.cpp, on the heap of HeapModel.

    Big numbers live in an array of objects, 16 for each C++ object ([slot]): the 13 of its RSA context in the order of rsa.h
    (N E D P Q DP DQ QP RN RP RQ Vi Vf), then phi_, p_1_, q_1_ of TdpInverseImpl_mbedTLS.  Functions that compute (parsing,
    generating, arithmetic) are any calls on the objects they are given, with any result.  A constructor that throws ends the
    lifetime of the members that have no destructor, as mbedtls_rsa_context and mbedtls_mpi. *)
From Verif Require Import Base MpiModel HeapModel.

Section Tdp.
Context (ora : nat -> bool).
Definition objs := list hmpi.
Definition at_ (i j : nat) : nat := (16 * i + j)%nat.
(** mbedtls_mpi_copy with its return value *)
Definition copy_code (h : heap) (o : objs) (d s : nat) : outcome (heap * objs * Z) :=
  '(h, X, r) <- h_copy ora h (nth d o h_init) (nth s o h_init) ;; Ok (h, put_obj o d X, r).
(** mbedtls_rsa_free, rsa.c:599-610 *)
Definition rsa_free (h : heap) (o : objs) (i : nat) : outcome (heap * objs) :=
  run ora (map (fun j => CFree (at_ i j)) [11; 12; 10; 9; 8; 7; 6; 5; 4; 3; 2; 1; 0]%nat) h o.
(** mbedtls_rsa_copy, rsa.c:562-594 *)
Fixpoint rsa_copies (js : list nat) (h : heap) (o : objs) (d s : nat) : outcome (heap * objs * Z) :=
  match js with
  | [] => Ok (h, o, 0)
  | j :: js => '(h, o, r) <- copy_code h o (at_ d j) (at_ s j) ;; if negb (r =? 0) then Ok (h, o, r) else rsa_copies js h o d s
  end.
Definition rsa_copy (h : heap) (o : objs) (d s : nat) : outcome (heap * objs * Z) :=
  '(h, o, r) <- rsa_copies (seq 0 13) h o d s ;;
  if negb (r =? 0) then '(h, o) <- rsa_free h o d ;; Ok (h, o, r) else Ok (h, o, 0).
(** zeroize_rsa, tdp_impl_mbedtls.cpp:48-63; return values are ignored there, and RP is not in the list *)
Definition zeroize_rsa (h : heap) (o : objs) (i : nat) : outcome (heap * objs) := run ora (map (fun j => CLset (at_ i j) 0) [0; 1; 2; 3; 4; 5; 6; 7; 8; 10; 11; 12]%nat) h o.
(** ~TdpImpl_mbedTLS, tdp_impl_mbedtls.cpp:113-117 *)
Definition destroy_base (h : heap) (o : objs) (i : nat) : outcome (heap * objs) :=
  '(h, o) <- zeroize_rsa h o i ;; rsa_free h o i.
(** mbedtls_rsa_check_pubkey, rsa.c:170-188 *)
Fixpoint limbs_value (l : list Z) : Z := match l with [] => 0 | x :: l => x + 2 ^ 64 * limbs_value l end.
Definition pub_check (n e : Z) : bool :=
  Z.odd n && Z.odd e && (2 ^ 127 <=? Z.abs n) && (Z.abs n <? 2 ^ MPI_MAX_BITS) && (2 <=? Z.abs e) && (e <? n).
Definition check_pubkey (h : heap) (o : objs) (i : nat) : outcome bool :=
  let N := nth (at_ i 0) o h_init in
  let E := nth (at_ i 1) o h_init in
  if (hp N =? 0) || (hp E =? 0) then Ok false
  else
    n <- load h (hp N) (hn N) ;;
    e <- load h (hp E) (hn E) ;;
    Ok (pub_check (hs N * limbs_value n) (hs E * limbs_value e)).
(** mbedtls_pk_setup and rsa_alloc_wrap, pk.c:91-102, pk_wrap.c:64-72: the block of the context, whose fields are represented by the objects of
    slot [t]; its pointer is object 13 of that slot and
    its contents are not represented (one zero).  rsa_free_wrap, pk_wrap.c:74-78. *)
Definition pk_setup (h : heap) (o : objs) (t : nat) : outcome (heap * objs * bool) :=
  '(h, X, r) <- h_grow ora h (nth (at_ t 13) o h_init) 1 ;; Ok (h, put_obj o (at_ t 13) X, r =? 0).
Definition pk_free (h : heap) (o : objs) (t : nat) : outcome (heap * objs) :=
  '(h, o) <- rsa_free h o t ;; run ora [CFree (at_ t 13)] h o.
(** mbedtls_rsa_parse_public_key and mbedtls_rsa_parse_key, rsa_io.c:37-91: [fill] are the calls of the parser on the key; it succeeds only if the
    public key passes the check (pkparse.c:78, 262).  The return value of mbedtls_rsa_copy is ignored.  Result: whether 0 is returned. *)
Definition rsa_parse (h : heap) (o : objs) (i t : nat) (fill : list command) (ok : bool) : outcome (heap * objs * bool) :=
  '(h, o, r) <- pk_setup h o t ;;
  if negb r then Ok (h, o, false)
  else
    '(h, o) <- run ora fill h o ;;
    c <- check_pubkey h o t ;;
    if negb (ok && c) then '(h, o) <- pk_free h o t ;; Ok (h, o, false)
    else
      '(h, o, _) <- rsa_copy h o i t ;;
      '(h, o) <- pk_free h o t ;;
      Ok (h, o, true).

(** Constructors: the last component says whether an exception is thrown *)
(** TdpImpl_mbedTLS(const std::string&), tdp_impl_mbedtls.cpp:71-90 *)
Definition ctor_public (h : heap) (o : objs) (i t : nat) (fill : list command) (ok : bool) : outcome (heap * objs * bool) :=
  '(h, o, r) <- rsa_parse h o i t fill ok ;;
  if negb r then Ok (h, o, true)
  else c <- check_pubkey h o i ;; Ok (h, o, negb c).
(** TdpImpl_mbedTLS(const TdpImpl_mbedTLS&), tdp_impl_mbedtls.cpp:92-106 *)
Definition ctor_copy (h : heap) (o : objs) (i s : nat) : outcome (heap * objs * bool) :=
  '(h, o, r) <- rsa_copy h o i s ;;
  if negb (r =? 0) then Ok (h, o, true)
  else c <- check_pubkey h o i ;; Ok (h, o, negb c).
(** The end of the constructors of TdpInverseImpl_mbedTLS, tdp_impl_mbedtls.cpp:375-392, 419-436: the check, then p_1_, q_1_ and phi_ (calls and
    result of each).  The base object is destroyed if an exception is thrown. *)
Fixpoint ctor_subs (h : heap) (o : objs) (i : nat) (subs : list (list command * bool)) : outcome (heap * objs * bool) :=
  match subs with
  | [] => Ok (h, o, false)
  | (cs, ok) :: subs =>
    '(h, o) <- run ora cs h o ;;
    if negb ok then '(h, o) <- destroy_base h o i ;; Ok (h, o, true) else ctor_subs h o i subs
  end.
Definition ctor_end (h : heap) (o : objs) (i : nat) (subs : list (list command * bool)) : outcome (heap * objs * bool) :=
  c <- check_pubkey h o i ;;
  if negb c then '(h, o) <- destroy_base h o i ;; Ok (h, o, true) else ctor_subs h o i subs.
(** TdpInverseImpl_mbedTLS(), tdp_impl_mbedtls.cpp:354-393: [fill], the calls of mbedtls_rsa_gen_key *)
Definition ctor_generate (h : heap) (o : objs) (i : nat) (fill : list command) (ok : bool) (subs : list (list command * bool)) : outcome (heap * objs * bool) :=
  '(h, o) <- run ora fill h o ;;
  if negb ok then '(h, o) <- destroy_base h o i ;; Ok (h, o, true) else ctor_end h o i subs.
(** TdpInverseImpl_mbedTLS(const std::string&), tdp_impl_mbedtls.cpp:395-437 *)
Definition ctor_private (h : heap) (o : objs) (i t : nat) (fill : list command) (ok : bool) (subs : list (list command * bool)) : outcome (heap * objs * bool) :=
  '(h, o, r) <- rsa_parse h o i t fill ok ;;
  if negb r then '(h, o) <- destroy_base h o i ;; Ok (h, o, true) else ctor_end h o i subs.
(** ~TdpInverseImpl_mbedTLS, tdp_impl_mbedtls.cpp:439-448 *)
Definition destroy_private (h : heap) (o : objs) (i : nat) : outcome (heap * objs) :=
  '(h, o) <- run ora [CLset (at_ i 14) 0; CLset (at_ i 15) 0; CLset (at_ i 13) 0; CFree (at_ i 14); CFree (at_ i 15); CFree (at_ i 13)] h o ;;
  destroy_base h o i.
(** Using an object, e.g. eval and invert: calls on the cached numbers; without a key these functions fail before *)
Definition use (h : heap) (o : objs) (i : nat) (cs : list command) : outcome (heap * objs) :=
  c <- check_pubkey h o i ;; if c : bool then run ora cs h o else Ok (h, o).

(** Programs on [k] variables.  A statement that is not possible (e.g. destroying what does not exist) does nothing. *)
Inductive kind := Dead | Public | Private.
Inductive statement :=
| SPublic (i : nat) (fill : list command) (ok : bool)
| SPrivate (i : nat) (fill : list command) (ok : bool) (subs : list (list command * bool))
| SGenerate (i : nat) (fill : list command) (ok : bool) (subs : list (list command * bool))
| SCopy (i s : nat)
| SAssign (i s : nat)
| SUse (i : nat) (cs : list command)
| SDestroy (i : nat).
Record tstate := MkT { theap : heap; tobjs : objs; tlive : list kind }.
Definition set_kind (l : list kind) (i : nat) (x : kind) : list kind := firstn i l ++ x :: skipn (S i) l.
Definition kind_of (s : tstate) (i : nat) : kind := nth i (tlive s) Dead.
(** A constructor for variable [i] *)
Definition construct (s : tstate) (i : nat) (x : kind) (c : outcome (heap * objs * bool)) : outcome tstate :=
  '(h, o, thrown) <- c ;; Ok (MkT h o (if thrown : bool then tlive s else set_kind (tlive s) i x)).
Definition tstep (k : nat) (s : tstate) (c : statement) : outcome tstate :=
  let h := theap s in
  let o := tobjs s in
  match c with
  | SPublic i fill ok => match kind_of s i with Dead => construct s i Public (ctor_public h o i k fill ok) | _ => Ok s end
  | SPrivate i fill ok subs => match kind_of s i with Dead => construct s i Private (ctor_private h o i k fill ok subs) | _ => Ok s end
  | SGenerate i fill ok subs => match kind_of s i with Dead => construct s i Private (ctor_generate h o i fill ok subs) | _ => Ok s end
  | SCopy i j => match kind_of s i, kind_of s j with Dead, Public | Dead, Private => construct s i Public (ctor_copy h o i j) | _, _ => Ok s end
  | SAssign i j =>     (* TdpImpl_mbedTLS::operator=, tdp_impl_mbedtls.cpp:119-126 *)
    match kind_of s i, kind_of s j with
    | Public, Public | Public, Private => if (i =? j)%nat then Ok s else '(h, o, _) <- rsa_copy h o i j ;; Ok (MkT h o (tlive s))
    | _, _ => Ok s
    end
  | SUse i cs => match kind_of s i with Dead => Ok s | _ => '(h, o) <- use h o i cs ;; Ok (MkT h o (tlive s)) end
  | SDestroy i =>
    match kind_of s i with
    | Dead => Ok s
    | Public => '(h, o) <- destroy_base h o i ;; Ok (MkT h o (set_kind (tlive s) i Dead))
    | Private => '(h, o) <- destroy_private h o i ;; Ok (MkT h o (set_kind (tlive s) i Dead))
    end
  end.
Fixpoint trun (k : nat) (s : tstate) (cs : list statement) : outcome tstate :=
  match cs with
  | [] => Ok s
  | c :: cs => s <- tstep k s c ;; trun k s cs
  end.
End Tdp.
