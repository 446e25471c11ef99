(** Model of the memory of TdpMultPoolImpl_mbedTLS, src/tdp_impl/tdp_impl_mbedtls.cpp, on the groups of objects of TdpHeapModel.

    A pool has [S M] groups of 16 objects: its base object and up to [M] elements of keys_.  The array keys_ itself is a block whose
    pointer is object 13 of the base (its contents are the other groups).  Elements of a new array are indeterminate until mbedtls_rsa_init:
    [pinit] counts the elements that have been initialised, and using another one is undefined. *)
From Verif Require Import Base MpiModel HeapModel TdpHeapModel.

Section Pool.
Context (ora : nat -> bool) (M : nat).
Definition group (p j : nat) : nat := (p * S M + j)%nat.
Definition key (p i : nat) : nat := group p (S i).
(** new mbedtls_rsa_context[n] and delete[]; the result says whether there was memory *)
Definition new_array (h : heap) (o : objs) (p : nat) : outcome (heap * objs * bool) := pk_setup ora h o (group p 0).
Definition delete_array (h : heap) (o : objs) (p : nat) : outcome (heap * objs) := run ora [CFree (at_ (group p 0) 13)] h o.
(** The loops of tdp_impl_mbedtls.cpp:726-747, 756-767 and 786-796: copy a context (the return value is ignored), multiply its exponent ([cs]: the calls
    of mbedtls_mpi_mul_int, none when a pool is copied) and check it; the number of contexts done, and whether all checks succeeded *)
Fixpoint fill_keys (h : heap) (o : objs) (n : nat) (todo : list (nat * nat * list command)) : outcome (heap * objs * (nat * bool)) :=
  match todo with
  | [] => Ok (h, o, (n, true))
  | (d, s, cs) :: todo =>
    '(h, o, _) <- rsa_copy ora h o d s ;;
    '(h, o) <- run ora cs h o ;;
    c <- check_pubkey h o d ;;
    if c : bool then fill_keys h o (S n) todo else Ok (h, o, (S n, false))
  end.
(** zeroize_rsa and mbedtls_rsa_free on elements, tdp_impl_mbedtls.cpp:774-777, 803-806 *)
Fixpoint free_keys (h : heap) (o : objs) (gs : list nat) : outcome (heap * objs) :=
  match gs with
  | [] => Ok (h, o)
  | g :: gs => '(h, o) <- destroy_base ora h o g ;; free_keys h o gs
  end.

(** A pool that exists: keys_count_ and the number of initialised elements *)
Record pool := MkPool { pcount : nat; pinit : nat }.
Inductive pstatement :=
| PNew (p size : nat) (fill : list command) (ok : bool) (muls : list (list command))
| PCopy (p q : nat)
| PAssign (p q : nat)
| PUse (p j : nat) (cs : list command)
| PDestroy (p : nat).
(** [plate]: an exception has left a constructor or an assignment after keys_ was allocated or deleted; the program ends there *)
Record pstate := MkPS { psheap : heap; psobjs : objs; ppools : list (option pool); plate : bool }.
Definition set_pool (l : list (option pool)) (p : nat) (x : option pool) : list (option pool) := firstn p l ++ x :: skipn (S p) l.
Definition pool_of (s : pstate) (p : nat) : option pool := nth p (ppools s) None.
Definition keys (p n : nat) : list nat := map (key p) (seq 0 n).
(** The end of both constructors: keys_ is allocated and filled *)
Definition pool_keys (s : pstate) (h : heap) (o : objs) (p n : nat) (todo : list (nat * nat * list command)) : outcome pstate :=
  '(h, o, got) <- new_array h o p ;;
  if negb got then '(h, o) <- destroy_base ora h o (group p 0) ;; Ok (MkPS h o (ppools s) false)
  else
    '(h, o, (m, good)) <- fill_keys h o 0 todo ;;
    if good : bool then Ok (MkPS h o (set_pool (ppools s) p (Some (MkPool n n))) false)
    else '(h, o) <- destroy_base ora h o (group p 0) ;; Ok (MkPS h o (ppools s) true).
Definition pstep (k : nat) (s : pstate) (c : pstatement) : outcome pstate :=
  let h := psheap s in
  let o := psobjs s in
  match c with
  | PNew p size fill ok muls =>     (* tdp_impl_mbedtls.cpp:715-748 *)
    match pool_of s p with
    | Some _ => Ok s
    | None =>
      '(h, o, thrown) <- ctor_public ora h o (group p 0) (k * S M) fill ok ;;
      if thrown : bool then Ok (MkPS h o (ppools s) false)
      else if (size =? 0)%nat then '(h, o) <- destroy_base ora h o (group p 0) ;; Ok (MkPS h o (ppools s) false)
      else
        let n := (size - 1)%nat in
        if (n =? 0)%nat then UB      (* keys_[0] of an array without elements *)
        else pool_keys s h o p n (map (fun i => (key p i, group p i, nth i muls [])) (seq 0 n))
    end
  | PCopy p q =>     (* tdp_impl_mbedtls.cpp:750-768 *)
    match pool_of s p, pool_of s q with
    | None, Some y =>
      '(h, o, thrown) <- ctor_copy ora h o (group p 0) (group q 0) ;;
      if thrown : bool then Ok (MkPS h o (ppools s) false)
      else if negb (pcount y =? pinit y)%nat then UB
      else pool_keys s h o p (pcount y) (map (fun i => (key p i, key q i, [])) (seq 0 (pcount y)))
    | _, _ => Ok s
    end
  | PAssign p q =>     (* tdp_impl_mbedtls.cpp:770-799 *)
    match pool_of s p, pool_of s q with
    | Some x, Some y =>
      if (p =? q)%nat then Ok s
      else if negb (pcount x =? pinit x)%nat || negb (pcount y =? pinit y)%nat then UB
      else
        '(h, o) <- free_keys h o (keys p (pcount x)) ;;
        '(h, o, got) <- (if negb (pcount x =? pcount y)%nat then '(h, o) <- delete_array h o p ;; new_array h o p else Ok (h, o, true)) ;;
        let same := (pcount x =? pcount y)%nat in
        if negb got then Ok (MkPS h o (set_pool (ppools s) p (Some (MkPool (pcount y) 0))) true)
        else
          '(h, o, (m, good)) <- fill_keys h o 0 (map (fun i => (key p i, key q i, [])) (seq 0 (pcount y))) ;;
          Ok (MkPS h o (set_pool (ppools s) p (Some (MkPool (pcount y) (if same then pcount y else m)))) (negb good))
    | _, _ => Ok s
    end
  | PUse p j cs =>
    match pool_of s p with
    | Some x => if (j <=? pinit x)%nat then '(h, o) <- use ora h o (group p j) cs ;; Ok (MkPS h o (ppools s) false) else Ok s
    | None => Ok s
    end
  | PDestroy p =>     (* tdp_impl_mbedtls.cpp:801-808 *)
    match pool_of s p with
    | Some x =>
      if negb (pcount x =? pinit x)%nat then UB
      else
        '(h, o) <- free_keys h o (keys p (pcount x)) ;;
        '(h, o) <- delete_array h o p ;;
        '(h, o) <- destroy_base ora h o (group p 0) ;;
        Ok (MkPS h o (set_pool (ppools s) p None) false)
    | None => Ok s
    end
  end.
Fixpoint prun (k : nat) (s : pstate) (cs : list pstatement) : outcome pstate :=
  match cs with
  | [] => Ok s
  | c :: cs => s <- pstep k s c ;; if plate s then Ok s else prun k s cs
  end.
End Pool.
