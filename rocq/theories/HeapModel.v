(** Memory of src/mbedtls: a heap of blocks, and the functions of bignum.c that allocate and release limbs.

    A block is a list of numbers (limbs, bytes or the fields of a struct); its address is a number other than zero (NULL), and
    no address is used twice.  [ora k] says whether the k-th call of mbedtls_calloc succeeds; an allocation of size zero that
    succeeds is a block without contents.  Reading, writing or releasing something that is not allocated is [UB]. *)
From Verif Require Import Base MpiModel.

Record heap := MkHeap {
  cells : list (Z * list Z);   (* the allocated blocks *)
  next_addr : Z;
  calls : nat;                 (* calls of mbedtls_calloc so far *)
  released : list (list Z)     (* what the released blocks contained, the last one first *)
}.
Definition with_cells (h : heap) (c : list (Z * list Z)) : heap := MkHeap c (next_addr h) (calls h) (released h).
Fixpoint lookup (c : list (Z * list Z)) (a : Z) : option (list Z) :=
  match c with
  | [] => None
  | (x, l) :: c => if x =? a then Some l else lookup c a
  end.
Fixpoint store (c : list (Z * list Z)) (a : Z) (l : list Z) : list (Z * list Z) :=
  match c with
  | [] => []
  | (x, l0) :: c => if x =? a then (x, l) :: c else (x, l0) :: store c a l
  end.
Fixpoint remove (c : list (Z * list Z)) (a : Z) : list (Z * list Z) :=
  match c with
  | [] => []
  | (x, l) :: c => if x =? a then c else (x, l) :: remove c a
  end.
(** The [n] numbers at the start of a block, and an assignment to them *)
Definition load (h : heap) (a : Z) (n : nat) : outcome (list Z) :=
  match lookup (cells h) a with
  | Some l => if (n <=? length l)%nat then Ok (firstn n l) else UB
  | None => UB
  end.
Definition save (h : heap) (a : Z) (d : list Z) : outcome heap :=
  match lookup (cells h) a with
  | Some l => if (length d <=? length l)%nat then Ok (with_cells h (store (cells h) a (d ++ skipn (length d) l))) else UB
  | None => UB
  end.
(** free *)
Definition release (h : heap) (a : Z) : outcome heap :=
  if a =? 0 then Ok h
  else match lookup (cells h) a with
    | Some l => Ok (MkHeap (remove (cells h) a) (next_addr h) (calls h) (l :: released h))
    | None => UB
    end.

Section Heap.
Context (ora : nat -> bool).
(** calloc *)
Definition calloc (h : heap) (n : nat) : Z * heap :=
  if ora (calls h) then (next_addr h, MkHeap ((next_addr h, repeat 0 n) :: cells h) (next_addr h + 1) (S (calls h)) (released h))
  else (0, MkHeap (cells h) (next_addr h) (S (calls h)) (released h)).

(** * Big numbers *)
(** mbedtls_mpi, bignum.h:181-187 *)
Record hmpi := MkH { hs : Z; hn : nat; hp : Z }.
(** mbedtls_mpi_init, bignum.c:83-91 *)
Definition h_init : hmpi := MkH 1 0 0.
(** mbedtls_mpi_zeroize, bignum.c:63-65 *)
Definition zeroize (h : heap) (a : Z) (n : nat) : outcome heap := save h a (repeat 0 n).
(** mbedtls_mpi_free, bignum.c:96-110 *)
Definition h_free (h : heap) (X : hmpi) : outcome (heap * hmpi) :=
  h <- (if negb (hp X =? 0) then h <- zeroize h (hp X) (hn X) ;; release h (hp X) else Ok h) ;;
  Ok (h, h_init).
(** mbedtls_mpi_grow, bignum.c:115-139: heap, object and return value *)
Definition h_grow (h : heap) (X : hmpi) (n : nat) : outcome (heap * hmpi * Z) :=
  if MPI_MAX_LIMBS <? Z.of_nat n then Ok (h, X, ERR_MPI_ALLOC_FAILED)
  else if (hn X <? n)%nat then
    let '(p, h) := calloc h n in
    if p =? 0 then Ok (h, X, ERR_MPI_ALLOC_FAILED)
    else
      h <- (if negb (hp X =? 0) then
              d <- load h (hp X) (hn X) ;;
              h <- save h p d ;;
              h <- zeroize h (hp X) (hn X) ;;
              release h (hp X)
            else Ok h) ;;
      Ok (h, MkH (hs X) n p, 0)
  else Ok (h, X, 0).
(** The loops of bignum.c:155-158 and 196-199 on the limbs [l]: the number of limbs without leading zeros, at least one *)
Fixpoint used (i : nat) (l : list Z) : nat :=
  match i with
  | O => 1%nat
  | S k => if nth i l 0 =? 0 then used k l else S i
  end.
(** mbedtls_mpi_shrink, bignum.c:146-177 *)
Definition h_shrink (h : heap) (X : hmpi) (n : nat) : outcome (heap * hmpi * Z) :=
  if (hn X <=? n)%nat then h_grow h X n
  else
    l <- load h (hp X) (hn X) ;;
    let i := used (hn X - 1) l in
    let i := if (i <? n)%nat then n else i in
    let '(p, h) := calloc h i in
    if p =? 0 then Ok (h, X, ERR_MPI_ALLOC_FAILED)
    else
      h <- (if negb (hp X =? 0) then
              d <- load h (hp X) i ;;
              h <- save h p d ;;
              h <- zeroize h (hp X) (hn X) ;;
              release h (hp X)
            else Ok h) ;;
      Ok (h, MkH (hs X) i p, 0).
(** mbedtls_mpi_copy, bignum.c:182-211, for X != Y; the sign of X is assigned before the allocation *)
Definition h_copy (h : heap) (X Y : hmpi) : outcome (heap * hmpi * Z) :=
  if hp Y =? 0 then '(h, X) <- h_free h X ;; Ok (h, X, 0)
  else
    l <- load h (hp Y) (hn Y) ;;
    let i := used (hn Y - 1) l in
    '(h, X, ret) <- h_grow h (MkH (hs Y) (hn X) (hp X)) i ;;
    if negb (ret =? 0) then Ok (h, X, ret)
    else
      h <- save h (hp X) (repeat 0 (hn X)) ;;
      d <- load h (hp Y) i ;;
      h <- save h (hp X) d ;;
      Ok (h, X, 0).
(** mbedtls_mpi_lset, bignum.c:296-309 *)
Definition h_lset (h : heap) (X : hmpi) (z : Z) : outcome (heap * hmpi * Z) :=
  '(h, X, ret) <- h_grow h X 1 ;;
  if negb (ret =? 0) then Ok (h, X, ret)
  else
    h <- save h (hp X) (repeat 0 (hn X)) ;;
    a <- (if z =? - 2 ^ 63 then UB else Ok (Z.abs z)) ;;
    h <- save h (hp X) [a] ;;
    Ok (h, MkH (if z <? 0 then -1 else 1) (hn X) (hp X), 0).

(** Calls on a set of objects.  Everything else in bignum.c changes limbs in place or calls these functions (calloc and free
    appear in bignum.c:104, 124, 131, 163 and 170 only): [CWrite], any assignment to the limbs of an object. *)
Inductive command :=
| CGrow (i n : nat) | CShrink (i n : nat) | CCopy (i j : nat) | CSwap (i j : nat) | CLset (i : nat) (z : Z) | CFree (i : nat) | CWrite (i : nat) (d : list Z).
Definition put_obj (o : list hmpi) (i : nat) (X : hmpi) : list hmpi := firstn i o ++ X :: skipn (S i) o.
Definition run1 (c : command) (h : heap) (o : list hmpi) : outcome (heap * list hmpi) :=
  let obj i := nth i o h_init in
  match c with
  | CGrow i n => '(h, X, _) <- h_grow h (obj i) n ;; Ok (h, put_obj o i X)
  | CShrink i n => '(h, X, _) <- h_shrink h (obj i) n ;; Ok (h, put_obj o i X)
  | CCopy i j => if (i =? j)%nat then Ok (h, o) else '(h, X, _) <- h_copy h (obj i) (obj j) ;; Ok (h, put_obj o i X)
  | CSwap i j => Ok (h, put_obj (put_obj o i (obj j)) j (obj i))
  | CLset i z => '(h, X, _) <- h_lset h (obj i) z ;; Ok (h, put_obj o i X)
  | CFree i => '(h, X) <- h_free h (obj i) ;; Ok (h, put_obj o i X)
  | CWrite i d => if (length d =? hn (obj i))%nat && negb (hn (obj i) =? 0)%nat then h <- save h (hp (obj i)) d ;; Ok (h, o) else Ok (h, o)
  end.
Fixpoint run (cs : list command) (h : heap) (o : list hmpi) : outcome (heap * list hmpi) :=
  match cs with
  | [] => Ok (h, o)
  | c :: cs => '(h, o) <- run1 c h o ;; run cs h o
  end.
End Heap.
