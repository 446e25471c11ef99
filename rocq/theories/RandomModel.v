(** Model of src/random.cpp and src/include/sse/crypto/random.hpp on the heap of HeapModel.

    [src] are the bytes libsodium's randombytes_buf gives out, one after the other; the state counts those already given.  [ora k]
    says whether the k-th allocation succeeds (operator new[] and the storage of std::string). *)
From Verif Require Import Base HeapModel.

Section Random.
Context (src : nat -> Z) (ora : nat -> bool).
Record rstate := MkR { rheap : heap; rpos : nat }.
(** random_bytes(byte_count, out), random.cpp:29-32; [out] points to position [off] of the block [p] *)
Definition random_bytes (s : rstate) (p : Z) (off n : nat) : outcome rstate :=
  match lookup (cells (rheap s)) p with
  | Some l =>
    if (off + n <=? length l)%nat then
      Ok (MkR (with_cells (rheap s) (store (cells (rheap s)) p (firstn off l ++ map src (seq (rpos s) n) ++ skipn (off + n) l))) (rpos s + n))
    else UB
  | None => UB
  end.
(** random_bytes(std::array<T, N>&), random.hpp:52-57; [size]: sizeof(T) *)
Definition random_array (s : rstate) (p : Z) (size N : nat) : outcome rstate := random_bytes s p 0 (N * size).
(** random_bytes<T, N>(), random.hpp:66-73: the array is a local object, here a block that exists during the call *)
Definition random_new_array (s : rstate) (size N : nat) : outcome (rstate * bytes) :=
  let h := rheap s in
  let p := next_addr h in
  s1 <- random_bytes (MkR (MkHeap ((p, repeat 0 (N * size)) :: cells h) (p + 1) (calls h) (released h)) (rpos s)) p 0 (N * size) ;;
  match lookup (cells (rheap s1)) p with
  | Some out => Ok (MkR (with_cells (rheap s1) (remove (cells (rheap s1)) p)) (rpos s1), out)
  | None => UB
  end.
(** The constructor of std::string from [n] characters: up to 15 are stored in the object itself; else there is an allocation that may fail *)
Definition string_storage (h : heap) (n : nat) : bool * heap :=
  if (n <=? 15)%nat then (true, h) else (ora (calls h), MkHeap (cells h) (next_addr h) (S (calls h)) (released h)).
(** random_string, random.hpp:83-92: the string, or None for std::bad_alloc *)
Definition random_string (s : rstate) (n : nat) : outcome (rstate * option bytes) :=
  let '(tmp, h) := calloc ora (rheap s) n in
  if tmp =? 0 then Ok (MkR h (rpos s), None)
  else
    s <- random_bytes (MkR h (rpos s)) tmp 0 n ;;
    let '(ok, h) := string_storage (rheap s) n in
    if ok : bool then
      out <- load h tmp n ;;
      h <- release h tmp ;;
      Ok (MkR h (rpos s), Some out)
    else Ok (MkR h (rpos s), None).
(** mbedTLS_rng_wrap, random.hpp:104-110 *)
Definition rng_wrap (s : rstate) (p : Z) (off n : nat) : outcome (rstate * Z) := s <- random_bytes s p off n ;; Ok (s, 0).

(** Several requests; what each gave *)
Inductive request := QArray (size N : nat) | QString (n : nat).
Definition ask1 (s : rstate) (q : request) : outcome (rstate * option bytes) :=
  match q with
  | QArray size N => '(s, d) <- random_new_array s size N ;; Ok (s, Some d)
  | QString n => random_string s n
  end.
Fixpoint ask (s : rstate) (qs : list request) : outcome (rstate * list (option bytes)) :=
  match qs with
  | [] => Ok (s, [])
  | q :: qs => '(s, d) <- ask1 s q ;; '(s, ds) <- ask s qs ;; Ok (s, d :: ds)
  end.
End Random.
