(** Model of src/set_hash.cpp.  The Ed25519 functions of libsodium are a parameter, described by [ed25519]. *)
From Verif Require Import Base HmacModel.

(** libsodium's crypto_core_ed25519_*: the curve group, the decoding and encoding of points and the validity test.
    The functions [add]/[sub] on byte strings are those of [ed_add]/[ed_sub] below. *)
Record ed25519 := {
  point : Type;
  pzero : point; padd : point -> point -> point; popp : point -> point;
  penc : point -> bytes;                 (* ge25519_p3_tobytes *)
  pdec : bytes -> option point;          (* ge25519_frombytes + on-curve test *)
  is_valid : bytes -> bool;              (* crypto_core_ed25519_is_valid_point *)
  from_uniform : bytes -> bytes          (* crypto_core_ed25519_from_uniform *)
}.

Section SetHash.
  Variable E : ed25519.
  Variable H : bytes -> bytes.   (* BLAKE2b *)

  (** crypto_core_ed25519_add(r, p, q): decodes both points and writes r, or returns -1 leaving r unchanged; the return value
      is ignored by set_hash.cpp. *)
  Definition ed_add (r p q : bytes) : bytes :=
    match pdec E p, pdec E q with
    | Some a, Some b => penc E (padd E a b)
    | _, _ => r
    end.
  Definition ed_sub (r p q : bytes) : bytes :=
    match pdec E p, pdec E q with
    | Some a, Some b => penc E (padd E a (popp E b))
    | _, _ => r
    end.

  (** kECInfinitePoint set_hash.hpp:58-61 *)
  Definition kECInfinitePoint : bytes := 1 :: zeros 31.

  (** SetHash(bytes) set_hash.cpp:45-55 *)
  Definition sh_from_bytes (b : bytes) : outcome bytes :=
    if negb (is_valid E b) && negb (bytes_eqb b kECInfinitePoint) then Throw InvalidArgument else Ok b.

  (** gen_curve_point set_hash.cpp:107-116 ([g1], [g2]: uninitialised arrays) *)
  Definition gen_curve_point (g1 g2 : bytes) (s : bytes) : outcome bytes :=
    h <- hash_trunc H (Some s) (zlen s) 32 (Some g1) g2 ;; Ok (from_uniform E h).

  (** add_element set_hash.cpp:118-126, remove_element 135-143, add_set 128-133, remove_set 145-150 *)
  Definition sh_add_element (g1 g2 st : bytes) (s : bytes) : outcome bytes :=
    p <- gen_curve_point g1 g2 s ;; Ok (ed_add st st p).
  Definition sh_remove_element (g1 g2 st : bytes) (s : bytes) : outcome bytes :=
    p <- gen_curve_point g1 g2 s ;; Ok (ed_sub st st p).
  Definition sh_add_set (st h : bytes) : bytes := ed_add st st h.
  Definition sh_remove_set (st h : bytes) : bytes := ed_sub st st h.

  (** SetHash(vector) set_hash.cpp:58-69 *)
  Fixpoint sh_from_vector_loop (g1 g2 st : bytes) (l : list bytes) : outcome bytes :=
    match l with
    | [] => Ok st
    | s :: l' => p <- gen_curve_point g1 g2 s ;; sh_from_vector_loop g1 g2 (ed_add st st p) l'
    end.
  Definition sh_from_vector (g1 g2 : bytes) (l : list bytes) : outcome bytes := sh_from_vector_loop g1 g2 kECInfinitePoint l.

  (** operator== set_hash.cpp:95-100 (sodium_memcmp on 32 bytes), operator!= 102-105 *)
  Definition sh_eq (a b : bytes) : bool := bytes_eqb (firstn 32 a) (firstn 32 b).
  Definition sh_ne (a b : bytes) : bool := negb (sh_eq a b).

  (** Programs over SetHash variables. *)
  Inductive sh_op :=
  | OpNew (i : nat)                       (* SetHash() set_hash.hpp:75 *)
  | OpVector (i : nat) (l : list bytes)   (* SetHash(vector) *)
  | OpData (i j : nat)                    (* SetHash(j.data()) *)
  | OpCopy (i j : nat)                    (* copy/move constructor, assignment: set_hash.hpp:92,97,181 *)
  | OpAdd (i : nat) (s : bytes)
  | OpRemove (i : nat) (s : bytes)
  | OpAddSet (i j : nat)
  | OpRemoveSet (i j : nat).

  Definition sh_store := nat -> option bytes.
  Definition sh_set (st : sh_store) (i : nat) (b : bytes) : sh_store := fun k => if Nat.eqb k i then Some b else st k.
  (** using a variable that has no value is a program error *)
  Definition sh_get (st : sh_store) (i : nat) : outcome bytes := match st i with Some b => Ok b | None => UB end.

  Definition sh_step (g1 g2 : bytes) (st : sh_store) (o : sh_op) : outcome sh_store :=
    match o with
    | OpNew i => Ok (sh_set st i kECInfinitePoint)
    | OpVector i l => b <- sh_from_vector g1 g2 l ;; Ok (sh_set st i b)
    | OpData i j => a <- sh_get st j ;; b <- sh_from_bytes a ;; Ok (sh_set st i b)
    | OpCopy i j => a <- sh_get st j ;; Ok (sh_set st i a)
    | OpAdd i s => a <- sh_get st i ;; b <- sh_add_element g1 g2 a s ;; Ok (sh_set st i b)
    | OpRemove i s => a <- sh_get st i ;; b <- sh_remove_element g1 g2 a s ;; Ok (sh_set st i b)
    | OpAddSet i j => a <- sh_get st i ;; h <- sh_get st j ;; Ok (sh_set st i (sh_add_set a h))
    | OpRemoveSet i j => a <- sh_get st i ;; h <- sh_get st j ;; Ok (sh_set st i (sh_remove_set a h))
    end.
  Fixpoint sh_run (g1 g2 : bytes) (st : sh_store) (p : list sh_op) : outcome sh_store :=
    match p with
    | [] => Ok st
    | o :: p' => st' <- sh_step g1 g2 st o ;; sh_run g1 g2 st' p'
    end.
  Definition sh_empty : sh_store := fun _ => None.
End SetHash.
