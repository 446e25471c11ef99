(** Common vocabulary of the models: bytes, machine integers, outcomes, bounds-checked buffers.
    No proofs here (see BaseFacts.v). *)
From Coq Require Export List ZArith Bool.
Export ListNotations.
Global Open Scope Z_scope.
Global Arguments Z.of_nat : simpl never.
Global Arguments Z.to_nat : simpl never.
Global Arguments Z.mul : simpl never.
Global Arguments Z.add : simpl never.
Global Arguments Z.sub : simpl never.
Global Arguments Z.pow : simpl never.
Global Arguments Z.modulo : simpl never.
Global Arguments Z.div : simpl never.

(** C++ exception classes thrown by the library. *)
Inductive exn := InvalidArgument | OutOfRange | RuntimeError | LogicError | BadAlloc.

(** What a call of a C++ function can lead to.  [UB] is undefined behaviour, [Abort] a failed
    [assert] (debug builds), [Diverge] a loop that never ends. *)
Inductive outcome (A : Type) :=
| Ok (a : A)
| Throw (e : exn)
| UB
| Abort
| Diverge.
Arguments Ok {A} _. Arguments Throw {A} _. Arguments UB {A}. Arguments Abort {A}. Arguments Diverge {A}.

Definition bind {A B} (x : outcome A) (f : A -> outcome B) : outcome B :=
  match x with
  | Ok a => f a
  | Throw e => Throw e
  | UB => UB
  | Abort => Abort
  | Diverge => Diverge
  end.
Notation "x <- e ;; k" := (bind e (fun x => k)) (at level 61, e at next level, right associativity).
Notation "' pat <- e ;; k" := (bind e (fun x => match x with pat => k end))
  (at level 61, pat pattern, e at next level, right associativity).

(** [assert(c)] in build mode [dbg] ([true]: asserts active, [false]: NDEBUG). *)
Definition cassert {A} (dbg c : bool) (k : outcome A) : outcome A :=
  if c then k else if dbg then Abort else k.

(** Unsigned machine integers. *)
Definition u8 (x : Z) : Z := x mod 2 ^ 8.
Definition u16 (x : Z) : Z := x mod 2 ^ 16.
Definition u32 (x : Z) : Z := x mod 2 ^ 32.
Definition u64 (x : Z) : Z := x mod 2 ^ 64.
Definition SIZE_MAX : Z := 2 ^ 64 - 1.
Definition UINT64_MAX : Z := 2 ^ 64 - 1.

(** Bytes and byte strings. *)
Definition is_byte (b : Z) : Prop := 0 <= b < 256.
Definition is_byteb (b : Z) : bool := (0 <=? b) && (b <? 256).
Notation bytes := (list Z).
Definition is_bytes (l : bytes) : Prop := Forall is_byte l.
Definition zlen {A} (l : list A) : Z := Z.of_nat (length l).
Definition zeros (n : nat) : bytes := repeat 0 n.

(** Equality of byte strings. *)
Fixpoint bytes_eqb (a b : bytes) : bool :=
  match a, b with
  | [], [] => true
  | x :: a', y :: b' => (x =? y) && bytes_eqb a' b'
  | _, _ => false
  end.

(** Pointwise xor of two byte strings; the result has the length of the shorter one. *)
Fixpoint xorb_list (a b : bytes) : bytes :=
  match a, b with
  | x :: a', y :: b' => Z.lxor x y :: xorb_list a' b'
  | _, _ => []
  end.

(** [window l o n] : the [n] elements of [l] starting at offset [o] (shorter at the end of the list). *)
Definition window {A} (l : list A) (o n : nat) : list A := firstn n (skipn o l).

(** Bounds-checked memory accesses on a buffer: outside of the buffer, undefined behaviour. *)
Definition rd (buf : bytes) (pos n : Z) : outcome bytes :=
  if (0 <=? pos) && (0 <=? n) && (pos + n <=? zlen buf)
  then Ok (window buf (Z.to_nat pos) (Z.to_nat n)) else UB.
Definition rd1 (buf : bytes) (pos : Z) : outcome Z :=
  if (0 <=? pos) && (pos <? zlen buf)
  then match nth_error buf (Z.to_nat pos) with Some b => Ok b | None => UB end else UB.
Definition wr (buf : bytes) (pos : Z) (data : bytes) : outcome bytes :=
  if (0 <=? pos) && (pos + zlen data <=? zlen buf)
  then Ok (firstn (Z.to_nat pos) buf ++ data ++ skipn (Z.to_nat pos + length data) buf) else UB.

(** Big-endian and little-endian encodings of integers. *)
Fixpoint le_encode (n : nat) (x : Z) : bytes :=
  match n with
  | O => []
  | S n' => x mod 256 :: le_encode n' (x / 256)
  end.
Fixpoint le_decode (l : bytes) : Z :=
  match l with
  | [] => 0
  | b :: l' => b + 256 * le_decode l'
  end.
Definition be_encode (n : nat) (x : Z) : bytes := rev (le_encode n x).
Definition be_decode (l : bytes) : Z := le_decode (rev l).
