(** Model of Wrapper::wrap and unwrap (src/include/sse/crypto/wrapper.hpp) when secure memory may be exhausted.
    What is computed is as in [WrapperModel]. *)
From Verif Require Import Base KeyVal HmacModel WrapperModel.

Section WrapAlloc.
  Variable H : bytes -> bytes.
  Variable stream : bytes -> bytes -> nat -> bytes.
  Variable ml : bool.
  Variable g : Z -> bytes.
  (** sodium_malloc(n) returns a block, and not a null pointer *)
  Variable alloc : Z -> bool.

  (** wrapper.hpp:199-207: the result of sodium_malloc is given to random_bytes without a test; writing the 16 bytes
      of the IV to a null pointer is undefined *)
  Definition wrap_a (C : wclass) (w : wrapper) (c : w_obj C) (iv : bytes) : w_obj C * wret bytes :=
    match w_size C c with
    | Ok serialized_size =>
      let buffer_size := u64 (kRandomIVSize + serialized_size + zlen (w_ctx C) + 1) in
      if alloc buffer_size then wrap H stream ml g C w c iv else (c, (w, None, UB))
    | Throw e => (c, (w, None, Throw e))
    | _ => (c, (w, None, UB))
    end.

  (** wrapper.hpp:251-264: the length is tested first; memcpy of the IV to the result of sodium_malloc *)
  Definition unwrap_a (C : wclass) (w : wrapper) (c_rep : bytes) : bytes * wret (w_obj C) :=
    let size := zlen c_rep in
    if size <=? w_kCiphertextExpansion then (c_rep, (w, None, Throw InvalidArgument))
    else
      let data_size := size - w_kCiphertextExpansion in
      let buffer_size := u64 (kRandomIVSize + data_size + zlen (w_ctx C) + 1) in
      if alloc buffer_size then unwrap H stream ml g C w c_rep else (c_rep, (w, None, UB)).
End WrapAlloc.

Section Many.
  Variable H : bytes -> bytes.
  Variable stream : bytes -> bytes -> nat -> bytes.
  Variable ml : bool.
  Variable g : Z -> bytes.
  (** How much secure memory there is *)
  Variable cap : Z.

  (** One representation after the other; [used]: the secure memory in use.  A buffer that a call does not free stays in use.
      Simplification: a block takes as much of the memory as was asked for, and the memory of the returned objects is not counted.
      The outcomes, until the first that is undefined or ends the program *)
  Fixpoint unwraps (C : wclass) (w : wrapper) (used : Z) (l : list bytes) : list (outcome (w_obj C)) :=
    match l with
    | [] => []
    | r :: l =>
      match unwrap_a H stream ml g (fun n => used + n <=? cap) C w r with
      | (_, (w, lk, o)) =>
        let used := match lk with Some b => used + zlen b | None => used end in
        o :: match o with Ok _ | Throw _ => unwraps C w used l | _ => [] end
      end
    end.
End Many.
