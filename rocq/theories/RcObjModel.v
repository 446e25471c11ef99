(** Model of programs with several ConstrainedRCPrf objects: src/include/sse/crypto/rcprf.hpp, with the functions of [RcprfModel].
    Simplifications: the objects exist from the beginning, as objects that were moved away (there is no other way to have an object
    without elements, except [constrain] with a reversed range); a destroyed object is one without elements. *)
From Verif Require Import Base KeyVal RcprfModel.

(** An operation of the program *)
Inductive rop :=
| RConstrain (d r : nat) (lo hi : Z)   (* d = root r.constrain(lo, hi) *)
| RSub (d s : nat) (lo hi : Z)         (* d = s.constrain(lo, hi) *)
| RMove (d s : nat)                    (* d = std::move(s) *)
| RDestroy (s : nat)
| REval (s : nat) (leaf : Z)
| RRange (s : nat) (mn mx : Z).
(** What the caller sees: values given to the callback, and how the call ends *)
Record rres := mk_rres { rr_values : list (Z * bytes); rr_end : outcome unit }.
Definition one_value (leaf : Z) (o : outcome bytes) : rres :=
  match o with
  | Ok v => mk_rres [(leaf, v)] (Ok tt)
  | Throw e => mk_rres [] (Throw e)
  | UB => mk_rres [] UB | Abort => mk_rres [] Abort | Diverge => mk_rres [] Diverge
  end.
Record rstate := mk_rstate { rs_roots : nat -> rcprf; rs_objs : nat -> crcprf }.
Definition set_at {A} (f : nat -> A) (i : nat) (a : A) : nat -> A := fun j => if Nat.eqb j i then a else f j.

Section RcObj.
  Variable blk : bytes -> Z -> bytes.
  Variable ml dbg : bool.
  Variable NBYTES : Z.
  Variable gN gK : bytes.

  (** The move assignment, rcprf.hpp:1204-1211: the height is copied, std::vector moves its elements.  Moving a vector to itself
      leaves it empty in libstdc++ (the standard leaves its content unspecified) *)
  Definition c_move (f : nat -> crcprf) (d s : nat) : nat -> crcprf :=
    let h := c_height (f s) in
    let els := c_elts (f s) in
    set_at (set_at f d (mk_crcprf h els)) s (mk_crcprf h []).
  (** The temporary object that constrain returns is moved to [d] *)
  Definition c_store (f : nat -> crcprf) (d : nat) (o : outcome crcprf) : (nat -> crcprf) * rres :=
    match o with
    | Ok c => (set_at f d (mk_crcprf (c_height c) (c_elts c)), mk_rres [] (Ok tt))
    | Throw e => (f, mk_rres [] (Throw e))
    | UB => (f, mk_rres [] UB) | Abort => (f, mk_rres [] Abort) | Diverge => (f, mk_rres [] Diverge)
    end.
  Definition r_step (st : rstate) (op : rop) : rstate * rres :=
    match op with
    | RConstrain d r lo hi =>
      let (k, o) := rc_constrain blk ml dbg NBYTES gN gK (rs_roots st r) lo hi in
      let (f, x) := c_store (rs_objs st) d o in
      (mk_rstate (set_at (rs_roots st) r k) f, x)
    | RSub d s lo hi =>
      let (c, o) := c_constrain blk ml dbg NBYTES gN gK (rs_objs st s) lo hi in
      let (f, x) := c_store (set_at (rs_objs st) s c) d o in
      (mk_rstate (rs_roots st) f, x)
    | RMove d s => (mk_rstate (rs_roots st) (c_move (rs_objs st) d s), mk_rres [] (Ok tt))
    | RDestroy s => (mk_rstate (rs_roots st) (set_at (rs_objs st) s (mk_crcprf (c_height (rs_objs st s)) [])), mk_rres [] (Ok tt))
    | REval s leaf =>
      let (c, o) := c_eval blk ml dbg NBYTES gN gK (rs_objs st s) leaf in
      (mk_rstate (rs_roots st) (set_at (rs_objs st) s c), one_value leaf o)
    | RRange s mn mx =>
      match c_eval_range blk ml dbg NBYTES gN gK (rs_objs st s) mn mx with
      | (c, l, o) => (mk_rstate (rs_roots st) (set_at (rs_objs st) s c), mk_rres l o)
      end
    end.
  Fixpoint r_run (st : rstate) (l : list rop) : rstate * list rres :=
    match l with
    | [] => (st, [])
    | op :: l => let (st, x) := r_step st op in let (st, xs) := r_run st l in (st, x :: xs)
    end.
End RcObj.
