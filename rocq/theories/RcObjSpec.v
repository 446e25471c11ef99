(** Specification of programs with constrained keys: an object holds a range of the leaves of one tree, or nothing. *)
From Verif Require Import Base KeyVal RcprfModel RcprfSpec RcObjModel.

Section Spec.
  Variable blk : bytes -> Z -> bytes.
  Variable NBYTES : Z.
  (** The trees: heights and root keys *)
  Variable height : nat -> Z.
  Variable root : nat -> bytes.

  (** The tree and the range that an object holds *)
  Definition holding := nat -> option (nat * Z * Z).
  Definition now (f : holding) (i : nat) (x : option (nat * Z * Z)) : holding := fun j => if Nat.eqb j i then x else f j.
  Definition done : rres := mk_rres [] (Ok tt).
  Definition refuse : rres := mk_rres [] (Throw OutOfRange).
  Definition s_step (f : holding) (op : rop) : holding * rres :=
    match op with
    | RConstrain d r lo hi =>
      if (2 ^ (height r - 1) <=? hi) || ((lo =? 0) && (hi =? 2 ^ (height r - 1) - 1)) then (f, refuse) else (now f d (Some (r, lo, hi)), done)
    | RSub d s lo hi =>
      match f s with
      | Some (r, a, b) => if (a <=? lo) && (hi <=? b) then (now f d (Some (r, lo, hi)), done) else (f, refuse)
      | None => (f, refuse)
      end
    | RMove d s => if Nat.eqb d s then (f, done) else (now (now f s None) d (f s), done)
    | RDestroy s => (now f s None, done)
    | REval s leaf =>
      (f, match f s with
          | Some (r, a, b) => if (a <=? leaf) && (leaf <=? b) then mk_rres [(leaf, leaf_value blk NBYTES (root r) (height r) leaf)] (Ok tt) else refuse
          | None => refuse
          end)
    | RRange s mn mx =>
      (f, match f s with
          | Some (r, a, b) => if (a <=? mn) && (mx <=? b) then mk_rres (leaves blk NBYTES (root r) (height r) mn mx) (Ok tt) else refuse
          | None => refuse
          end)
    end.
  Fixpoint s_run (f : holding) (l : list rop) : holding * list rres :=
    match l with
    | [] => (f, [])
    | op :: l => let (f, x) := s_step f op in let (f, xs) := s_run f l in (f, x :: xs)
    end.
  (** Ranges are not reversed *)
  Definition sensible (op : rop) : Prop :=
    match op with
    | RConstrain _ _ lo hi | RSub _ _ lo hi | RRange _ lo hi => 0 <= lo <= hi
    | REval _ leaf => 0 <= leaf
    | RMove _ _ | RDestroy _ => True
    end.
  Definition to_itself (op : rop) : Prop := match op with RMove d s => d = s | _ => False end.
  (** What the objects hold in memory: subtrees of their range only, and nothing if they hold no range *)
  Definition in_memory (ml : bool) (f : holding) (objs : nat -> crcprf) : Prop := forall i,
    match f i with
    | None => c_elts (objs i) = []
    | Some (r, lo, hi) => constrained_to blk ml NBYTES (root r) (height r) lo hi (objs i)
    end.
End Spec.
