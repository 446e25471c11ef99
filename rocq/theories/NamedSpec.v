(** A list of named data as seen from outside: pairs of a name and a value. *)
From Verif Require Import Base HeapModel.

(** What is in memory from the entry [p] on; at most [fuel] entries *)
Fixpoint entries (fuel : nat) (h : heap) (p : Z) : list (bytes * bytes) :=
  match fuel, lookup (cells h) p with
  | S fuel, Some [_; op; _; vp; next] =>
    match lookup (cells h) op, lookup (cells h) vp with
    | Some oid, Some v => (oid, v) :: entries fuel h next
    | _, _ => []
    end
  | _, _ => []
  end.
Definition contents (h : heap) (head : Z) : list (bytes * bytes) := entries (length (cells h)) h head.
(** The value that goes with a name *)
Fixpoint value_of (l : list (bytes * bytes)) (oid : bytes) : option bytes :=
  match l with
  | [] => None
  | (o, v) :: l => if bytes_eqb o oid then Some v else value_of l oid
  end.
(** The list with another value for a name *)
Fixpoint set_value (l : list (bytes * bytes)) (oid v : bytes) : list (bytes * bytes) :=
  match l with
  | [] => []
  | (o, w) :: l => if bytes_eqb o oid then (o, v) :: l else (o, w) :: set_value l oid v
  end.
(** Storing [n] bytes: a new entry comes first; an old value that is longer keeps its length and its last bytes. *)
Definition new_value (old : option bytes) (d : option bytes) (n : nat) : bytes :=
  let room := match old with Some w => if (length w <? n)%nat then repeat 0 n else w | None => repeat 0 n end in
  match d with Some d => firstn n d ++ skipn n room | None => room end.
Definition stored (l : list (bytes * bytes)) (oid : bytes) (d : option bytes) (n : nat) : list (bytes * bytes) :=
  match value_of l oid with
  | Some w => set_value l oid (new_value (Some w) d n)
  | None => (oid, new_value None d n) :: l
  end.
(** Calls that C allows *)
Definition store_ok (c : bytes * option bytes * Z) : Prop := let '(_, d, n) := c in 0 <= n /\ match d with Some d => n <= zlen d | None => True end.
Definition alloc_failed (ora : nat -> bool) (h h' : heap) : Prop := exists k, (calls h <= k < calls h')%nat /\ ora k = false.
