(** Who owns which block: the contents of a heap as seen by the objects that point into it. *)
From Coq Require Import Permutation.
From Verif Require Import Base MpiModel LimbModel HeapModel.

(** What has been released did not contain anything but zeros. *)
Definition wiped (h : heap) : Prop := Forall (Forall (eq 0)) (released h).
(** The pointers of the objects *)
Definition pointers (o : list hmpi) : list Z := filter (fun p => negb (p =? 0)) (map hp o).
(** Every block belongs to one object, and no two objects share a block. *)
Definition owned (h : heap) (o : list hmpi) : Prop := Permutation (map fst (cells h)) (pointers o) /\ NoDup (map fst (cells h)).
(** The number an object stands for *)
Definition number_of (h : heap) (X : hmpi) : mpi := MkMpi (hs X) (match lookup (cells h) (hp X) with Some l => l | None => [] end).
Definition numbers (h : heap) (o : list hmpi) : list mpi := map (number_of h) o.
Definition empty_heap : heap := MkHeap [] 1 0 [].
(** Calls on [k] objects *)
Definition call_ok (k : nat) (c : command) : Prop :=
  match c with
  | CGrow i _ | CShrink i _ | CFree i | CWrite i _ => (i < k)%nat
  | CCopy i j | CSwap i j => (i < k)%nat /\ (j < k)%nat
  | CLset i z => (i < k)%nat /\ - 2 ^ 63 < z < 2 ^ 63
  end.
(** What the calls do to the numbers: the functions of LimbModel; a function that fails leaves the number as it is, except that a failing copy has assigned the sign. *)
Definition upd (v : list mpi) (i : nat) (x : mpi) : list mpi := firstn i v ++ x :: skipn (S i) v.
Definition val (v : list mpi) (i : nat) : mpi := nth i v l_init.
Definition or_else (d : mpi) (r : res mpi) : mpi := match r with Ok (inr x) => x | _ => d end.
(** [fails]: whether an allocation fails in the call *)
Definition effect (fails : bool) (c : command) (v : list mpi) : list mpi :=
  match c with
  | CGrow i n => upd v i (if fails then val v i else or_else (val v i) (l_grow (val v i) n))
  | CShrink i n => upd v i (if fails then val v i else or_else (val v i) (l_shrink (val v i) n))
  | CCopy i j =>
    let failed := MkMpi (if (i =? j)%nat then ms (val v i) else ms (val v j)) (mp (val v i)) in
    upd v i (if fails then failed else or_else failed (l_copy (i =? j)%nat (val v i) (val v j)))
  | CSwap i j => upd (upd v i (val v j)) j (val v i)
  | CLset i z => upd v i (if fails then val v i else or_else (val v i) (l_lset (val v i) z))
  | CFree i => upd v i l_init
  | CWrite i d => if (length d =? length (mp (val v i)))%nat then upd v i (MkMpi (ms (val v i)) d) else v
  end.
(** Whether an allocation failed between two states *)
Definition failed (ora : nat -> bool) (h h' : heap) : bool := existsb (fun k => negb (ora k)) (seq (calls h) (calls h' - calls h)).
