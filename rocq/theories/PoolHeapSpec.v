(** Programs on pools *)
From Verif Require Import Base MpiModel HeapModel HeapSpec TdpHeapModel TdpHeapSpec PoolHeapModel.

(** [k] pools of at most [S M] powers; the temporary context is group [k * S M]. *)
Definition pstatement_ok (k M : nat) (s : pstatement) : Prop :=
  match s with
  | PNew p size fill _ muls => (p < k)%nat /\ (size <= S M)%nat /\ size <> 1%nat /\ Forall (within (k * S M) (k * S M) 0 12) fill /\
      forall i cs, nth_error muls i = Some cs -> Forall (within (k * S M) (key M p i) 1 1) cs
  | PCopy p q | PAssign p q => (p < k)%nat /\ (q < k)%nat
  | PUse p j cs => (p < k)%nat /\ Forall (within (k * S M) (group M p j) 8 12) cs
  | PDestroy p => (p < k)%nat
  end.
Definition pstart (k M : nat) : pstate := MkPS empty_heap (repeat h_init (size (k * S M))) (repeat None k) false.
Definition destroy_pools (k : nat) : list pstatement := map PDestroy (seq 0 k).
