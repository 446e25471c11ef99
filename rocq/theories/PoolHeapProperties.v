(** C128: pools of trapdoor permutations release and wipe what they allocate. *)
From Coq Require Import Lia Permutation.
From Verif Require Import Base MpiModel HeapModel HeapSpec HeapProofs3 TdpHeapModel TdpHeapSpec PoolHeapModel PoolHeapSpec PoolHeapProofs2.

(** Whatever pools are constructed, copied, assigned, used and destroyed, and whichever allocations fail: up to the first exception thrown while keys_ is being filled ([plate]), nothing is read or released that is not allocated or not
    initialised, every block belongs to one object, and only zeros are released.  What is missing: such exceptions (see below), and pools of size 1 (undefined, see C44). *)
Theorem C128_memory_partial : forall ora M k program, Forall (pstatement_ok k M) program ->
  exists s, prun ora M k (pstart k M) program = Ok s /\ (plate s = false -> owned (psheap s) (psobjs s) /\ wiped (psheap s)).
Proof. exact pools_memory. Qed.
Print Assumptions C128_memory_partial.
(** When all pools have been destroyed, nothing is allocated. *)
Theorem C128_no_leak_partial : forall ora M k program s, Forall (pstatement_ok k M) program -> prun ora M k (pstart k M) program = Ok s -> plate s = false ->
  exists s', prun ora M k s (destroy_pools k) = Ok s' /\ cells (psheap s') = [] /\ wiped (psheap s').
Proof. exact pools_end. Qed.
Print Assumptions C128_no_leak_partial.

(** N = 2^127 + 1 and E = 65537 in the temporary context; E^2 for the element with group [g] *)
Definition make_public (t : nat) : list command := [CGrow (16 * t) 2; CWrite (16 * t) [1; 2 ^ 63]; CLset (16 * t + 1) 65537].
Definition square (g : nat) : list command := [CWrite (16 * g + 1) [4295098369]].
Local Ltac wi j := split; [cbn; unfold size; lia|intros t Ht; cbn in Ht; exists j; split; [lia|unfold at_, key, group; lia]].
Local Ltac pub := constructor; [wi 0%nat|constructor; [wi 0%nat|constructor; [wi 1%nat|constructor]]].
(** If the constructor throws because a power of E is not less than N, the array and the limbs of its elements remain allocated, and there is no object that could release them. *)
Theorem C128_constructor_refuted : exists k M program s, Forall (pstatement_ok k M) program /\
  prun (fun _ => true) M k (pstart k M) program = Ok s /\ Forall (eq None) (ppools s) /\ map snd (cells (psheap s)) = [[1; 2 ^ 63]; [1; 2 ^ 63]; [0]].
Proof.
  exists 1%nat, 1%nat, [PNew 0 2 (make_public 2) true [[CGrow 17 2; CWrite 17 [1; 2 ^ 63]]]]. destruct (prun (fun _ => true) 1 1 (pstart 1 1) [PNew 0 2 (make_public 2) true [[CGrow 17 2; CWrite 17 [1; 2 ^ 63]]]]) as [s| | | |] eqn:E; vm_compute in E; try discriminate E.
  exists s. split.
  - constructor; [|constructor]. cbn [pstatement_ok]. split; [lia|]. split; [lia|]. split; [lia|]. split; [pub|]. intros [|[|i]] cs H; cbn in H; try discriminate H. injection H as <-. constructor; [wi 1%nat|constructor; [wi 1%nat|constructor]].
  - split; [reflexivity|]. injection E as <-. split; [constructor; [reflexivity|constructor]|vm_compute; reflexivity].
Qed.
Print Assumptions C128_constructor_refuted.
(** Two pools of different sizes *)
Definition two : list pstatement := [PNew 0 2 (make_public 6) true [square 1]; PNew 1 3 (make_public 6) true [square 4; square 5]; PAssign 0 1].
Lemma two_ok : Forall (pstatement_ok 2 2) two.
Proof.
  constructor; [|constructor; [|constructor; [cbn; lia|constructor]]]; cbn [pstatement_ok].
  - split; [lia|]. split; [lia|]. split; [lia|]. split; [pub|]. intros [|[|i]] cs H; cbn in H; try discriminate H. injection H as <-. constructor; [wi 1%nat|constructor].
  - split; [lia|]. split; [lia|]. split; [lia|]. split; [pub|]. intros [|[|[|i]]] cs H; cbn in H; try discriminate H; injection H as <-; (constructor; [wi 1%nat|constructor]).
Qed.
(** If an allocation fails in the assignment of a pool of another size, be it the array or a limb array of an element, destroying the target is undefined: the destructor uses the deleted array, or elements that have not been initialised. *)
Theorem C128_assignment_refuted : forall failing, failing = 28%nat \/ failing = 29%nat -> Forall (pstatement_ok 2 2) two /\
  exists s, prun (fun n => negb (n =? failing)%nat) 2 2 (pstart 2 2) two = Ok s /\ pstep (fun n => negb (n =? failing)%nat) 2 2 s (PDestroy 0) = UB.
Proof.
  intros f Hf. split; [exact two_ok|]. destruct Hf as [-> | ->].
  - destruct (prun (fun n => negb (n =? 28)%nat) 2 2 (pstart 2 2) two) as [s| | | |] eqn:E; vm_compute in E; try discriminate E. exists s. split; [reflexivity|]. injection E as <-. vm_compute. reflexivity.
  - destruct (prun (fun n => negb (n =? 29)%nat) 2 2 (pstart 2 2) two) as [s| | | |] eqn:E; vm_compute in E; try discriminate E. exists s. split; [reflexivity|]. injection E as <-. vm_compute. reflexivity.
Qed.
Print Assumptions C128_assignment_refuted.
Example C128_example : Forall (pstatement_ok 2 2) two /\
  exists s, prun (fun _ => true) 2 2 (pstart 2 2) two = Ok s /\ plate s = false /\ ppools s = [Some (MkPool 2 2); Some (MkPool 2 2)] /\ length (cells (psheap s)) = 14%nat.
Proof.
  split; [exact two_ok|]. destruct (prun (fun _ => true) 2 2 (pstart 2 2) two) as [s| | | |] eqn:E; vm_compute in E; try discriminate E. exists s. split; [reflexivity|]. injection E as <-. vm_compute. repeat split.
Qed.
