(** C122, C123: the memory of big numbers.  See properties.jsonl and DESIGN.md. *)
From Coq Require Import Permutation.
From Verif Require Import Base MpiModel LimbModel HeapModel HeapSpec HeapProofs HeapProofs3.

(** After any calls on any number of objects, whichever allocations failed: nothing undefined happened, every allocated block belongs to exactly
    one object, and the limbs of the blocks released so far were zero. *)
Theorem C122_memory : forall ora k cs, Forall (call_ok k) cs -> exists h o, run ora cs empty_heap (repeat h_init k) = Ok (h, o) /\ length o = k /\ owned h o /\ wiped h.
Proof. exact history. Qed.
Print Assumptions C122_memory.
(** Once all objects are freed, no block is left. *)
Theorem C122_no_leak : forall ora k cs, Forall (call_ok k) cs -> exists h o, run ora (cs ++ map CFree (seq 0 k)) empty_heap (repeat h_init k) = Ok (h, o) /\ cells h = [] /\ wiped h.
Proof. exact history_free. Qed.
Print Assumptions C122_no_leak.

(** A history with failing allocations: 5 is written to an object, copied, enlarged (first without memory), made smaller and freed *)
Definition ex_ora (n : nat) : bool := negb (n =? 2)%nat.
Definition ex_calls : list command := [CLset 0 5; CCopy 1 0; CGrow 0 3; CGrow 0 3; CWrite 0 [7; 8; 0]; CSwap 0 1; CShrink 1 1; CFree 0].
Example C122_example : Forall (call_ok 2) ex_calls /\
  run ex_ora ex_calls empty_heap (repeat h_init 2) = Ok (MkHeap [(4, [7; 8])] 5 5 [[0]; [0; 0; 0]; [0]], [h_init; MkH 1 2 4]).
Proof. split; [unfold ex_calls; repeat constructor; vm_compute; congruence|vm_compute; reflexivity]. Qed.

(** After any history, one more call changes the numbers as the functions on limbs say (LimbModel); if an allocation fails, all numbers stay as they
    were, except that a copy has assigned the sign ([effect]). *)
Theorem C123_values_partial : forall ora k cs c h o, Forall (call_ok k) cs -> call_ok k c -> run ora cs empty_heap (repeat h_init k) = Ok (h, o) ->
  exists h' o', run1 ora c h o = Ok (h', o') /\ numbers h' o' = effect (failed ora h h') c (numbers h o).
Proof. exact history_step. Qed.
Print Assumptions C123_values_partial.
(** A failing copy changes a number: 1 becomes -1, as its source is negative. *)
Theorem C123_failed_copy_refuted : exists ora cs h o h' o', Forall (call_ok 2) cs /\ run ora cs empty_heap (repeat h_init 2) = Ok (h, o) /\
  h_copy ora h (nth 0 o h_init) (nth 1 o h_init) = Ok (h', o', ERR_MPI_ALLOC_FAILED) /\ number_of h (nth 0 o h_init) = MkMpi 1 [1] /\ number_of h' o' = MkMpi (-1) [1].
Proof.
  exists (fun n => negb (n =? 3)%nat), [CLset 0 1; CLset 1 (-1); CGrow 1 2; CWrite 1 [1; 1]]. do 4 eexists. split; [repeat constructor; vm_compute; congruence|]. split; [vm_compute; reflexivity|]. split; [vm_compute; reflexivity|]. split; vm_compute; reflexivity.
Qed.
Print Assumptions C123_failed_copy_refuted.
Example C123_example : exists h o, run ex_ora (firstn 6 ex_calls) empty_heap (repeat h_init 2) = Ok (h, o) /\ numbers h o = [MkMpi 1 [5]; MkMpi 1 [7; 8; 0]].
Proof. do 2 eexists. split; vm_compute; reflexivity. Qed.
