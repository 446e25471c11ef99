(** C141: eval of one object from several threads (mbedTLS). *)
From Verif Require Import Base CacheThreadModel CacheThreadSpec CacheThreadProofs.

(** With a mutex that the callers hold during each call: every call uses the right constant whatever the schedule, all calls can return, and then the destructor leaves nothing in memory.
    What is missing: there is no mutex, and without one memory is lost, see below. *)
Theorem C141_mutex_partial : forall N limbs up ns ts, 0 < N -> 0 <= limbs -> exists x, run_threads N limbs up true (begin ns) ts = Ok x /\ Forall (fun th => Forall (right N limbs) (used th)) (threads x) /\
  exists us y m, run_threads N limbs up true (begin ns) (ts ++ us) = Ok y /\ Forall ended (threads y) /\ Forall2 (fun n th => length (used th) = n /\ Forall (right N limbs) (used th)) ns (threads y) /\
  destroy (rn y) (mem y) = Ok m /\ all_released m.
Proof. exact cache_mutex. Qed.
Print Assumptions C141_mutex_partial.
Theorem C141_mutex_memory_partial : forall N limbs up ns ts x, run_threads N limbs up true (begin ns) ts = Ok x -> Forall ended (threads x) -> exists m, destroy (rn x) (mem x) = Ok m /\ all_released m.
Proof. exact cache_mutex_memory. Qed.
Print Assumptions C141_mutex_memory_partial.
(** Without a mutex, if memcpy copies the fields in their order and memory is sequentially consistent: every call uses the right constant, all calls can return, and the destructor releases no memory twice. *)
Theorem C141_fields_partial : forall N limbs ns ts, 0 < N -> 0 <= limbs -> exists x, run_threads N limbs true false (begin ns) ts = Ok x /\ Forall (fun th => Forall (right N limbs) (used th)) (threads x) /\
  exists us y m, run_threads N limbs true false (begin ns) (ts ++ us) = Ok y /\ Forall ended (threads y) /\ Forall2 (fun n th => length (used th) = n /\ Forall (right N limbs) (used th)) ns (threads y) /\
  destroy (rn y) (mem y) = Ok m.
Proof. exact cache_fields. Qed.
Print Assumptions C141_fields_partial.
(** But when two threads find the cache empty, one of their constants is never released, for every modulus. *)
Theorem C141_leak_refuted : forall N limbs up, exists ts x m, run_threads N limbs up false (begin [1; 1]%nat) ts = Ok x /\ Forall ended (threads x) /\ destroy (rn x) (mem x) = Ok m /\ ~ all_released m.
Proof. exact cache_leak. Qed.
Print Assumptions C141_leak_refuted.
(** And if memcpy copies the pointer first, a call can use a number without limbs. *)
Theorem C141_order_refuted : forall N limbs, 0 < limbs -> exists ts x th, run_threads N limbs false false (begin [1; 1]%nat) ts = Ok x /\ nth_error (threads x) 1 = Some th /\ ended th /\ ~ Forall (right N limbs) (used th).
Proof. exact cache_order. Qed.
Print Assumptions C141_order_refuted.

(** Two threads, one with two calls; the constant is stored once and used three times. *)
Example C141_example : exists ts x m, run_threads 35 1 true true (begin [2; 1]%nat) ts = Ok x /\ map used (threads x) = [[(1, 11); (1, 11)]; [(1, 11)]] /\ right 35 1 (1, 11) /\ mem x = [Some 11] /\
  destroy (rn x) (mem x) = Ok m /\ m = [None].
Proof.
  exists (repeat 0 8 ++ repeat 1 8 ++ repeat 0 8)%nat. eexists _, _. split; [vm_compute; reflexivity|]. split; [vm_compute; reflexivity|].
  split; [split; [reflexivity|]; split; [split; [discriminate|reflexivity]|]; exists (- ((2 ^ 128 - 11) / 35)); vm_compute; reflexivity|]. split; [vm_compute; reflexivity|]. split; vm_compute; reflexivity.
Qed.
