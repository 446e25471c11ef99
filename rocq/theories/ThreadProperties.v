(** C139: several threads call const functions of the same objects. *)
From Verif Require Import Base ThreadModel ThreadSpec ThreadProofs.

(** Threads that hold a mutex of the object during every call: whatever the schedule, there is no fault, no exception and no data race; when all have finished every flag says what the protection is.
    What is missing: the library has no such mutexes, and without them this is false, see below. *)
Theorem C139_mutex_partial : forall ml k css ts, Forall (calls k) css -> exists os ps,
  run ml (repeat (locked_object ml) k, map (fun cs => concat (map guarded cs)) css) ts = Ok (os, ps) /\ ~ race ps /\ (finished ps -> Forall consistent os).
Proof. exact mutex_safe. Qed.
Print Assumptions C139_mutex_partial.
(** And the threads can always finish. *)
Theorem C139_mutex_finishes_partial : forall ml k css ts, Forall (calls k) css -> exists us os ps,
  run ml (repeat (locked_object ml) k, map (fun cs => concat (map guarded cs)) css) (ts ++ us) = Ok (os, ps) /\ finished ps /\ Forall consistent os.
Proof. exact mutex_finishes. Qed.
Print Assumptions C139_mutex_finishes_partial.
(** Without mutexes, when every object is used by one thread. *)
Theorem C139_own_objects_partial : forall ml owner k css ts, Forall (calls k) css -> (forall t cs, nth_error css t = Some cs -> Forall (fun c => owner (fst c) = t) cs) -> exists os ps,
  run ml (repeat (locked_object ml) k, map (fun cs => concat (map on cs)) css) ts = Ok (os, ps) /\ ~ race ps /\ (finished ps -> Forall consistent os).
Proof. exact own_safe. Qed.
Print Assumptions C139_own_objects_partial.
(** Without memory locking, objects may be shared. *)
Theorem C139_without_memory_lock_partial : forall k css ts, Forall (calls k) css -> exists os ps,
  run false (repeat (locked_object false) k, map (fun cs => concat (map on cs)) css) ts = Ok (os, ps) /\ ~ race ps /\ Forall (fun o => readable o = true) os.
Proof. exact no_lock_safe. Qed.
Print Assumptions C139_without_memory_lock_partial.

(** Two threads that share one object, with memory locking.  One thread locks the memory while the other reads it: the process ends. *)
Theorem C139_fault_refuted : exists ts, run true ([locked_object true], map (fun c => on (0%nat, c)) [prg_call 1; prg_call 1]) ts = UB /\ ts = [0; 0; 0; 0; 1; 0; 0; 1]%nat.
Proof. eexists. split; [|reflexivity]. vm_compute. reflexivity. Qed.
Print Assumptions C139_fault_refuted.
(** One thread locks the key between unlock and data of the other: an exception. *)
Theorem C139_exception_refuted : exists ts, run true ([locked_object true], map (fun c => on (0%nat, c)) [cipher_call 1; hmac_call 1 1]) ts = Throw RuntimeError /\ ts = [0; 0; 0; 0; 0; 1; 0; 0; 0; 1]%nat.
Proof. eexists. split; [|reflexivity]. vm_compute. reflexivity. Qed.
Print Assumptions C139_exception_refuted.
(** A data race. *)
Theorem C139_race_refuted : exists ts os ps, run true ([locked_object true], map (fun c => on (0%nat, c)) [prg_call 1; prg_call 1]) ts = Ok (os, ps) /\ race ps /\ ts = [0; 0]%nat.
Proof.
  do 3 eexists. split; [|split; [|reflexivity]]; [vm_compute; reflexivity|]. unfold race. exists 0%nat, 1%nat, 0%nat, USet, Unlock. do 2 eexists. split; [discriminate|]. repeat split; reflexivity.
Qed.
Print Assumptions C139_race_refuted.
(** All calls return, and the key is marked as locked though its memory is readable. *)
Theorem C139_left_readable_refuted : exists ts os ps, run true ([locked_object true], map (fun c => on (0%nat, c)) [prg_call 1; prg_call 1]) ts = Ok (os, ps) /\ finished ps /\
  os = [{| flag := true; readable := true; holder := None |}] /\ ts = [0; 1; 1; 1; 1; 1; 1; 0; 0; 1; 0; 0]%nat.
Proof. do 3 eexists. split; [|split; [|split; [|reflexivity]]]; [vm_compute; reflexivity|repeat apply Forall_cons; try apply Forall_nil; reflexivity|reflexivity]. Qed.
Print Assumptions C139_left_readable_refuted.

(** Three threads with two objects; a schedule where thread 1 waits for thread 0 *)
Definition example : list (list (nat * list instr)) := [[(0, hmac_call 2 1); (1, prg_call 1)]; [(0, cipher_call 1)]; [(1, prp_encrypt_call 2); (0, prg_call 2)]]%nat.
Example C139_example : Forall (calls 2) example /\ (exists os ps, run true (repeat (locked_object true) 2, map (fun cs => concat (map guarded cs)) example) [0; 0; 1; 0; 2; 2; 1; 2; 0]%nat = Ok (os, ps) /\ ~ finished ps) /\
  exists us os ps, run true (repeat (locked_object true) 2, map (fun cs => concat (map guarded cs)) example) ([0; 0; 1; 0; 2; 2; 1; 2; 0]%nat ++ us) = Ok (os, ps) /\ finished ps.
Proof.
  assert (Forall (calls 2) example) as C.
  { unfold example. repeat apply Forall_cons; try apply Forall_nil; split; cbn [fst snd]; try (apply Nat.ltb_lt; reflexivity); constructor. }
  split; [exact C|]. split.
  - do 2 eexists. split; [vm_compute; reflexivity|]. intros F. inversion F as [|? ? Q _]. discriminate Q.
  - destruct (C139_mutex_finishes_partial true 2 example [0; 0; 1; 0; 2; 2; 1; 2; 0]%nat C) as (us & os & ps & E & F & _). exists us, os, ps. auto.
Qed.
