(** C125: lists of named data.  See properties.jsonl and DESIGN.md. *)
From Verif Require Import Base BaseFacts HeapModel HeapSpec NamedModel NamedSpec NamedProofs3.

(** After any calls of mbedtls_asn1_store_named_data, whichever allocations failed: nothing undefined happened, the names in the list differ, and there are no
    other blocks than the three of each entry. *)
Theorem C125_memory : forall ora cs, Forall store_ok cs -> exists h head, nd_run ora cs empty_heap 0 = Ok (h, head) /\ NoDup (map fst (contents h head)) /\ length (cells h) = (3 * length (contents h head))%nat.
Proof. exact history. Qed.
Print Assumptions C125_memory.
(** One more call: either an allocation failed, the null pointer is returned and the list is unchanged; or the entry is returned, and the list is as [stored] says. *)
Theorem C125_store : forall ora cs h head oid v n, Forall store_ok cs -> store_ok (oid, v, n) -> nd_run ora cs empty_heap 0 = Ok (h, head) ->
  exists h' head' cur, nd_store ora h head oid v n = Ok (h', head', cur) /\
    ((cur = 0 /\ alloc_failed ora h h' /\ contents h' head' = contents h head) \/
     (cur <> 0 /\ ~ alloc_failed ora h h' /\ contents h' head' = stored (contents h head) oid v (Z.to_nat n) /\ nd_find (S (length (cells h'))) h' head' oid = Ok cur)).
Proof. exact history_store. Qed.
Print Assumptions C125_store.
(** [stored]: the name has the new value and the other names have their old ones, unless the old value was longer. *)
Theorem C125_value_partial : forall l oid d x, (forall w, value_of l oid = Some w -> (length w <= length d)%nat) -> value_of (stored l oid (Some d) (length d)) x = if bytes_eqb oid x then Some d else value_of l x.
Proof. exact stored_value. Qed.
Print Assumptions C125_value_partial.
(** Finding gives the null pointer if the name is not in the list, else an entry with the value of the name. *)
Theorem C125_find : forall ora cs h head oid, Forall store_ok cs -> nd_run ora cs empty_heap 0 = Ok (h, head) ->
  exists cur, nd_find (S (length (cells h))) h head oid = Ok cur /\
    match value_of (contents h head) oid with
    | None => cur = 0
    | Some w => cur <> 0 /\ (p <- get_field h cur f_val_p ;; n <- get_field h cur f_val_len ;; load h p (Z.to_nat n)) = Ok w /\ get_field h cur f_val_len = Ok (zlen w)
    end.
Proof. exact history_find. Qed.
Print Assumptions C125_find.
(** Freeing the list leaves no block. *)
Theorem C125_free : forall ora cs h head, Forall store_ok cs -> nd_run ora cs empty_heap 0 = Ok (h, head) -> exists h', nd_free_list (S (length (cells h))) h head = Ok (h', 0) /\ cells h' = [].
Proof. exact history_free. Qed.
Print Assumptions C125_free.
(** Storing a shorter value for a name keeps the length and the end of the old one: after storing 1 2 3 and then 9, the value is 9 2 3. *)
Theorem C125_shorter_refuted : exists oid d1 d2 h head, nd_run (fun _ => true) [(oid, Some d1, zlen d1); (oid, Some d2, zlen d2)] empty_heap 0 = Ok (h, head) /\
  value_of (contents h head) oid = Some [9; 2; 3] /\ d2 = [9].
Proof. exists [5], [1; 2; 3], [9]. do 2 eexists. split; [vm_compute; reflexivity|]. split; vm_compute; reflexivity. Qed.
Print Assumptions C125_shorter_refuted.

(** Two names, one with a value that is enlarged; the third name finds no memory for its value *)
Definition ex_calls : list (bytes * option bytes * Z) := [([5], Some [1], 1); ([6; 7], None, 2); ([5], Some [8; 9], 2); ([7], Some [3], 1)].
Definition ex_ora (k : nat) : bool := negb (k =? 9)%nat.
Example C125_example : Forall store_ok ex_calls /\ exists h head, nd_run ex_ora ex_calls empty_heap 0 = Ok (h, head) /\ contents h head = [([6; 7], [0; 0]); ([5], [8; 9])] /\ length (cells h) = 6%nat /\
  nd_find 9 h head [5] = Ok 1 /\ nd_find 9 h head [7] = Ok 0 /\ (exists h', nd_free_list 9 h head = Ok (h', 0) /\ cells h' = []).
Proof. split; [unfold ex_calls; repeat constructor; discriminate|]. do 2 eexists. split; [vm_compute; reflexivity|]. split; [vm_compute; reflexivity|]. split; [reflexivity|]. split; [vm_compute; reflexivity|]. split; [vm_compute; reflexivity|]. eexists. split; vm_compute; reflexivity. Qed.
