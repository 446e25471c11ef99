(** C126: random bytes, arrays and strings.  See properties.jsonl and DESIGN.md. *)
From Verif Require Import Base HeapModel HeapSpec RandomModel RandomSpec RandomProofs.

(** A range of a buffer is filled with the next bytes of the source, and nothing else changes; the wrapper for mbedTLS does the same and returns 0. *)
Theorem C126_bytes : forall src s p off n l, lookup (cells (rheap s)) p = Some l -> (off + n <= length l)%nat ->
  exists s', random_bytes src s p off n = Ok s' /\ lookup (cells (rheap s')) p = Some (firstn off l ++ segment src (rpos s) n ++ skipn (off + n) l) /\
    (forall q, q <> p -> lookup (cells (rheap s')) q = lookup (cells (rheap s)) q) /\ rpos s' = (rpos s + n)%nat /\ rng_wrap src s p off n = Ok (s', 0).
Proof. exact bytes_fill. Qed.
Print Assumptions C126_bytes.
(** All elements of an array are filled, whatever their size. *)
Theorem C126_array : forall src s p size N l, lookup (cells (rheap s)) p = Some l -> length l = (N * size)%nat ->
  exists s', random_array src s p size N = Ok s' /\ lookup (cells (rheap s')) p = Some (segment src (rpos s) (N * size)) /\ (forall q, q <> p -> lookup (cells (rheap s')) q = lookup (cells (rheap s)) q) /\ rpos s' = (rpos s + N * size)%nat.
Proof. exact array_fill. Qed.
Print Assumptions C126_array.
(** A string of the length asked for. *)
Theorem C126_string : forall src ora s n, 0 < next_addr (rheap s) -> ora (calls (rheap s)) = true -> ora (S (calls (rheap s))) = true ->
  exists s', random_string src ora s n = Ok (s', Some (segment src (rpos s) n)) /\ cells (rheap s') = cells (rheap s) /\ rpos s' = (rpos s + n)%nat.
Proof. exact string_ok. Qed.
Print Assumptions C126_string.
(** Requests one after the other: no byte of the source is given out twice and none is left out, and no memory is left. *)
Theorem C126_requests : forall src ora, (forall k, ora k = true) -> forall qs s, 0 < next_addr (rheap s) ->
  exists s', ask src ora s qs = Ok (s', map Some (deal src (rpos s) qs)) /\ cells (rheap s') = cells (rheap s).
Proof. exact ask_all. Qed.
Print Assumptions C126_requests.
Theorem C126_all_bytes_once : forall src qs k, concat (deal src k qs) = segment src k (list_sum (map size_of qs)).
Proof. exact deal_concat. Qed.
Print Assumptions C126_all_bytes_once.
(** Without memory for the temporary buffer: std::bad_alloc, nothing is lost. *)
Theorem C126_no_memory_partial : forall src ora s n, 0 < next_addr (rheap s) -> ora (calls (rheap s)) = false ->
  exists s', random_string src ora s n = Ok (s', None) /\ cells (rheap s') = cells (rheap s) /\ rpos s' = rpos s.
Proof. exact string_throws. Qed.
Print Assumptions C126_no_memory_partial.
(** If the constructor of the string throws, the temporary buffer is lost. *)
Theorem C126_leak_refuted : exists src ora n s', random_string src ora (MkR empty_heap 0) n = Ok (s', None) /\ cells (rheap s') <> [].
Proof. exists (fun _ => 7), (fun k => (k =? 0)%nat), 16%nat. eexists. split; [vm_compute; reflexivity|]. vm_compute. discriminate. Qed.
Print Assumptions C126_leak_refuted.
(** The temporary buffer is released with the random bytes in it. *)
Theorem C126_wiped_refuted : exists src ora n s' d, random_string src ora (MkR empty_heap 0) n = Ok (s', Some d) /\ released (rheap s') = [d] /\ ~ wiped (rheap s').
Proof.
  exists (fun _ => 7), (fun _ => true), 2%nat. do 2 eexists. split; [vm_compute; reflexivity|]. split; [reflexivity|]. intros W. unfold wiped in W. cbn in W. apply Forall_inv in W. apply Forall_inv in W. discriminate W.
Qed.
Print Assumptions C126_wiped_refuted.

(** Two bytes in the middle of a buffer; an array of two elements of two bytes and a string *)
Example C126_example : let src := fun k => Z.of_nat k * 3 in
  (exists s', random_bytes src (MkR (MkHeap [(1, [100; 101; 102; 103]); (2, [9])] 3 0 []) 5) 1 1 2 = Ok s' /\ cells (rheap s') = [(1, [100; 15; 18; 103]); (2, [9])]) /\
  (exists s', ask src (fun _ => true) (MkR empty_heap 0) [QArray 2 2; QString 3] = Ok (s', [Some [0; 3; 6; 9]; Some [12; 15; 18]]) /\ cells (rheap s') = []).
Proof. split; eexists; (split; [vm_compute; reflexivity|reflexivity]). Qed.
