(** C129: functions on messages release and wipe their temporary numbers. *)
From Coq Require Import Lia Permutation.
From Verif Require Import Base MpiModel HeapModel HeapSpec TdpHeapModel TdpHeapSpec LocalHeapModel LocalHeapSpec LocalHeapProofs2.

(** Whatever a key is and whatever the arithmetic does, the functions read and release allocated memory only, release nothing but zeros, and every block belongs to one object; when no function has thrown an exception, every block belongs to the key.
    What is missing: functions that throw, see below. *)
Theorem C129_memory_partial : forall ora cs h key fs, made_by ora cs h key -> Forall function_ok fs ->
  exists h' o' ts, call_functions ora fs h (key ++ repeat h_init 32) = Ok (h', o', ts) /\ wiped h' /\ owned h' o' /\ (Forall (eq false) ts -> owned h' (firstn 16 o')).
Proof. exact functions_memory. Qed.
Print Assumptions C129_memory_partial.
(** The functions are const: the numbers of the key other than the cached RN, RP and RQ stay as they are, also when a function throws. *)
Theorem C129_key : forall ora cs h key fs h' o' ts j, made_by ora cs h key -> Forall function_ok fs -> call_functions ora fs h (key ++ repeat h_init 32) = Ok (h', o', ts) ->
  (j < 8 \/ 11 <= j < 16)%nat -> number_of h' (nth j o' h_init) = number_of h (nth j key h_init).
Proof. exact functions_key. Qed.
Print Assumptions C129_key.
(** The numbers a function may leave in memory when it throws ([length o1 + j]: local number j of the call) *)
Theorem C129_throw : forall ora cs h key fs f h1 o1 ts h2 o2 j, made_by ora cs h key -> Forall function_ok fs -> function_ok f -> call_functions ora fs h (key ++ repeat h_init 32) = Ok (h1, o1, ts) ->
  call_function ora f h1 o1 = Ok (h2, o2, true) -> ~ In j (may_remain f) -> nth (length o1 + j) o2 h_init = h_init.
Proof. exact functions_throw. Qed.
Print Assumptions C129_throw.
(** insecure_mod_exp releases its temporary number whether it fails or not. *)
Theorem C129_modexp : forall ora cs h key d a e md eff, made_by ora cs h key -> modexp_changes d md eff -> (a < 16)%nat -> (16 <= d < 23)%nat ->
  exists h' o' ok, modexp ora d a e md eff h (key ++ repeat h_init 32) = Ok (h', o', ok) /\ wiped h' /\ owned h' o' /\ forall j, (16 <= j < 48)%nat -> j <> d -> nth j o' h_init = h_init.
Proof. exact modexp_memory. Qed.
Print Assumptions C129_modexp.

(** eval with the message 5: it is read, and the reduction fails; or everything succeeds *)
Definition rd : call := ([CGrow 16 1; CWrite 16 [5]], true).
Definition failing : list function := [FEval rd ([], false) ([], true)].
Local Ltac ch := constructor; [split; [cbn; lia|intros t Ht; cbn in Ht; cbn; lia]|].
(** When eval throws, the message remains in memory that nobody can release. *)
Theorem C129_leak_refuted : exists ora cs h key fs h' o' ts, made_by ora cs h key /\ Forall function_ok fs /\
  call_functions ora fs h (key ++ repeat h_init 32) = Ok (h', o', ts) /\ pointers (firstn 16 o') = [] /\ map snd (cells h') = [[5]].
Proof.
  exists (fun _ => true), [], empty_heap, (repeat h_init 16), failing.
  destruct (call_functions (fun _ => true) failing empty_heap (repeat h_init 16 ++ repeat h_init 32)) as [[[h' o'] ts]| | | |] eqn:E; vm_compute in E; try discriminate E. exists h', o', ts.
  split; [split; [constructor|reflexivity]|]. split.
  - constructor; [|constructor]. cbn [function_ok failing rd]. unfold changes. cbn [fst]. split; [ch; ch; constructor|]. split; constructor.
  - split; [reflexivity|]. injection E as <- <- <-. split; vm_compute; reflexivity.
Qed.
Print Assumptions C129_leak_refuted.

(** Inverting with temporaries and cached numbers, an evaluation that throws, another one: meets the hypotheses *)
Definition ex_mul (d : nat) : call := ([CGrow 32 3; CWrite 32 [1; 2; 3]; CGrow d 2; CCopy d 32], true).
Definition ex_fs : list function :=
  [FInvertMult 5 rd (ex_mul 23) (ex_mul 23) (fun n => ex_mul (if (n mod 4 <? 2)%nat then 18 else 23)) (fun n => ex_mul (if (n mod 4 <? 2)%nat then 19 else 23))
     [([CGrow 9 1; CGrow 20 1], true); ([CGrow 10 2; CGrow 21 1], true); ex_mul 22; ex_mul 20; ex_mul 22; ex_mul 20; ex_mul 22] true;
   FEval rd (ex_mul 16) ([CGrow 8 1; CLset 16 7], false); FSample rd (ex_mul 16)].
Example C129_example : made_by (fun _ => true) [CLset 0 77; CLset 5 3; CLset 6 5] (fst (match run (fun _ => true) [CLset 0 77; CLset 5 3; CLset 6 5] empty_heap (repeat h_init 16) with Ok r => r | _ => (empty_heap, []) end))
    (snd (match run (fun _ => true) [CLset 0 77; CLset 5 3; CLset 6 5] empty_heap (repeat h_init 16) with Ok r => r | _ => (empty_heap, []) end)) /\ Forall function_ok ex_fs /\
  match run (fun _ => true) [CLset 0 77; CLset 5 3; CLset 6 5] empty_heap (repeat h_init 16) with
  | Ok (h, key) => match call_functions (fun _ => true) ex_fs h (key ++ repeat h_init 32) with Ok (h', o', ts) => ts = [false; true; false] /\ map snd (cells h') = [[0]; [7; 0; 0]; [0; 0]; [0]; [5]; [3]; [77]] | _ => False end
  | _ => False
  end.
Proof.
  split; [split; [repeat (constructor; [cbn; lia|]); constructor|vm_compute; reflexivity]|]. split; [|vm_compute; repeat split].
  assert (changes [16%nat] rd) as R by (unfold changes; cbn [fst rd]; ch; ch; constructor).
  assert (forall d, (d < 32)%nat -> changes [d] (ex_mul d)) as M by (intros d Hd; unfold changes; cbn [fst ex_mul]; ch; ch; ch; ch; constructor).
  constructor; [|constructor; [|constructor; [|constructor]]]; cbn [function_ok ex_fs].
  - split; [lia|]. split; [exact R|]. split; [split; [apply M; lia|intros n; apply M; destruct (_ <? _)%nat; lia]|]. split; [split; [apply M; lia|intros n; apply M; destruct (_ <? _)%nat; lia]|].
    constructor; [unfold changes; cbn [fst]; ch; ch; constructor|]. constructor; [unfold changes; cbn [fst]; ch; ch; constructor|]. repeat (constructor; [apply M; lia|]). constructor.
  - split; [exact R|]. split; [apply M; lia|]. unfold changes. cbn [fst]. ch. ch. constructor.
  - split; [exact R|apply M; lia].
Qed.
