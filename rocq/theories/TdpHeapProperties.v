(** C127: trapdoor permutation objects release and wipe what they allocate. *)
From Coq Require Import Lia Permutation.
From Verif Require Import Base MpiModel HeapModel HeapSpec HeapProofs3 TdpHeapModel TdpHeapSpec TdpHeapProofs3.

(** Whatever is constructed, copied, assigned, used and destroyed, whichever allocations fail and whatever parsing and generating do to the numbers they are given, nothing is read or released that is not allocated, every block belongs to one
    object, and only zeros are released.  What is missing: constructors of TdpInverseImpl_mbedTLS that fail after they have begun to compute p_1_, see below. *)
Theorem C127_memory_partial : forall ora k program, Forall (statement_ok k) program -> Forall no_late_failure program ->
  exists s, trun ora k (start k) program = Ok s /\ owned (theap s) (tobjs s) /\ wiped (theap s).
Proof. exact program_memory. Qed.
Print Assumptions C127_memory_partial.
(** What does not exist (any more, or because its constructor has thrown) holds no memory. *)
Theorem C127_dead_partial : forall ora k program s i j, Forall (statement_ok k) program -> Forall no_late_failure program -> trun ora k (start k) program = Ok s ->
  (i < k)%nat -> (j < 16)%nat -> kind_of s i = Dead -> nth (16 * i + j) (tobjs s) h_init = h_init.
Proof. exact program_dead. Qed.
Print Assumptions C127_dead_partial.
(** When all objects have been destroyed, nothing is allocated. *)
Theorem C127_no_leak_partial : forall ora k program, Forall (statement_ok k) program -> Forall no_late_failure program ->
  exists s, trun ora k (start k) (program ++ destroy_all k) = Ok s /\ cells (theap s) = [] /\ wiped (theap s).
Proof. exact program_end. Qed.
Print Assumptions C127_no_leak_partial.

(** A key: N = 2^127 + 1 and E = 65537 as calls on the objects [a] and [a + 1]; P = 47 *)
Definition make_key (a : nat) : list command := [CGrow a 2; CWrite a [1; 2 ^ 63]; CLset (S a) 65537; CLset (a + 3) 47].
Definition late : list statement := [SGenerate 0 (make_key 0) true [([CGrow 14 1; CWrite 14 [46]], true); ([], false); ([], true)]].
(** If the constructor of TdpInverseImpl_mbedTLS throws after p_1_ has been computed (an allocation fails in the next function), p - 1 remains in memory, and no object is left that could release it. *)
Theorem C127_no_leak_refuted : exists ora k program, Forall (statement_ok k) program /\
  exists s, trun ora k (start k) program = Ok s /\ Forall (eq Dead) (tlive s) /\ map snd (cells (theap s)) = [[46]].
Proof.
  exists (fun _ => true), 1%nat, late. split.
  - constructor; [|constructor]. cbn [statement_ok]. split; [lia|]. assert (forall c j, call_ok (size 1) c -> (forall t, touches c t -> t = at_ 0 j) -> forall a b, (a <= j <= b)%nat -> within 1 0 a b c) as W by (intros c j A B a b H; split; [exact A|]; intros t Ht; exists j; split; [exact H|apply B; exact Ht]).
    split.
    + constructor; [apply (W _ 0%nat)|constructor; [apply (W _ 0%nat)|constructor; [apply (W _ 1%nat)|constructor; [apply (W _ 3%nat)|constructor]]]]; cbn; try lia; intros t ->; reflexivity.
    + exists [CGrow 14 1; CWrite 14 [46]], [], [], true, false, true. split; [reflexivity|]. split; [|split; constructor]. constructor; [apply (W _ 14%nat)|constructor; [apply (W _ 14%nat)|constructor]]; cbn; try lia; intros t ->; reflexivity.
  - destruct (trun (fun _ => true) 1 (start 1) late) as [s| | | |] eqn:E; vm_compute in E; try discriminate E. exists s. split; [reflexivity|]. injection E as <-. split; [constructor; [reflexivity|constructor]|vm_compute; reflexivity].
Qed.
Print Assumptions C127_no_leak_refuted.

(** A private key, a copy of it, a public key assigned to the copy, with failing allocations: meets the hypotheses, and ends with nothing allocated *)
Definition example : list statement :=
  [SPrivate 0 (make_key 32) true [([CGrow 14 1; CWrite 14 [46]], true); ([CGrow 15 1], true); ([CGrow 13 1], true)]; SCopy 1 0; SUse 0 [CGrow 8 2]; SAssign 1 0].
Local Ltac wi j := split; [cbn; unfold size; lia|intros t Ht; cbn in Ht; exists j; split; [lia|unfold at_; lia]].
Example C127_example : Forall no_late_failure example /\ Forall (statement_ok 2) example /\
  (exists s, trun (fun _ => true) 2 (start 2) example = Ok s /\ tlive s = [Private; Public] /\ map (fun c => length (snd c)) (cells (theap s)) = [1; 2; 1; 1; 2; 1; 1; 1; 1; 1; 2]%nat) /\
  (exists s, trun (fun n => Nat.ltb n 12) 2 (start 2) example = Ok s /\ tlive s = [Private; Dead]) /\
  (exists s, trun (fun _ => true) 2 (start 2) (example ++ destroy_all 2) = Ok s /\ cells (theap s) = [] /\ (0 < length (released (theap s)))%nat).
Proof.
  split; [repeat constructor|]. split.
  { constructor; [|constructor; [cbn; lia|constructor; [|constructor; [cbn; lia|constructor]]]].
    - cbn [statement_ok]. split; [lia|]. split; [constructor; [wi 0%nat|constructor; [wi 0%nat|constructor; [wi 1%nat|constructor; [wi 3%nat|constructor]]]]|]. do 6 eexists. split; [reflexivity|].
      split; [constructor; [wi 14%nat|constructor; [wi 14%nat|constructor]]|]. split; constructor; [wi 15%nat|constructor|wi 13%nat|constructor].
    - cbn [statement_ok]. split; [lia|]. constructor; [wi 8%nat|constructor]. }
  split; [|split]; (match goal with |- exists s, ?r = Ok s /\ _ => destruct r as [s| | | |] eqn:E; vm_compute in E; try discriminate E; exists s; split; [reflexivity|]; injection E as <- end; vm_compute; repeat split; try lia).
Qed.
