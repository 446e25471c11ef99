(** Which blocks are in use. *)
From Verif Require Import Base RsaKeyModel PkHeapModel.

Definition in_use (h : heap) (k : kind) (i : nat) : Prop := nth_error (cells h) i = Some (MkCell k true).
(** Afterwards the blocks in use are those from before and the different new blocks [l] of numbers *)
Definition only_adds (h h' : heap) (l : list nat) : Prop :=
  NoDup l /\ (forall i k, In i l -> ~ in_use h k i) /\
  (forall k i, in_use h' k i <-> in_use h k i \/ k = KLimbs /\ In i l).
(** No allocation fails between two states *)
Definition no_failure (ora : nat -> bool) (h h' : heap) : Prop := forall n, (clock h <= n < clock h')%nat -> ora n = true.
(** The numbers of a key, in the order in which a context holds them *)
Definition public_numbers (k : rsa_pub) : list Z := [pub_N k; pub_E k].
Definition private_numbers (k : rsa_key) : list Z := [key_N k; key_E k; key_D k; key_P k; key_Q k; key_DP k; key_DQ k; key_QP k].
