(** Programs on trapdoor permutation objects: what the parts that are not modelled may do. *)
From Verif Require Import Base MpiModel HeapModel HeapSpec TdpHeapModel.

(** The objects a call may change *)
Definition touches (c : command) (t : nat) : Prop :=
  match c with
  | CGrow i _ | CShrink i _ | CFree i | CWrite i _ | CLset i _ => t = i
  | CCopy i _ => t = i
  | CSwap i j => t = i \/ t = j
  end.
(** [k] variables and the temporary context, numbered [k]: 16 objects each *)
Definition size (k : nat) : nat := (16 * S k)%nat.
(** A call that changes only the objects number [a] to [b] of variable [i] *)
Definition within (k i a b : nat) (c : command) : Prop := call_ok (size k) c /\ forall t, touches c t -> exists j, (a <= j <= b)%nat /\ t = at_ i j.
Definition subs_ok (k i : nat) (subs : list (list command * bool)) : Prop := exists c14 c15 c13 r14 r15 r13,
  subs = [(c14, r14); (c15, r15); (c13, r13)] /\ Forall (within k i 14 14) c14 /\ Forall (within k i 15 15) c15 /\ Forall (within k i 13 13) c13.
Definition statement_ok (k : nat) (s : statement) : Prop :=
  match s with
  | SPublic i fill _ => (i < k)%nat /\ Forall (within k k 0 12) fill
  | SPrivate i fill _ subs => (i < k)%nat /\ Forall (within k k 0 12) fill /\ subs_ok k i subs
  | SGenerate i fill _ subs => (i < k)%nat /\ Forall (within k i 0 12) fill /\ subs_ok k i subs
  | SCopy i j => (i < k)%nat /\ (j < k)%nat
  | SAssign i j => (i < k)%nat /\ (j < k)%nat
  | SUse i cs => (i < k)%nat /\ Forall (within k i 8 12) cs     (* RN, RP, RQ, Vi and Vf *)
  | SDestroy i => (i < k)%nat
  end.
(** The constructors of TdpInverseImpl_mbedTLS do not fail after they have begun to compute p_1_. *)
Definition no_late_failure (s : statement) : Prop :=
  match s with
  | SPrivate _ _ _ subs | SGenerate _ _ _ subs => Forall (fun x => snd x = true) subs
  | _ => True
  end.
Definition start (k : nat) : tstate := MkT empty_heap (repeat h_init (size k)) (repeat Dead k).
(** Destroying all variables *)
Definition destroy_all (k : nat) : list statement := map SDestroy (seq 0 k).
