(** Threads that use objects. *)
From Verif Require Import Base ThreadModel.

(** The functions of the library *)
Inductive const_call : list instr -> Prop :=
| is_prg n : const_call (prg_call n)
| is_cipher n : const_call (cipher_call n)
| is_hmac n m : const_call (hmac_call n m)
| is_prp_encrypt n : const_call (prp_encrypt_call n).
(** A call on an object, and the same between acquiring and releasing the mutex of the object *)
Definition on (c : nat * list instr) : program := map (pair (fst c)) (snd c).
Definition guarded (c : nat * list instr) : program := (fst c, Acquire) :: on c ++ [(fst c, Release)].
(** Calls on existing objects *)
Definition calls (n : nat) (cs : list (nat * list instr)) : Prop := Forall (fun c => (fst c < n)%nat /\ const_call (snd c)) cs.
(** The accesses to is_locked_: tests and stores *)
Definition stores (i : instr) : bool := match i with USet | LSet => true | _ => false end.
Definition tests (i : instr) : bool := match i with Unlock | Data | Lock => true | _ => false end.
(** A data race: two threads are about to access is_locked_ of the same object, one of them with a store. *)
Definition race (ps : list program) : Prop := exists t u n i j p q, t <> u /\ nth_error ps t = Some ((n, i) :: p) /\ nth_error ps u = Some ((n, j) :: q) /\
  stores i = true /\ stores j || tests j = true.
(** The flag says what the protection is. *)
Definition consistent (o : object) : Prop := flag o = negb (readable o).
Definition finished (ps : list program) : Prop := Forall (fun p => p = []) ps.
