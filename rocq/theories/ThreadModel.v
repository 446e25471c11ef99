(** Several threads that call const functions of the same objects: the accesses to Key::is_locked_ and to the protection of the memory, in single steps.

    The memory of the model is sequentially consistent and every access is atomic; the C++ standard makes two accesses to is_locked_ at the same time, one of them a store, undefined
    (see [race] in ThreadSpec.v).  mprotect succeeds.  Mutexes are those a caller may use; the library has none for keys. *)
From Verif Require Import Base.

(** One access; [UProtect], [USet] and [LProtect], [LSet] are the two parts of unlock and lock after their tests. *)
Inductive instr := Unlock | UProtect | USet | Data | Read | Lock | LProtect | LSet | Acquire | Release.
(** is_locked_, whether the memory can be read, and the thread that holds the caller's mutex *)
Record object := { flag : bool; readable : bool; holder : option nat }.
(** What a thread has still to do: accesses to numbered objects *)
Definition program := list (nat * instr).
Definition update {A} (l : list A) (i : nat) (x : A) : list A := firstn i l ++ x :: skipn (S i) l.

Section Threads.
  (** ENABLE_MEMORY_LOCK *)
  Variable ml : bool.
  (** One step of thread [t] on object [o]: the object and the steps to insert.  [UB]: the memory is not accessible and the process ends with a signal; None: the thread waits. *)
  Definition access (t : nat) (o : object) (i : instr) : outcome (option (object * list instr)) :=
    match i with
    | Unlock => Ok (Some (o, if ml && flag o then [UProtect; USet] else []))  (* key.hpp:307-321 *)
    | UProtect => Ok (Some ({| flag := flag o; readable := true; holder := holder o |}, []))
    | USet => Ok (Some ({| flag := false; readable := readable o; holder := holder o |}, []))
    | Data => if ml && flag o then Throw RuntimeError else Ok (Some (o, []))  (* data and the test of serialize, key.hpp:354-364, 394-400 *)
    | Read => if readable o then Ok (Some (o, [])) else UB
    | Lock => Ok (Some (o, if ml && negb (flag o) then [LProtect; LSet] else []))  (* key.hpp:284-298 *)
    | LProtect => Ok (Some ({| flag := flag o; readable := false; holder := holder o |}, []))
    | LSet => Ok (Some ({| flag := true; readable := readable o; holder := holder o |}, []))
    | Acquire => Ok (match holder o with None => Some ({| flag := flag o; readable := readable o; holder := Some t |}, []) | Some _ => None end)
    | Release => Ok (Some ({| flag := flag o; readable := readable o; holder := None |}, []))
    end.
  (** A step of thread [t]; a thread that waits or has ended does nothing. *)
  Definition step (s : list object * list program) (t : nat) : outcome (list object * list program) :=
    let (os, ps) := s in
    match nth_error ps t with
    | Some ((n, i) :: p) =>
      match nth_error os n with
      | None => UB
      | Some o =>
        r <- access t o i ;;
        match r with
        | None => Ok (os, ps)
        | Some (o, is) => Ok (update os n o, update ps t (map (pair n) is ++ p))
        end
      end
    | _ => Ok (os, ps)
    end.
  (** A schedule says which thread makes the next step. *)
  Fixpoint run (s : list object * list program) (ts : list nat) : outcome (list object * list program) :=
    match ts with [] => Ok s | t :: ts => s <- step s t ;; run s ts end.
End Threads.

(** The accesses of the const functions; [n]: how many times the memory is read *)
Definition prg_call (n : nat) : list instr := Unlock :: repeat Read n ++ [Lock].  (* derive, duplicate, prg.cpp:137-138, 205-206; decrypt of Prp, prp.cpp:254-262; Wrapper, wrapper.hpp:236-241, 286-291 *)
Definition cipher_call (n : nat) : list instr := Unlock :: Data :: repeat Read n ++ [Lock].  (* encrypt, decrypt, cipher.cpp:72-85, 137-150; serialize, cipher.cpp:195-197, prg.cpp:213-215, prf.hpp:225-227, prp.cpp:302-304 *)
Definition hmac_call (n m : nat) : list instr := Unlock :: Data :: repeat Read n ++ Data :: repeat Read m ++ [Lock].  (* HMac::hmac and so Prf, hmac.hpp:205-248 *)
Definition prp_encrypt_call (n : nat) : list instr := Unlock :: repeat Read n.  (* encrypt of Prp, prp.cpp:192-199 *)
(** An object after construction: locked *)
Definition locked_object (ml : bool) : object := {| flag := ml; readable := negb ml; holder := None |}.
