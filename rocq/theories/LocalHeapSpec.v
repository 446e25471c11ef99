(** Functions on messages and their local big numbers: which objects the functions of bignum.c are given. *)
From Verif Require Import Base MpiModel HeapModel HeapSpec TdpHeapModel TdpHeapSpec LocalHeapModel.

(** A function of bignum.c that changes the objects [ts] and its own temporaries *)
Definition changes (ts : list nat) (c : call) : Prop := Forall (fun x => call_ok 48 x /\ forall t, touches x t -> In t ts \/ (32 <= t < 48)%nat) (fst c).
Definition modexp_changes (d : nat) (md : call) (eff : nat -> call) : Prop :=
  changes [23%nat] md /\ forall n, changes [if (n mod 4 <? 2)%nat then d else 23%nat] (eff n).
Definition function_ok (f : function) : Prop :=
  match f with
  | FEval read md ex => changes [16%nat] read /\ changes [16%nat] md /\ changes [16; 8]%nat ex
  | FSample fill md => changes [16%nat] fill /\ changes [16%nat] md
  | FGenerate read md => changes [16%nat] read /\ changes [16%nat] md
  | FPool read ex => changes [16%nat] read /\ changes [16; 8]%nat ex
  | FInvertMult order read mdp mdq effp effq arith _ =>
    0 <= order < 2 ^ 32 /\ changes [16%nat] read /\ modexp_changes 18 mdp effp /\ modexp_changes 19 mdq effq /\
    Forall2 changes [[20; 9]; [21; 10]; [22]; [20]; [22]; [20]; [22]]%nat arith
  end.
(** The key is what some calls have made of its 16 numbers. *)
Definition made_by (ora : nat -> bool) (cs : list command) (h : heap) (key : objs) : Prop :=
  Forall (call_ok 16) cs /\ run ora cs empty_heap (repeat h_init 16) = Ok (h, key).
(** What a function may leave behind when it throws: y, if the arithmetic fails; x, if the input cannot be read and in all other functions; everything, if the result does not fit *)
Definition may_remain (f : function) : list nat :=
  match f with
  | FInvertMult _ _ _ _ _ _ _ true => [0; 6]
  | FInvertMult _ _ _ _ _ _ _ false => [0; 1; 2; 3; 4; 5; 6]
  | _ => [0]
  end%nat.
