(** Specification of callbacks: they are called in turn. *)
From Verif Require Import Base.

Section Spec.
  Variable F X : Type.
  Variable cb : F -> X -> Z -> bytes -> F * (X * outcome unit).
  (** One callback is called with each value, until a call throws; every call finds what the calls before have left *)
  Fixpoint in_turn (f : F) (x : X) (l : list (Z * bytes)) : F * (X * outcome unit) :=
    match l with
    | [] => (f, (x, Ok tt))
    | (i, v) :: l =>
      match cb f x i v with
      | (f, (x, Ok _)) => in_turn f x l
      | r => r
      end
    end.
  (** The callback does not change the state inside of it *)
  Definition keeps_state : Prop := forall f x i v, fst (cb f x i v) = f.
End Spec.
