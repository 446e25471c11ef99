(** Objects of relic_api.h as variables. *)
From Verif Require Import Base RelicObjModel.

Section Vars.
  Context {A : Type}.
  (** A variable: none, one that holds a value, or one whose value has been moved away *)
  Inductive var := Nothing | Holds (a : A) | Moved.
  Definition set_at (vs : list var) (v : nat) (x : var) : list var := map (fun iv => if (fst iv =? v)%nat then x else snd iv) (combine (seq 0 (length vs)) vs).
  Definition at_ (vs : list var) (v : nat) : option var := nth_error vs v.
  (** What the program means, for programs that make variables where there are none, and use only values that variables hold; [None] for other programs.  Exceptions leave the variables as they are. *)
  Definition meaning (cls : class) (core : bool) (vs : list var) (p : @op A) : option (bool * list var * option exn) :=
    match p with
    | Core b => Some (b, vs, None)
    | Make v a => match at_ vs v with Some Nothing => Some (if core then (core, set_at vs v (Holds a), None) else (core, vs, Some RuntimeError)) | _ => None end
    | CopyInit v w =>
      match at_ vs v, at_ vs w with
      | Some Nothing, Some (Holds a) => Some (if core || match cls with ClassG1 | ClassG2 => true | _ => false end then (core, set_at vs v (Holds a), None) else (core, vs, Some RuntimeError))
      | _, _ => None
      end
    | MoveInit v w =>
      match at_ vs v, at_ vs w with
      | Some Nothing, Some (Holds a) =>
        match cls with
        | ClassGT => Some (if core then (core, set_at vs v (Holds a), None) else (core, vs, Some RuntimeError))
        | _ => Some (core, set_at (set_at vs v (Holds a)) w Moved, None)
        end
      | _, _ => None
      end
    | Assign v w =>
      match at_ vs v, at_ vs w with
      | Some (Holds _), Some (Holds a) => Some (core, set_at vs v (Holds a), None)
      | Some Moved, Some (Holds _) => Some (core, vs, Some InvalidArgument)
      | _, _ => None
      end
    | MoveAssign v w =>
      match at_ vs v, at_ vs w with
      | Some (Holds _ | Moved), Some (Holds a) => Some (core, if (v =? w)%nat then vs else set_at (set_at vs v (Holds a)) w Moved, None)
      | _, _ => None
      end
    | Destroy v => match at_ vs v with Some (Holds _ | Moved) => Some (core, set_at vs v Nothing, None) | _ => None end
    end.
  Fixpoint meanings (cls : class) (core : bool) (vs : list var) (ps : list (@op A)) : option (bool * list var * list (option exn)) :=
    match ps with
    | [] => Some (core, vs, [])
    | p :: ps =>
      match meaning cls core vs p with
      | None => None
      | Some (core, vs, e) => match meanings cls core vs ps with None => None | Some (core, vs, es) => Some (core, vs, e :: es) end
      end
    end.
  (** An object holds what the variable does *)
  Definition shows (o : @object A) (x : var) : Prop :=
    match x with Nothing => alive o = false | Holds a => alive o = true /\ isInit o = true /\ contents o = a | Moved => alive o = true /\ isInit o = false end.
End Vars.
Arguments var : clear implicits.
