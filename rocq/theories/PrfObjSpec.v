(** Specification of programs with Prf objects: a variable holds the 32 bytes of a key, or nothing. *)
From Verif Require Import Base KeyVal HmacSpec PrfObjModel.

Section Spec.
  Variable H : bytes -> bytes.
  Variable NB : Z.
  Definition keys := nat -> option bytes.
  Definition hold (f : keys) (i : nat) (x : option bytes) : keys := fun j => if Nat.eqb j i then x else f j.
  (** The value of the function: HMAC, in counter mode for long outputs *)
  Definition prf_value (kb msg : bytes) : bytes :=
    if NB <=? 64 then firstn (Z.to_nat NB) (rfc_hmac H 128 kb msg) else ctr_mode (rfc_hmac H 128 kb) msg (Z.to_nat NB).
  Definition of_key {A} (o : option bytes) (F : bytes -> A) (no : A) : A := match o with Some kb => F kb | None => no end.
  Definition a_step (f : keys) (op : pop) : keys * outcome bytes :=
    match op with
    | PNew d b => (hold f d (Some b), Ok [])
    | PMove d s => if Nat.eqb d s then (f, Ok []) else (hold (hold f s None) d (f s), Ok [])
    | PEval s msg => (f, of_key (f s) (fun kb => Ok (prf_value kb msg)) (Throw RuntimeError))
    | PDerive d s msg => of_key (f s) (fun kb => (hold f d (Some (prf_value kb msg)), Ok [])) (f, Throw RuntimeError)
    | PSave s => (f, of_key (f s) Ok (Throw RuntimeError))
    | PDestroy s => (hold f s None, Ok [])
    end.
  Fixpoint a_run (f : keys) (l : list pop) : keys * list (outcome bytes) :=
    match l with
    | [] => (f, [])
    | op :: l => let (f, x) := a_step f op in let (f, xs) := a_run f l in (f, x :: xs)
    end.
  (** Keys have 32 bytes; derived keys make a Prf if they have 32 bytes too *)
  Definition typed (op : pop) : Prop :=
    match op with
    | PNew _ b => zlen b = 32
    | PEval _ msg => zlen msg < 2 ^ 63
    | PDerive _ _ msg => NB = 32 /\ zlen msg < 2 ^ 63
    | _ => True
    end.
  (** The program evaluates no variable without a key *)
  Fixpoint held_when_used (f : keys) (l : list pop) : Prop :=
    match l with
    | [] => True
    | op :: l => match op with PEval s _ | PDerive _ s _ => f s <> None | _ => True end /\ held_when_used (fst (a_step f op)) l
    end.
  (** The memory of the objects: the bytes of the key, protected, or nothing *)
  Definition prf_memory (ml : bool) (f : keys) (objs : nat -> vkey) : Prop :=
    forall i, objs i = match f i with Some b => VKey b ml | None => VEmpty end.
End Spec.
