(** Specification of Key objects without heap, pointers or page protections: an object is destroyed,
    empty, or a value (bytes, lock flag). *)
From Verif Require Import Base KeyModel.

Inductive sobj := SDead | SEmpty | SKey (b : bytes) (locked : bool).

Section Spec.
  Variable c : cfg.
  Variable N : nat.

  (** An object is published unless the allocation or the protection fails. *)
  Definition s_ctor (e : env) (s : list sobj) (b : bytes) (v : obs) : list sobj * outcome obs :=
    if memlock c && e_mpfail e then (s, Throw RuntimeError)
    else (s ++ [SKey b (memlock c)], Ok v).

  Definition s_get (s : list sobj) (i : nat) : sobj := nth i s SDead.

  Definition s_step (s : list sobj) (eo : env * op) : list sobj * outcome obs :=
    let '(e, o) := eo in
    match o with
    | ONew =>
      if e_alloc e then s_ctor e s (if memlock c then e_rnd e else e_garbage e) VUnit else (s, Throw BadAlloc)
    | OFromBuf None => (s, Throw InvalidArgument)
    | OFromBuf (Some b) =>
      if e_alloc e then s_ctor e s (firstn N b) (VBuf (zeros N ++ skipn N b)) else (s, Throw BadAlloc)
    | OCallback f =>
      if e_alloc e then match f with Some b => s_ctor e s b VUnit | None => (s, Throw InvalidArgument) end
      else (s, Throw BadAlloc)
    | OMove i =>
      match s_get s i with
      | SDead => (s, Ok VUnit)
      | k => (set_nth s i SEmpty ++ [k], Ok VUnit)
      end
    | OAssign i j =>
      match s_get s i, s_get s j with
      | SDead, _ | _, SDead => (s, Ok VUnit)
      | _, k => (if Nat.eqb i j then s else set_nth (set_nth s i k) j SEmpty, Ok VUnit)
      end
    | OErase i =>
      match s_get s i with SDead => (s, Ok VUnit) | _ => (set_nth s i SEmpty, Ok VUnit) end
    | ODestroy i => (set_nth s i SDead, Ok VUnit)
    | OLock i =>
      match s_get s i with
      | SKey b l =>
        if memlock c && negb l then
          if e_mpfail e then (s, Throw RuntimeError) else (set_nth s i (SKey b true), Ok VUnit)
        else (s, Ok VUnit)
      | _ => (s, Ok VUnit)
      end
    | OUnlock i =>
      match s_get s i with
      | SKey b l =>
        if memlock c && l then
          if e_mpfail e then (s, Throw RuntimeError) else (set_nth s i (SKey b false), Ok VUnit)
        else (s, Ok VUnit)
      | _ => (s, Ok VUnit)
      end
    | OIsEmpty i =>
      match s_get s i with
      | SDead => (s, Ok VUnit) | SEmpty => (s, Ok (VBool true)) | SKey _ _ => (s, Ok (VBool false))
      end
    | OIsLocked i =>
      match s_get s i with
      | SDead => (s, Ok VUnit) | SEmpty => (s, Ok (VBool (memlock c))) | SKey _ l => (s, Ok (VBool l))
      end
    | OData i =>
      match s_get s i with
      | SDead => (s, Ok VUnit)
      | SEmpty => (s, if memlock c then Throw RuntimeError else Ok (VPtr None))
      | SKey b l => (s, if l then Throw RuntimeError else Ok (VPtr (Some b)))
      end
    | OUnlockGet i =>
      match s_get s i with
      | SDead => (s, Ok VUnit)
      | SEmpty => (s, Throw RuntimeError)
      | SKey b l =>
        if l then
          if e_mpfail e then (s, Throw RuntimeError) else (set_nth s i (SKey b false), Ok (VPtr (Some b)))
        else (s, Ok (VPtr (Some b)))
      end
    | OSerialize i =>
      match s_get s i with
      | SDead => (s, Ok VUnit)
      | SEmpty => (s, Throw RuntimeError)
      | SKey b l => (s, if l then Throw RuntimeError else Ok (VBytes b))
      end
    end.

  Fixpoint s_run (s : list sobj) (ops : list (env * op)) : list sobj * list (outcome obs) :=
    match ops with
    | [] => (s, [])
    | o :: ops' =>
      let '(s1, v) := s_step s o in
      let '(s2, vs) := s_run s1 ops' in (s2, v :: vs)
    end.
End Spec.

(** What a caller must respect: a buffer given to the constructor has at least [N] bytes. *)
Definition op_ok (N : nat) (eo : env * op) : Prop :=
  match snd eo with
  | OFromBuf (Some b) => (N <= length b)%nat
  | _ => True
  end.

(** Constructors that succeed or fail before allocating: no failure of mprotect, no exception in a callback. *)
Definition op_noleak (eo : env * op) : Prop :=
  match snd eo with
  | ONew | OFromBuf _ => e_mpfail (fst eo) = false
  | OCallback f => e_mpfail (fst eo) = false /\ f <> None
  | _ => True
  end.

(** [i] owns the allocation [p]. *)
Definition owns (s : st) (i p : nat) : Prop := exists k, get_obj s i = Some k /\ kptr k = Some p.
Definition live (s : st) (p : nat) : Prop := exists b pr, nth_error (heap s) p = Some (Live b pr).

(** States reached by a program. *)
Definition reachable (c : cfg) (N : nat) (s : st) : Prop :=
  exists ops vs, Forall (op_ok N) ops /\ run c N init_st ops = (s, vs).

(** The operations after which object [i] is empty. *)
Definition empties (i : nat) (o : op) : Prop :=
  match o with
  | OMove j => j = i
  | OAssign a j => j = i /\ a <> i
  | OErase j => j = i
  | _ => False
  end.

(** The object built by the step from [s] to [s'] exists, has the default lock state and yields [b]. *)
Definition fresh_holds (c : cfg) (N : nat) (s s' : st) (b : bytes) : Prop :=
  exists k, get_obj s' (length (objs s)) = Some k /\ is_locked c k = memlock c /\
    forall e, e_mpfail e = false -> snd (step c N s' (e, OUnlockGet (length (objs s)))) = Ok (VPtr (Some b)).
