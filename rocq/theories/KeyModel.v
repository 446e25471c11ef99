(** Model of [sse::crypto::Key<N>] (src/include/sse/crypto/key.hpp, class Key).
    A program is a list of operations over any number of Key objects; the machine state holds the
    secure heap (one cell per [sodium_malloc]) and the Key objects.
    Simplifications: pointer values are allocation numbers; [sodium_malloc] never reuses an address
    while modelled (a freed cell stays freed, so any later use of it is visible as [UB]);
    the guard pages and the wiping done by [sodium_free] are not modelled. *)
From Verif Require Import Base.

(** Page protection of a secure allocation: read/write, read only, no access. *)
Inductive prot := PRW | PRO | PNA.
Inductive cell := Freed | Live (b : bytes) (p : prot).

(** The two data members [content_] and [is_locked_] (key.hpp:406-409). *)
Record kobj := mkK { kptr : option nat; klocked : bool }.

(** Heap and Key objects; [None] is an object that has been destroyed. *)
Record st := mkS { heap : list cell; objs : list (option kobj) }.
Definition init_st : st := mkS [] [].

(** Build/platform configuration: ENABLE_MEMORY_LOCK; whether mprotect is supported (otherwise it fails with ENOSYS). *)
Record cfg := mkCfg { memlock : bool; mpsup : bool }.

(** What the environment answers during one operation. *)
Record env := mkEnv {
  e_alloc : bool;      (* sodium_malloc succeeds *)
  e_garbage : bytes;   (* initial content of the allocation *)
  e_rnd : bytes;       (* bytes delivered by random_bytes *)
  e_mpfail : bool      (* sodium_mprotect_* fails with an error other than ENOSYS *)
}.

Inductive op :=
| ONew                             (* Key() *)
| OFromBuf (buf : option bytes)    (* Key(uint8_t* ), None = nullptr *)
| OCallback (fill : option bytes)  (* Key(callback), None = the callback throws *)
| OMove (i : nat)                  (* Key(Key&&) *)
| OAssign (i j : nat)              (* k_i = std::move(k_j) *)
| OErase (i : nat)
| ODestroy (i : nat)
| OLock (i : nat)
| OUnlock (i : nat)
| OIsEmpty (i : nat)
| OIsLocked (i : nat)
| OData (i : nat)
| OUnlockGet (i : nat)
| OSerialize (i : nat).

(** What the caller observes. *)
Inductive obs :=
| VUnit
| VBool (b : bool)
| VPtr (p : option bytes)   (* a returned pointer: null, or the bytes read through it *)
| VBytes (b : bytes)        (* bytes written to the caller's output *)
| VBuf (b : bytes).         (* the caller's input buffer after the call *)

Fixpoint set_nth {A} (l : list A) (n : nat) (x : A) : list A :=
  match l, n with
  | [], _ => []
  | _ :: l', O => x :: l'
  | y :: l', S n' => y :: set_nth l' n' x
  end.

Section Key.
  Variable c : cfg.
  Variable N : nat.

  (** [sodium_free]: freeing something that is not allocated is undefined. *)
  Definition sfree (h : list cell) (p : nat) : outcome (list cell) :=
    match nth_error h p with
    | Some (Live _ _) => Ok (set_nth h p Freed)
    | _ => UB
    end.

  (** Result of [sodium_mprotect_*(content_)]: (heap, does the C++ code throw).  The code ignores ENOSYS. *)
  Definition mprotect (e : env) (h : list cell) (p : nat) (np : prot) : outcome (list cell * bool) :=
    match nth_error h p with
    | Some (Live b _) =>
      if e_mpfail e then Ok (h, true)
      else if mpsup c then Ok (set_nth h p (Live b np), false) else Ok (h, false)
    | _ => UB
    end.

  (** Reading N bytes through the pointer. *)
  Definition read_cell (h : list cell) (p : nat) : outcome bytes :=
    match nth_error h p with
    | Some (Live b PRW) | Some (Live b PRO) => Ok b
    | _ => UB
    end.

  (** End of the three allocating constructors (key.hpp:114-125, 155-164, 265-274): lock and publish the object.
      When protecting the memory fails the constructor throws and nobody frees the allocation. *)
  Definition finish_ctor (e : env) (s : st) (content : bytes) (v : obs) : st * outcome obs :=
    let h := heap s ++ [Live content PRW] in
    let p := length (heap s) in
    if memlock c then
      match mprotect e h p PNA with
      | Ok (h', true) => (mkS h' (objs s), Throw RuntimeError)
      | Ok (h', false) => (mkS h' (objs s ++ [Some (mkK (Some p) true)]), Ok v)
      | _ => (s, UB)
      end
    else (mkS h (objs s ++ [Some (mkK (Some p) false)]), Ok v).

  (** [Key()] key.hpp:107-126: the random fill is inside of [#ifdef ENABLE_MEMORY_LOCK]. *)
  Definition ctor_default (e : env) (s : st) : st * outcome obs :=
    if e_alloc e then
      finish_ctor e s (if memlock c then e_rnd e else e_garbage e) VUnit
    else (s, Throw BadAlloc).

  (** [Key(uint8_t* )] key.hpp:141-165. *)
  Definition ctor_buf (e : env) (s : st) (buf : option bytes) : st * outcome obs :=
    match buf with
    | None => (s, Throw InvalidArgument)
    | Some b =>
      if e_alloc e then
        match rd b 0 (Z.of_nat N), wr b 0 (zeros N) with
        | Ok k, Ok b' => finish_ctor e s k (VBuf b')
        | _, _ => (s, UB)
        end
      else (s, Throw BadAlloc)
    end.

  (** [Key(callback)] key.hpp:255-275; when the callback throws nobody frees the allocation. *)
  Definition ctor_callback (e : env) (s : st) (fill : option bytes) : st * outcome obs :=
    if e_alloc e then
      match fill with
      | None => (mkS (heap s ++ [Live (e_garbage e) PRW]) (objs s), Throw InvalidArgument)
      | Some b => finish_ctor e s b VUnit
      end
    else (s, Throw BadAlloc).

  Definition get_obj (s : st) (i : nat) : option kobj :=
    match nth_error (objs s) i with Some (Some k) => Some k | _ => None end.

  (** [Key(Key&&)] key.hpp:176-180. *)
  Definition move_ctor (s : st) (i : nat) (k : kobj) : st * outcome obs :=
    (mkS (heap s) (set_nth (objs s) i (Some (mkK None true)) ++ [Some (mkK (kptr k) (klocked k))]), Ok VUnit).

  (** [operator=(Key&&)] key.hpp:208-222. *)
  Definition move_assign (s : st) (i j : nat) (ki kj : kobj) : st * outcome obs :=
    if Nat.eqb i j then (s, Ok VUnit)
    else
      match (match kptr ki with Some p => sfree (heap s) p | None => Ok (heap s) end) with
      | Ok h =>
        (mkS h (set_nth (set_nth (objs s) i (Some (mkK (kptr kj) (klocked kj)))) j (Some (mkK None true))), Ok VUnit)
      | _ => (s, UB)
      end.

  (** [~Key] key.hpp:188-195 and [erase] key.hpp:234-241: free and forget the content, if any. *)
  Definition release (s : st) (i : nat) (k : kobj) (dead : bool) : st * outcome obs :=
    match kptr k with
    | None => (mkS (heap s) (if dead then set_nth (objs s) i None else objs s), Ok VUnit)
    | Some p =>
      match sfree (heap s) p with
      | Ok h => (mkS h (set_nth (objs s) i (if dead then None else Some (mkK None true))), Ok VUnit)
      | _ => (s, UB)
      end
    end.

  (** [is_locked] key.hpp:340-347. *)
  Definition is_locked (k : kobj) : bool := if memlock c then klocked k else false.

  (** [lock] key.hpp:284-298. *)
  Definition lock (e : env) (s : st) (i : nat) (k : kobj) : st * outcome obs :=
    if memlock c then
      match kptr k with
      | Some p =>
        if klocked k then (s, Ok VUnit)
        else match mprotect e (heap s) p PNA with
             | Ok (h, true) => (mkS h (objs s), Throw RuntimeError)
             | Ok (h, false) => (mkS h (set_nth (objs s) i (Some (mkK (Some p) true))), Ok VUnit)
             | _ => (s, UB)
             end
      | None => (s, Ok VUnit)
      end
    else (s, Ok VUnit).

  (** [unlock] key.hpp:307-321. *)
  Definition unlock (e : env) (s : st) (i : nat) (k : kobj) : st * outcome obs :=
    if memlock c then
      match kptr k with
      | Some p =>
        if klocked k then
          match mprotect e (heap s) p PRO with
          | Ok (h, true) => (mkS h (objs s), Throw RuntimeError)
          | Ok (h, false) => (mkS h (set_nth (objs s) i (Some (mkK (Some p) false))), Ok VUnit)
          | _ => (s, UB)
          end
        else (s, Ok VUnit)
      | None => (s, Ok VUnit)
      end
    else (s, Ok VUnit).

  (** The caller reads the N bytes behind a returned pointer. *)
  Definition deref (s : st) (p : nat) : st * outcome obs :=
    match read_cell (heap s) p with
    | Ok b => (s, Ok (VPtr (Some b)))
    | _ => (s, UB)
    end.

  (** [data] key.hpp:357-363. *)
  Definition data (s : st) (k : kobj) : st * outcome obs :=
    if is_locked k then (s, Throw RuntimeError)
    else match kptr k with
         | Some p => deref s p
         | None => (s, Ok (VPtr None))
         end.

  (** [unlock_get] key.hpp:374-382. *)
  Definition unlock_get (e : env) (s : st) (i : nat) (k : kobj) : st * outcome obs :=
    match kptr k with
    | None => (s, Throw RuntimeError)
    | Some p =>
      match unlock e s i k with
      | (s', Ok _) => deref s' p
      | r => r
      end
    end.

  (** [serialize] key.hpp:395-404. *)
  Definition serialize (s : st) (k : kobj) : st * outcome obs :=
    match kptr k with
    | None => (s, Throw RuntimeError)
    | Some p =>
      if is_locked k then (s, Throw RuntimeError)
      else match read_cell (heap s) p with
           | Ok b => (s, Ok (VBytes b))
           | _ => (s, UB)
           end
    end.

  (** One operation.  An operation naming an object that does not exist (any more) cannot be written in a valid
      program; it is skipped. *)
  Definition step (s : st) (eo : env * op) : st * outcome obs :=
    let '(e, o) := eo in
    let with1 i (f : kobj -> st * outcome obs) :=
      match get_obj s i with Some k => f k | None => (s, Ok VUnit) end in
    match o with
    | ONew => ctor_default e s
    | OFromBuf b => ctor_buf e s b
    | OCallback f => ctor_callback e s f
    | OMove i => with1 i (move_ctor s i)
    | OAssign i j => with1 i (fun ki => with1 j (fun kj => move_assign s i j ki kj))
    | OErase i => with1 i (fun k => release s i k false)
    | ODestroy i => with1 i (fun k => release s i k true)
    | OLock i => with1 i (lock e s i)
    | OUnlock i => with1 i (unlock e s i)
    | OIsEmpty i => with1 i (fun k => (s, Ok (VBool (match kptr k with None => true | _ => false end))))
    | OIsLocked i => with1 i (fun k => (s, Ok (VBool (is_locked k))))
    | OData i => with1 i (data s)
    | OUnlockGet i => with1 i (unlock_get e s i)
    | OSerialize i => with1 i (serialize s)
    end.

  (** A program: all the operations, the state and what was observed at each step. *)
  Fixpoint run (s : st) (ops : list (env * op)) : st * list (outcome obs) :=
    match ops with
    | [] => (s, [])
    | o :: ops' =>
      let '(s1, v) := step s o in
      let '(s2, vs) := run s1 ops' in (s2, v :: vs)
    end.
End Key.
