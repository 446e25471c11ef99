(** Objects of src/ppke/relic_wrapper/relic_api.h: ZR, G1, G2 and GT in memory, with constructors, assignments, moves and destructors.

    An object is a place in memory with its contents (for ZR the numbers z and order) and the member isInit; the memory of a destroyed object keeps its contents until it is used again.
    RELIC is not in the repository.  Trusted: with ALLOC equal to AUTO (the default), the types bn_t, g1_t, g2_t, gt_t are arrays of one structure, bn_new initialises the structure and bn_free and the like do nothing; with DYNAMIC they are pointers, bn_new assigns an allocated one, bn_free releases it.
    The values that constructors give are in RelicModel.v and ZrTextModel.v; here they are arguments.  Moves exist only if macros RELICXX_MOVE... are defined, which no file of the repository does; with DYNAMIC they do not compile (relic_api.h:163, 474: "nulltpr"). *)
From Verif Require Import Base.

Inductive alloc := AUTO | DYNAMIC.
(** The four classes *)
Inductive class := ClassZR | ClassG1 | ClassG2 | ClassGT.
Section Objects.
  (** Contents, and what sodium_memzero of the first member leaves: for ZR the order stays (relic_api.h:158), for the groups nothing *)
  Context {A : Type}.
  Variable wiped : A -> A.
  Variable mode : alloc.
  Variable cls : class.
  Record object := { alive : bool; isInit : bool; contents : A }.
  (** Whether core_get() is not null, and the memory *)
  Definition state : Type := bool * list object.
  Inductive op :=
  | Core (b : bool)              (* a relicResourceHandle is made or destroyed *)
  | Make (v : nat) (a : A)       (* a constructor, relic_api.h:108-127, 331-337, 434-440, 535-541; relic_api.cpp:42-77, 283-289, 394-400, 513-521 *)
  | CopyInit (v w : nat)         (* relic_api.h:129-138, 338-343, 441-446, 542-548 *)
  | MoveInit (v w : nat)         (* relic_api.h:141-144, 354-357, 457-460; GT has none *)
  | Assign (v w : nat)           (* relic_api.h:176-196, 378-402, 481-505, 559-583 *)
  | MoveAssign (v w : nat)       (* relic_api.h:146-167, 358-374, 461-477, 585-601 *)
  | Destroy (v : nat).           (* relic_api.h:169-175, 345-352, 448-455, 550-557 *)
  Definition put (os : list object) (v : nat) (o : object) : list object := firstn v os ++ o :: skipn (S v) os.
  (** bn_inits and the like, common.h:72-101, followed by a function that stores to the member: the argument is passed by value, so that a pointer that bn_new makes is lost and the member stays uninitialised *)
  Definition inits_and_store : outcome unit := match mode with AUTO => Ok tt | DYNAMIC => UB end.
  (** The copy constructors of G1 and G2 do not call error_if_relic_not_init *)
  Definition copy_checks : bool := match cls with ClassG1 | ClassG2 => false | _ => true end.
  (** The new object made in the memory of a dead one *)
  Definition construct (checks : bool) (s : state) (v : nat) (a : A) : outcome (state * option exn) :=
    let '(c, os) := s in
    match nth_error os v with
    | Some {| alive := false |} =>
      if checks && negb c then Ok (s, Some RuntimeError)
      else _ <- inits_and_store ;; Ok ((c, put os v {| alive := true; isInit := true; contents := a |}), None)
    | _ => UB
    end.
  (** operator= (&&) on live objects; the freed member of the left side is not looked at (AUTO) *)
  Definition move (os : list object) (v w : nat) (x y : object) : list object :=
    if negb (v =? w)%nat && isInit y then put (put os v {| alive := true; isInit := true; contents := contents y |}) w {| alive := true; isInit := false; contents := wiped (contents y) |}
    else os.
  Definition step (s : state) (p : op) : outcome (state * option exn) :=
    let '(c, os) := s in
    match p with
    | Core b => Ok ((b, os), None)
    | Make v a => construct true s v a
    | CopyInit v w =>
      match nth_error os w with
      | Some {| alive := true; contents := a |} => construct copy_checks s v a
      | _ => UB
      end
    | MoveInit v w =>
      match nth_error os v, nth_error os w with
      | Some ({| alive := false |} as x), Some ({| alive := true |} as y) =>
        match cls with
        | ClassGT => construct copy_checks s v (contents y)
        | _ =>
          (* isInit{false}, then *this = std::move(other) *)
          let x := {| alive := true; isInit := false; contents := contents x |} in
          Ok ((c, move (put os v x) v w x y), None)
        end
      | _, _ => UB
      end
    | Assign v w =>
      match nth_error os v, nth_error os w with
      | Some {| alive := true; isInit := i |}, Some {| alive := true; contents := a |} =>
        if i then Ok ((c, put os v {| alive := true; isInit := true; contents := a |}), None) else Ok (s, Some InvalidArgument)
      | _, _ => UB
      end
    | MoveAssign v w =>
      match nth_error os v, nth_error os w with
      | Some ({| alive := true |} as x), Some ({| alive := true |} as y) => Ok ((c, move os v w x y), None)
      | _, _ => UB
      end
    | Destroy v =>
      match nth_error os v with
      | Some {| alive := true; isInit := i; contents := a |} => Ok ((c, put os v {| alive := false; isInit := i; contents := a |}), None)
      | _ => UB
      end
    end.
  Fixpoint run (s : state) (ps : list op) : outcome (state * list (option exn)) :=
    match ps with
    | [] => Ok (s, [])
    | p :: ps => '(s, e) <- step s p ;; '(s, es) <- run s ps ;; Ok (s, e :: es)
    end.
End Objects.
(** The contents of a ZR *)
Record zr := { z : Z; order : Z }.
Definition zr_wiped (x : zr) : zr := {| z := 0; order := order x |}.
