(** Model of src/include/sse/crypto/rcprf.hpp (RCPrf, ConstrainedRCPrf and their elements) on top of the model of Prg.

    Members that use a Prg change the lock state of its key, even when they are const: every function takes the object and
    returns it with its outcome.  Callbacks: the calls made are recorded in a list (callbacks that throw are not modelled).
    [dbg]: asserts active.  Uninitialised arrays have any content [gN] (NBYTES bytes), [gK] (32 bytes).
    Allocations succeed. *)
From Verif Require Import Base KeyVal PrgModel.

(** rcprf.hpp:63-75 *)
Definition rc_kKeySize : Z := 32.
Definition kMaxHeight : Z := 65.

(** rcprf.hpp:80-97; [height] is a uint8_t. *)
Definition max_leaf_index (height : Z) : Z :=
  if height =? 0 then 0
  else if kMaxHeight <=? height then UINT64_MAX
  else u64 (2 ^ (height - 1)) - 1.

(** rcprf.hpp:100-106 *)
Definition ranges_intersect (min1 max1 min2 max2 : Z) : bool := (min1 <=? max2) && (min2 <=? max1).

(** A call that threads a key object. *)
Definition kbind {K A B} (r : K * outcome A) (f : K -> A -> K * outcome B) : K * outcome B :=
  match r with
  | (k, Ok a) => f k a
  | (k, Throw e) => (k, Throw e)
  | (k, UB) => (k, UB) | (k, Abort) => (k, Abort) | (k, Diverge) => (k, Diverge)
  end.
(** [assert] in such a call. *)
Definition kassert {K A} (dbg c : bool) (k : K) (r : K * outcome A) : K * outcome A :=
  if c then r else if dbg then (k, Abort) else r.

(** Elements: ConstrainedRCPrfInnerElement (tree height, subtree height, min, max, PRG key) and
    ConstrainedRCPrfLeafElement (tree height, leaf, value; its subtree height is 1).  rcprf.hpp:663-665, 793, 996 *)
Inductive elt :=
| Inner (h st mn mx : Z) (k : vkey)
| Leaf (h lf : Z) (buf : bytes).

(** rcprf.hpp:161-165, 564-579 *)
Definition e_height (e : elt) : Z := match e with Inner h _ _ _ _ => h | Leaf h _ _ => h end.
Definition e_st (e : elt) : Z := match e with Inner _ st _ _ _ => st | Leaf _ _ _ => 1 end.
Definition e_min (e : elt) : Z := match e with Inner _ _ mn _ _ => mn | Leaf _ l _ => l end.
Definition e_max (e : elt) : Z := match e with Inner _ _ _ mx _ => mx | Leaf _ l _ => l end.

(** Checks of the constructor of ConstrainedRCPrfElement, rcprf.hpp:522-555 *)
Definition elt_check (h st mn mx : Z) : outcome unit :=
  if st =? 0 then Throw InvalidArgument
  else if h <=? st then Throw InvalidArgument
  else if mx <? mn then Throw InvalidArgument
  else if negb (mx - mn =? max_leaf_index st) then Throw InvalidArgument
  else Ok tt.

(** Constructors of ConstrainedRCPrfInnerElement, rcprf.hpp:703-715 and 738-750 *)
Definition mk_inner (k : vkey) (h st mn mx : Z) : outcome elt :=
  _ <- elt_check h st mn mx ;;
  if st <=? 1 then Throw InvalidArgument else Ok (Inner h st mn mx k).

(** Constructor of ConstrainedRCPrfLeafElement, rcprf.hpp:948-954 *)
Definition mk_leaf (buf : bytes) (h lf : Z) : outcome elt :=
  _ <- elt_check h 1 lf lf ;; Ok (Leaf h lf buf).

(** The two classes.  rcprf.hpp:346, 1875 and 1333 *)
Record rcprf := mk_rcprf { r_height : Z; r_key : vkey }.
Record crcprf := mk_crcprf { c_height : Z; c_elts : list elt }.

(** get_child, rcprf.hpp:202-211: the shift amount is an int; outside of 0..63 the shift is undefined. *)
Definition get_child (h : Z) (leaf node_depth : Z) : outcome Z :=
  let s := h - node_depth - 2 in
  if (0 <=? s) && (s <? 64) then
    Ok (if Z.land leaf (2 ^ s) =? 0 then 0 else 1)
  else UB.

Section Rcprf.
  Variable blk : bytes -> Z -> bytes.
  Variable ml dbg : bool.
  (** template parameter *)
  Variable NBYTES : Z.
  Variable gN gK : bytes.

  (** base_prg.derive(child * NBYTES, NBYTES, result.data()) *)
  Definition leaf_derive (k : vkey) (child : Z) : vkey * outcome bytes :=
    kbind (derive_buf blk ml k (u32 (child * NBYTES)) NBYTES (Some gN))
          (fun k o => match o with Some b => (k, Ok b) | None => (k, UB) end).

  (** derive_leaf, loop of rcprf.hpp:380-384: [n] iterations from depth [i]; the subkey is a local object. *)
  Fixpoint derive_loop (n : nat) (h leaf i : Z) (subkey : vkey) : outcome vkey :=
    match n with
    | O => Ok subkey
    | S n' =>
      child <- get_child h leaf i ;;
      subkey <- snd (sderive_key blk ml gK subkey rc_kKeySize child) ;;
      derive_loop n' h leaf (i + 1) subkey
    end.

  (** derive_leaf, rcprf.hpp:350-397 *)
  Definition derive_leaf (k : vkey) (h base_depth leaf : Z) : vkey * outcome bytes :=
    kassert dbg (2 <=? h) k (
    kassert dbg (base_depth <? h - 1) k (
    if h =? base_depth + 2 then
      kbind (k, get_child h leaf base_depth) (fun k child => leaf_derive k child)
    else
      kassert dbg (base_depth <? h - 2) k (
      kbind (k, get_child h leaf base_depth) (fun k child =>
      kbind (derive_key blk ml gK k rc_kKeySize child) (fun k subkey =>
      (k,
       subkey <- derive_loop (Z.to_nat (h - 2 - (base_depth + 1))) h leaf (base_depth + 1) subkey ;;
       child <- get_child h leaf (h - 2) ;;
       o <- snd (sderive_buf blk subkey (u32 (child * NBYTES)) NBYTES (Some gN)) ;;
       match o with Some b => Ok b | None => UB end)))))).

  (** The calls of the callback made so far, and how the function ended. *)
  Definition calls := list (Z * bytes).

  (** Sequencing of functions that call the callback. *)
  Definition cbind {K} (r : K * calls * outcome unit) (f : K -> calls -> K * calls * outcome unit) : K * calls * outcome unit :=
    match r with
    | (k, c, Ok _) => f k c
    | r => r
    end.

  (** derive_leaf_range, rcprf.hpp:399-479; [fuel] bounds the recursion depth (it is at most the tree height when the
      function is called on an inner node). *)
  Fixpoint derive_leaf_range (fuel : nat) (k : vkey) (h base_depth tree_offset mn mx : Z) (acc : calls)
      : vkey * calls * outcome unit :=
    match fuel with
    | O => (k, acc, Diverge)
    | S fuel' =>
      if dbg && negb (mn <=? mx) then (k, acc, Abort)
      else if dbg && negb (base_depth + 1 <? h) then (k, acc, Abort)
      else if h =? base_depth + 2 then
        if dbg && negb (u64 (mx - mn) <=? 1) then (k, acc, Abort)
        else
          match kbind (k, get_child h mn base_depth) (fun k child => leaf_derive k child) with
          | (k, Ok result) =>
            let acc := acc ++ [(u64 (tree_offset + mn), result)] in
            if negb (mn =? mx) then
              match leaf_derive k 1 with
              | (k, Ok result) => (k, acc ++ [(u64 (tree_offset + mx), result)], Ok tt)
              | (k, Throw e) => (k, acc, Throw e)
              | (k, UB) => (k, acc, UB) | (k, Abort) => (k, acc, Abort) | (k, Diverge) => (k, acc, Diverge)
              end
            else (k, acc, Ok tt)
          | (k, Throw e) => (k, acc, Throw e)
          | (k, UB) => (k, acc, UB) | (k, Abort) => (k, acc, Abort) | (k, Diverge) => (k, acc, Diverge)
          end
      else if dbg && negb (2 <? h - base_depth) then (k, acc, Abort)
      else
        let threshold := max_leaf_index (u8 (h - base_depth - 1)) in
        cbind
          (if mn <=? threshold then
             match derive_key blk ml gK k rc_kKeySize 0 with
             | (k, Ok subkey) =>
               match derive_leaf_range fuel' subkey h (u8 (base_depth + 1)) tree_offset mn (Z.min mx threshold) acc with
               | (_, acc, o) => (k, acc, o)
               end
             | (k, Throw e) => (k, acc, Throw e)
             | (k, UB) => (k, acc, UB) | (k, Abort) => (k, acc, Abort) | (k, Diverge) => (k, acc, Diverge)
             end
           else (k, acc, Ok tt))
          (fun k acc =>
             if threshold <? mx then
               match derive_key blk ml gK k rc_kKeySize 1 with
               | (k, Ok subkey) =>
                 let sub_min := if mn <=? threshold then 0 else u64 (u64 (mn - threshold) - 1) in
                 let sub_max := u64 (u64 (mx - threshold) - 1) in
                 match derive_leaf_range fuel' subkey h (u8 (base_depth + 1)) (u64 (u64 (tree_offset + threshold) + 1))
                         sub_min sub_max acc with
                 | (_, acc, o) => (k, acc, o)
                 end
               | (k, Throw e) => (k, acc, Throw e)
               | (k, UB) => (k, acc, UB) | (k, Abort) => (k, acc, Abort) | (k, Diverge) => (k, acc, Diverge)
               end
             else (k, acc, Ok tt))
    end.

  (** generate_leaf_from_parent, rcprf.hpp:1630-1650 *)
  Definition gen_leaf (k : vkey) (h smin leaf : Z) : vkey * outcome (list elt) :=
    let child := if leaf =? smin then 0 else 1 in
    kbind (leaf_derive k child) (fun k buf => (k, e <- mk_leaf buf h leaf ;; Ok [e])).

  (** generate_constrained_subkeys_from_node, rcprf.hpp:1652-1741: the elements appended to the vector.  [st] is a
      uint8_t; [fuel] bounds the recursion depth. *)
  Fixpoint gen_subkeys (fuel : nat) (k : vkey) (h st smin smax mn mx : Z) : vkey * outcome (list elt) :=
    match fuel with
    | O => (k, Diverge)
    | S fuel' =>
      if st <=? 2 then
        kassert dbg (mn =? mx) k (gen_leaf k h smin mn)
      else
        let mid := u64 (smax + smin) / 2 in
        kbind
          (if mn <=? mid then
             kbind (derive_key blk ml gK k rc_kKeySize 0) (fun k subkey =>
               if (mn =? smin) && (mid <=? mx) then
                 (k, e <- mk_inner subkey h (u8 (st - 1)) smin mid ;; Ok [e])
               else
                 (k, snd (gen_subkeys fuel' subkey h (u8 (st - 1)) smin mid mn (Z.min mx mid))))
           else (k, Ok []))
          (fun k left =>
             if mid <? mx then
               kbind (derive_key blk ml gK k rc_kKeySize 1) (fun k subkey =>
                 if (mn <=? u64 (mid + 1)) && (mx =? smax) then
                   (k, e <- mk_inner subkey h (u8 (st - 1)) (u64 (mid + 1)) smax ;; Ok (left ++ [e]))
                 else
                   (k, right <- snd (gen_subkeys fuel' subkey h (u8 (st - 1)) (u64 (mid + 1)) smax
                                       (Z.max mn (u64 (mid + 1))) mx) ;;
                       Ok (left ++ right)))
             else (k, Ok left))
    end.

  (** ** RCPrf *)

  (** RCPrf::RCPrf, rcprf.hpp:1778-1789 (and 1899-1916) *)
  Definition mk_rc (k : vkey) (height : Z) : outcome rcprf :=
    if height =? 0 then Throw InvalidArgument
    else if 64 <? height then Throw InvalidArgument
    else Ok (mk_rcprf height k).

  (** x >> n on uint64_t: undefined when n >= 64. *)
  Definition shr64 (x n : Z) : outcome Z := if (0 <=? n) && (n <? 64) then Ok (Z.shiftr x n) else UB.

  (** Change the key of an object. *)
  Definition rset (r : rcprf) (k : vkey) : rcprf := mk_rcprf (r_height r) k.

  (** RCPrf::eval, rcprf.hpp:1938-1947 *)
  Definition rc_eval (r : rcprf) (leaf : Z) : rcprf * outcome bytes :=
    kbind (r, shr64 leaf (r_height r)) (fun r s =>
    if negb (s =? 0) then (r, Throw OutOfRange)
    else let (k, o) := derive_leaf (r_key r) (r_height r) 0 leaf in (rset r k, o)).

  (** RCPrf::eval_range, rcprf.hpp:1949-1965 *)
  Definition rc_eval_range (r : rcprf) (mn mx : Z) : rcprf * calls * outcome unit :=
    match shr64 mx (r_height r) with
    | Ok s =>
      if negb (s =? 0) then (r, [], Throw OutOfRange)
      else if mx <? mn then (r, [], Throw InvalidArgument)
      else
        match derive_leaf_range (Z.to_nat (r_height r)) (r_key r) (r_height r) 0 0 mn mx [] with
        | (k, c, o) => (rset r k, c, o)
        end
    | _ => (r, [], UB)
    end.

  (** RCPrf::generate_constrained_subkeys, rcprf.hpp:1979-2017 *)
  Definition rc_gen (r : rcprf) (mn mx : Z) : rcprf * outcome (list elt) :=
    if mx <? mn then (r, Throw InvalidArgument)
    else if max_leaf_index (r_height r) <? mx then (r, Throw OutOfRange)
    else if (mx =? max_leaf_index (r_height r)) && (mn =? 0) then (r, Throw OutOfRange)
    else
      let (k, o) := gen_subkeys (Z.to_nat (r_height r)) (r_key r) (r_height r) (r_height r) 0
                      (max_leaf_index (r_height r)) mn mx in
      (rset r k, o).

  (** ** Elements *)

  (** ConstrainedRCPrfInnerElement::eval rcprf.hpp:823-846, ConstrainedRCPrfLeafElement::eval 1030-1042 *)
  Definition e_eval (e : elt) (leaf : Z) : elt * outcome bytes :=
    match e with
    | Inner h st mn mx k =>
      if leaf <? mn then (e, Throw OutOfRange)
      else if mx <? leaf then (e, Throw OutOfRange)
      else let (k, o) := derive_leaf k h (u8 (h - st)) leaf in (Inner h st mn mx k, o)
    | Leaf h l buf =>
      if negb (leaf =? l) then (e, Throw OutOfRange) else (e, Ok buf)
    end.

  (** eval_range, rcprf.hpp:848-877 and 1045-1065 *)
  Definition e_eval_range (e : elt) (mn mx : Z) (acc : calls) : elt * calls * outcome unit :=
    match e with
    | Inner h st emn emx k =>
      if mx <? mn then (e, acc, Throw InvalidArgument)
      else if (mn <? emn) || (emx <? mx) then (e, acc, Throw OutOfRange)
      else
        match derive_leaf_range (Z.to_nat h) k h (u8 (h - st)) emn (u64 (mn - emn)) (u64 (mx - emn)) acc with
        | (k, c, o) => (Inner h st emn emx k, c, o)
        end
    | Leaf h l buf =>
      if negb (mx =? mn) then (e, acc, Throw InvalidArgument)
      else if negb (mn =? l) then (e, acc, Throw OutOfRange)
      else (e, acc ++ [(mn, buf)], Ok tt)
    end.

  (** generate_constrained_subkeys, rcprf.hpp:879-918 and 1067-1085 *)
  Definition e_gen (e : elt) (mn mx : Z) : elt * outcome (list elt) :=
    match e with
    | Inner h st emn emx k =>
      if (mn <? emn) || (emx <? mx) then (e, Throw OutOfRange)
      else if (mn =? emn) && (mx =? emx) then
        let (k, o) := prg_duplicate ml k in
        (Inner h st emn emx k, k' <- o ;; e' <- mk_inner k' h st emn emx ;; Ok [e'])
      else
        let (k, o) := gen_subkeys (Z.to_nat h) k h st emn emx mn mx in
        (Inner h st emn emx k, o)
    | Leaf h l buf =>
      if negb (mn =? l) || negb (mx =? l) then (e, Throw OutOfRange)
      else (e, e' <- mk_leaf buf h l ;; Ok [e'])
    end.

  (** ** ConstrainedRCPrf *)

  (** get_element_height, rcprf.hpp:1108-1126 *)
  Definition get_element_height (els : list elt) : outcome Z :=
    match els with
    | [] => Ok 0
    | e :: r => if forallb (fun x => e_height x =? e_height e) r then Ok (e_height e) else Throw InvalidArgument
    end.

  (** std::sort by min_leaf, rcprf.hpp:1154-1164.  (Elements with equal minima may come in any order; the check that follows
      then rejects them, except for elements that span all the 2^64 integers.) *)
  Fixpoint insert_elt (e : elt) (l : list elt) : list elt :=
    match l with
    | [] => [e]
    | x :: l' => if e_min e <=? e_min x then e :: l else x :: insert_elt e l'
    end.
  Definition sort_elts (l : list elt) : list elt := fold_right insert_elt [] l.

  (** The consecutiveness check, rcprf.hpp:1169-1173 *)
  Fixpoint consecutive (els : list elt) : bool :=
    match els with
    | e :: ((e' :: _) as r) => (u64 (e_max e + 1) =? e_min e') && consecutive r
    | _ => true
    end.

  (** Constructor, rcprf.hpp:1148-1175 *)
  Definition mk_c (els : list elt) : outcome crcprf :=
    h <- get_element_height els ;;
    let els := sort_elts els in
    if consecutive els then Ok (mk_crcprf h els) else Throw InvalidArgument.

  (** rcprf.hpp:1217-1246 *)
  Definition c_is_empty (c : crcprf) : bool := match c_elts c with [] => true | _ => false end.
  Definition c_min (c : crcprf) : Z := match c_elts c with [] => UINT64_MAX | e :: _ => e_min e end.
  Definition c_max (c : crcprf) : Z :=
    match c_elts c with [] => 0 | e :: r => e_max (last r e) end.

  (** The loop of eval, rcprf.hpp:1387-1393 *)
  Fixpoint c_eval_loop (els : list elt) (leaf : Z) : list elt * outcome bytes :=
    match els with
    | [] => ([], Throw RuntimeError)
    | e :: r =>
      if (e_min e <=? leaf) && (leaf <=? e_max e) then
        let (e, o) := e_eval e leaf in (e :: r, o)
      else let (r, o) := c_eval_loop r leaf in (e :: r, o)
    end.
  (** ConstrainedRCPrf::eval, rcprf.hpp:1378-1395 *)
  Definition c_eval (c : crcprf) (leaf : Z) : crcprf * outcome bytes :=
    if (leaf <? c_min c) || (c_max c <? leaf) then (c, Throw OutOfRange)
    else let (els, o) := c_eval_loop (c_elts c) leaf in (mk_crcprf (c_height c) els, o).

  (** The loop of eval_range, rcprf.hpp:1415-1430 *)
  Fixpoint c_range_loop (els : list elt) (mn mx : Z) (acc : calls) : list elt * calls * outcome unit :=
    match els with
    | [] => ([], acc, Ok tt)
    | e :: r =>
      if mx <? e_min e then (els, acc, Ok tt)
      else
        if ranges_intersect mn mx (e_min e) (e_max e) then
          match e_eval_range e (Z.max mn (e_min e)) (Z.min mx (e_max e)) acc with
          | (e, acc, Ok _) => let '(r, acc, o) := c_range_loop r mn mx acc in (e :: r, acc, o)
          | (e, acc, Throw x) => (e :: r, acc, Throw x)
          | (e, acc, UB) => (e :: r, acc, UB)
          | (e, acc, Abort) => (e :: r, acc, Abort)
          | (e, acc, Diverge) => (e :: r, acc, Diverge)
          end
        else let '(r, acc, o) := c_range_loop r mn mx acc in (e :: r, acc, o)
    end.
  (** ConstrainedRCPrf::eval_range, rcprf.hpp:1397-1431 *)
  Definition c_eval_range (c : crcprf) (mn mx : Z) : crcprf * calls * outcome unit :=
    if mx <? mn then (c, [], Throw InvalidArgument)
    else if (mn <? c_min c) || (c_max c <? mx) then (c, [], Throw OutOfRange)
    else let '(els, acc, o) := c_range_loop (c_elts c) mn mx [] in (mk_crcprf (c_height c) els, acc, o).

  (** The loop of generate_constrained_subkeys, rcprf.hpp:1449-1460 *)
  Fixpoint c_gen_loop (els : list elt) (mn mx : Z) : list elt * outcome (list elt) :=
    match els with
    | [] => ([], Ok [])
    | e :: r =>
      if ranges_intersect (e_min e) (e_max e) mn mx then
        match e_gen e (Z.max mn (e_min e)) (Z.min mx (e_max e)) with
        | (e, Ok l) => let (r, o) := c_gen_loop r mn mx in (e :: r, l' <- o ;; Ok (l ++ l'))
        | (e, Throw x) => (e :: r, Throw x)
        | (e, UB) => (e :: r, UB)
        | (e, Abort) => (e :: r, Abort)
        | (e, Diverge) => (e :: r, Diverge)
        end
      else let (r, o) := c_gen_loop r mn mx in (e :: r, o)
    end.
  (** ConstrainedRCPrf::generate_constrained_subkeys, rcprf.hpp:1433-1461 *)
  Definition c_gen (c : crcprf) (mn mx : Z) : crcprf * outcome (list elt) :=
    if (mn <? c_min c) || (c_max c <? mx) then (c, Throw OutOfRange)
    else let (els, o) := c_gen_loop (c_elts c) mn mx in (mk_crcprf (c_height c) els, o).

  (** RCPrf::constrain rcprf.hpp:1968-1977, ConstrainedRCPrf::constrain 1463-1472 *)
  Definition rc_constrain (r : rcprf) (mn mx : Z) : rcprf * outcome crcprf :=
    let (r, o) := rc_gen r mn mx in (r, els <- o ;; mk_c els).
  Definition c_constrain (c : crcprf) (mn mx : Z) : crcprf * outcome crcprf :=
    let (c, o) := c_gen c mn mx in (c, els <- o ;; mk_c els).

  (** ** Serialization *)

  (** RCPrf::serialized_size, serialize, rcprf.hpp:1882-1896 *)
  Definition rc_serialized_size (r : rcprf) : Z := prg_kKeySize + 1.
  Definition rc_serialize (r : rcprf) : rcprf * outcome bytes :=
    let (k, o) := prg_serialize ml (r_key r) in
    (rset r k, b <- o ;; Ok (r_height r :: b)).

  (** RCPrf::deserialize, rcprf.hpp:2018-2045: the object, the buffer afterwards, the number of bytes read. *)
  Definition rc_deserialize (buf : bytes) (in_size : Z) : outcome (rcprf * bytes * Z) :=
    if in_size <? 1 then Throw InvalidArgument
    else
      height <- rd1 buf 0 ;;
      '(k, buf', n) <- prg_deserialize ml (skipn 1 buf) (u64 (in_size - 1)) ;;
      r <- mk_rc k height ;;
      Ok (r, firstn 1 buf ++ buf', n + 1).

  (** serialized_size of the elements, rcprf.hpp:795-798, 998-1001 *)
  Definition e_serialized_size (e : elt) : Z := match e with Inner _ _ _ _ _ => prg_kKeySize | Leaf _ _ _ => NBYTES end.
  Definition kSerializedElementInfoSize : Z := 17.
  (** ConstrainedRCPrf::serialized_size, rcprf.hpp:1474-1490 *)
  Definition c_serialized_size (c : crcprf) : Z :=
    fold_left (fun t e => u64 (t + kSerializedElementInfoSize + e_serialized_size e)) (c_elts c) (1 + 4).

  (** serialize_element_info rcprf.hpp:625-634 (little-endian host); serialize 800-803, 1003-1006 *)
  Definition e_info (e : elt) : bytes := e_st e :: le_encode 8 (e_min e) ++ le_encode 8 (e_max e).
  Definition e_serialize (e : elt) : elt * outcome bytes :=
    match e with
    | Inner h st mn mx k => let (k, o) := prg_serialize ml k in (Inner h st mn mx k, o)
    | Leaf h l buf => (e, rd buf 0 NBYTES)
    end.
  (** ConstrainedRCPrf::serialize, rcprf.hpp:1492-1522 *)
  Fixpoint c_ser_loop (els : list elt) : list elt * outcome bytes :=
    match els with
    | [] => ([], Ok [])
    | e :: r =>
      match e_serialize e with
      | (e, Ok b) => let (r, o) := c_ser_loop r in (e :: r, b' <- o ;; Ok (e_info e ++ b ++ b'))
      | (e, Throw x) => (e :: r, Throw x)
      | (e, UB) => (e :: r, UB) | (e, Abort) => (e :: r, Abort) | (e, Diverge) => (e :: r, Diverge)
      end
    end.
  Definition c_serialize (c : crcprf) : crcprf * outcome bytes :=
    kassert dbg (zlen (c_elts c) <=? 2 ^ 32 - 1) c (
    let (els, o) := c_ser_loop (c_elts c) in
    (mk_crcprf (c_height c) els, b <- o ;; Ok (c_height c :: le_encode 4 (u32 (zlen (c_elts c))) ++ b))).

  (** One element, rcprf.hpp:1570-1622 (with 805-820 and 1008-1027).  [pos] = offset_in - in = n_bytes_read.
      Returns the element, the buffer (key bytes are zeroed) and the new position. *)
  Definition c_des_elt (h : Z) (buf : bytes) (pos remaining : Z) : outcome (elt * bytes * Z) :=
    if remaining <=? kSerializedElementInfoSize then Throw RuntimeError
    else
      st <- rd1 buf pos ;;
      bmin <- rd buf (pos + 1) 8 ;;
      bmax <- rd buf (pos + 9) 8 ;;
      let mn := le_decode bmin in
      let mx := le_decode bmax in
      let pos := pos + kSerializedElementInfoSize in
      let remaining := remaining - kSerializedElementInfoSize in
      if (mn =? mx) && (st =? 1) then
        if remaining <? NBYTES then Throw InvalidArgument
        else
          b <- rd buf pos NBYTES ;;
          e <- mk_leaf b h mn ;;
          Ok (e, buf, pos + NBYTES)
      else
        '(k, tl, n) <- prg_deserialize ml (skipn (Z.to_nat pos) buf) remaining ;;
        e <- mk_inner k h st mn mx ;;
        Ok (e, firstn (Z.to_nat pos) buf ++ tl, pos + n).
  Fixpoint c_des_loop (n : nat) (h : Z) (buf : bytes) (pos in_size : Z) : outcome (list elt * bytes * Z) :=
    match n with
    | O => Ok ([], buf, pos)
    | S n' =>
      '(e, buf, pos) <- c_des_elt h buf pos (in_size - pos) ;;
      '(els, buf, pos) <- c_des_loop n' h buf pos in_size ;;
      Ok (e :: els, buf, pos)
    end.
  (** ConstrainedRCPrf::deserialize, rcprf.hpp:1525-1626.  (The allocation of [n_elts] pointers, up to 32 GB, may fail.) *)
  Definition c_deserialize (buf : bytes) (in_size : Z) : outcome (crcprf * bytes * Z) :=
    if in_size <=? 1 + 4 + kSerializedElementInfoSize then Throw InvalidArgument
    else
      h <- rd1 buf 0 ;;
      bn <- rd buf 1 4 ;;
      '(els, buf, pos) <- c_des_loop (Z.to_nat (le_decode bn)) h buf 5 in_size ;;
      c <- mk_c els ;;
      Ok (c, buf, pos).
End Rcprf.
