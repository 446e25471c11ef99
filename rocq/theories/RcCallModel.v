(** Model of the callbacks of eval_range, src/include/sse/crypto/rcprf.hpp: callbacks that throw, that change the variables of
    the caller, and that have a state of their own.  What is computed is as in [RcprfModel]. *)
From Verif Require Import Base KeyVal PrgModel RcprfModel.

Section RcCall.
  Variable blk : bytes -> Z -> bytes.
  Variable ml dbg : bool.
  Variable NBYTES : Z.
  Variable gN gK : bytes.
  (** The state inside of a std::function (copied with it), the variables of the caller, and a call *)
  Variable F X : Type.
  Variable cb : F -> X -> Z -> bytes -> F * (X * outcome unit).

  Definition xbind (r : vkey * (X * outcome unit)) (g : vkey -> X -> vkey * (X * outcome unit)) : vkey * (X * outcome unit) :=
    match r with
    | (k, (x, Ok _)) => g k x
    | r => r
    end.
  (** A derivation that has failed *)
  Definition xfail {A} (k : vkey) (x : X) (o : outcome A) : vkey * (X * outcome unit) :=
    (k, (x, match o with Throw e => Throw e | Abort => Abort | Diverge => Diverge | _ => UB end)).

  (** derive_leaf_range, rcprf.hpp:399-479.  The callback is a parameter by value: [f] is the copy of this call, the recursive calls
      get copies of it and their copies are forgotten *)
  Fixpoint derive_leaf_range_cb (fuel : nat) (k : vkey) (h base_depth tree_offset mn mx : Z) (f : F) (x : X)
      : vkey * (X * outcome unit) :=
    match fuel with
    | O => (k, (x, Diverge))
    | S fuel' =>
      if dbg && negb (mn <=? mx) then (k, (x, Abort))
      else if dbg && negb (base_depth + 1 <? h) then (k, (x, Abort))
      else if h =? base_depth + 2 then
        if dbg && negb (u64 (mx - mn) <=? 1) then (k, (x, Abort))
        else
          match kbind (k, get_child h mn base_depth) (fun k child => leaf_derive blk ml NBYTES gN k child) with
          | (k, Ok result) =>
            match cb f x (u64 (tree_offset + mn)) result with
            | (f, (x, Ok _)) =>
              if negb (mn =? mx) then
                match leaf_derive blk ml NBYTES gN k 1 with
                | (k, Ok result) => (k, snd (cb f x (u64 (tree_offset + mx)) result))
                | (k, o) => xfail k x o
                end
              else (k, (x, Ok tt))
            | (_, r) => (k, r)
            end
          | (k, o) => xfail k x o
          end
      else if dbg && negb (2 <? h - base_depth) then (k, (x, Abort))
      else
        let threshold := max_leaf_index (u8 (h - base_depth - 1)) in
        xbind
          (if mn <=? threshold then
             match derive_key blk ml gK k rc_kKeySize 0 with
             | (k, Ok subkey) => (k, snd (derive_leaf_range_cb fuel' subkey h (u8 (base_depth + 1)) tree_offset mn (Z.min mx threshold) f x))
             | (k, o) => xfail k x o
             end
           else (k, (x, Ok tt)))
          (fun k x =>
             if threshold <? mx then
               match derive_key blk ml gK k rc_kKeySize 1 with
               | (k, Ok subkey) =>
                 let sub_min := if mn <=? threshold then 0 else u64 (u64 (mn - threshold) - 1) in
                 let sub_max := u64 (u64 (mx - threshold) - 1) in
                 (k, snd (derive_leaf_range_cb fuel' subkey h (u8 (base_depth + 1)) (u64 (u64 (tree_offset + threshold) + 1)) sub_min sub_max f x))
               | (k, o) => xfail k x o
               end
             else (k, (x, Ok tt)))
    end.

  (** RCPrf::eval_range, rcprf.hpp:1949-1965 *)
  Definition rc_eval_range_cb (r : rcprf) (mn mx : Z) (f : F) (x : X) : rcprf * (X * outcome unit) :=
    match shr64 mx (r_height r) with
    | Ok s =>
      if negb (s =? 0) then (r, (x, Throw OutOfRange))
      else if mx <? mn then (r, (x, Throw InvalidArgument))
      else
        match derive_leaf_range_cb (Z.to_nat (r_height r)) (r_key r) (r_height r) 0 0 mn mx f x with
        | (k, r') => (rset r k, r')
        end
    | _ => (r, (x, UB))
    end.

  (** eval_range of elements, rcprf.hpp:848-877 and 1045-1065.  The callback is a parameter by reference: an inner element copies it,
      a leaf calls it *)
  Definition e_eval_range_cb (e : elt) (mn mx : Z) (f : F) (x : X) : elt * (F * (X * outcome unit)) :=
    match e with
    | Inner h st emn emx k =>
      if mx <? mn then (e, (f, (x, Throw InvalidArgument)))
      else if (mn <? emn) || (emx <? mx) then (e, (f, (x, Throw OutOfRange)))
      else
        match derive_leaf_range_cb (Z.to_nat h) k h (u8 (h - st)) emn (u64 (mn - emn)) (u64 (mx - emn)) f x with
        | (k, r) => (Inner h st emn emx k, (f, r))
        end
    | Leaf h l buf =>
      if negb (mx =? mn) then (e, (f, (x, Throw InvalidArgument)))
      else if negb (mn =? l) then (e, (f, (x, Throw OutOfRange)))
      else (e, cb f x mn buf)
    end.
  (** The loop of ConstrainedRCPrf::eval_range, rcprf.hpp:1415-1430 *)
  Fixpoint c_range_loop_cb (els : list elt) (mn mx : Z) (f : F) (x : X) : list elt * (X * outcome unit) :=
    match els with
    | [] => ([], (x, Ok tt))
    | e :: r =>
      if mx <? e_min e then (els, (x, Ok tt))
      else
        if ranges_intersect mn mx (e_min e) (e_max e) then
          match e_eval_range_cb e (Z.max mn (e_min e)) (Z.min mx (e_max e)) f x with
          | (e, (f, (x, Ok _))) => let (r, z) := c_range_loop_cb r mn mx f x in (e :: r, z)
          | (e, (_, z)) => (e :: r, z)
          end
        else let (r, z) := c_range_loop_cb r mn mx f x in (e :: r, z)
    end.
  (** ConstrainedRCPrf::eval_range, rcprf.hpp:1397-1431 *)
  Definition c_eval_range_cb (c : crcprf) (mn mx : Z) (f : F) (x : X) : crcprf * (X * outcome unit) :=
    if mx <? mn then (c, (x, Throw InvalidArgument))
    else if (mn <? c_min c) || (c_max c <? mx) then (c, (x, Throw OutOfRange))
    else let (els, z) := c_range_loop_cb (c_elts c) mn mx f x in (mk_crcprf (c_height c) els, z).
End RcCall.
