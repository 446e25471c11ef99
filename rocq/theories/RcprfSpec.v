(** Specification of the range-constrained PRF: a binary tree of keys. *)
From Verif Require Import Base KeyVal PrgSpec RcprfModel.

Section Tree.
  Variable blk : bytes -> Z -> bytes.
  (** ENABLE_MEMORY_LOCK: keys at rest are locked when it is set. *)
  Variable ml : bool.
  (** Size of the leaf values. *)
  Variable NBYTES : Z.

  (** Key of the left (0) or right (1) child: a 32-byte window of the PRG stream. *)
  Definition child_key (k : bytes) (b : Z) : bytes := stream_window (chacha_stream blk k) (b * 32) 32.
  (** Value of the left or right leaf under a node. *)
  Definition leaf_under (k : bytes) (b : Z) : bytes := stream_window (chacha_stream blk k) (b * NBYTES) NBYTES.

  (** Key of node number [idx] at depth [d]: its parent is node [idx / 2] at depth [d - 1]. *)
  Fixpoint node_key (root : bytes) (d : nat) (idx : Z) : bytes :=
    match d with
    | O => root
    | S d' => child_key (node_key root d' (idx / 2)) (idx mod 2)
    end.

  (** Value of leaf number [leaf] in a tree of height [h >= 2] (the leaves are at depth h-1). *)
  Definition leaf_value (root : bytes) (h leaf : Z) : bytes :=
    leaf_under (node_key root (Z.to_nat (h - 2)) (leaf / 2)) (leaf mod 2).

  (** The leaves of [lo, hi] with their values, in order. *)
  Definition leaves (root : bytes) (h lo hi : Z) : list (Z * bytes) :=
    map (fun i => (i, leaf_value root h i)) (zseq lo (Z.to_nat (hi - lo + 1))).

  (** An element is the root of a complete subtree of the tree of height [h]: number [idx] among the nodes whose subtree has
      2^(st-1) leaves; or a leaf with its value. *)
  Definition subtree_of (root : bytes) (h : Z) (e : elt) : Prop :=
    match e with
    | Inner h' st mn mx k =>
      h' = h /\ 2 <= st < h /\
      exists idx, 0 <= idx < 2 ^ (h - st) /\ mn = idx * 2 ^ (st - 1) /\ mx = (idx + 1) * 2 ^ (st - 1) - 1 /\
                    k = VKey (node_key root (Z.to_nat (h - st)) idx) ml
    | Leaf h' lf b => h' = h /\ 0 <= lf < 2 ^ (h - 1) /\ b = leaf_value root h lf
    end.

  (** The ranges of the elements follow each other from [lo] to [hi]. *)
  Fixpoint tiles (els : list elt) (lo hi : Z) : Prop :=
    match els with
    | [] => lo = hi + 1
    | e :: r => e_min e = lo /\ e_min e <= e_max e /\ tiles r (e_max e + 1) hi
    end.

  (** Decomposition of [lo, hi] into maximal subtrees, from node [idx] with subtree height [n+1]. *)
  Fixpoint decompose (root : bytes) (h : Z) (n : nat) (idx lo hi : Z) : list elt :=
    let smin := idx * 2 ^ Z.of_nat n in
    let smax := (idx + 1) * 2 ^ Z.of_nat n - 1 in
    if hi <? lo then []
    else match n with
         | O => [Leaf h idx (leaf_value root h idx)]
         | S n' =>
           if (lo =? smin) && (hi =? smax) then
             [Inner h (Z.of_nat n + 1) smin smax (VKey (node_key root (Z.to_nat (h - 1) - n) idx) ml)]
           else
             let mid := (2 * idx + 1) * 2 ^ Z.of_nat n' - 1 in
             decompose root h n' (2 * idx) lo (Z.min hi mid) ++ decompose root h n' (2 * idx + 1) (Z.max lo (mid + 1)) hi
         end.

  (** A constrained key for the range [lo, hi] of the tree. *)
  Definition constrained_to (root : bytes) (h lo hi : Z) (c : crcprf) : Prop :=
    c_height c = h /\ lo <= hi /\ Forall (subtree_of root h) (c_elts c) /\ tiles (c_elts c) lo hi.
End Tree.

(** Chains of constrain: the full key, then every constrained key, is constrained to the next range. *)
Section Chain.
  Variable c_constrain : crcprf -> Z -> Z -> crcprf * outcome crcprf.
  Fixpoint constrain_chain (c : crcprf) (ranges : list (Z * Z)) : outcome crcprf :=
    match ranges with
    | [] => Ok c
    | (lo, hi) :: r => c' <- snd (c_constrain c lo hi) ;; constrain_chain c' r
    end.
End Chain.

(** Every range is included in the one before, [lo, hi] at first. *)
Fixpoint nested (lo hi : Z) (ranges : list (Z * Z)) : Prop :=
  match ranges with
  | [] => True
  | (lo', hi') :: r => lo <= lo' /\ lo' <= hi' /\ hi' <= hi /\ nested lo' hi' r
  end.
Definition last_range (lo hi : Z) (ranges : list (Z * Z)) : Z * Z := last ranges (lo, hi).
