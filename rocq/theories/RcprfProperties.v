(** Properties C24-C33 and C63: RCPrf and ConstrainedRCPrf. *)
From Verif Require Import BaseFacts KeyVal PrgModel PrgSpec RcprfModel RcprfSpec RcprfProofs RcprfProofs4 RcprfProofs5 RcprfProofs6.

(** A toy PRG block function for the examples: the 64-byte block number [c] of key [k]. *)
Definition tblk (k : bytes) (c : Z) : bytes := map (fun j => (hd 0 k * 5 + 7 * c + 3 * j) mod 256) (zseq 0 64).
Definition tkey : vkey := VKey (repeat 9 32) true.
Notation tev d h leaf := (snd (rc_eval tblk true d 2 [0; 0] (zeros 32) (mk_rcprf h tkey) leaf)).

(** C24.  Whatever the lock state [l] left by previous calls, the value is the one at the end of the path. *)
Theorem C24_eval_follows_the_path : forall blk ml dbg N gN gK, 1 <= N < 2 ^ 16 -> zlen gN = N -> zlen gK = 32 ->
  forall R h l leaf, 2 <= h <= 63 -> 0 <= leaf < 2 ^ (h - 1) ->
  rc_eval blk ml dbg N gN gK (mk_rcprf h (VKey R l)) leaf = (mk_rcprf h (VKey R ml), Ok (leaf_value blk N R h leaf)).
Proof. exact rc_eval_path. Qed.
Print Assumptions C24_eval_follows_the_path.
Example C24_nontrivial :
  tev true 4 5 = Ok (leaf_value tblk 2 (repeat 9 32) 4 5) /\
  leaf_value tblk 2 (repeat 9 32) 4 5 =
    leaf_under tblk 2 (child_key tblk (child_key tblk (repeat 9 32) 1) 0) 1 /\
  tev true 4 5 <> tev true 4 4 /\ tev true 4 5 <> tev true 4 1.
Proof. vm_compute. split; [reflexivity|split; [reflexivity|split; discriminate]]. Qed.

(** C25.  Only leaves above 2^h - 1 are rejected; those of [2^(h-1), 2^h - 1] are given the value of another leaf. *)
Theorem C25_rejects_outside_leaves_partial : forall blk ml dbg N gN gK,
  forall h k leaf, 1 <= h <= 63 -> 2 ^ h <= leaf ->
  rc_eval blk ml dbg N gN gK (mk_rcprf h k) leaf = (mk_rcprf h k, Throw OutOfRange).
Proof. exact rc_eval_reject. Qed.
Print Assumptions C25_rejects_outside_leaves_partial.
Theorem C25_rejects_outside_ranges_partial : forall blk ml dbg N gN gK,
  forall h k mn mx, 1 <= h <= 63 -> 2 ^ h <= mx ->
  rc_eval_range blk ml dbg N gN gK (mk_rcprf h k) mn mx = (mk_rcprf h k, [], Throw OutOfRange).
Proof. exact rc_eval_range_reject. Qed.
Print Assumptions C25_rejects_outside_ranges_partial.
Theorem C25_outside_leaves_alias : forall blk ml dbg N gN gK, 1 <= N < 2 ^ 16 -> zlen gN = N -> zlen gK = 32 ->
  forall R h l leaf, 2 <= h <= 63 -> 2 ^ (h - 1) <= leaf < 2 ^ h ->
  let ev := fun x => snd (rc_eval blk ml dbg N gN gK (mk_rcprf h (VKey R l)) x) in
  ev leaf = ev (leaf - 2 ^ (h - 1)) /\ exists v, ev leaf = Ok v.
Proof. exact rc_alias. Qed.
Print Assumptions C25_outside_leaves_alias.
Theorem C25_rejects_outside_leaves_refuted : exists h leaf v,
  max_leaf_index h < leaf /\ tev true h leaf = Ok v /\ tev false h leaf = Ok v.
Proof.
  exists 4, 8. eexists. vm_compute. split; [reflexivity|split; reflexivity].
Qed.
Print Assumptions C25_rejects_outside_leaves_refuted.
(** Ranges: abort with assertions, and values for leaves that do not exist without. *)
Theorem C25_rejects_outside_ranges_refuted : exists h mn mx, max_leaf_index h < mx /\
  snd (rc_eval_range tblk true true 2 [0; 0] (zeros 32) (mk_rcprf h tkey) mn mx) = Abort /\
  exists v v', snd (fst (rc_eval_range tblk true false 2 [0; 0] (zeros 32) (mk_rcprf h tkey) mn mx)) = [(0, v); (3, v')] /\
         snd (rc_eval_range tblk true false 2 [0; 0] (zeros 32) (mk_rcprf h tkey) mn mx) = Ok tt.
Proof. exists 2, 0, 3. vm_compute. split; [reflexivity|split; [reflexivity|]]. do 2 eexists. split; reflexivity. Qed.
Print Assumptions C25_rejects_outside_ranges_refuted.
Example C25_nontrivial : tev true 4 16 = Throw OutOfRange /\ tev true 4 13 = tev true 4 5.
Proof. vm_compute. split; reflexivity. Qed.

(** C26.  The constructor accepts 1..64; evaluation is fine for 2..63 only. *)
Theorem C26_heights_partial : forall blk ml dbg N gN gK, 1 <= N < 2 ^ 16 -> zlen gN = N -> zlen gK = 32 ->
  forall R l h, 2 <= h <= 63 -> exists r, mk_rc (VKey R l) h = Ok r /\
  forall leaf, 0 <= leaf <= max_leaf_index h -> exists r' v, rc_eval blk ml dbg N gN gK r leaf = (r', Ok v).
Proof. exact heights_ok. Qed.
Print Assumptions C26_heights_partial.
Theorem C26_height_64_refuted : exists h, forall blk ml dbg N gN gK k, exists r, mk_rc k h = Ok r /\
  forall leaf, 0 <= leaf <= max_leaf_index h -> snd (rc_eval blk ml dbg N gN gK r leaf) = UB.
Proof. exact height_64. Qed.
Print Assumptions C26_height_64_refuted.
Theorem C26_height_1_refuted : exists h, forall blk ml dbg N gN gK k, exists r, mk_rc k h = Ok r /\
  forall leaf, 0 <= leaf <= max_leaf_index h -> snd (rc_eval blk ml dbg N gN gK r leaf) = if dbg then Abort else UB.
Proof. exact height_1. Qed.
Print Assumptions C26_height_1_refuted.
(** With height 1, range evaluation without assertions recurses for ever: every bound on the depth is exceeded. *)
Theorem C26_height_1_range_diverges : forall blk ml N gN gK fuel, zlen gK = 32 -> forall kb l base off acc, 0 <= base < 256 ->
  snd (derive_leaf_range blk ml false N gN gK fuel (VKey kb l) 1 base off 0 0 acc) = Diverge.
Proof. exact height_1_range_diverges. Qed.
Print Assumptions C26_height_1_range_diverges.
Example C26_nontrivial : exists v, tev true 63 (2 ^ 62 - 1) = Ok v /\ tev true 64 0 = UB /\ tev true 1 0 = Abort /\ tev false 1 0 = UB.
Proof. eexists. vm_compute. split; [reflexivity|split; [reflexivity|split; reflexivity]]. Qed.

(** C27 *)
Theorem C27_range_is_pointwise : forall blk ml dbg N gN gK, 1 <= N < 2 ^ 16 -> zlen gN = N -> zlen gK = 32 ->
  forall R h l mn mx, 2 <= h <= 63 -> 0 <= mn <= mx -> mx < 2 ^ (h - 1) ->
  exists calls, rc_eval_range blk ml dbg N gN gK (mk_rcprf h (VKey R l)) mn mx = (mk_rcprf h (VKey R ml), calls, Ok tt) /\
    map fst calls = zseq mn (Z.to_nat (mx - mn + 1)) /\
    Forall (fun c => snd (rc_eval blk ml dbg N gN gK (mk_rcprf h (VKey R l)) (fst c)) = Ok (snd c)) calls.
Proof. exact rc_range_pointwise. Qed.
Print Assumptions C27_range_is_pointwise.
Theorem C27_reversed_range : forall blk ml dbg N gN gK h k mn mx, 1 <= h <= 63 -> 0 <= mx < mn -> mx < 2 ^ h ->
  rc_eval_range blk ml dbg N gN gK (mk_rcprf h k) mn mx = (mk_rcprf h k, [], Throw InvalidArgument).
Proof. exact rc_eval_range_reversed. Qed.
Print Assumptions C27_reversed_range.
Example C27_nontrivial :
  map fst (snd (fst (rc_eval_range tblk true true 2 [0; 0] (zeros 32) (mk_rcprf 5 tkey) 3 12))) = [3; 4; 5; 6; 7; 8; 9; 10; 11; 12].
Proof. vm_compute. reflexivity. Qed.

(** C28.  Height 64 is included: constrained keys of such a tree have the values of the tree (RCPrf::eval does not, see C26). *)
Theorem C28_constrained_agrees : forall blk ml dbg N gN gK, 1 <= N < 2 ^ 16 -> zlen gN = N -> zlen gK = 32 ->
  forall R h l lo hi, 2 <= h <= 64 -> 0 <= lo <= hi -> hi < 2 ^ (h - 1) -> ~ (lo = 0 /\ hi = 2 ^ (h - 1) - 1) ->
  let cev := c_eval blk ml dbg N gN gK in
  exists c, rc_constrain blk ml dbg N gN gK (mk_rcprf h (VKey R l)) lo hi = (mk_rcprf h (VKey R ml), Ok c) /\
    c_min c = lo /\ c_max c = hi /\
    (forall leaf, lo <= leaf <= hi -> cev c leaf = (c, Ok (leaf_value blk N R h leaf))) /\
    (forall leaf, lo <= leaf <= hi -> h <= 63 -> snd (cev c leaf) = snd (rc_eval blk ml dbg N gN gK (mk_rcprf h (VKey R l)) leaf)) /\
    (forall mn mx, lo <= mn <= mx -> mx <= hi ->
       exists calls, c_eval_range blk ml dbg N gN gK c mn mx = (c, calls, Ok tt) /\
         map fst calls = zseq mn (Z.to_nat (mx - mn + 1)) /\
         Forall (fun x => snd (cev c (fst x)) = Ok (snd x)) calls).
Proof. exact constrain_agrees. Qed.
Print Assumptions C28_constrained_agrees.
Notation tcon h lo hi := (snd (rc_constrain tblk true true 2 [0; 0] (zeros 32) (mk_rcprf h tkey) lo hi)).
Notation tccon c lo hi := (snd (c_constrain tblk true true 2 [0; 0] (zeros 32) c lo hi)).
Notation tcev c leaf := (snd (c_eval tblk true true 2 [0; 0] (zeros 32) c leaf)).
(** The key in an outcome, to give witnesses. *)
Definition okc (o : outcome crcprf) : crcprf := match o with Ok c => c | _ => mk_crcprf 0 [] end.
Definition okb (o : outcome bytes) : bytes := match o with Ok b => b | _ => [] end.
Example C28_nontrivial : exists c, tcon 5 3 12 = Ok c /\ map (fun e => (e_min e, e_max e)) (c_elts c) = [(3, 3); (4, 7); (8, 11); (12, 12)] /\
  map (fun i => tcev c i) (zseq 3 10) = map (fun i => tev true 5 i) (zseq 3 10).
Proof. exists (okc (tcon 5 3 12)). vm_compute. split; [reflexivity|split; reflexivity]. Qed.

(** C29.  [ranges]: any chain of further constraints; the callback is not called at all. *)
Theorem C29_refuses_outside : forall blk ml dbg N gN gK, 1 <= N < 2 ^ 16 -> zlen gN = N -> zlen gK = 32 ->
  forall R h l lo hi ranges c0 c, 2 <= h <= 64 -> 0 <= lo <= hi -> hi < 2 ^ (h - 1) -> ~ (lo = 0 /\ hi = 2 ^ (h - 1) - 1) ->
  nested lo hi ranges -> snd (rc_constrain blk ml dbg N gN gK (mk_rcprf h (VKey R l)) lo hi) = Ok c0 ->
  constrain_chain (c_constrain blk ml dbg N gN gK) c0 ranges = Ok c ->
  (forall leaf, leaf < c_min c \/ c_max c < leaf -> c_eval blk ml dbg N gN gK c leaf = (c, Throw OutOfRange)) /\
  (forall mn mx, mn <= mx -> mn < c_min c \/ c_max c < mx -> c_eval_range blk ml dbg N gN gK c mn mx = (c, [], Throw OutOfRange)).
Proof. exact refuses_outside. Qed.
Print Assumptions C29_refuses_outside.
Example C29_nontrivial : exists c, tcon 5 3 12 = Ok c /\ tcev c 2 = Throw OutOfRange /\ tcev c 13 = Throw OutOfRange /\ tcev c UINT64_MAX = Throw OutOfRange.
Proof. exists (okc (tcon 5 3 12)). vm_compute. repeat split. Qed.

(** C30 *)
Theorem C30_elements_are_subtrees : forall blk ml dbg N gN gK, 1 <= N < 2 ^ 16 -> zlen gN = N -> zlen gK = 32 ->
  forall R h l lo hi, 2 <= h <= 64 -> 0 <= lo <= hi -> hi < 2 ^ (h - 1) -> ~ (lo = 0 /\ hi = 2 ^ (h - 1) - 1) ->
  exists c, snd (rc_constrain blk ml dbg N gN gK (mk_rcprf h (VKey R l)) lo hi) = Ok c /\
    Forall (subtree_of blk ml N R h) (c_elts c) /\ tiles (c_elts c) lo hi /\ zlen (c_elts c) <= 2 * (h - 1).
Proof. exact elements_are_subtrees. Qed.
Print Assumptions C30_elements_are_subtrees.
(** Every leaf below an element is in the range, so no key above the range is held. *)
Theorem C30_elements_inside : forall els lo hi, tiles els lo hi -> Forall (fun e => lo <= e_min e /\ e_min e <= e_max e /\ e_max e <= hi) els.
Proof. exact tiles_inside. Qed.
Print Assumptions C30_elements_inside.
Example C30_nontrivial : exists c, tcon 6 1 30 = Ok c /\ zlen (c_elts c) = 8.
Proof. exists (okc (tcon 6 1 30)). vm_compute. split; reflexivity. Qed.

(** C31 *)
Theorem C31_chains : forall blk ml dbg N gN gK, 1 <= N < 2 ^ 16 -> zlen gN = N -> zlen gK = 32 ->
  forall R h l ranges lo hi, 2 <= h <= 64 -> 0 <= lo <= hi -> hi < 2 ^ (h - 1) -> ~ (lo = 0 /\ hi = 2 ^ (h - 1) - 1) ->
  nested lo hi ranges ->
  let con := rc_constrain blk ml dbg N gN gK (mk_rcprf h (VKey R l)) in
  let ccon := c_constrain blk ml dbg N gN gK in
  let cev := c_eval blk ml dbg N gN gK in
  let a := fst (last_range lo hi ranges) in let b := snd (last_range lo hi ranges) in
  exists c0 c, snd (con lo hi) = Ok c0 /\ constrain_chain ccon c0 ranges = Ok c /\
    snd (con a b) = Ok c /\ c_min c = a /\ c_max c = b /\
    (forall leaf, a <= leaf <= b -> cev c leaf = (c, Ok (leaf_value blk N R h leaf))) /\
    (forall leaf, leaf < a \/ b < leaf -> cev c leaf = (c, Throw OutOfRange)) /\
    (forall mn mx, mn <= mx -> mn < a \/ b < mx -> c_eval_range blk ml dbg N gN gK c mn mx = (c, [], Throw OutOfRange)) /\
    (forall mn mx, mn < a \/ b < mx -> ccon c mn mx = (c, Throw OutOfRange)) /\
    Forall (subtree_of blk ml N R h) (c_elts c) /\ tiles (c_elts c) a b /\ zlen (c_elts c) <= 2 * (h - 1).
Proof. exact chain_behaviour. Qed.
Print Assumptions C31_chains.
Example C31_nontrivial : exists c0 c1 c2, tcon 6 1 30 = Ok c0 /\ tccon c0 5 20 = Ok c1 /\ tccon c1 7 9 = Ok c2 /\ tcon 6 7 9 = Ok c2 /\
  tcev c2 8 = tev true 6 8.
Proof.
  exists (okc (tcon 6 1 30)), (okc (tccon (okc (tcon 6 1 30)) 5 20)), (okc (tcon 6 7 9)). vm_compute. repeat split.
Qed.

(** C32.  Full keys: as claimed (constraining to the whole tree is out of range as well).  Constrained keys: ranges outside
    of the key's, but not reversed ranges. *)
Theorem C32_full_key_invalid_constraints : forall blk ml dbg N gN gK r mn mx, 1 <= r_height r <= 64 ->
  (mx < mn -> rc_constrain blk ml dbg N gN gK r mn mx = (r, Throw InvalidArgument)) /\
  (mn <= mx -> 2 ^ (r_height r - 1) <= mx -> rc_constrain blk ml dbg N gN gK r mn mx = (r, Throw OutOfRange)) /\
  (mn = 0 -> mx = 2 ^ (r_height r - 1) - 1 -> rc_constrain blk ml dbg N gN gK r mn mx = (r, Throw OutOfRange)).
Proof. exact rc_constrain_invalid. Qed.
Print Assumptions C32_full_key_invalid_constraints.
Theorem C32_constrained_key_outside_partial : forall blk ml dbg N gN gK c mn mx, mn < c_min c \/ c_max c < mx ->
  c_constrain blk ml dbg N gN gK c mn mx = (c, Throw OutOfRange).
Proof. exact c_constrain_outside. Qed.
Print Assumptions C32_constrained_key_outside_partial.
(** A reversed range between two elements gives an empty key... *)
Theorem C32_reversed_range_refuted : exists c mn mx c', tcon 4 2 5 = Ok c /\ mx < mn /\
  tccon c mn mx = Ok c' /\ c_is_empty c' = true.
Proof. exists (okc (tcon 4 2 5)), 4, 3, (mk_crcprf 0 []). vm_compute. repeat split. Qed.
Print Assumptions C32_reversed_range_refuted.
(** ... and inside of an element, an assertion failure, or without assertions a key for some leaf. *)
Theorem C32_reversed_range_element_refuted : exists c mn mx c', tcon 4 0 3 = Ok c /\ mx < mn /\
  tccon c mn mx = Abort /\
  snd (c_constrain tblk true false 2 [0; 0] (zeros 32) c mn mx) = Ok c' /\ c_min c' = 3 /\ c_max c' = 3.
Proof.
  exists (okc (tcon 4 0 3)), 3, 2, (okc (snd (c_constrain tblk true false 2 [0; 0] (zeros 32) (okc (tcon 4 0 3)) 3 2))). vm_compute. repeat split. Qed.
Print Assumptions C32_reversed_range_element_refuted.
Example C32_nontrivial : exists c, tcon 4 2 5 = Ok c /\ tccon c 1 5 = Throw OutOfRange /\ tccon c 3 6 = Throw OutOfRange /\
  tcon 4 5 2 = Throw InvalidArgument /\ tcon 4 5 8 = Throw OutOfRange /\ tcon 4 0 7 = Throw OutOfRange.
Proof. exists (okc (tcon 4 2 5)). vm_compute. repeat split. Qed.

(** C33.  The very same object is read back, whatever follows it in the buffer. *)
Theorem C33_rcprf_roundtrip : forall ml R h l rest, 1 <= h <= 64 -> zlen R = 32 -> zlen rest <= 2 ^ 63 ->
  exists s wiped, rc_serialize ml (mk_rcprf h (VKey R l)) = (mk_rcprf h (VKey R ml), Ok s) /\ zlen wiped = zlen s /\
    rc_deserialize ml (s ++ rest) (zlen (s ++ rest)) = Ok (mk_rcprf h (VKey R ml), wiped ++ rest, zlen s) /\
    zlen s = rc_serialized_size (mk_rcprf h (VKey R l)).
Proof. exact (rc_roundtrip (fun _ _ => [])). Qed.
Print Assumptions C33_rcprf_roundtrip.
Theorem C33_constrained_roundtrip_partial : forall blk ml dbg N gN gK, 1 <= N < 2 ^ 16 -> zlen gN = N -> zlen gK = 32 ->
  forall R h l ranges lo hi rest c0 c, 2 <= h <= 64 -> 0 <= lo <= hi -> hi < 2 ^ (h - 1) -> ~ (lo = 0 /\ hi = 2 ^ (h - 1) - 1) ->
  nested lo hi ranges ->
  snd (rc_constrain blk ml dbg N gN gK (mk_rcprf h (VKey R l)) lo hi) = Ok c0 ->
  constrain_chain (c_constrain blk ml dbg N gN gK) c0 ranges = Ok c ->
  exists s wiped, c_serialize ml dbg N c = (c, Ok s) /\ zlen s = c_serialized_size N c /\ zlen wiped = zlen s /\
    c_deserialize ml N (s ++ rest) (zlen (s ++ rest)) = Ok (c, wiped ++ rest, zlen s).
Proof. exact constrained_roundtrip. Qed.
Print Assumptions C33_constrained_roundtrip_partial.
(** An empty key (which [constrain] may return, see C32) is serialized, but is rejected by [deserialize]. *)
Theorem C33_constrained_roundtrip_refuted : exists c0 c s, tcon 4 2 5 = Ok c0 /\ tccon c0 4 3 = Ok c /\
  c_serialize true true 2 c = (c, Ok s) /\ c_deserialize true 2 s (zlen s) = Throw InvalidArgument.
Proof. exists (okc (tcon 4 2 5)), (mk_crcprf 0 []), (zeros 5). vm_compute. repeat split. Qed.
Print Assumptions C33_constrained_roundtrip_refuted.
Example C33_nontrivial : exists c, tcon 4 2 5 = Ok c /\
  let s := okb (snd (c_serialize true true 2 c)) in snd (c_serialize true true 2 c) = Ok s /\ zlen s = 5 + 2 * 49 /\
  match c_deserialize true 2 (s ++ [1; 2]) (zlen s + 2) with Ok (c', w, n) => c' = c /\ n = zlen s /\ skipn 103 w = [1; 2] | _ => False end.
Proof. exists (okc (tcon 4 2 5)). vm_compute. repeat split. Qed.

(** C63.  An element built by hand with any key: pointwise and range evaluation agree when it is aligned... *)
Theorem C63_element_range_agrees_partial : forall blk ml dbg N gN gK, 1 <= N < 2 ^ 16 -> zlen gN = N -> zlen gK = 32 ->
  forall h st idx kk a b, 2 <= st -> st < h -> h <= 64 -> 0 <= idx < 2 ^ (h - st) ->
  let mn := idx * 2 ^ (st - 1) in let mx := (idx + 1) * 2 ^ (st - 1) - 1 in
  mn <= a <= b -> b <= mx ->
  exists e calls, mk_inner (VKey kk ml) h st mn mx = Ok e /\ e_eval_range blk ml dbg N gN gK e a b [] = (e, calls, Ok tt) /\
    map fst calls = zseq a (Z.to_nat (b - a + 1)) /\
    Forall (fun c => e_eval blk ml dbg N gN gK e (fst c) = (e, Ok (snd c))) calls.
Proof. exact element_range_agrees. Qed.
Print Assumptions C63_element_range_agrees_partial.
(** ... but the constructor accepts elements that are not aligned, where they differ. *)
Theorem C63_element_range_agrees_refuted : exists h st mn mx leaf e v v', mk_inner tkey h st mn mx = Ok e /\
  mn <= leaf <= mx /\ mx <= max_leaf_index h /\
  snd (e_eval tblk true true 2 [0; 0] (zeros 32) e leaf) = Ok v /\
  snd (fst (e_eval_range tblk true true 2 [0; 0] (zeros 32) e leaf leaf [])) = [(leaf, v')] /\ v <> v'.
Proof.
  exists 4, 2, 1, 2, 1, (Inner 4 2 1 2 tkey). do 2 eexists. vm_compute. split; [reflexivity|]. split; [split; discriminate|]. split; [discriminate|].
  split; [reflexivity|]. split; [reflexivity|]. discriminate.
Qed.
Print Assumptions C63_element_range_agrees_refuted.
