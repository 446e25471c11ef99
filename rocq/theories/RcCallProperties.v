(** Property C146: callbacks of range evaluations. *)
From Verif Require Import Base BaseFacts KeyVal RcprfModel RcprfSpec RcprfProofs6 RcprfProperties RcCallModel RcCallSpec RcCallProofs.

(** RCPrf: a callback that changes variables of the caller, or throws, is called in turn with the leaves of the range; after an exception
    no more calls are made, the exception reaches the caller, and the key is protected as before.
    What is missing: callbacks that change the state inside of them, see below *)
Theorem C146_full_key_partial : forall blk ml dbg N gN gK, 1 <= N < 2 ^ 16 -> zlen gN = N -> zlen gK = 32 ->
  forall F X cb, keeps_state F X cb -> forall R h l mn mx f x, 2 <= h <= 63 -> 0 <= mn <= mx -> mx < 2 ^ (h - 1) ->
  rc_eval_range_cb blk ml dbg N gN gK F X cb (mk_rcprf h (VKey R l)) mn mx f x =
    (mk_rcprf h (VKey R ml), snd (in_turn F X cb f x (leaves blk N R h mn mx))).
Proof. exact rc_range_cb_ok. Qed.
Print Assumptions C146_full_key_partial.
(** ConstrainedRCPrf: the same *)
Theorem C146_constrained_key_partial : forall blk ml dbg N gN gK, 1 <= N < 2 ^ 16 -> zlen gN = N -> zlen gK = 32 ->
  forall F X cb, keeps_state F X cb -> forall R h lo hi c mn mx f x, h <= 64 -> constrained_to blk ml N R h lo hi c -> lo <= mn -> mn <= mx -> mx <= hi ->
  c_eval_range_cb blk ml dbg N gN gK F X cb c mn mx f x = (c, snd (in_turn F X cb f x (leaves blk N R h mn mx))).
Proof. exact c_range_cb_ok. Qed.
Print Assumptions C146_constrained_key_partial.

(** A callback that counts its calls in a variable of its own (a mutable lambda), and writes down the leaf and the number *)
Definition counting (n : Z) (log : list (Z * Z)) (leaf : Z) (v : bytes) : Z * (list (Z * Z) * outcome unit) := (n + 1, (log ++ [(leaf, n)], Ok tt)).
(** The function objects are copied: its calls do not find what the calls before have left *)
Theorem C146_own_state_refuted :
  (exists r mn mx, snd (rc_eval_range_cb tblk true true 2 [0; 0] (zeros 32) Z (list (Z * Z)) counting r mn mx 0 []) <>
     snd (in_turn Z (list (Z * Z)) counting 0 [] (leaves tblk 2 (repeat 9 32) (r_height r) mn mx)) /\
     snd (rc_eval_range_cb tblk true true 2 [0; 0] (zeros 32) Z (list (Z * Z)) counting r mn mx 0 []) = ([(1, 0); (2, 0); (3, 1); (4, 0)], Ok tt)) /\
  (exists c mn mx, tcon 4 1 6 = Ok c /\
     snd (c_eval_range_cb tblk true true 2 [0; 0] (zeros 32) Z (list (Z * Z)) counting c mn mx 0 []) = ([(1, 0); (2, 1); (3, 2); (4, 1); (5, 2); (6, 1)], Ok tt)).
Proof.
  split.
  - exists (mk_rcprf 4 tkey), 1, 4. split; [vm_compute; discriminate|vm_compute; reflexivity].
  - exists (okc (tcon 4 1 6)), 1, 6. split; vm_compute; reflexivity.
Qed.
Print Assumptions C146_own_state_refuted.

(** A callback without own state that throws at leaf 4: it is not called for 5 and 6, and the key is locked *)
Definition until4 (_ : unit) (log : list Z) (leaf : Z) (v : bytes) : unit * (list Z * outcome unit) :=
  (tt, if leaf =? 4 then (log, Throw RuntimeError) else (log ++ [leaf], Ok tt)).
Example C146_examples : keeps_state unit (list Z) until4 /\
  rc_eval_range_cb tblk true true 2 [0; 0] (zeros 32) unit (list Z) until4 (mk_rcprf 4 tkey) 1 6 tt [] = (mk_rcprf 4 tkey, ([1; 2; 3], Throw RuntimeError)) /\
  (exists c, tcon 4 1 6 = Ok c /\ c_eval_range_cb tblk true true 2 [0; 0] (zeros 32) unit (list Z) until4 c 2 6 tt [] = (c, ([2; 3], Throw RuntimeError)) /\
     c_eval_range_cb tblk true true 2 [0; 0] (zeros 32) unit (list Z) until4 c 5 6 tt [] = (c, ([5; 6], Ok tt))).
Proof.
  split; [intros [] x i v; reflexivity|]. split; [vm_compute; reflexivity|].
  exists (okc (tcon 4 1 6)). split; [vm_compute; reflexivity|]. split; vm_compute; reflexivity.
Qed.
