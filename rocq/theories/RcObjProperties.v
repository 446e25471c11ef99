(** Property C145: programs with several constrained keys. *)
From Verif Require Import Base BaseFacts KeyVal RcprfModel RcprfSpec RcprfProofs6 RcprfProperties RcObjModel RcObjSpec RcObjProofs.

(** Whatever the trees and the operations: every call gives the values and the exceptions of the specification, and afterwards every
    object holds subtrees of its range only, and nothing if its value was moved away.
    What is missing: moves of an object to itself, see below, and reversed ranges, see C32 *)
Theorem C145_programs_partial : forall blk ml dbg N gN gK, 1 <= N < 2 ^ 16 -> zlen gN = N -> zlen gK = 32 ->
  forall height root, (forall r, 2 <= height r <= 64) ->
  forall l roots objs, (forall r, exists b, roots r = mk_rcprf (height r) (VKey (root r) b)) -> (forall i, c_elts (objs i) = []) ->
  Forall sensible l -> Forall (fun op => ~ to_itself op) l ->
  let m := r_run blk ml dbg N gN gK (mk_rstate roots objs) l in
  let s := s_run blk N height root (fun _ => None) l in
  snd m = snd s /\ in_memory blk N height root ml (fst s) (rs_objs (fst m)).
Proof. exact program_ok. Qed.
Print Assumptions C145_programs_partial.
(** An object that is moved to itself loses its key, whatever it holds: it refuses every leaf *)
Theorem C145_self_move_refuted : forall blk ml dbg N gN gK st i leaf, 0 <= leaf ->
  let st' := fst (r_step blk ml dbg N gN gK st (RMove i i)) in
  c_elts (rs_objs st' i) = [] /\ snd (r_step blk ml dbg N gN gK st' (REval i leaf)) = mk_rres [] (Throw OutOfRange).
Proof. exact self_move_empty. Qed.
Print Assumptions C145_self_move_refuted.

(** Two trees; a key is constrained twice, moved, and the source of the move refuses what it has accepted before *)
Definition ex_root (r : nat) : bytes := repeat (Z.of_nat r + 9) 32.
Definition ex_prog : list rop :=
  [RConstrain 0 0 3 12; RSub 1 0 4 9; REval 1 4; RConstrain 2 1 0 7; RMove 3 1; REval 1 4; REval 3 4; REval 3 3; RMove 0 3; REval 0 4; REval 0 3; RRange 2 6 7;
   RConstrain 2 1 0 15; RSub 3 3 5 6; RDestroy 2; RRange 2 6 7].
Example C145_examples :
  let run := r_run tblk true true 2 [0; 0] (zeros 32) (mk_rstate (fun r => mk_rcprf 5 (VKey (ex_root r) true)) (fun _ => mk_crcprf 5 [])) in
  Forall sensible ex_prog /\ Forall (fun op => ~ to_itself op) ex_prog /\
  map (fun x => (map fst (rr_values x), rr_end x)) (snd (run ex_prog)) =
    [([], Ok tt); ([], Ok tt); ([4], Ok tt); ([], Ok tt); ([], Ok tt); ([], Throw OutOfRange); ([4], Ok tt); ([], Throw OutOfRange);
     ([], Ok tt); ([4], Ok tt); ([], Throw OutOfRange); ([6; 7], Ok tt); ([], Throw OutOfRange); ([], Throw OutOfRange); ([], Ok tt); ([], Throw OutOfRange)] /\
  nth 2 (snd (run ex_prog)) done = nth 6 (snd (run ex_prog)) done /\ nth 6 (snd (run ex_prog)) done = nth 9 (snd (run ex_prog)) done /\
  snd (run [RConstrain 0 0 3 12; RMove 0 0; REval 0 4]) = [done; done; refuse] /\
  snd (s_run tblk 2 (fun _ => 5) ex_root (fun _ => None) [RConstrain 0 0 3 12; RMove 0 0; REval 0 4]) <> [done; done; refuse].
Proof.
  split; [repeat constructor; vm_compute; congruence|]. split; [repeat constructor; intros H; simpl in H; congruence|].
  split; [vm_compute; reflexivity|]. split; [vm_compute; reflexivity|]. split; [vm_compute; reflexivity|]. split; [vm_compute; reflexivity|].
  vm_compute. discriminate.
Qed.
