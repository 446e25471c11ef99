(** C142: scalars and group elements as variables. *)
From Verif Require Import Base RelicObjModel RelicObjSpec RelicObjProofs.

(** With RELIC's default way to allocate, the objects of the four classes hold the values that variables would hold, and report the exceptions of [meaning], whatever is constructed, copied, moved, assigned and destroyed. *)
Theorem C142_variables_partial : forall (A : Type) (wiped : A -> A) cls ps c os vs c' vs' es, Forall2 shows os vs -> meanings cls c vs ps = Some (c', vs', es) ->
  exists os', run wiped AUTO cls (c, os) ps = Ok ((c', os'), es) /\ Forall2 shows os' vs'.
Proof. exact @sim_run. Qed.
Print Assumptions C142_variables_partial.
(** A move, if it is compiled, wipes the first member of its source. *)
Theorem C142_moved_partial : forall (A : Type) (wiped : A -> A) cls c os vs v w a, Forall2 shows os vs -> at_ vs w = Some (Holds a) -> cls <> ClassGT -> v <> w ->
  (at_ vs v = Some Nothing -> exists os' o, step wiped AUTO cls (c, os) (MoveInit v w) = Ok ((c, os'), None) /\ nth_error os' w = Some o /\ contents o = wiped a) /\
  (at_ vs v <> None -> at_ vs v <> Some Nothing -> exists os' o, step wiped AUTO cls (c, os) (MoveAssign v w) = Ok ((c, os'), None) /\ nth_error os' w = Some o /\ contents o = wiped a).
Proof. exact @move_wipes. Qed.
Print Assumptions C142_moved_partial.
(** For scalars that is the secret number. *)
Theorem C142_scalar_moved_partial : forall c os vs v w a, Forall2 shows os vs -> at_ vs w = Some (Holds a) -> at_ vs v = Some Nothing ->
  exists os' o, step zr_wiped AUTO ClassZR (c, os) (MoveInit v w) = Ok ((c, os'), None) /\ nth_error os' w = Some o /\ z (contents o) = 0.
Proof.
  intros c os vs v w a H Ew Ev. assert (v <> w) as Ne by (intros E; rewrite E, Ew in Ev; discriminate). destruct (move_wipes zr_wiped ClassZR c os vs v w a H Ew ltac:(discriminate) Ne) as [M _].
  destruct (M Ev) as (os' & o & E & N & W). exists os', o. split; [exact E|]. split; [exact N|]. rewrite W. reflexivity.
Qed.
Print Assumptions C142_scalar_moved_partial.
(** But a destructor wipes nothing: the secret stays in memory, whatever it is. *)
Theorem C142_destroyed_refuted : forall (A : Type) (wiped : A -> A) cls c os vs v a mode, Forall2 shows os vs -> at_ vs v = Some (Holds a) -> exists os' o, step wiped mode cls (c, os) (Destroy v) = Ok ((c, os'), None) /\
  nth_error os' v = Some o /\ alive o = false /\ contents o = a.
Proof. exact @destroy_keeps. Qed.
Print Assumptions C142_destroyed_refuted.
(** An object whose value has been moved away cannot be assigned to. *)
Theorem C142_assigned_refuted : forall d, alive d = false -> exists os, run zr_wiped AUTO ClassZR (true, [d; d]) [Make 0 {| z := 5; order := 7 |}; MoveInit 1 0; Assign 0 1] = Ok ((true, os), [None; None; Some InvalidArgument]) /\
  Forall2 shows os [Moved; Holds {| z := 5; order := 7 |}].
Proof. intros [al i x] H. cbn in H. subst al. eexists. split; [reflexivity|]. repeat constructor. Qed.
Print Assumptions C142_assigned_refuted.
(** With ALLOC equal to DYNAMIC, no object can be made. *)
Theorem C142_dynamic_refuted : forall (A : Type) (wiped : A -> A) cls os v a, (exists o, nth_error os v = Some o /\ alive o = false) -> step wiped DYNAMIC cls (true, os) (Make v a) = UB.
Proof. exact @dynamic_fails. Qed.
Print Assumptions C142_dynamic_refuted.

(** Scalars that are made, copied, moved, assigned to themselves and destroyed; the program has a meaning. *)
Example C142_example : exists os : list (@object zr), Forall2 shows os [Nothing; Nothing; Nothing] /\ exists vs es,
  meanings ClassZR true [Nothing; Nothing; Nothing] [Make 0 {| z := 5; order := 7 |}; CopyInit 1 0; MoveInit 2 0; Assign 1 1; MoveAssign 1 2; Destroy 2; Core false; CopyInit 2 1] = Some (false, vs, es) /\
  vs = [Moved; Holds {| z := 5; order := 7 |}; Nothing] /\ es = [None; None; None; None; None; None; None; Some RuntimeError].
Proof.
  exists (repeat {| alive := false; isInit := false; contents := {| z := 0; order := 0 |} |} 3). split; [repeat constructor|]. eexists _, _. split; [vm_compute; reflexivity|]. split; reflexivity.
Qed.
