(** Lemmas for C145. *)
From Coq Require Import Lia.
From Verif Require Import Base BaseFacts KeyVal RcprfModel RcprfSpec RcprfProofs RcprfProofs2 RcprfProofs3 RcprfProofs4 RcprfProofs5 RcprfProofs6 RcObjModel RcObjSpec.

Lemma set_same {A} (f : nat -> A) i a : set_at f i a i = a.
Proof. unfold set_at. rewrite Nat.eqb_refl. reflexivity. Qed.
Lemma set_other {A} (f : nat -> A) i j a : j <> i -> set_at f i a j = f j.
Proof. intros H. unfold set_at. apply Nat.eqb_neq in H. rewrite H. reflexivity. Qed.

Lemma empty_eval blk ml dbg N gN gK h leaf : 0 <= leaf -> c_eval blk ml dbg N gN gK (mk_crcprf h []) leaf = (mk_crcprf h [], Throw OutOfRange).
Proof. intros H. unfold c_eval, c_min, c_max, UINT64_MAX. cbn [c_elts]. replace (_ || _) with true by lia. reflexivity. Qed.
Lemma empty_range blk ml dbg N gN gK h mn mx : 0 <= mn <= mx -> c_eval_range blk ml dbg N gN gK (mk_crcprf h []) mn mx = (mk_crcprf h [], [], Throw OutOfRange).
Proof. intros H. unfold c_eval_range, c_min, c_max, UINT64_MAX. cbn [c_elts]. replace (mx <? mn) with false by lia. replace (_ || _) with true by lia. reflexivity. Qed.
Lemma empty_constrain blk ml dbg N gN gK h mn mx : 0 <= mn <= mx -> c_constrain blk ml dbg N gN gK (mk_crcprf h []) mn mx = (mk_crcprf h [], Throw OutOfRange).
Proof. intros H. apply c_constrain_outside. unfold c_min, c_max, UINT64_MAX. cbn [c_elts]. lia. Qed.

Section Proofs.
  Context (blk : bytes -> Z -> bytes) (ml dbg : bool) (N : Z) (gN gK : bytes).
  Context (HN : 1 <= N < 2 ^ 16) (HgN : zlen gN = N) (HgK : zlen gK = 32).
  Context (height : nat -> Z) (root : nat -> bytes) (Hh : forall r, 2 <= height r <= 64).
  Notation step := (r_step blk ml dbg N gN gK).
  Notation canon r lo hi := (mk_crcprf (height r) (decompose blk ml N (root r) (height r) (Z.to_nat (height r - 1)) 0 lo hi)).

  Definition obj_rel (x : option (nat * Z * Z)) (c : crcprf) : Prop :=
    match x with
    | None => c_elts c = []
    | Some (r, lo, hi) => 0 <= lo <= hi /\ hi < 2 ^ (height r - 1) /\ ~ (lo = 0 /\ hi = 2 ^ (height r - 1) - 1) /\ c = canon r lo hi
    end.
  Definition state_rel (f : holding) (st : rstate) : Prop :=
    (forall r, exists l, rs_roots st r = mk_rcprf (height r) (VKey (root r) l)) /\ (forall i, obj_rel (f i) (rs_objs st i)).

  Lemma canon_ok r lo hi : 0 <= lo <= hi -> hi < 2 ^ (height r - 1) -> ~ (lo = 0 /\ hi = 2 ^ (height r - 1) - 1) ->
    constrained_to blk ml N (root r) (height r) lo hi (canon r lo hi).
  Proof. intros A B C. destruct (rc_constrain_ok blk ml dbg N gN gK HN HgN HgK (root r) (height r) ml lo hi (Hh r) A B C) as (_ & D & _). exact D. Qed.

  Lemma objs_put f objs i x c : (forall j, obj_rel (f j) (objs j)) -> obj_rel x c -> forall j, obj_rel (now f i x j) (set_at objs i c j).
  Proof. intros H R j. unfold now, set_at. destruct (Nat.eqb j i); [exact R|apply H]. Qed.
  Lemma objs_same f objs i c : (forall j, obj_rel (f j) (objs j)) -> c = objs i -> forall j, obj_rel (f j) (set_at objs i c j).
  Proof. intros H -> j. unfold set_at. destruct (Nat.eqb_spec j i) as [->|]; apply H. Qed.
  Lemma canon_eta c : mk_crcprf (c_height c) (c_elts c) = c. Proof. destruct c; reflexivity. Qed.
  Lemma empty_eta c : c_elts c = [] -> c = mk_crcprf (c_height c) []. Proof. destruct c as [h e]; simpl; intros ->; reflexivity. Qed.

  Lemma step_ok f st op f' x st' x' : sensible op -> ~ to_itself op -> state_rel f st ->
    s_step blk N height root f op = (f', x) -> step st op = (st', x') -> x' = x /\ state_rel f' st'.
  Proof.
    intros Se Ns [Rr Ro] Es Em. destruct op as [d r lo hi|d s lo hi|d s|s|s leaf|s mn mx]; cbn [sensible to_itself s_step r_step] in *.
    - destruct (Rr r) as [l El]. rewrite El in Em.
      assert (P : 0 < 2 ^ (height r - 1)) by (apply Z.pow_pos_nonneg; specialize (Hh r); lia).
      destruct (rc_constrain_invalid blk ml dbg N gN gK (mk_rcprf (height r) (VKey (root r) l)) lo hi) as (_ & I2 & I3); [simpl; specialize (Hh r); lia|].
      cbn [r_height] in I2, I3.
      destruct (_ || _) eqn:C in Es; injection Es as <- <-.
      + assert (E : rc_constrain blk ml dbg N gN gK (mk_rcprf (height r) (VKey (root r) l)) lo hi = (mk_rcprf (height r) (VKey (root r) l), Throw OutOfRange)).
        { apply orb_true_iff in C. destruct C as [C|C]; [apply I2; lia|apply I3; lia]. }
        rewrite E in Em. cbn [c_store] in Em. injection Em as <- <-. split; [reflexivity|]. split; [|exact Ro].
        intros r'. cbn [rs_roots]. unfold set_at. destruct (Nat.eqb_spec r' r) as [->|]; [exists l; reflexivity|apply Rr].
      + apply orb_false_iff in C. destruct C as [C1 C2].
        assert (B1 : hi < 2 ^ (height r - 1)) by lia. assert (B2 : ~ (lo = 0 /\ hi = 2 ^ (height r - 1) - 1)) by lia.
        destruct (rc_constrain_ok blk ml dbg N gN gK HN HgN HgK (root r) (height r) l lo hi (Hh r) Se B1 B2) as (E & _).
        cbv zeta in E. rewrite E in Em. cbn [c_store] in Em. injection Em as <- <-. split; [reflexivity|]. split.
        * intros r'. cbn [rs_roots]. unfold set_at. destruct (Nat.eqb_spec r' r) as [->|]; [exists ml; reflexivity|apply Rr].
        * cbn [rs_objs c_height c_elts]. apply objs_put; [exact Ro|]. simpl. auto.
    - pose proof (Ro s) as Rs. destruct (f s) as [[[r a] b]|] eqn:Fs; cbn [obj_rel] in Rs.
      + destruct Rs as (A1 & A2 & A3 & Ec). pose proof (canon_ok r a b A1 A2 A3) as (_ & _ & _ & T).
        destruct (tiles_min_max _ _ _ T ltac:(lia)) as [Emn Emx].
        destruct (_ && _) eqn:C in Es; injection Es as <- <-.
        * pose proof (c_constrain_ok blk ml dbg N gN gK HN HgN HgK (root r) (height r) a b lo hi (Hh r) ltac:(lia) A2 A3 ltac:(lia) ltac:(lia) ltac:(lia)) as E.
          cbv zeta in E. rewrite Ec, E in Em. cbn [c_store] in Em. injection Em as <- <-. split; [reflexivity|]. split; [exact Rr|].
          cbn [rs_objs c_height c_elts]. apply objs_put; [apply objs_same; [exact Ro|congruence]|]. simpl.
          split; [lia|]. split; [lia|]. split; [|reflexivity]. lia.
        * rewrite c_constrain_outside in Em by (rewrite Ec, Emn, Emx; lia).
          cbn [c_store] in Em. injection Em as <- <-. split; [reflexivity|]. split; [exact Rr|]. apply objs_same; [exact Ro|reflexivity].
      + injection Es as <- <-. rewrite (empty_eta _ Rs), empty_constrain in Em by exact Se. cbn [c_store] in Em. injection Em as <- <-.
        split; [reflexivity|]. split; [exact Rr|]. apply objs_same; [exact Ro|symmetry; apply (empty_eta _ Rs)].
    - destruct (Nat.eqb_spec d s) as [->|Nd]; [contradiction Ns; reflexivity|]. injection Es as <- <-. injection Em as <- <-.
      split; [reflexivity|]. split; [exact Rr|]. cbn [rs_objs]. unfold c_move. rewrite canon_eta. intros j. unfold now, set_at.
      destruct (Nat.eqb_spec j s) as [->|N1].
      + replace (Nat.eqb s d) with false by (symmetry; apply Nat.eqb_neq; congruence). reflexivity.
      + destruct (Nat.eqb_spec j d) as [->|N2]; apply Ro.
    - injection Es as <- <-. injection Em as <- <-. split; [reflexivity|]. split; [exact Rr|]. cbn [rs_objs]. apply objs_put; [exact Ro|reflexivity].
    - pose proof (Ro s) as Rs. injection Es as <- <-. destruct (f s) as [[[r a] b]|] eqn:Fs; cbn [obj_rel] in Rs.
      + destruct Rs as (A1 & A2 & A3 & Ec). pose proof (canon_ok r a b A1 A2 A3) as K.
        rewrite Ec in Em. rewrite (c_eval_ok blk ml dbg N gN gK HN HgN HgK (root r) (height r) a b _ leaf ltac:(specialize (Hh r); lia) K) in Em.
        injection Em as <- <-. split; [destruct (_ && _); reflexivity|]. split; [exact Rr|]. apply objs_same; [exact Ro|congruence].
      + rewrite (empty_eta _ Rs), empty_eval in Em by exact Se. injection Em as <- <-.
        split; [reflexivity|]. split; [exact Rr|]. apply objs_same; [exact Ro|symmetry; apply (empty_eta _ Rs)].
    - pose proof (Ro s) as Rs. injection Es as <- <-. destruct (f s) as [[[r a] b]|] eqn:Fs; cbn [obj_rel] in Rs.
      + destruct Rs as (A1 & A2 & A3 & Ec). pose proof (canon_ok r a b A1 A2 A3) as K.
        rewrite Ec in Em. rewrite (c_eval_range_ok blk ml dbg N gN gK HN HgN HgK (root r) (height r) a b _ mn mx ltac:(specialize (Hh r); lia) K) in Em.
        replace (mx <? mn) with false in Em by lia. replace (mn <=? mx) with true in Em by lia. rewrite andb_true_r in Em.
        injection Em as <- <-. split; [destruct (_ && _); reflexivity|]. split; [exact Rr|]. apply objs_same; [exact Ro|congruence].
      + rewrite (empty_eta _ Rs), empty_range in Em by exact Se. injection Em as <- <-.
        split; [reflexivity|]. split; [exact Rr|]. apply objs_same; [exact Ro|symmetry; apply (empty_eta _ Rs)].
  Qed.

  Lemma run_ok l : forall f st f' xs st' xs', Forall sensible l -> Forall (fun op => ~ to_itself op) l -> state_rel f st ->
    s_run blk N height root f l = (f', xs) -> r_run blk ml dbg N gN gK st l = (st', xs') -> xs' = xs /\ state_rel f' st'.
  Proof.
    induction l as [|op l IH]; intros f st f' xs st' xs' Se Ns R Es Em; cbn [s_run r_run] in *.
    - injection Es as <- <-. injection Em as <- <-. split; [reflexivity|exact R].
    - apply Forall_cons_iff in Se. apply Forall_cons_iff in Ns. destruct Se as [Se1 Se2], Ns as [Ns1 Ns2].
      destruct (s_step blk N height root f op) as [f1 x1] eqn:E1. destruct (step st op) as [st1 x2] eqn:E2.
      destruct (step_ok f st op f1 x1 st1 x2 Se1 Ns1 R E1 E2) as [-> R1].
      destruct (s_run blk N height root f1 l) as [f2 xs1] eqn:E3. destruct (r_run blk ml dbg N gN gK st1 l) as [st2 xs2] eqn:E4.
      injection Es as <- <-. injection Em as <- <-. destruct (IH _ _ _ _ _ _ Se2 Ns2 R1 E3 E4) as [-> R2]. split; [reflexivity|exact R2].
  Qed.

  (** Objects in a program *)
  Lemma program_ok l roots objs : (forall r, exists b, roots r = mk_rcprf (height r) (VKey (root r) b)) -> (forall i, c_elts (objs i) = []) ->
    Forall sensible l -> Forall (fun op => ~ to_itself op) l ->
    let m := r_run blk ml dbg N gN gK (mk_rstate roots objs) l in
    let s := s_run blk N height root (fun _ => None) l in
    snd m = snd s /\ in_memory blk N height root ml (fst s) (rs_objs (fst m)).
  Proof.
    intros Rr Ro Se Ns m s. subst m s. destruct (s_run blk N height root (fun _ => None) l) as [f xs] eqn:E1.
    destruct (r_run blk ml dbg N gN gK (mk_rstate roots objs) l) as [st xs'] eqn:E2. cbn [fst snd].
    destruct (run_ok l (fun _ => None) (mk_rstate roots objs) f xs st xs' Se Ns) as [-> [_ R]]; [split; [exact Rr|exact Ro]|assumption|assumption|].
    split; [reflexivity|]. intros i. specialize (R i). destruct (f i) as [[[r a] b]|]; [|exact R]. destruct R as (A1 & A2 & A3 & ->). apply canon_ok; assumption.
  Qed.
End Proofs.

(** Moving an object to itself *)
Lemma self_move_empty blk ml dbg N gN gK st i leaf : 0 <= leaf ->
  let st' := fst (r_step blk ml dbg N gN gK st (RMove i i)) in
  c_elts (rs_objs st' i) = [] /\ snd (r_step blk ml dbg N gN gK st' (REval i leaf)) = mk_rres [] (Throw OutOfRange).
Proof.
  intros L st'. subst st'. cbn [r_step fst snd rs_objs]. unfold c_move. rewrite set_same. split; [reflexivity|].
  rewrite empty_eval by exact L. reflexivity.
Qed.
