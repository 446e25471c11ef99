(** Objects of relic_api.h hold what variables do. *)
From Coq Require Import Lia List.
From Verif Require Import Base RelicObjModel RelicObjSpec.

Lemma Forall2_len {A B} (R : A -> B -> Prop) l l' : Forall2 R l l' -> length l = length l'.
Proof. induction 1; cbn; congruence. Qed.
Section Sim.
  Context {A : Type} (wiped : A -> A) (cls : class).
  Local Notation var := (var A).
  Lemma set_from (x : var) : forall vs v k, (v < length vs)%nat ->
    map (fun iv => if (fst iv =? v + k)%nat then x else snd iv) (combine (seq k (length vs)) vs) = firstn v vs ++ x :: skipn (S v) vs.
  Proof using.
    assert (forall vs v k, (v < k)%nat -> map (fun iv => if (fst iv =? v)%nat then x else snd iv) (combine (seq k (length vs)) vs) = vs) as R.
    { induction vs as [|y vs IH]; intros v k L; [reflexivity|]. cbn [length seq combine map fst snd]. rewrite (proj2 (Nat.eqb_neq _ _)) by lia. f_equal. apply IH. lia. }
    induction vs as [|y vs IH]; intros v k L; [cbn in L; lia|]. cbn [length seq combine map fst snd]. destruct v as [|v].
    - cbn [Nat.add]. rewrite Nat.eqb_refl. cbn [firstn skipn app]. f_equal. apply R. lia.
    - rewrite (proj2 (Nat.eqb_neq _ _)) by lia. cbn [firstn skipn app]. f_equal. replace (S v + k)%nat with (v + S k)%nat by lia. apply IH. cbn in L. lia.
  Qed.
  Lemma set_put (vs : list var) v x : (v < length vs)%nat -> set_at vs v x = firstn v vs ++ x :: skipn (S v) vs.
  Proof using. intros L. unfold set_at. rewrite <- (set_from x vs v 0 L). now rewrite Nat.add_0_r. Qed.
  Lemma show_put (os : list (@object A)) vs v o x : Forall2 shows os vs -> (v < length vs)%nat -> shows o x -> Forall2 shows (put os v o) (set_at vs v x).
  Proof using.
    intros H L S. rewrite set_put by exact L. unfold put. clear L. revert v. induction H as [|a b os vs H1 H IH]; intros v.
    - rewrite !firstn_nil, !skipn_nil. repeat constructor. exact S.
    - destruct v as [|v]; [constructor; [exact S|exact H]|]. cbn [firstn skipn app]. constructor; [exact H1|]. apply IH.
  Qed.
  Lemma show_at (os : list (@object A)) vs v x : Forall2 shows os vs -> at_ vs v = Some x -> exists o, nth_error os v = Some o /\ shows o x /\ (v < length vs)%nat.
  Proof using.
    unfold at_. intros H. revert v. induction H as [|a b os vs H1 H IH]; intros [|v] E; try discriminate E.
    - injection E as <-. exists a. cbn. auto with arith.
    - destruct (IH v E) as (o & A1 & A2 & A3). exists o. cbn. auto with arith.
  Qed.
  Lemma len_set (vs : list var) v x : length (set_at vs v x) = length vs.
  Proof using. unfold set_at. rewrite map_length, combine_length, seq_length. apply Nat.min_id. Qed.
  Lemma construct_ok c (os : list (@object A)) vs v a checks : Forall2 shows os vs -> at_ vs v = Some Nothing -> exists os',
    construct AUTO checks (c, os) v a = Ok ((c, os'), if c || negb checks then None else Some RuntimeError) /\ Forall2 shows os' (if c || negb checks then set_at vs v (Holds a) else vs).
  Proof using.
    intros H E. destruct (show_at os vs v Nothing H E) as ([al i x] & N & S & L). cbn in S. subst al. unfold construct. rewrite N.
    destruct c, checks; cbn [andb negb orb]; eexists; (split; [reflexivity|]); try exact H; apply show_put; auto; repeat split.
  Qed.
  Lemma move_ok (os : list (@object A)) vs v w a x y : Forall2 shows os vs -> (v < length vs)%nat -> (w < length vs)%nat -> v <> w -> isInit y = true -> contents y = a ->
    Forall2 shows (move wiped os v w x y) (set_at (set_at vs v (Holds a)) w Moved).
  Proof using.
    intros H Lv Lw Ne I C. unfold move. rewrite (proj2 (Nat.eqb_neq _ _) Ne), I. cbn [negb andb]. apply show_put; [|rewrite len_set; exact Lw|repeat split]. apply show_put; [exact H|exact Lv|]. repeat split. exact C.
  Qed.
  Lemma put_put (os : list (@object A)) v o o' : (v < length os)%nat -> put (put os v o) v o' = put os v o'.
  Proof using.
    unfold put. revert v. induction os as [|a os IH]; intros [|v] L; cbn in L; try lia; [reflexivity|]. cbn [firstn skipn app]. f_equal. apply IH. lia.
  Qed.
  Lemma sim_step c os vs p c' vs' e : Forall2 shows os vs -> meaning cls c vs p = Some (c', vs', e) -> exists os', step wiped AUTO cls (c, os) p = Ok ((c', os'), e) /\ Forall2 shows os' vs'.
  Proof using.
    intros H M. destruct p as [b|v a|v w|v w|v w|v w|v]; cbn [meaning] in M.
    - injection M as <- <- <-. exists os. auto.
    - destruct (at_ vs v) as [[| |]|] eqn:E; try discriminate M. destruct (construct_ok c os vs v a true H E) as (os' & C & S). rewrite Bool.orb_false_r in *.
      exists os'. cbn [step]. rewrite C. destruct c; injection M as <- <- <-; auto.
    - destruct (at_ vs v) as [[| |]|] eqn:E; try discriminate M. destruct (at_ vs w) as [[|a|]|] eqn:Ew; try discriminate M. injection M as M.
      destruct (show_at os vs w _ H Ew) as ([al i x] & N & (S1 & S2 & S3) & _). cbn in S1, S2, S3. subst al i x.
      destruct (construct_ok c os vs v a (copy_checks cls) H E) as (os' & C & S). exists os'. cbn [step]. rewrite N, C.
      destruct c, cls; cbn [copy_checks orb negb] in *; injection M as <- <- <-; auto.
    - destruct (at_ vs v) as [[| |]|] eqn:E; try discriminate M. destruct (at_ vs w) as [[|a|]|] eqn:Ew; try discriminate M.
      destruct (show_at os vs w _ H Ew) as ([al i x] & N & (S1 & S2 & S3) & Lw). cbn in S1, S2, S3. subst al i x.
      destruct (show_at os vs v _ H E) as ([al i x] & Nv & S1 & Lv). cbn in S1. subst al.
      assert (v <> w) as Ne by (intros ->; rewrite Ew in E; discriminate).
      assert (exists os', Ok ((c, move wiped (put os v {| alive := true; isInit := false; contents := x |}) v w {| alive := true; isInit := false; contents := x |} {| alive := true; isInit := true; contents := a |}), None) = Ok ((c, os'), @None exn) /\
        Forall2 shows os' (set_at (set_at vs v (Holds a)) w Moved)) as Mv.
      { eexists. split; [reflexivity|]. unfold move. rewrite (proj2 (Nat.eqb_neq _ _) Ne). cbn [negb andb isInit contents]. rewrite put_put by (rewrite (Forall2_len _ _ _ H); exact Lv).
        apply show_put; [|rewrite len_set; exact Lw|repeat split]. apply show_put; [exact H|exact Lv|repeat split]. }
      cbn [step]. rewrite Nv, N. destruct cls; try (injection M as <- <- <-; exact Mv).
      destruct (construct_ok c os vs v a (copy_checks ClassGT) H E) as (os' & C & S). exists os'. cbn [contents]. rewrite C. destruct c; cbn [copy_checks orb negb] in *; injection M as <- <- <-; auto.
    - destruct (at_ vs v) as [[|b|]|] eqn:E; try discriminate M; destruct (at_ vs w) as [[|a|]|] eqn:Ew; try discriminate M; injection M as <- <- <-;
        destruct (show_at os vs w _ H Ew) as ([al i x] & N & (S1 & S2 & S3) & _); cbn in S1, S2, S3; subst al i x.
      + destruct (show_at os vs v _ H E) as ([al i x] & Nv & (S1 & S2 & S3) & Lv). cbn in S1, S2, S3. subst al i x. cbn [step]. rewrite Nv, N. eexists. split; [reflexivity|]. apply show_put; auto. repeat split.
      + destruct (show_at os vs v _ H E) as ([al i x] & Nv & (S1 & S2) & Lv). cbn in S1, S2. subst al i. cbn [step]. rewrite Nv, N. eexists. split; [reflexivity|]. exact H.
    - assert (exists x, at_ vs v = Some x /\ x <> Nothing) as (xv & E & NN) by (destruct (at_ vs v) as [[|b|]|]; try discriminate M; eexists; split; try reflexivity; discriminate).
      rewrite E in M. destruct (at_ vs w) as [[|a|]|] eqn:Ew; [destruct xv; discriminate M| |destruct xv; discriminate M|destruct xv; discriminate M].
      assert (Some (c, if (v =? w)%nat then vs else set_at (set_at vs v (Holds a)) w Moved, None) = Some (c', vs', e)) as M' by (destruct xv; [contradiction (NN eq_refl)|exact M|exact M]). injection M' as <- <- <-.
      destruct (show_at os vs w _ H Ew) as ([al i x] & N & (S1 & S2 & S3) & Lw). cbn in S1, S2, S3. subst al i x.
      destruct (show_at os vs v _ H E) as ([al i x] & Nv & S1 & Lv). assert (al = true) as -> by (destruct xv; [contradiction (NN eq_refl)|exact (proj1 S1)|exact (proj1 S1)]).
      cbn [step]. rewrite Nv, N. eexists. split; [reflexivity|]. destruct (Nat.eqb_spec v w) as [->|Ne]; [|apply move_ok; auto]. unfold move. rewrite Nat.eqb_refl. exact H.
    - assert (exists x, at_ vs v = Some x /\ x <> Nothing) as (xv & E & NN) by (destruct (at_ vs v) as [[|b|]|]; try discriminate M; eexists; split; try reflexivity; discriminate).
      rewrite E in M. assert (Some (c, set_at vs v Nothing, None) = Some (c', vs', e)) as M' by (destruct xv; [contradiction (NN eq_refl)|exact M|exact M]). injection M' as <- <- <-.
      destruct (show_at os vs v _ H E) as ([al i x] & Nv & S1 & Lv). assert (al = true) as -> by (destruct xv; [contradiction (NN eq_refl)|exact (proj1 S1)|exact (proj1 S1)]).
      cbn [step]. rewrite Nv. eexists. split; [reflexivity|]. apply show_put; auto. reflexivity.
  Qed.
  Lemma sim_run ps : forall c os vs c' vs' es, Forall2 shows os vs -> meanings cls c vs ps = Some (c', vs', es) -> exists os', run wiped AUTO cls (c, os) ps = Ok ((c', os'), es) /\ Forall2 shows os' vs'.
  Proof using.
    induction ps as [|p ps IH]; intros c os vs c' vs' es H M; cbn [meanings] in M.
    - injection M as <- <- <-. exists os. auto.
    - destruct (meaning cls c vs p) as [[[c1 vs1] e]|] eqn:E; [|discriminate M]. destruct (meanings cls c1 vs1 ps) as [[[c2 vs2] es']|] eqn:E2; [|discriminate M]. injection M as <- <- <-.
      destruct (sim_step _ _ _ _ _ _ _ H E) as (os1 & R1 & H1). destruct (IH _ _ _ _ _ _ H1 E2) as (os2 & R2 & H2). exists os2. cbn [run]. rewrite R1. cbn [bind]. rewrite R2. auto.
  Qed.
  (** What a move leaves in the memory of the source *)
  Lemma move_wipes c os vs v w a : Forall2 shows os vs -> at_ vs w = Some (Holds a) -> cls <> ClassGT -> v <> w ->
    (at_ vs v = Some Nothing -> exists os' o, step wiped AUTO cls (c, os) (MoveInit v w) = Ok ((c, os'), None) /\ nth_error os' w = Some o /\ contents o = wiped a) /\
    (at_ vs v <> None -> at_ vs v <> Some Nothing -> exists os' o, step wiped AUTO cls (c, os) (MoveAssign v w) = Ok ((c, os'), None) /\ nth_error os' w = Some o /\ contents o = wiped a).
  Proof using.
    intros H Ew NG Ne.
    destruct (show_at os vs w _ H Ew) as ([al i x] & N & (S1 & S2 & S3) & Lw). cbn in S1, S2, S3. subst al i x. pose proof (Forall2_len _ _ _ H) as Len.
    assert (forall (l : list (@object A)) o, (w < length l)%nat -> nth_error (put l w o) w = Some o) as At.
    { intros l o L. unfold put. rewrite nth_error_app2; rewrite firstn_length_le by lia; [now rewrite Nat.sub_diag|lia]. }
    assert (forall (l : list (@object A)) k o, (k < length l)%nat -> length (put l k o) = length l) as Lp.
    { intros l k o L. unfold put. rewrite app_length, firstn_length_le by lia. cbn [length]. rewrite skipn_length. lia. }
    split.
    - intros E. destruct (show_at os vs v _ H E) as ([al i x] & Nv & S1 & Lv). cbn in S1. subst al. cbn [step]. rewrite Nv, N.
      eexists _, _. split; [destruct cls; try reflexivity; contradiction (NG eq_refl)|]. unfold move. rewrite (proj2 (Nat.eqb_neq _ _) Ne). cbn [negb andb isInit contents].
      split; [apply At; rewrite !Lp; rewrite ?Lp; lia|reflexivity].
    - intros E1 E2. destruct (at_ vs v) as [xv|] eqn:E; [|contradiction (E1 eq_refl)]. destruct (show_at os vs v _ H E) as ([al i x] & Nv & S1 & Lv).
      assert (al = true) as -> by (destruct xv; [contradiction (E2 eq_refl)|exact (proj1 S1)|exact (proj1 S1)]). cbn [step]. rewrite Nv, N. eexists _, _. split; [reflexivity|].
      unfold move. rewrite (proj2 (Nat.eqb_neq _ _) Ne). cbn [negb andb isInit contents]. split; [apply At; rewrite Lp; lia|reflexivity].
  Qed.
  Lemma destroy_keeps c (os : list (@object A)) vs v a mode : Forall2 shows os vs -> at_ vs v = Some (Holds a) -> exists os' o, step wiped mode cls (c, os) (Destroy v) = Ok ((c, os'), None) /\
    nth_error os' v = Some o /\ alive o = false /\ contents o = a.
  Proof using.
    intros H E. destruct (show_at os vs v _ H E) as ([al i x] & N & (S1 & S2 & S3) & L). cbn in S1, S2, S3. subst al i x. cbn [step]. rewrite N. eexists _, _. split; [reflexivity|].
    pose proof (Forall2_len _ _ _ H). split; [unfold put; rewrite nth_error_app2; rewrite firstn_length_le by lia; [rewrite Nat.sub_diag; reflexivity|lia]|]. split; reflexivity.
  Qed.
  Lemma dynamic_fails (os : list (@object A)) v a : (exists o, nth_error os v = Some o /\ alive o = false) -> step wiped DYNAMIC cls (true, os) (Make v a) = UB.
  Proof using. intros ([al i x] & N & S). cbn in S. subst al. cbn [step]. unfold construct. rewrite N. reflexivity. Qed.
End Sim.
