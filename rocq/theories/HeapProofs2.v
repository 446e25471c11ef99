(** Shrinking, copying and setting; any sequence of calls. *)
From Coq Require Import Lia ZifyBool Permutation.
From Verif Require Import Base BaseFacts MpiModel LimbModel HeapModel HeapSpec HeapProofs.

Lemma sig_snoc l x : sig (l ++ [x]) = if x =? 0 then sig l else S (length l).
Proof.
  induction l as [|y l IH]; cbn [app sig length]; [destruct (x =? 0); reflexivity|]. rewrite IH. destruct (x =? 0); [|reflexivity]. reflexivity.
Qed.
Lemma firstn_snoc (l : list Z) k : (k < length l)%nat -> firstn (S k) l = firstn k l ++ [nth k l 0].
Proof.
  revert l. induction k as [|k IH]; intros [|x l] H; cbn [length] in H; try lia; [reflexivity|]. change (firstn (S (S k)) (x :: l)) with (x :: firstn (S k) l). rewrite IH by lia. reflexivity.
Qed.
Lemma used_firstn : forall k l, (k < length l)%nat -> used k l = Nat.max 1 (sig (firstn (S k) l)).
Proof.
  induction k as [|k IH]; intros l H.
  - destruct l as [|x l]; [cbn in H; lia|]. cbn [used firstn sig]. destruct (x =? 0); reflexivity.
  - rewrite firstn_snoc by exact H. rewrite sig_snoc. cbn [used]. destruct (nth (S k) l 0 =? 0); [apply IH; lia|]. rewrite firstn_length. lia.
Qed.
Lemma used_sig l : l <> [] -> used (length l - 1) l = Nat.max 1 (sig l).
Proof. intros H. assert (0 < length l)%nat by (destruct l; [congruence|cbn; lia]). rewrite used_firstn by lia. replace (S (length l - 1)) with (length l) by lia. rewrite firstn_all. reflexivity. Qed.
Lemma sig_len l : (sig l <= length l)%nat.
Proof. induction l as [|x l IH]; cbn [sig length]; [lia|]. destruct (sig l); [destruct (x =? 0); lia|lia]. Qed.

Section Ops.
Variable ora : nat -> bool.
Lemma failed_none h h' : calls h' = calls h -> failed ora h h' = false.
Proof. intros E. unfold failed. rewrite E, Nat.sub_diag. reflexivity. Qed.
Lemma failed_one h h' : calls h' = S (calls h) -> failed ora h h' = negb (ora (calls h)).
Proof. intros E. unfold failed. rewrite E. replace (S (calls h) - calls h)%nat with 1%nat by lia. cbn. apply Bool.orb_false_r. Qed.
(** [op] on an object with the number [x], whose number afterwards is [y] *)
Definition does (op : outcome (heap * hmpi * Z)) (h : heap) (rest : list (Z * list Z)) (y : bool -> mpi) : Prop :=
  exists h' X' r l', op = Ok (h', X', r) /\ own h' X' l' rest /\ MkMpi (hs X') l' = y (failed ora h h').
Lemma does_grow h X l rest n : own h X l rest -> does (h_grow ora h X n) h rest (fun f => if f then MkMpi (hs X) l else or_else (MkMpi (hs X) l) (l_grow (MkMpi (hs X) l) n)).
Proof.
  intros O. destruct (grow_ok ora h X l rest n O) as [h' [X' [r [E [[M [-> [-> ->]]]|[[M [T [Ho [O' [-> [-> C]]]]]]|[M [O' [HS [-> [C Ho]]]]]]]]]]]; unfold l_grow; cbn [mp ms].
  - exists h, X, ERR_MPI_ALLOC_FAILED, l. split; [exact E|]. split; [exact O|]. rewrite failed_none by reflexivity. replace (MPI_MAX_LIMBS <? Z.of_nat n) with true by lia. reflexivity.
  - exists h', X, ERR_MPI_ALLOC_FAILED, l. split; [exact E|]. split; [exact O'|]. rewrite failed_one by exact C. rewrite Ho. reflexivity.
  - exists h', X', 0, (l ++ repeat 0 (n - length l)). split; [exact E|]. split; [exact O'|]. replace (MPI_MAX_LIMBS <? Z.of_nat n) with false by lia. rewrite HS. destruct (Nat.ltb_spec (length l) n) as [T|T].
    + rewrite failed_one by exact C. rewrite Ho by exact T. reflexivity.
    + rewrite failed_none by exact C. reflexivity.
Qed.
Lemma does_shrink h X l rest n : own h X l rest -> does (h_shrink ora h X n) h rest (fun f => if f then MkMpi (hs X) l else or_else (MkMpi (hs X) l) (l_shrink (MkMpi (hs X) l) n)).
Proof.
  intros O. pose proof O as [W [P [L Z0]]]. unfold h_shrink, l_shrink. cbn [mp ms]. rewrite <- L. destruct (Nat.leb_spec (length l) n) as [T|T]; [apply does_grow; exact O|].
  assert (l <> []) as NE by (intros ->; cbn in T; lia). assert (hp X <> 0) as NZ by tauto. rewrite (load_ok h (hp X) l rest) by (try lia; try assumption; apply own_blk; assumption). cbn [bind]. rewrite firstn_all, used_sig by exact NE. cbv zeta.
  set (i := if (Nat.max 1 (sig l) <? n)%nat then n else Nat.max 1 (sig l)). assert (i = Nat.max (Nat.max 1 (sig l)) n) as Ei by (subst i; destruct (Nat.ltb_spec (Nat.max 1 (sig l)) n); lia).
  pose proof (sig_len l). destruct (ora (calls h)) eqn:Ho.
  - destruct (replace_ok ora h X l rest i i O Ho ltac:(lia) ltac:(lia) ltac:(lia)) as [h1 [p [E1 [Np [h2 [E2 [O2 C2]]]]]]]. rewrite E1. replace (p =? 0) with false by lia. rewrite L, E2. cbn [bind].
    exists h2, (MkH (hs X) i p), 0, (firstn i l). split; [reflexivity|]. rewrite Nat.sub_diag in O2. cbn [repeat] in O2. rewrite app_nil_r in O2. split; [exact O2|]. rewrite failed_one by exact C2. rewrite Ho. cbn [negb hs]. unfold or_else, ret. rewrite Ei. reflexivity.
  - unfold calloc. rewrite Ho. change (0 =? 0) with true. cbn iota. do 3 eexists. exists l. split; [reflexivity|]. split; [apply own_calls; exact O|]. rewrite failed_one by reflexivity. rewrite Ho. reflexivity.
Qed.
Lemma own_perm h X l r1 r2 : Permutation r1 r2 -> own h X l r1 -> own h X l r2.
Proof. intros P [W [Q R]]. split; [exact W|]. split; [|exact R]. eapply perm_trans; [exact Q|]. apply Permutation_app_head. exact P. Qed.
Lemma own_save h X l rest d : own h X l rest -> hp X <> 0 -> (length d <= length l)%nat -> exists h', save h (hp X) d = Ok h' /\ own h' X (d ++ skipn (length d) l) rest /\ calls h' = calls h.
Proof.
  intros O NZ Hd. pose proof O as [W [P [L Z0]]]. destruct (save_ok h (hp X) l rest d W (own_blk _ _ _ _ O NZ) Hd) as [h1 [E [W1 [P1 [[_ S2] _]]]]]. exists h1. split; [exact E|]. split; [|exact S2].
  unfold own, blk. replace (hp X =? 0) with false by lia. split; [exact W1|]. split; [exact P1|]. split; [rewrite app_length, skipn_length; lia|]. split; [lia|]. intros E0. exfalso. apply NZ. apply Z0. apply length_zero_iff_nil. apply (f_equal (@length Z)) in E0. rewrite app_length, skipn_length in E0. cbn in E0. lia.
Qed.
Lemma does_copy h X l Y m rest : own h X l (blk Y m ++ rest) -> length m = hn Y -> (hp Y = 0 <-> m = []) ->
  does (h_copy ora h X Y) h (blk Y m ++ rest) (fun f => if f then MkMpi (hs Y) l else or_else (MkMpi (hs Y) l) (l_copy false (MkMpi (hs X) l) (MkMpi (hs Y) m))).
Proof.
  intros O Lm Zm. unfold h_copy. destruct (Z.eqb_spec (hp Y) 0) as [E|E].
  - assert (m = []) as -> by (apply Zm; exact E). destruct (free_ok h X l _ O) as [h1 [E1 [O1 C1]]]. rewrite E1. cbn [bind]. exists h1, h_init, 0, []. split; [reflexivity|]. split; [exact O1|]. rewrite failed_none by exact C1. reflexivity.
  - assert (m <> []) as NE by tauto. pose proof O as [W [P [L Z0]]].
    assert (forall h X l, own h X l (blk Y m ++ rest) -> Permutation (cells h) ((hp Y, m) :: (blk X l ++ rest))) as PY.
    { intros h1 X1 l1 [_ [P1 _]]. eapply perm_trans; [exact P1|]. unfold blk at 2. replace (hp Y =? 0) with false by lia. cbn [app]. apply Permutation_sym. apply Permutation_middle. }
    rewrite (load_ok h (hp Y) m _ (hn Y) W (PY _ _ _ O)) by lia. cbn [bind]. rewrite <- Lm, firstn_all, used_sig by exact NE. set (i := Nat.max 1 (sig m)). pose proof (sig_len m). assert (1 <= length m)%nat by (destruct m; [congruence|cbn; lia]).
    assert (own h (MkH (hs Y) (hn X) (hp X)) l (blk Y m ++ rest)) as O0 by exact O.
    destruct (grow_ok ora h _ l _ i O0) as [h' [X' [r [E1 [[M [-> [-> ->]]]|[[M [T [Ho [O' [-> [-> C]]]]]]|[M [O' [HS [-> [C Ho]]]]]]]]]]]; rewrite E1; cbn [bind].
    + change (negb (ERR_MPI_ALLOC_FAILED =? 0)) with true. cbn iota. do 3 eexists. exists l. split; [reflexivity|]. split; [exact O0|]. rewrite failed_none by reflexivity. unfold l_copy. cbn [mp ms hs]. destruct m as [|x m]; [congruence|]. cbv zeta. fold i. unfold l_grow. replace (MPI_MAX_LIMBS <? Z.of_nat i) with true by lia. reflexivity.
    + change (negb (ERR_MPI_ALLOC_FAILED =? 0)) with true. cbn iota. do 3 eexists. exists l. split; [reflexivity|]. split; [exact O'|]. rewrite failed_one by exact C. rewrite Ho. reflexivity.
    + change (negb (0 =? 0)) with false. cbn iota. set (l2 := l ++ repeat 0 (i - length l)) in *. assert (length l2 = Nat.max (length l) i) as L2 by (subst l2; rewrite app_length, repeat_length; lia).
      pose proof O' as [W' [P' [L' Z']]]. assert (hp X' <> 0) as NZ by (intros E0; apply Z' in E0; apply (f_equal (@length Z)) in E0; change (length (@nil Z)) with 0%nat in E0; lia).
      destruct (own_save h' X' l2 _ (repeat 0 (hn X')) O' NZ ltac:(rewrite repeat_length; lia)) as [h2 [E2 [O2 C2]]]. rewrite E2. cbn [bind]. rewrite repeat_length in O2. rewrite <- L' in O2. rewrite skipn_all, app_nil_r in O2.
      pose proof O2 as [W2 _]. rewrite (load_ok h2 (hp Y) m _ i W2 (PY _ _ _ O2)) by lia. cbn [bind].
      assert (length (firstn i m) = i) as LF by (rewrite firstn_length; lia).
      destruct (own_save h2 X' _ _ (firstn i m) O2 NZ ltac:(rewrite repeat_length; lia)) as [h3 [E3 [O3 C3]]]. rewrite E3. cbn [bind]. rewrite LF in O3.
      exists h3, X', 0. eexists. split; [reflexivity|]. split; [exact O3|].
      assert (skipn i (repeat 0 (length l2)) = repeat 0 (length l2 - i)) as -> by (replace (length l2) with (i + (length l2 - i))%nat at 1 by lia; rewrite repeat_app, skipn_app, skipn_all2 by (rewrite repeat_length; lia); rewrite repeat_length, Nat.sub_diag; reflexivity).
      assert (failed ora h h3 = false) as ->. { destruct (Nat.ltb_spec (length l) i) as [T|T]; [rewrite failed_one by congruence; rewrite Ho by exact T; reflexivity|apply failed_none; congruence]. }
      unfold l_copy. cbn [mp ms]. destruct m as [|x m]; [congruence|]. cbv zeta. fold i. unfold l_grow. cbn [ms mp]. replace (MPI_MAX_LIMBS <? Z.of_nat i) with false by lia. unfold bindr, ret. cbn [bind or_else mp]. fold l2. rewrite HS. reflexivity.
Qed.
Lemma does_lset h X l rest z : own h X l rest -> - 2 ^ 63 < z < 2 ^ 63 -> does (h_lset ora h X z) h rest (fun f => if f then MkMpi (hs X) l else or_else (MkMpi (hs X) l) (l_lset (MkMpi (hs X) l) z)).
Proof.
  intros O Hz. unfold h_lset. assert (MPI_MAX_LIMBS = 10000) as HM by reflexivity.
  destruct (grow_ok ora h X l rest 1 O) as [h' [X' [r [E [[M [-> [-> ->]]]|[[M [T [Ho [O' [-> [-> C]]]]]]|[M [O' [HS [-> [C Ho]]]]]]]]]]]; rewrite E; cbn [bind].
  - exfalso. lia.
  - change (negb (ERR_MPI_ALLOC_FAILED =? 0)) with true. cbn iota. do 3 eexists. exists l. split; [reflexivity|]. split; [exact O'|]. rewrite failed_one by exact C. rewrite Ho. reflexivity.
  - change (negb (0 =? 0)) with false. cbn iota. set (l2 := l ++ repeat 0 (1 - length l)) in *. assert (length l2 = Nat.max (length l) 1) as L2 by (subst l2; rewrite app_length, repeat_length; lia).
    pose proof O' as [W' [P' [L' Z']]]. assert (hp X' <> 0) as NZ by (intros E0; apply Z' in E0; apply (f_equal (@length Z)) in E0; change (length (@nil Z)) with 0%nat in E0; lia).
    destruct (own_save h' X' l2 _ (repeat 0 (hn X')) O' NZ ltac:(rewrite repeat_length; lia)) as [h2 [E2 [O2 C2]]]. rewrite E2. cbn [bind]. rewrite repeat_length in O2. rewrite <- L' in O2. rewrite skipn_all, app_nil_r in O2.
    replace (z =? - 2 ^ 63) with false by lia. cbn [bind]. destruct (own_save h2 X' _ _ [Z.abs z] O2 NZ ltac:(rewrite repeat_length; cbn [length]; lia)) as [h3 [E3 [O3 C3]]]. rewrite E3. cbn [bind].
    exists h3. do 2 eexists. eexists. split; [reflexivity|]. split; [exact O3|]. cbn [hs length].
    assert (failed ora h h3 = false) as ->. { destruct (Nat.ltb_spec (length l) 1) as [T|T]; [rewrite failed_one by congruence; rewrite Ho by exact T; reflexivity|apply failed_none; congruence]. }
    unfold l_lset, l_grow. cbn [ms mp]. rewrite HM. change (10000 <? Z.of_nat 1) with false. cbn iota. unfold bindr, ret at 1. cbn [bind mp]. unfold sint_abs. replace (z =? - 2 ^ 63) with false by lia. cbn [bind]. fold l2.
    destruct l2 as [|x r2]; [change (length (@nil Z)) with 0%nat in L2; lia|]. cbn [length repeat skipn app]. reflexivity.
Qed.
End Ops.
