(** Calls on groups of objects; copying and checking keys. *)
From Coq Require Import Lia ZifyBool Permutation.
From Verif Require Import Base BaseFacts MpiModel LimbModel HeapModel HeapSpec HeapProofs HeapProofs2 HeapProofs3 TdpHeapModel TdpHeapSpec.

(** A state with the numbers [V] *)
Definition st (h : heap) (o : objs) (V : list mpi) : Prop := exists v, o = map fst v /\ inv h v /\ V = map num v.
Definition has_value (x : mpi) : Z := ms x * limbs_value (mp x).
Definition keyok (V : list mpi) (i : nat) : bool :=
  negb (match mp (val V (at_ i 0)) with [] => true | _ => false end) && negb (match mp (val V (at_ i 1)) with [] => true | _ => false end)
  && pub_check (has_value (val V (at_ i 0))) (has_value (val V (at_ i 1))).
Lemma upd_other v i x t : (i < length v)%nat -> t <> i -> val (upd v i x) t = val v t.
Proof.
  intros Hi N. unfold val, upd. destruct (Nat.lt_ge_cases t i) as [L|L].
  - rewrite app_nth1 by (rewrite firstn_length; lia). rewrite <- (firstn_skipn i v) at 2. rewrite app_nth1 by (rewrite firstn_length; lia). reflexivity.
  - rewrite app_nth2 by (rewrite firstn_length; lia). rewrite firstn_length, Nat.min_l by lia. destruct (t - i)%nat as [|q] eqn:Eq; [lia|]. cbn [nth]. rewrite <- (firstn_skipn (S i) v) at 2. rewrite app_nth2 by (rewrite firstn_length; lia). rewrite firstn_length, Nat.min_l by lia. f_equal. lia.
Qed.
Lemma upd_same v i x : (i < length v)%nat -> val (upd v i x) i = x.
Proof. intros H. unfold val, upd. rewrite app_nth2 by (rewrite firstn_length; lia). rewrite firstn_length, Nat.min_l by lia. rewrite Nat.sub_diag. reflexivity. Qed.
Lemma upd_length v i x : (i < length v)%nat -> length (upd v i x) = length v.
Proof. intros H. apply (put_at_length v i x H). Qed.
Lemma effect_frame f c v t : call_ok (length v) c -> ~ touches c t -> val (effect f c v) t = val v t.
Proof.
  intros Hc N. destruct c as [i n|i n|i j|i j|i z|i|i d]; cbn [call_ok touches effect] in *; try (apply upd_other; [lia|intros E; apply N; exact E]).
  - rewrite upd_other; [|rewrite upd_length; lia|intros E; apply N; right; exact E]. apply upd_other; [lia|intros E; apply N; left; exact E].
  - destruct (_ =? _)%nat; [apply upd_other; [lia|exact N]|reflexivity].
Qed.
Section Ops.
Variable ora : nat -> bool.
Lemma run_st (A : nat -> Prop) k : forall cs h o V, st h o V -> length V = k -> Forall (fun c => call_ok k c /\ forall t, touches c t -> A t) cs ->
  exists h' o' V', run ora cs h o = Ok (h', o') /\ st h' o' V' /\ length V' = k /\ forall t, ~ A t -> val V' t = val V t.
Proof.
  induction cs as [|c cs IH]; intros h o V H L F; [exists h, o, V; repeat split; assumption|]. inversion F as [|? ? [C1 C2] F2]; subst. destruct H as [v [-> [I ->]]]. rewrite map_length in *.
  destruct (run1_ok ora c h v I C1) as [h1 [v1 [E1 [I1 [L1 N1]]]]]. cbn [run]. rewrite E1. cbn [bind].
  destruct (IH h1 (map fst v1) (map num v1)) as [h2 [o2 [V2 [E2 [S2 [L2 X2]]]]]]; [exists v1; repeat split; try apply I1; reflexivity|rewrite map_length; exact L1|exact F2|].
  exists h2, o2, V2. split; [exact E2|]. split; [exact S2|]. split; [exact L2|]. intros t Ht. rewrite X2 by exact Ht. rewrite N1. apply effect_frame; [rewrite map_length; exact C1|intros T; apply Ht, C2, T].
Qed.
(** Releasing a group of objects *)
Lemma free_st : forall js h o V, st h o V -> Forall (fun j => (j < length V)%nat) js ->
  exists h' o' V', run ora (map CFree js) h o = Ok (h', o') /\ st h' o' V' /\ length V' = length V /\ (forall t, In t js -> val V' t = l_init) /\ (forall t, ~ In t js -> val V' t = val V t).
Proof.
  induction js as [|j js IH]; intros h o V H F; [exists h, o, V; repeat split; try assumption; try reflexivity; intros t []|]. inversion F as [|? ? F1 F2]; subst. destruct H as [v [-> [I ->]]]. rewrite map_length in *.
  destruct (run1_ok ora (CFree j) h v I F1) as [h1 [v1 [E1 [I1 [L1 N1]]]]]. cbn [map run]. rewrite E1. cbn [bind].
  destruct (IH h1 (map fst v1) (map num v1)) as [h2 [o2 [V2 [E2 [S2 [L2 [X2 Y2]]]]]]]; [exists v1; repeat split; try apply I1; reflexivity|rewrite map_length, L1; exact F2|].
  rewrite map_length, L1 in L2. exists h2, o2, V2. split; [exact E2|]. split; [exact S2|]. split; [exact L2|]. cbn [effect] in N1. split; intros t Ht.
  - destruct (in_dec Nat.eq_dec t js) as [M|M]; [apply X2; exact M|]. rewrite Y2 by exact M. destruct Ht as [->|Ht]; [|contradiction]. rewrite N1. apply upd_same. rewrite map_length. exact F1.
  - cbn [In] in Ht. rewrite Y2 by tauto. rewrite N1. apply upd_other; [rewrite map_length; exact F1|intros ->; apply Ht; left; reflexivity].
Qed.
(** The value of a copy *)
Lemma lv_app : forall l k, limbs_value (l ++ repeat 0 k) = limbs_value l.
Proof.
  assert (forall k, limbs_value (repeat 0 k) = 0) as HZ by (induction k as [|k IH]; [reflexivity|]; cbn [repeat limbs_value]; rewrite IH; reflexivity).
  induction l as [|x l IH]; intros k; [apply HZ|]. cbn [app limbs_value]. rewrite IH. reflexivity.
Qed.
Lemma sig_zero : forall l, sig l = O -> limbs_value l = 0.
Proof. induction l as [|x l IH]; intros H; [reflexivity|]. cbn [sig] in H. cbn [limbs_value]. destruct (sig l); [|discriminate]. destruct (Z.eqb_spec x 0) as [->|]; [|discriminate]. rewrite IH by reflexivity. reflexivity. Qed.
Lemma lv_firstn : forall l n, (sig l <= n)%nat -> limbs_value (firstn n l) = limbs_value l.
Proof.
  induction l as [|x l IH]; intros n H; [rewrite firstn_nil; reflexivity|]. destruct n as [|n].
  - change (firstn 0 (x :: l)) with (@nil Z). rewrite (sig_zero (x :: l)) by lia. reflexivity.
  - cbn [firstn limbs_value]. rewrite IH; [reflexivity|]. cbn [sig] in H. destruct (sig l); lia.
Qed.
Definition same_value (x y : mpi) : Prop := has_value x = has_value y /\ (mp x = [] <-> mp y = []).
Lemma h_copy_st h X l Y m rest : own h X l (blk Y m ++ rest) -> length m = hn Y -> (hp Y = 0 <-> m = []) ->
  exists h' X' r l', h_copy ora h X Y = Ok (h', X', r) /\ own h' X' l' (blk Y m ++ rest) /\ (r = 0 -> same_value (MkMpi (hs X') l') (MkMpi (hs Y) m) /\ (m = [] -> MkMpi (hs X') l' = l_init)).
Proof.
  intros O Lm Zm. unfold h_copy. destruct (Z.eqb_spec (hp Y) 0) as [E|E].
  - assert (m = []) as -> by (apply Zm; exact E). destruct (free_ok h X l _ O) as [h1 [E1 [O1 C1]]]. rewrite E1. cbn [bind]. exists h1, h_init, 0, []. split; [reflexivity|]. split; [exact O1|]. intros _. split; [|reflexivity]. split; [unfold has_value; cbn [ms mp limbs_value]; lia|tauto].
  - assert (m <> []) as NE by tauto. pose proof O as [W [P [L Z0]]].
    assert (forall h X l, own h X l (blk Y m ++ rest) -> Permutation (cells h) ((hp Y, m) :: (blk X l ++ rest))) as PY.
    { intros h1 X1 l1 [_ [P1 _]]. eapply perm_trans; [exact P1|]. unfold blk at 2. replace (hp Y =? 0) with false by lia. cbn [app]. apply Permutation_sym. apply Permutation_middle. }
    rewrite (load_ok h (hp Y) m _ (hn Y) W (PY _ _ _ O)) by lia. cbn [bind]. rewrite <- Lm, firstn_all, used_sig by exact NE. set (i := Nat.max 1 (sig m)). pose proof (sig_len m). assert (1 <= length m)%nat by (destruct m; [congruence|cbn; lia]).
    assert (own h (MkH (hs Y) (hn X) (hp X)) l (blk Y m ++ rest)) as O0 by exact O.
    destruct (grow_ok ora h _ l _ i O0) as [h' [X' [r [E1 [[M [-> [-> ->]]]|[[M [T [Ho [O' [-> [-> C]]]]]]|[M [O' [HS [-> [C Ho]]]]]]]]]]]; rewrite E1; cbn [bind].
    + change (negb (ERR_MPI_ALLOC_FAILED =? 0)) with true. cbn iota. do 3 eexists. exists l. split; [reflexivity|]. split; [exact O0|]. intros Q. discriminate Q.
    + change (negb (ERR_MPI_ALLOC_FAILED =? 0)) with true. cbn iota. do 3 eexists. exists l. split; [reflexivity|]. split; [exact O'|]. intros Q. discriminate Q.
    + change (negb (0 =? 0)) with false. cbn iota. set (l2 := l ++ repeat 0 (i - length l)) in *. assert (length l2 = Nat.max (length l) i) as L2 by (subst l2; rewrite app_length, repeat_length; lia).
      pose proof O' as [W' [P' [L' Z']]]. assert (hp X' <> 0) as NZ by (intros E0; apply Z' in E0; apply (f_equal (@length Z)) in E0; change (length (@nil Z)) with 0%nat in E0; lia).
      destruct (own_save h' X' l2 _ (repeat 0 (hn X')) O' NZ ltac:(rewrite repeat_length; lia)) as [h2 [E2 [O2 C2]]]. rewrite E2. cbn [bind]. rewrite repeat_length in O2. rewrite <- L' in O2. rewrite skipn_all, app_nil_r in O2.
      pose proof O2 as [W2 _]. rewrite (load_ok h2 (hp Y) m _ i W2 (PY _ _ _ O2)) by lia. cbn [bind].
      assert (length (firstn i m) = i) as LF by (rewrite firstn_length; lia).
      destruct (own_save h2 X' _ _ (firstn i m) O2 NZ ltac:(rewrite repeat_length; lia)) as [h3 [E3 [O3 C3]]]. rewrite E3. cbn [bind]. rewrite LF in O3.
      exists h3, X', 0. eexists. split; [reflexivity|]. split; [exact O3|].
      assert (skipn i (repeat 0 (length l2)) = repeat 0 (length l2 - i)) as -> by (replace (length l2) with (i + (length l2 - i))%nat at 1 by lia; rewrite repeat_app, skipn_app, skipn_all2 by (rewrite repeat_length; lia); rewrite repeat_length, Nat.sub_diag; reflexivity).
      intros _. split; [|contradiction]. split; [unfold has_value; cbn [ms mp]; rewrite HS, lv_app, lv_firstn by lia; reflexivity|]. cbn [mp]. split; [|contradiction]. intros Q. apply (f_equal (@length Z)) in Q. rewrite app_length, LF in Q. change (length (@nil Z)) with 0%nat in Q. lia.
Qed.
Lemma copy_st h o V d s : st h o V -> (d < length V)%nat -> (s < length V)%nat -> d <> s ->
  exists h' o' V' r, copy_code ora h o d s = Ok (h', o', r) /\ st h' o' V' /\ length V' = length V /\ (forall t, t <> d -> val V' t = val V t) /\
    (r = 0 -> same_value (val V' d) (val V s) /\ (mp (val V s) = [] -> val V' d = l_init)).
Proof.
  intros [v [-> [I ->]]] Hd Hs N. rewrite map_length in *. destruct (inv_own h v d I Hd) as [O F]. destruct (blks_in (nth s v d0) (others v d) (others_in d0 v d s Hd Hs N)) as [rest Hr]. pose proof I as [W [P FF]].
  assert (objok (nth s v d0)) as [Lj Zj] by (rewrite Forall_forall in FF; apply FF, nth_In; exact Hs).
  destruct (h_copy_st h _ _ (fst (nth s v d0)) (snd (nth s v d0)) rest (own_perm _ _ _ _ _ Hr O) Lj Zj) as [h' [X' [r [l' [E [O' EN]]]]]].
  unfold copy_code. rewrite !nth_fst, E. cbn [bind]. exists h', (map fst (put_at v d (X', l'))), (map num (put_at v d (X', l'))), r. split; [rewrite put_at_map; reflexivity|].
  split; [eexists; split; [reflexivity|]; split; [|reflexivity]; apply own_inv; [exact Hd|eapply own_perm; [apply Permutation_sym; exact Hr|exact O']|exact F]|].
  split; [rewrite !map_length; apply put_at_length; exact Hd|]. rewrite put_at_map. split.
  - intros t Ht. apply (upd_other (map num v) d (num (X', l')) t); [rewrite map_length; exact Hd|exact Ht].
  - intros R. change (put_at (map num v) d (num (X', l'))) with (upd (map num v) d (num (X', l'))). rewrite upd_same by (rewrite map_length; exact Hd). rewrite nth_num. exact (EN R).
Qed.
(** The check *)
Lemma obj_load h v i : inv h v -> (i < length v)%nat -> hp (fst (nth i v d0)) <> 0 -> load h (hp (fst (nth i v d0))) (hn (fst (nth i v d0))) = Ok (snd (nth i v d0)).
Proof.
  intros I Hi N. destruct (inv_own h v i I Hi) as [O _]. pose proof O as [W [_ [L _]]]. rewrite (load_ok h _ _ _ _ W (own_blk _ _ _ _ O N)) by lia. rewrite <- L, firstn_all. reflexivity.
Qed.
Lemma check_st h o V i : st h o V -> (at_ i 1 < length V)%nat -> check_pubkey h o i = Ok (keyok V i).
Proof.
  intros [v [-> [I ->]]] Hi. rewrite map_length in Hi. unfold check_pubkey. cbv zeta. rewrite !nth_fst. unfold keyok. rewrite !nth_num. cbn [num mp]. pose proof I as [W [P FF]].
  assert (at_ i 0 < length v)%nat as H0 by (unfold at_ in *; lia). rewrite Forall_forall in FF. destruct (FF _ (nth_In v d0 H0)) as [LN ZN]. destruct (FF _ (nth_In v d0 Hi)) as [LE ZE].
  destruct (Z.eqb_spec (hp (fst (nth (at_ i 0) v d0))) 0) as [E0|E0]; cbn [orb]; [apply ZN in E0; rewrite E0; reflexivity|].
  destruct (Z.eqb_spec (hp (fst (nth (at_ i 1) v d0))) 0) as [E1|E1]; cbn [orb]; [apply ZE in E1; rewrite E1; rewrite Bool.andb_false_r; reflexivity|].
  rewrite (obj_load h v _ I H0 E0), (obj_load h v _ I Hi E1). cbn [bind]. unfold has_value, num. cbn [ms mp]. destruct (snd (nth (at_ i 0) v d0)) eqn:Q0; [tauto|]. destruct (snd (nth (at_ i 1) v d0)) eqn:Q1; [tauto|]. reflexivity.
Qed.
Lemma st_end h o V : st h o V -> owned h o /\ wiped h /\ (Forall (eq l_init) V -> cells h = []).
Proof.
  intros [v [-> [I ->]]]. destruct (inv_owned h v I) as [Ow Wi]. split; [exact Ow|]. split; [exact Wi|]. intros F. destruct I as [W [P FF]]. assert (blks v = []) as EB.
  { clear -F FF. induction v as [|x v IH]; [reflexivity|]. inversion F as [|? ? F1 F2]; subst. inversion FF as [|? ? [G1 G2] G3]; subst. change (blks (x :: v)) with (blk (fst x) (snd x) ++ blks v). rewrite (IH G3 F2). unfold num, l_init in F1. injection F1 as Fs Fp. unfold blk. rewrite (proj2 G2 (eq_sym Fp)). reflexivity. }
  rewrite EB in P. apply Permutation_nil, Permutation_sym. exact P.
Qed.
Lemma num_start k : repeat l_init k = map num (repeat d0 k).
Proof. induction k as [|k IH]; [reflexivity|]. change (repeat l_init (S k)) with (l_init :: repeat l_init k). rewrite IH. reflexivity. Qed.
Lemma st_start k : st empty_heap (repeat h_init k) (repeat l_init k).
Proof. exists (repeat d0 k). split; [symmetry; apply map_start|]. split; [apply (inv_start ora)|apply num_start]. Qed.
End Ops.
