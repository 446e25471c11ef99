(** Any sequence of calls on a set of big numbers. *)
From Coq Require Import Lia ZifyBool Permutation.
From Verif Require Import Base BaseFacts MpiModel LimbModel HeapModel HeapSpec HeapProofs HeapProofs2.

Definition blks (v : list (hmpi * list Z)) : list (Z * list Z) := concat (map (fun x => blk (fst x) (snd x)) v).
Definition objok (x : hmpi * list Z) : Prop := length (snd x) = hn (fst x) /\ (hp (fst x) = 0 <-> snd x = []).
Definition inv (h : heap) (v : list (hmpi * list Z)) : Prop := wf h /\ Permutation (cells h) (blks v) /\ Forall objok v.
Definition num (x : hmpi * list Z) : mpi := MkMpi (hs (fst x)) (snd x).
Definition put_at {A} (v : list A) (i : nat) (x : A) : list A := firstn i v ++ x :: skipn (S i) v.
Lemma put_at_map {A B} (f : A -> B) v i x : map f (put_at v i x) = put_at (map f v) i (f x).
Proof. unfold put_at. rewrite map_app. cbn [map]. rewrite firstn_map, skipn_map. reflexivity. Qed.
Lemma put_at_length {A} (v : list A) i x : (i < length v)%nat -> length (put_at v i x) = length v.
Proof. intros H. unfold put_at. rewrite app_length. cbn [length]. rewrite firstn_length, skipn_length. lia. Qed.
Lemma put_at_nth {A} (d : A) : forall v i, (i < length v)%nat -> put_at v i (nth i v d) = v.
Proof.
  induction v as [|x v IH]; intros i H; cbn [length] in H; [lia|]. destruct i as [|i]; [reflexivity|]. unfold put_at in *. cbn [firstn nth app]. f_equal. apply IH. lia.
Qed.
Definition others {A} (v : list A) (i : nat) : list A := firstn i v ++ skipn (S i) v.
Definition d0 : hmpi * list Z := (h_init, []).
Lemma blks_app a b : blks (a ++ b) = blks a ++ blks b.
Proof. unfold blks. rewrite map_app, concat_app. reflexivity. Qed.
Lemma blks_put v i x : Permutation (blks (put_at v i x)) (blk (fst x) (snd x) ++ blks (others v i)).
Proof.
  unfold put_at, others. rewrite !blks_app. change (blks (x :: skipn (S i) v)) with (blk (fst x) (snd x) ++ blks (skipn (S i) v)). rewrite !app_assoc. apply Permutation_app_tail. apply Permutation_app_comm.
Qed.
Lemma inv_own h v i : inv h v -> (i < length v)%nat -> own h (fst (nth i v d0)) (snd (nth i v d0)) (blks (others v i)) /\ Forall objok (others v i).
Proof.
  intros [W [P F]] Hi. split.
  - assert (objok (nth i v d0)) as [O1 O2] by (rewrite Forall_forall in F; apply F, nth_In; exact Hi). split; [exact W|]. split; [|split; assumption]. eapply perm_trans; [exact P|]. rewrite <- (put_at_nth d0 v i Hi) at 1. apply blks_put.
  - unfold others. apply Forall_app. rewrite Forall_forall in F. split; apply Forall_forall; intros x Hx; apply F; [rewrite <- (firstn_skipn i v)|rewrite <- (firstn_skipn (S i) v)]; apply in_or_app; [left|right]; exact Hx.
Qed.
Lemma own_inv h v i X l : (i < length v)%nat -> own h X l (blks (others v i)) -> Forall objok (others v i) -> inv h (put_at v i (X, l)).
Proof.
  intros Hi [W [P [L Z0]]] F. split; [exact W|]. split.
  - eapply perm_trans; [exact P|]. apply Permutation_sym. apply (blks_put v i (X, l)).
  - unfold put_at, others in *. apply Forall_app in F. destruct F as [F1 F2]. apply Forall_app. split; [exact F1|]. constructor; [split; assumption|exact F2].
Qed.
Lemma others_in {A} (d : A) v i j : (i < length v)%nat -> (j < length v)%nat -> i <> j -> In (nth j v d) (others v i).
Proof.
  intros Hi Hj Hn. unfold others. apply in_or_app. destruct (Nat.lt_ge_cases j i) as [L|L].
  - left. rewrite <- (firstn_skipn i v) at 1. rewrite app_nth1 by (rewrite firstn_length; lia). apply nth_In. rewrite firstn_length. lia.
  - right. rewrite <- (firstn_skipn (S i) v) at 1. rewrite app_nth2 by (rewrite firstn_length; lia). apply nth_In. rewrite firstn_length, skipn_length. lia.
Qed.
Lemma blks_in x v : In x v -> exists rest, Permutation (blks v) (blk (fst x) (snd x) ++ rest).
Proof.
  intros H. apply in_split in H. destruct H as [a [b ->]]. exists (blks (a ++ b)). rewrite !blks_app. change (blks (x :: b)) with (blk (fst x) (snd x) ++ blks b). rewrite !app_assoc. apply Permutation_app_tail, Permutation_app_comm.
Qed.
(** The objects and numbers of a state *)
Lemma lookup_zero h : wf h -> lookup (cells h) 0 = None.
Proof.
  intros [_ [A _]]. destruct (lookup (cells h) 0) as [l|] eqn:E; [|reflexivity]. exfalso. destruct (lookup_split _ _ _ E) as [c1 [c2 [H _]]]. rewrite H in A. apply Forall_app in A. destruct A as [_ A]. inversion A; subst. cbn in *. lia.
Qed.
Lemma inv_numbers h v : inv h v -> numbers h (map fst v) = map num v.
Proof.
  intros I. unfold numbers. rewrite map_map. apply map_ext_in. intros x Hx. pose proof I as [W [P F]]. unfold number_of, num. f_equal. rewrite Forall_forall in F. destruct (F x Hx) as [L Z0].
  destruct (Z.eq_dec (hp (fst x)) 0) as [E|E].
  - rewrite E, lookup_zero by exact W. symmetry. apply Z0. exact E.
  - destruct (blks_in x v Hx) as [rest Hr]. assert (Permutation (cells h) ((hp (fst x), snd x) :: rest)) as Q by (eapply perm_trans; [exact P|]; eapply perm_trans; [exact Hr|]; unfold blk; replace (hp (fst x) =? 0) with false by lia; reflexivity).
    rewrite (lookup_perm _ _ _ _ (proj1 W) Q). reflexivity.
Qed.
Lemma blks_fst v : map fst (blks v) = pointers (map fst v).
Proof.
  unfold pointers. rewrite map_map. induction v as [|x v IH]; [reflexivity|]. change (blks (x :: v)) with (blk (fst x) (snd x) ++ blks v). rewrite map_app, IH. cbn [map filter]. unfold blk. destruct (hp (fst x) =? 0); reflexivity.
Qed.
Lemma inv_owned h v : inv h v -> owned h (map fst v) /\ wiped h.
Proof. intros [[N [_ [_ W]]] [P _]]. split; [|exact W]. split; [|exact N]. rewrite <- blks_fst. apply Permutation_map. exact P. Qed.
Section Run.
Variable ora : nat -> bool.
Lemma nth_fst v i : nth i (map fst v) h_init = fst (nth i v d0).
Proof. change h_init with (fst d0). apply map_nth. Qed.
Lemma nth_num v i : val (map num v) i = num (nth i v d0).
Proof. unfold val. change l_init with (num d0). apply map_nth. Qed.
(** One call *)
Definition good (c : command) (h : heap) (v : list (hmpi * list Z)) : Prop :=
  exists h' v', run1 ora c h (map fst v) = Ok (h', map fst v') /\ inv h' v' /\ length v' = length v /\ map num v' = effect (failed ora h h') c (map num v).
Lemma does_good op h v i (y : bool -> mpi) (c : command) : inv h v -> (i < length v)%nat ->
  (run1 ora c h (map fst v) = ('(h, X, _) <- op ;; Ok (h, put_obj (map fst v) i X))) -> (forall f, effect f c (map num v) = upd (map num v) i (y f)) ->
  does ora op h (blks (others v i)) y -> good c h v.
Proof.
  intros I Hi E1 E2 [h' [X' [r [l' [E [O' EN]]]]]]. destruct (inv_own h v i I Hi) as [_ F]. exists h', (put_at v i (X', l')). rewrite E1, E. cbn [bind]. split; [rewrite put_at_map; reflexivity|].
  split; [apply own_inv; assumption|]. split; [apply put_at_length; exact Hi|]. rewrite E2, put_at_map. change (num (X', l')) with (MkMpi (hs X') l'). rewrite EN. reflexivity.
Qed.
Lemma run1_ok c h v : inv h v -> call_ok (length v) c -> good c h v.
Proof.
  intros I Hc. destruct c as [i n|i n|i j|i j|i z|i|i d]; cbn [call_ok] in Hc.
  - destruct (inv_own h v i I Hc) as [O F]. eapply does_good with (i := i) (op := h_grow ora h (fst (nth i v d0)) n); [exact I|exact Hc|cbn [run1]; rewrite nth_fst; reflexivity| |apply does_grow; exact O]. intros f. cbn [effect]. rewrite nth_num. reflexivity.
  - destruct (inv_own h v i I Hc) as [O F]. eapply does_good with (i := i) (op := h_shrink ora h (fst (nth i v d0)) n); [exact I|exact Hc|cbn [run1]; rewrite nth_fst; reflexivity| |apply does_shrink; exact O]. intros f. cbn [effect]. rewrite nth_num. reflexivity.
  - destruct Hc as [Hi Hj]. destruct (Nat.eqb_spec i j) as [->|N].
    + exists h, v. cbn [run1 effect]. rewrite Nat.eqb_refl. split; [reflexivity|]. split; [exact I|]. split; [reflexivity|]. rewrite failed_none by reflexivity. cbn [l_copy or_else ret]. symmetry. apply (put_at_nth l_init). rewrite map_length. exact Hi.
    + destruct (inv_own h v i I Hi) as [O F]. destruct (blks_in (nth j v d0) (others v i) (others_in d0 v i j Hi Hj N)) as [rest Hr]. pose proof I as [W [P FF]].
      assert (objok (nth j v d0)) as [Lj Zj] by (rewrite Forall_forall in FF; apply FF, nth_In; exact Hj).
      destruct (does_copy ora h _ _ (fst (nth j v d0)) (snd (nth j v d0)) rest (own_perm _ _ _ _ _ Hr O) Lj Zj) as [h' [X' [r [l' [E [O' EN]]]]]].
      eapply does_good with (i := i) (op := h_copy ora h (fst (nth i v d0)) (fst (nth j v d0)))
        (y := fun f : bool => if f then MkMpi (hs (fst (nth j v d0))) (snd (nth i v d0)) else or_else (MkMpi (hs (fst (nth j v d0))) (snd (nth i v d0))) (l_copy false (num (nth i v d0)) (num (nth j v d0)))); [exact I|exact Hi|cbn [run1]; rewrite !nth_fst; replace (i =? j)%nat with false by (symmetry; apply Nat.eqb_neq; exact N); reflexivity| |].
      2:{ exists h', X', r, l'. split; [exact E|]. split; [eapply own_perm; [apply Permutation_sym; exact Hr|exact O']|exact EN]. }
      intros f. cbn [effect]. rewrite !nth_num. replace (i =? j)%nat with false by (symmetry; apply Nat.eqb_neq; exact N). reflexivity.
  - destruct Hc as [Hi Hj]. exists h, (put_at (put_at v i (nth j v d0)) j (nth i v d0)). cbn [run1 effect]. rewrite !nth_fst, !nth_num. split; [rewrite !put_at_map; reflexivity|]. split; [|split; [rewrite put_at_length by (rewrite put_at_length; assumption); apply put_at_length; assumption|rewrite !put_at_map; reflexivity]].
    destruct I as [W [P F]]. assert (Permutation (put_at (put_at v i (nth j v d0)) j (nth i v d0)) v) as PV.
    { destruct (Nat.eq_dec i j) as [->|N].
      - rewrite (put_at_nth d0) by exact Hi. rewrite (put_at_nth d0) by exact Hi. reflexivity.
      - clear -Hi Hj N. set (x := nth i v d0). set (y := nth j v d0). assert (forall (w : list (hmpi * list Z)) k z, (k < length w)%nat -> Permutation (put_at w k z) (z :: others w k)) as PP by (intros; unfold put_at, others; apply Permutation_sym, Permutation_middle).
        assert (Permutation v (x :: others v i)) as P1 by (rewrite <- (put_at_nth d0 v i Hi) at 1; apply PP; exact Hi).
        set (w := put_at v i y). assert (length w = length v) as Lw by (apply put_at_length; exact Hi).
        assert (nth j w d0 = y) as Ew. { subst w. unfold put_at. destruct (Nat.lt_ge_cases j i) as [L|L].
          - rewrite app_nth1 by (rewrite firstn_length; lia). unfold y. rewrite <- (firstn_skipn i v) at 2. rewrite app_nth1 by (rewrite firstn_length; lia). reflexivity.
          - rewrite app_nth2 by (rewrite firstn_length; lia). rewrite firstn_length. rewrite Nat.min_l by lia. destruct (j - i)%nat as [|k] eqn:Ek; [lia|]. cbn [nth]. unfold y. rewrite <- (firstn_skipn (S i) v) at 2. rewrite app_nth2 by (rewrite firstn_length; lia). rewrite firstn_length, Nat.min_l by lia. f_equal. lia. }
        assert (Permutation w (y :: others w j)) as P2 by (rewrite <- (put_at_nth d0 w j) at 1 by lia; rewrite Ew; apply PP; lia).
        assert (Permutation w (y :: others v i)) as P3 by (apply PP; exact Hi).
        assert (Permutation (others w j) (others v i)) as P4 by (eapply Permutation_cons_inv; eapply perm_trans; [apply Permutation_sym; exact P2|exact P3]).
        eapply perm_trans; [apply PP; lia|]. eapply perm_trans; [apply perm_skip; exact P4|]. apply Permutation_sym. exact P1. }
    split; [exact W|]. split.
    + eapply perm_trans; [exact P|]. unfold blks. apply Permutation_sym. clear -PV. induction PV as [|x l l' HP IH|x y l|l1 l2 l3 H1 I1 H2 I2]; cbn [map concat].
      * constructor. * apply Permutation_app_head. exact IH. * rewrite !app_assoc. apply Permutation_app_tail. apply Permutation_app_comm. * eapply perm_trans; [exact I1|exact I2].
    + eapply Permutation_Forall; [apply Permutation_sym; exact PV|exact F].
  - destruct Hc as [Hi Hz]. destruct (inv_own h v i I Hi) as [O F]. eapply does_good with (i := i) (op := h_lset ora h (fst (nth i v d0)) z); [exact I|exact Hi|cbn [run1]; rewrite nth_fst; reflexivity| |apply does_lset; [exact O|exact Hz]]. intros f. cbn [effect]. rewrite nth_num. reflexivity.
  - destruct (inv_own h v i I Hc) as [O F]. destruct (free_ok h _ _ _ O) as [h' [E [O' C]]]. exists h', (put_at v i (h_init, [])). cbn [run1]. rewrite nth_fst, E. cbn [bind]. split; [rewrite put_at_map; reflexivity|].
    split; [apply own_inv; assumption|]. split; [apply put_at_length; exact Hc|]. cbn [effect]. rewrite put_at_map. reflexivity.
  - destruct (inv_own h v i I Hc) as [O F]. pose proof O as [W [P [L Z0]]]. unfold good. cbn [run1 effect]. rewrite nth_fst, nth_num. unfold num at 2 4. cbn [mp]. rewrite L.
    destruct (Nat.eqb_spec (length d) (hn (fst (nth i v d0)))) as [Ed|Ed]; cbn [andb].
    + destruct (Nat.eqb_spec (hn (fst (nth i v d0))) 0) as [E0|E0]; cbn [negb].
      * exists h, v. split; [reflexivity|]. split; [exact I|]. split; [reflexivity|]. assert (d = []) as -> by (apply length_zero_iff_nil; lia). assert (snd (nth i v d0) = []) as Es by (apply length_zero_iff_nil; lia).
        symmetry. rewrite <- (put_at_nth l_init (map num v) i) at 2 by (rewrite map_length; exact Hc). unfold upd, put_at. f_equal. f_equal. change (nth i (map num v) l_init) with (val (map num v) i). rewrite nth_num. unfold num. cbn [ms]. rewrite Es. reflexivity.
      * assert (hp (fst (nth i v d0)) <> 0) as NZ by (intros E; apply Z0 in E; rewrite E in L; cbn in L; lia). destruct (own_save h _ _ _ d O NZ ltac:(lia)) as [h' [E [O' C]]]. rewrite E. cbn [bind].
        rewrite skipn_all2 in O' by lia. rewrite app_nil_r in O'. exists h', (put_at v i (fst (nth i v d0), d)). split; [f_equal; f_equal; rewrite put_at_map; cbn [fst]; rewrite <- nth_fst; symmetry; apply put_at_nth; rewrite map_length; exact Hc|].
        split; [apply own_inv; assumption|]. split; [apply put_at_length; exact Hc|]. rewrite put_at_map. reflexivity.
    + exists h, v. split; [reflexivity|]. split; [exact I|]. split; reflexivity.
Qed.
(** All calls *)
Lemma run_ok : forall cs h v, inv h v -> Forall (call_ok (length v)) cs -> exists h' v', run ora cs h (map fst v) = Ok (h', map fst v') /\ inv h' v' /\ length v' = length v.
Proof.
  induction cs as [|c cs IH]; intros h v I F; [exists h, v; repeat split; try apply I; reflexivity|]. inversion F as [|? ? F1 F2]; subst. destruct (run1_ok c h v I F1) as [h1 [v1 [E1 [I1 [L1 _]]]]]. cbn [run]. rewrite E1. cbn [bind].
  destruct (IH h1 v1 I1 ltac:(rewrite L1; exact F2)) as [h2 [v2 [E2 [I2 L2]]]]. exists h2, v2. split; [exact E2|]. split; [exact I2|congruence].
Qed.
Lemma run_app : forall a b h o, run ora (a ++ b) h o = ('(h, o) <- run ora a h o ;; run ora b h o).
Proof. induction a as [|c a IH]; intros b h o; [reflexivity|]. cbn [app run]. destruct (run1 ora c h o) as [[h1 o1]| | | |]; cbn [bind]; [apply IH|reflexivity..]. Qed.
Lemma inv_start k : inv empty_heap (repeat d0 k).
Proof.
  split; [|split].
  - repeat split; cbn; try constructor; lia.
  - assert (blks (repeat d0 k) = []) as -> by (induction k; [reflexivity|exact IHk]). constructor.
  - apply Forall_forall. intros x H. apply repeat_spec in H. subst x. split; [reflexivity|cbn; tauto].
Qed.
Lemma map_start k : map fst (repeat d0 k) = repeat h_init k.
Proof. induction k as [|k IH]; [reflexivity|]. cbn [repeat map]. rewrite IH. reflexivity. Qed.
Theorem history k cs : Forall (call_ok k) cs -> exists h o, run ora cs empty_heap (repeat h_init k) = Ok (h, o) /\ length o = k /\ owned h o /\ wiped h.
Proof.
  intros F. destruct (run_ok cs empty_heap (repeat d0 k) (inv_start k) ltac:(rewrite repeat_length; exact F)) as [h [v [E [I L]]]]. rewrite map_start in E. exists h, (map fst v). split; [exact E|]. split; [rewrite map_length, L, repeat_length; reflexivity|]. apply inv_owned. exact I.
Qed.
(** One more call, after any history *)
Theorem history_step k cs c h o : Forall (call_ok k) cs -> call_ok k c -> run ora cs empty_heap (repeat h_init k) = Ok (h, o) ->
  exists h' o', run1 ora c h o = Ok (h', o') /\ numbers h' o' = effect (failed ora h h') c (numbers h o).
Proof.
  intros F Hc E. destruct (run_ok cs empty_heap (repeat d0 k) (inv_start k) ltac:(rewrite repeat_length; exact F)) as [h0 [v [E0 [I L]]]]. rewrite map_start in E0. rewrite E in E0. injection E0 as -> ->. rewrite repeat_length in L.
  destruct (run1_ok c h0 v I ltac:(rewrite L; exact Hc)) as [h1 [v1 [E1 [I1 [L1 N1]]]]]. exists h1, (map fst v1). split; [exact E1|]. rewrite (inv_numbers _ _ I1), (inv_numbers _ _ I). exact N1.
Qed.
(** Freeing all objects *)
Lemma free_all : forall m j h v, inv h v -> (j + m = length v)%nat -> Forall (fun x => hp (fst x) = 0) (firstn j v) -> exists h' v', run ora (map CFree (seq j m)) h (map fst v) = Ok (h', map fst v') /\ inv h' v' /\ Forall (fun x => hp (fst x) = 0) v'.
Proof.
  induction m as [|m IH]; intros j h v I L F.
  - exists h, v. split; [reflexivity|]. split; [exact I|]. rewrite firstn_all2 in F by lia. exact F.
  - cbn [seq map run]. assert (j < length v)%nat as Hj by lia. destruct (inv_own h v j I Hj) as [O FO]. destruct (free_ok h _ _ _ O) as [h1 [E1 [O1 _]]]. cbn [run1]. rewrite nth_fst, E1. cbn [bind].
    change (put_obj (map fst v) j h_init) with (put_at (map fst v) j (fst d0)). rewrite <- put_at_map. apply (IH (S j) h1 (put_at v j d0)).
    + apply own_inv; assumption.
    + rewrite put_at_length by exact Hj. lia.
    + unfold put_at. rewrite firstn_app, firstn_firstn, firstn_length. replace (Nat.min (S j) j) with j by lia. rewrite Nat.min_l by lia. replace (S j - j)%nat with 1%nat by lia. apply Forall_app. split; [exact F|]. constructor; [reflexivity|constructor].
Qed.
Theorem history_free k cs : Forall (call_ok k) cs -> exists h o, run ora (cs ++ map CFree (seq 0 k)) empty_heap (repeat h_init k) = Ok (h, o) /\ cells h = [] /\ wiped h.
Proof.
  intros F. destruct (run_ok cs empty_heap (repeat d0 k) (inv_start k) ltac:(rewrite repeat_length; exact F)) as [h0 [v [E0 [I L]]]]. rewrite map_start in E0. rewrite repeat_length in L.
  destruct (free_all k 0 h0 v I ltac:(lia) ltac:(constructor)) as [h1 [v1 [E1 [I1 F1]]]]. exists h1, (map fst v1). rewrite run_app, E0. cbn [bind]. split; [exact E1|]. destruct I1 as [[N [A [Q W]]] [P FF]]. split; [|exact W].
  assert (blks v1 = []) as EB. { clear -F1. induction F1 as [|x v H F IH]; [reflexivity|]. change (blks (x :: v)) with (blk (fst x) (snd x) ++ blks v). rewrite IH. unfold blk. rewrite H. reflexivity. }
  rewrite EB in P. apply Permutation_nil. apply Permutation_sym. exact P.
Qed.
End Run.
