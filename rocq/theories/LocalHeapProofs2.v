(** Calls of the functions one after the other. *)
From Coq Require Import Lia ZifyBool Permutation.
From Verif Require Import Base BaseFacts MpiModel LimbModel HeapModel HeapSpec HeapProofs HeapProofs2 HeapProofs3 TdpHeapModel TdpHeapSpec TdpHeapProofs LocalHeapModel LocalHeapSpec LocalHeapProofs.

Definition remains (V : list mpi) (f : function) (thrown : bool) : Prop := forall j, (j < 16)%nat -> (thrown = true -> ~ In j (may_remain f)) -> val V (16 + j)%nat = l_init.
Lemma nth_firstn' {A} (d : A) : forall n l j, (j < n)%nat -> nth j (firstn n l) d = nth j l d.
Proof. induction n as [|n IH]; intros l j H; [lia|]. destruct l as [|x l]; [reflexivity|]. destruct j as [|j]; [reflexivity|]. cbn [firstn nth]. apply IH. lia. Qed.
Lemma nth_skipn'' {A} (d : A) : forall n l j, nth j (skipn n l) d = nth (n + j) l d.
Proof. induction n as [|n IH]; intros l j; [reflexivity|]. destruct l as [|x l]; [destruct j; reflexivity|]. cbn [skipn]. rewrite IH. reflexivity. Qed.
(** The objects of ended lifetimes *)
Lemma objok_init x : objok x -> num x = l_init -> x = d0.
Proof. intros [L Z0] E. destruct x as [[s n p] l]. unfold num, l_init, d0, h_init in *. cbn [fst snd hs hn hp] in *. injection E as -> ->. rewrite (proj2 Z0 eq_refl), <- L. reflexivity. Qed.
Lemma range_init v a n : Forall objok v -> (a + n <= length v)%nat -> (forall t, (a <= t < a + n)%nat -> val (map num v) t = l_init) -> firstn n (skipn a v) = repeat d0 n.
Proof.
  intros F L C. apply (nth_ext _ _ d0 d0); [rewrite firstn_length, skipn_length, repeat_length; lia|]. intros j Hj. rewrite firstn_length, skipn_length in Hj.
  rewrite nth_repeat. rewrite nth_firstn' by lia. rewrite nth_skipn''. apply objok_init; [rewrite Forall_forall in F; apply F, nth_In; lia|]. rewrite <- (nth_num v). apply C. lia.
Qed.
Lemma blks_none n : blks (repeat d0 n) = [].
Proof. induction n as [|n IH]; [reflexivity|exact IH]. Qed.
Lemma split48 {A} (v : list A) : (48 <= length v)%nat -> v = firstn 16 v ++ firstn 16 (skipn 16 v) ++ firstn 16 (skipn 32 v) ++ skipn 48 v.
Proof.
  intros _. rewrite <- (firstn_skipn 16 v) at 1. f_equal. rewrite <- (firstn_skipn 16 (skipn 16 v)) at 1. f_equal.
  assert (forall a b (l : list A), skipn a (skipn b l) = skipn (b + a) l) as SK by (intros a b; induction b as [|b IH]; intros l; [reflexivity|]; destruct l as [|x l]; [cbn [skipn]; rewrite skipn_nil; reflexivity|cbn [skipn plus]; apply IH]).
  rewrite SK. change (16 + 16)%nat with 32%nat. rewrite <- (firstn_skipn 16 (skipn 32 v)) at 1. f_equal. rewrite SK. reflexivity.
Qed.
(** Forgetting the local variables *)
Lemma forget_ok h v : inv h v -> (48 <= length v)%nat -> temps (map num v) -> inv h (firstn 16 v ++ repeat d0 32 ++ skipn 48 v ++ firstn 16 (skipn 16 v)).
Proof.
  intros [W [P F]] L T. split; [exact W|]. pose proof (split48 v L) as E. rewrite (range_init v 32 16 F ltac:(lia)) in E by (intros t Ht; apply T; lia). split.
  - eapply perm_trans; [exact P|]. rewrite E at 1. rewrite !blks_app, !blks_none. cbn [app]. apply Permutation_app_head. apply Permutation_app_comm.
  - rewrite E in F. apply Forall_app in F. destruct F as [F1 F]. apply Forall_app in F. destruct F as [F2 F]. apply Forall_app in F. destruct F as [_ F3].
    apply Forall_app. split; [exact F1|]. apply Forall_app. split; [apply Forall_forall; intros x Hx; apply repeat_spec in Hx; subst x; split; cbn; tauto|]. apply Forall_app. split; assumption.
Qed.
Section Ops.
Variable ora : nat -> bool.
Lemma x_body f tss cs h o V : may_remain f = [0%nat] -> Forall2 changes tss cs -> Forall (fun t => t = 16 \/ t = 8)%nat (concat tss) -> st h o V -> (48 <= length V)%nat -> cleared V 16 48 ->
  ok6 (with_x ora cs h o) V (fun V' t => kept V V' /\ remains V' f t).
Proof.
  intros M F T H L C. destruct (with_x_ok ora tss cs h o V F T H L C) as [h1 [o1 [V1 [t [E1 [S1 [L1 [T1 [K1 C1]]]]]]]]]. exists h1, o1, V1, t. split; [exact E1|]. split; [exact S1|]. split; [exact L1|]. split; [exact T1|]. split; [exact K1|].
  intros j Hj N. rewrite M in N. destruct t; [|apply C1; lia]. assert (j <> 0)%nat as Hj0 by (intros ->; apply (N eq_refl); left; reflexivity). apply C1. lia.
Qed.
Lemma body_ok f h o V : function_ok f -> st h o V -> (48 <= length V)%nat -> cleared V 16 48 -> ok6 (body ora f h o) V (fun V' t => kept V V' /\ remains V' f t).
Proof.
  intros FO H L C. destruct f as [rd md ex|fl md|rd md|rd ex|order rd mdp mdq effp effq ar fits]; cbn [function_ok body] in *.
  - destruct FO as [A [B D]]. apply (x_body _ [[16]; [16]; [16; 8]]%nat); try assumption; try reflexivity; [repeat (constructor; try assumption)|cbn; repeat (constructor; try lia)].
  - destruct FO as [A B]. apply (x_body _ [[16]; [16]]%nat); try assumption; try reflexivity; [repeat (constructor; try assumption)|cbn; repeat (constructor; try lia)].
  - destruct FO as [A B]. apply (x_body _ [[16]; [16]]%nat); try assumption; try reflexivity; [repeat (constructor; try assumption)|cbn; repeat (constructor; try lia)].
  - destruct FO as [A B]. apply (x_body _ [[16]; [16; 8]]%nat); try assumption; try reflexivity; [repeat (constructor; try assumption)|cbn; repeat (constructor; try lia)].
  - destruct FO as [Ho [A [Mp [Mq Ar]]]]. assert (temps V) as T by (intros t Ht; apply C; lia). set (f := FInvertMult order rd mdp mdq effp effq ar fits).
    destruct (order =? 0). { exists h, o, V, false. split; [reflexivity|]. split; [exact H|]. split; [reflexivity|]. split; [exact T|]. split; [intros t _; reflexivity|]. intros j Hj _. apply C. lia. }
    assert (Forall2 changes [[16%nat]] [rd]) as FR by (constructor; [exact A|constructor]).
    destruct (checked_ok ora _ _ FR h o V H L T) as [h1 [o1 [V1 [ok [E1 [S1 [L1 [T1 X1]]]]]]]]. rewrite E1. cbn [bind]. cbn [concat app] in X1.
    destruct ok; cbn [negb].
    2: { exists h1, o1, V1, true. split; [reflexivity|]. split; [exact S1|]. split; [exact L1|]. split; [exact T1|]. split; [eapply chg_kept; [|exact X1]; repeat constructor; lia|]. intros j Hj N. assert (j <> 0)%nat as Hj0 by (intros ->; apply (N eq_refl); unfold f; cbn [may_remain]; destruct fits; left; reflexivity). rewrite X1 by (intros [X|[]]; lia). apply C. lia. }
    destruct (lset_ok ora v_order order h1 o1 V1 S1 T1) as [h2 [o2 [V2 [r [E2 [S2 [L2 [T2 X2]]]]]]]]; try (unfold v_order; lia). rewrite E2. cbn [bind].
    pose proof (chg_trans _ _ _ _ _ X1 X2) as X12. assert (val V2 23%nat = l_init) as B2 by (rewrite X12 by (cbn; unfold v_order; lia); apply C; lia).
    destruct (modexp_ok ora v_dp 5 order mdp effp h2 o2 V2 Mp ltac:(lia) ltac:(unfold v_dp; lia) S2 ltac:(lia) T2 B2) as [h3 [o3 [V3 [ok [E3 [S3 [L3 [T3 [X3 B3]]]]]]]]]. rewrite E3. cbn [bind].
    pose proof (chg_trans _ _ _ _ _ X12 X3) as X13.
    match goal with |- ok6 (bind ?m _) _ _ => assert (ok6 m V3 (fun V' _ => chg [19; 23]%nat V3 V' /\ val V' 23%nat = l_init)) as Q4 end.
    { destruct ok; cbn [negb]; [apply (modexp_ok ora v_dq 6 order mdq effq h3 o3 V3 Mq); try assumption; try (unfold v_dq; lia)|]. exists h3, o3, V3, false. split; [reflexivity|]. split; [exact S3|]. split; [reflexivity|]. split; [exact T3|]. split; [intros t _; reflexivity|exact B3]. }
    destruct Q4 as [h4 [o4 [V4 [ok4 [E4 [S4 [L4 [T4 [X4 B4]]]]]]]]]. rewrite E4. cbn [bind]. pose proof (chg_trans _ _ _ _ _ X13 X4) as X14.
    match goal with |- ok6 (bind ?m _) _ _ => assert (ok6 m V4 (fun V' _ => chg [20; 9; 21; 10; 22; 20; 22; 20; 22]%nat V4 V')) as Q5 end.
    { destruct ok4; cbn [negb]; [apply (checked_ok ora _ _ Ar h4 o4 V4 S4 ltac:(lia) T4)|]. exists h4, o4, V4, false. split; [reflexivity|]. split; [exact S4|]. split; [reflexivity|]. split; [exact T4|]. intros t _. reflexivity. }
    destruct Q5 as [h5 [o5 [V5 [ok5' [E5 [S5 [L5 [T5 X5]]]]]]]]. rewrite E5. cbn [bind]. pose proof (chg_trans _ _ _ _ _ X14 X5) as X15. unfold v_order, v_dp, v_dq in X15. cbn [app] in X15.
    assert (kept V V5) as K5 by (eapply chg_kept; [|exact X15]; repeat (constructor; [lia|]); constructor).
    assert (val V5 23%nat = l_init) as B5 by (rewrite X5 by (cbn; lia); exact B4).
    assert (forall j, (7 <= j < 16)%nat -> val V5 (16 + j)%nat = l_init) as C5 by (intros j Hj; destruct (Nat.eq_dec j 7) as [->|N7]; [exact B5|]; rewrite X15 by (cbn [In]; lia); apply C; lia).
    destruct (ok5' && negb fits) eqn:EF.
    { exists h5, o5, V5, true. split; [reflexivity|]. split; [exact S5|]. split; [lia|]. split; [exact T5|]. split; [exact K5|]. intros j Hj N. specialize (N eq_refl). unfold f in N. destruct fits; [destruct ok5'; discriminate EF|]. cbn [may_remain In] in N. apply C5. lia. }
    destruct (erase_ok ora [v_x; v_dp; v_dq; v_yp; v_yq; v_order] h5 o5 V5 S5 T5) as [h6 [o6 [V6 [E6 [S6 [L6 [T6 [X6 Y6]]]]]]]]; [repeat constructor; unfold v_x, v_dp, v_dq, v_yp, v_yq, v_order; lia|lia|]. rewrite E6. cbn [bind].
    assert (kept V V6) as K6 by (eapply kept_trans; [exact K5|]; eapply chg_kept; [|exact X6]; unfold v_x, v_dp, v_dq, v_yp, v_yq, v_order; repeat (constructor; [lia|]); constructor).
    assert (forall j, (j < 16)%nat -> j <> 6%nat -> val V6 (16 + j)%nat = l_init) as C6.
    { intros j Hj N6. destruct (Nat.lt_ge_cases j 7) as [Q|Q].
      - apply Y6. unfold v_x, v_dp, v_dq, v_yp, v_yq, v_order. cbn [In]. lia.
      - rewrite X6 by (unfold v_x, v_dp, v_dq, v_yp, v_yq, v_order; cbn [In]; lia). apply C5. lia. }
    destruct ok5'; cbn [negb].
    + destruct (erase_ok ora [v_y] h6 o6 V6 S6 T6) as [h7 [o7 [V7 [E7 [S7 [L7 [T7 [X7 Y7]]]]]]]]; [repeat constructor; unfold v_y; lia|lia|]. rewrite E7. cbn [bind]. exists h7, o7, V7, false. split; [reflexivity|]. split; [exact S7|]. split; [lia|]. split; [exact T7|].
      split; [eapply kept_trans; [exact K6|]; eapply chg_kept; [|exact X7]; constructor; [unfold v_y; lia|constructor]|]. intros j Hj _. destruct (Nat.eq_dec j 6) as [->|N6]; [apply Y7; left; reflexivity|]. rewrite X7 by (intros [X|[]]; unfold v_y in X; lia). apply C6; lia.
    + exists h6, o6, V6, true. split; [reflexivity|]. split; [exact S6|]. split; [lia|]. split; [exact T6|]. split; [exact K6|]. intros j Hj N. apply C6; [exact Hj|]. intros ->. apply (N eq_refl). unfold f. cbn [may_remain]. destruct fits; cbn; tauto.
Qed.
Lemma call_function_ok f h o V : function_ok f -> st h o V -> (48 <= length V)%nat -> cleared V 16 48 ->
  exists h' o' V' t, call_function ora f h o = Ok (h', o', t) /\ st h' o' V' /\ length V' = (length V + 16)%nat /\ cleared V' 16 48 /\
    (forall t, (t < 8 \/ 11 <= t < 16 \/ 48 <= t < length V)%nat -> val V' t = val V t) /\ (forall j, (j < 16)%nat -> (t = true -> ~ In j (may_remain f)) -> val V' (length V + j)%nat = l_init).
Proof.
  intros FO H L C. unfold call_function. assert (firstn 16 o ++ repeat h_init 32 ++ skipn 48 o = o) as EO.
  { destruct H as [v [-> [I ->]]]. rewrite map_length in L. pose proof I as [_ [_ F]]. pose proof (split48 v L) as E. rewrite (range_init v 16 16 F ltac:(lia)) in E by (intros t Ht; apply C; lia). rewrite (range_init v 32 16 F ltac:(lia)) in E by (intros t Ht; apply C; lia).
    rewrite E at 3. rewrite firstn_map, skipn_map, !map_app. reflexivity. }
  rewrite EO. destruct (body_ok f h o V FO H L C) as [h1 [o1 [V1 [t [E1 [S1 [L1 [T1 [K1 R1]]]]]]]]]. rewrite E1. cbn [bind]. destruct S1 as [v [-> [I ->]]]. rewrite map_length in L1.
  set (w := firstn 16 v ++ repeat d0 32 ++ skipn 48 v ++ firstn 16 (skipn 16 v)). exists h1, (map fst w), (map num w), t.
  assert (length (firstn 16 v) = 16)%nat as LA by (rewrite firstn_length; lia). assert (length (skipn 48 v) = length v - 48)%nat as LR by apply skipn_length. assert (length (firstn 16 (skipn 16 v)) = 16)%nat as LX by (rewrite firstn_length, skipn_length; lia).
  split; [f_equal; f_equal; unfold w; rewrite !map_app, firstn_map, !skipn_map, firstn_map; reflexivity|].
  split; [exists w; split; [reflexivity|]; split; [apply forget_ok; [exact I|lia|exact T1]|reflexivity]|].
  split; [rewrite map_length; unfold w; rewrite !app_length, repeat_length; lia|]. split; [|split].
  - intros q Hq. rewrite nth_num. unfold w. rewrite app_nth2 by lia. rewrite app_nth1 by (rewrite repeat_length; lia). rewrite nth_repeat. reflexivity.
  - intros q Hq. rewrite <- (K1 q) by lia. rewrite !nth_num. f_equal. unfold w. destruct (Nat.lt_ge_cases q 16) as [Q|Q].
    + rewrite app_nth1 by lia. apply nth_firstn'. exact Q.
    + rewrite app_nth2 by lia. rewrite app_nth2 by (rewrite repeat_length; lia). rewrite app_nth1 by (rewrite repeat_length; lia). rewrite nth_skipn'', repeat_length. f_equal. lia.
  - intros j Hj N. rewrite <- (R1 j Hj N). rewrite !nth_num. f_equal. unfold w. rewrite app_nth2 by lia. rewrite app_nth2 by (rewrite repeat_length; lia). rewrite app_nth2 by (rewrite repeat_length; lia). rewrite nth_firstn' by (rewrite repeat_length; lia). rewrite nth_skipn'', repeat_length. f_equal. lia.
Qed.
Lemma call_functions_ok : forall fs h o V, Forall function_ok fs -> st h o V -> (48 <= length V)%nat -> cleared V 16 48 ->
  exists h' o' V' ts, call_functions ora fs h o = Ok (h', o', ts) /\ st h' o' V' /\ (length V <= length V')%nat /\ cleared V' 16 48 /\
    (forall t, (t < 8 \/ 11 <= t < 16 \/ 48 <= t < length V)%nat -> val V' t = val V t) /\ (Forall (eq false) ts -> forall t, (length V <= t)%nat -> val V' t = l_init).
Proof.
  induction fs as [|f fs IH]; intros h o V F H L C; cbn [call_functions].
  - exists h, o, V, []. split; [reflexivity|]. split; [exact H|]. split; [lia|]. split; [exact C|]. split; [reflexivity|]. intros _ t Ht. unfold val. apply nth_overflow. exact Ht.
  - inversion F as [|? ? F1 F2]; subst. destruct (call_function_ok f h o V F1 H L C) as [h1 [o1 [V1 [t [E1 [S1 [L1 [C1 [K1 R1]]]]]]]]]. rewrite E1. cbn [bind].
    destruct (IH h1 o1 V1 F2 S1 ltac:(lia) C1) as [h2 [o2 [V2 [ts [E2 [S2 [L2 [C2 [K2 R2]]]]]]]]]. rewrite E2. cbn [bind]. exists h2, o2, V2, (t :: ts). split; [reflexivity|]. split; [exact S2|]. split; [lia|]. split; [exact C2|]. split.
    + intros q Hq. rewrite K2 by lia. apply K1. exact Hq.
    + intros FF q Hq. inversion FF as [|? ? Ft Fts]; subst. destruct (Nat.lt_ge_cases q (length V1)) as [Q|Q]; [|apply R2; [exact Fts|exact Q]]. rewrite K2 by lia.
      replace q with (length V + (q - length V))%nat by lia. apply R1; [lia|intros X; discriminate X].
Qed.
(** From the beginning *)
Lemma begin_st cs h key : made_by ora cs h key -> exists V, st h (key ++ repeat h_init 32) V /\ length V = 48%nat /\ cleared V 16 48 /\ length key = 16%nat /\ numbers h key = firstn 16 V.
Proof.
  intros [F E]. destruct (run_ok ora cs empty_heap (repeat d0 16) (inv_start ora 16) ltac:(rewrite repeat_length; exact F)) as [h0 [v [E0 [I LV]]]]. rewrite map_start, E in E0. injection E0 as -> ->. rewrite repeat_length in LV.
  exists (map num (v ++ repeat d0 32)). split; [|split; [rewrite map_length, app_length, repeat_length; lia|split; [|split; [rewrite map_length; exact LV|]]]].
  - exists (v ++ repeat d0 32). split; [rewrite map_app, map_start; reflexivity|]. split; [|reflexivity]. destruct I as [W [P FF]]. split; [exact W|]. split; [rewrite blks_app, blks_none, app_nil_r; exact P|]. apply Forall_app. split; [exact FF|]. apply Forall_forall. intros x Hx. apply repeat_spec in Hx. subst x. split; cbn; tauto.
  - intros t Ht. rewrite nth_num, app_nth2 by lia. rewrite nth_repeat. reflexivity.
  - rewrite (inv_numbers _ _ I). rewrite map_app, firstn_app, map_length, LV, Nat.sub_diag, firstn_O, app_nil_r. symmetry. apply firstn_all2. rewrite map_length. lia.
Qed.
Lemma st_numbers h o V : st h o V -> numbers h o = V.
Proof. intros [v [-> [I ->]]]. apply inv_numbers. exact I. Qed.
Lemma st_init h o V t : st h o V -> val V t = l_init -> nth t o h_init = h_init.
Proof.
  intros [v [-> [[W [P F]] ->]]] E. rewrite nth_fst. rewrite nth_num in E. destruct (Nat.lt_ge_cases t (length v)) as [Q|Q]; [|rewrite nth_overflow by exact Q; reflexivity].
  rewrite Forall_forall in F. rewrite (objok_init _ (F _ (nth_In v d0 Q)) E). reflexivity.
Qed.
Theorem functions_memory cs h key fs : made_by ora cs h key -> Forall function_ok fs ->
  exists h' o' ts, call_functions ora fs h (key ++ repeat h_init 32) = Ok (h', o', ts) /\ wiped h' /\ owned h' o' /\ (Forall (eq false) ts -> owned h' (firstn 16 o')).
Proof.
  intros M F. destruct (begin_st cs h key M) as [V [H [L [C [LK NK]]]]]. destruct (call_functions_ok fs h _ V F H ltac:(lia) C) as [h' [o' [V' [ts [E [S' [L' [C' [K' R']]]]]]]]]. exists h', o', ts. split; [exact E|]. destruct (st_end h' o' V' S') as [Ow [Wi _]]. split; [exact Wi|]. split; [exact Ow|].
  intros FF. assert (forall t, (16 <= t)%nat -> nth t o' h_init = h_init) as Z0 by (intros t Ht; eapply st_init; [exact S'|]; destruct (Nat.lt_ge_cases t 48) as [Q|Q]; [apply C'; lia|apply R'; [exact FF|lia]]).
  assert (pointers (firstn 16 o') = pointers o') as PE.
  { rewrite <- (firstn_skipn 16 o') at 2. unfold pointers. rewrite map_app, filter_app. assert (filter (fun p => negb (p =? 0)) (map hp (skipn 16 o')) = []) as ->; [|rewrite app_nil_r; reflexivity].
    assert (Forall (eq h_init) (skipn 16 o')) as FI. { apply Forall_forall. intros x Hx. destruct (In_nth _ _ h_init Hx) as [j [Hj <-]]. rewrite nth_skipn''. symmetry. apply Z0. lia. }
    clear -FI. induction FI as [|x l <- _ IH]; [reflexivity|exact IH]. }
  unfold owned. rewrite PE. exact Ow.
Qed.
Theorem functions_key cs h key fs h' o' ts j : made_by ora cs h key -> Forall function_ok fs -> call_functions ora fs h (key ++ repeat h_init 32) = Ok (h', o', ts) ->
  (j < 8 \/ 11 <= j < 16)%nat -> number_of h' (nth j o' h_init) = number_of h (nth j key h_init).
Proof.
  intros M F E J. destruct (begin_st cs h key M) as [V [H [L [C [LK NK]]]]]. destruct (call_functions_ok fs h _ V F H ltac:(lia) C) as [h1 [o1 [V' [ts1 [E1 [S' [L' [C' [K' R']]]]]]]]]. rewrite E in E1. injection E1 as <- <- <-.
  assert (forall h o W, st h o W -> forall j, (j < length W)%nat -> val W j = number_of h (nth j o h_init)) as AT.
  { clear. intros h o W S' j Hj. pose proof (st_numbers _ _ _ S') as Q. unfold numbers in Q. unfold val. rewrite <- Q. rewrite <- Q, map_length in Hj. rewrite (nth_indep _ l_init (number_of h h_init)) by (rewrite map_length; exact Hj). apply map_nth. }
  rewrite <- (AT h' o' V' S' j) by lia. rewrite (K' j) by lia. rewrite (AT _ _ _ H j) by lia. rewrite app_nth1 by lia. reflexivity.
Qed.
Theorem functions_throw cs h key fs f h1 o1 ts h2 o2 j : made_by ora cs h key -> Forall function_ok fs -> function_ok f -> call_functions ora fs h (key ++ repeat h_init 32) = Ok (h1, o1, ts) ->
  call_function ora f h1 o1 = Ok (h2, o2, true) -> ~ In j (may_remain f) -> nth (length o1 + j) o2 h_init = h_init.
Proof.
  intros M F Ff E E2 J. destruct (begin_st cs h key M) as [V [H [L [C [LK NK]]]]]. destruct (call_functions_ok fs h _ V F H ltac:(lia) C) as [h' [o' [V' [ts1 [E1 [S' [L' [C' [K' R']]]]]]]]]. rewrite E in E1. injection E1 as <- <- <-.
  destruct (call_function_ok f h1 o1 V' Ff S' ltac:(lia) C') as [h3 [o3 [V3 [t [E3 [S3 [L3 [C3 [K3 R3]]]]]]]]]. rewrite E2 in E3. injection E3 as <- <- <-. eapply st_init; [exact S3|].
  assert (length o1 = length V') as LO by (destruct S' as [v [-> [_ ->]]]; rewrite !map_length; reflexivity). rewrite LO. destruct (Nat.lt_ge_cases j 16) as [Q|Q]; [apply R3; [exact Q|intros _; exact J]|]. unfold val. apply nth_overflow. lia.
Qed.
(** insecure_mod_exp releases its local number in any case. *)
Theorem modexp_memory cs h key d a e md eff : made_by ora cs h key -> modexp_changes d md eff -> (a < 16)%nat -> (16 <= d < 23)%nat ->
  exists h' o' ok, modexp ora d a e md eff h (key ++ repeat h_init 32) = Ok (h', o', ok) /\ wiped h' /\ owned h' o' /\ forall j, (16 <= j < 48)%nat -> j <> d -> nth j o' h_init = h_init.
Proof.
  intros M F Ha Hd. destruct (begin_st cs h key M) as [V [H [L [C [LK NK]]]]]. destruct (modexp_ok ora d a e md eff h _ V F Ha ltac:(lia) H ltac:(lia) ltac:(intros t Ht; apply C; lia) ltac:(apply C; lia)) as [h' [o' [V' [ok [E [S' [L' [T' [X' B']]]]]]]]].
  exists h', o', ok. split; [exact E|]. destruct (st_end h' o' V' S') as [Ow [Wi _]]. split; [exact Wi|]. split; [exact Ow|]. intros j Hj N. eapply st_init; [exact S'|]. destruct (Nat.eq_dec j 23) as [->|N23]; [exact B'|]. rewrite X' by (cbn [In]; lia). apply C. exact Hj.
Qed.
End Ops.
