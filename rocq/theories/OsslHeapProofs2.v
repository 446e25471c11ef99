From Coq Require Import Lia Permutation PeanoNat.
From Verif Require Import Base OsslHeapModel OsslHeapSpec OsslHeapProofs.

Definition all_handles (os : list obj) : list handle := concat (map handles os).
Lemma split_at : forall os v o, nth_error os v = Some o -> exists R, Permutation (all_handles os) (handles o ++ R) /\
  (forall o', Permutation (all_handles (put os v o')) (handles o' ++ R)) /\ (forall w, w <> v -> incl (handles (nth w os Dead)) R).
Proof.
  intros os; induction os as [|a os IH]; intros v o E; [destruct v; discriminate|]. destruct v as [|v].
  - cbn in E. injection E as ->. exists (all_handles os). split; [apply Permutation_refl|]. split; [intro; apply Permutation_refl|].
    intros [|w] N x X; [contradiction|]. cbn [nth] in X. unfold all_handles. apply in_concat. exists (handles (nth w os Dead)). split; [|exact X].
    apply in_map. destruct (nth_in_or_default w os Dead) as [I|D]; [exact I|]. rewrite D in X. contradiction.
  - cbn in E. destruct (IH v o E) as (R & P1 & P2 & P3). exists (handles a ++ R). split; [|split].
    + unfold all_handles in *. cbn [map concat]. eapply perm_trans; [apply Permutation_app_head; exact P1|]. rewrite !app_assoc. apply Permutation_app_tail. apply Permutation_app_comm.
    + intro o'. unfold all_handles, put, set_nth in *. cbn [firstn skipn app map concat]. eapply perm_trans; [apply Permutation_app_head; exact (P2 o')|].
      rewrite !app_assoc. apply Permutation_app_tail. apply Permutation_app_comm.
    + intros [|w] N x X; apply in_or_app; [left; exact X|right]. apply (P3 w); [congruence|exact X].
Qed.
Lemma handles_in : forall os w, incl (handles (nth w os Dead)) (all_handles os).
Proof.
  intros os w x X. unfold all_handles. apply in_concat. exists (handles (nth w os Dead)). split; [|exact X]. apply in_map.
  destruct (nth_in_or_default w os Dead) as [I|D]; [exact I|]. rewrite D in X. contradiction.
Qed.
Definition inv (h : heap) (os : list obj) (ts : list thing) : Prop := good (all_handles os) h /\ Forall2 matches os ts.
Lemma matches_nth : forall os ts, Forall2 matches os ts -> forall v, matches (nth v os Dead) (nth v ts Nothing).
Proof. intros os ts F; induction F as [|o t os ts M F IH]; intros [|v]; try exact I; [exact M|exact (IH v)]. Qed.
Lemma matches_set : forall os ts v o t, Forall2 matches os ts -> matches o t -> (v < length os)%nat -> Forall2 matches (put os v o) (set_at v t ts).
Proof.
  intros os ts v o t F; revert v; induction F as [|a b os ts M F IH]; intros [|v] T L; try (cbn in L; lia).
  - constructor; assumption.
  - constructor; [exact M|]. apply IH; [exact T|cbn in L; lia].
Qed.
Lemma put_same : forall os v o, nth_error os v = Some o -> put os v o = os.
Proof. intros os; induction os as [|a os IH]; intros [|v] o E; try discriminate; [injection E as ->; reflexivity|]. unfold put, set_nth in *. cbn. f_equal. apply IH. exact E. Qed.
Lemma set_at_same : forall ts v t, nth_error ts v = Some t -> set_at v t ts = ts.
Proof. intros os; induction os as [|a os IH]; intros [|v] o E; try discriminate; [injection E as ->; reflexivity|]. unfold set_at in *. cbn. f_equal. apply IH. exact E. Qed.
Lemma dead_at : forall os ts v, Forall2 matches os ts -> empty_at v ts = true -> dead os v = true /\ nth_error os v = Some Dead /\ nth_error ts v = Some Nothing.
Proof.
  intros os ts v F; revert v; induction F as [|o t os ts M F IH]; intros [|v] E; try discriminate; [|exact (IH v E)].
  unfold empty_at in E. cbn in E. destruct t; try discriminate. destruct o; try contradiction. repeat split; reflexivity.
Qed.
Lemma alive_nth : forall os ts v t, Forall2 matches os ts -> nth v ts Nothing = t -> alive t = true -> nth_error os v = Some (nth v os Dead) /\ (v < length os)%nat /\ nth_error ts v = Some t.
Proof.
  intros os ts v t F; revert v; induction F as [|a b os ts M F IH]; intros [|v] E A; cbn in E; subst t; try discriminate; [repeat split; cbn; lia|].
  destruct (IH v eq_refl A) as (X & Y & Z). repeat split; [exact X|cbn; lia|exact Z].
Qed.
(** An object is made for a variable that is not alive *)
Lemma made : forall h os ts v, inv h os ts -> empty_at v ts = true ->
  good (all_handles os) h /\ dead os v = true /\ (forall h' o t, good (handles o ++ all_handles os) h' -> matches o t -> inv h' (put os v o) (set_at v t ts)) /\
  put os v Dead = os /\ set_at v Nothing ts = ts.
Proof.
  intros h os ts v [G F] E. destruct (dead_at _ _ _ F E) as (D & N & NT). split; [exact G|]. split; [exact D|]. split; [|split; [apply put_same; exact N|apply set_at_same; exact NT]].
  intros h' o t G' M. destruct (split_at _ _ _ N) as (R & P1 & P2 & _). split.
  - eapply good_perm; [|exact G']. eapply perm_trans; [|symmetry; apply P2]. apply Permutation_app_head. exact P1.
  - apply matches_set; [exact F|exact M|]. apply nth_error_Some. rewrite N. discriminate.
Qed.
Lemma step_ok : forall h os ts p ts' b, inv h os ts -> expect ts p = Some (ts', b) -> exists h' os', step h os p = Ok (h', os', b) /\ inv h' os' ts'.
Proof.
  intros h os ts p ts' b V E. destruct p as [v text|v w|v w|v word key|v text|v text size|v w|v w|v f|v]; cbn [expect] in E; cbn [step].
  - destruct (empty_at v ts) eqn:X; [|discriminate]. destruct (made _ _ _ _ V X) as (G & D & K & _ & _). rewrite D. cbn [negb].
    destruct (from_public_ok _ _ text G) as (h1 & o & P & C). rewrite P. cbn [bind]. destruct text as [ns|], o as [k|]; try contradiction; injection E as <- <-; eexists _, _; (split; [reflexivity|]).
    + apply K; [exact C|exact I].
    + split; [exact C|apply V].
  - destruct (empty_at v ts) eqn:X; [|discriminate]. destruct (made _ _ _ _ V X) as (G & D & K & _ & _). rewrite D. cbn [negb andb] in *.
    destruct (alive (nth w ts Nothing)) eqn:A; [|discriminate]. injection E as <- <-.
    pose proof (matches_nth _ _ (proj2 V) w) as M. destruct (key_of (nth w os Dead)) as [k|] eqn:KO; [|destruct (nth w os Dead); try discriminate; destruct (nth w ts Nothing); try contradiction; discriminate].
    destruct (copy_ok _ _ k G (handles_in _ _ _ (key_handle _ _ KO))) as (h1 & j & C & G1). rewrite C. cbn [bind]. eexists _, _. split; [reflexivity|]. apply K; [exact G1|exact I].
  - destruct (nth v ts Nothing) eqn:NV; try discriminate. destruct (alive (nth w ts Nothing)) eqn:A; [|discriminate]. injection E as <- <-.
    destruct V as [G F]. pose proof (matches_nth _ _ F v) as M. rewrite NV in M. destruct (alive_nth _ _ _ _ F NV eq_refl) as (NE & L & NT).
    destruct (nth v os Dead) as [|old| |] eqn:NO; try contradiction.
    pose proof (matches_nth _ _ F w) as Mw. destruct (key_of (nth w os Dead)) as [k|] eqn:KO; [|destruct (nth w os Dead); try discriminate; destruct (nth w ts Nothing); try contradiction; discriminate].
    destruct (v =? w)%nat eqn:VW; [eexists _, _; split; [reflexivity|split; assumption]|].
    destruct (dup_ok _ _ k G (handles_in _ _ _ (key_handle _ _ KO))) as (h1 & j & D & G1). rewrite D. cbn [bind]. unfold set_rsa_key. cbn [free_opt].
    destruct (split_at _ _ _ NE) as (R & P1 & P2 & _).
    assert (P : Permutation ((j, KRsa) :: all_handles os) ((old, KRsa) :: (j, KRsa) :: R)) by (eapply perm_trans; [apply perm_skip; exact P1|apply perm_swap]).
    destruct (free_at _ _ _ _ _ G1 P) as (h2 & F2 & G2). rewrite F2. cbn [bind]. destruct (use_ok _ _ j KRsa (proj1 G2) (or_introl eq_refl)) as (c & U & _). rewrite U. cbn [bind].
    eexists _, _. split; [reflexivity|]. split; [eapply good_perm; [|exact G2]; symmetry; apply P2|]. rewrite <- (set_at_same ts v APermutation NT). apply matches_set; [exact F|exact I|exact L].
  - destruct (empty_at v ts) eqn:X; [|discriminate]. destruct (made _ _ _ _ V X) as (G & D & K & PS & TS). rewrite D. cbn [negb].
    destruct (generated_ok _ _ word key G) as (h1 & o & P & G1 & M). rewrite P. cbn [bind]. eexists _, _. split.
    + apply f_equal. f_equal. destruct word; [destruct key|]; injection E as _ <-; destruct o; try contradiction; reflexivity.
    + destruct word; [destruct key|]; injection E as <- _; try (apply K; assumption); rewrite <- TS; apply K; assumption.
  - destruct (empty_at v ts) eqn:X; [|discriminate]. destruct (made _ _ _ _ V X) as (G & D & K & PS & TS). rewrite D. cbn [negb].
    assert (T : text <> Some None) by (intros ->; discriminate).
    destruct (from_private_ok _ _ text G T) as (h1 & o & P & G1 & M). rewrite P. cbn [bind]. eexists _, _. split.
    + apply f_equal. f_equal. destruct text as [[ns|]|]; [| |]; try discriminate; injection E as _ <-; destruct o; try contradiction; reflexivity.
    + destruct text as [[ns|]|]; try discriminate; injection E as <- _; [apply K; assumption|]; rewrite <- TS; apply K; assumption.
  - destruct (empty_at v ts) eqn:X; [|discriminate]. cbn [andb] in E. destruct (0 <=? size) eqn:S0; [|discriminate]. destruct (size <? 256); [|discriminate].
    destruct (size =? 1) eqn:S1; [discriminate|]. cbn [andb negb] in E. apply Z.leb_le in S0. apply Z.eqb_neq in S1.
    destruct (made _ _ _ _ V X) as (G & D & K & PS & TS). rewrite D. cbn [negb].
    destruct (pool_new_ok _ _ text size G S0 S1) as (h1 & o & P & G1 & M). rewrite P. cbn [bind]. eexists _, _. split.
    + apply f_equal. f_equal. destruct text as [ns|]; [destruct (size =? 0)|]; injection E as _ <-; destruct o; try contradiction; reflexivity.
    + destruct text as [ns|]; [destruct (size =? 0)|]; injection E as <- _; try (apply K; assumption); rewrite <- TS; apply K; assumption.
  - destruct (nth w ts Nothing) as [| | |n] eqn:NW; try discriminate. destruct (empty_at v ts) eqn:X; [|discriminate]. injection E as <- <-.
    destruct (made _ _ _ _ V X) as (G & D & K & _ & _). rewrite D. cbn [negb]. pose proof (matches_nth _ _ (proj2 V) w) as M. rewrite NW in M.
    pose proof (handles_in os w) as HI. destruct (nth w os Dead) as [| | |k arr js]; try contradiction. cbn in M.
    destruct (copy_ok _ _ k G (HI _ (or_introl eq_refl))) as (h1 & j & C & G1). rewrite C. cbn [bind].
    destruct (new_ok _ _ KArr [] G1) as (h2 & a & N & G2 & _). rewrite N.
    destruct (dup_all_ok js _ _ G2) as (h3 & js' & DA & G3 & L).
    { intros i Ii. right. right. apply HI. cbn. right. right. apply (in_map rs). exact Ii. }
    rewrite DA. cbn [bind]. eexists _, _. split; [reflexivity|]. apply K; [|cbn; congruence]. eapply good_perm; [|exact G3]. cbn.
    eapply perm_trans; [apply Permutation_sym, Permutation_middle|]. eapply perm_trans; [apply perm_skip, Permutation_sym, Permutation_middle|]. apply perm_swap.
  - destruct (nth v ts Nothing) as [| | |m] eqn:NV; try discriminate. destruct (nth w ts Nothing) as [| | |n] eqn:NW; try discriminate. injection E as <- <-.
    destruct V as [G F]. pose proof (matches_nth _ _ F v) as M. rewrite NV in M. pose proof (matches_nth _ _ F w) as Mw. rewrite NW in Mw.
    destruct (alive_nth _ _ _ _ F NV eq_refl) as (NE & L & NT). destruct (split_at _ _ _ NE) as (R & P1 & P2 & P3).
    destruct (nth v os Dead) as [| | |k arr js] eqn:NO; try contradiction. cbn in M. specialize (P3 w).
    destruct (nth w os Dead) as [| | |kw aw ks] eqn:NOw; try contradiction. cbn in Mw.
    destruct (v =? w)%nat eqn:VW.
    + apply Nat.eqb_eq in VW. subst w. rewrite NV in NW. injection NW as <-. eexists _, _. split; [reflexivity|]. rewrite set_at_same by exact NT. split; assumption.
    + apply Nat.eqb_neq in VW. specialize (P3 (fun e => VW (eq_sym e))).
      assert (G' : good (map (fun i => (i, KRsa)) js ++ (arr, KArr) :: (k, KRsa) :: R) h).
      { eapply good_perm; [|exact G]. eapply perm_trans; [exact P1|]. eapply perm_trans; [apply perm_swap|]. apply Permutation_cons_app. apply Permutation_middle. }
      destruct (free_all_ok _ _ _ _ G') as (h1 & FA & G1). rewrite FA. cbn [bind].
      assert (A : exists h2 a, (if negb (length js =? length ks)%nat then h2 <- free KArr h1 arr ;; Ok (new KArr [] h2) else Ok (h1, arr)) = Ok (h2, a) /\ good ((a, KArr) :: (k, KRsa) :: R) h2).
      { destruct (length js =? length ks)%nat; cbn [negb]; [eexists _, _; split; [reflexivity|exact G1]|].
        destruct (free_ok _ _ _ _ G1) as (h2 & F2 & G2). rewrite F2. cbn [bind]. destruct (new_ok _ _ KArr [] G2) as (h3 & a & N & G3 & _). rewrite N. eexists _, _. split; [reflexivity|exact G3]. }
      destruct A as (h2 & a & A & G2). rewrite A. cbn [bind].
      destruct (dup_all_ok ks _ _ G2) as (h3 & js' & DA & G3 & L').
      { intros i Ii. right. right. apply P3. cbn. right. right. apply (in_map rs). exact Ii. }
      rewrite DA. cbn [bind]. eexists _, _. split; [reflexivity|]. split.
      * eapply good_perm; [|exact G3]. eapply perm_trans; [|symmetry; apply P2]. cbn.
        eapply perm_trans; [apply Permutation_sym, Permutation_middle|]. eapply perm_trans; [apply perm_skip, Permutation_sym, Permutation_middle|]. apply perm_swap.
      * apply matches_set; [exact F|cbn; congruence|exact L].
  - destruct (call_throws (nth v ts Nothing) f) as [b'|] eqn:C; [|discriminate]. injection E as <- <-. destruct V as [G F].
    destruct (call_ok _ _ _ _ f b' G (handles_in os v) (matches_nth _ _ F v) C) as (h1 & X & G1). rewrite X. cbn [bind]. eexists _, _. split; [reflexivity|]. split; assumption.
  - destruct (alive (nth v ts Nothing)) eqn:A; [|discriminate]. injection E as <- <-. destruct V as [G F].
    destruct (alive_nth _ _ _ _ F eq_refl A) as (NE & L & NT). destruct (split_at _ _ _ NE) as (R & P1 & P2 & _).
    destruct (destroy_ok R h (nth v os Dead) _ (good_perm _ _ _ P1 G) (matches_nth _ _ F v) A) as (h1 & D & G1). rewrite D. cbn [bind]. eexists _, _. split; [reflexivity|]. split.
    + eapply good_perm; [|exact G1]. symmetry. apply P2.
    + apply matches_set; [exact F|exact I|exact L].
Qed.
Lemma run_ok : forall ps h os ts ts' bs, inv h os ts -> expect_all ts ps = Some (ts', bs) -> exists h' os', run h os ps = Ok (h', os', bs) /\ inv h' os' ts'.
Proof.
  intros ps; induction ps as [|p ps IH]; intros h os ts ts' bs V E; cbn in E.
  - injection E as <- <-. eexists _, _. split; [reflexivity|exact V].
  - destruct (expect ts p) as [[ts1 b]|] eqn:X; [|discriminate]. destruct (expect_all ts1 ps) as [[ts2 bs2]|] eqn:Y; [|discriminate]. injection E as <- <-.
    destruct (step_ok _ _ _ _ _ _ V X) as (h1 & os1 & S1 & V1). destruct (IH _ _ _ _ _ V1 Y) as (h2 & os2 & S2 & V2). exists h2, os2. cbn. rewrite S1. cbn. rewrite S2. split; [reflexivity|exact V2].
Qed.
(** * Counting *)
Lemma in_use_app : forall k a b, in_use k (a ++ b) = (in_use k a + in_use k b)%nat.
Proof. intros. unfold in_use. rewrite filter_app, app_length. reflexivity. Qed.
Definition live_at (k : kind) (h : heap) (i : nat) : bool := negb (refs_at h i k =? 0)%nat.
Lemma in_use_live : forall k h, in_use k h = length (filter (live_at k h) (seq 0 (length h))).
Proof.
  intros k h. induction h as [|c h IH] using rev_ind; [reflexivity|]. rewrite in_use_app, app_length, seq_app, filter_app, app_length. f_equal.
  - rewrite IH. f_equal. apply filter_ext_in. intros i I. apply in_seq in I. unfold live_at, refs_at. rewrite nth_error_app1 by lia. reflexivity.
  - cbn [length seq]. unfold in_use, live_at, refs_at. cbn [filter plus]. rewrite nth_error_app2, Nat.sub_diag by lia. cbn [nth_error]. destruct (same (kind_of c) k); [|reflexivity]. destruct (refs c =? 0)%nat; reflexivity.
Qed.
Definition of_kind (k : kind) (x : handle) : bool := if same (snd x) k then true else false.
Lemma in_use_handles : forall W h k, good W h -> in_use k h = length (filter (of_kind k) W).
Proof.
  intros W h k [O1 N]. rewrite in_use_live. rewrite <- (map_length (fun i => (i, k))). apply Permutation_length. apply NoDup_Permutation.
  - apply FinFun.Injective_map_NoDup; [intros a b; congruence|]. apply NoDup_filter. apply seq_NoDup.
  - apply NoDup_filter. exact N.
  - intros [i k']. rewrite in_map_iff, filter_In. split.
    + intros (j & E & I). injection E as -> <-. apply filter_In in I. destruct I as [_ L]. unfold live_at in L. rewrite O1 in L. destruct (count_occ heq W (i, k)) eqn:C; [discriminate|].
      split; [apply (count_occ_In heq); lia|]. unfold of_kind. cbn. destruct (same k k); [reflexivity|contradiction].
    + intros [I K]. unfold of_kind in K. cbn in K. destruct (same k' k) as [->|]; [|discriminate]. exists i. split; [reflexivity|]. apply filter_In. unfold live_at. rewrite O1.
      apply (count_occ_In heq) in I. split.
      * apply in_seq. pose proof (O1 i k) as E. unfold refs_at in E. assert (nth_error h i <> None) as L by (intro Z; rewrite Z in E; lia). apply nth_error_Some in L. lia.
      * destruct (count_occ heq W (i, k)); [lia|reflexivity].
Qed.
Lemma filter_rs : forall k js, length (filter (of_kind k) (map rs js)) = match k with KRsa => length js | _ => 0%nat end.
Proof.
  intros k js; induction js as [|j js IH]; [destruct k; reflexivity|]. cbn [map filter]. unfold of_kind at 1. cbn [snd rs]. unfold rs at 1. cbn [snd].
  destruct (same KRsa k) as [<-|n]; cbn [length]; rewrite IH; [reflexivity|]. destruct k; try reflexivity. contradiction.
Qed.
Lemma holds_ok : forall k o t, matches o t -> length (filter (of_kind k) (handles o)) = holds k t.
Proof.
  intros k o t M. destruct o as [|i|i a b c|i arr js], t as [| | |n]; try contradiction.
  - destruct k; reflexivity.
  - destruct k; reflexivity.
  - destruct k; reflexivity.
  - cbn in M. subst n. cbn [handles filter]. pose proof (filter_rs k js) as Fl. destruct k; cbn in *; rewrite Fl; reflexivity.
Qed.
Lemma total_ok : forall k os ts, Forall2 matches os ts -> length (filter (of_kind k) (all_handles os)) = total k ts.
Proof.
  intros k os ts F. unfold all_handles, total. induction F as [|o t os ts M F IH]; [reflexivity|]. cbn [map concat list_sum fold_right]. rewrite filter_app, app_length, IH, (holds_ok k _ _ M). reflexivity.
Qed.
Lemma start : forall n, inv [] (repeat Dead n) (repeat Nothing n).
Proof.
  intro n. split.
  - replace (all_handles (repeat Dead n)) with (@nil handle) by (induction n; [reflexivity|exact IHn]). split; [intros [|i] k; reflexivity|constructor].
  - induction n; constructor; [exact I|exact IHn].
Qed.
Lemma memory : forall n ps ts bs, expect_all (repeat Nothing n) ps = Some (ts, bs) -> exists h os, run [] (repeat Dead n) ps = Ok (h, os, bs) /\
  (forall k, in_use k h = total k ts) /\ unshared h.
Proof.
  intros n ps ts bs E. destruct (run_ok _ _ _ _ _ _ (start n) E) as (h & os & Rn & [G F]). exists h, os. split; [exact Rn|]. split.
  - intro k. rewrite (in_use_handles _ _ k G). apply total_ok. exact F.
  - apply Forall_forall. intros c I. destruct (In_nth_error _ _ I) as [i E']. pose proof (proj1 G i (kind_of c)) as C. unfold refs_at in C. rewrite E' in C.
    destruct (same (kind_of c) (kind_of c)) as [_|n']; [|contradiction]. rewrite C. apply (proj1 (NoDup_count_occ heq _) (proj2 G)).
Qed.
Lemma other_algorithm : forall h, exists h', from_private (Some None) h = Ok (h', Dead) /\ forall k, in_use k h' = (in_use k h + (if same KBio k then 1 else 0) + (if same KEvp k then 1 else 0))%nat.
Proof.
  intro h. eexists. split; [reflexivity|]. intro k. rewrite <- app_assoc, in_use_app. rewrite <- Nat.add_assoc. f_equal. destruct k; reflexivity.
Qed.
Lemma no_memory : forall h k key, use KRsa h k = Ok key -> exists h', call_function (Tdp k) (FPublicKey true true false) h = Ok (h', true) /\
  forall x, in_use x h' = (in_use x h + (if same KBio x then 1 else 0) + (if same KBuf x then 1 else 0))%nat.
Proof.
  intros h k key U. eexists. unfold call_function. cbn [key_of]. rewrite U. cbn. split; [reflexivity|]. intro x. rewrite <- app_assoc, in_use_app. rewrite <- Nat.add_assoc. f_equal. destruct x; reflexivity.
Qed.
Lemma size_1 : forall ns h, pool_new (Some ns) 1 h = UB.
Proof.
  intros ns h. unfold pool_new, from_public, new. unfold free, use. rewrite <- app_assoc. rewrite nth_error_app2, Nat.sub_diag by lia. reflexivity.
Qed.
Lemma not_wiped : forall p q d n, exists h os, run [] [Dead] [OGenerate 0 true (Some [n; 65537; d; p; q]); ODestroy 0] = Ok (h, os, [false; false]) /\
  (forall k, in_use k h = O) /\ left_behind h (p - 1) /\ left_behind h (q - 1).
Proof.
  intros p q d n. eexists _, _. split; [reflexivity|]. split; [intros []; reflexivity|].
  split; [exists (MkCell KBn 0 [p - 1])|exists (MkCell KBn 0 [q - 1])]; (split; [|split; [reflexivity|left; reflexivity]]); cbn; [do 3 right; left; reflexivity|do 4 right; left; reflexivity].
Qed.
Lemma exponents_left : forall p q d n, exists h os, run [] [Dead] [OGenerate 0 true (Some [n; 65537; d; p; q]); OCall 0 (FInvertMult 1 true)] = Ok (h, os, [false; false]) /\
  left_behind h (d mod (p - 1)) /\ left_behind h (d mod (q - 1)).
Proof.
  intros p q d n. eexists _, _. split; [reflexivity|].
  split; [exists (MkCell KBn 0 [d mod (p - 1)])|exists (MkCell KBn 0 [d mod (q - 1)])]; (split; [|split; [reflexivity|left; reflexivity]]); cbn; [do 8 right; left; reflexivity|do 9 right; left; reflexivity].
Qed.
