(** Blocks of the heap, and the functions on one big number. *)
From Coq Require Import Lia ZifyBool Permutation.
From Verif Require Import Base BaseFacts MpiModel LimbModel HeapModel HeapSpec.

Definition wf (h : heap) : Prop := NoDup (map fst (cells h)) /\ Forall (fun c => 0 < fst c < next_addr h) (cells h) /\ 0 < next_addr h /\ wiped h.
Lemma lookup_in : forall c a l, NoDup (map fst c) -> In (a, l) c -> lookup c a = Some l.
Proof.
  induction c as [|[x m] c IH]; intros a l N H; [destruct H|]. cbn [map fst] in N. inversion N as [|? ? N1 N2]; subst. cbn [lookup]. destruct H as [H|H].
  - injection H as -> ->. rewrite Z.eqb_refl. reflexivity.
  - destruct (Z.eqb_spec x a) as [->|E]; [|apply IH; assumption]. exfalso. apply N1. apply in_map_iff. exists (a, l). split; [reflexivity|exact H].
Qed.
Lemma perm_nodup c c' : Permutation c c' -> NoDup (map (@fst Z (list Z)) c) -> NoDup (map fst c').
Proof. intros P N. eapply Permutation_NoDup; [apply Permutation_map; exact P|exact N]. Qed.
Lemma lookup_perm c a l rest : NoDup (map fst c) -> Permutation c ((a, l) :: rest) -> lookup c a = Some l.
Proof. intros N P. apply lookup_in; [exact N|]. eapply Permutation_in; [apply Permutation_sym; exact P|left; reflexivity]. Qed.
Lemma lookup_split c a l : lookup c a = Some l -> exists c1 c2, c = c1 ++ (a, l) :: c2 /\ (forall l', store c a l' = c1 ++ (a, l') :: c2) /\ remove c a = c1 ++ c2.
Proof.
  induction c as [|[x m] c IH]; cbn [lookup store remove]; [discriminate|]. destruct (Z.eqb_spec x a) as [->|E].
  - intros [= ->]. exists [], c. repeat split.
  - intros H. destruct (IH H) as [c1 [c2 [H1 [H2 H3]]]]. exists ((x, m) :: c1), c2. rewrite H3. split; [cbn; f_equal; exact H1|]. split; [|reflexivity]. intros l'. rewrite H2. reflexivity.
Qed.
Lemma store_perm c a l l' rest : NoDup (map fst c) -> Permutation c ((a, l) :: rest) -> Permutation (store c a l') ((a, l') :: rest).
Proof.
  intros N P. destruct (lookup_split c a l (lookup_perm c a l rest N P)) as [c1 [c2 [H1 [H2 _]]]]. rewrite H2. rewrite H1 in P. apply Permutation_sym. apply Permutation_cons_app.
  apply Permutation_sym. apply Permutation_app_inv with (l1 := c1) (l2 := c2) (l3 := []) (a := (a, l)). exact P.
Qed.
Lemma remove_perm c a l rest : NoDup (map fst c) -> Permutation c ((a, l) :: rest) -> Permutation (remove c a) rest.
Proof.
  intros N P. destruct (lookup_split c a l (lookup_perm c a l rest N P)) as [c1 [c2 [H1 [_ H2]]]]. rewrite H2. rewrite H1 in P.
  apply Permutation_app_inv with (l1 := c1) (l2 := c2) (l3 := []) (a := (a, l)). exact P.
Qed.
Lemma load_ok h a l rest n : wf h -> Permutation (cells h) ((a, l) :: rest) -> (n <= length l)%nat -> load h a n = Ok (firstn n l).
Proof. intros [N _] P L. unfold load. rewrite (lookup_perm _ _ _ _ N P). apply Nat.leb_le in L. rewrite L. reflexivity. Qed.
(** The other parts of the heap are as before. *)
Definition same_rest (h h' : heap) : Prop := next_addr h' = next_addr h /\ calls h' = calls h.
Lemma save_ok h a l rest d : wf h -> Permutation (cells h) ((a, l) :: rest) -> (length d <= length l)%nat ->
  exists h', save h a d = Ok h' /\ wf h' /\ Permutation (cells h') ((a, d ++ skipn (length d) l) :: rest) /\ same_rest h h' /\ released h' = released h.
Proof.
  intros [N [A [Q W]]] P L. unfold save. rewrite (lookup_perm _ _ _ _ N P). apply Nat.leb_le in L. rewrite L.
  pose proof (store_perm _ _ _ (d ++ skipn (length d) l) _ N P) as P2. eexists. split; [reflexivity|]. split; [|repeat split; exact P2]. unfold wf. cbn.
  split; [|split; [|split; assumption]].
  - apply (perm_nodup ((a, d ++ skipn (length d) l) :: rest)); [apply Permutation_sym; exact P2|]. apply (perm_nodup _ _ P) in N. exact N.
  - eapply Permutation_Forall; [apply Permutation_sym; exact P2|]. apply (Permutation_Forall P) in A. inversion A; subst. constructor; assumption.
Qed.
Lemma release_ok h a l rest : wf h -> a <> 0 -> Permutation (cells h) ((a, l) :: rest) -> Forall (eq 0) l ->
  exists h', release h a = Ok h' /\ wf h' /\ Permutation (cells h') rest /\ same_rest h h'.
Proof.
  intros [N [A [Q W]]] Ha P Hl. unfold release. replace (a =? 0) with false by lia. rewrite (lookup_perm _ _ _ _ N P). pose proof (remove_perm _ _ _ _ N P) as P2.
  eexists. split; [reflexivity|]. split; [|repeat split; exact P2]. unfold wf. cbn. apply (perm_nodup _ _ P) in N. cbn [map fst] in N. inversion N as [|? ? N1 N2]; subst. apply (Permutation_Forall P) in A. inversion A; subst.
  split; [|split; [|split; [assumption|]]].
  - apply (perm_nodup rest); [apply Permutation_sym; exact P2|exact N2].
  - eapply Permutation_Forall; [apply Permutation_sym; exact P2|assumption].
  - unfold wiped. cbn. constructor; assumption.
Qed.
Lemma Forall_repeat0 n : Forall (eq 0) (repeat 0 n).
Proof. apply Forall_forall. intros x H. apply repeat_spec in H. congruence. Qed.
Lemma zero_release h a l rest : wf h -> a <> 0 -> Permutation (cells h) ((a, l) :: rest) ->
  exists h', (h1 <- zeroize h a (length l) ;; release h1 a) = Ok h' /\ wf h' /\ Permutation (cells h') rest /\ same_rest h h'.
Proof.
  intros W Ha P. unfold zeroize. destruct (save_ok h a l rest (repeat 0 (length l)) W P) as [h1 [E1 [W1 [P1 [[S1 S2] _]]]]]; [rewrite repeat_length; lia|]. rewrite E1. cbn [bind].
  rewrite repeat_length, skipn_all, app_nil_r in P1. destruct (release_ok h1 a _ rest W1 Ha P1 (Forall_repeat0 _)) as [h2 [E2 [W2 [P2 [S3 S4]]]]]. exists h2. split; [exact E2|]. split; [exact W2|]. split; [exact P2|]. split; congruence.
Qed.
Section Ops.
Variable ora : nat -> bool.
Lemma calloc_ok h n rest : wf h -> Permutation (cells h) rest -> ora (calls h) = true ->
  exists h', calloc ora h n = (next_addr h, h') /\ next_addr h <> 0 /\ wf h' /\ Permutation (cells h') ((next_addr h, repeat 0 n) :: rest) /\ calls h' = S (calls h).
Proof.
  intros [N [A [Q W]]] P E. unfold calloc. rewrite E. eexists. split; [reflexivity|]. split; [lia|]. split; [|split; [cbn; constructor; exact P|reflexivity]].
  unfold wf. cbn. split; [|split; [|split; [lia|exact W]]].
  - constructor; [|exact N]. intros H. apply in_map_iff in H. destruct H as [[x l] [E1 H]]. cbn in E1. subst x. rewrite Forall_forall in A. specialize (A _ H). cbn in A. lia.
  - constructor; [cbn; lia|]. eapply Forall_impl; [|exact A]. cbn. intros; lia.
Qed.
(** The object [X] owns a block with the limbs [l] (none if the pointer is null); the other blocks are [rest]. *)
Definition blk (X : hmpi) (l : list Z) : list (Z * list Z) := if hp X =? 0 then [] else [(hp X, l)].
Definition own (h : heap) (X : hmpi) (l : list Z) (rest : list (Z * list Z)) : Prop :=
  wf h /\ Permutation (cells h) (blk X l ++ rest) /\ length l = hn X /\ (hp X = 0 <-> l = []).
Lemma own_blk h X l rest : own h X l rest -> hp X <> 0 -> Permutation (cells h) ((hp X, l) :: rest).
Proof. intros [_ [P _]] H. unfold blk in P. replace (hp X =? 0) with false in P by lia. exact P. Qed.
Lemma free_ok h X l rest : own h X l rest -> exists h', h_free h X = Ok (h', h_init) /\ own h' h_init [] rest /\ calls h' = calls h.
Proof.
  intros O. pose proof O as [W [P [L Z0]]]. unfold h_free. destruct (Z.eqb_spec (hp X) 0) as [E|E]; cbn [negb].
  - cbn [bind]. exists h. split; [reflexivity|]. split; [|reflexivity]. split; [exact W|]. split; [|split; [reflexivity|cbn; tauto]]. unfold blk in *. rewrite E in P. exact P.
  - rewrite <- L. destruct (zero_release h (hp X) l rest W E (own_blk _ _ _ _ O E)) as [h1 [E1 [W1 [P1 [S1 S2]]]]]. rewrite E1. cbn [bind]. exists h1. split; [reflexivity|]. split; [|exact S2].
    split; [exact W1|]. split; [exact P1|]. split; [reflexivity|cbn; tauto].
Qed.
(** Replacing the block of [X] by a new one with [d] at its start *)
Lemma replace_ok h X l rest n k : own h X l rest -> ora (calls h) = true -> (0 < n)%nat -> (k <= n)%nat -> (k <= length l)%nat ->
  exists h' p, calloc ora h n = (p, h') /\ p <> 0 /\
    exists h2, (if negb (hp X =? 0) then d <- load h' (hp X) k ;; h <- save h' p d ;; h <- zeroize h (hp X) (hn X) ;; release h (hp X) else Ok h') = Ok h2 /\
      own h2 (MkH (hs X) n p) (firstn k l ++ repeat 0 (n - k)) rest /\ calls h2 = S (calls h).
Proof.
  intros O Ho Hn Hk Hl. pose proof O as [W [P [L Z0]]]. destruct (calloc_ok h n _ W P Ho) as [h1 [E1 [N1 [W1 [P1 C1]]]]]. exists h1, (next_addr h). split; [exact E1|]. split; [exact N1|].
  assert (length (firstn k l ++ repeat 0 (n - k)) = n) as LL by (rewrite app_length, firstn_length, repeat_length; lia).
  assert (firstn k l ++ repeat 0 (n - k) <> []) as NE by (intros E; rewrite E in LL; cbn in LL; lia).
  destruct (Z.eqb_spec (hp X) 0) as [E|E]; cbn [negb].
  - assert (l = []) as -> by (apply Z0; exact E). cbn [length] in Hl. assert (k = 0%nat) as -> by lia. exists h1. split; [reflexivity|]. split; [|exact C1]. unfold own, blk in *. cbn [hp hn hs]. rewrite E in P1. replace (next_addr h =? 0) with false by lia.
    split; [exact W1|]. split; [|split; [exact LL|]]. { cbn [firstn app] in *. rewrite Nat.sub_0_r. exact P1. } split; intros; [lia|congruence].
  - assert (Permutation (cells h1) ((hp X, l) :: ((next_addr h, repeat 0 n) :: rest))) as P2. { unfold blk in P1. replace (hp X =? 0) with false in P1 by lia. cbn [app] in P1. eapply perm_trans; [exact P1|apply perm_swap]. }
    rewrite (load_ok h1 (hp X) l _ k W1 P2) by lia. cbn [bind]. assert (Permutation (cells h1) ((next_addr h, repeat 0 n) :: ((hp X, l) :: rest))) as P3 by (eapply perm_trans; [exact P2|apply perm_swap]).
    destruct (save_ok h1 _ _ _ (firstn k l) W1 P3) as [h2 [E2 [W2 [P4 [[S1 S2] _]]]]]; [rewrite firstn_length, repeat_length; lia|]. rewrite E2. cbn [bind].
    assert (Permutation (cells h2) ((hp X, l) :: ((next_addr h, firstn k l ++ repeat 0 (n - k)) :: rest))) as P5.
    { eapply perm_trans; [exact P4|]. rewrite firstn_length, Nat.min_l by lia. replace (skipn k (repeat 0 n)) with (repeat 0 (n - k)); [apply perm_swap|].
      replace n with (k + (n - k))%nat at 2 by lia. rewrite repeat_app. rewrite skipn_app, skipn_all2 by (rewrite repeat_length; lia). rewrite repeat_length, Nat.sub_diag. reflexivity. }
    rewrite <- L. destruct (zero_release h2 (hp X) l _ W2 E P5) as [h3 [E3 [W3 [P6 [S3 S4]]]]]. rewrite E3. exists h3. split; [reflexivity|]. split; [|congruence]. unfold own, blk. cbn [hp hn hs]. replace (next_addr h =? 0) with false by lia.
    split; [exact W3|]. split; [exact P6|]. split; [exact LL|]. split; intros; [lia|congruence].
Qed.
Lemma own_calls h X l rest : own h X l rest -> own (MkHeap (cells h) (next_addr h) (S (calls h)) (released h)) X l rest.
Proof. intros O. exact O. Qed.
(** grow: done, or an allocation failed, or too many limbs *)
Lemma grow_ok h X l rest n : own h X l rest -> exists h' X' r, h_grow ora h X n = Ok (h', X', r) /\
  ((MPI_MAX_LIMBS < Z.of_nat n /\ h' = h /\ X' = X /\ r = ERR_MPI_ALLOC_FAILED) \/
   (Z.of_nat n <= MPI_MAX_LIMBS /\ (length l < n)%nat /\ ora (calls h) = false /\ own h' X l rest /\ X' = X /\ r = ERR_MPI_ALLOC_FAILED /\ calls h' = S (calls h)) \/
   (Z.of_nat n <= MPI_MAX_LIMBS /\ own h' X' (l ++ repeat 0 (n - length l)) rest /\ hs X' = hs X /\ r = 0 /\
    calls h' = (if (length l <? n)%nat then S (calls h) else calls h) /\ ((length l < n)%nat -> ora (calls h) = true))).
Proof.
  intros O. pose proof O as [W [P [L Z0]]]. unfold h_grow. destruct (Z.ltb_spec MPI_MAX_LIMBS (Z.of_nat n)) as [M|M]; [do 3 eexists; split; [reflexivity|]; left; repeat split; assumption|].
  rewrite <- L. destruct (Nat.ltb_spec (length l) n) as [T|T].
  - destruct (ora (calls h)) eqn:Ho.
    + destruct (replace_ok h X l rest n (length l) O Ho ltac:(lia) ltac:(lia) ltac:(lia)) as [h1 [p [E1 [Np [h2 [E2 [O2 C2]]]]]]]. rewrite E1. replace (p =? 0) with false by lia. rewrite L in E2 |- *. rewrite E2. cbn [bind].
      do 3 eexists. split; [reflexivity|]. right. right. split; [exact M|]. rewrite <- L. rewrite firstn_all in O2. split; [exact O2|]. split; [reflexivity|]. split; [reflexivity|]. split; [exact C2|]. intros _. reflexivity.
    + unfold calloc. rewrite Ho. change (0 =? 0) with true. cbn iota. do 3 eexists. split; [reflexivity|]. right. left. split; [exact M|]. split; [exact T|]. split; [reflexivity|]. split; [apply own_calls; exact O|]. repeat split.
  - do 3 eexists. split; [reflexivity|]. right. right. split; [exact M|]. replace (n - length l)%nat with 0%nat by lia. cbn [repeat]. rewrite app_nil_r. split; [exact O|]. repeat split. lia.
Qed.
End Ops.
