(** Pools *)
From Coq Require Import Lia ZifyBool Permutation.
From Verif Require Import Base BaseFacts MpiModel LimbModel HeapModel HeapSpec HeapProofs HeapProofs2 HeapProofs3 TdpHeapModel TdpHeapSpec TdpHeapProofs TdpHeapProofs2 PoolHeapModel PoolHeapSpec.

Section Pool.
Variable ora : nat -> bool.
Variable M k : nat.
Notation K := (k * S M)%nat.
Lemma group_inj p j p' j' : (j <= M)%nat -> (j' <= M)%nat -> group M p j = group M p' j' -> p = p' /\ j = j'.
Proof.
  unfold group. intros H H' E. assert (forall a b, (b <= M)%nat -> ((a * S M + b) / S M)%nat = a) as D by (intros a b Hb; symmetry; apply (Nat.div_unique _ (S M) a b); lia).
  assert (p = p') as -> by (rewrite <- (D p j H), <- (D p' j' H'), E; reflexivity). split; [reflexivity|lia].
Qed.
Lemma group_lt p j : (p < k)%nat -> (j <= M)%nat -> (group M p j < K)%nat.
Proof. unfold group. nia. Qed.
Definition same_but (V V' : list mpi) (gs : list nat) : Prop := forall g, ~ In g gs -> slot_same V V' g.
Lemma slot_refl V g : slot_same V V g.
Proof. intros j _. reflexivity. Qed.
Definition todo_ok (V : list mpi) (x : nat * nat * list command) : Prop :=
  let '(d, s, cs) := x in (d < K)%nat /\ (s < K)%nat /\ d <> s /\ Forall (within K d 1 1) cs /\ clear V d 0 15.
Lemma fill_st : forall todo h o V n, st h o V -> length V = size K -> Forall (todo_ok V) todo -> NoDup (map (fun x => fst (fst x)) todo) ->
  ok4 K (fill_keys ora h o n todo) V (fun V' x => same_but V V' (map (fun x => fst (fst x)) todo) /\
    (snd x = true -> forall d, In d (map (fun x => fst (fst x)) todo) -> keyok V' d = true /\ clear V' d 13 15)).
Proof.
  induction todo as [|[[d s] cs] todo IH]; intros h o V n H L F ND.
  - exists h, o, V, (n, true). split; [reflexivity|]. split; [exact H|]. split; [exact L|]. split; [intros g _; apply slot_refl|]. intros _ d [].
  - inversion F as [|? ? F1 F2]; subst. unfold todo_ok in F1. destruct F1 as [Hd [Hs [N [W C]]]]. cbn [map fst] in *. inversion ND as [|? ? Nd ND2]; subst. cbn [fill_keys].
    destruct (rsa_copy_st ora K h o V d s H L ltac:(lia) ltac:(lia) N) as [h1 [o1 [V1 [r [E1 [S1 [L1 [O1 _]]]]]]]]. rewrite E1. cbn [bind].
    destruct (calls_st ora K h1 o1 V1 d 1 1 cs S1 L1 W) as [h2 [o2 [V2 [E2 [S2 [L2 O2]]]]]]. rewrite E2. cbn [bind].
    rewrite (check_st ora h2 o2 V2 d S2) by (rewrite L2; apply (at_lt ora K); lia). cbn [bind].
    pose proof (only_trans _ _ _ _ _ _ _ _ O1 O2) as O12. cbn [Nat.min Nat.max] in O12.
    assert (forall g, g <> d -> slot_same V V2 g) as SG by (intros g Ng; eapply only_slot; [exact O12|cbn; lia|exact Ng]).
    assert (clear V2 d 13 15) as C2 by (intros j Hj; rewrite (only_self _ _ _ _ _ j O12) by (cbn; lia); apply C; lia).
    destruct (keyok V2 d) eqn:EK.
    + destruct (IH h2 o2 V2 (S n) S2 L2) as [h3 [o3 [V3 [x [E3 [S3 [L3 [A3 B3]]]]]]]]; [|exact ND2|].
      { apply Forall_forall. intros [[d' s'] cs'] Hx. rewrite Forall_forall in F2. specialize (F2 _ Hx). unfold todo_ok in F2 |- *. destruct F2 as [G1 [G2 [G3 [G4 G5]]]]. split; [exact G1|]. split; [exact G2|]. split; [exact G3|]. split; [exact G4|]. eapply clear_same; [apply SG|lia|exact G5]. intros ->. apply Nd. exact (in_map (fun x => fst (fst x)) _ _ Hx). }
      exists h3, o3, V3, x. split; [exact E3|]. split; [exact S3|]. split; [exact L3|]. split.
      * intros g Hg. cbn [In] in Hg. eapply slot_trans; [apply SG; intros ->; apply Hg; left; reflexivity|]. apply A3. tauto.
      * intros T d' [<-|Hd']; [|apply B3; assumption]. pose proof (A3 d Nd) as Q. split; [rewrite (keyok_same _ _ _ Q); exact EK|eapply clear_same; [exact Q|lia|exact C2]].
    + exists h2, o2, V2, (S n, false). split; [reflexivity|]. split; [exact S2|]. split; [exact L2|]. split; [|discriminate]. intros g Hg. cbn [In] in Hg. apply SG. intros ->. apply Hg. left. reflexivity.
Qed.
Lemma free_keys_st : forall gs h o V, st h o V -> length V = size K -> Forall (fun g => (g < K)%nat) gs ->
  ok3 K (free_keys ora h o gs) V (fun V' => same_but V V' gs /\ forall g, In g gs -> clear V' g 0 12 /\ inner_same V V' g).
Proof.
  induction gs as [|g gs IH]; intros h o V H L F.
  - exists h, o, V. split; [reflexivity|]. split; [exact H|]. split; [exact L|]. split; [intros g _; apply slot_refl|]. intros g [].
  - inversion F as [|? ? F1 F2]; subst. cbn [free_keys]. destruct (destroy_base_st ora K h o V g H L ltac:(lia)) as [h1 [o1 [V1 [E1 [S1 [L1 [C1 O1]]]]]]]. rewrite E1. cbn [bind].
    destruct (IH h1 o1 V1 S1 L1 F2) as [h2 [o2 [V2 [E2 [S2 [L2 [A2 B2]]]]]]]. exists h2, o2, V2. split; [exact E2|]. split; [exact S2|]. split; [exact L2|]. split.
    + intros g' Hg. cbn [In] in Hg. eapply slot_trans; [eapply only_slot; [exact O1|lia|intros ->; apply Hg; left; reflexivity]|]. apply A2. tauto.
    + assert (forall g', inner_same V V1 g') as I1. { intros g' j Hj. destruct (Nat.eq_dec g' g) as [->|N]; [apply (only_self _ _ _ _ _ j O1); lia|apply (only_slot _ _ _ _ _ g' O1); lia]. }
      intros g' Hg. destruct (in_dec Nat.eq_dec g' gs) as [T|T].
      * destruct (B2 g' T) as [B3 B4]. split; [exact B3|]. intros j Hj. rewrite B4 by exact Hj. apply I1. exact Hj.
      * destruct Hg as [->|Hg]; [|contradiction]. pose proof (A2 g' T) as Q. split; [eapply clear_same; [exact Q|lia|exact C1]|]. intros j Hj. rewrite (Q j) by lia. apply I1. exact Hj.
Qed.
(** A pool in a state *)
Definition live_ok (V : list mpi) (p n : nat) : Prop :=
  (n <= M)%nat /\ keyok V (group M p 0) = true /\ clear V (group M p 0) 14 15 /\
  (forall i, (i < n)%nat -> keyok V (key M p i) = true /\ clear V (key M p i) 13 15) /\ (forall i, (n <= i < M)%nat -> clear V (key M p i) 0 15).
Definition pool_ok (V : list mpi) (p : nat) (x : option pool) : Prop :=
  match x with
  | None => forall j, (j <= M)%nat -> clear V (group M p j) 0 15
  | Some x => pcount x = pinit x /\ live_ok V p (pcount x)
  end.
Definition pinv (s : pstate) : Prop := exists V, st (psheap s) (psobjs s) V /\ length V = size K /\ length (ppools s) = k /\ clear V K 0 15 /\ forall p, (p < k)%nat -> pool_ok V p (pool_of s p).
Definition pool_rest (V V' : list mpi) (p : nat) : Prop := forall g, (forall j, (j <= M)%nat -> g <> group M p j) -> slot_same V V' g.
Lemma pool_rest_trans V V' V'' p : pool_rest V V' p -> pool_rest V' V'' p -> pool_rest V V'' p.
Proof. intros A B g Hg. eapply slot_trans; [apply A; exact Hg|apply B; exact Hg]. Qed.
Lemma rest_pool V V' p j : (j <= M)%nat -> rest_same V V' (group M p j) -> pool_rest V V' p.
Proof. intros Hj R g Hg. apply R. apply Hg. exact Hj. Qed.
Lemma same_but_pool V V' p n : (n <= M)%nat -> same_but V V' (keys M p n) -> pool_rest V V' p.
Proof. intros Hn R g Hg. apply R. intros T. apply in_map_iff in T. destruct T as [i [E Hi]]. apply in_seq in Hi. apply (Hg (S i)); [lia|]. symmetry. exact E. Qed.
Lemma live_same V V' p n : (forall j, (j <= M)%nat -> slot_same V V' (group M p j)) -> live_ok V p n -> live_ok V' p n.
Proof.
  intros R [A [B [C [D E]]]]. unfold live_ok. unfold key in *. split; [exact A|]. split; [rewrite (keyok_same _ _ _ (R 0%nat ltac:(lia))); exact B|]. split; [eapply clear_same; [apply R; lia|lia|exact C]|]. split.
  - intros i Hi. destruct (D i Hi) as [D1 D2]. split; [rewrite (keyok_same _ _ _ (R (S i) ltac:(lia))); exact D1|eapply clear_same; [apply R; lia|lia|exact D2]].
  - intros i Hi. eapply clear_same; [apply R; lia|lia|apply E; exact Hi].
Qed.
Lemma pool_ok_same V V' p p' x : p' <> p -> (p' < k)%nat -> pool_rest V V' p -> pool_ok V p' x -> pool_ok V' p' x.
Proof.
  intros N Hp R H. assert (forall j, (j <= M)%nat -> slot_same V V' (group M p' j)) as RS by (intros j Hj; apply R; intros j' Hj' E; apply group_inj in E; [destruct E; contradiction|exact Hj|exact Hj']).
  destruct x as [x|]; cbn [pool_ok] in *; [split; [apply H|eapply live_same; [exact RS|apply H]]|]. intros j Hj. eapply clear_same; [apply RS; exact Hj|lia|apply H; exact Hj].
Qed.
Lemma temp_same V V' p : (p < k)%nat -> pool_rest V V' p -> slot_same V V' K.
Proof. intros Hp R. apply R. intros j Hj E. pose proof (group_lt p j Hp Hj). lia. Qed.
Lemma set_pool_nth l i x t : (i < length l)%nat -> nth t (set_pool l i x) None = if (t =? i)%nat then x else nth t l None.
Proof.
  intros Hi. unfold set_pool. destruct (Nat.eqb_spec t i) as [->|N].
  - rewrite app_nth2 by (rewrite firstn_length; lia). rewrite firstn_length, Nat.min_l by lia. rewrite Nat.sub_diag. reflexivity.
  - destruct (Nat.lt_ge_cases t i) as [L|L].
    + rewrite app_nth1 by (rewrite firstn_length; lia). rewrite <- (firstn_skipn i l) at 2. rewrite app_nth1 by (rewrite firstn_length; lia). reflexivity.
    + rewrite app_nth2 by (rewrite firstn_length; lia). rewrite firstn_length, Nat.min_l by lia. destruct (t - i)%nat as [|q] eqn:Eq; [lia|]. cbn [nth]. rewrite <- (firstn_skipn (S i) l) at 2. rewrite app_nth2 by (rewrite firstn_length; lia). rewrite firstn_length, Nat.min_l by lia. f_equal. lia.
Qed.
Lemma set_pool_length l i x : (i < length l)%nat -> length (set_pool l i x) = length l.
Proof. intros Hi. unfold set_pool. rewrite app_length. cbn [length]. rewrite firstn_length, skipn_length. lia. Qed.
(** The state after a step on pool [p], which has become [x] *)
Definition around (s : pstate) (V : list mpi) : Prop := length (ppools s) = k /\ clear V K 0 15 /\ forall p, (p < k)%nat -> pool_ok V p (pool_of s p).
Lemma pinv_set s V h' o' V' p x b : around s V -> (p < k)%nat -> pool_rest V V' p -> st h' o' V' -> length V' = size K -> pool_ok V' p x -> pinv (MkPS h' o' (set_pool (ppools s) p x) b).
Proof.
  intros [LL [C A]] Hp R S' L' X. exists V'. cbn [psheap psobjs ppools]. split; [exact S'|]. split; [exact L'|]. split; [rewrite set_pool_length; lia|]. split; [eapply clear_same; [eapply temp_same; eassumption|lia|exact C]|].
  intros t Ht. unfold pool_of. cbn [ppools]. rewrite set_pool_nth by lia. destruct (Nat.eqb_spec t p) as [->|N]; [exact X|]. eapply pool_ok_same; [exact N|exact Ht|exact R|]. apply A. exact Ht.
Qed.
Lemma pinv_keep s V h' o' V' p b : around s V -> (p < k)%nat -> pool_rest V V' p -> st h' o' V' -> length V' = size K -> pool_ok V' p (pool_of s p) -> pinv (MkPS h' o' (ppools s) b).
Proof.
  intros [LL [C A]] Hp R S' L' X. exists V'. cbn [psheap psobjs ppools]. split; [exact S'|]. split; [exact L'|]. split; [exact LL|]. split; [eapply clear_same; [eapply temp_same; eassumption|lia|exact C]|].
  intros t Ht. unfold pool_of. cbn [ppools]. destruct (Nat.eq_dec t p) as [->|N]; [exact X|]. eapply pool_ok_same; [exact N|exact Ht|exact R|]. apply (A t Ht).
Qed.
Lemma keys_in p n g : In g (keys M p n) <-> exists i, (i < n)%nat /\ g = key M p i.
Proof. unfold keys. rewrite in_map_iff. split; intros [i [A B]]; exists i; [apply in_seq in B; split; [lia|congruence]|split; [congruence|apply in_seq; lia]]. Qed.
Lemma keys_nodup p n : (n <= M)%nat -> NoDup (keys M p n).
Proof.
  intros Hn. unfold keys. assert (forall l, (forall i, In i l -> (i < M)%nat) -> NoDup l -> NoDup (map (key M p) l)) as G.
  { induction l as [|i l IH]; intros B ND; [constructor|]. inversion ND as [|? ? N1 N2]; subst. cbn [map]. constructor; [|apply IH; [intros j Hj; apply B; right; exact Hj|exact N2]].
    intros T. apply in_map_iff in T. destruct T as [j [E Hj]]. apply group_inj in E; [destruct E as [_ E]; injection E as ->; contradiction|specialize (B j (or_intror Hj)); lia|specialize (B i (or_introl eq_refl)); lia]. }
  apply G; [intros i Hi; apply in_seq in Hi; lia|apply seq_NoDup].
Qed.
(** The end of the constructors *)
Lemma pool_keys_st s V h o V1 p n f : around s V -> (p < k)%nat -> pool_of s p = None -> st h o V1 -> length V1 = size K -> pool_rest V V1 p -> (n <= M)%nat ->
  keyok V1 (group M p 0) = true -> clear V1 (group M p 0) 13 15 -> (forall i, (i < M)%nat -> clear V1 (key M p i) 0 15) ->
  (forall i, (i < n)%nat -> fst (fst (f i)) = key M p i /\ (snd (fst (f i)) < K)%nat /\ key M p i <> snd (fst (f i)) /\ Forall (within K (key M p i) 1 1) (snd (f i))) ->
  exists s', pool_keys ora M s h o p n (map f (seq 0 n)) = Ok s' /\ (plate s' = false -> pinv s').
Proof.
  intros AR Hp PN S1 L1 R1 Hn K0 C0 CK HF. unfold pool_keys, new_array. pose proof (group_lt p 0 Hp ltac:(lia)) as G0.
  destruct (pk_setup_st ora K h o V1 (group M p 0) S1 L1 ltac:(lia)) as [h2 [o2 [V2 [r [E2 [S2 [L2 [O2 Q2]]]]]]]]. rewrite E2. cbn [bind]. destruct r; cbn [negb].
  - assert (slot_same V1 V2 (group M p 0) -> True) as _ by trivial. assert (forall g, g <> group M p 0 -> slot_same V1 V2 g) as SG by (intros g Ng; eapply only_slot; [exact O2|lia|exact Ng]).
    assert (forall i, (i < M)%nat -> key M p i <> group M p 0) as NK by (intros i Hi E; apply group_inj in E; lia).
    assert (forall todo, todo = map f (seq 0 n) -> map (fun x => fst (fst x)) todo = keys M p n) as MK by (intros todo ->; unfold keys; rewrite map_map; apply map_ext_in; intros i Hi; apply in_seq in Hi; apply HF; lia).
    destruct (fill_st (map f (seq 0 n)) h2 o2 V2 0 S2 L2) as [h3 [o3 [V3 [[m good] [E3 [S3 [L3 [A3 B3]]]]]]]].
    { apply Forall_forall. intros x Hx. apply in_map_iff in Hx. destruct Hx as [i [<- Hi]]. apply in_seq in Hi. destruct (HF i ltac:(lia)) as [H1 [H2 [H3 H4]]]. destruct (f i) as [[d s0] cs]. cbn [fst snd] in *. subst d. split; [apply group_lt; lia|]. split; [exact H2|]. split; [exact H3|]. split; [exact H4|]. eapply clear_same; [apply SG, NK; lia|lia|apply CK; lia]. }
    { rewrite (MK _ eq_refl). apply keys_nodup. exact Hn. }
    rewrite (MK _ eq_refl) in A3, B3. rewrite E3. cbn [bind snd] in *. destruct good.
    + eexists. split; [reflexivity|]. intros _.
      assert (pool_rest V V3 p) as R3 by (eapply pool_rest_trans; [exact R1|]; eapply pool_rest_trans; [eapply (rest_pool _ _ p 0); [lia|intros g Ng; apply SG; exact Ng]|]; eapply same_but_pool; eassumption).
      apply (pinv_set s V h3 o3 V3 p _ _ AR Hp R3 S3 L3). cbn [pool_ok pcount pinit]. split; [reflexivity|]. split; [exact Hn|].
      assert (~ In (group M p 0) (keys M p n)) as NI by (intros T; apply keys_in in T; destruct T as [i [Hi E]]; apply (NK i); [lia|symmetry; exact E]).
      split; [rewrite (keyok_same _ _ _ (A3 _ NI)); unfold keyok; rewrite !(only_self _ _ _ _ _ _ O2) by lia; exact K0|]. split; [eapply clear_same; [apply A3; exact NI|lia|]; intros j Hj; rewrite (only_self _ _ _ _ _ j O2) by lia; apply C0; lia|].
      split; [intros i Hi; apply B3; [reflexivity|]; apply keys_in; exists i; split; [exact Hi|reflexivity]|].
      intros i Hi. eapply clear_same; [apply A3|lia|]. { intros T. apply keys_in in T. destruct T as [i' [Hi' E]]. apply group_inj in E; lia. } eapply clear_same; [apply SG, NK; lia|lia|apply CK; lia].
    + destruct (destroy_base_st ora K h3 o3 V3 (group M p 0) S3 L3 ltac:(lia)) as [h4 [o4 [V4 [E4 _]]]]. rewrite E4. cbn [bind]. eexists. split; [reflexivity|]. intros Q. discriminate Q.
  - rewrite (Q2 eq_refl) in *. destruct (destroy_base_st ora K h2 o2 V1 (group M p 0) S2 L1 ltac:(lia)) as [h4 [o4 [V4 [E4 [S4 [L4 [C4 O4]]]]]]]. rewrite E4. cbn [bind]. eexists. split; [reflexivity|]. intros _.
    assert (pool_rest V V4 p) as R4 by (eapply pool_rest_trans; [exact R1|]; eapply (rest_pool _ _ p 0); [lia|eapply only_rest; [exact O4|lia]]). apply (pinv_keep s V h4 o4 V4 p _ AR Hp R4 S4 L4). rewrite PN. cbn [pool_ok]. intros j Hj. destruct j as [|j].
    + apply (clear_app _ _ 12 15 C4). intros q Hq. rewrite (only_self _ _ _ _ _ q O4) by lia. apply C0. lia.
    + eapply clear_same; [eapply only_slot; [exact O4|lia|intros E; apply group_inj in E; lia]|lia|apply (CK j); lia].
Qed.
Lemma within_nth muls p : (forall i cs, nth_error muls i = Some cs -> Forall (within K (key M p i) 1 1) cs) -> forall i, Forall (within K (key M p i) 1 1) (nth i muls []).
Proof. intros H i. destruct (nth_error muls i) as [cs|] eqn:E; [rewrite (nth_error_nth _ _ _ E); apply H; exact E|]. rewrite nth_overflow by (apply nth_error_None; exact E). constructor. Qed.
Lemma pstep_ok s c : pinv s -> plate s = false -> pstatement_ok k M c -> exists s', pstep ora M k s c = Ok s' /\ (plate s' = false -> pinv s').
Proof.
  intros T PL HC. pose proof T as [V [SV [LV [LL [CK A]]]]]. assert (around s V) as AR by (split; [exact LL|split; assumption]). assert (exists s', Ok s = Ok s' /\ (plate s' = false -> pinv s')) as STAY by (exists s; split; [reflexivity|intros _; exact T]).
  destruct c as [p sz fill ok muls|p q|p q|p j cs|p]; cbn [pstatement_ok pstep] in *; cbv zeta.
  - destruct HC as [Hp [Hs [N1 [F W]]]]. pose proof (A p Hp) as Ap. destruct (pool_of s p) as [x|] eqn:PN; [exact STAY|]. cbn [pool_ok] in Ap. pose proof (group_lt p 0 Hp ltac:(lia)) as G0.
    destruct (public_st ora K (psheap s) (psobjs s) V (group M p 0) fill ok SV LV G0 CK (Ap 0%nat ltac:(lia)) F) as [h1 [o1 [V1 [x [E1 [S1 [L1 [R1 [C1 [X1 Y1]]]]]]]]]]. rewrite E1. cbn [bind].
    pose proof (rest_pool V V1 p 0 ltac:(lia) R1) as PR1.
    assert (forall i, (i < M)%nat -> clear V1 (key M p i) 0 15) as CK1 by (intros i Hi; eapply clear_same; [apply R1; intros E; apply group_inj in E; lia|lia|apply Ap; lia]).
    destruct x.
    + eexists. split; [reflexivity|]. intros _. apply (pinv_keep s V h1 o1 V1 p _ AR Hp PR1 S1 L1). rewrite PN. cbn [pool_ok]. intros j Hj. destruct j as [|j]; [apply (clear_app _ _ 12 15); [apply X1; reflexivity|exact C1]|apply (CK1 j); lia].
    + destruct (Nat.eqb_spec sz 0) as [E0|E0].
      * destruct (destroy_base_st ora K h1 o1 V1 (group M p 0) S1 L1 ltac:(lia)) as [h4 [o4 [V4 [E4 [S4 [L4 [C4 O4]]]]]]]. rewrite E4. cbn [bind]. eexists. split; [reflexivity|]. intros _.
        assert (pool_rest V V4 p) as R4 by (eapply pool_rest_trans; [exact PR1|]; eapply (rest_pool _ _ p 0); [lia|eapply only_rest; [exact O4|lia]]). apply (pinv_keep s V h4 o4 V4 p _ AR Hp R4 S4 L4). rewrite PN. cbn [pool_ok]. intros j Hj. destruct j as [|j].
        -- apply (clear_app _ _ 12 15 C4). intros t Ht. rewrite (only_self _ _ _ _ _ t O4) by lia. apply C1. lia.
        -- eapply clear_same; [eapply only_slot; [exact O4|lia|intros E; apply group_inj in E; lia]|lia|apply (CK1 j); lia].
      * replace (sz - 1 =? 0)%nat with false by lia. apply (pool_keys_st s V h1 o1 V1 p (sz - 1) (fun i => (key M p i, group M p i, nth i muls [])) AR Hp PN S1 L1 PR1 ltac:(lia) (Y1 eq_refl) C1 CK1).
        intros i Hi. cbn [fst snd]. split; [reflexivity|]. split; [apply group_lt; lia|]. split; [unfold key; intros E; apply group_inj in E; lia|]. apply within_nth. exact W.
  - destruct HC as [Hp Hq]. pose proof (A p Hp) as Ap. pose proof (A q Hq) as Aq. destruct (pool_of s p) as [x|] eqn:PN; [exact STAY|]. destruct (pool_of s q) as [y|] eqn:PQ; [|exact STAY]. cbn [pool_ok] in *. destruct Aq as [CI [Hn [KQ [CQ [KK CC]]]]].
    assert (p <> q) as NPQ by (intros ->; congruence). assert (group M p 0 <> group M q 0) as NG by (intros E; apply group_inj in E; lia). pose proof (group_lt p 0 Hp ltac:(lia)) as G0. pose proof (group_lt q 0 Hq ltac:(lia)) as G1.
    destruct (copy_ctor_st ora K (psheap s) (psobjs s) V (group M p 0) (group M q 0) SV LV G0 G1 NG (Ap 0%nat ltac:(lia)) (or_introl KQ)) as [h1 [o1 [V1 [x [E1 [S1 [L1 [R1 [C1 [X1 Y1]]]]]]]]]]. rewrite E1. cbn [bind].
    pose proof (rest_pool V V1 p 0 ltac:(lia) R1) as PR1.
    assert (forall i, (i < M)%nat -> clear V1 (key M p i) 0 15) as CK1 by (intros i Hi; eapply clear_same; [apply R1; intros E; apply group_inj in E; lia|lia|apply Ap; lia]).
    destruct x.
    + eexists. split; [reflexivity|]. intros _. apply (pinv_keep s V h1 o1 V1 p _ AR Hp PR1 S1 L1). rewrite PN. cbn [pool_ok]. intros j Hj. destruct j as [|j]; [apply (clear_app _ _ 12 15); [apply X1; reflexivity|exact C1]|apply (CK1 j); lia].
    + rewrite CI, Nat.eqb_refl. cbn [negb]. rewrite <- CI. apply (pool_keys_st s V h1 o1 V1 p (pcount y) (fun i => (key M p i, key M q i, [])) AR Hp PN S1 L1 PR1 Hn (Y1 eq_refl) C1 CK1).
      intros i Hi. cbn [fst snd]. split; [reflexivity|]. split; [apply group_lt; lia|]. split; [intros E; apply group_inj in E; lia|constructor].
  - destruct HC as [Hp Hq]. pose proof (A p Hp) as Ap. pose proof (A q Hq) as Aq. destruct (pool_of s p) as [x|] eqn:PN; [|exact STAY]. destruct (pool_of s q) as [y|] eqn:PQ; [|exact STAY]. cbn [pool_ok] in *.
    destruct (Nat.eqb_spec p q) as [E|NPQ]; [exact STAY|]. destruct Ap as [CIx [Hnx [KX [CX [KKx CCx]]]]]. destruct Aq as [CIy [Hny [KY [CY [KKy CCy]]]]]. rewrite CIx, CIy, !Nat.eqb_refl. cbn [negb orb]. rewrite <- CIx, <- CIy.
    destruct (free_keys_st (keys M p (pcount x)) (psheap s) (psobjs s) V SV LV) as [h1 [o1 [V1 [E1 [S1 [L1 [A1 B1]]]]]]]; [apply Forall_forall; intros g Hg; apply keys_in in Hg; destruct Hg as [i [Hi ->]]; apply group_lt; lia|]. rewrite E1. cbn [bind].
    pose proof (same_but_pool V V1 p _ Hnx A1) as PR1. assert (forall n i, (i < M)%nat -> (i < n)%nat -> In (key M p i) (keys M p n)) as KI by (intros n i _ Hi; apply keys_in; exists i; split; [exact Hi|reflexivity]).
    assert (forall n, (n <= M)%nat -> ~ In (group M p 0) (keys M p n)) as NI by (intros n Hn T0; apply keys_in in T0; destruct T0 as [i [Hi E]]; apply group_inj in E; lia).
    assert (forall i, (i < M)%nat -> clear V1 (key M p i) 0 15) as CK1.
    { intros i Hi. destruct (Nat.lt_ge_cases i (pcount x)) as [Q|Q].
      - destruct (B1 (key M p i)) as [B2 B3]; [apply KI; lia|]. apply (clear_app _ _ 12 15 B2). intros j Hj. rewrite B3 by lia. apply (proj2 (KKx i Q)). lia.
      - eapply clear_same; [apply A1|lia|apply CCx; lia]. intros T0. apply keys_in in T0. destruct T0 as [i' [Hi' E]]. apply group_inj in E; lia. }
    assert (keyok V1 (group M p 0) = true /\ clear V1 (group M p 0) 14 15) as [K1 C1] by (split; [rewrite (keyok_same _ _ _ (A1 _ (NI _ Hnx))); exact KX|eapply clear_same; [apply A1, NI; exact Hnx|lia|exact CX]]).
    pose proof (group_lt p 0 Hp ltac:(lia)) as G0.
    assert (exists h2 o2 V2 got, (if negb (pcount x =? pcount y)%nat then '(h, o) <- delete_array ora M h1 o1 p ;; new_array ora M h o p else Ok (h1, o1, true)) = Ok (h2, o2, got) /\ st h2 o2 V2 /\ length V2 = size K /\ only V1 V2 (group M p 0) 13 13) as [h2 [o2 [V2 [got [E2 [S2 [L2 O2]]]]]]].
    { destruct (pcount x =? pcount y)%nat; cbn [negb]; [exists h1, o1, V1, true; split; [reflexivity|]; split; [exact S1|]; split; [exact L1|]; intros t _; reflexivity|].
      unfold delete_array, new_array. destruct (calls_st ora K h1 o1 V1 (group M p 0) 13 13 [CFree (at_ (group M p 0) 13)] S1 L1) as [h2 [o2 [V2 [E2 [S2 [L2 O2]]]]]]; [constructor; [apply (free_within ora K); lia|constructor]|]. rewrite E2. cbn [bind].
      destruct (pk_setup_st ora K h2 o2 V2 (group M p 0) S2 L2 ltac:(lia)) as [h3 [o3 [V3 [r [E3 [S3 [L3 [O3 _]]]]]]]]. exists h3, o3, V3, r. split; [exact E3|]. split; [exact S3|]. split; [exact L3|]. exact (only_trans _ _ _ _ _ _ _ _ O2 O3). }
    rewrite E2. cbn [bind]. destruct got; cbn [negb]; [|eexists; split; [reflexivity|]; intros Q; discriminate Q].
    assert (forall g, g <> group M p 0 -> slot_same V1 V2 g) as SG by (intros g Ng; eapply only_slot; [exact O2|lia|exact Ng]).
    assert (forall i, (i < M)%nat -> key M p i <> group M p 0) as NK by (intros i Hi E; apply group_inj in E; lia).
    set (f := fun i => (key M p i, key M q i, @nil command)).
    assert (map (fun x => fst (fst x)) (map f (seq 0 (pcount y))) = keys M p (pcount y)) as MK by (unfold keys; rewrite map_map; reflexivity).
    destruct (fill_st (map f (seq 0 (pcount y))) h2 o2 V2 0 S2 L2) as [h3 [o3 [V3 [[m good] [E3 [S3 [L3 [A3 B3]]]]]]]].
    { apply Forall_forall. intros z Hz. apply in_map_iff in Hz. destruct Hz as [i [<- Hi]]. apply in_seq in Hi. unfold f. split; [apply group_lt; lia|]. split; [apply group_lt; lia|]. split; [intros E; apply group_inj in E; lia|]. split; [constructor|]. eapply clear_same; [apply SG, NK; lia|lia|apply CK1; lia]. }
    { rewrite MK. apply keys_nodup. exact Hny. }
    rewrite MK in A3, B3. rewrite E3. cbn [bind snd] in *. eexists. split; [reflexivity|]. cbn [plate]. intros HG. destruct good; [|discriminate HG].
    assert (pool_rest V V3 p) as R3 by (eapply pool_rest_trans; [exact PR1|]; eapply pool_rest_trans; [eapply (rest_pool _ _ p 0); [lia|intros g Ng; apply SG; exact Ng]|]; eapply same_but_pool; eassumption).
    apply (pinv_set s V h3 o3 V3 p _ _ AR Hp R3 S3 L3). cbn [pool_ok pcount pinit].
    assert (pcount y = if (pcount x =? pcount y)%nat then pcount y else m) as EM.
    { destruct (pcount x =? pcount y)%nat; [reflexivity|]. clear -E3. assert (forall todo h o n h' o' m, fill_keys ora h o n todo = Ok (h', o', (m, true)) -> m = (n + length todo)%nat) as G.
      { induction todo as [|[[d s0] cs] todo IH]; intros h o n h' o' m0 E; cbn [fill_keys] in E; [injection E as _ _ <-; cbn; lia|]. destruct (rsa_copy ora h o d s0) as [[[ha oa] ra]| | | |]; cbn [bind] in E; try discriminate E. destruct (run ora cs ha oa) as [[hb ob]| | | |]; cbn [bind] in E; try discriminate E. destruct (check_pubkey hb ob d) as [[]| | | |]; cbn [bind] in E; try discriminate E. apply IH in E. cbn [length]. lia. }
      apply G in E3. rewrite map_length, seq_length in E3. lia. }
    split; [exact EM|]. split; [exact Hny|]. split; [rewrite (keyok_same _ _ _ (A3 _ (NI _ Hny))); unfold keyok; rewrite !(only_self _ _ _ _ _ _ O2) by lia; exact K1|].
    split; [eapply clear_same; [apply A3, NI; exact Hny|lia|]; intros j Hj; rewrite (only_self _ _ _ _ _ j O2) by lia; apply C1; lia|].
    split; [intros i Hi; apply B3; [reflexivity|]; apply keys_in; exists i; split; [exact Hi|reflexivity]|].
    intros i Hi. eapply clear_same; [apply A3|lia|]. { intros T0. apply keys_in in T0. destruct T0 as [i' [Hi' E]]. apply group_inj in E; lia. } eapply clear_same; [apply SG, NK; lia|lia|apply CK1; lia].
  - destruct HC as [Hp F]. pose proof (A p Hp) as Ap. destruct (pool_of s p) as [x|] eqn:PN; [|exact STAY]. cbn [pool_ok] in Ap. destruct Ap as [CI LO]. destruct (Nat.leb_spec j (pinit x)) as [Hj|Hj]; [|exact STAY]. pose proof LO as [Hn [K0 [C0 [KK CC]]]].
    assert (j <= M)%nat as HjM by lia. pose proof (group_lt p j Hp HjM) as GJ. unfold use. rewrite (check_st ora (psheap s) (psobjs s) V (group M p j) SV) by (rewrite LV; apply (at_lt ora K); lia). cbn [bind]. destruct (keyok V (group M p j)) eqn:EK; cbn [bind].
    + destruct (calls_st ora K (psheap s) (psobjs s) V (group M p j) 8 12 cs SV LV F) as [h' [o' [V' [E' [S' [L' O']]]]]]. rewrite E'. cbn [bind]. eexists. split; [reflexivity|]. intros _.
      apply (pinv_keep s V h' o' V' p _ AR Hp); [eapply (rest_pool _ _ p j HjM); eapply only_rest; [exact O'|lia]|exact S'|exact L'|]. rewrite PN. cbn [pool_ok]. split; [exact CI|].
      assert (forall g, keyok V' g = keyok V g) as KS. { intros g. destruct (Nat.eq_dec g (group M p j)) as [->|N]; [unfold keyok; rewrite !(only_self _ _ _ _ _ _ O') by lia; reflexivity|apply keyok_same; eapply only_slot; [exact O'|lia|exact N]]. }
      assert (forall g t, (13 <= t <= 15)%nat -> val V' (at_ g t) = val V (at_ g t)) as IS. { intros g t Ht. destruct (Nat.eq_dec g (group M p j)) as [->|N]; [apply (only_self _ _ _ _ _ _ O'); lia|apply (only_slot _ _ _ _ _ g O'); lia]. }
      split; [exact Hn|]. split; [rewrite KS; exact K0|]. split; [intros t Ht; rewrite IS by lia; apply C0; exact Ht|]. split; [intros i Hi; destruct (KK i Hi) as [D1 D2]; split; [rewrite KS; exact D1|intros t Ht; rewrite IS by lia; apply D2; exact Ht]|].
      intros i Hi. eapply clear_same; [eapply only_slot; [exact O'|lia|intros E; apply group_inj in E; lia]|lia|apply CC; exact Hi].
    + eexists. split; [reflexivity|]. intros _. destruct s as [s1 s2 s3 s4]. cbn [PoolHeapModel.plate] in PL. subst. exact T.
  - pose proof (A p HC) as Ap. destruct (pool_of s p) as [x|] eqn:PN; [|exact STAY]. cbn [pool_ok] in Ap. destruct Ap as [CI [Hn [K0 [C0 [KK CC]]]]]. rewrite CI, Nat.eqb_refl. cbn [negb]. rewrite <- CI. pose proof (group_lt p 0 HC ltac:(lia)) as G0.
    destruct (free_keys_st (keys M p (pcount x)) (psheap s) (psobjs s) V SV LV) as [h1 [o1 [V1 [E1 [S1 [L1 [A1 B1]]]]]]]; [apply Forall_forall; intros g Hg; apply keys_in in Hg; destruct Hg as [i [Hi ->]]; apply group_lt; lia|]. rewrite E1. cbn [bind].
    unfold delete_array. destruct (free_st ora [at_ (group M p 0) 13] h1 o1 V1 S1) as [h2 [o2 [V2 [E2 [S2 [L2 [F1 F2]]]]]]]; [rewrite L1; constructor; [apply (at_lt ora K); lia|constructor]|]. cbn [map] in E2. rewrite E2. cbn [bind]. rewrite L1 in L2.
    destruct (destroy_base_st ora K h2 o2 V2 (group M p 0) S2 L2 ltac:(lia)) as [h3 [o3 [V3 [E3 [S3 [L3 [C3 O3]]]]]]]. rewrite E3. cbn [bind]. eexists. split; [reflexivity|]. intros _.
    assert (only V1 V2 (group M p 0) 13 13) as O2 by (intros t Ht; apply F2; cbn [In]; intros [E|[]]; apply (Ht 13%nat); [lia|congruence]).
    assert (forall n, (n <= M)%nat -> ~ In (group M p 0) (keys M p n)) as NI by (intros n Hn0 T0; apply keys_in in T0; destruct T0 as [i [Hi E]]; apply group_inj in E; lia).
    pose proof (only_trans _ _ _ _ _ _ _ _ O2 O3) as O23. cbn [Nat.min Nat.max] in O23.
    apply (pinv_set s V h3 o3 V3 p _ _ AR HC); [eapply pool_rest_trans; [eapply same_but_pool; [exact Hn|exact A1]|]; eapply (rest_pool _ _ p 0); [lia|eapply only_rest; [exact O23|cbn; lia]]|exact S3|exact L3|]. cbn [pool_ok]. intros j Hj. destruct j as [|j].
    + apply (clear_app _ _ 12 15 C3). intros t Ht. rewrite (only_self _ _ _ _ _ t O3) by lia. destruct (Nat.eq_dec t 13) as [->|N13]; [apply F1; left; reflexivity|]. rewrite (only_self _ _ _ _ _ t O2) by lia. rewrite (A1 _ (NI _ Hn)) by lia. apply C0. lia.
    + change (group M p (S j)) with (key M p j). eapply clear_same; [eapply only_slot; [exact O23|cbn; lia|intros E; apply group_inj in E; lia]|lia|]. destruct (Nat.lt_ge_cases j (pcount x)) as [Q|Q].
      * destruct (B1 (key M p j)) as [B2 B3]; [apply keys_in; exists j; split; [exact Q|reflexivity]|]. apply (clear_app _ _ 12 15 B2). intros t Ht. rewrite B3 by lia. apply (proj2 (KK j Q)). lia.
      * eapply clear_same; [apply A1|lia|apply CC; lia]. intros T0. apply keys_in in T0. destruct T0 as [i' [Hi' E]]. apply group_inj in E; lia.
Qed.
End Pool.
