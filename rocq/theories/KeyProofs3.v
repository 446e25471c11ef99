(** Statements about single operations in reachable c N states. *)
From Verif Require Import BaseFacts KeyModel KeySpec KeyProofs KeyProofs2.

Section Key3.
  Variable c : cfg.
  Variable N : nat.

  Lemma reachable_inv s : reachable c N s -> exists ss, Inv c s ss.
  Proof.
    intros (ops & vs & Hok & Hr). destruct (run_inv c N ops init_st [] Hok (Inv_init c)) as (_ & HI & _).
    rewrite Hr in HI; simpl in HI. eauto.
  Qed.

  (** contents of allocations never change *)
  Definition keeps (h h' : list cell) : Prop :=
    forall p b pr, nth_error h p = Some (Live b pr) ->
      nth_error h' p = Some Freed \/ exists pr', nth_error h' p = Some (Live b pr').
  Lemma keeps_refl h : keeps h h.
  Proof. intros p b pr H; eauto. Qed.
  Lemma keeps_snoc h x : keeps h (h ++ [x]).
  Proof. intros p b pr H. right. exists pr. rewrite nth_error_app1; auto. eapply lt_of_nth; eauto. Qed.
  Lemma keeps_free h p q : sfree h p = Ok q -> keeps h q.
  Proof.
    unfold sfree. destruct (nth_error h p) as [[|b1 pr1]|] eqn:E; try discriminate.
    intros H; inversion H; subst. intros q b pr Hq. rewrite set_nth_eq. destruct (Nat.eqb_spec p q) as [->|].
    - apply lt_of_nth in E. destruct (Nat.ltb_spec q (length h)); [auto|lia].
    - eauto.
  Qed.
  Lemma keeps_mprotect e h p np h' t : mprotect c e h p np = Ok (h', t) -> keeps h h'.
  Proof.
    unfold mprotect. destruct (nth_error h p) as [[|b1 pr1]|] eqn:E; try discriminate.
    destruct (e_mpfail e); [|destruct (mpsup c)]; intros H; inversion H; subst; try apply keeps_refl.
    intros q b pr Hq. rewrite set_nth_eq. destruct (Nat.eqb_spec p q) as [->|]; [|eauto].
    apply lt_of_nth in E as E'. destruct (Nat.ltb_spec q (length h)); [|lia]. right. exists np. congruence.
  Qed.
  Lemma keeps_trans h1 h2 h3 : keeps h1 h2 -> keeps h2 h3 ->
    (forall p, nth_error h2 p = Some Freed -> nth_error h3 p = Some Freed) -> keeps h1 h3.
  Proof.
    intros H12 H23 Hf p b pr H. destruct (H12 _ _ _ H) as [H2|(pr' & H2)]; [left; auto|]. eauto.
  Qed.

  Definition freed_stays (h h' : list cell) : Prop :=
    forall p, nth_error h p = Some Freed -> nth_error h' p = Some Freed.
  Lemma fs_refl h : freed_stays h h.
  Proof. intros p; auto. Qed.
  Lemma fs_snoc h x : freed_stays h (h ++ [x]).
  Proof. intros p H. rewrite nth_error_app1; auto. eapply lt_of_nth; eauto. Qed.
  Lemma fs_free h p q : sfree h p = Ok q -> freed_stays h q.
  Proof.
    unfold sfree. destruct (nth_error h p) as [[|b1 pr1]|] eqn:E; try discriminate.
    intros H; inversion H; subst. intros q Hq. rewrite set_nth_eq. destruct (Nat.eqb_spec p q) as [->|]; [congruence|auto].
  Qed.
  Lemma fs_mprotect e h p np h' t : mprotect c e h p np = Ok (h', t) -> freed_stays h h'.
  Proof.
    unfold mprotect. destruct (nth_error h p) as [[|b1 pr1]|] eqn:E; try discriminate.
    destruct (e_mpfail e); [|destruct (mpsup c)]; intros H; inversion H; subst; try apply fs_refl.
    intros q Hq. rewrite set_nth_eq. destruct (Nat.eqb_spec p q) as [->|]; [congruence|auto].
  Qed.

  Definition hstep (h h' : list cell) : Prop := keeps h h' /\ freed_stays h h'.
  Lemma hstep_refl h : hstep h h.
  Proof. split; [apply keeps_refl|apply fs_refl]. Qed.
  Lemma hstep_trans h1 h2 h3 : hstep h1 h2 -> hstep h2 h3 -> hstep h1 h3.
  Proof.
    intros [A B] [C D]. split; [eapply keeps_trans; eauto|]. intros p Hp; auto.
  Qed.
  Lemma hstep_snoc h x : hstep h (h ++ [x]).
  Proof. split; [apply keeps_snoc|apply fs_snoc]. Qed.
  Lemma hstep_mprotect e h p np h' t : mprotect c e h p np = Ok (h', t) -> hstep h h'.
  Proof. split; [eapply keeps_mprotect|eapply fs_mprotect]; eauto. Qed.
  Lemma hstep_free h p q : sfree h p = Ok q -> hstep h q.
  Proof. split; [eapply keeps_free|eapply fs_free]; eauto. Qed.

  Lemma finish_ctor_hstep e s b v : hstep (heap s) (heap (fst (finish_ctor c e s b v))).
  Proof.
    unfold finish_ctor. destruct (memlock c); [|apply hstep_snoc].
    destruct (mprotect c e (heap s ++ [Live b PRW]) (length (heap s)) PNA) as [[h' t]| | | |] eqn:E; try apply hstep_refl.
    destruct t; simpl; (eapply hstep_trans; [apply hstep_snoc|eapply hstep_mprotect; eauto]).
  Qed.
  Lemma unlock_hstep e s i k : hstep (heap s) (heap (fst (unlock c e s i k))).
  Proof.
    unfold unlock. destruct (memlock c); [|apply hstep_refl]. destruct (kptr k) as [p|]; [|apply hstep_refl].
    destruct (klocked k); [|apply hstep_refl].
    destruct (mprotect c e (heap s) p PRO) as [[h' t]| | | |] eqn:E; try apply hstep_refl.
    destruct t; simpl; eapply hstep_mprotect; eauto.
  Qed.
  Lemma lock_hstep e s i k : hstep (heap s) (heap (fst (lock c e s i k))).
  Proof.
    unfold lock. destruct (memlock c); [|apply hstep_refl]. destruct (kptr k) as [p|]; [|apply hstep_refl].
    destruct (klocked k); [apply hstep_refl|].
    destruct (mprotect c e (heap s) p PNA) as [[h' t]| | | |] eqn:E; try apply hstep_refl.
    destruct t; simpl; eapply hstep_mprotect; eauto.
  Qed.
  Lemma step_hstep s eo : hstep (heap s) (heap (fst (step c N s eo))).
  Proof.
    destruct eo as [e o].
    destruct o as [| buf | f | i | i j | i | i | i | i | i | i | i | i | i ]; simpl;
      try (destruct (get_obj s i) as [k|] eqn:Ek; [|apply hstep_refl]).
    - unfold ctor_default. destruct (e_alloc e); [apply finish_ctor_hstep|apply hstep_refl].
    - unfold ctor_buf. destruct buf as [b|]; [|apply hstep_refl]. destruct (e_alloc e); [|apply hstep_refl].
      destruct (rd b 0 (Z.of_nat N)); try apply hstep_refl. destruct (wr b 0 (zeros N)); try apply hstep_refl. apply finish_ctor_hstep.
    - unfold ctor_callback. destruct (e_alloc e); [|apply hstep_refl]. destruct f; [apply finish_ctor_hstep|apply hstep_snoc].
    - apply hstep_refl.
    - destruct (get_obj s j) as [kj|]; [|apply hstep_refl]. unfold move_assign. destruct (Nat.eqb i j); [apply hstep_refl|].
      destruct (kptr k) as [p|]; [|apply hstep_refl]. destruct (sfree (heap s) p) eqn:E; try apply hstep_refl. simpl. eapply hstep_free; eauto.
    - unfold release. destruct (kptr k) as [p|]; [|apply hstep_refl]. destruct (sfree (heap s) p) eqn:E; try apply hstep_refl. simpl. eapply hstep_free; eauto.
    - unfold release. destruct (kptr k) as [p|]; [|apply hstep_refl]. destruct (sfree (heap s) p) eqn:E; try apply hstep_refl. simpl. eapply hstep_free; eauto.
    - apply lock_hstep.
    - apply unlock_hstep.
    - apply hstep_refl.
    - apply hstep_refl.
    - unfold data, deref. destruct (is_locked c k); [apply hstep_refl|]. destruct (kptr k) as [p|]; [|apply hstep_refl]. destruct (read_cell (heap s) p); apply hstep_refl.
    - unfold unlock_get. destruct (kptr k) as [p|]; [|apply hstep_refl]. pose proof (unlock_hstep e s i k) as Hu.
      destruct (unlock c e s i k) as [s' [v| | | |]]; auto. unfold deref. destruct (read_cell (heap s') p); auto.
    - unfold serialize. destruct (kptr k) as [p|]; [|apply hstep_refl]. destruct (is_locked c k); [apply hstep_refl|]. destruct (read_cell (heap s) p); apply hstep_refl.
  Qed.
  Lemma run_hstep ops s : hstep (heap s) (heap (fst (run c N s ops))).
  Proof.
    revert s; induction ops as [|eo ops IH]; intros s; simpl; [apply hstep_refl|].
    pose proof (step_hstep s eo) as H1. destruct (step c N s eo) as [s1 v]; simpl in *. specialize (IH s1).
    destruct (run c N s1 ops) as [s2 vs]; simpl in *. eapply hstep_trans; eauto.
  Qed.

  Lemma content_stable s ops p b pr :
    nth_error (heap s) p = Some (Live b pr) ->
    nth_error (heap (fst (run c N s ops))) p = Some Freed \/
    exists pr', nth_error (heap (fst (run c N s ops))) p = Some (Live b pr').
  Proof. intros H. destruct (run_hstep ops s) as [Hk _]. eapply Hk; eauto. Qed.

  (** moved-from / erased objects *)
  Lemma set_nth_nth {A} (l : list A) i x d : (i < length l)%nat -> nth i (set_nth l i x) d = x.
  Proof. intros H. apply nth_error_nth. apply set_nth_same; assumption. Qed.

  Lemma emptied_throws s i k e o e' :
    reachable c N s -> get_obj s i = Some k -> empties i o ->
    (match o with OAssign a _ => get_obj s a <> None | _ => True end) ->
    let s' := fst (step c N s (e, o)) in
    snd (step c N s' (e', OUnlockGet i)) = Throw RuntimeError /\
    snd (step c N s' (e', OSerialize i)) = Throw RuntimeError /\
    snd (step c N s' (e', OData i)) = (if memlock c then Throw RuntimeError else Ok (VPtr None)) /\
    snd (step c N s' (e', OIsEmpty i)) = Ok (VBool true).
  Proof.
    intros Hr Hk He Ha s'. destruct (reachable_inv _ Hr) as [ss HI].
    assert (op_ok N (e, o)) as Hok1 by (destruct o; simpl in *; try contradiction; exact I).
    destruct (step_inv c N s ss (e, o) Hok1 HI) as (_ & HI' & _). fold s' in HI'.
    pose proof (get_obj_nth _ _ _ Hk) as Hn. destruct (Inv_partner _ _ _ _ _ HI Hn) as (so & Hs & HR).
    pose proof (lt_of_nth _ _ _ Hs) as Hlt.
    assert (s_get (fst (s_step c N ss (e, o))) i = SEmpty) as HE.
    { destruct o as [| | | j | a j | j | | | | | | | | ]; simpl in He; try contradiction.
      - subst j. simpl. rewrite (s_get_some _ _ _ Hs).
        inversion HR; subst; simpl; unfold s_get; rewrite app_nth1 by (rewrite set_nth_length; assumption); apply set_nth_nth; assumption.
      - destruct He as [-> Hai]. simpl. rewrite (s_get_some _ _ _ Hs).
        destruct (get_obj s a) as [ka|] eqn:Eka; [|congruence]. pose proof (get_obj_nth _ _ _ Eka) as Hna.
        destruct (Inv_partner _ _ _ _ _ HI Hna) as (soa & Hsa & HRa). rewrite (s_get_some _ _ _ Hsa).
        replace (Nat.eqb a i) with false by (symmetry; apply Nat.eqb_neq; assumption).
        inversion HR; subst; inversion HRa; subst; simpl; unfold s_get; apply set_nth_nth; rewrite set_nth_length; assumption.
      - subst j. simpl. rewrite (s_get_some _ _ _ Hs). inversion HR; subst; simpl; unfold s_get; apply set_nth_nth; assumption. }
    assert (forall o', match o' with OFromBuf _ => False | _ => True end -> op_ok N (e', o')) as Hok' by (intros []; simpl; tauto).
    assert (forall o', match o' with OFromBuf _ => False | _ => True end ->
       snd (step c N s' (e', o')) = snd (s_step c N (fst (s_step c N ss (e, o))) (e', o'))) as Hout.
    { intros o' Ho'. apply step_inv; auto. }
    rewrite !Hout by exact I. remember (fst (s_step c N ss (e, o))) as ss'. cbn [s_step]. rewrite HE. simpl. auto.
  Qed.

  (** C03: idempotence and reads *)
  Lemma is_locked_step s ss i k so : Inv c s ss -> nth_error (objs s) i = Some (Some k) -> nth_error ss i = Some so ->
    objR c (heap s) (Some k) so -> is_locked c k = match so with SKey _ l => l | _ => memlock c end.
  Proof.
    intros HI Hn Hs HR. unfold is_locked. inversion HR as [|l Hl|p l b lk pr Hcell Hl1 Hl2 Hpr]; subst; simpl; destruct (memlock c); auto.
    symmetry; auto.
  Qed.

  Lemma reads_iff_unlocked s i k e p :
    reachable c N s -> get_obj s i = Some k -> kptr k = Some p ->
    (is_locked c k = true -> snd (step c N s (e, OData i)) = Throw RuntimeError /\ snd (step c N s (e, OSerialize i)) = Throw RuntimeError) /\
    (is_locked c k = false -> exists b pr, nth_error (heap s) p = Some (Live b pr) /\
        snd (step c N s (e, OData i)) = Ok (VPtr (Some b)) /\ snd (step c N s (e, OSerialize i)) = Ok (VBytes b)).
  Proof.
    intros Hr Hk Hp. destruct (reachable_inv _ Hr) as [ss HI]. pose proof (get_obj_nth _ _ _ Hk) as Hn.
    destruct (Inv_partner _ _ _ _ _ HI Hn) as (so & Hs & HR).
    destruct (step_inv c N s ss (e, OData i) I HI) as (H1 & _ & _).
    destruct (step_inv c N s ss (e, OSerialize i) I HI) as (H2 & _ & _).
    rewrite H1, H2. cbn [s_step]. rewrite (s_get_some _ _ _ Hs).
    rewrite (is_locked_step _ _ _ _ _ HI Hn Hs HR).
    inversion HR as [|l Hl|p' l b lk pr Hcell Hl1 Hl2 Hpr]; subst; simpl in Hp; try discriminate. inversion Hp; subst p'.
    split; intros ->; simpl; eauto 6.
  Qed.


  Lemma unlock_get_ok s i k e :
    reachable c N s -> get_obj s i = Some k -> e_mpfail e = false ->
    match kptr k with
    | None => snd (step c N s (e, OUnlockGet i)) = Throw RuntimeError
    | Some p => exists b pr, nth_error (heap s) p = Some (Live b pr) /\ snd (step c N s (e, OUnlockGet i)) = Ok (VPtr (Some b))
    end.
  Proof.
    intros Hr Hk He. destruct (reachable_inv _ Hr) as [ss HI]. pose proof (get_obj_nth _ _ _ Hk) as Hn.
    destruct (Inv_partner _ _ _ _ _ HI Hn) as (so & Hs & HR).
    destruct (step_inv c N s ss (e, OUnlockGet i) I HI) as (H1 & _ & _). rewrite H1. cbn [s_step]. rewrite (s_get_some _ _ _ Hs).
    inversion HR as [|l Hl|p' l b lk pr Hcell Hl1 Hl2 Hpr]; subst; simpl; auto.
    exists b, pr. split; auto. rewrite He. destruct lk; reflexivity.
  Qed.

  Lemma lock_unlock_effect s i k e :
    reachable c N s -> get_obj s i = Some k -> e_mpfail e = false -> memlock c = true -> kptr k <> None ->
    let s1 := fst (step c N s (e, OLock i)) in
    let s2 := fst (step c N s (e, OUnlock i)) in
    (exists k1, get_obj s1 i = Some k1 /\ is_locked c k1 = true /\ kptr k1 = kptr k /\ forall e', fst (step c N s1 (e', OLock i)) = s1) /\
    (exists k2, get_obj s2 i = Some k2 /\ is_locked c k2 = false /\ kptr k2 = kptr k /\ forall e', fst (step c N s2 (e', OUnlock i)) = s2).
  Proof.
    intros Hr Hk He Hm Hp. destruct (reachable_inv _ Hr) as [ss HI]. pose proof (get_obj_nth _ _ _ Hk) as Hn.
    destruct (Inv_partner _ _ _ _ _ HI Hn) as (so & Hs & HR).
    assert (forall o l h, nth_error (set_nth o i (Some l)) i = Some (Some l) -> get_obj (mkS h (set_nth o i (Some l))) i = Some l) as Hget.
    { intros o l h H. unfold get_obj; simpl. rewrite H. reflexivity. }
    pose proof (lt_of_nth _ _ _ Hn) as Hlt.
    inversion HR as [|l Hl|p' l b lk pr Hcell Hl1 Hl2 Hpr]; subst; simpl in Hp; [congruence|].
    cbn [step fst snd]. rewrite Hk.
    assert (exists h1, fst (lock c e s i (mkK (Some p') l)) = if l then s else mkS h1 (set_nth (objs s) i (Some (mkK (Some p') true)))) as [h1 ->].
    { unfold lock; cbn [kptr klocked]. rewrite Hm. unfold mprotect. rewrite Hcell, He. destruct l; [exists []; reflexivity|].
      destruct (mpsup c); eexists; reflexivity. }
    assert (exists h1, fst (unlock c e s i (mkK (Some p') l)) = if l then mkS h1 (set_nth (objs s) i (Some (mkK (Some p') false))) else s) as [h2 ->].
    { unfold unlock; cbn [kptr klocked]. rewrite Hm. unfold mprotect. rewrite Hcell, He. destruct l; [|exists []; reflexivity].
      destruct (mpsup c); eexists; reflexivity. }
    assert (forall (s0 : st) k0, get_obj s0 i = Some k0 -> klocked k0 = true -> forall e',
      fst (match get_obj s0 i with Some k => lock c e' s0 i k | None => (s0, Ok VUnit) end) = s0) as HL.
    { intros s0 k0 E0 E1 e'. rewrite E0. unfold lock. rewrite Hm, E1. destruct (kptr k0); reflexivity. }
    assert (forall (s0 : st) k0, get_obj s0 i = Some k0 -> klocked k0 = false -> forall e',
      fst (match get_obj s0 i with Some k => unlock c e' s0 i k | None => (s0, Ok VUnit) end) = s0) as HU.
    { intros s0 k0 E0 E1 e'. rewrite E0. unfold unlock. rewrite Hm, E1. destruct (kptr k0); reflexivity. }
    unfold is_locked. rewrite Hm.
    split.
    - destruct l; simpl.
      + exists (mkK (Some p') true). split; [exact Hk|]. split; [reflexivity|]. split; [reflexivity|]. intros e'. eapply HL; [exact Hk|reflexivity].
      + exists (mkK (Some p') true); (split; [apply Hget; apply set_nth_same; assumption|]; split; [reflexivity|]; split; [reflexivity|];
          eapply HL; [apply Hget; apply set_nth_same; assumption|reflexivity]).
    - destruct l; simpl.
      + exists (mkK (Some p') false); (split; [apply Hget; apply set_nth_same; assumption|]; split; [reflexivity|]; split; [reflexivity|];
          eapply HU; [apply Hget; apply set_nth_same; assumption|reflexivity]).
      + exists (mkK (Some p') false). split; [exact Hk|]. split; [reflexivity|]. split; [reflexivity|]. intros e'. eapply HU; [exact Hk|reflexivity].
  Qed.

  (** constructors *)
  Lemma ctor_holds s eo b v :
    reachable c N s -> op_ok N eo ->
    (forall ss, snd (s_step c N ss eo) = Ok v /\ fst (s_step c N ss eo) = ss ++ [SKey b (memlock c)]) ->
    snd (step c N s eo) = Ok v /\ fresh_holds c N s (fst (step c N s eo)) b.
  Proof.
    intros Hr Hok Hspec. destruct (reachable_inv _ Hr) as [ss HI].
    destruct (step_inv c N s ss eo Hok HI) as (H1 & HI' & _). destruct (Hspec ss) as [Hv Hs]. rewrite Hv in H1. split; [assumption|].
    rewrite Hs in HI'. set (s' := fst (step c N s eo)) in *.
    assert (nth_error (ss ++ [SKey b (memlock c)]) (length (objs s)) = Some (SKey b (memlock c))) as Hn.
    { rewrite nth_error_snoc, (I_len _ _ _ HI), Nat.eqb_refl; reflexivity. }
    assert (exists o, nth_error (objs s') (length (objs s)) = Some o) as [o Ho].
    { destruct (nth_error (objs s') (length (objs s))) eqn:E; [eauto|]. apply nth_error_None in E.
      pose proof (I_len _ _ _ HI') as HL. rewrite app_length in HL; simpl in HL. rewrite (I_len _ _ _ HI) in E. lia. }
    pose proof (I_rel _ _ _ HI' _ _ _ Ho Hn) as HR. inversion HR as [|l Hl|p l b0 lk pr Hcell Hl1 Hl2 Hpr]; subst.
    eexists. split; [unfold get_obj; rewrite Ho; reflexivity|]. split.
    - rewrite (is_locked_step s' _ _ _ _ HI' Ho Hn HR). reflexivity.
    - intros e He. destruct (step_inv c N s' _ (e, OUnlockGet (length (objs s))) I HI') as (H2 & _ & _). rewrite H2.
      cbn [s_step]. rewrite (s_get_some _ _ _ Hn), He. destruct (memlock c); reflexivity.
  Qed.

  Lemma from_buffer s e b :
    reachable c N s -> (N <= length b)%nat -> e_alloc e = true -> e_mpfail e = false ->
    snd (step c N s (e, OFromBuf (Some b))) = Ok (VBuf (zeros N ++ skipn N b)) /\
    fresh_holds c N s (fst (step c N s (e, OFromBuf (Some b)))) (firstn N b).
  Proof.
    intros Hr Hl Ha Hf. apply ctor_holds; auto. intros ss. simpl. rewrite Ha. unfold s_ctor. rewrite Hf, andb_false_r. auto.
  Qed.
  Lemma default_random s e :
    memlock c = true -> reachable c N s -> e_alloc e = true -> e_mpfail e = false ->
    fresh_holds c N s (fst (step c N s (e, ONew))) (e_rnd e).
  Proof.
    intros Hm Hr Ha Hf. apply (ctor_holds s (e, ONew) (e_rnd e) VUnit); auto; [exact I|].
    intros ss. simpl. rewrite Ha. unfold s_ctor. rewrite Hf, andb_false_r, Hm. auto.
  Qed.
End Key3.

Lemma ctor_failures c N s e o s' x :
  (o = ONew \/ (exists b, o = OFromBuf b) \/ (exists f, o = OCallback f)) -> step c N s (e, o) = (s', Throw x) ->
  objs s' = objs s /\
  (e_alloc e = true /\ o <> OFromBuf None /\ (o = OCallback None \/ memlock c = true /\ e_mpfail e = true) /\
     (exists b, heap s' = heap s ++ [Live b PRW]) \/
   (e_alloc e = false \/ o = OFromBuf None) /\ s' = s).
Proof.
  assert (FC : forall b v, finish_ctor c e s b v = (s', Throw x) ->
    objs s' = objs s /\ (memlock c = true /\ e_mpfail e = true) /\ heap s' = heap s ++ [Live b PRW]).
  { intros b v. unfold finish_ctor, mprotect. rewrite nth_error_app2, Nat.sub_diag by lia. cbn [nth_error].
    destruct (memlock c); [|discriminate]. destruct (e_mpfail e); [|destruct (mpsup c); discriminate]. injection 1 as <- _. cbn. auto. }
  intros [->|[[[b|] ->]|[[f|] ->]]]; cbn [step]; unfold ctor_default, ctor_buf, ctor_callback; destruct (e_alloc e);
    try (injection 1 as <- _; split; [reflexivity|]; right; split; [auto|reflexivity]).
  - intros H. destruct (FC _ _ H) as (A & B & C). split; [exact A|]. left. repeat split; try discriminate; eauto.
  - destruct (rd b 0 (Z.of_nat N)) as [k| | | |]; try discriminate. destruct (wr b 0 (zeros N)) as [b'| | | |]; try discriminate.
    intros H. destruct (FC _ _ H) as (A & B & C). split; [exact A|]. left. repeat split; try discriminate; eauto.
  - intros H. destruct (FC _ _ H) as (A & B & C). split; [exact A|]. left. repeat split; try discriminate; eauto.
  - injection 1 as <- _. split; [reflexivity|]. left. cbn. repeat split; try discriminate; eauto.
Qed.
