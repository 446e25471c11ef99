(** Consequences of the Key invariant over whole programs. *)
From Verif Require Import BaseFacts KeyModel KeySpec KeyProofs.

Section Key2.
  Variable c : cfg.
  Variable N : nat.

  Lemma run_inv ops : forall s ss, Forall (op_ok N) ops -> Inv c s ss ->
    snd (run c N s ops) = snd (s_run c N ss ops) /\
    Inv c (fst (run c N s ops)) (fst (s_run c N ss ops)) /\
    ~ In UB (snd (run c N s ops)).
  Proof.
    induction ops as [|eo ops IH]; intros s ss Hok HI; simpl.
    - repeat split; auto; apply HI.
    - inversion Hok as [|? ? Hh Ht]; subst. destruct (step_inv c N s ss eo) as (H1 & H2 & H3); auto.
      destruct (step c N s eo) as [s1 v]; destruct (s_step c N ss eo) as [ss1 v']; simpl in *; subst v'.
      destruct (IH s1 ss1) as (H4 & H5 & H6); auto.
      destruct (run c N s1 ops) as [s2 vs]; destruct (s_run c N ss1 ops) as [ss2 vs']; simpl in *; subst vs'.
      repeat split; auto; try apply H5. intros [Hu|Hu]; auto.
  Qed.

  Definition NoLeak (s : st) : Prop :=
    forall p b pr, nth_error (heap s) p = Some (Live b pr) ->
      exists i o, nth_error (objs s) i = Some o /\ ptr_of o = Some p.

  (** the cells of [h'] that are live are live in [h] *)
  Definition shrinks (h' h : list cell) : Prop :=
    forall p b pr, nth_error h' p = Some (Live b pr) -> exists b0 pr0, nth_error h p = Some (Live b0 pr0).

  Lemma shrinks_free h p : shrinks (set_nth h p Freed) h.
  Proof.
    intros q b pr. rewrite set_nth_eq. destruct (Nat.eqb p q); [destruct (Nat.ltb p (length h)); discriminate|eauto].
  Qed.
  Lemma shrinks_set h p b pr b' pr' : nth_error h p = Some (Live b pr) -> shrinks (set_nth h p (Live b' pr')) h.
  Proof.
    intros H q b1 pr1. rewrite set_nth_eq. destruct (Nat.eqb_spec p q) as [->|]; eauto.
  Qed.
  Lemma shrinks_refl h : shrinks h h.
  Proof. intros p b pr; eauto. Qed.

  Lemma NoLeak_set s i oi o' h' :
    NoLeak s -> nth_error (objs s) i = Some oi -> shrinks h' (heap s) ->
    (forall p b pr, ptr_of oi = Some p -> nth_error h' p = Some (Live b pr) -> ptr_of o' = Some p) ->
    NoLeak (mkS h' (set_nth (objs s) i o')).
  Proof.
    intros HN Hi Hsh Ho p b pr Hp. simpl in *.
    destruct (Hsh _ _ _ Hp) as (b0 & pr0 & H0). destruct (HN _ _ _ H0) as (j & oj & Hj & Hpj).
    destruct (Nat.eq_dec i j) as [<-|Hne].
    - exists i, o'. rewrite set_nth_same by (eapply lt_of_nth; eauto). split; [reflexivity|].
      replace oj with oi in Hpj by congruence. eauto.
    - exists j, oj. rewrite set_nth_other by assumption. auto.
  Qed.

  Lemma sfree_gone h p q b pr : sfree h p = Ok q -> nth_error q p = Some (Live b pr) -> False.
  Proof.
    unfold sfree. destruct (nth_error h p) as [[|b1 pr1]|] eqn:E; try discriminate.
    intros H; inversion H; subst. rewrite set_nth_same by (eapply lt_of_nth; eauto). discriminate.
  Qed.
  Lemma sfree_shrinks h p q : sfree h p = Ok q -> shrinks q h.
  Proof.
    unfold sfree. destruct (nth_error h p) as [[|b1 pr1]|] eqn:E; try discriminate.
    intros H; inversion H; subst. apply shrinks_free.
  Qed.
  Lemma mprotect_shrinks e h p np h' t : mprotect c e h p np = Ok (h', t) -> shrinks h' h.
  Proof.
    unfold mprotect. destruct (nth_error h p) as [[|b1 pr1]|] eqn:E; try discriminate.
    destruct (e_mpfail e); [|destruct (mpsup c)]; intros H; inversion H; subst; try apply shrinks_refl.
    eapply shrinks_set; eauto.
  Qed.

  Lemma NoLeak_publish s b pr l : NoLeak s ->
    NoLeak (mkS (heap s ++ [Live b pr]) (objs s ++ [Some (mkK (Some (length (heap s))) l)])).
  Proof.
    intros HN p b0 pr0. simpl. rewrite nth_error_snoc. destruct (Nat.eqb_spec p (length (heap s))) as [->|Hne].
    - intros _. exists (length (objs s)), (Some (mkK (Some (length (heap s))) l)). rewrite nth_error_snoc, Nat.eqb_refl.
      auto.
    - intros Hp. destruct (HN _ _ _ Hp) as (i & o & Hi & Ho). exists i, o.
      rewrite nth_error_app1 by (eapply lt_of_nth; eauto). auto.
  Qed.

  Lemma finish_ctor_noleak e s b v : e_mpfail e = false -> NoLeak s -> NoLeak (fst (finish_ctor c e s b v)).
  Proof.
    intros Hf HN. unfold finish_ctor, mprotect. destruct (memlock c); [|apply NoLeak_publish; assumption].
    rewrite nth_error_snoc, Nat.eqb_refl, Hf. destruct (mpsup c); simpl; [|apply NoLeak_publish; assumption].
    replace (set_nth (heap s ++ [Live b PRW]) (length (heap s)) (Live b PNA)) with (heap s ++ [Live b PNA]).
    2:{ clear. induction (heap s) as [|y l IH]; simpl; [reflexivity|rewrite IH; reflexivity]. }
    apply NoLeak_publish; assumption.
  Qed.

  Lemma lock_noleak e s i k : nth_error (objs s) i = Some (Some k) -> NoLeak s -> NoLeak (fst (lock c e s i k)).
  Proof.
    intros Hk HN. unfold lock. destruct (memlock c); auto. destruct (kptr k) as [p|] eqn:Ep; auto.
    destruct (klocked k); auto.
    destruct (mprotect c e (heap s) p PNA) as [[h' t]| | | |] eqn:Em; auto.
    pose proof (mprotect_shrinks _ _ _ _ _ _ Em) as Hsh. destruct t; simpl.
    - intros q b pr Hq. simpl in Hq. destruct (Hsh _ _ _ Hq) as (b0 & pr0 & H0). eapply HN; eauto.
    - eapply NoLeak_set; eauto. simpl. congruence.
  Qed.
  Lemma unlock_noleak e s i k : nth_error (objs s) i = Some (Some k) -> NoLeak s -> NoLeak (fst (unlock c e s i k)).
  Proof.
    intros Hk HN. unfold unlock. destruct (memlock c); auto. destruct (kptr k) as [p|] eqn:Ep; auto.
    destruct (klocked k); auto.
    destruct (mprotect c e (heap s) p PRO) as [[h' t]| | | |] eqn:Em; auto.
    pose proof (mprotect_shrinks _ _ _ _ _ _ Em) as Hsh. destruct t; simpl.
    - intros q b pr Hq. simpl in Hq. destruct (Hsh _ _ _ Hq) as (b0 & pr0 & H0). eapply HN; eauto.
    - eapply NoLeak_set; eauto. simpl. congruence.
  Qed.

  Lemma step_noleak s eo : op_noleak eo -> NoLeak s -> NoLeak (fst (step c N s eo)).
  Proof.
    destruct eo as [e o]; intros Hop HN.
    destruct o as [| buf | f | i | i j | i | i | i | i | i | i | i | i | i ]; simpl in *; unfold op_noleak in Hop; simpl in Hop;
      try (destruct (get_obj s i) as [k|] eqn:Ek; [apply get_obj_nth in Ek|exact HN]).
    - unfold ctor_default. destruct (e_alloc e); [apply finish_ctor_noleak|]; auto.
    - unfold ctor_buf. destruct buf as [b|]; auto. destruct (e_alloc e); auto.
      destruct (rd b 0 (Z.of_nat N)); auto. destruct (wr b 0 (zeros N)); auto. apply finish_ctor_noleak; auto.
    - unfold ctor_callback. destruct Hop as [H1 H2]. destruct (e_alloc e); auto. destruct f as [b|]; [|congruence].
      apply finish_ctor_noleak; auto.
    - intros p b pr. simpl. intros Hp. destruct (HN _ _ _ Hp) as (m & o & Hm & Ho).
      destruct (Nat.eq_dec i m) as [<-|Hne].
      + exists (length (objs s)). eexists. rewrite nth_error_snoc, set_nth_length, Nat.eqb_refl. split; [reflexivity|].
        simpl. replace o with (Some k) in Ho by congruence. assumption.
      + exists m, o. rewrite nth_error_app1 by (rewrite set_nth_length; eapply lt_of_nth; eauto).
        rewrite set_nth_other by assumption. auto.
    - destruct (get_obj s j) as [kj|] eqn:Ekj; [apply get_obj_nth in Ekj|exact HN].
      unfold move_assign. destruct (Nat.eqb_spec i j) as [->|Hij]; [exact HN|].
      destruct (match kptr k with Some p => sfree (heap s) p | None => Ok (heap s) end) as [h| | | |] eqn:Ef; auto.
      intros p b pr. simpl. intros Hp.
      assert (shrinks h (heap s)) as Hsh.
      { destruct (kptr k); [eapply sfree_shrinks; eauto|inversion Ef; apply shrinks_refl]. }
      destruct (Hsh _ _ _ Hp) as (b0 & pr0 & H0). destruct (HN _ _ _ H0) as (m & o & Hm & Ho).
      destruct (Nat.eq_dec m i) as [->|Hmi].
      { exfalso. replace o with (Some k) in Ho by congruence. simpl in Ho. rewrite Ho in Ef. eapply sfree_gone; eauto. }
      destruct (Nat.eq_dec m j) as [->|Hmj].
      { exists i. eexists. rewrite set_nth_other by congruence. rewrite set_nth_same by (eapply lt_of_nth; eauto).
        split; [reflexivity|]. simpl. replace o with (Some kj) in Ho by congruence. assumption. }
      exists m, o. rewrite !set_nth_other by congruence. auto.
    - unfold release. destruct (kptr k) as [p|] eqn:Ep; [|destruct s; exact HN].
      destruct (sfree (heap s) p) as [h| | | |] eqn:Ef; auto. simpl.
      eapply NoLeak_set; eauto; [eapply sfree_shrinks; eauto|].
      simpl. intros q b pr Hq Hl. exfalso. replace q with p in Hl by congruence. eapply sfree_gone; eauto.
    - unfold release. destruct (kptr k) as [p|] eqn:Ep.
      + destruct (sfree (heap s) p) as [h| | | |] eqn:Ef; auto. simpl.
        eapply NoLeak_set; eauto; [eapply sfree_shrinks; eauto|].
        simpl. intros q b pr Hq Hl. exfalso. replace q with p in Hl by congruence. eapply sfree_gone; eauto.
      + simpl. eapply NoLeak_set; eauto using shrinks_refl. simpl; congruence.
    - apply lock_noleak; assumption.
    - apply unlock_noleak; assumption.
    - exact HN.
    - exact HN.
    - unfold data, deref. destruct (is_locked c k); auto. destruct (kptr k) as [p|]; auto. destruct (read_cell (heap s) p); auto.
    - unfold unlock_get. destruct (kptr k) as [p|] eqn:Ep; auto. pose proof (unlock_noleak e s i k Ek HN) as Hu.
      destruct (unlock c e s i k) as [s' [v| | | |]]; auto. unfold deref. destruct (read_cell (heap s') p); auto.
    - unfold serialize. destruct (kptr k) as [p|]; auto. destruct (is_locked c k); auto. destruct (read_cell (heap s) p); auto.
  Qed.
  Lemma run_noleak ops : forall s, Forall op_noleak ops -> NoLeak s -> NoLeak (fst (run c N s ops)).
  Proof.
    induction ops as [|eo ops IH]; intros s Hok HN; simpl; auto.
    inversion Hok; subst. pose proof (step_noleak s eo ltac:(assumption) HN) as H3.
    destruct (step c N s eo) as [s1 v]; simpl in *. pose proof (IH s1 ltac:(assumption) H3) as H4.
    destruct (run c N s1 ops) as [s2 vs]; assumption.
  Qed.
  Lemma NoLeak_init : NoLeak init_st.
  Proof. intros [|p] b pr H; discriminate. Qed.

  Lemma owns_nth s i p : owns s i p <-> exists o, nth_error (objs s) i = Some o /\ ptr_of o = Some p.
  Proof.
    unfold owns. split.
    - intros (k & Hk & Hp). apply get_obj_nth in Hk. exists (Some k); auto.
    - intros ([k|] & Ho & Hp); simpl in Hp; [|discriminate]. exists k. unfold get_obj. rewrite Ho. auto.
  Qed.

  (** C01 *)
  Lemma ownership ops s vs :
    Forall (op_ok N) ops -> run c N init_st ops = (s, vs) ->
    ~ In UB vs /\
    (forall i j p, owns s i p -> owns s j p -> i = j) /\
    (forall i p, owns s i p -> live s p) /\
    (Forall op_noleak ops ->
       (forall p, live s p -> exists i, owns s i p) /\
       ((forall i, get_obj s i = None) -> Forall (fun x => x = Freed) (heap s))).
  Proof.
    intros Hok Hr. destruct (run_inv ops init_st [] Hok (Inv_init c)) as (_ & HI & HU).
    rewrite Hr in *; simpl in *. split; [assumption|]. split; [|split].
    - intros i j p Hi Hj. apply owns_nth in Hi; apply owns_nth in Hj.
      destruct Hi as (oi & Hi & Pi). destruct Hj as (oj & Hj & Pj). eapply (I_inj _ _ _ HI i j); eauto.
    - intros i p Hi. apply owns_nth in Hi. destruct Hi as (oi & Hi & Pi).
      destruct (Inv_partner _ _ _ _ _ HI Hi) as (so & _ & HR). unfold live. inversion HR; subst; simpl in Pi; try discriminate.
      inversion Pi; subst; eauto.
    - intros Hnl. pose proof (run_noleak ops init_st Hnl NoLeak_init) as HN. rewrite Hr in HN; simpl in HN.
      assert (forall p, live s p -> exists i, owns s i p) as HL.
      { intros p (b & pr & Hp). destruct (HN _ _ _ Hp) as (i & o & Hi & Ho). exists i. apply owns_nth. eauto. }
      split; [exact HL|]. intros Hdead. apply Forall_forall. intros x Hx. apply In_nth_error in Hx.
      destruct Hx as (p & Hp). destruct x as [|b pr]; [reflexivity|].
      destruct (HL p) as (i & k & Hk & _); [exists b, pr; assumption|]. rewrite Hdead in Hk; discriminate.
  Qed.

  (** C02 *)
  Lemma refinement ops : Forall (op_ok N) ops ->
    snd (run c N init_st ops) = snd (s_run c N [] ops).
  Proof. intros Hok. apply (run_inv ops init_st [] Hok (Inv_init c)). Qed.

  (** C03 *)
  Lemma lock_flag ops s vs i k p :
    memlock c = true -> mpsup c = true ->
    Forall (op_ok N) ops -> run c N init_st ops = (s, vs) ->
    get_obj s i = Some k -> kptr k = Some p ->
    (is_locked c k = true <-> exists b, nth_error (heap s) p = Some (Live b PNA)) /\
    (is_locked c k = false <-> exists b, nth_error (heap s) p = Some (Live b PRO)).
  Proof.
    intros Hm Hs Hok Hr Hk Hp. destruct (run_inv ops init_st [] Hok (Inv_init c)) as (_ & HI & _).
    rewrite Hr in *; simpl in *. apply get_obj_nth in Hk.
    destruct (Inv_partner _ _ _ _ _ HI Hk) as (so & _ & HR). inversion HR as [|l Hl|p' l b lk pr Hcell Hl1 Hl2 Hpr]; subst; simpl in *; try discriminate.
    inversion Hp; subst p'. unfold is_locked; rewrite Hm; simpl. rewrite (Hl1 Hm). unfold prot_ok in Hpr; rewrite Hm, Hs in Hpr; simpl in Hpr.
    subst pr. destruct lk; split; split; eauto; try discriminate; intros (b' & Hb'); congruence.
  Qed.

  Lemma run_app ops1 ops2 s : run c N s (ops1 ++ ops2) =
    let '(s1, v1) := run c N s ops1 in let '(s2, v2) := run c N s1 ops2 in (s2, v1 ++ v2).
  Proof.
    revert s; induction ops1 as [|o ops1 IH]; intros s; simpl.
    - destruct (run c N s ops2); reflexivity.
    - destruct (step c N s o) as [s1 v]. rewrite IH. destruct (run c N s1 ops1) as [s2 v2].
      destruct (run c N s2 ops2); reflexivity.
  Qed.
  Lemma s_run_app ops1 ops2 s : s_run c N s (ops1 ++ ops2) =
    let '(s1, v1) := s_run c N s ops1 in let '(s2, v2) := s_run c N s1 ops2 in (s2, v1 ++ v2).
  Proof.
    revert s; induction ops1 as [|o ops1 IH]; intros s; simpl.
    - destruct (s_run c N s ops2); reflexivity.
    - destruct (s_step c N s o) as [s1 v]. rewrite IH. destruct (s_run c N s1 ops1) as [s2 v2].
      destruct (s_run c N s2 ops2); reflexivity.
  Qed.
End Key2.
