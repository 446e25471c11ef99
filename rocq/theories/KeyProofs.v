(** Invariants of the Key model. *)
From Verif Require Import BaseFacts KeyModel KeySpec.

Lemma set_nth_length {A} (l : list A) n x : length (set_nth l n x) = length l.
Proof. revert n; induction l as [|y l IH]; intros [|n]; simpl; auto. Qed.
Lemma set_nth_same {A} (l : list A) n x : (n < length l)%nat -> nth_error (set_nth l n x) n = Some x.
Proof. revert n; induction l as [|y l IH]; intros [|n] H; simpl in *; try lia; auto. apply IH; lia. Qed.
Lemma set_nth_other {A} (l : list A) n m x : n <> m -> nth_error (set_nth l n x) m = nth_error l m.
Proof. revert n m; induction l as [|y l IH]; intros [|n] [|m] H; simpl; auto; congruence. Qed.
Lemma set_nth_eq {A} (l : list A) n m x :
  nth_error (set_nth l n x) m = if Nat.eqb n m then (if Nat.ltb n (length l) then Some x else None) else nth_error l m.
Proof.
  destruct (Nat.eqb_spec n m) as [->|Hne]; [|apply set_nth_other; assumption].
  destruct (Nat.ltb_spec m (length l)).
  - apply set_nth_same; assumption.
  - apply nth_error_None. rewrite set_nth_length. assumption.
Qed.
Lemma set_nth_id {A} (l : list A) n x : nth_error l n = Some x -> set_nth l n x = l.
Proof. revert n; induction l as [|y l IH]; intros [|n] H; simpl in *; try congruence. rewrite IH; auto. Qed.
Lemma nth_error_snoc {A} (l : list A) x i :
  nth_error (l ++ [x]) i = if Nat.eqb i (length l) then Some x else nth_error l i.
Proof.
  destruct (Nat.eqb_spec i (length l)) as [->|Hne].
  - rewrite nth_error_app2 by lia. rewrite Nat.sub_diag. reflexivity.
  - destruct (Nat.lt_ge_cases i (length l)).
    + apply nth_error_app1; assumption.
    + rewrite (proj2 (nth_error_None l i)) by lia. apply nth_error_None. rewrite app_length; simpl; lia.
Qed.

Section Inv.
  Variable c : cfg.
  Variable N : nat.

  (** protection expected for a lock flag *)
  Definition prot_ok (lk : bool) (pr : prot) : Prop :=
    if memlock c && mpsup c then pr = (if lk then PNA else PRO) else pr = PRW.

  Inductive objR (h : list cell) : option kobj -> sobj -> Prop :=
  | RDead : objR h None SDead
  | REmpty l : (memlock c = true -> l = true) -> objR h (Some (mkK None l)) SEmpty
  | RKey p l b lk pr :
      nth_error h p = Some (Live b pr) ->
      (memlock c = true -> l = lk) -> (memlock c = false -> lk = false) ->
      prot_ok lk pr ->
      objR h (Some (mkK (Some p) l)) (SKey b lk).

  Definition ptr_of (o : option kobj) : option nat := match o with Some k => kptr k | None => None end.

  Record Inv (s : st) (ss : list sobj) : Prop := {
    I_len : length (objs s) = length ss;
    I_rel : forall i o so, nth_error (objs s) i = Some o -> nth_error ss i = Some so -> objR (heap s) o so;
    I_inj : forall i j oi oj p, nth_error (objs s) i = Some oi -> nth_error (objs s) j = Some oj ->
            ptr_of oi = Some p -> ptr_of oj = Some p -> i = j }.

  Lemma Inv_init : Inv init_st [].
  Proof. split; simpl; auto; intros [|i]; simpl; intros; discriminate. Qed.

  (** Frame: a relation survives a heap change that does not touch the cell of the object. *)
  Lemma objR_frame h h' o so :
    objR h o so -> (forall p, ptr_of o = Some p -> nth_error h' p = nth_error h p) -> objR h' o so.
  Proof.
    intros HR Hf. destruct HR; [constructor|constructor; assumption|].
    eapply RKey; eauto. rewrite Hf; simpl; auto.
  Qed.
  Lemma objR_lt h o so p : objR h o so -> ptr_of o = Some p -> (p < length h)%nat.
  Proof.
    intros HR Hp; destruct HR; simpl in Hp; try discriminate. inversion Hp; subst.
    apply nth_error_Some. congruence.
  Qed.
  Lemma Inv_partner s ss i o : Inv s ss -> nth_error (objs s) i = Some o ->
    exists so, nth_error ss i = Some so /\ objR (heap s) o so.
  Proof.
    intros HI Ho. destruct (nth_error ss i) as [so|] eqn:E.
    - exists so; split; [reflexivity|]. eapply I_rel; eauto.
    - apply nth_error_None in E. pose proof (proj1 (nth_error_Some (objs s) i) ltac:(congruence)).
      rewrite (I_len _ _ HI) in *. lia.
  Qed.
  Lemma s_get_some ss i so : nth_error ss i = Some so -> s_get ss i = so.
  Proof. intros H; unfold s_get. apply nth_error_nth; assumption. Qed.

  (** Publishing a new object with a fresh cell. *)
  Lemma Inv_snoc_fresh s ss b pr lk l :
    Inv s ss -> (memlock c = true -> l = lk) -> (memlock c = false -> lk = false) -> prot_ok lk pr ->
    Inv (mkS (heap s ++ [Live b pr]) (objs s ++ [Some (mkK (Some (length (heap s))) l)])) (ss ++ [SKey b lk]).
  Proof.
    intros HI Hl1 Hl2 Hpr. split; simpl.
    - rewrite !app_length, (I_len _ _ HI); reflexivity.
    - intros i o so. rewrite !nth_error_snoc, (I_len _ _ HI).
      destruct (Nat.eqb_spec i (length ss)) as [->|Hne].
      + intros H1 H2; inversion H1; inversion H2; subst. eapply RKey with (pr := pr); auto.
        rewrite nth_error_snoc, Nat.eqb_refl; reflexivity.
      + intros H1 H2. pose proof (I_rel _ _ HI _ _ _ H1 H2) as HR.
        eapply objR_frame; eauto. intros p Hp. apply nth_error_app1. eapply objR_lt; eauto.
    - intros i j oi oj p. rewrite !nth_error_snoc.
      assert (forall k o, nth_error (objs s) k = Some o -> ptr_of o <> Some (length (heap s))) as Hfresh.
      { intros k o Hk Hp. destruct (Inv_partner _ _ _ _ HI Hk) as (so & _ & HR).
        pose proof (objR_lt _ _ _ _ HR Hp). lia. }
      destruct (Nat.eqb_spec i (length (objs s))) as [->|Hi];
      destruct (Nat.eqb_spec j (length (objs s))) as [->|Hj]; intros H1 H2 P1 P2; auto.
      + inversion H1; subst; simpl in P1. inversion P1; subst. exfalso; eapply Hfresh; eauto.
      + inversion H2; subst; simpl in P2. inversion P2; subst. exfalso; eapply Hfresh; eauto.
      + eapply (I_inj _ _ HI); eauto.
  Qed.
  Lemma Inv_heap_snoc s ss x : Inv s ss -> Inv (mkS (heap s ++ [x]) (objs s)) ss.
  Proof.
    intros HI; split; simpl; [apply (I_len _ _ HI)| |apply (I_inj _ _ HI)].
    intros i o so H1 H2. pose proof (I_rel _ _ HI _ _ _ H1 H2) as HR. eapply objR_frame; eauto.
    intros p Hp. apply nth_error_app1. eapply objR_lt; eauto.
  Qed.

  (** Updating one object, with a heap change confined to cells owned by nobody else. *)
  Lemma Inv_set s ss i o' so' h' :
    Inv s ss -> (i < length ss)%nat ->
    objR h' o' so' ->
    (forall j o, j <> i -> nth_error (objs s) j = Some o -> forall p, ptr_of o = Some p ->
       nth_error h' p = nth_error (heap s) p /\ ptr_of o' <> Some p) ->
    Inv (mkS h' (set_nth (objs s) i o')) (set_nth ss i so').
  Proof.
    intros HI Hi HR Hfr. split; simpl.
    - rewrite !set_nth_length. apply (I_len _ _ HI).
    - intros k o so. rewrite !set_nth_eq, (I_len _ _ HI).
      destruct (Nat.eqb_spec i k) as [->|Hne].
      + destruct (Nat.ltb_spec k (length ss)); [|lia].
        intros H1 H2; inversion H1; inversion H2; subst; assumption.
      + intros H1 H2. pose proof (I_rel _ _ HI _ _ _ H1 H2) as HR'. eapply objR_frame; eauto.
        intros p Hp. eapply Hfr; eauto.
    - intros k l ok ol p. rewrite !set_nth_eq, (I_len _ _ HI).
      destruct (Nat.ltb_spec i (length ss)); [|lia].
      destruct (Nat.eqb_spec i k) as [->|Hk]; destruct (Nat.eqb_spec k l) as [->|Hl];
        try (destruct (Nat.eqb_spec i l) as [->|Hl']); intros H1 H2 P1 P2; auto; try congruence.
      + inversion H1; subst. exfalso. assert (l <> k) as Hne by congruence.
        destruct (Hfr l ol Hne H2 p P2) as [_ Hx]. congruence.
      + inversion H2; subst. exfalso. assert (k <> l) as Hne by congruence.
        destruct (Hfr k ok Hne H1 p P1) as [_ Hx]. congruence.
      + eapply (I_inj _ _ HI); eauto.
  Qed.

  Lemma get_obj_nth s i k : get_obj s i = Some k -> nth_error (objs s) i = Some (Some k).
  Proof. unfold get_obj. destruct (nth_error (objs s) i) as [[k'|]|]; intros H; inversion H; reflexivity. Qed.
  Lemma get_obj_none s ss i : Inv s ss -> get_obj s i = None -> s_get ss i = SDead.
  Proof.
    intros HI. unfold get_obj. destruct (nth_error (objs s) i) as [[k'|]|] eqn:E; intros H; inversion H.
    - destruct (Inv_partner _ _ _ _ HI E) as (so & Hs & HR). inversion HR; subst. apply s_get_some; assumption.
    - apply nth_error_None in E. unfold s_get. apply nth_overflow. rewrite <- (I_len _ _ HI). assumption.
  Qed.
  Lemma lt_of_nth {A} (l : list A) i x : nth_error l i = Some x -> (i < length l)%nat.
  Proof. intros H; apply nth_error_Some; congruence. Qed.

  (** Emptying a cell that belongs to object [i]. *)
  Lemma frame_other s ss i k p x : Inv s ss -> nth_error (objs s) i = Some (Some k) -> kptr k = Some p ->
    forall j o, j <> i -> nth_error (objs s) j = Some o -> forall q, ptr_of o = Some q ->
      nth_error (set_nth (heap s) p x) q = nth_error (heap s) q /\ q <> p.
  Proof.
    intros HI Hi Hp j o Hj Ho q Hq.
    assert (q <> p). { intros ->. apply Hj. eapply (I_inj _ _ HI); eauto. }
    split; [apply set_nth_other; congruence|assumption].
  Qed.

  Lemma finish_ctor_inv e s ss b v :
    Inv s ss ->
    let r := finish_ctor c e s b v in
    snd r = snd (s_ctor c e ss b v) /\ Inv (fst r) (fst (s_ctor c e ss b v)) /\ snd r <> UB.
  Proof.
    intros HI. unfold finish_ctor, s_ctor, mprotect.
    destruct (memlock c) eqn:Em; simpl.
    - rewrite nth_error_snoc, Nat.eqb_refl.
      destruct (e_mpfail e) eqn:Ef; simpl.
      + repeat split; try discriminate; apply Inv_heap_snoc with (x := Live b PRW) in HI; apply HI.
      + assert (forall pr, prot_ok true pr ->
          Inv (mkS (heap s ++ [Live b pr]) (objs s ++ [Some (mkK (Some (length (heap s))) true)])) (ss ++ [SKey b true])) as Hx.
        { intros pr Hpr. apply Inv_snoc_fresh; auto; congruence. }
        destruct (mpsup c) eqn:Es; simpl.
        * replace (set_nth (heap s ++ [Live b PRW]) (length (heap s)) (Live b PNA)) with (heap s ++ [Live b PNA]).
          2:{ clear. induction (heap s) as [|y l IH]; simpl; [reflexivity|rewrite IH; reflexivity]. }
          repeat split; try discriminate; apply (Hx PNA); unfold prot_ok; rewrite Em, Es; reflexivity.
        * repeat split; try discriminate; apply (Hx PRW); unfold prot_ok; rewrite Em, Es; reflexivity.
    - repeat split; try discriminate;
      apply (Inv_snoc_fresh _ _ b PRW false false HI); try congruence; unfold prot_ok; rewrite Em; reflexivity.
  Qed.

  Lemma step_inv s ss eo :
    op_ok N eo -> Inv s ss ->
    snd (step c N s eo) = snd (s_step c N ss eo) /\
    Inv (fst (step c N s eo)) (fst (s_step c N ss eo)) /\
    snd (step c N s eo) <> UB.
  Proof.
    destruct eo as [e o]; intros Hok HI.
    Ltac getobj s ss i HI k Hk so Hs HR :=
      let E := fresh "E" in
      destruct (get_obj s i) as [k|] eqn:E;
      [ apply get_obj_nth in E; rename E into Hk;
        destruct (Inv_partner _ _ _ _ HI Hk) as (so & Hs & HR); rewrite ?(s_get_some _ _ _ Hs)
      | try (rewrite (get_obj_none _ _ _ HI E)); simpl ].
    destruct o as [| buf | f | i | i j | i | i | i | i | i | i | i | i | i ]; simpl.
    - unfold ctor_default. destruct (e_alloc e); [apply finish_ctor_inv; assumption|].
      simpl; repeat split; try discriminate; apply HI.
    - destruct buf as [b|]; simpl; [|repeat split; try discriminate; apply HI].
      destruct (e_alloc e); [|simpl; repeat split; try discriminate; apply HI].
      unfold op_ok in Hok; simpl in Hok.
      rewrite rd_ok by (unfold zlen; lia).
      rewrite wr_ok by (unfold zlen; rewrite ?zeros_length; lia).
      replace (window b (Z.to_nat 0) (Z.to_nat (Z.of_nat N))) with (firstn N b).
      2:{ unfold window. rewrite Nat2Z.id. reflexivity. }
      replace (firstn (Z.to_nat 0) b ++ zeros N ++ skipn (Z.to_nat 0 + length (zeros N)) b) with (zeros N ++ skipn N b).
      2:{ change (Z.to_nat 0) with 0%nat. rewrite zeros_length. reflexivity. }
      apply finish_ctor_inv; assumption.
    - unfold ctor_callback. destruct (e_alloc e); [|simpl; repeat split; try discriminate; apply HI].
      destruct f as [b|]; [apply finish_ctor_inv; assumption|].
      simpl; repeat split; try discriminate; apply (Inv_heap_snoc _ _ (Live (e_garbage e) PRW)) in HI; apply HI.
    - getobj s ss i HI k Hk so Hs HR; [|repeat split; try discriminate; apply HI].
      assert (Inv (mkS (heap s) (set_nth (objs s) i (Some (mkK None true)) ++ [Some (mkK (kptr k) (klocked k))]))
                  (set_nth ss i SEmpty ++ [so])) as Hx.
      { pose proof (I_len _ _ HI) as Hlen. pose proof (lt_of_nth _ _ _ Hs) as Hlt. split; simpl.
        - rewrite !app_length, !set_nth_length, Hlen; reflexivity.
        - intros m o so'. rewrite !nth_error_snoc, !set_nth_length, !set_nth_eq, Hlen.
          destruct (Nat.eqb_spec m (length ss)).
          + intros H1 H2; inversion H1; inversion H2; subst. destruct k; assumption.
          + destruct (Nat.eqb_spec i m) as [->|].
            * destruct (Nat.ltb_spec m (length ss)); [|lia].
              intros H1 H2; inversion H1; inversion H2; subst. constructor; auto.
            * apply (I_rel _ _ HI).
        - intros m n om on p. rewrite !nth_error_snoc, !set_nth_length, !set_nth_eq, Hlen.
          destruct (Nat.ltb_spec i (length ss)); [|lia].
          destruct (Nat.eqb_spec m (length ss)); destruct (Nat.eqb_spec n (length ss)); auto; try congruence.
          + destruct (Nat.eqb_spec i n) as [->|]; intros H1 H2 P1 P2.
            * inversion H2; subst; discriminate P2.
            * inversion H1; subst; simpl in P1. assert (i = n) by (eapply (I_inj _ _ HI i n); eauto). congruence.
          + destruct (Nat.eqb_spec i m) as [->|]; intros H1 H2 P1 P2.
            * inversion H1; subst; discriminate P1.
            * inversion H2; subst; simpl in P2. assert (i = m) by (eapply (I_inj _ _ HI i m); eauto). congruence.
          + destruct (Nat.eqb_spec i m) as [->|]; [intros H1 _ P1 _; inversion H1; subst; discriminate P1|].
            destruct (Nat.eqb_spec i n) as [->|]; [intros _ H2 _ P2; inversion H2; subst; discriminate P2|].
            apply (I_inj _ _ HI). }
      unfold move_ctor. inversion HR; subst; simpl; repeat split; try discriminate; apply Hx.
    - getobj s ss i HI ki Hki soi Hsi HRi; [|repeat split; try discriminate; apply HI].
      getobj s ss j HI kj Hkj soj Hsj HRj.
      2:{ inversion HRi; subst; repeat split; try discriminate; apply HI. }
      unfold move_assign. destruct (Nat.eqb_spec i j) as [->|Hij].
      { inversion HRi; subst; inversion HRj; subst; simpl; repeat split; try discriminate; apply HI. }
      pose proof (lt_of_nth _ _ _ Hsi) as Hlti. pose proof (lt_of_nth _ _ _ Hsj) as Hltj.
      assert (forall h', (forall n o, n <> i -> nth_error (objs s) n = Some o -> forall q, ptr_of o = Some q ->
                          nth_error h' q = nth_error (heap s) q) ->
        Inv (mkS h' (set_nth (set_nth (objs s) i (Some (mkK (kptr kj) (klocked kj)))) j (Some (mkK None true))))
            (set_nth (set_nth ss i soj) j SEmpty)) as Hx.
      { intros h' Hf. pose proof (I_len _ _ HI) as Hlen. split; simpl.
        - rewrite !set_nth_length; assumption.
        - intros m o so. rewrite !set_nth_eq, !set_nth_length, Hlen.
          destruct (Nat.ltb_spec i (length ss)); [|lia]. destruct (Nat.ltb_spec j (length ss)); [|lia].
          destruct (Nat.eqb_spec j m) as [->|].
          + intros H1 H2; inversion H1; inversion H2; subst; constructor; auto.
          + destruct (Nat.eqb_spec i m) as [->|]; intros H1 H2.
            * inversion H1; inversion H2; subst. eapply objR_frame; [destruct kj; exact HRj|].
              simpl. intros p Hp. eapply (Hf j); eauto.
            * pose proof (I_rel _ _ HI _ _ _ H1 H2) as HR. eapply objR_frame; eauto.
        - intros m n om on p. rewrite !set_nth_eq, !set_nth_length, Hlen.
          destruct (Nat.ltb_spec i (length ss)); [|lia]. destruct (Nat.ltb_spec j (length ss)); [|lia].
          destruct (Nat.eqb_spec j m) as [->|]; [intros H1 _ P1 _; inversion H1; subst; discriminate P1|].
          destruct (Nat.eqb_spec j n) as [->|]; [intros _ H2 _ P2; inversion H2; subst; discriminate P2|].
          destruct (Nat.eqb_spec i m) as [->|]; destruct (Nat.eqb_spec m n) as [->|]; auto.
          + destruct (Nat.eqb_spec m n); [congruence|]. intros H1 H2 P1 P2. inversion H1; subst; simpl in P1.
            assert (j = n) by (eapply (I_inj _ _ HI j n); eauto). congruence.
          + destruct (Nat.eqb_spec i n) as [->|].
            * intros H1 H2 P1 P2. inversion H2; subst; simpl in P2.
              assert (j = m) by (eapply (I_inj _ _ HI j m); eauto). congruence.
            * apply (I_inj _ _ HI). }
      destruct ki as [[p|] li]; simpl.
      + inversion HRi as [| |p' l' b lk pr Hcell Hl1 Hl2 Hp']; subst. unfold sfree. rewrite Hcell. simpl.
        assert (Inv (mkS (set_nth (heap s) p Freed) (set_nth (set_nth (objs s) i (Some (mkK (kptr kj) (klocked kj)))) j (Some (mkK None true))))
            (set_nth (set_nth ss i soj) j SEmpty)) as Hy.
        { apply Hx. intros n o Hn Ho q Hq. eapply (frame_other s ss i); eauto; reflexivity. }
        inversion HRj; subst; simpl; repeat split; try discriminate; apply Hy.
      + specialize (Hx (heap s) ltac:(reflexivity)).
        inversion HRi; subst; inversion HRj; subst; simpl; repeat split; try discriminate; apply Hx.
    - getobj s ss i HI k Hk so Hs HR; [|repeat split; try discriminate; apply HI].
      pose proof (lt_of_nth _ _ _ Hs) as Hlt. unfold release.
      inversion HR as [|l Hl|p l b lk pr Hcell Hl1 Hl2 Hpr]; subst; simpl.
      + rewrite (set_nth_id ss i SEmpty) by assumption. destruct s as [hh oo]; simpl in *.
        repeat split; try discriminate; apply HI.
      + unfold sfree; rewrite Hcell; simpl. split; [reflexivity|split; [|discriminate]].
        apply Inv_set; auto; [constructor; auto|].
        intros j o Hj Ho q Hq. split; [|discriminate]. eapply (frame_other s ss i); eauto; reflexivity.
    - getobj s ss i HI k Hk so Hs HR.
      2:{ split; [reflexivity|split;[|discriminate]].
          assert (set_nth ss i SDead = ss) as ->; [|assumption].
          pose proof (get_obj_none _ _ _ HI E) as Hd. unfold s_get in Hd.
          destruct (Nat.lt_ge_cases i (length ss)) as [Hi|Hi].
          - apply set_nth_id. rewrite <- Hd. apply nth_error_nth'; assumption.
          - clear -Hi. revert i Hi. induction ss as [|x ss IH]; intros [|i] Hi; simpl in *; auto; try lia.
            rewrite IH; [reflexivity|lia]. }
      pose proof (lt_of_nth _ _ _ Hs) as Hlt. unfold release.
      inversion HR as [|l Hl|p l b lk pr Hcell Hl1 Hl2 Hpr]; subst; simpl.
      + split; [reflexivity|split; [|discriminate]].
        apply Inv_set; auto; [constructor|]. intros j o Hj Ho q Hq; split; [reflexivity|discriminate].
      + unfold sfree; rewrite Hcell; simpl. split; [reflexivity|split; [|discriminate]].
        apply Inv_set; auto; [constructor|].
        intros j o Hj Ho q Hq. split; [|discriminate]. eapply (frame_other s ss i); eauto; reflexivity.
    - (* lock *)
      getobj s ss i HI k Hk so Hs HR; [|repeat split; try discriminate; apply HI].
      pose proof (lt_of_nth _ _ _ Hs) as Hlt. unfold lock.
      inversion HR as [|l Hl|p l b lk pr Hcell Hl1 Hl2 Hpr]; subst; simpl.
      { destruct (memlock c); repeat split; try discriminate; apply HI. }
      destruct (memlock c) eqn:Em; [|repeat split; try discriminate; apply HI].
      rewrite (Hl1 eq_refl) in *. simpl. destruct lk; simpl; [repeat split; try discriminate; apply HI|].
      unfold mprotect; rewrite Hcell. destruct (e_mpfail e); [repeat split; try discriminate; destruct s; apply HI|].
      unfold prot_ok in Hpr; rewrite Em in Hpr.
      destruct (mpsup c) eqn:Es; simpl in *; split; [reflexivity|split;[|discriminate]|reflexivity|split;[|discriminate]];
        apply Inv_set; auto.
      + eapply RKey; [rewrite set_nth_same; [reflexivity|eapply lt_of_nth; eauto]|auto|congruence|].
        unfold prot_ok; rewrite Em, Es; reflexivity.
      + intros j o Hj Ho q Hq. split.
        * eapply (frame_other s ss i); eauto; reflexivity.
        * simpl. intros Hc; inversion Hc; subst. apply Hj. eapply (I_inj _ _ HI j i); eauto; reflexivity.
      + eapply RKey; [eassumption|auto|congruence|]. unfold prot_ok; rewrite Em, Es; simpl. assumption.
      + intros j o Hj Ho q Hq. split; [reflexivity|].
        simpl. intros Hc; inversion Hc; subst. apply Hj. eapply (I_inj _ _ HI j i); eauto; reflexivity.
    - (* unlock *)
      getobj s ss i HI k Hk so Hs HR; [|repeat split; try discriminate; apply HI].
      pose proof (lt_of_nth _ _ _ Hs) as Hlt. unfold unlock.
      inversion HR as [|l Hl|p l b lk pr Hcell Hl1 Hl2 Hpr]; subst; simpl.
      { destruct (memlock c); repeat split; try discriminate; apply HI. }
      destruct (memlock c) eqn:Em; [|repeat split; try discriminate; apply HI].
      rewrite (Hl1 eq_refl) in *. simpl. destruct lk; simpl; [|repeat split; try discriminate; apply HI].
      unfold mprotect; rewrite Hcell. destruct (e_mpfail e); [repeat split; try discriminate; destruct s; apply HI|].
      unfold prot_ok in Hpr; rewrite Em in Hpr.
      destruct (mpsup c) eqn:Es; simpl in *; split; [reflexivity|split;[|discriminate]|reflexivity|split;[|discriminate]];
        apply Inv_set; auto.
      + eapply RKey; [rewrite set_nth_same; [reflexivity|eapply lt_of_nth; eauto]|auto|auto|].
        unfold prot_ok; rewrite Em, Es; reflexivity.
      + intros j o Hj Ho q Hq. split.
        * eapply (frame_other s ss i); eauto; reflexivity.
        * simpl. intros Hc; inversion Hc; subst. apply Hj. eapply (I_inj _ _ HI j i); eauto; reflexivity.
      + eapply RKey; [eassumption|auto|auto|]. unfold prot_ok; rewrite Em, Es; simpl. assumption.
      + intros j o Hj Ho q Hq. split; [reflexivity|].
        simpl. intros Hc; inversion Hc; subst. apply Hj. eapply (I_inj _ _ HI j i); eauto; reflexivity.
    - getobj s ss i HI k Hk so Hs HR; [|repeat split; try discriminate; apply HI].
      inversion HR; subst; simpl; repeat split; try discriminate; apply HI.
    - getobj s ss i HI k Hk so Hs HR; [|repeat split; try discriminate; apply HI].
      inversion HR as [|l Hl|p l b lk pr Hcell Hl1 Hl2 Hpr]; subst; unfold is_locked; simpl;
        destruct (memlock c) eqn:Em; simpl; repeat split; try discriminate; try apply HI.
      + rewrite (Hl eq_refl); reflexivity.
      + rewrite (Hl1 eq_refl); reflexivity.
      + rewrite (Hl2 eq_refl); reflexivity.
    - getobj s ss i HI k Hk so Hs HR; [|repeat split; try discriminate; apply HI].
      unfold data, is_locked, deref, read_cell.
      inversion HR as [|l Hl|p l b lk pr Hcell Hl1 Hl2 Hpr]; subst; simpl.
      + destruct (memlock c) eqn:Em; simpl; [rewrite (Hl eq_refl)|]; repeat split; try discriminate; apply HI.
      + destruct (memlock c) eqn:Em; simpl.
        * rewrite (Hl1 eq_refl). destruct lk; [repeat split; try discriminate; apply HI|].
          rewrite Hcell. unfold prot_ok in Hpr; rewrite Em in Hpr. simpl in Hpr.
          destruct (mpsup c); subst pr;
          repeat split; try discriminate; apply HI.
        * rewrite (Hl2 eq_refl), Hcell. unfold prot_ok in Hpr; rewrite Em in Hpr. simpl in Hpr. subst pr.
          repeat split; try discriminate; apply HI.
    - (* unlock_get *)
      getobj s ss i HI k Hk so Hs HR; [|repeat split; try discriminate; apply HI].
      pose proof (lt_of_nth _ _ _ Hs) as Hlt. unfold unlock_get, unlock.
      inversion HR as [|l Hl|p l b lk pr Hcell Hl1 Hl2 Hpr]; subst; simpl.
      { repeat split; try discriminate; apply HI. }
      assert (Hpr' := Hpr). unfold prot_ok in Hpr.
      destruct (memlock c) eqn:Em; simpl in *.
      2:{ unfold deref, read_cell. rewrite Hcell, (Hl2 eq_refl). subst pr. repeat split; try discriminate; apply HI. }
      rewrite (Hl1 eq_refl) in *. simpl. destruct lk; simpl.
      2:{ unfold deref, read_cell. rewrite Hcell.
          destruct (mpsup c); subst pr;
          repeat split; try discriminate; apply HI. }
      unfold mprotect; rewrite Hcell. destruct (e_mpfail e); [repeat split; try discriminate; destruct s; apply HI|].
      destruct (mpsup c) eqn:Es; unfold deref, read_cell; simpl.
      + rewrite set_nth_same by (eapply lt_of_nth; eauto). simpl. split; [reflexivity|split;[|discriminate]].
        apply Inv_set; auto.
        * eapply RKey; [rewrite set_nth_same; [reflexivity|eapply lt_of_nth; eauto]|auto|auto|].
          unfold prot_ok; rewrite Em, Es; reflexivity.
        * intros j o Hj Ho q Hq. split.
          -- eapply (frame_other s ss i); eauto; reflexivity.
          -- simpl. intros Hc; inversion Hc; subst. apply Hj. eapply (I_inj _ _ HI j i); eauto; reflexivity.
      + rewrite Hcell. subst pr. simpl. split; [reflexivity|split;[|discriminate]].
        apply Inv_set; auto.
        * eapply RKey; [eassumption|auto|auto|]. unfold prot_ok; rewrite Em, Es; reflexivity.
        * intros j o Hj Ho q Hq. split; [reflexivity|].
          simpl. intros Hc; inversion Hc; subst. apply Hj. eapply (I_inj _ _ HI j i); eauto; reflexivity.
    - getobj s ss i HI k Hk so Hs HR; [|repeat split; try discriminate; apply HI].
      unfold serialize, is_locked, read_cell.
      inversion HR as [|l Hl|p l b lk pr Hcell Hl1 Hl2 Hpr]; subst; simpl.
      + repeat split; try discriminate; apply HI.
      + destruct (memlock c) eqn:Em; simpl.
        * rewrite (Hl1 eq_refl). destruct lk; [repeat split; try discriminate; apply HI|].
          rewrite Hcell. unfold prot_ok in Hpr; rewrite Em in Hpr. simpl in Hpr.
          destruct (mpsup c); subst pr;
          repeat split; try discriminate; apply HI.
        * rewrite (Hl2 eq_refl), Hcell. unfold prot_ok in Hpr; rewrite Em in Hpr. simpl in Hpr. subst pr.
          repeat split; try discriminate; apply HI.
  Qed.
End Inv.
