From Verif Require Import BaseFacts HmacModel PrgSpec HmacProofs HmacProofs2 SetHashModel SetHashSpec.

Section P.
  Variable E : ed25519.
  Variable main : point E -> Prop.
  Variable HL : ed25519_laws E main.
  Variable H : bytes -> bytes.
  Variable HH : forall x, zlen (H x) = 64.
  Variables g1 g2 : bytes.
  Variable Hg1 : zlen g1 = 32.
  Variable Hg2 : zlen g2 = 64.

  Notation "a +' b" := (padd E a b) (at level 50, left associativity).
  Notation O' := (pzero E).

  Lemma zero_l a : O' +' a = a.
  Proof. rewrite (L_comm _ _ HL). apply (L_zero _ _ HL). Qed.
  Lemma opp_unique a b : a +' b = O' -> b = popp E a.
  Proof.
    intros Hab. rewrite <- (zero_l b), <- (L_opp _ _ HL a), (L_comm _ _ HL a), <- (L_assoc _ _ HL), Hab.
    apply (L_zero _ _ HL).
  Qed.
  Lemma opp_zero : popp E O' = O'.
  Proof. symmetry. apply opp_unique. apply (L_zero _ _ HL). Qed.
  Lemma opp_opp a : popp E (popp E a) = a.
  Proof. symmetry. apply opp_unique. rewrite (L_comm _ _ HL). apply (L_opp _ _ HL). Qed.
  Lemma swap4 a b c d : (a +' b) +' (c +' d) = (a +' c) +' (b +' d).
  Proof.
    rewrite <- !(L_assoc _ _ HL). f_equal. rewrite !(L_assoc _ _ HL). f_equal. apply (L_comm _ _ HL).
  Qed.
  Lemma opp_add a b : popp E (a +' b) = popp E a +' popp E b.
  Proof.
    symmetry. apply opp_unique. rewrite swap4, !(L_opp _ _ HL). apply (L_zero _ _ HL).
  Qed.

  (** the point a string is mapped to *)
  Definition is_pt (s : bytes) (a : point E) : Prop := main a /\ from_uniform E (firstn 32 (H s)) = penc E a.
  Lemma gen_ok s : exists a, is_pt s a /\ gen_curve_point E H g1 g2 s = Ok (penc E a).
  Proof.
    destruct (L_uniform _ _ HL (firstn 32 (H s))) as (a & Hm & Ha). exists a. split; [split; assumption|].
    unfold gen_curve_point.
    pose proof (hash_prefix H s [] 32 g1 g2 HH ltac:(lia) ltac:(lia) Hg2) as (Hp & _ & _).
    rewrite app_nil_r in Hp. rewrite Hp, bind_Ok. rewrite prefix_replaced_all.
    - change (Z.to_nat 32) with 32%nat. rewrite Ha. reflexivity.
    - specialize (HH s). unfold zlen in *. rewrite firstn_length. lia.
  Qed.
  Lemma is_pt_fun s a b : is_pt s a -> is_pt s b -> a = b.
  Proof.
    intros [_ Ha] [_ Hb]. rewrite Ha in Hb. apply (f_equal (pdec E)) in Hb. rewrite !(L_dec _ _ HL) in Hb. congruence.
  Qed.

  (** histories: signed elements *)
  Definition hist := list (bool * bytes).
  Inductive val : hist -> point E -> Prop :=
  | val_nil : val [] O'
  | val_pos s a h b : is_pt s a -> val h b -> val ((true, s) :: h) (a +' b)
  | val_neg s a h b : is_pt s a -> val h b -> val ((false, s) :: h) (popp E a +' b).
  Lemma val_main h b : val h b -> main b.
  Proof.
    induction 1 as [|s a h b [Ha _] _ IH|s a h b [Ha _] _ IH]; [apply (L_m0 _ _ HL)|apply (L_madd _ _ HL); assumption|].
    apply (L_madd _ _ HL); [apply (L_mopp _ _ HL)|]; assumption.
  Qed.
  Lemma val_app h1 h2 a b : val h1 a -> val h2 b -> val (h1 ++ h2) (a +' b).
  Proof.
    induction 1 as [|s x h y Hx Hh IH|s x h y Hx Hh IH]; intros H2; simpl.
    - rewrite zero_l. exact H2.
    - rewrite <- (L_assoc _ _ HL). constructor; auto.
    - rewrite <- (L_assoc _ _ HL). constructor; auto.
  Qed.
  Definition neg (h : hist) : hist := map (fun '(b, s) => (negb b, s)) h.
  Lemma val_neg_hist h a : val h a -> val (neg h) (popp E a).
  Proof.
    induction 1 as [|s x h y Hx Hh IH|s x h y Hx Hh IH]; simpl.
    - rewrite opp_zero. constructor.
    - rewrite opp_add. constructor; auto.
    - rewrite opp_add, opp_opp. constructor; auto.
  Qed.
  Lemma val_total h : exists a, val h a.
  Proof.
    induction h as [|[[|] s] h [a IH]]; [exists O'; constructor| |].
    - destruct (gen_ok s) as (x & Hx & _). exists (x +' a). constructor; assumption.
    - destruct (gen_ok s) as (x & Hx & _). exists (popp E x +' a). constructor; assumption.
  Qed.
  Lemma val_fun h a b : val h a -> val h b -> a = b.
  Proof.
    intros Ha. revert b. induction Ha as [|s x h y Hx Hh IH|s x h y Hx Hh IH]; intros b Hb; inversion Hb; subst.
    - reflexivity.
    - f_equal; [eapply is_pt_fun; eassumption|auto].
    - f_equal; [f_equal; eapply is_pt_fun; eassumption|auto].
  Qed.

  Definition hmult (h : hist) (x : bytes) : Z :=
    fold_right (fun '(b, s) m => (if bytes_eqb x s then if (b : bool) then 1 else -1 else 0) + m) 0 h.
  Lemma hmult_app h1 h2 x : hmult (h1 ++ h2) x = hmult h1 x + hmult h2 x.
  Proof. induction h1 as [|[b s] h1 IH]; simpl; [reflexivity|rewrite IH; lia]. Qed.
  Lemma hmult_neg h x : hmult (neg h) x = - hmult h x.
  Proof.
    induction h as [|[b s] h IH]; simpl; [reflexivity|]. rewrite IH. destruct (bytes_eqb x s), b; simpl; lia.
  Qed.
  (** a signed element of which the multiplicity is not zero occurs *)
  Lemma hmult_pos h x : 0 < hmult h x -> exists h1 h2, h = h1 ++ (true, x) :: h2.
  Proof.
    induction h as [|[b s] h IH]; simpl; [lia|]. intros Hp.
    destruct (bytes_eqb x s) eqn:Ex; [|destruct IH as (h1 & h2 & ->); [lia|exists ((b, s) :: h1), h2; reflexivity]].
    apply bytes_eqb_spec in Ex as <-. destruct b.
    - exists [], h; reflexivity.
    - destruct IH as (h1 & h2 & ->); [lia|]. exists ((false, x) :: h1), h2. reflexivity.
  Qed.
  Lemma hmult_neg_ex h x : hmult h x < 0 -> exists h1 h2, h = h1 ++ (false, x) :: h2.
  Proof.
    intros Hn. destruct (hmult_pos (neg h) x) as (h1 & h2 & Eh); [rewrite hmult_neg; lia|].
    exists (neg h1), (neg h2).
    assert (NN : forall l, neg (neg l) = l).
    { intros l. unfold neg. rewrite map_map. rewrite <- (map_id l) at 2. apply map_ext. intros [b s]. rewrite negb_involutive. reflexivity. }
    rewrite <- (NN h), Eh. unfold neg at 1. rewrite map_app. reflexivity.
  Qed.
  Lemma val_mid h1 e h2 a : val (h1 ++ e :: h2) a -> exists b c, val [e] b /\ val (h1 ++ h2) c /\ a = b +' c.
  Proof.
    intros Hv. destruct (val_total h1) as [a1 H1], (val_total h2) as [a2 H2], (val_total [e]) as [b Hb].
    exists b, (a1 +' a2). split; [assumption|]. split; [apply val_app; assumption|].
    assert (Hv' : val (h1 ++ [e] ++ h2) (a1 +' (b +' a2))) by (apply val_app; [|apply val_app]; assumption).
    rewrite (val_fun _ _ _ Hv Hv'). rewrite !(L_assoc _ _ HL). f_equal. apply (L_comm _ _ HL).
  Qed.
  Lemma val_one s x : is_pt s x -> val [(true, s)] x.
  Proof. intros Hx. rewrite <- (L_zero _ _ HL x). constructor; [assumption|constructor]. Qed.
  Lemma val_mone s x : is_pt s x -> val [(false, s)] (popp E x).
  Proof. intros Hx. rewrite <- (L_zero _ _ HL (popp E x)). constructor; [assumption|constructor]. Qed.
  Lemma val_zero : forall n h a, (length h <= n)%nat -> (forall x, hmult h x = 0) -> val h a -> a = O'.
  Proof.
    induction n as [|n IH]; intros h a Hn Hz Hv.
    - destruct h; [inversion Hv; reflexivity|simpl in Hn; lia].
    - destruct h as [|[b s] h]; [inversion Hv; reflexivity|].
      pose proof (Hz s) as Hs. simpl in Hs. rewrite bytes_eqb_refl in Hs.
      assert (exists h1 h2, h = h1 ++ (negb b, s) :: h2) as (h1 & h2 & ->).
      { destruct b; [apply hmult_neg_ex|apply hmult_pos]; lia. }
      change ((b, s) :: h1 ++ (negb b, s) :: h2) with (((b, s) :: h1) ++ (negb b, s) :: h2) in Hv.
      apply val_mid in Hv as (v & c & Hv1 & Hv2 & ->). simpl in Hv2.
      change ((b, s) :: h1 ++ h2) with ([] ++ (b, s) :: (h1 ++ h2)) in Hv2.
      apply val_mid in Hv2 as (v' & c' & Hv1' & Hv2' & ->). simpl in Hv2'.
      assert (Hc : c' = O').
      { apply (IH (h1 ++ h2)); [|intros x; specialize (Hz x)|assumption].
        - simpl in Hn. rewrite app_length in *. simpl in Hn. lia.
        - simpl in Hz. rewrite hmult_app in Hz. simpl in Hz. rewrite hmult_app. destruct (bytes_eqb x s), b; simpl in Hz; lia. }
      subst c'. destruct (gen_ok s) as (x & Hx & _). rewrite (L_zero _ _ HL).
      pose proof (val_one _ _ Hx) as V1. pose proof (val_mone _ _ Hx) as V2.
      destruct b; simpl in Hv1.
      + rewrite (val_fun _ _ _ Hv1 V2), (val_fun _ _ _ Hv1' V1), (L_comm _ _ HL). apply (L_opp _ _ HL).
      + rewrite (val_fun _ _ _ Hv1 V1), (val_fun _ _ _ Hv1' V2). apply (L_opp _ _ HL).
  Qed.
  Lemma val_mult h h' a a' : (forall x, hmult h x = hmult h' x) -> val h a -> val h' a' -> a = a'.
  Proof.
    intros Heq Ha Ha'.
    assert (Hz : a +' popp E a' = O').
    { apply (val_zero (length (h ++ neg h')) (h ++ neg h')); [lia| |apply val_app; [assumption|apply val_neg_hist; assumption]].
      intros x. rewrite hmult_app, hmult_neg, Heq. lia. }
    rewrite <- (L_zero _ _ HL a), <- (L_opp _ _ HL a'), (L_comm _ _ HL a'), (L_assoc _ _ HL), Hz. apply zero_l.
  Qed.

  (** ** The store *)
  Definition repr (b : option bytes) (m : option mult) : Prop :=
    match b, m with
    | None, None => True
    | Some b, Some m => exists h a, (forall x, hmult h x = m x) /\ val h a /\ b = penc E a
    | _, _ => False
    end.
  Definition repr_st (st : sh_store) (ms : m_store) : Prop := forall i, repr (st i) (ms i).

  Lemma repr_set st ms i b m : repr_st st ms -> repr (Some b) (Some m) -> repr_st (sh_set st i b) (m_set ms i m).
  Proof. intros Hr Hb k. unfold sh_set, m_set. destruct (Nat.eqb k i); [exact Hb|apply Hr]. Qed.
  Lemma repr_get st ms i m : repr_st st ms -> ms i = Some m -> exists b, sh_get st i = Ok b /\ repr (Some b) (Some m).
  Proof.
    intros Hr Hm. specialize (Hr i). rewrite Hm in Hr. unfold sh_get. destruct (st i) as [b|]; [|destruct Hr].
    exists b. split; [reflexivity|exact Hr].
  Qed.
  Lemma repr_zero : repr (Some kECInfinitePoint) (Some m_zero).
  Proof.
    exists [], O'. split; [reflexivity|]. split; [constructor|]. rewrite (L_enc0 _ _ HL). reflexivity.
  Qed.
  Lemma repr_add a b m n : repr (Some a) (Some m) -> repr (Some b) (Some n) -> repr (Some (ed_add E a a b)) (Some (m_add m n)).
  Proof.
    intros (h & x & Hh & Hv & ->) (h' & x' & Hh' & Hv' & ->). unfold ed_add. rewrite !(L_dec _ _ HL).
    exists (h ++ h'), (x +' x'). split; [|split; [apply val_app; assumption|reflexivity]].
    intros y. rewrite hmult_app, Hh, Hh'. reflexivity.
  Qed.
  Lemma repr_sub a b m n : repr (Some a) (Some m) -> repr (Some b) (Some n) -> repr (Some (ed_sub E a a b)) (Some (m_sub m n)).
  Proof.
    intros (h & x & Hh & Hv & ->) (h' & x' & Hh' & Hv' & ->). unfold ed_sub. rewrite !(L_dec _ _ HL).
    exists (h ++ neg h'), (x +' popp E x'). split; [|split; [apply val_app; [assumption|apply val_neg_hist; assumption]|reflexivity]].
    intros y. rewrite hmult_app, hmult_neg, Hh, Hh'. reflexivity.
  Qed.
  Lemma repr_one s a : is_pt s a -> repr (Some (penc E a)) (Some (m_one s)).
  Proof.
    intros Ha. exists [(true, s)], a. split; [|split; [apply val_one; assumption|reflexivity]].
    intros x. simpl. unfold m_one. destruct (bytes_eqb x s); reflexivity.
  Qed.
  Lemma repr_ext b m n : (forall x, m x = n x) -> repr (Some b) (Some m) -> repr (Some b) (Some n).
  Proof. intros Hx (h & a & Hh & Hv & ->). exists h, a. split; [|auto]. intros x. rewrite Hh. apply Hx. Qed.
  Lemma repr_vector l : forall a m, repr (Some a) (Some m) -> exists b,
    sh_from_vector_loop E H g1 g2 a l = Ok b /\ repr (Some b) (Some (m_add m (m_list l))).
  Proof.
    induction l as [|s l IH]; intros a m Ha; simpl.
    - exists a. split; [reflexivity|]. apply (repr_ext a m); [|exact Ha]. intros x. unfold m_add, m_list, m_zero; simpl. lia.
    - destruct (gen_ok s) as (p & Hp & ->). rewrite bind_Ok.
      destruct (IH (ed_add E a a (penc E p)) (m_add m (m_one s))) as (b & -> & Hb); [apply repr_add; [assumption|apply repr_one; assumption]|].
      exists b. split; [reflexivity|]. eapply repr_ext; [|exact Hb]. intros x. unfold m_add, m_list. simpl. unfold m_add. lia.
  Qed.
  Lemma from_bytes_ok a : main a -> sh_from_bytes E (penc E a) = Ok (penc E a).
  Proof.
    intros Hm. unfold sh_from_bytes. destruct (is_valid E (penc E a)) eqn:Ev; [reflexivity|].
    destruct (bytes_eqb (penc E a) kECInfinitePoint) eqn:Ez; [reflexivity|]. exfalso.
    assert (Hne : a <> O').
    { intros ->. rewrite (L_enc0 _ _ HL) in Ez. unfold kECInfinitePoint in Ez. rewrite bytes_eqb_refl in Ez. discriminate. }
    assert (is_valid E (penc E a) = true) by (apply (L_valid _ _ HL); eauto). congruence.
  Qed.
  Lemma repr_data b m : repr (Some b) (Some m) -> sh_from_bytes E b = Ok b.
  Proof. intros (h & a & _ & Hv & ->). apply from_bytes_ok. eapply val_main; eassumption. Qed.

  Lemma sh_step_ok st ms o ms' : repr_st st ms -> m_step ms o = Some ms' -> exists st', sh_step E H g1 g2 st o = Ok st' /\ repr_st st' ms'.
  Proof.
    intros Hr Hs. destruct o as [i|i l|i j|i j|i s|i s|i j|i j]; cbn [m_step sh_step] in *.
    - injection Hs as <-. eexists; split; [reflexivity|]. apply repr_set; [assumption|apply repr_zero].
    - injection Hs as <-. destruct (repr_vector l _ _ repr_zero) as (b & Hb & Hrb). unfold sh_from_vector. rewrite Hb, bind_Ok.
      eexists; split; [reflexivity|]. apply repr_set; [assumption|]. eapply repr_ext; [|exact Hrb].
      intros x. unfold m_add, m_zero. lia.
    - destruct (ms j) as [m|] eqn:Ej; [|discriminate]. injection Hs as <-.
      destruct (repr_get _ _ _ _ Hr Ej) as (b & -> & Hb). rewrite bind_Ok, (repr_data _ _ Hb), bind_Ok.
      eexists; split; [reflexivity|]. apply repr_set; assumption.
    - destruct (ms j) as [m|] eqn:Ej; [|discriminate]. injection Hs as <-.
      destruct (repr_get _ _ _ _ Hr Ej) as (b & -> & Hb). rewrite bind_Ok.
      eexists; split; [reflexivity|]. apply repr_set; assumption.
    - destruct (ms i) as [m|] eqn:Ej; [|discriminate]. injection Hs as <-.
      destruct (repr_get _ _ _ _ Hr Ej) as (b & -> & Hb). rewrite bind_Ok. unfold sh_add_element.
      destruct (gen_ok s) as (p & Hp & ->). rewrite !bind_Ok.
      eexists; split; [reflexivity|]. apply repr_set; [assumption|]. apply repr_add; [assumption|apply repr_one; assumption].
    - destruct (ms i) as [m|] eqn:Ej; [|discriminate]. injection Hs as <-.
      destruct (repr_get _ _ _ _ Hr Ej) as (b & -> & Hb). rewrite bind_Ok. unfold sh_remove_element.
      destruct (gen_ok s) as (p & Hp & ->). rewrite !bind_Ok.
      eexists; split; [reflexivity|]. apply repr_set; [assumption|]. apply repr_sub; [assumption|apply repr_one; assumption].
    - destruct (ms i) as [m|] eqn:Ei; [|discriminate]. destruct (ms j) as [n|] eqn:Ej; [|discriminate]. injection Hs as <-.
      destruct (repr_get _ _ _ _ Hr Ei) as (b & -> & Hb). rewrite bind_Ok.
      destruct (repr_get _ _ _ _ Hr Ej) as (b' & -> & Hb'). rewrite bind_Ok.
      eexists; split; [reflexivity|]. apply repr_set; [assumption|]. apply repr_add; assumption.
    - destruct (ms i) as [m|] eqn:Ei; [|discriminate]. destruct (ms j) as [n|] eqn:Ej; [|discriminate]. injection Hs as <-.
      destruct (repr_get _ _ _ _ Hr Ei) as (b & -> & Hb). rewrite bind_Ok.
      destruct (repr_get _ _ _ _ Hr Ej) as (b' & -> & Hb'). rewrite bind_Ok.
      eexists; split; [reflexivity|]. apply repr_set; [assumption|]. apply repr_sub; assumption.
  Qed.
  Lemma sh_run_ok p : forall st ms ms', repr_st st ms -> m_run ms p = Some ms' -> exists st', sh_run E H g1 g2 st p = Ok st' /\ repr_st st' ms'.
  Proof.
    induction p as [|o p IH]; intros st ms ms' Hr Hm; cbn [m_run sh_run] in *.
    - injection Hm as <-. eauto.
    - destruct (m_step ms o) as [ms1|] eqn:Eo; [|discriminate].
      destruct (sh_step_ok _ _ _ _ Hr Eo) as (st1 & -> & Hr1). rewrite bind_Ok. eapply IH; eassumption.
  Qed.
  Lemma repr_empty : repr_st sh_empty m_empty.
  Proof. intros i. exact I. Qed.

  Lemma repr_unique a b m n : (forall x, m x = n x) -> repr (Some a) (Some m) -> repr (Some b) (Some n) -> a = b.
  Proof.
    intros Hx (h & x & Hh & Hv & ->) (h' & x' & Hh' & Hv' & ->). f_equal. eapply (val_mult h h'); [|eassumption..].
    intros y. rewrite Hh, Hh'. apply Hx.
  Qed.

  Lemma sh_eq_spec a b : length a = 32%nat -> length b = 32%nat -> sh_eq a b = true <-> a = b.
  Proof. intros Ha Hb. unfold sh_eq. rewrite !firstn_all2 by lia. apply bytes_eqb_spec. Qed.

  Lemma multiset p p' ms ms' i i' m m' :
    m_run m_empty p = Some ms -> m_run m_empty p' = Some ms' -> ms i = Some m -> ms' i' = Some m' ->
    (forall x, m x = m' x) ->
    exists st st' b, sh_run E H g1 g2 sh_empty p = Ok st /\ sh_run E H g1 g2 sh_empty p' = Ok st' /\
      st i = Some b /\ st' i' = Some b /\ sh_eq b b = true /\ sh_ne b b = false.
  Proof.
    intros Hp Hp' Hi Hi' Hx.
    destruct (sh_run_ok _ _ _ _ repr_empty Hp) as (st & E1 & R1).
    destruct (sh_run_ok _ _ _ _ repr_empty Hp') as (st' & E2 & R2).
    pose proof (R1 i) as Ri. pose proof (R2 i') as Ri'. rewrite Hi in Ri. rewrite Hi' in Ri'.
    destruct (st i) as [b|] eqn:Eb; [|destruct Ri]. destruct (st' i') as [b'|] eqn:Eb'; [|destruct Ri'].
    pose proof (repr_unique _ _ _ _ Hx Ri Ri') as ->.
    assert (Hb : sh_eq b' b' = true) by (unfold sh_eq; apply bytes_eqb_refl).
    exists st, st', b'. repeat split; try assumption. unfold sh_ne. rewrite Hb. reflexivity.
  Qed.

  Lemma ctor_bytes b : (exists a, main a /\ b = penc E a) /\ sh_from_bytes E b = Ok b \/
                       (~ exists a, main a /\ b = penc E a) /\ sh_from_bytes E b = Throw InvalidArgument.
  Proof.
    unfold sh_from_bytes. destruct (is_valid E b) eqn:Ev; cbn [negb andb].
    - left. apply (L_valid _ _ HL) in Ev as (a & Ha & _ & ->). eauto.
    - destruct (bytes_eqb b kECInfinitePoint) eqn:Ez; cbn [negb].
      + left. apply bytes_eqb_spec in Ez. split; [|reflexivity]. exists O'. split; [apply (L_m0 _ _ HL)|]. rewrite (L_enc0 _ _ HL). exact Ez.
      + right. split; [|reflexivity]. intros (a & Ha & ->).
        pose proof (from_bytes_ok a Ha) as F. unfold sh_from_bytes in F. rewrite Ev, Ez in F. discriminate.
  Qed.

  (** results of all operations are 32 bytes, encodings of subgroup elements *)
  Lemma run_valid p ms i b st : m_run m_empty p = Some ms -> sh_run E H g1 g2 sh_empty p = Ok st -> st i = Some b ->
    length b = 32%nat /\ sh_from_bytes E b = Ok b /\
    (forall p' ms' st' i' b', m_run m_empty p' = Some ms' -> sh_run E H g1 g2 sh_empty p' = Ok st' -> st' i' = Some b' ->
       (sh_eq b b' = true <-> b = b')).
  Proof.
    assert (G : forall p ms i b st, m_run m_empty p = Some ms -> sh_run E H g1 g2 sh_empty p = Ok st -> st i = Some b ->
      length b = 32%nat /\ sh_from_bytes E b = Ok b).
    { clear p ms i b st. intros p ms i b st Hp Hs Hb. destruct (sh_run_ok _ _ _ _ repr_empty Hp) as (st' & E1 & R1).
      assert (st' = st) by congruence. subst st'. pose proof (R1 i) as Ri. rewrite Hb in Ri. destruct (ms i) as [m|]; [|destruct Ri].
      split; [|eapply repr_data; exact Ri]. destruct Ri as (h & a & _ & _ & ->). apply (L_len _ _ HL). }
    intros Hp Hs Hb. destruct (G _ _ _ _ _ Hp Hs Hb) as [L1 L2]. split; [exact L1|]. split; [exact L2|].
    intros p' ms' st' i' b' Hp' Hs' Hb'. destruct (G _ _ _ _ _ Hp' Hs' Hb') as [L1' _]. apply sh_eq_spec; assumption.
  Qed.
End P.
