From Verif Require Import Base BaseFacts KeyVal HmacModel HmacSpec HmacProofs HmacProofs2 PrfObjModel PrfObjSpec.
From Coq Require Import Lia.

Section Proofs.
  Variable H : bytes -> bytes.
  Variable ml : bool.
  Variable g : Z -> bytes.
  Variable NB : Z.
  Hypothesis LH : forall y, zlen (H y) = 64.
  Hypothesis LG : sized g.
  Hypothesis LN : 0 < NB <= 65472.

  Lemma value_ok kb l msg : zlen kb = 32 -> zlen msg < 2 ^ 63 ->
    prf H ml g NB (VKey kb l) (Some msg) (zlen msg) (g NB) (g (zlen msg + 1)) = (VKey kb ml, Ok (prf_value H NB kb msg)).
  Proof.
    intros K M. pose proof (zlen_nonneg msg).
    pose proof (prf_ctr H ml g kb l msg [] (g NB) (g (zlen msg + 1)) NB LH LG K LN M) as E. rewrite app_nil_r in E.
    apply E; apply LG; lia.
  Qed.
  Lemma value_len kb msg : zlen kb = 32 -> zlen msg < 2 ^ 63 -> zlen (prf_value H NB kb msg) = NB.
  Proof.
    intros K M. pose proof (zlen_nonneg msg).
    destruct (prf_overloads H ml g kb true msg (g NB) (g (zlen msg + 1)) NB LH LG K LN M) as (o & L & E & _); try (apply LG; lia).
    specialize (E []). rewrite app_nil_r in E. rewrite value_ok in E by assumption. injection E as E. rewrite E. exact L.
  Qed.
  Lemma no_value msg : ml = true -> prf H ml g NB VEmpty (Some msg) (zlen msg) (g NB) (g (zlen msg + 1)) = (VEmpty, Throw RuntimeError).
  Proof.
    intros ->. pose proof (zlen_nonneg msg). unfold prf. destruct (64 <? NB) eqn:B.
    - rewrite rd_all by reflexivity. cbn [bind].
      assert (W : exists t, wr (g (zlen msg + 1)) 0 msg = Ok t) by (eexists; apply wr_ok; [lia|]; rewrite LG; lia).
      destruct W as (t & W). rewrite W.
      assert (T : zlen t = zlen msg + 1) by (unfold zlen at 1; rewrite (wr_length _ _ _ _ W); apply LG; lia).
      unfold prf_fuel. change (Z.to_nat 1025) with (S (Z.to_nat 1024)). cbn [prf_loop].
      replace (0 <? NB) with true by (symmetry; apply Z.ltb_lt; lia).
      assert (W' : exists t', wr t (zlen msg) [0] = Ok t') by (eexists; apply wr_ok; [lia|]; change (zlen [0]) with 1; lia).
      destruct W' as (t' & W'). rewrite W'. unfold base_hmac, hmac. cbn [v_unlock].
      apply Z.ltb_lt in B. replace (64 <=? NB - 0) with true by (symmetry; apply Z.leb_le; lia). reflexivity.
    - apply Z.ltb_ge in B. unfold base_hmac, hmac. replace (64 <? NB) with false by (symmetry; apply Z.ltb_ge; lia). reflexivity.
  Qed.

  Definition lens (f : keys) : Prop := forall i b, f i = Some b -> zlen b = 32.
  Lemma put_hold f objs i x k : prf_memory ml f objs -> k = match x with Some b => VKey b ml | None => VEmpty end -> prf_memory ml (hold f i x) (put objs i k).
  Proof. intros M -> j. unfold hold, put. destruct (Nat.eqb j i); [reflexivity|apply M]. Qed.
  Lemma put_same f objs i k : prf_memory ml f objs -> k = objs i -> prf_memory ml f (put objs i k).
  Proof. intros M -> j. unfold put. destruct (Nat.eqb_spec j i) as [->|]; apply M. Qed.
  Lemma hold_lens f i x : lens f -> (forall b, x = Some b -> zlen b = 32) -> lens (hold f i x).
  Proof. intros L X j b. unfold hold. destruct (Nat.eqb j i); [apply X|apply L]. Qed.

  Lemma step_ok f objs op : lens f -> prf_memory ml f objs -> typed NB op ->
    (ml = true \/ match op with PEval s _ | PDerive _ s _ => f s <> None | _ => True end) ->
    lens (fst (a_step H NB f op)) /\ prf_memory ml (fst (a_step H NB f op)) (fst (p_step H ml g NB objs op)) /\
    snd (p_step H ml g NB objs op) = snd (a_step H NB f op).
  Proof.
    intros L M T U. destruct op as [d b|d s|s msg|d s msg|s|s]; cbn [a_step p_step typed] in *.
    - cbn [p_store v_make prf_ctor v_is_empty fst snd]. split; [apply hold_lens; [exact L|]; intros ? [= <-]; exact T|]. split; [|reflexivity].
      apply put_hold; [exact M|reflexivity].
    - unfold p_move. destruct (Nat.eqb_spec d s) as [->|N]; cbn [fst snd]; [repeat split; assumption|]. split.
      + apply hold_lens; [apply hold_lens; [exact L|discriminate]|]. intros b E. exact (L s b E).
      + split; [|reflexivity]. intros j. unfold put, hold. destruct (Nat.eqb_spec j s) as [->|].
        * destruct (Nat.eqb_spec s d) as [->|]; [congruence|reflexivity].
        * destruct (Nat.eqb j d); apply M.
    - pose proof (M s) as E. rewrite E. destruct (f s) as [kb|] eqn:F; cbn [of_key fst snd].
      + rewrite value_ok by (try exact T; exact (L s kb F)). cbn [fst snd]. split; [exact L|]. split; [apply put_same; [exact M|symmetry; exact E]|reflexivity].
      + destruct U as [U|U]; [|congruence]. rewrite no_value by exact U. cbn [fst snd]. split; [exact L|]. split; [apply put_same; [exact M|symmetry; exact E]|reflexivity].
    - destruct T as (N & T). pose proof (M s) as E. rewrite E. unfold prf_derive_key. destruct (f s) as [kb|] eqn:F; cbn [of_key fst snd].
      + rewrite value_ok by (try exact T; exact (L s kb F)). cbn [p_store v_make prf_ctor v_is_empty fst snd].
        split; [apply hold_lens; [exact L|]; intros ? [= <-]; rewrite value_len; [exact N|exact (L s kb F)|exact T]|]. split; [|reflexivity].
        apply put_hold; [|reflexivity]. apply put_same; [exact M|symmetry; exact E].
      + destruct U as [U|U]; [|congruence]. rewrite no_value by exact U. cbn [fst snd]. split; [exact L|]. split; [apply put_same; [exact M|symmetry; exact E]|reflexivity].
    - pose proof (M s) as E. rewrite E. destruct (f s) as [kb|] eqn:F; cbn [of_key prf_serialize v_unlock v_serialize v_lock fst snd];
        (split; [exact L|]; split; [apply put_same; [exact M|symmetry; exact E]|reflexivity]).
    - cbn [fst snd]. split; [apply hold_lens; [exact L|discriminate]|]. split; [|reflexivity]. apply put_hold; [exact M|reflexivity].
  Qed.
  Lemma run_ok l : forall f objs, lens f -> prf_memory ml f objs -> Forall (typed NB) l -> (ml = true \/ held_when_used H NB f l) ->
    snd (p_run H ml g NB objs l) = snd (a_run H NB f l) /\ prf_memory ml (fst (a_run H NB f l)) (fst (p_run H ml g NB objs l)).
  Proof.
    induction l as [|op l IH]; intros f objs L M T U; cbn [p_run a_run]; [split; [reflexivity|exact M]|].
    apply Forall_cons_iff in T. destruct T as (T & Ts).
    destruct (step_ok f objs op L M T) as (L' & M' & E).
    { destruct U as [U|(U & _)]; [left; exact U|right; exact U]. }
    destruct (p_step H ml g NB objs op) as (objs' & x). destruct (a_step H NB f op) as (f' & x') eqn:A. cbn [fst snd] in *. subst x'.
    destruct (IH f' objs' L' M' Ts) as (E' & M'').
    { destruct U as [U|(_ & U)]; [left; exact U|right]. rewrite A in U. exact U. }
    destruct (p_run H ml g NB objs' l). destruct (a_run H NB f' l). cbn [fst snd] in *. split; [f_equal; exact E'|exact M''].
  Qed.
  Lemma programs_ok l : Forall (typed NB) l -> (ml = true \/ held_when_used H NB (fun _ => None) l) ->
    snd (p_run H ml g NB (fun _ => VEmpty) l) = snd (a_run H NB (fun _ => None) l) /\
    prf_memory ml (fst (a_run H NB (fun _ => None) l)) (fst (p_run H ml g NB (fun _ => VEmpty) l)).
  Proof. intros T U. apply run_ok; [intros i b; discriminate|intros i; reflexivity|exact T|exact U]. Qed.
End Proofs.
