(** Lemmas for C146. *)
From Coq Require Import Lia.
From Verif Require Import Base BaseFacts KeyVal PrgModel PrgSpec PrgProofs RcprfModel RcprfSpec RcprfProofs RcprfProofs2 RcprfProofs3 RcprfProofs4 RcprfProofs5 RcprfProofs6 RcCallModel RcCallSpec.

Section Turn.
  Context (F X : Type) (cb : F -> X -> Z -> bytes -> F * (X * outcome unit)).
  Context (K : keeps_state F X cb).
  Notation turn := (in_turn F X cb).
  Lemma turn_keeps l : forall f x, fst (turn f x l) = f.
  Proof.
    induction l as [|[i v] l IH]; intros f x; cbn [in_turn]; [reflexivity|].
    pose proof (K f x i v) as E. destruct (cb f x i v) as [f1 [x1 [u|e| | |]]]; simpl in E; subst f1; try reflexivity. apply IH.
  Qed.
  Lemma turn_app a b : forall f x, snd (turn f x (a ++ b)) = match snd (turn f x a) with (x', Ok _) => snd (turn f x' b) | r => r end.
  Proof.
    induction a as [|[i v] a IH]; intros f x; cbn [in_turn app]; [reflexivity|].
    pose proof (K f x i v) as E. destruct (cb f x i v) as [f1 [x1 [u|e| | |]]]; simpl in E; subst f1; try reflexivity. apply IH.
  Qed.
  Lemma turn_one f x i v : snd (turn f x [(i, v)]) = match snd (cb f x i v) with (x', Ok _) => (x', Ok tt) | r => r end.
  Proof. cbn [in_turn]. pose proof (K f x i v) as E. destruct (cb f x i v) as [f1 [x1 [u|e| | |]]]; reflexivity. Qed.
End Turn.
Lemma unit_ok {X} (r : X * outcome unit) : match r with (x, Ok _) => (x, Ok tt) | r => r end = r.
Proof. destruct r as [x [[]|e| | |]]; reflexivity. Qed.

Section Proofs.
  Context (blk : bytes -> Z -> bytes) (ml dbg : bool) (N : Z) (gN gK : bytes).
  Context (HN : 1 <= N < 2 ^ 16) (HgN : zlen gN = N) (HgK : zlen gK = 32).
  Context (F X : Type) (cb : F -> X -> Z -> bytes -> F * (X * outcome unit)).
  Context (K : keeps_state F X cb).
  Notation turn f x l := (snd (in_turn F X cb f x l)).
  Notation value := (leaf_value blk N).
  Notation ckey := (child_key blk).
  Notation sub_of := (subtree_of blk ml N).
  Notation lvs := (leaves blk N).
  Notation dcb := (derive_leaf_range_cb blk ml dbg N gN gK F X cb).

  Lemma derive_cb_ok fuel : forall kk l h base off mn mx f x,
    0 <= base -> base + 2 <= h <= base + 64 -> h < 256 -> (Z.to_nat (h - base - 1) <= fuel)%nat ->
    0 <= mn <= mx -> mx < 2 ^ (h - base - 1) -> 0 <= off -> off + 2 ^ (h - base - 1) <= 2 ^ 64 ->
    dcb fuel (VKey kk l) h base off mn mx f x = (VKey kk ml, turn f x (sub_leaves blk N kk (h - base) off mn mx)).
  Proof.
    induction fuel as [|fuel IH]; intros kk l h base off mn mx f x Hb Hh Hh2 Hf Hmn Hmx Hoff Hoff2; [lia|].
    cbn [derive_leaf_range_cb].
    replace (mn <=? mx) with true by lia. replace (base + 1 <? h) with true by lia. simpl negb. rewrite !andb_false_r.
    destruct (Z.eqb_spec h (base + 2)) as [E|E].
    - replace (h - base - 1) with 1 in * by lia. change (2 ^ 1) with 2 in *.
      replace (h - base) with 2 by lia.
      rewrite (u64_id (mx - mn)) by lia. replace (mx - mn <=? 1) with true by lia. simpl negb. rewrite andb_false_r.
      rewrite get_child_ok by lia. replace (h - base - 2) with 0 by lia. change (2 ^ 0) with 1. rewrite Z.div_1_r.
      cbn [kbind]. rewrite Z.mod_small by lia. rewrite (leaf_derive_ok blk ml N gN HN HgN) by lia.
      rewrite (u64_id (off + mn)), (u64_id (off + mx)) by lia.
      unfold sub_leaves.
      destruct (Z.eqb_spec mn mx) as [->|Hne]; cbn [negb].
      + rewrite zseq_one by lia. cbn [map]. rewrite turn_one by exact K. unfold leaf_value. simpl node_key. change (Z.to_nat (2 - 2)) with 0%nat. cbn [node_key].
        rewrite Z.mod_small by lia. destruct (cb _ _ _ _) as [f1 [x1 [[]|e| | |]]]; reflexivity.
      + rewrite (leaf_derive_ok blk ml N gN HN HgN) by lia. rewrite zseq_two by lia. assert (mn = 0) as -> by lia. assert (mx = 1) as -> by lia.
        cbn [map]. change (0 + 1) with 1. unfold leaf_value. change (Z.to_nat (2 - 2)) with 0%nat. cbn [node_key in_turn]. change (0 mod 2) with 0. change (1 mod 2) with 1.
        pose proof (K f x (off + 0) (leaf_under blk N kk 0)) as E1. destruct (cb f x (off + 0) _) as [f1 [x1 [u|e| | |]]]; simpl in E1; subst f1; try reflexivity.
        destruct (cb f x1 (off + 1) _) as [f2 [x2 [[]|e| | |]]]; reflexivity.
    - replace (2 <? h - base) with true by lia. simpl negb. rewrite andb_false_r.
      rewrite u8_id by lia. rewrite max_leaf_index_ok by lia. rewrite u8_id by lia.
      replace (h - base - 1 - 1) with (h - base - 2) by lia.
      set (T := 2 ^ (h - base - 2)) in *.
      assert (HT : 2 ^ (h - base - 1) = 2 * T).
      { unfold T. rewrite <- pow2_succ by lia. f_equal. lia. }
      assert (HT0 : 0 < T) by (apply Z.pow_pos_nonneg; lia).
      rewrite HT in *.
      assert (S1 : forall b i, 0 <= b <= 1 -> 0 <= i < T -> value (ckey kk b) (h - (base + 1)) i = value kk (h - base) (b * T + i)).
      { intros b i Hbb Hi. replace (h - (base + 1)) with (h - base - 1) by lia. unfold T. apply value_child; [lia|lia|exact Hi]. }
      assert (HTe : 2 ^ (h - (base + 1) - 1) = T) by (unfold T; f_equal; lia).
      assert (L : mn <= T - 1 -> snd (dcb fuel (VKey (ckey kk 0) ml) h (base + 1) off mn (Z.min mx (T - 1)) f x) =
        turn f x (sub_leaves blk N kk (h - base) off mn (Z.min mx (T - 1)))).
      { intros Hl. rewrite IH; try lia. cbn [snd].
        f_equal. f_equal. unfold sub_leaves. apply map_ext_in. intros i Hi. apply zseq_In in Hi.
        rewrite S1 by lia. do 2 f_equal. }
      assert (R : forall a, T - 1 < mx -> snd (dcb fuel (VKey (ckey kk 1) ml) h (base + 1) (off + T)
          (if mn <=? T - 1 then 0 else mn - T) (mx - T) f a) = turn f a (sub_leaves blk N kk (h - base) off (Z.max mn T) mx)).
      { intros a Hr. set (m0 := if mn <=? T - 1 then 0 else mn - T).
        assert (Hm0 : m0 + T = Z.max mn T) by (unfold m0; destruct (Z.leb_spec mn (T - 1)); lia). clearbody m0.
        rewrite IH; try lia. cbn [snd].
        f_equal. f_equal. unfold sub_leaves. rewrite <- Hm0.
        rewrite map_zseq_shift. replace (mx - T - m0 + 1) with (mx - (m0 + T) + 1) by lia.
        apply map_ext_in. intros i Hi. apply zseq_In in Hi.
        rewrite S1 by lia. f_equal; [lia|f_equal; lia]. }
      assert (E1 : u64 (u64 (off + (T - 1)) + 1) = off + T).
      { rewrite (u64_id (off + (T - 1))) by lia. rewrite u64_id by lia. lia. }
      destruct (Z.leb_spec mn (T - 1)) as [Hl|Hl].
      + rewrite (derive_child blk ml gK HgK) by lia. rewrite L by lia.
        destruct (Z.ltb_spec (T - 1) mx) as [Hr|Hr].
        * replace (sub_leaves blk N kk (h - base) off mn mx) with
            (sub_leaves blk N kk (h - base) off mn (Z.min mx (T - 1)) ++ sub_leaves blk N kk (h - base) off (Z.max mn T) mx).
          2:{ unfold sub_leaves. replace (Z.min mx (T - 1)) with (T - 1) by lia. replace (Z.max mn T) with (T - 1 + 1) by lia.
              rewrite <- map_app. rewrite <- zseq_split by lia. reflexivity. }
          rewrite turn_app by exact K.
          destruct (turn f x (sub_leaves blk N kk (h - base) off mn (Z.min mx (T - 1)))) as [x1 [u|e| | |]]; cbn [xbind]; try reflexivity.
          rewrite (derive_child blk ml gK HgK) by lia. rewrite E1. rewrite (u64_id (mx - (T - 1))) by lia. rewrite u64_id by lia.
          replace (mx - (T - 1) - 1) with (mx - T) by lia. rewrite R by lia. reflexivity.
        * replace (Z.min mx (T - 1)) with mx by lia.
          destruct (turn f x (sub_leaves blk N kk (h - base) off mn mx)) as [x1 [[]|e| | |]]; reflexivity.
      + cbn [xbind].
        destruct (Z.ltb_spec (T - 1) mx) as [Hr|Hr]; [|lia].
        rewrite (derive_child blk ml gK HgK) by lia. rewrite E1. rewrite (u64_id (mx - (T - 1))) by lia. rewrite (u64_id (mx - (T - 1) - 1)) by lia.
        rewrite (u64_id (mn - (T - 1))) by lia. rewrite u64_id by lia.
        replace (mx - (T - 1) - 1) with (mx - T) by lia. replace (mn - (T - 1) - 1) with (mn - T) by lia.
        rewrite R by lia. replace (Z.max mn T) with mn by lia. reflexivity.
  Qed.

  Lemma rc_range_cb_ok R h l mn mx f x : 2 <= h <= 63 -> 0 <= mn <= mx -> mx < 2 ^ (h - 1) ->
    rc_eval_range_cb blk ml dbg N gN gK F X cb (mk_rcprf h (VKey R l)) mn mx f x = (mk_rcprf h (VKey R ml), turn f x (lvs R h mn mx)).
  Proof.
    intros Hh Hm Hx. unfold rc_eval_range_cb. cbn [r_height r_key].
    assert (P : 2 ^ (h - 1) <= 2 ^ 63) by (apply Z.pow_le_mono_r; lia).
    assert (Q : 2 ^ (h - 1) < 2 ^ h) by (apply Z.pow_lt_mono_r; lia).
    unfold shr64. replace ((0 <=? h) && (h <? 64)) with true by lia.
    rewrite Z.shiftr_div_pow2 by lia. rewrite Z.div_small by lia. cbn [Z.eqb negb]. replace (mx <? mn) with false by lia.
    rewrite derive_cb_ok; try lia; [|rewrite Z.sub_0_r; lia..].
    rewrite Z.sub_0_r. unfold rset. cbn [r_height]. f_equal.
  Qed.

  Lemma e_range_cb_ok R h e a b f x : h <= 64 -> sub_of R h e -> e_min e <= a -> a <= b -> b <= e_max e ->
    e_eval_range_cb blk ml dbg N gN gK F X cb e a b f x = (e, (f, turn f x (lvs R h a b))).
  Proof.
    intros Hh Hs H1 H2 H3. destruct e as [h' st mn mx k|h' lf bb]; simpl in *.
    - destruct Hs as (-> & Hst & idx & Hidx & -> & -> & ->).
      pose proof (pow2_nodes h st idx ltac:(lia) Hidx) as (P0 & P1 & P2).
      assert (2 ^ (h - 1) <= 2 ^ 63) by (apply Z.pow_le_mono_r; lia).
      replace (b <? a) with false by lia. replace (_ || _) with false by lia.
      rewrite u8_id by lia. rewrite !u64_id by lia.
      rewrite derive_cb_ok; try lia; [|replace (h - (h - st) - 1) with (st - 1) by lia; lia..].
      replace (h - (h - st)) with st by lia. do 4 f_equal.
      unfold sub_leaves, leaves. replace (b - a + 1) with (b - idx * 2 ^ (st - 1) - (a - idx * 2 ^ (st - 1)) + 1) by lia.
      set (t := idx * 2 ^ (st - 1)) in *. remember (Z.to_nat (b - t - (a - t) + 1)) as n eqn:En.
      replace (zseq a n) with (zseq (a - t + t) n) by (f_equal; lia).
      rewrite map_zseq_shift. apply map_ext_in. intros i Hi. apply zseq_In in Hi. 
      unfold t. rewrite value_in_subtree by lia. fold t. f_equal; [lia|f_equal; lia].
    - destruct Hs as (-> & Hlf & ->). replace (b =? a) with true by lia. replace (a =? lf) with true by lia. cbn [negb].
      unfold leaves. replace (Z.to_nat (b - a + 1)) with 1%nat by lia. assert (a = lf) as -> by lia.
      change (zseq lf 1) with [lf]. cbn [map in_turn]. pose proof (K f x lf (value R h lf)) as E.
      destruct (cb f x lf (value R h lf)) as [f1 [x1 [[]|e| | |]]]; simpl in E; subst f1; reflexivity.
  Qed.

  Lemma c_loop_cb_ok R h mn mx : h <= 64 -> mn <= mx -> forall els lo hi f x, Forall (sub_of R h) els -> tiles els lo hi ->
    c_range_loop_cb blk ml dbg N gN gK F X cb els mn mx f x = (els, turn f x (lvs R h (Z.max mn lo) (Z.min mx hi))).
  Proof.
    intros Hh Hm. induction els as [|e els IH]; intros lo hi f x Hs T.
    - simpl in T. cbn [c_range_loop_cb]. rewrite leaves_empty by lia. reflexivity.
    - destruct T as (Ta & Tb & Tc). apply Forall_cons_iff in Hs; destruct Hs as [Hs1 Hs2]; subst lo. cbn [c_range_loop_cb].
      pose proof (tiles_le _ _ _ Tc).
      destruct (Z.ltb_spec mx (e_min e)) as [H1|H1].
      + rewrite leaves_empty by lia. reflexivity.
      + unfold ranges_intersect. destruct ((mn <=? e_max e) && (e_min e <=? mx)) eqn:C.
        * rewrite (e_range_cb_ok R h) by (assumption || lia).
          replace (lvs R h (Z.max mn (e_min e)) (Z.min mx hi)) with
            (lvs R h (Z.max mn (e_min e)) (Z.min mx (e_max e)) ++ lvs R h (Z.max mn (e_max e + 1)) (Z.min mx hi)).
          2:{ destruct (Z.le_gt_cases mx (e_max e)).
              - rewrite (leaves_empty blk N R h (Z.max mn (e_max e + 1))) by lia. rewrite app_nil_r. f_equal; lia.
              - replace (Z.max mn (e_max e + 1)) with (e_max e + 1) by lia. replace (Z.min mx (e_max e)) with (e_max e) by lia.
                apply leaves_split; lia. }
          rewrite turn_app by exact K.
          destruct (turn f x (lvs R h (Z.max mn (e_min e)) (Z.min mx (e_max e)))) as [x1 [u|ex| | |]]; try reflexivity.
          rewrite (IH (e_max e + 1) hi f x1 Hs2 Tc). reflexivity.
        * rewrite (IH (e_max e + 1) hi f x Hs2 Tc). do 4 f_equal. lia.
  Qed.

  Lemma c_range_cb_ok R h lo hi c mn mx f x : h <= 64 -> constrained_to blk ml N R h lo hi c -> lo <= mn -> mn <= mx -> mx <= hi ->
    c_eval_range_cb blk ml dbg N gN gK F X cb c mn mx f x = (c, turn f x (lvs R h mn mx)).
  Proof.
    intros Hh (Ec & Hle & Hs & T) A B C. destruct (tiles_min_max _ _ _ T Hle) as [Emin Emax].
    unfold c_eval_range_cb. rewrite Emin, Emax. replace (mx <? mn) with false by lia. replace (_ || _) with false by lia.
    rewrite (c_loop_cb_ok R h mn mx Hh B _ lo hi f x Hs T).
    replace (Z.max mn lo) with mn by lia. replace (Z.min mx hi) with mx by lia. destruct c; reflexivity.
  Qed.
End Proofs.
