From Verif Require Import BaseFacts KeyVal PrgModel PrgSpec PrgProofs RcprfModel RcprfSpec RcprfProofs RcprfProofs2 RcprfProofs3.

Lemma last_default {A} (l : list A) a b : l <> [] -> last l a = last l b.
Proof. induction l as [|x l IH]; [congruence|]. intros _. destruct l; [reflexivity|]. simpl. apply IH. discriminate. Qed.

Lemma tiles_min_max c lo hi : tiles (c_elts c) lo hi -> lo <= hi -> c_min c = lo /\ c_max c = hi.
Proof.
  unfold c_min, c_max. destruct (c_elts c) as [|e l]; simpl; [lia|]. intros (Ha & Hb & Hc) Hle. split; [assumption|].
  clear Ha. revert e Hb Hc. induction l as [|x l IH]; intros e Hb Hc.
  - simpl in Hc. simpl. lia.
  - destruct Hc as (Hd & He & Hf). specialize (IH x He Hf).
    destruct l as [|y l']; [exact IH|]. rewrite <- IH. f_equal. change (last (y :: l') e = last (y :: l') x).
    apply last_default. discriminate.
Qed.

  Lemma tiles_nonempty l lo hi : tiles l lo hi -> lo <= hi -> l <> [].
  Proof. intros T H E. subst l. simpl in T. lia. Qed.
  Lemma shr_zero x n : 0 <= x -> 0 <= n -> (Z.shiftr x n =? 0) = (x <? 2 ^ n).
  Proof.
    intros Hx Hn. rewrite Z.shiftr_div_pow2 by lia. pose proof (Z.pow_pos_nonneg 2 n ltac:(lia) Hn) as P.
    destruct (Z.ltb_spec x (2 ^ n)) as [H|H].
    - rewrite Z.div_small by lia. reflexivity.
    - assert (1 <= x / 2 ^ n) by (apply Z.div_le_lower_bound; lia). lia.
  Qed.
  Lemma root_whole h n : h = Z.of_nat n + 1 -> (0 + 1) * 2 ^ Z.of_nat n - 1 = 2 ^ (h - 1) - 1.
  Proof. intros ->. rewrite Z.mul_1_l. do 2 f_equal. lia. Qed.

Section Proofs.
  Context (blk : bytes -> Z -> bytes) (ml dbg : bool) (N : Z) (gN gK : bytes).
  Context (HN : 1 <= N < 2 ^ 16) (HgN : zlen gN = N) (HgK : zlen gK = 32).
  Notation node := (node_key blk).
  Notation value := (leaf_value blk N).
  Notation ckey := (child_key blk).
  Notation sub_of := (subtree_of blk ml N).
  Notation dec := (decompose blk ml N).
  Notation lvs := (leaves blk N).

  (** ** RCPrf *)

  Lemma rc_eval_ok R h l leaf : 2 <= h <= 63 -> 0 <= leaf < 2 ^ h ->
    rc_eval blk ml dbg N gN gK (mk_rcprf h (VKey R l)) leaf = (mk_rcprf h (VKey R ml), Ok (value R h leaf)).
  Proof.
    intros Hh Hl. unfold rc_eval, shr64. simpl r_height. replace (_ && _) with true by lia.
    simpl kbind. rewrite shr_zero by lia. replace (leaf <? 2 ^ h) with true by lia. simpl negb. cbv iota.
    simpl r_key. simpl r_height. rewrite derive_leaf_ok by lia. rewrite Z.sub_0_r. reflexivity.
  Qed.
  Lemma rc_eval_reject h k leaf : 1 <= h <= 63 -> 2 ^ h <= leaf ->
    rc_eval blk ml dbg N gN gK (mk_rcprf h k) leaf = (mk_rcprf h k, Throw OutOfRange).
  Proof.
    intros Hh Hl. pose proof (Z.pow_pos_nonneg 2 h ltac:(lia) ltac:(lia)). 
    unfold rc_eval, shr64. simpl r_height. replace (_ && _) with true by lia.
    simpl kbind. rewrite shr_zero by lia. replace (leaf <? 2 ^ h) with false by lia. reflexivity.
  Qed.
  Lemma rc_eval_range_reject h k mn mx : 1 <= h <= 63 -> 2 ^ h <= mx ->
    rc_eval_range blk ml dbg N gN gK (mk_rcprf h k) mn mx = (mk_rcprf h k, [], Throw OutOfRange).
  Proof.
    intros Hh Hl. pose proof (Z.pow_pos_nonneg 2 h ltac:(lia) ltac:(lia)). 
    unfold rc_eval_range, shr64. simpl r_height. replace (_ && _) with true by lia.
    rewrite shr_zero by lia. replace (mx <? 2 ^ h) with false by lia. reflexivity.
  Qed.
  Lemma rc_eval_range_reversed h k mn mx : 1 <= h <= 63 -> 0 <= mx < mn -> mx < 2 ^ h ->
    rc_eval_range blk ml dbg N gN gK (mk_rcprf h k) mn mx = (mk_rcprf h k, [], Throw InvalidArgument).
  Proof.
    intros Hh Hl Hx. 
    unfold rc_eval_range, shr64. simpl r_height. replace (_ && _) with true by lia.
    rewrite shr_zero by lia. replace (mx <? 2 ^ h) with true by lia. simpl negb. cbv iota.
    replace (mx <? mn) with true by lia. reflexivity.
  Qed.

  Lemma sub_leaves_leaves R h mn mx : sub_leaves blk N R h 0 mn mx = lvs R h mn mx.
  Proof. reflexivity. Qed.

  Lemma rc_eval_range_ok R h l mn mx : 2 <= h <= 63 -> 0 <= mn <= mx -> mx < 2 ^ (h - 1) ->
    rc_eval_range blk ml dbg N gN gK (mk_rcprf h (VKey R l)) mn mx =
      (mk_rcprf h (VKey R ml), lvs R h mn mx, Ok tt).
  Proof.
    intros Hh Hm Hx. unfold rc_eval_range, shr64. simpl r_height. replace (_ && _) with true by lia.
    assert (2 ^ (h - 1) < 2 ^ h) by (apply Z.pow_lt_mono_r; lia).
    assert (2 ^ (h - 1) < 2 ^ 64) by (apply Z.pow_lt_mono_r; lia).
    rewrite shr_zero by lia. replace (mx <? 2 ^ h) with true by lia. simpl negb. cbv iota.
    replace (mx <? mn) with false by lia.
    simpl r_key. rewrite derive_leaf_range_ok; try lia; [|rewrite Z.sub_0_r; lia..].
    rewrite Z.sub_0_r, sub_leaves_leaves. reflexivity.
  Qed.


  Lemma rc_gen_ok R h l mn mx : 2 <= h <= 64 -> 0 <= mn <= mx -> mx < 2 ^ (h - 1) -> ~ (mn = 0 /\ mx = 2 ^ (h - 1) - 1) ->
    let els := dec R h (Z.to_nat (h - 1)) 0 mn mx in
    rc_gen blk ml dbg N gN gK (mk_rcprf h (VKey R l)) mn mx = (mk_rcprf h (VKey R ml), Ok els) /\
    Forall (sub_of R h) els /\ tiles els mn mx /\ 1 <= zlen els <= 2 * (h - 1).
  Proof.
    intros Hh Hm Hx Hn els. unfold rc_gen. simpl r_height. simpl r_key.
    replace (mx <? mn) with false by lia. rewrite max_leaf_index_ok by lia.
    replace (2 ^ (h - 1) - 1 <? mx) with false by lia. replace (_ && _) with false by lia.
    assert (P : 2 ^ Z.of_nat (Z.to_nat (h - 1)) = 2 ^ (h - 1)) by (f_equal; lia).
    pose proof (gen_dec blk ml dbg N gN gK HN HgN HgK R h (Z.to_nat (h - 1)) (Z.to_nat h) l h 0 mn mx) as G.
    cbv zeta in G. rewrite P, Z.sub_diag, Z.mul_0_l, Z.add_0_l, Z.mul_1_l in G.
    assert (G' := G ltac:(lia) ltac:(lia) ltac:(lia) ltac:(lia) ltac:(lia) ltac:(lia) ltac:(lia) ltac:(lia)). clear G.
    simpl node_key in G'. 
    pose proof (gen_subkeys_ok blk ml dbg N gN gK HN HgN HgK R h (Z.to_nat h) l h 0 mn mx) as G.
    cbv zeta in G. rewrite Z.sub_diag, Z.mul_0_l, Z.add_0_l, Z.mul_1_l in G.
    destruct G as (els' & Ge & Gf & Gt & Gc); [lia|lia|lia|lia|lia|lia|lia|].
    change (node R (Z.to_nat 0) 0) with R in Ge, G'.
    assert (els' = els).
    { rewrite G' in Ge. inversion Ge. reflexivity. }
    subst els'. rewrite G'. split; [reflexivity|]. split; [assumption|]. split; [assumption|].
    unfold nelts_bound in Gc. destruct (_ || _) in Gc; lia.
  Qed.

  Lemma sub_of_height R h l : Forall (sub_of R h) l -> Forall (fun e => e_height e = h) l.
  Proof. clear HN HgN HgK. intros H. eapply Forall_impl; [|exact H]. intros [h' st mn mx k|h' lf b] Hs; simpl in *; apply Hs. Qed.


  Lemma rc_constrain_ok R h l mn mx : 2 <= h <= 64 -> 0 <= mn <= mx -> mx < 2 ^ (h - 1) -> ~ (mn = 0 /\ mx = 2 ^ (h - 1) - 1) ->
    let c := mk_crcprf h (dec R h (Z.to_nat (h - 1)) 0 mn mx) in
    rc_constrain blk ml dbg N gN gK (mk_rcprf h (VKey R l)) mn mx = (mk_rcprf h (VKey R ml), Ok c) /\
    constrained_to blk ml N R h mn mx c /\ 1 <= zlen (c_elts c) <= 2 * (h - 1).
  Proof.
    intros Hh Hm Hx Hn c. pose proof (rc_gen_ok R h l mn mx Hh Hm Hx Hn) as (Ge & Gf & Gt & Gc).
    assert (2 ^ (h - 1) <= 2 ^ 63) by (apply Z.pow_le_mono_r; lia).
    split; [|split; [repeat split; try assumption; simpl; lia|exact Gc]].
    unfold rc_constrain. rewrite Ge, bind_Ok.
    rewrite (mk_c_ok h _ mn mx); [reflexivity|assumption|eapply tiles_nonempty; [exact Gt|lia]|
      eapply sub_of_height; exact Gf|lia|lia].
  Qed.

  Lemma c_constrain_ok R h lo hi mn mx : 2 <= h <= 64 -> 0 <= lo -> hi < 2 ^ (h - 1) -> ~ (lo = 0 /\ hi = 2 ^ (h - 1) - 1) ->
    lo <= mn -> mn <= mx -> mx <= hi ->
    let c := mk_crcprf h (dec R h (Z.to_nat (h - 1)) 0 lo hi) in
    let c' := mk_crcprf h (dec R h (Z.to_nat (h - 1)) 0 mn mx) in
    c_constrain blk ml dbg N gN gK c mn mx = (c, Ok c').
  Proof.
    intros Hh H0 H1 Hn Ha Hb Hc c c'.
    pose proof (rc_constrain_ok R h ml lo hi Hh ltac:(lia) H1 Hn) as (_ & (_ & _ & _ & T) & _).
    destruct (tiles_min_max _ _ _ T ltac:(lia)) as [Emin Emax].
    pose proof (rc_gen_ok R h ml mn mx Hh ltac:(lia) ltac:(lia) ltac:(lia)) as (_ & Gf & Gt & Gc).
    assert (2 ^ (h - 1) <= 2 ^ 63) by (apply Z.pow_le_mono_r; lia).
    unfold c_constrain, c_gen. unfold c. rewrite Emin, Emax. replace (_ || _) with false by lia.
    simpl c_elts. 
    assert (P : 2 ^ Z.of_nat (Z.to_nat (h - 1)) = 2 ^ (h - 1)) by (f_equal; lia).
    pose proof (c_gen_dec blk ml dbg N gN gK HN HgN HgK R h (Z.to_nat (h - 1)) 0 lo hi mn mx Hh) as G.
    rewrite P in G. replace (h - (Z.of_nat (Z.to_nat (h - 1)) + 1)) with 0 in G by lia. change (2 ^ 0) with 1 in G.
    rewrite G by lia. clear G.
    replace (Z.max mn lo) with mn by lia. replace (Z.min mx hi) with mx by lia.
    rewrite bind_Ok. rewrite (mk_c_ok h _ mn mx); [reflexivity|assumption|eapply tiles_nonempty; [exact Gt|lia]|
      eapply sub_of_height; exact Gf|lia|lia].
  Qed.

  (** ** Evaluation of constrained keys *)
  Lemma e_eval_ok R h e leaf : h <= 64 -> sub_of R h e -> e_min e <= leaf <= e_max e ->
    e_eval blk ml dbg N gN gK e leaf = (e, Ok (value R h leaf)).
  Proof.
    intros Hh Hs Hl. destruct e as [h' st mn mx k|h' lf b]; simpl in *.
    - destruct Hs as (-> & Hst & idx & Hidx & -> & -> & ->).
      pose proof (pow2_nodes h st idx ltac:(lia) Hidx) as (P0 & P1 & P2).
      replace (leaf <? _) with false by lia. replace (_ <? leaf) with false by lia.
      rewrite u8_id by lia. rewrite derive_leaf_ok by lia. replace (h - (h - st)) with st by lia. f_equal. f_equal.
      rewrite <- value_mod by lia.
      replace (leaf mod 2 ^ (st - 1)) with (leaf - idx * 2 ^ (st - 1)).
      + rewrite value_in_subtree by lia. f_equal. lia.
      + replace leaf with (leaf - idx * 2 ^ (st - 1) + idx * 2 ^ (st - 1)) at 2 by lia. rewrite Z.mod_add by lia.
        rewrite Z.mod_small by lia. reflexivity.
    - destruct Hs as (-> & Hlf & ->). replace (leaf =? lf) with true by lia. simpl. do 3 f_equal. lia.
  Qed.

  Lemma c_eval_loop_ok R h leaf : h <= 64 -> forall els lo hi, Forall (sub_of R h) els -> tiles els lo hi -> lo <= leaf <= hi ->
    c_eval_loop blk ml dbg N gN gK els leaf = (els, Ok (value R h leaf)).
  Proof.
    intros Hh. induction els as [|e els IH]; intros lo hi Hs T Hl; simpl in T; [lia|].
    destruct T as (Ta & Tb & Tc). apply Forall_cons_iff in Hs; destruct Hs as [Hs1 Hs2]; subst lo. cbn [c_eval_loop].
    destruct ((e_min e <=? leaf) && (leaf <=? e_max e)) eqn:C.
    - rewrite (e_eval_ok R h) by (assumption || lia). reflexivity.
    - rewrite (IH (e_max e + 1) hi Hs2 Tc) by lia. reflexivity.
  Qed.

  Lemma c_eval_ok R h lo hi c leaf : h <= 64 -> constrained_to blk ml N R h lo hi c -> 
    c_eval blk ml dbg N gN gK c leaf =
      (c, if (lo <=? leaf) && (leaf <=? hi) then Ok (value R h leaf) else Throw OutOfRange).
  Proof.
    intros Hh (Ec & Hle & Hs & T). destruct (tiles_min_max _ _ _ T Hle) as [Emin Emax].
    unfold c_eval. rewrite Emin, Emax. destruct ((lo <=? leaf) && (leaf <=? hi)) eqn:C.
    - replace (_ || _) with false by lia. rewrite (c_eval_loop_ok R h leaf Hh _ lo hi Hs T) by lia.
      destruct c; reflexivity.
    - replace (_ || _) with true by lia. reflexivity.
  Qed.

  Lemma leaves_empty R h a b : b < a -> lvs R h a b = [].
  Proof. intros. unfold leaves. replace (Z.to_nat (b - a + 1)) with 0%nat by lia. reflexivity. Qed.
  Lemma leaves_split R h a b c : a <= b + 1 -> b <= c -> lvs R h a b ++ lvs R h (b + 1) c = lvs R h a c.
  Proof. clear HN HgN HgK. intros. unfold leaves. rewrite <- map_app. rewrite <- zseq_split by assumption. reflexivity. Qed.

  Lemma e_eval_range_ok R h e a b acc : h <= 64 -> sub_of R h e -> e_min e <= a -> a <= b -> b <= e_max e ->
    e_eval_range blk ml dbg N gN gK e a b acc = (e, acc ++ lvs R h a b, Ok tt).
  Proof.
    intros Hh Hs H1 H2 H3. destruct e as [h' st mn mx k|h' lf bb]; simpl in *.
    - destruct Hs as (-> & Hst & idx & Hidx & -> & -> & ->).
      pose proof (pow2_nodes h st idx ltac:(lia) Hidx) as (P0 & P1 & P2).
      assert (2 ^ (h - 1) <= 2 ^ 63) by (apply Z.pow_le_mono_r; lia).
      replace (b <? a) with false by lia. replace (_ || _) with false by lia.
      rewrite u8_id by lia. rewrite !u64_id by lia.
      rewrite derive_leaf_range_ok; try lia; [|replace (h - (h - st) - 1) with (st - 1) by lia; lia..].
      replace (h - (h - st)) with st by lia. do 3 f_equal.
      unfold sub_leaves, leaves. replace (b - a + 1) with (b - idx * 2 ^ (st - 1) - (a - idx * 2 ^ (st - 1)) + 1) by lia.
      set (t := idx * 2 ^ (st - 1)) in *. remember (Z.to_nat (b - t - (a - t) + 1)) as n eqn:En.
      replace (zseq a n) with (zseq (a - t + t) n) by (f_equal; lia).
      rewrite map_zseq_shift. apply map_ext_in. intros i Hi. apply zseq_In in Hi. 
      unfold t. rewrite value_in_subtree by lia. fold t. f_equal; [lia|f_equal; lia].
    - destruct Hs as (-> & Hlf & ->). replace (b =? a) with true by lia. replace (a =? lf) with true by lia. simpl.
      unfold leaves. replace (Z.to_nat (b - a + 1)) with 1%nat by lia. simpl. assert (a = lf) as -> by lia. reflexivity.
  Qed.

  Lemma c_range_loop_ok R h mn mx : h <= 64 -> mn <= mx -> forall els lo hi acc, Forall (sub_of R h) els -> tiles els lo hi ->
    c_range_loop blk ml dbg N gN gK els mn mx acc = (els, acc ++ lvs R h (Z.max mn lo) (Z.min mx hi), Ok tt).
  Proof.
    intros Hh Hm. induction els as [|e els IH]; intros lo hi acc Hs T.
    - simpl in T. simpl. rewrite leaves_empty by lia. rewrite app_nil_r. reflexivity.
    - destruct T as (Ta & Tb & Tc). apply Forall_cons_iff in Hs; destruct Hs as [Hs1 Hs2]; subst lo. cbn [c_range_loop].
      pose proof (tiles_le _ _ _ Tc).
      destruct (Z.ltb_spec mx (e_min e)) as [H1|H1].
      + rewrite leaves_empty by lia. rewrite app_nil_r. reflexivity.
      + unfold ranges_intersect. destruct ((mn <=? e_max e) && (e_min e <=? mx)) eqn:C.
        * rewrite (e_eval_range_ok R h) by (assumption || lia). rewrite (IH (e_max e + 1) hi _ Hs2 Tc).
          rewrite <- app_assoc. do 3 f_equal.
          destruct (Z.le_gt_cases mx (e_max e)).
          -- rewrite (leaves_empty R h (Z.max mn (e_max e + 1))) by lia. rewrite app_nil_r. f_equal; lia.
          -- replace (Z.max mn (e_max e + 1)) with (e_max e + 1) by lia. replace (Z.min mx (e_max e)) with (e_max e) by lia.
             apply leaves_split; lia.
        * rewrite (IH (e_max e + 1) hi _ Hs2 Tc). do 4 f_equal. lia.
  Qed.

  Lemma c_eval_range_ok R h lo hi c mn mx : h <= 64 -> constrained_to blk ml N R h lo hi c ->
    c_eval_range blk ml dbg N gN gK c mn mx =
      (c, if (lo <=? mn) && (mn <=? mx) && (mx <=? hi) then lvs R h mn mx else [],
          if mx <? mn then Throw InvalidArgument else if (lo <=? mn) && (mx <=? hi) then Ok tt else Throw OutOfRange).
  Proof.
    intros Hh (Ec & Hle & Hs & T). destruct (tiles_min_max _ _ _ T Hle) as [Emin Emax].
    unfold c_eval_range. rewrite Emin, Emax. destruct (Z.ltb_spec mx mn) as [H|H].
    - replace (_ && _) with false by lia. reflexivity.
    - destruct ((mn <? lo) || (hi <? mx)) eqn:C.
      + replace ((lo <=? mn) && (mn <=? mx) && (mx <=? hi)) with false by lia. 
        replace ((lo <=? mn) && (mx <=? hi)) with false by lia. reflexivity.
      + rewrite (c_range_loop_ok R h mn mx Hh H _ lo hi [] Hs T). 
        replace ((lo <=? mn) && (mn <=? mx) && (mx <=? hi)) with true by lia. 
        replace ((lo <=? mn) && (mx <=? hi)) with true by lia.
        replace (Z.max mn lo) with mn by lia. replace (Z.min mx hi) with mx by lia. destruct c; reflexivity.
  Qed.

  Lemma c_constrain_outside c mn mx : mn < c_min c \/ c_max c < mx -> 
    c_constrain blk ml dbg N gN gK c mn mx = (c, Throw OutOfRange).
  Proof. intros H. unfold c_constrain, c_gen. replace (_ || _) with true by lia. reflexivity. Qed.
End Proofs.
