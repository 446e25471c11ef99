From Verif Require Import BaseFacts KeyVal PrgModel PrgSpec PrgProofs RcprfModel RcprfSpec RcprfProofs RcprfProofs2 RcprfProofs3 RcprfProofs4 RcprfProofs5.

Section Proofs.
  Context (blk : bytes -> Z -> bytes) (ml dbg : bool) (N : Z) (gN gK : bytes).
  Context (HN : 1 <= N < 2 ^ 16) (HgN : zlen gN = N) (HgK : zlen gK = 32).
  Notation node := (node_key blk).
  Notation value := (leaf_value blk N).
  Notation sub_of := (subtree_of blk ml N).
  Notation dec := (decompose blk ml N).
  Notation lvs := (leaves blk N).
  Notation ev := (rc_eval blk ml dbg N gN gK).
  Notation evr := (rc_eval_range blk ml dbg N gN gK).
  Notation cev := (c_eval blk ml dbg N gN gK).
  Notation cevr := (c_eval_range blk ml dbg N gN gK).
  Notation con := (rc_constrain blk ml dbg N gN gK).
  Notation ccon := (c_constrain blk ml dbg N gN gK).

  Lemma rc_eval_path R h l leaf : 2 <= h <= 63 -> 0 <= leaf < 2 ^ (h - 1) ->
    ev (mk_rcprf h (VKey R l)) leaf = (mk_rcprf h (VKey R ml), Ok (value R h leaf)).
  Proof.
    intros Hh Hl. apply rc_eval_ok; try assumption. split; [lia|].
    assert (2 ^ (h - 1) < 2 ^ h) by (apply Z.pow_lt_mono_r; lia). lia.
  Qed.

  Lemma rc_alias R h l leaf : 2 <= h <= 63 -> 2 ^ (h - 1) <= leaf < 2 ^ h ->
    snd (ev (mk_rcprf h (VKey R l)) leaf) = snd (ev (mk_rcprf h (VKey R l)) (leaf - 2 ^ (h - 1))) /\
    exists v, snd (ev (mk_rcprf h (VKey R l)) leaf) = Ok v.
  Proof.
    intros Hh Hl. pose proof (Z.pow_pos_nonneg 2 (h - 1) ltac:(lia) ltac:(lia)) as P.
    rewrite !rc_eval_ok by (assumption || lia). simpl. split; [|eauto]. f_equal.
    rewrite <- (value_mod blk N R h leaf) by lia. rewrite <- (value_mod blk N R h (leaf - _)) by lia. f_equal.
    replace leaf with (leaf - 2 ^ (h - 1) + 1 * 2 ^ (h - 1)) at 1 by lia. rewrite Z.mod_add by lia. reflexivity.
  Qed.

  Lemma lvs_calls R h (f : Z -> outcome bytes) mn mx :
    (forall i, mn <= i <= mx -> f i = Ok (value R h i)) ->
    map fst (lvs R h mn mx) = zseq mn (Z.to_nat (mx - mn + 1)) /\
    Forall (fun c => f (fst c) = Ok (snd c)) (lvs R h mn mx).
  Proof.
    clear HN HgN HgK. intros Hf. unfold leaves. split.
    - rewrite map_map. simpl. apply map_id.
    - apply Forall_forall. intros c Hc. apply in_map_iff in Hc. destruct Hc as (i & <- & Hi). apply zseq_In in Hi.
      simpl. apply Hf. lia.
  Qed.

  Lemma rc_range_pointwise R h l mn mx : 2 <= h <= 63 -> 0 <= mn <= mx -> mx < 2 ^ (h - 1) ->
    exists calls, evr (mk_rcprf h (VKey R l)) mn mx = (mk_rcprf h (VKey R ml), calls, Ok tt) /\
      map fst calls = zseq mn (Z.to_nat (mx - mn + 1)) /\
      Forall (fun c => snd (ev (mk_rcprf h (VKey R l)) (fst c)) = Ok (snd c)) calls.
  Proof.
    intros Hh Hm Hx. exists (lvs R h mn mx). split; [apply rc_eval_range_ok; assumption|].
    apply (lvs_calls R h (fun i => snd (ev (mk_rcprf h (VKey R l)) i))). intros i Hi. rewrite rc_eval_path by lia. reflexivity.
  Qed.

  Lemma constrain_agrees R h l lo hi : 2 <= h <= 64 -> 0 <= lo <= hi -> hi < 2 ^ (h - 1) -> ~ (lo = 0 /\ hi = 2 ^ (h - 1) - 1) ->
    exists c, con (mk_rcprf h (VKey R l)) lo hi = (mk_rcprf h (VKey R ml), Ok c) /\
      c_min c = lo /\ c_max c = hi /\
      (forall leaf, lo <= leaf <= hi -> cev c leaf = (c, Ok (value R h leaf))) /\
      (forall leaf, lo <= leaf <= hi -> h <= 63 -> snd (cev c leaf) = snd (ev (mk_rcprf h (VKey R l)) leaf)) /\
      (forall mn mx, lo <= mn <= mx -> mx <= hi ->
         exists calls, cevr c mn mx = (c, calls, Ok tt) /\
           map fst calls = zseq mn (Z.to_nat (mx - mn + 1)) /\
           Forall (fun x => snd (cev c (fst x)) = Ok (snd x)) calls).
  Proof.
    intros Hh Hm Hx Hn. destruct (rc_constrain_ok blk ml dbg N gN gK HN HgN HgK R h l lo hi Hh Hm Hx Hn) as (E & C & _).
    set (c := mk_crcprf h _) in *. exists c. split; [exact E|].
    assert (T := C). destruct T as (_ & _ & _ & T). destruct (tiles_min_max _ _ _ T ltac:(lia)) as [Emin Emax].
    split; [exact Emin|]. split; [exact Emax|].
    assert (V : forall leaf, lo <= leaf <= hi -> cev c leaf = (c, Ok (value R h leaf))).
    { intros leaf Hl. rewrite (c_eval_ok blk ml dbg N gN gK HN HgN HgK R h lo hi c leaf) by (assumption || lia).
      replace (_ && _) with true by lia. reflexivity. }
    split; [exact V|]. split.
    - intros leaf Hl H63. rewrite V by assumption. rewrite rc_eval_path by lia. reflexivity.
    - intros mn mx H1 H2. exists (lvs R h mn mx). split.
      + rewrite (c_eval_range_ok blk ml dbg N gN gK HN HgN HgK R h lo hi c mn mx) by (assumption || lia).
        replace (_ && _ && _) with true by lia. replace (mx <? mn) with false by lia. replace (_ && _) with true by lia. reflexivity.
      + apply (lvs_calls R h (fun i => snd (cev c i))). intros i Hi. rewrite V by lia. reflexivity.
  Qed.

  Lemma chain_direct R h l ranges : 2 <= h <= 64 -> forall lo hi, 0 <= lo <= hi -> hi < 2 ^ (h - 1) -> ~ (lo = 0 /\ hi = 2 ^ (h - 1) - 1) ->
    nested lo hi ranges ->
    exists c, snd (con (mk_rcprf h (VKey R l)) lo hi) = Ok c /\
      constrain_chain ccon c ranges =
        snd (con (mk_rcprf h (VKey R l)) (fst (last_range lo hi ranges)) (snd (last_range lo hi ranges))) /\
      let (a, b) := last_range lo hi ranges in lo <= a <= b /\ b <= hi.
  Proof.
    intros Hh. induction ranges as [|[lo' hi'] ranges IH]; intros lo hi Hm Hx Hn Nst.
    - destruct (rc_constrain_ok blk ml dbg N gN gK HN HgN HgK R h l lo hi Hh Hm Hx Hn) as (E & C & _).
      rewrite E. eexists. split; [reflexivity|]. simpl. rewrite E. simpl. split; [reflexivity|lia].
    - simpl in Nst. destruct Nst as (N1 & N2 & N3 & N4).
      destruct (rc_constrain_ok blk ml dbg N gN gK HN HgN HgK R h l lo hi Hh Hm Hx Hn) as (E & C & _).
      rewrite E. eexists. split; [reflexivity|].
      destruct (IH lo' hi' ltac:(lia) ltac:(lia) ltac:(lia) N4) as (c' & E' & H' & L').
      cbn [constrain_chain]. rewrite c_constrain_ok by (assumption || lia). cbn [snd]. rewrite bind_Ok.
      destruct (rc_constrain_ok blk ml dbg N gN gK HN HgN HgK R h l lo' hi' Hh ltac:(lia) ltac:(lia) ltac:(lia)) as (E2 & _ & _).
      rewrite E2 in E'. cbn [snd] in E'. injection E' as <-. rewrite H'.
      assert (LL : last_range lo hi ((lo', hi') :: ranges) = last_range lo' hi' ranges).
      { unfold last_range. destruct ranges as [|p ps]; [reflexivity|].
        change (last (p :: ps) (lo, hi) = last (p :: ps) (lo', hi')). apply last_default. discriminate. }
      rewrite LL. split; [reflexivity|]. destruct (last_range lo' hi' ranges). lia.
  Qed.

  (** The whole story for a chain of nested constraints. *)
  Lemma chain_behaviour R h l ranges lo hi : 2 <= h <= 64 -> 0 <= lo <= hi -> hi < 2 ^ (h - 1) -> ~ (lo = 0 /\ hi = 2 ^ (h - 1) - 1) ->
    nested lo hi ranges ->
    let a := fst (last_range lo hi ranges) in let b := snd (last_range lo hi ranges) in
    exists c0 c, snd (con (mk_rcprf h (VKey R l)) lo hi) = Ok c0 /\ constrain_chain ccon c0 ranges = Ok c /\
      snd (con (mk_rcprf h (VKey R l)) a b) = Ok c /\ c_min c = a /\ c_max c = b /\
      (forall leaf, a <= leaf <= b -> cev c leaf = (c, Ok (value R h leaf))) /\
      (forall leaf, leaf < a \/ b < leaf -> cev c leaf = (c, Throw OutOfRange)) /\
      (forall mn mx, mn <= mx -> mn < a \/ b < mx -> cevr c mn mx = (c, [], Throw OutOfRange)) /\
      (forall mn mx, mn < a \/ b < mx -> ccon c mn mx = (c, Throw OutOfRange)) /\
      Forall (sub_of R h) (c_elts c) /\ tiles (c_elts c) a b /\ zlen (c_elts c) <= 2 * (h - 1).
  Proof.
    intros Hh Hm Hx Hn Nst a b.
    destruct (chain_direct R h l ranges Hh lo hi Hm Hx Hn Nst) as (c0 & E0 & E1 & L).
    assert (Hab : lo <= a <= b /\ b <= hi) by (unfold a, b; destruct (last_range lo hi ranges); exact L).
    fold a b in E1.
    destruct (rc_constrain_ok blk ml dbg N gN gK HN HgN HgK R h l a b Hh ltac:(lia) ltac:(lia) ltac:(lia)) as (E & C & Cn).
    set (c := mk_crcprf h _) in *. rewrite E in E1. cbn [snd] in E1.
    exists c0, c. split; [exact E0|]. split; [exact E1|]. split; [rewrite E; reflexivity|].
    assert (T := C). destruct T as (_ & _ & S & T). destruct (tiles_min_max _ _ _ T ltac:(lia)) as [Emin Emax].
    split; [exact Emin|]. split; [exact Emax|]. 
    split; [|split; [|split; [|split; [|split; [exact S|split; [exact T|lia]]]]]].
    - intros leaf Hl. rewrite (c_eval_ok blk ml dbg N gN gK HN HgN HgK R h a b c leaf) by (assumption || lia).
      replace (_ && _) with true by lia. reflexivity.
    - intros leaf Hl. rewrite (c_eval_ok blk ml dbg N gN gK HN HgN HgK R h a b c leaf) by (assumption || lia).
      replace (_ && _) with false by lia. reflexivity.
    - intros mn mx H1 H2. rewrite (c_eval_range_ok blk ml dbg N gN gK HN HgN HgK R h a b c mn mx) by (assumption || lia).
      replace (_ && _ && _) with false by lia. replace (mx <? mn) with false by lia. replace (_ && _) with false by lia. reflexivity.
    - intros mn mx H1. apply c_constrain_outside. rewrite Emin, Emax. exact H1.
  Qed.

  Lemma rc_constrain_invalid r mn mx : 1 <= r_height r <= 64 ->
    (mx < mn -> con r mn mx = (r, Throw InvalidArgument)) /\
    (mn <= mx -> 2 ^ (r_height r - 1) <= mx -> con r mn mx = (r, Throw OutOfRange)) /\
    (mn = 0 -> mx = 2 ^ (r_height r - 1) - 1 -> con r mn mx = (r, Throw OutOfRange)).
  Proof.
    intros Hh. unfold rc_constrain, rc_gen. rewrite max_leaf_index_ok by lia.
    pose proof (Z.pow_pos_nonneg 2 (r_height r - 1) ltac:(lia) ltac:(lia)).
    split; [|split].
    - intros H1. replace (mx <? mn) with true by lia. reflexivity.
    - intros H1 H2. replace (mx <? mn) with false by lia. replace (_ <? mx) with true by lia. reflexivity.
    - intros -> ->. replace (_ <? 0) with false by lia. rewrite Z.ltb_irrefl, !Z.eqb_refl. reflexivity.
  Qed.

  Lemma constrained_roundtrip R h l ranges lo hi rest c0 c : 2 <= h <= 64 -> 0 <= lo <= hi -> hi < 2 ^ (h - 1) -> ~ (lo = 0 /\ hi = 2 ^ (h - 1) - 1) ->
    nested lo hi ranges ->
    snd (con (mk_rcprf h (VKey R l)) lo hi) = Ok c0 -> constrain_chain ccon c0 ranges = Ok c ->
    exists s wiped, c_serialize ml dbg N c = (c, Ok s) /\ zlen s = c_serialized_size N c /\ zlen wiped = zlen s /\
      c_deserialize ml N (s ++ rest) (zlen (s ++ rest)) = Ok (c, wiped ++ rest, zlen s).
  Proof.
    intros Hh Hm Hx Hn Nst E0 E1.
    destruct (chain_direct R h l ranges Hh lo hi Hm Hx Hn Nst) as (c0' & E0' & E1' & L).
    rewrite E0 in E0'. injection E0' as <-. rewrite E1 in E1'.
    set (a := fst (last_range lo hi ranges)) in *. set (b := snd (last_range lo hi ranges)) in *.
    assert (Hab : lo <= a <= b /\ b <= hi) by (unfold a, b; destruct (last_range lo hi ranges); exact L).
    destruct (rc_constrain_ok blk ml dbg N gN gK HN HgN HgK R h l a b Hh ltac:(lia) ltac:(lia) ltac:(lia)) as (E & C & Cn).
    rewrite E in E1'. cbn [snd] in E1'. injection E1' as ->.
    destruct (c_roundtrip blk ml dbg N HN R h a b _ rest Hh ltac:(lia) ltac:(lia) C ltac:(lia)) as (s & w & A1 & A2 & A3 & A4).
    exists s, w. auto.
  Qed.

  (** Elements built by hand, with any key. *)
  Lemma element_range_agrees h st idx kk a b : 2 <= st -> st < h -> h <= 64 -> 0 <= idx < 2 ^ (h - st) ->
    let mn := idx * 2 ^ (st - 1) in let mx := (idx + 1) * 2 ^ (st - 1) - 1 in
    mn <= a <= b -> b <= mx ->
    exists e calls, mk_inner (VKey kk ml) h st mn mx = Ok e /\ e_eval_range blk ml dbg N gN gK e a b [] = (e, calls, Ok tt) /\
      map fst calls = zseq a (Z.to_nat (b - a + 1)) /\
      Forall (fun c => e_eval blk ml dbg N gN gK e (fst c) = (e, Ok (snd c))) calls.
  Proof.
    intros Hst Hst2 Hh Hidx mn mx Ha Hb.
    pose proof (pow2_nodes h st idx ltac:(lia) Hidx) as (P0 & P1 & P2).
    assert (2 ^ (h - 1) <= 2 ^ 63) by (apply Z.pow_le_mono_r; lia).
    exists (Inner h st mn mx (VKey kk ml)), (map (fun i => (i, value kk st i)) (zseq a (Z.to_nat (b - a + 1)))).
    split; [|split; [|split]].
    - unfold mk_inner, elt_check. replace (st =? 0) with false by lia. replace (h <=? st) with false by lia.
      replace (mx <? mn) with false by lia. rewrite max_leaf_index_ok by lia. replace (_ =? _) with true by lia.
      simpl. replace (st <=? 1) with false by lia. reflexivity.
    - unfold e_eval_range. replace (b <? a) with false by lia. replace (_ || _) with false by lia.
      rewrite u8_id by lia. rewrite !u64_id by lia.
      rewrite derive_leaf_range_ok; try lia; [|replace (h - (h - st) - 1) with (st - 1) by lia; lia..].
      replace (h - (h - st)) with st by lia. simpl app. do 2 f_equal.
      unfold sub_leaves. remember (Z.to_nat (b - mn - (a - mn) + 1)) as n eqn:En.
      replace (Z.to_nat (b - a + 1)) with n by lia.
      replace (zseq a n) with (zseq (a - mn + mn) n) by (f_equal; lia).
      rewrite map_zseq_shift. apply map_ext_in. intros i Hi. apply zseq_In in Hi. f_equal; [lia|].
      rewrite <- (value_mod blk N kk st (i + mn)) by lia. f_equal. unfold mn.
      rewrite Z.mod_add by lia. rewrite Z.mod_small by lia. reflexivity.
    - rewrite map_map. simpl. apply map_id.
    - apply Forall_forall. intros c Hc. apply in_map_iff in Hc. destruct Hc as (i & <- & Hi). apply zseq_In in Hi.
      unfold e_eval. cbn [fst snd]. replace (i <? mn) with false by lia. replace (mx <? i) with false by lia.
      rewrite u8_id by lia. rewrite derive_leaf_ok by lia. replace (h - (h - st)) with st by lia. reflexivity.
  Qed.

  (** Heights 1 and 64. *)
  Lemma height_64_ub k leaf : ev (mk_rcprf 64 k) leaf = (mk_rcprf 64 k, UB).
  Proof. clear. reflexivity. Qed.
  Lemma height_1_never k leaf : 0 <= leaf < 2 -> snd (ev (mk_rcprf 1 k) leaf) = if dbg then Abort else UB.
  Proof.
    clear. intros Hl. assert (leaf = 0 \/ leaf = 1) as [-> | ->] by lia; destruct dbg; reflexivity.
  Qed.
End Proofs.

(** Range evaluation with height 1 in release builds: the recursion never ends. *)
Lemma height_1_range_diverges blk ml N gN gK fuel : zlen gK = 32 -> forall kb l base off acc, 0 <= base < 256 ->
  snd (derive_leaf_range blk ml false N gN gK fuel (VKey kb l) 1 base off 0 0 acc) = Diverge.
Proof.
  intros HK. induction fuel as [|fuel IH]; intros kb l base off acc Hb; [reflexivity|].
  cbn [derive_leaf_range]. simpl andb. replace (1 =? base + 2) with false by lia. cbv iota.
  assert (HT : 0 <= max_leaf_index (u8 (1 - base - 1))).
  { assert (0 <= u8 (1 - base - 1)) by (unfold u8; lia).
    unfold max_leaf_index. destruct (Z.eqb_spec (u8 (1 - base - 1)) 0) as [E|E]; [lia|].
    unfold kMaxHeight. destruct (Z.leb_spec 65 (u8 (1 - base - 1))) as [F|F]; [unfold UINT64_MAX; lia|].
    assert (0 < 2 ^ (u8 (1 - base - 1) - 1)) by (apply Z.pow_pos_nonneg; lia).
    assert (2 ^ (u8 (1 - base - 1) - 1) < 2 ^ 64) by (apply Z.pow_lt_mono_r; lia).
    rewrite u64_id by lia. lia. }
  replace (0 <=? max_leaf_index (u8 (1 - base - 1))) with true by lia.
  unfold rc_kKeySize. rewrite derive_key_ok by lia. change (too_large 32 0) with false. cbv iota.
  replace (Z.min 0 (max_leaf_index (u8 (1 - base - 1)))) with 0 by lia.
  match goal with |- context [derive_leaf_range _ _ _ _ _ _ fuel ?k _ _ _ _ _ _] =>
    destruct k as [|kb' l'] eqn:Ek; [discriminate Ek|] end.
  specialize (IH kb' l' (u8 (base + 1)) off acc ltac:(unfold u8; lia)).
  destruct (derive_leaf_range _ _ _ _ _ _ fuel _ _ _ _ _ _ _) as [[k' c'] o'] eqn:D. simpl in IH. subst o'. reflexivity.
Qed.

Lemma tiles_inside els : forall lo hi, tiles els lo hi -> Forall (fun e => lo <= e_min e /\ e_min e <= e_max e /\ e_max e <= hi) els.
Proof.
  induction els as [|e els IH]; intros lo hi T; [constructor|]. simpl in T. destruct T as (A & B & C).
  pose proof (tiles_le _ _ _ C). constructor; [lia|]. eapply Forall_impl; [|exact (IH _ _ C)]. simpl. intros. lia.
Qed.

Section Props.
  Context (blk : bytes -> Z -> bytes) (ml dbg : bool) (N : Z) (gN gK : bytes).
  Lemma height_64 : exists h, forall blk ml dbg N gN gK k, exists r, mk_rc k h = Ok r /\
    forall leaf, 0 <= leaf <= max_leaf_index h -> snd (rc_eval blk ml dbg N gN gK r leaf) = UB.
  Proof. clear. exists 64. intros. eexists. split; [reflexivity|]. intros leaf _. rewrite height_64_ub. reflexivity. Qed.
  Lemma height_1 : exists h, forall blk ml dbg N gN gK k, exists r, mk_rc k h = Ok r /\
    forall leaf, 0 <= leaf <= max_leaf_index h -> snd (rc_eval blk ml dbg N gN gK r leaf) = if dbg then Abort else UB.
  Proof.
    clear. exists 1. intros. eexists. split; [reflexivity|]. intros leaf Hl. apply height_1_never.
    change (max_leaf_index 1) with 0 in Hl. lia.
  Qed.
  Context (HN : 1 <= N < 2 ^ 16) (HgN : zlen gN = N) (HgK : zlen gK = 32).
  Lemma heights_ok R l h : 2 <= h <= 63 -> exists r, mk_rc (VKey R l) h = Ok r /\
    forall leaf, 0 <= leaf <= max_leaf_index h -> exists r' v, rc_eval blk ml dbg N gN gK r leaf = (r', Ok v).
  Proof.
    intros Hh. exists (mk_rcprf h (VKey R l)). split.
    - unfold mk_rc. replace (h =? 0) with false by lia. replace (64 <? h) with false by lia. reflexivity.
    - intros leaf Hl. rewrite max_leaf_index_ok in Hl by lia. rewrite rc_eval_path by (assumption || lia). eauto.
  Qed.
  Lemma refuses_outside R h l lo hi ranges c0 c : 2 <= h <= 64 -> 0 <= lo <= hi -> hi < 2 ^ (h - 1) -> ~ (lo = 0 /\ hi = 2 ^ (h - 1) - 1) ->
    nested lo hi ranges -> snd (rc_constrain blk ml dbg N gN gK (mk_rcprf h (VKey R l)) lo hi) = Ok c0 ->
    constrain_chain (c_constrain blk ml dbg N gN gK) c0 ranges = Ok c ->
    (forall leaf, leaf < c_min c \/ c_max c < leaf -> c_eval blk ml dbg N gN gK c leaf = (c, Throw OutOfRange)) /\
    (forall mn mx, mn <= mx -> mn < c_min c \/ c_max c < mx -> c_eval_range blk ml dbg N gN gK c mn mx = (c, [], Throw OutOfRange)).
  Proof.
    intros Hh Hm Hx Hn Nst E0 E1.
    destruct (chain_behaviour blk ml dbg N gN gK HN HgN HgK R h l ranges lo hi Hh Hm Hx Hn Nst) as (c0' & c' & F0 & F1 & _ & M1 & M2 & _ & G & G' & _).
    rewrite E0 in F0. injection F0 as <-. rewrite E1 in F1. injection F1 as <-. rewrite M1, M2. split; assumption.
  Qed.
  Lemma elements_are_subtrees R h l lo hi : 2 <= h <= 64 -> 0 <= lo <= hi -> hi < 2 ^ (h - 1) -> ~ (lo = 0 /\ hi = 2 ^ (h - 1) - 1) ->
    exists c, snd (rc_constrain blk ml dbg N gN gK (mk_rcprf h (VKey R l)) lo hi) = Ok c /\
      Forall (subtree_of blk ml N R h) (c_elts c) /\ tiles (c_elts c) lo hi /\ zlen (c_elts c) <= 2 * (h - 1).
  Proof.
    intros Hh Hm Hx Hn. destruct (chain_behaviour blk ml dbg N gN gK HN HgN HgK R h l [] lo hi Hh Hm Hx Hn I)
      as (c0 & c & _ & _ & E & _ & _ & _ & _ & _ & _ & G1 & G2 & G3). exists c. auto.
  Qed.
End Props.
