From Verif Require Import BaseFacts KeyVal PrgModel PrgSpec PrgProofs RcprfModel RcprfSpec.

Lemma pow2_split a b : 0 <= a -> 0 <= b -> 2 ^ (a + b) = 2 ^ a * 2 ^ b.
Proof. intros. apply Z.pow_add_r; lia. Qed.
Lemma pow2_pos a : 0 < 2 ^ a \/ a < 0.
Proof. destruct (Z.lt_ge_cases a 0); [right; lia|left; apply Z.pow_pos_nonneg; lia]. Qed.
Lemma pow2_succ a : 0 <= a -> 2 ^ (a + 1) = 2 * 2 ^ a.
Proof. intros. rewrite Z.pow_add_r by lia. lia. Qed.

Section Tree.
  Context (blk : bytes -> Z -> bytes) (N : Z).
  Notation node := (node_key blk).
  Notation value := (leaf_value blk N).

  Lemma mod_pow_half x d : 0 <= d -> (x mod 2 ^ (d + 1)) / 2 = (x / 2) mod 2 ^ d.
  Proof.
    intros Hd. rewrite pow2_succ by lia. pose proof (Z.pow_pos_nonneg 2 d ltac:(lia) Hd) as P.
    rewrite Z.rem_mul_r by lia. 
    rewrite Z.mul_comm, Z.div_add by lia. rewrite Z.div_small by (apply Z.mod_pos_bound; lia). lia.
  Qed.
  Lemma mod_pow_mod2 x d : 0 <= d -> (x mod 2 ^ (d + 1)) mod 2 = x mod 2.
  Proof.
    intros Hd. rewrite pow2_succ by lia. pose proof (Z.pow_pos_nonneg 2 d ltac:(lia) Hd) as P.
    rewrite Z.rem_mul_r by lia. rewrite Z.mul_comm, Z.mod_add by lia. apply Z.mod_mod. lia.
  Qed.

  Lemma node_add R d1 d2 idx :
    node R (d1 + d2)%nat idx = node (node R d1 (idx / 2 ^ Z.of_nat d2)) d2 (idx mod 2 ^ Z.of_nat d2).
  Proof.
    revert idx; induction d2 as [|d2 IH]; intros idx.
    - rewrite Nat.add_0_r. change (2 ^ Z.of_nat 0) with 1. rewrite Z.div_1_r. reflexivity.
    - rewrite Nat.add_succ_r. simpl. rewrite IH.
      replace (Z.of_nat (S d2)) with (Z.of_nat d2 + 1) by lia.
      rewrite mod_pow_half, mod_pow_mod2 by lia.
      rewrite Z.div_div by lia.
      replace (2 * 2 ^ Z.of_nat d2) with (2 ^ (Z.of_nat d2 + 1)) by (rewrite pow2_succ; lia). reflexivity.
  Qed.
  Lemma node_mod R d idx : node R d (idx mod 2 ^ Z.of_nat d) = node R d idx.
  Proof. symmetry. exact (node_add R 0 d idx). Qed.

  (** The value of a leaf from the root of a subtree of height [st] that contains it. *)
  Lemma value_sub R h st leaf : 2 <= st <= h ->
    value R h leaf = value (node R (Z.to_nat (h - st)) (leaf / 2 ^ (st - 1))) st (leaf mod 2 ^ (st - 1)).
  Proof.
    intros H. unfold leaf_value.
    replace (st - 1) with (st - 2 + 1) by lia.
    rewrite mod_pow_half, mod_pow_mod2 by lia.
    replace (Z.to_nat (h - 2)) with (Z.to_nat (h - st) + Z.to_nat (st - 2))%nat by lia.
    rewrite node_add, Z2Nat.id by lia.
    rewrite pow2_succ, <- Z.div_div by lia. reflexivity.
  Qed.
  Lemma value_mod R st leaf : 2 <= st -> value R st (leaf mod 2 ^ (st - 1)) = value R st leaf.
  Proof. intros. rewrite (value_sub R st st leaf) by lia. rewrite Z.sub_diag. reflexivity. Qed.
  (** Subtree number [idx]: relative leaf [i]. *)
  Lemma value_in_subtree R h st idx i : 2 <= st <= h -> 0 <= i < 2 ^ (st - 1) ->
    value (node R (Z.to_nat (h - st)) idx) st i = value R h (idx * 2 ^ (st - 1) + i).
  Proof.
    intros H Hi. rewrite (value_sub R h st) by lia.
    rewrite Z.div_add_l, (Z.div_small i), Z.add_0_r by lia.
    rewrite Z.add_comm, Z.mod_add, Z.mod_small by lia. reflexivity.
  Qed.
  (** One level down. *)
  Lemma value_child R s b i : 3 <= s -> 0 <= b <= 1 -> 0 <= i < 2 ^ (s - 2) ->
    value (child_key blk R b) (s - 1) i = value R s (b * 2 ^ (s - 2) + i).
  Proof.
    intros Hs Hb Hi. pose proof (value_in_subtree R s (s - 1) b i ltac:(lia)) as E.
    replace (s - 1 - 1) with (s - 2) in E by lia. specialize (E Hi). rewrite <- E.
    replace (s - (s - 1)) with 1 by lia. change (Z.to_nat 1) with 1%nat. simpl.
    rewrite Z.mod_small by lia. reflexivity.
  Qed.
End Tree.

Lemma get_child_ok h leaf d : 0 <= leaf -> 0 <= h - d - 2 < 64 ->
  get_child h leaf d = Ok ((leaf / 2 ^ (h - d - 2)) mod 2).
Proof.
  intros Hl H. unfold get_child. replace (_ && _) with true by lia. f_equal.
  set (s := h - d - 2) in *.
  assert (E : Z.land leaf (2 ^ s) = if Z.testbit leaf s then 2 ^ s else 0).
  { apply Z.bits_inj'. intros n Hn. rewrite Z.land_spec, Z.pow2_bits_eqb by lia.
    destruct (Z.eqb_spec s n) as [->|Hne].
    - destruct (Z.testbit leaf n) eqn:T; [rewrite Z.pow2_bits_true; auto|rewrite Z.bits_0; reflexivity].
    - rewrite andb_false_r. destruct (Z.testbit leaf s); [rewrite Z.pow2_bits_false; auto|rewrite Z.bits_0; reflexivity]. }
  rewrite E. rewrite <- Z.testbit_spec' by lia. pose proof (Z.pow_pos_nonneg 2 s ltac:(lia) ltac:(lia)).
  destruct (Z.testbit leaf s); simpl; [destruct (Z.eqb_spec (2 ^ s) 0); [lia|reflexivity]|reflexivity].
Qed.

Lemma max_leaf_index_ok h : 1 <= h <= 64 -> max_leaf_index h = 2 ^ (h - 1) - 1.
Proof.
  intros H. unfold max_leaf_index, kMaxHeight. destruct (Z.eqb_spec h 0); [lia|]. destruct (Z.leb_spec 65 h); [lia|].
  unfold u64. rewrite Z.mod_small; [reflexivity|].
  split; [apply Z.pow_nonneg; lia|]. apply Z.pow_lt_mono_r; lia.
Qed.

Lemma u64_id x : 0 <= x < 2 ^ 64 -> u64 x = x.
Proof. intros. unfold u64. apply Z.mod_small. lia. Qed.
Lemma u8_id x : 0 <= x < 256 -> u8 x = x.
Proof. intros. unfold u8. apply Z.mod_small. lia. Qed.

  Lemma mod2_range x : 0 <= x mod 2 <= 1.
  Proof. pose proof (Z.mod_pos_bound x 2 ltac:(lia)). lia. Qed.
  Lemma zseq_split a b c : a <= b + 1 -> b <= c ->
    zseq a (Z.to_nat (c - a + 1)) = zseq a (Z.to_nat (b - a + 1)) ++ zseq (b + 1) (Z.to_nat (c - (b + 1) + 1)).
  Proof.
    intros. replace (Z.to_nat (c - a + 1)) with (Z.to_nat (b - a + 1) + Z.to_nat (c - (b + 1) + 1))%nat by lia.
    rewrite zseq_app. do 2 f_equal. lia.
  Qed.
  Lemma map_zseq_shift {A} (f : Z -> A) a n t : map f (zseq (a + t) n) = map (fun i => f (i + t)) (zseq a n).
  Proof. revert a; induction n; intros a; simpl; [reflexivity|]. f_equal. rewrite <- IHn. do 2 f_equal. lia. Qed.
  Lemma zseq_none a n : n <= 0 -> zseq a (Z.to_nat n) = [].
  Proof. intros. replace (Z.to_nat n) with 0%nat by lia. reflexivity. Qed.
  Lemma zseq_one a n : n = 1 -> zseq a (Z.to_nat n) = [a].
  Proof. intros ->. reflexivity. Qed.
  Lemma zseq_two a n : n = 2 -> zseq a (Z.to_nat n) = [a; a + 1].
  Proof. intros ->. reflexivity. Qed.

Section Proofs.
  Context (blk : bytes -> Z -> bytes) (ml dbg : bool) (N : Z) (gN gK : bytes).
  Context (HN : 1 <= N < 2 ^ 16) (HgN : zlen gN = N) (HgK : zlen gK = 32).
  Notation node := (node_key blk).
  Notation value := (leaf_value blk N).
  Notation ckey := (child_key blk).

  Lemma leaf_derive_ok kb l b : 0 <= b <= 1 ->
    leaf_derive blk ml N gN (VKey kb l) b = (VKey kb ml, Ok (leaf_under blk N kb b)).
  Proof.
    intros Hb. unfold leaf_derive. unfold u32. rewrite Z.mod_small by nia.
    rewrite derive_buf_ok by nia. simpl. rewrite (prefix_replaced_all blk); [reflexivity|].
    rewrite stream_window_length; lia.
  Qed.
  Lemma derive_child kb l b : 0 <= b <= 1 ->
    derive_key blk ml gK (VKey kb l) rc_kKeySize b = (VKey kb ml, Ok (VKey (ckey kb b) ml)).
  Proof.
    intros Hb. unfold rc_kKeySize. rewrite derive_key_ok by lia.
    replace (too_large 32 b) with false; [reflexivity|]. assert (b = 0 \/ b = 1) as [-> | ->] by lia; reflexivity.
  Qed.
  Lemma sderive_child kb l b : 0 <= b <= 1 ->
    snd (sderive_key blk ml gK (VKey kb l) rc_kKeySize b) = Ok (VKey (ckey kb b) ml).
  Proof.
    intros Hb. unfold rc_kKeySize. rewrite sderive_key_ok by lia.
    replace (too_large 32 b) with false; [reflexivity|]. assert (b = 0 \/ b = 1) as [-> | ->] by lia; reflexivity.
  Qed.

  Lemma derive_loop_ok kk base h leaf n : 0 <= leaf -> 0 <= base -> h <= base + 65 -> forall i l,
    base <= i -> i + Z.of_nat n = h - 2 ->
    exists l', derive_loop blk ml gK n h leaf i (VKey (node kk (Z.to_nat (i - base)) (leaf / 2 ^ (h - 1 - i))) l) =
    Ok (VKey (node kk (Z.to_nat (h - 2 - base)) (leaf / 2)) l').
  Proof.
    intros Hl Hb Hh. induction n as [|n IH]; intros i l Hi Hn; simpl.
    - replace (h - 1 - i) with 1 by lia. replace (i - base) with (h - 2 - base) by lia. exists l. reflexivity.
    - rewrite get_child_ok by lia. rewrite bind_Ok.
      rewrite sderive_child by apply mod2_range. rewrite bind_Ok.
      destruct (IH (i + 1) ml) as [l' E]; [lia|lia|]. exists l'. rewrite <- E. f_equal. f_equal.
      replace (Z.to_nat (i + 1 - base)) with (S (Z.to_nat (i - base))) by lia.
      replace (h - 1 - i) with (h - i - 2 + 1) by lia.
      replace (h - 1 - (i + 1)) with (h - i - 2) by lia.
      rewrite pow2_succ, (Z.mul_comm 2), <- Z.div_div by lia. reflexivity.
  Qed.

  (** Evaluation of a leaf from the key of a node at depth [base]. *)
  Lemma derive_leaf_ok kk l h base leaf : 0 <= leaf -> 0 <= base -> base + 2 <= h <= base + 64 ->
    derive_leaf blk ml dbg N gN gK (VKey kk l) h base leaf = (VKey kk ml, Ok (value kk (h - base) leaf)).
  Proof.
    intros Hl Hb Hh. unfold derive_leaf, kassert.
    replace (2 <=? h) with true by lia. replace (base <? h - 1) with true by lia.
    destruct (Z.eqb_spec h (base + 2)) as [E|E].
    - rewrite get_child_ok by lia. simpl. rewrite leaf_derive_ok by apply mod2_range.
      unfold leaf_value. replace (h - base - 2) with 0 by lia. simpl. rewrite Z.div_1_r. reflexivity.
    - replace (base <? h - 2) with true by lia. rewrite get_child_ok by lia.
      set (c := (leaf / 2 ^ (h - base - 2)) mod 2). pose proof (mod2_range (leaf / 2 ^ (h - base - 2))) as Hc. fold c in Hc.
      unfold kbind at 1. rewrite derive_child by assumption. unfold kbind. f_equal.
      destruct (derive_loop_ok kk base h leaf (Z.to_nat (h - 2 - (base + 1))) Hl Hb ltac:(lia) (base + 1) ml) as [l' El];
        [lia|lia|].
      replace (Z.to_nat (base + 1 - base)) with 1%nat in El by lia.
      replace (h - 1 - (base + 1)) with (h - base - 2) in El by lia. simpl in El. fold c in El.
      rewrite El, bind_Ok. rewrite get_child_ok by lia. rewrite bind_Ok.
      replace (h - (h - 2) - 2) with 0 by lia. change (2 ^ 0) with 1. rewrite Z.div_1_r.
      pose proof (mod2_range leaf). unfold u32. rewrite Z.mod_small by nia.
      rewrite sderive_buf_ok by nia. simpl. rewrite (prefix_replaced_all blk) by (rewrite stream_window_length; lia).
      unfold leaf_value. replace (h - base - 2) with (h - 2 - base) by lia. reflexivity.
  Qed.



  (** Values of relative leaves mn..mx of a subtree of height s, with numbers shifted by [off]. *)
  Definition sub_leaves (kk : bytes) (s off mn mx : Z) : list (Z * bytes) :=
    map (fun i => (off + i, value kk s i)) (zseq mn (Z.to_nat (mx - mn + 1))).


  Lemma derive_leaf_range_ok fuel : forall kk l h base off mn mx acc,
    0 <= base -> base + 2 <= h <= base + 64 -> h < 256 -> (Z.to_nat (h - base - 1) <= fuel)%nat ->
    0 <= mn <= mx -> mx < 2 ^ (h - base - 1) -> 0 <= off -> off + 2 ^ (h - base - 1) <= 2 ^ 64 ->
    derive_leaf_range blk ml dbg N gN gK fuel (VKey kk l) h base off mn mx acc =
      (VKey kk ml, acc ++ sub_leaves kk (h - base) off mn mx, Ok tt).
  Proof.
    induction fuel as [|fuel IH]; intros kk l h base off mn mx acc Hb Hh Hh2 Hf Hmn Hmx Hoff Hoff2; [lia|].
    cbn [derive_leaf_range].
    replace (mn <=? mx) with true by lia. replace (base + 1 <? h) with true by lia. simpl negb. rewrite !andb_false_r.
    destruct (Z.eqb_spec h (base + 2)) as [E|E].
    - replace (h - base - 1) with 1 in * by lia. change (2 ^ 1) with 2 in *.
      replace (h - base) with 2 by lia.
      rewrite (u64_id (mx - mn)) by lia. replace (mx - mn <=? 1) with true by lia. simpl negb. rewrite andb_false_r.
      rewrite get_child_ok by lia. replace (h - base - 2) with 0 by lia. change (2 ^ 0) with 1. rewrite Z.div_1_r.
      simpl. rewrite Z.mod_small by lia. rewrite leaf_derive_ok by lia.
      rewrite (u64_id (off + mn)), (u64_id (off + mx)) by lia.
      unfold sub_leaves.
      destruct (Z.eqb_spec mn mx) as [->|Hne]; simpl.
      + rewrite zseq_one by lia. simpl. unfold leaf_value. simpl. rewrite Z.mod_small by lia. reflexivity.
      + rewrite leaf_derive_ok by lia. rewrite zseq_two by lia. assert (mn = 0) as -> by lia. assert (mx = 1) as -> by lia.
        rewrite <- app_assoc. reflexivity.
    - replace (2 <? h - base) with true by lia. simpl negb. rewrite andb_false_r.
      rewrite u8_id by lia. rewrite max_leaf_index_ok by lia. rewrite u8_id by lia.
      replace (h - base - 1 - 1) with (h - base - 2) by lia.
      set (T := 2 ^ (h - base - 2)) in *.
      assert (HT : 2 ^ (h - base - 1) = 2 * T).
      { unfold T. rewrite <- pow2_succ by lia. f_equal. lia. }
      assert (HT0 : 0 < T) by (apply Z.pow_pos_nonneg; lia).
      rewrite HT in *.
      assert (S1 : forall b i, 0 <= b <= 1 -> 0 <= i < T -> value (ckey kk b) (h - (base + 1)) i = value kk (h - base) (b * T + i)).
      { intros b i Hbb Hi. replace (h - (base + 1)) with (h - base - 1) by lia. unfold T. apply value_child; [lia|lia|exact Hi]. }
      assert (HTe : 2 ^ (h - (base + 1) - 1) = T) by (unfold T; f_equal; lia).
      (* left part *)
      assert (L : mn <= T - 1 ->
        derive_leaf_range blk ml dbg N gN gK fuel (VKey (ckey kk 0) ml) h (base + 1) off mn (Z.min mx (T - 1)) acc =
        (VKey (ckey kk 0) ml, acc ++ sub_leaves kk (h - base) off mn (Z.min mx (T - 1)), Ok tt)).
      { intros Hl. rewrite IH; try lia.
        f_equal. f_equal. f_equal. unfold sub_leaves. apply map_ext_in. intros i Hi. apply zseq_In in Hi.
        rewrite S1 by lia. do 2 f_equal. }
      assert (R : forall a, T - 1 < mx ->
        derive_leaf_range blk ml dbg N gN gK fuel (VKey (ckey kk 1) ml) h (base + 1) (off + T)
          (if mn <=? T - 1 then 0 else mn - T) (mx - T) a =
        (VKey (ckey kk 1) ml, a ++ sub_leaves kk (h - base) off (Z.max mn T) mx, Ok tt)).
      { intros a Hr. set (m0 := if mn <=? T - 1 then 0 else mn - T).
        assert (Hm0 : m0 + T = Z.max mn T) by (unfold m0; destruct (Z.leb_spec mn (T - 1)); lia). clearbody m0.
        rewrite IH; try lia.
        f_equal. f_equal. f_equal. unfold sub_leaves. rewrite <- Hm0.
        rewrite map_zseq_shift. replace (mx - T - m0 + 1) with (mx - (m0 + T) + 1) by lia.
        apply map_ext_in. intros i Hi. apply zseq_In in Hi.
        rewrite S1 by lia. f_equal; [lia|f_equal; lia]. }
      assert (E1 : u64 (u64 (off + (T - 1)) + 1) = off + T).
      { rewrite (u64_id (off + (T - 1))) by lia. rewrite u64_id by lia. lia. }
      destruct (Z.leb_spec mn (T - 1)) as [Hl|Hl].
      + rewrite derive_child by lia. rewrite L by lia. cbn [cbind].
        destruct (Z.ltb_spec (T - 1) mx) as [Hr|Hr].
        * rewrite derive_child by lia. rewrite E1. rewrite (u64_id (mx - (T - 1))) by lia. rewrite u64_id by lia.
          replace (mx - (T - 1) - 1) with (mx - T) by lia. 
          rewrite R by lia. rewrite <- app_assoc. do 3 f_equal.
          unfold sub_leaves. replace (Z.min mx (T - 1)) with (T - 1) by lia. replace (Z.max mn T) with (T - 1 + 1) by lia.
          rewrite <- map_app. rewrite <- zseq_split by lia. reflexivity.
        * replace (Z.min mx (T - 1)) with mx by lia. reflexivity.
      + cbn [cbind].
        destruct (Z.ltb_spec (T - 1) mx) as [Hr|Hr]; [|lia].
        rewrite derive_child by lia. rewrite E1. rewrite (u64_id (mx - (T - 1))) by lia. rewrite (u64_id (mx - (T - 1) - 1)) by lia.
        rewrite (u64_id (mn - (T - 1))) by lia. rewrite u64_id by lia.
        replace (mx - (T - 1) - 1) with (mx - T) by lia. replace (mn - (T - 1) - 1) with (mn - T) by lia.
        rewrite R by lia. replace (Z.max mn T) with mn by lia. reflexivity.
  Qed.
End Proofs.
