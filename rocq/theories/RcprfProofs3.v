From Verif Require Import BaseFacts KeyVal PrgModel PrgSpec PrgProofs RcprfModel RcprfSpec RcprfProofs RcprfProofs2.

Section Proofs.
  Context (blk : bytes -> Z -> bytes) (ml dbg : bool) (N : Z) (gN gK : bytes).
  Context (HN : 1 <= N < 2 ^ 16) (HgN : zlen gN = N) (HgK : zlen gK = 32).
  Notation node := (node_key blk).
  Notation value := (leaf_value blk N).
  Notation ckey := (child_key blk).
  Notation sub_of := (subtree_of blk ml N).
  Notation dec := (decompose blk ml N).

  Lemma dec_empty R h n idx lo hi : hi < lo -> dec R h n idx lo hi = [].
  Proof. intros H. destruct n; simpl; replace (hi <? lo) with true by lia; reflexivity. Qed.

  Lemma dec_whole R h n idx : dec R h (S n) idx (idx * 2 ^ Z.of_nat (S n)) ((idx + 1) * 2 ^ Z.of_nat (S n) - 1) =
    [Inner h (Z.of_nat (S n) + 1) (idx * 2 ^ Z.of_nat (S n)) ((idx + 1) * 2 ^ Z.of_nat (S n) - 1)
      (VKey (node R (Z.to_nat (h - 1) - S n) idx) ml)].
  Proof.
    cbn [decompose]. pose proof (Z.pow_pos_nonneg 2 (Z.of_nat (S n)) ltac:(lia) ltac:(lia)).
    rewrite !Z.eqb_refl. replace (_ <? _) with false by nia. reflexivity.
  Qed.
  Lemma dec_split R h n idx lo hi : 
    ~ (lo = idx * 2 ^ Z.of_nat (S n) /\ hi = (idx + 1) * 2 ^ Z.of_nat (S n) - 1) ->
    dec R h (S n) idx lo hi =
      dec R h n (2 * idx) lo (Z.min hi ((2 * idx + 1) * 2 ^ Z.of_nat n - 1)) ++
      dec R h n (2 * idx + 1) (Z.max lo ((2 * idx + 1) * 2 ^ Z.of_nat n)) hi.
  Proof.
    intros Hn. destruct (Z.ltb_spec hi lo) as [H|H].
    - rewrite !dec_empty by lia. reflexivity.
    - cbn [decompose]. replace (hi <? lo) with false by lia.
      replace (_ && _) with false by lia. do 3 f_equal. lia.
  Qed.

  Lemma gen_dec R h n : forall fuel l st idx mn mx,
    let smin := idx * 2 ^ Z.of_nat n in let smax := (idx + 1) * 2 ^ Z.of_nat n - 1 in
    st = Z.of_nat n + 1 ->
    2 <= st <= h -> h <= 64 -> 0 <= idx < 2 ^ (h - st) -> (n <= fuel)%nat ->
    smin <= mn <= mx -> mx <= smax -> ~ (mn = smin /\ mx = smax) ->
    gen_subkeys blk ml dbg N gN gK fuel (VKey (node R (Z.to_nat (h - st)) idx) l) h st smin smax mn mx =
      (VKey (node R (Z.to_nat (h - st)) idx) ml, Ok (dec R h n idx mn mx)).
  Proof.
    induction n as [|n IH]; intros fuel l st idx mn mx smin smax Est Hst Hh Hidx Hf Hmn Hmx Hnot; [lia|].
    destruct fuel as [|fuel]; [lia|].
    pose proof (pow2_nodes h st idx ltac:(lia) Hidx) as (P0 & P1 & P2).
    replace (st - 1) with (Z.of_nat (S n)) in P0, P1, P2 by lia.
    assert (P3 : 2 ^ (h - 1) <= 2 ^ 63) by (apply Z.pow_le_mono_r; lia).
    rewrite dec_split by assumption.
    cbn [gen_subkeys].
    set (T := 2 ^ Z.of_nat n) in *.
    assert (HT : 2 ^ Z.of_nat (S n) = 2 * T) by (unfold T; rewrite <- pow2_succ by lia; f_equal; lia).
    assert (HT0 : 0 < T) by (apply Z.pow_pos_nonneg; lia).
    unfold smin, smax in *. rewrite HT in *. clear smin smax.
    destruct (Z.leb_spec st 2) as [E|E].
    - assert (n = 0%nat) as -> by lia. change (2 ^ Z.of_nat 0) with 1 in T. subst T.
      assert (mn = mx) as -> by lia. unfold kassert. rewrite Z.eqb_refl. unfold gen_leaf.
      assert (exists b, 0 <= b <= 1 /\ (if mx =? idx * (2 * 1) then 0 else 1) = b /\ mx = 2 * idx + b) as (b & Hb & -> & Hmb).
      { destruct (Z.eqb_spec mx (idx * (2 * 1))); [exists 0|exists 1]; lia. }
      rewrite leaf_derive_ok by assumption. unfold kbind. rewrite mk_leaf_ok by lia. rewrite bind_Ok.
      assert (Ev : leaf_under blk N (node R (Z.to_nat (h - st)) idx) b = value R h mx).
      { unfold leaf_value. replace (mx / 2) with idx by lia. replace (mx mod 2) with b by lia.
        do 2 f_equal. lia. }
      rewrite Ev. f_equal. f_equal. 
      assert (b = 0 \/ b = 1) as [-> | ->] by lia.
      + rewrite (dec_empty R h 0 (2 * idx + 1)) by lia. cbn [decompose].
        replace (_ <? _) with false by lia. replace (2 * idx) with mx by lia. reflexivity.
      + rewrite (dec_empty R h 0 (2 * idx)) by lia. cbn [decompose].
        replace (_ <? _) with false by lia. replace (2 * idx + 1) with mx by lia. reflexivity.
    - assert (Hidx' : forall b, 0 <= b <= 1 -> 0 <= 2 * idx + b < 2 ^ (h - (st - 1))).
      { intros b Hb. replace (h - (st - 1)) with (h - st + 1) by lia. rewrite pow2_succ by lia. lia. }
      destruct n as [|n']; [lia|].
      assert (HTT : T = 2 ^ Z.of_nat (S n')) by reflexivity.
      assert (HTe : 2 ^ (st - 1 - 1) = T) by (unfold T; f_equal; lia).
      assert (Enode : forall b, VKey (node R (Z.to_nat (h - (st - 1))) (2 * idx + b)) ml =
                                VKey (node R (Z.to_nat (h - 1) - S n') (2 * idx + b)) ml).
      { intros b. do 2 f_equal. lia. }
      assert (M : u64 ((idx + 1) * (2 * T) - 1 + idx * (2 * T)) / 2 = (2 * idx + 1) * T - 1).
      { rewrite u64_id by nia. replace ((idx + 1) * (2 * T) - 1 + idx * (2 * T)) with (((2 * idx + 1) * T - 1) * 2 + 1) by lia.
        rewrite Z.div_add_l by lia. change (1 / 2) with 0. lia. }
      rewrite M. set (mid := (2 * idx + 1) * T - 1) in *.
      rewrite u8_id by lia.
      assert (Hmid1 : u64 (mid + 1) = (2 * idx + 1) * T) by (rewrite u64_id; unfold mid; nia).
      assert (L : (if mn <=? mid
         then kbind (derive_key blk ml gK (VKey (node R (Z.to_nat (h - st)) idx) l) rc_kKeySize 0) (fun k subkey =>
               if (mn =? idx * (2 * T)) && (mid <=? mx) then
                 (k, e <- mk_inner subkey h (st - 1) (idx * (2 * T)) mid ;; Ok [e])
               else
                 (k, snd (gen_subkeys blk ml dbg N gN gK fuel subkey h (st - 1) (idx * (2 * T)) mid mn (Z.min mx mid))))
         else (VKey (node R (Z.to_nat (h - st)) idx) l, Ok [])) = 
        (VKey (node R (Z.to_nat (h - st)) idx) (if mn <=? mid then ml else l), Ok (dec R h (S n') (2 * idx) mn (Z.min mx mid)))).
      { destruct (Z.leb_spec mn mid) as [Hl|Hl].
        - rewrite derive_child by lia. unfold kbind. rewrite node_child by lia.
          rewrite Z.add_0_r. assert (Hi0 := Hidx' 0 ltac:(lia)). rewrite Z.add_0_r in Hi0. 
          assert (E1 : idx * (2 * T) = (2 * idx) * T) by lia.
          assert (E2 : mid = (2 * idx + 1) * T - 1) by reflexivity.
          destruct ((mn =? idx * (2 * T)) && (mid <=? mx)) eqn:C.
          + destruct (mk_inner_ok blk ml N R h (st - 1) (2 * idx) ltac:(lia) ltac:(lia) Hi0) as [Hk Hs].
            rewrite HTe in Hk. rewrite E1, E2. rewrite Hk, bind_Ok. f_equal. f_equal.
            replace mn with (2 * idx * T) by lia. replace (Z.min mx _) with ((2 * idx + 1) * T - 1) by lia.
            rewrite HTT. rewrite dec_whole. specialize (Enode 0). rewrite Z.add_0_r in Enode. rewrite Enode. do 2 f_equal. lia.
          + pose proof (IH fuel ml (st - 1) (2 * idx) mn (Z.min mx mid)) as I. cbv zeta in I.
            rewrite <- E1 in I. fold mid in I.
            rewrite I; [reflexivity|lia|lia|lia|assumption|lia|lia|lia|lia].
        - rewrite dec_empty by lia. reflexivity. }
      rewrite L. unfold kbind at 1. clear L.
      destruct (Z.ltb_spec mid mx) as [Hr|Hr].
      + rewrite derive_child by lia. unfold kbind. rewrite node_child by lia. rewrite Hmid1.
        assert (E2 : (idx + 1) * (2 * T) - 1 = (2 * idx + 1 + 1) * T - 1) by lia.
        destruct ((mn <=? (2 * idx + 1) * T) && (mx =? (idx + 1) * (2 * T) - 1)) eqn:C.
        * destruct (mk_inner_ok blk ml N R h (st - 1) (2 * idx + 1) ltac:(lia) ltac:(lia) (Hidx' 1 ltac:(lia))) as [Hk Hs].
          rewrite HTe in Hk. rewrite E2. rewrite Hk, bind_Ok. f_equal. f_equal. f_equal.
          replace (Z.max mn _) with ((2 * idx + 1) * T) by lia. replace mx with ((2 * idx + 1 + 1) * T - 1) by lia.
          rewrite HTT. rewrite dec_whole. rewrite Enode. do 2 f_equal. lia.
        * pose proof (IH fuel ml (st - 1) (2 * idx + 1) (Z.max mn ((2 * idx + 1) * T)) mx) as I. cbv zeta in I.
          rewrite <- E2 in I.
          rewrite I; [reflexivity|lia|lia|lia|apply Hidx'; lia|lia|lia|lia|lia].
      + rewrite (dec_empty R h _ (2 * idx + 1)) by lia. rewrite app_nil_r. 
        replace (mn <=? mid) with true by lia. reflexivity.
  Qed.

  Lemma c_gen_loop_app l1 l2 mn mx r1 r2 :
    c_gen_loop blk ml dbg N gN gK l1 mn mx = (l1, Ok r1) -> c_gen_loop blk ml dbg N gN gK l2 mn mx = (l2, Ok r2) ->
    c_gen_loop blk ml dbg N gN gK (l1 ++ l2) mn mx = (l1 ++ l2, Ok (r1 ++ r2)).
  Proof.
    revert r1; induction l1 as [|e l1 IH]; intros r1 H1 H2.
    - simpl in *. inversion H1; subst. exact H2.
    - cbn [app c_gen_loop] in *. destruct (ranges_intersect _ _ _ _).
      + destruct (e_gen _ _ _ _ _ _ _ _ _) as [e' [r| | | |]]; try discriminate.
        destruct (c_gen_loop blk ml dbg N gN gK l1 mn mx) as [l' o] eqn:E.
        destruct o as [r'| | | |]; try discriminate. rewrite bind_Ok in H1.
        assert (e' = e /\ l' = l1 /\ r1 = r ++ r') as (-> & -> & ->) by (inversion H1; auto).
        rewrite (IH r' eq_refl H2), bind_Ok, app_assoc. reflexivity.
      + destruct (c_gen_loop blk ml dbg N gN gK l1 mn mx) as [l' o] eqn:E. inversion H1; subst; clear H1.
        rewrite (IH r1 eq_refl H2). reflexivity.
  Qed.

  Lemma c_gen_dec R h n : forall idx lo hi mn mx,
    2 <= h <= 64 -> Z.of_nat n + 1 <= h -> 0 <= idx < 2 ^ (h - (Z.of_nat n + 1)) ->
    idx * 2 ^ Z.of_nat n <= lo -> hi <= (idx + 1) * 2 ^ Z.of_nat n - 1 ->
    ~ (Z.of_nat n + 1 = h /\ lo = idx * 2 ^ Z.of_nat n /\ hi = (idx + 1) * 2 ^ Z.of_nat n - 1) ->
    mn <= mx ->
    c_gen_loop blk ml dbg N gN gK (dec R h n idx lo hi) mn mx =
      (dec R h n idx lo hi, Ok (dec R h n idx (Z.max mn lo) (Z.min mx hi))).
  Proof.
    induction n as [|n IH]; intros idx lo hi mn mx Hh Hn Hidx Hlo Hhi Hroot Hm.
    - change (2 ^ Z.of_nat 0) with 1 in *. destruct (Z.ltb_spec hi lo) as [H|H]; [rewrite !dec_empty by lia; reflexivity|].
      assert (lo = idx) as -> by lia. assert (hi = idx) as -> by lia.
      cbn [decompose]. replace (idx <? idx) with false by lia. cbn [c_gen_loop e_min e_max].
      unfold ranges_intersect. destruct ((idx <=? mx) && (mn <=? idx)) eqn:C.
      + unfold e_gen. replace (Z.max mn idx) with idx by lia. replace (Z.min mx idx) with idx by lia.
        rewrite Z.eqb_refl. simpl orb. rewrite mk_leaf_ok by lia. simpl. replace (idx <? idx) with false by lia. reflexivity.
      + replace (_ <? _) with true by lia. reflexivity.
    - destruct (Z.ltb_spec hi lo) as [H|H]; [rewrite !dec_empty by lia; reflexivity|].
      pose proof (Z.pow_pos_nonneg 2 (Z.of_nat (S n)) ltac:(lia) ltac:(lia)) as P.
      destruct (Z.eq_dec lo (idx * 2 ^ Z.of_nat (S n))) as [E1|E1];
        [destruct (Z.eq_dec hi ((idx + 1) * 2 ^ Z.of_nat (S n) - 1)) as [E2|E2]|].
      + (* a whole subtree: a single element *)
        rewrite E1, E2. rewrite dec_whole. cbn [c_gen_loop e_min e_max].
        set (smin := idx * 2 ^ Z.of_nat (S n)) in *. set (smax := (idx + 1) * 2 ^ Z.of_nat (S n) - 1) in *.
        unfold ranges_intersect. destruct ((smin <=? mx) && (mn <=? smax)) eqn:C.
        * set (a := Z.max mn smin) in *. set (b := Z.min mx smax) in *.
          unfold e_gen. replace ((a <? smin) || (smax <? b)) with false by lia.
          assert (Ek : (Z.to_nat (h - 1) - S n)%nat = Z.to_nat (h - (Z.of_nat (S n) + 1))) by lia.
          destruct ((a =? smin) && (b =? smax)) eqn:D.
          -- cbn [prg_duplicate v_unlock_get v_make v_lock]. rewrite bind_Ok.
             destruct (mk_inner_ok blk ml N R h (Z.of_nat (S n) + 1) idx ltac:(lia) ltac:(lia) Hidx) as [Hk _].
             replace (Z.of_nat (S n) + 1 - 1) with (Z.of_nat (S n)) in Hk by lia. fold smin smax in Hk.
             rewrite Ek. unfold v_make. rewrite Hk, !bind_Ok. 
             replace a with smin by lia. replace b with smax by lia. unfold smin, smax. rewrite dec_whole. rewrite Ek. reflexivity.
          -- rewrite Ek. unfold smin, smax. rewrite (gen_dec R h (S n)); try lia; [|unfold smin, smax in *; lia..].
             rewrite bind_Ok, app_nil_r. reflexivity.
        * unfold ranges_intersect in C. rewrite dec_empty by lia. reflexivity.
      + rewrite dec_split by lia. rewrite (dec_split R h n idx (Z.max mn lo)) by lia.
        set (mid := (2 * idx + 1) * 2 ^ Z.of_nat n - 1) in *.
        assert (HT : 2 ^ Z.of_nat (S n) = 2 * 2 ^ Z.of_nat n) by (rewrite <- pow2_succ by lia; f_equal; lia).
        assert (Hidx' : forall b, 0 <= b <= 1 -> 0 <= 2 * idx + b < 2 ^ (h - (Z.of_nat n + 1))).
        { intros b Hb. replace (h - (Z.of_nat n + 1)) with (h - (Z.of_nat (S n) + 1) + 1) by lia. rewrite pow2_succ by lia. lia. }
        pose proof (Hidx' 0 ltac:(lia)). pose proof (Hidx' 1 ltac:(lia)).
        replace (Z.min (Z.min mx hi) mid) with (Z.min mx (Z.min hi mid)) by lia.
        replace (Z.max (Z.max mn lo) ((2 * idx + 1) * 2 ^ Z.of_nat n)) with (Z.max mn (Z.max lo ((2 * idx + 1) * 2 ^ Z.of_nat n))) by lia.
        apply c_gen_loop_app; apply IH; unfold mid; try lia; nia.
      + rewrite dec_split by lia. rewrite (dec_split R h n idx (Z.max mn lo)) by lia.
        set (mid := (2 * idx + 1) * 2 ^ Z.of_nat n - 1) in *.
        assert (HT : 2 ^ Z.of_nat (S n) = 2 * 2 ^ Z.of_nat n) by (rewrite <- pow2_succ by lia; f_equal; lia).
        assert (Hidx' : forall b, 0 <= b <= 1 -> 0 <= 2 * idx + b < 2 ^ (h - (Z.of_nat n + 1))).
        { intros b Hb. replace (h - (Z.of_nat n + 1)) with (h - (Z.of_nat (S n) + 1) + 1) by lia. rewrite pow2_succ by lia. lia. }
        pose proof (Hidx' 0 ltac:(lia)). pose proof (Hidx' 1 ltac:(lia)).
        replace (Z.min (Z.min mx hi) mid) with (Z.min mx (Z.min hi mid)) by lia.
        replace (Z.max (Z.max mn lo) ((2 * idx + 1) * 2 ^ Z.of_nat n)) with (Z.max mn (Z.max lo ((2 * idx + 1) * 2 ^ Z.of_nat n))) by lia.
        apply c_gen_loop_app; apply IH; unfold mid; try lia; nia.
  Qed.
End Proofs.
