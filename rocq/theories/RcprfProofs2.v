From Verif Require Import BaseFacts KeyVal PrgModel PrgSpec PrgProofs RcprfModel RcprfSpec RcprfProofs.

Lemma tiles_app l1 l2 lo mid hi : tiles l1 lo mid -> tiles l2 (mid + 1) hi -> tiles (l1 ++ l2) lo hi.
Proof.
  revert lo; induction l1 as [|e l1 IH]; intros lo H1 H2; simpl in *.
  - subst lo. exact H2.
  - destruct H1 as (Ha & Hb & Hc). split; [assumption|]. split; [assumption|]. apply IH; assumption.
Qed.
Lemma tiles_le l lo hi : tiles l lo hi -> lo <= hi + 1.
Proof.
  revert lo; induction l as [|e l IH]; intros lo H; simpl in H; [lia|]. destruct H as (Ha & Hb & Hc).
  apply IH in Hc. lia.
Qed.

(** Sorting and checking elements that are already in order. *)
Lemma sort_tiles l lo hi : tiles l lo hi -> sort_elts l = l.
Proof.
  revert lo; induction l as [|e l IH]; intros lo H; simpl in *; [reflexivity|]. destruct H as (Ha & Hb & Hc).
  rewrite (IH _ Hc). destruct l as [|e' l]; simpl; [reflexivity|]. simpl in Hc.
  destruct (Z.leb_spec (e_min e) (e_min e')); [reflexivity|lia].
Qed.
Lemma consecutive_tiles l lo hi : tiles l lo hi -> 0 <= lo -> hi < 2 ^ 64 -> consecutive l = true.
Proof.
  revert lo; induction l as [|e l IH]; intros lo H H0 H1; [reflexivity|]. destruct H as (Ha & Hb & Hc).
  destruct l as [|e' l]; [reflexivity|].
  assert (E : consecutive (e' :: l) = true) by (eapply IH; [exact Hc|lia|lia]).
  change (consecutive (e :: e' :: l)) with ((u64 (e_max e + 1) =? e_min e') && consecutive (e' :: l)).
  rewrite E, andb_true_r. destruct Hc as (Hd & He & Hf). apply tiles_le in Hf.
  rewrite u64_id by lia. lia.
Qed.
Lemma mk_c_ok h l lo hi : tiles l lo hi -> l <> [] -> Forall (fun e => e_height e = h) l -> 0 <= lo -> hi < 2 ^ 64 ->
  mk_c l = Ok (mk_crcprf h l).
Proof.
  intros T Hne Hh H0 H1. unfold mk_c.
  replace (get_element_height l) with (Ok h).
  - rewrite bind_Ok. rewrite (sort_tiles l lo hi T), (consecutive_tiles l lo hi T) by assumption. reflexivity.
  - destruct l as [|e r]; [congruence|]. apply Forall_cons_iff in Hh. destruct Hh as [He Hr]. subst h. unfold get_element_height.
    replace (forallb _ r) with true; [reflexivity|]. symmetry. apply forallb_forall. intros x Hx.
    rewrite Forall_forall in Hr. rewrite (Hr x Hx). apply Z.eqb_refl.
Qed.

  Lemma pow2_nodes h st idx : 1 <= st <= h -> 0 <= idx < 2 ^ (h - st) -> 
    0 < 2 ^ (st - 1) /\ 0 <= idx * 2 ^ (st - 1) /\ (idx + 1) * 2 ^ (st - 1) <= 2 ^ (h - 1).
  Proof.
    intros H Hi. pose proof (Z.pow_pos_nonneg 2 (st - 1) ltac:(lia) ltac:(lia)) as P.
    replace (h - 1) with (h - st + (st - 1)) by lia. rewrite pow2_split by lia. nia.
  Qed.
  Lemma mk_leaf_ok h b lf : 2 <= h -> mk_leaf b h lf = Ok (Leaf h lf b).
  Proof.
    intros Hh. unfold mk_leaf, elt_check. simpl. replace (h <=? 1) with false by lia.
    replace (lf <? lf) with false by lia. rewrite Z.sub_diag. reflexivity.
  Qed.

Section Proofs.
  Context (blk : bytes -> Z -> bytes) (ml dbg : bool) (N : Z) (gN gK : bytes).
  Context (HN : 1 <= N < 2 ^ 16) (HgN : zlen gN = N) (HgK : zlen gK = 32).
  Notation node := (node_key blk).
  Notation value := (leaf_value blk N).
  Notation ckey := (child_key blk).
  Notation sub_of := (subtree_of blk ml N).


  Lemma node_child R h st idx b : 0 <= b <= 1 -> 2 <= st <= h -> 
    ckey (node R (Z.to_nat (h - st)) idx) b = node R (Z.to_nat (h - (st - 1))) (2 * idx + b).
  Proof.
    intros Hb Hst. replace (Z.to_nat (h - (st - 1))) with (S (Z.to_nat (h - st))) by lia. simpl.
    replace ((2 * idx + b) / 2) with idx by lia. replace ((2 * idx + b) mod 2) with b by lia. reflexivity.
  Qed.

  Lemma mk_inner_ok R h st idx : 3 <= h <= 64 -> 2 <= st < h -> 0 <= idx < 2 ^ (h - st) ->
    let e := Inner h st (idx * 2 ^ (st - 1)) ((idx + 1) * 2 ^ (st - 1) - 1) (VKey (node R (Z.to_nat (h - st)) idx) ml) in
    mk_inner (VKey (node R (Z.to_nat (h - st)) idx) ml) h st (idx * 2 ^ (st - 1)) ((idx + 1) * 2 ^ (st - 1) - 1) = Ok e /\ sub_of R h e.
  Proof.
    intros Hh Hst Hi e. pose proof (pow2_nodes h st idx ltac:(lia) Hi) as P.
    split.
    - unfold mk_inner, elt_check. replace (st =? 0) with false by lia. replace (h <=? st) with false by lia.
      rewrite max_leaf_index_ok by lia.
      destruct (Z.ltb_spec ((idx + 1) * 2 ^ (st - 1) - 1) (idx * 2 ^ (st - 1))); [nia|].
      replace (_ =? _) with true by nia. simpl. replace (st <=? 1) with false by lia. reflexivity.
    - simpl. split; [reflexivity|]. split; [lia|]. exists idx. auto.
  Qed.

  (** Number of elements. *)
  Definition nelts_bound (st : Z) (smin smax mn mx : Z) : Z :=
    if (mn =? smin) || (mx =? smax) then st - 1 else 2 * (st - 1) - 2.

  Lemma gen_subkeys_ok R h fuel : forall l st idx mn mx,
    let smin := idx * 2 ^ (st - 1) in let smax := (idx + 1) * 2 ^ (st - 1) - 1 in
    2 <= st <= h -> h <= 64 -> 0 <= idx < 2 ^ (h - st) -> (Z.to_nat (st - 1) <= fuel)%nat ->
    smin <= mn <= mx -> mx <= smax -> ~ (mn = smin /\ mx = smax) ->
    exists els, gen_subkeys blk ml dbg N gN gK fuel (VKey (node R (Z.to_nat (h - st)) idx) l) h st smin smax mn mx =
      (VKey (node R (Z.to_nat (h - st)) idx) ml, Ok els) /\
      Forall (sub_of R h) els /\ tiles els mn mx /\ 1 <= zlen els <= nelts_bound st smin smax mn mx.
  Proof.
    induction fuel as [|fuel IH]; intros l st idx mn mx smin smax Hst Hh Hidx Hf Hmn Hmx Hnot; [lia|].
    pose proof (pow2_nodes h st idx ltac:(lia) Hidx) as (P0 & P1 & P2).
    assert (P3 : 2 ^ (h - 1) <= 2 ^ 63) by (apply Z.pow_le_mono_r; lia).
    cbn [gen_subkeys].
    destruct (Z.leb_spec st 2) as [E|E].
    - assert (st = 2) as -> by lia. unfold smin, smax in *. change (2 ^ (2 - 1)) with 2 in *.
      assert (mn = mx) as -> by lia. unfold kassert. rewrite Z.eqb_refl. unfold gen_leaf.
      assert (exists b, 0 <= b <= 1 /\ (if mx =? idx * 2 then 0 else 1) = b /\ mx = 2 * idx + b) as (b & Hb & -> & Hmb).
      { destruct (Z.eqb_spec mx (idx * 2)); [exists 0|exists 1]; lia. }
      rewrite leaf_derive_ok by assumption. unfold kbind. rewrite mk_leaf_ok by lia. rewrite bind_Ok.
      eexists. split; [reflexivity|]. repeat split.
      + repeat constructor; simpl; try lia; try nia. 
        unfold leaf_value. replace (mx / 2) with idx by lia. replace (mx mod 2) with b by lia. reflexivity.
      + simpl. lia.
      + unfold zlen; simpl; lia.
      + unfold zlen, nelts_bound; simpl. destruct (Z.eqb_spec mx (idx * 2)); destruct (Z.eqb_spec mx ((idx + 1) * 2 - 1)); simpl; lia.
    - set (T := 2 ^ (st - 2)) in *.
      assert (HT : 2 ^ (st - 1) = 2 * T) by (unfold T; rewrite <- pow2_succ by lia; f_equal; lia).
      assert (HT0 : 0 < T) by (apply Z.pow_pos_nonneg; lia).
      assert (HTe : 2 ^ (st - 1 - 1) = T) by (unfold T; f_equal; lia).
      assert (Hidx' : forall b, 0 <= b <= 1 -> 0 <= 2 * idx + b < 2 ^ (h - (st - 1))).
      { intros b Hb. replace (h - (st - 1)) with (h - st + 1) by lia. rewrite pow2_succ by lia. lia. }
      unfold smin, smax in *. rewrite HT in *. clear smin smax.
      assert (M : u64 ((idx + 1) * (2 * T) - 1 + idx * (2 * T)) / 2 = (2 * idx + 1) * T - 1).
      { rewrite u64_id by nia. replace ((idx + 1) * (2 * T) - 1 + idx * (2 * T)) with (((2 * idx + 1) * T - 1) * 2 + 1) by lia.
        rewrite Z.div_add_l by lia. change (1 / 2) with 0. lia. }
      rewrite M. set (mid := (2 * idx + 1) * T - 1) in *.
      rewrite u8_id by lia.
      assert (Hmid1 : u64 (mid + 1) = (2 * idx + 1) * T) by (rewrite u64_id; unfold mid; nia).
      (* left *)
      assert (L : exists left,
        (if mn <=? mid
         then kbind (derive_key blk ml gK (VKey (node R (Z.to_nat (h - st)) idx) l) rc_kKeySize 0) (fun k subkey =>
               if (mn =? idx * (2 * T)) && (mid <=? mx) then
                 (k, e <- mk_inner subkey h (st - 1) (idx * (2 * T)) mid ;; Ok [e])
               else
                 (k, snd (gen_subkeys blk ml dbg N gN gK fuel subkey h (st - 1) (idx * (2 * T)) mid mn (Z.min mx mid))))
         else (VKey (node R (Z.to_nat (h - st)) idx) l, Ok [])) = 
        (VKey (node R (Z.to_nat (h - st)) idx) (if mn <=? mid then ml else l), Ok left) /\
        Forall (sub_of R h) left /\ (mn <= mid -> tiles left mn (Z.min mx mid)) /\ (mid < mn -> left = []) /\
        (mn <= mid -> 1 <= zlen left <= if (mn =? idx * (2 * T)) && (mid <=? mx) then 1 else
                   nelts_bound (st - 1) (idx * (2 * T)) mid mn (Z.min mx mid))).
      { destruct (Z.leb_spec mn mid) as [Hl|Hl].
        - rewrite derive_child by lia. unfold kbind. rewrite node_child by lia.
          assert (E1 : idx * (2 * T) = (2 * idx + 0) * 2 ^ (st - 1 - 1)) by (rewrite HTe; lia).
          assert (E2 : mid = (2 * idx + 0 + 1) * 2 ^ (st - 1 - 1) - 1) by (rewrite HTe; lia).
          destruct ((mn =? idx * (2 * T)) && (mid <=? mx)) eqn:C.
          + destruct (mk_inner_ok R h (st - 1) (2 * idx + 0) ltac:(lia) ltac:(lia) (Hidx' 0 ltac:(lia))) as [Hk Hs].
            rewrite <- E1, <- E2 in Hk, Hs. rewrite Hk, bind_Ok. eexists. split; [reflexivity|].
            split; [constructor; [exact Hs|constructor]|]. split; [intros _; simpl; lia|]. split; [lia|].
            intros _. unfold zlen; simpl; lia.
          + pose proof (IH ml (st - 1) (2 * idx + 0) mn (Z.min mx mid)) as I. cbv zeta in I. rewrite <- E1, <- E2 in I.
            destruct I as (els & Ie & If & It & Ic); [lia|lia|apply Hidx'; lia|lia|lia|lia|lia|].
            rewrite Ie. exists els. split; [reflexivity|]. split; [assumption|]. split; [intros _; assumption|].
            split; [lia|]. intros _. exact Ic.
        - exists []. split; [reflexivity|]. split; [constructor|]. split; [lia|]. split; [reflexivity|lia]. }
      destruct L as (left & Le & Lf & Lt & Ln & Lc). rewrite Le. unfold kbind at 1. clear Le.
      destruct (Z.ltb_spec mid mx) as [Hr|Hr].
      + rewrite derive_child by lia. unfold kbind. rewrite node_child by lia. rewrite Hmid1.
        assert (E1 : (2 * idx + 1) * T = (2 * idx + 1) * 2 ^ (st - 1 - 1)) by (rewrite HTe; lia).
        assert (E2 : (idx + 1) * (2 * T) - 1 = (2 * idx + 1 + 1) * 2 ^ (st - 1 - 1) - 1) by (rewrite HTe; lia).
        destruct ((mn <=? (2 * idx + 1) * T) && (mx =? (idx + 1) * (2 * T) - 1)) eqn:C.
        * destruct (mk_inner_ok R h (st - 1) (2 * idx + 1) ltac:(lia) ltac:(lia) (Hidx' 1 ltac:(lia))) as [Hk Hs].
          rewrite <- E1, <- E2 in Hk, Hs. rewrite Hk, bind_Ok. eexists. split; [reflexivity|].
          split; [apply Forall_app; split; [exact Lf|constructor; [exact Hs|constructor]]|].
          assert (Hmx' : mx = (idx + 1) * (2 * T) - 1) by lia.
          assert (Lcc : zlen left <= st - 2).
          { destruct (Z.leb_spec mn mid); [|rewrite Ln by lia; unfold zlen; simpl; lia].
            specialize (Lc ltac:(lia)). unfold nelts_bound in Lc.
            destruct (Z.leb_spec mid mx); [|lia]. rewrite andb_true_r in Lc.
            destruct (Z.eqb_spec mn (idx * (2 * T))); [lia|]. simpl in Lc. replace (Z.min mx mid =? mid) with true in Lc by lia. lia. }
          split.
          -- destruct (Z.leb_spec mn mid) as [Hl|Hl].
             ++ apply (tiles_app left _ mn mid mx); [replace mid with (Z.min mx mid) by lia; apply Lt; lia|]. simpl. lia.
             ++ rewrite Ln by lia. simpl. lia.
          -- rewrite zlen_app. change (zlen [_]) with 1. pose proof (zlen_nonneg left).
             unfold nelts_bound. replace (mx =? _) with true by lia. rewrite orb_true_r. lia.
        * pose proof (IH ml (st - 1) (2 * idx + 1) (Z.max mn ((2 * idx + 1) * T)) mx) as I. cbv zeta in I. rewrite <- E1, <- E2 in I.
          destruct I as (els & Ie & If & It & Ic); [lia|lia|apply Hidx'; lia|lia|lia|lia|lia|].
          rewrite Ie. simpl snd. rewrite bind_Ok. eexists. split; [reflexivity|].
          split; [apply Forall_app; split; assumption|]. split.
          -- destruct (Z.leb_spec mn mid) as [Hl|Hl].
             ++ apply (tiles_app left _ mn mid mx); [replace mid with (Z.min mx mid) by lia; apply Lt; lia|].
                replace (mid + 1) with (Z.max mn ((2 * idx + 1) * T)) by lia. assumption.
             ++ rewrite Ln by lia. simpl. replace mn with (Z.max mn ((2 * idx + 1) * T)) by lia. assumption.
          -- rewrite zlen_app. pose proof (zlen_nonneg left).
             split; [lia|].
             assert (Hnl : mn <= mid -> zlen left <= if mn =? idx * (2 * T) then 1 else st - 2).
             { intros Hl. specialize (Lc Hl). unfold nelts_bound in Lc. replace (mid <=? mx) with true in Lc by lia.
               rewrite andb_true_r in Lc. replace (Z.min mx mid =? mid) with true in Lc by lia. rewrite orb_true_r in Lc.
               destruct (mn =? idx * (2 * T)); lia. }
             destruct (Z.leb_spec mn mid) as [Hl|Hl].
             ++ specialize (Hnl Hl). unfold nelts_bound in *.
                replace (Z.max mn ((2 * idx + 1) * T) =? (2 * idx + 1) * T) with true in Ic by lia. simpl in Ic.
                destruct (Z.eqb_spec mn (idx * (2 * T))); simpl; [lia|].
                destruct (Z.eqb_spec mx ((idx + 1) * (2 * T) - 1)); [lia|]. lia.
             ++ rewrite Ln by lia. change (zlen []) with 0. unfold nelts_bound in *.
                destruct (Z.eqb_spec mn (idx * (2 * T))); [lia|]. simpl.
                destruct (Z.eqb_spec mx ((idx + 1) * (2 * T) - 1)); [rewrite orb_true_r in Ic; lia|].
                destruct ((_ =? _) || _); lia.
      + assert (Hl : mn <= mid) by lia. replace (mn <=? mid) with true by lia.
        exists left. split; [reflexivity|]. split; [assumption|].
        specialize (Lt Hl). specialize (Lc Hl). replace (Z.min mx mid) with mx in * by lia.
        split; [assumption|]. split; [lia|]. unfold nelts_bound in *.
        replace (mx =? (idx + 1) * (2 * T) - 1) with false by lia.
        destruct (Z.eqb_spec mn (idx * (2 * T))); simpl in *.
        * destruct (Z.leb_spec mid mx); lia.
        * destruct (mx =? mid); lia.
  Qed.
End Proofs.
