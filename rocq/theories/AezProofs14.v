(** cipher_aez_core with authentication bytes. *)
From Verif Require Import Base BaseFacts AezModel AezProofs AezProofs2 AezProofs3 AezAuthModel AezProofs13.
From Coq Require Import Lia.

Lemma is_zero_vandnot_a x (a : nat) : (a <= 16)%nat -> blk x -> exists p, load pad (Z.of_nat a) = Ok p /\ is_zero (vandnot p x) = is_zero (skipn (16 - a) x).
Proof.
  intros Ha [L B]. exists (repeat 255 (16 - a) ++ zeros a). split.
  { replace (Z.of_nat a) with (16 - Z.of_nat (16 - a)) by lia. rewrite load_ff by lia. do 2 f_equal. f_equal. lia. }
  rewrite <- (firstn_skipn (16 - a) x) at 1.
  assert (length (firstn (16 - a) x) = (16 - a)%nat) as L1 by (rewrite firstn_length; lia).
  assert (length (skipn (16 - a) x) = a) as L2 by (rewrite skipn_length; lia).
  assert (is_bytes (skipn (16 - a) x)) as B2 by (apply is_bytes_skipn, B).
  revert L1 L2 B2. generalize (firstn (16 - a) x) as u. generalize (skipn (16 - a) x) as v. intros v u L1 L2 B2.
  unfold vandnot. rewrite zipw_app by (rewrite repeat_length; lia). unfold is_zero. rewrite forallb_app.
  assert (forall n (u : bytes), length u = n -> forallb (fun b => b =? 0) (zipw (fun x y => Z.land (Z.lxor x 255) y) (repeat 255 n) u) = true) as HU.
  { clear. intros n u <-. induction u as [|b u IH]; [reflexivity|]. cbn [length repeat zipw forallb]. change (Z.lxor 255 255) with 0. rewrite Z.land_0_l, IH. reflexivity. }
  rewrite HU by exact L1. cbn [andb].
  revert a Ha L1 L2. induction v as [|b v IH]; intros a Ha L1 L2; [destruct a; reflexivity|].
  destruct a as [|a]; [discriminate|]. inversion B2 as [|? ? Bb Bv]; subst. cbn [zeros repeat zipw forallb]. cbn [length] in L2. injection L2 as L2.
  change (Z.lxor 0 255) with (Z.ones 8). rewrite Z.land_comm, Z.land_ones, Z.mod_small by (unfold is_byte in Bb; lia).
  f_equal. clear - IH Bv L2. subst a. clear IH. induction v as [|b v IH]; [reflexivity|]. inversion Bv as [|? ? Bb Bv']; subst.
  cbn [length zeros repeat zipw forallb]. change (Z.lxor 0 255) with (Z.ones 8). rewrite Z.land_comm, Z.land_ones, Z.mod_small by (unfold is_byte in Bb; lia). f_equal. apply IH, Bv'.
Qed.

Section Core.
  Variable R : bytes -> bytes.
  Hypothesis R_blk : forall x, blk x -> blk (R x).
  Variable c : ctx.
  Hypothesis Hc : ctx_ok c.

  Lemma wr_frag_a P D f s : is_bytes f -> (length f < 32)%nat -> blk s -> zlen f + 16 <= zlen D ->
    exists D', zlen D' = zlen D /\ firstn (length f) D' = fm R c f s /\
     (if (16 <=? length f)%nat then
        d <- wr (P ++ D) (zlen P) (vxor (firstn 16 f) (aes R c s (cJ2 c))) ;;
        wr d (zlen P + 16) (norm (length f - 16) (vxor (f1of f) (aes R c s (vxor (cJ2 c) (cJ0 c)))))
      else if (length f =? 0)%nat then Ok (P ++ D)
      else wr (P ++ D) (zlen P) (norm (length f) (vxor (f0of f) (aes R c s (cJ2 c))))) = Ok (P ++ D').
  Proof using R_blk Hc.
    intros Hb Hf Hs HD. destruct (Hc). unfold fm. destruct (Nat.leb_spec 16 (length f)) as [H|H].
    - assert (blk (vxor (firstn 16 f) (aes R c s (cJ2 c)))) as B0 by (apply blk_xor; [apply blk_first16; assumption|apply blk_aes; assumption]).
      assert (blk (vxor (f1of f) (aes R c s (vxor (cJ2 c) (cJ0 c))))) as B1.
      { apply blk_xor; [apply blk_f1of; [assumption|lia]|apply blk_aes; try assumption; apply blk_xor; assumption]. }
      assert (blk (norm (length f - 16) (vxor (f1of f) (aes R c s (vxor (cJ2 c) (cJ0 c)))))) as B2 by (apply norm_blk; [lia|assumption]).
      set (u := vxor (firstn 16 f) (aes R c s (cJ2 c))) in *. set (v := vxor (f1of f) (aes R c s (vxor (cJ2 c) (cJ0 c)))) in *.
      exists (u ++ norm (length f - 16) v ++ skipn 32 D).
      assert (zlen f = Z.of_nat (length f)) as Zf by reflexivity.
      split; [rewrite !zlen_app, (blk_zlen _ B0), (blk_zlen _ B2); unfold zlen in *; rewrite skipn_length; lia|].
      split.
      + rewrite firstn_app, (blk_len _ B0), (firstn_all2 u) by (rewrite (blk_len _ B0); lia). f_equal.
        rewrite firstn_app, (blk_len _ B2). replace (length f - 16 - 16)%nat with 0%nat by lia. cbn [firstn].
        rewrite app_nil_r. apply norm_firstn. rewrite (blk_len _ B1). lia.
      + rewrite wr_app_eq by (try reflexivity; rewrite (blk_zlen _ B0); lia). cbn [bind].
        rewrite app_assoc, wr_app_eq; [|rewrite zlen_app, (blk_zlen _ B0); lia|].
        * rewrite (blk_len _ B0), (blk_len _ B2), skipn_skipn_add, <- app_assoc. reflexivity.
        * rewrite (blk_zlen _ B2). unfold zlen in *. rewrite skipn_length, (blk_len _ B0). lia.
    - destruct (Nat.eqb_spec (length f) 0) as [Z|Z].
      + exists D. split; [reflexivity|]. split; [|reflexivity]. rewrite Z. reflexivity.
      + assert (blk (vxor (f0of f) (aes R c s (cJ2 c)))) as B1.
        { apply blk_xor; [apply blk_f0of; [assumption|lia]|apply blk_aes; assumption]. }
        assert (blk (norm (length f) (vxor (f0of f) (aes R c s (cJ2 c))))) as B2 by (apply norm_blk; [lia|assumption]).
        exists (norm (length f) (vxor (f0of f) (aes R c s (cJ2 c))) ++ skipn 16 D).
        split; [rewrite !zlen_app, (blk_zlen _ B2); unfold zlen in *; rewrite skipn_length; lia|].
        split.
        * rewrite firstn_app, (blk_len _ B2). replace (length f - 16)%nat with 0%nat by lia. cbn [firstn].
          rewrite app_nil_r. apply norm_firstn. rewrite (blk_len _ B1). lia.
        * rewrite wr_app_eq by (try reflexivity; rewrite (blk_zlen _ B2); pose proof (zlen_nonneg f); lia). rewrite (blk_len _ B2). reflexivity.
  Qed.

  (** [g]: what follows the first half of the last block of the source; its first bytes are read. *)
  Lemma core_a_ok t d (a : nat) ps f f0 f1 g dst : d = 0 \/ d = 1 -> (a <= 16)%nat -> blk t -> msg_ok (ps, f, f0, f1) -> is_bytes dst ->
    zlen dst = zlen (msg (ps, f, f0, f1)) - (if d =? 0 then 0 else Z.of_nat a) -> zlen (msg (ps, f, f0, f1)) < 2 ^ 32 -> is_bytes g -> 16 <= zlen g ->
    (if d =? 0 then firstn (16 - a) g ++ zeros a else firstn 16 g) = f1 -> exists junk,
    core_a R c t d (flat ps ++ f ++ f0 ++ g) (zlen (msg (ps, f, f0, f1)) - (if d =? 0 then Z.of_nat a else 0)) (Z.of_nat a) dst =
    let X := msg (core_val R c t d (ps, f, f0, f1)) in
    if negb (d =? 0) && negb (is_zero (skipn (length X - a) X)) then Ok (-1, junk) else Ok (0, firstn (length dst) X).
  Proof using R_blk Hc.
    intros Hd Ha Ht (Hp & Hf & Hl & H0 & H1) Hdst Ldst Hmax Bg Lg Ef1.
    cbn [msg] in *.
    assert (zlen (flat ps ++ f ++ f0 ++ f1) = 32 * zlen ps + zlen f + 32) as Z1.
    { rewrite !zlen_app, (flat_zlen _ Hp), (blk_zlen _ H0), (blk_zlen _ H1). lia. }
    rewrite Z1 in *. unfold core_a. cbv zeta.
    assert ((if d =? 0 then u32 (32 * zlen ps + zlen f + 32 - (if d =? 0 then Z.of_nat a else 0) + Z.of_nat a)
      else 32 * zlen ps + zlen f + 32 - (if d =? 0 then Z.of_nat a else 0)) = 32 * zlen ps + zlen f + 32) as ->.
    { destruct (d =? 0); [|lia]. unfold u32. rewrite Z.mod_small; pose proof (zlen_nonneg ps); pose proof (zlen_nonneg f); lia. }
    assert (zlen f = Z.of_nat (length f)) as Zf by reflexivity.
    assert (zlen ps = Z.of_nat (length ps)) as Zp by reflexivity.
    replace ((32 * zlen ps + zlen f + 32) mod 32) with (zlen f) by lia.
    assert (u32 (u32 (32 * zlen ps + zlen f + 32 - zlen f) - 32) = 32 * Z.of_nat (length ps)) as ->.
    { unfold u32. rewrite !Z.mod_small by lia. lia. }
    destruct (zsplit dst (32 * zlen ps)) as (D0 & D & ED & LD0 & LD); [destruct (d =? 0); lia|]. subst dst.
    apply is_bytes_app in Hdst as [BD0 BD].
    destruct (flat_split R R_blk D0 (length ps) BD0) as (qs0 & -> & Hq0 & Lq0); [lia|].
    rewrite (pass_one_ok R R_blk c Hc ps qs0 (f ++ f0 ++ g) D (length ps)) by (assumption || reflexivity). cbn [bind].
    unfold core_val. cbv zeta.
    destruct (offsets_ok R R_blk c Hc (length ps)) as [O1 O2]. set (os := offsets c (length ps)) in *.
    assert (Forall pblk (map2 (one1 R c) os ps)) as Hq by (apply (pblk_p1 R R_blk c Hc); assumption).
    assert (length (map2 (one1 R c) os ps) = length ps) as Lq by (rewrite map2_length; lia).
    set (qs := map2 (one1 R c) os ps) in *.
    assert (Forall blk (map snd qs)) as Hsq by (apply Forall_map; eapply Forall_impl; [|exact Hq]; intros ? [_ ?]; assumption).
    assert (blk (sumx (map snd qs) zero)) as Hx0 by (apply blk_sumx; [assumption|apply blk_zero]).
    assert (zlen (flat ps) = 32 * zlen ps) as Zfl by (apply flat_zlen; assumption).
    pose (fr0 := if Nat.leb 16 (length f) then firstn 16 f else if Nat.eqb (length f) 0 then zero else f0of f).
    pose (fr1 := if Nat.leb 16 (length f) then f1of f else zero).
    match goal with |- exists _, bind ?e _ = _ => assert (e = Ok (fr0, fr1, fx R c f (sumx (map snd qs) zero))) as -> end.
    { unfold fr0, fr1, fx. rewrite Zf. destruct (Nat.leb_spec 16 (length f)) as [H|H].
      - replace (16 <=? Z.of_nat (length f)) with true by lia.
        rewrite load_app by (rewrite ?zlen_app; lia || (pose proof (zlen_nonneg f0); pose proof (zlen_nonneg g); lia)). cbn [bind].
        assert (firstn 16 (f ++ f0 ++ g) = firstn 16 f) as E16.
        { rewrite firstn_app. replace (16 - length f)%nat with 0%nat by lia. apply app_nil_r. }
        rewrite E16.
        assert (flat ps ++ f ++ f0 ++ g = (flat ps ++ firstn 16 f) ++ skipn 16 f ++ f0 ++ g) as Es.
        { rewrite <- (firstn_skipn 16 f) at 1. rewrite <- !app_assoc. reflexivity. }
        rewrite Es, load_app; [|rewrite zlen_app, Zfl; unfold zlen at 2; rewrite firstn_length; lia|rewrite !zlen_app, (blk_zlen _ H0); pose proof (zlen_nonneg (skipn 16 f)); lia].
        cbn [bind].
        replace (32 - Z.of_nat (length f)) with (16 - Z.of_nat (length f - 16)) by lia.
        assert (blk (firstn 16 (skipn 16 f ++ f0 ++ g))) as Bb.
        { split; [rewrite firstn_length, !app_length, (blk_len _ H0); lia|].
          apply is_bytes_firstn. rewrite !is_bytes_app. split; [apply is_bytes_skipn, Hf|]. destruct H0; auto. }
        rewrite one_zero_pad_norm by (lia || assumption). cbn [bind].
        assert (norm (length f - 16) (firstn 16 (skipn 16 f ++ f0 ++ g)) = f1of f) as ->.
        { unfold norm, f1of. f_equal. rewrite firstn_firstn. replace (Nat.min (length f - 16) 16) with (length f - 16)%nat by lia.
          rewrite firstn_app, skipn_length, Nat.sub_diag, firstn_all2 by (rewrite skipn_length; lia). apply app_nil_r. }
        reflexivity.
      - replace (16 <=? Z.of_nat (length f)) with false by lia.
        destruct (Nat.eqb_spec (length f) 0) as [Z|Z].
        + replace (Z.of_nat (length f) =? 0) with true by lia. reflexivity.
        + replace (Z.of_nat (length f) =? 0) with false by lia. cbn [negb].
          rewrite load_app by (rewrite ?zlen_app, ?(blk_zlen _ H0), ?(eq_refl (zlen g)); lia). cbn [bind].
          assert (blk (firstn 16 (f ++ f0 ++ g))) as Bb.
          { split; [rewrite firstn_length, !app_length, (blk_len _ H0); lia|].
            apply is_bytes_firstn. rewrite !is_bytes_app. split; [exact Hf|]. destruct H0; auto. }
          rewrite one_zero_pad_norm by (lia || assumption). cbn [bind].
          assert (norm (length f) (firstn 16 (f ++ f0 ++ g)) = f0of f) as ->.
          { unfold norm, f0of. f_equal. rewrite firstn_firstn. replace (Nat.min (length f) 16) with (length f) by lia.
            rewrite firstn_app, Nat.sub_diag, firstn_all. apply app_nil_r. }
          reflexivity. }
    cbn [bind].
    assert (blk (fx R c f (sumx (map snd qs) zero))) as Hx by (apply blk_fx; assumption).
    set (x := fx R c f (sumx (map snd qs) zero)) in *.
    assert (load (flat ps ++ f ++ f0 ++ g) (32 * zlen ps + zlen f + 32 - 32) = Ok f0) as ->.
    { rewrite app_assoc. unfold load. apply rd_mid; [rewrite zlen_app; lia|rewrite (blk_zlen _ H0); reflexivity]. }
    cbn [bind].
    assert (load (flat ps ++ f ++ f0 ++ g) (32 * zlen ps + zlen f + 32 - 32 + 16) = Ok (firstn 16 g)) as ->.
    { replace (flat ps ++ f ++ f0 ++ g) with ((flat ps ++ f ++ f0) ++ g) by (rewrite <- !app_assoc; reflexivity).
      apply load_app; [rewrite !zlen_app, (blk_zlen _ H0); lia|exact Lg]. }
    cbn [bind].
    assert (blk (firstn 16 g)) as Bg16 by (split; [rewrite firstn_length; unfold zlen in Lg; lia|apply is_bytes_firstn, Bg]).
    assert ((if negb (d =? 0) || (Z.of_nat a =? 0) then Ok (firstn 16 g) else zero_pad (firstn 16 g) (Z.of_nat a)) = Ok f1) as ->.
    { rewrite <- Ef1. destruct (d =? 0); cbn [negb orb]; [|reflexivity]. destruct (Z.eqb_spec (Z.of_nat a) 0) as [E|E].
      - assert (a = 0)%nat as -> by lia. change (zeros 0) with (@nil Z). rewrite app_nil_r. reflexivity.
      - replace (Z.of_nat a) with (16 - Z.of_nat (16 - a)) by lia. rewrite zero_pad_ok by (lia || assumption).
        rewrite firstn_firstn. replace (Nat.min (16 - a) 16) with (16 - a)%nat by lia. replace (16 - (16 - a))%nat with a by lia. reflexivity. }
    cbn [bind].
    change (aes4 R (vxor f1 (cI c d)) (cJ0 c) (cI0 c) (cL c) (vxor (vxor f0 x) t)) with (vxor (A R c (vxor f1 (cI c d))) (vxor (vxor f0 x) t)).
    pose proof (blk_cI c Hc d) as HId. pose proof (blk_cI c Hc (1 - d)) as HId'. pose proof (blk_cJ c Hc d) as HJd. pose proof (blk_cJ c Hc (1 - d)) as HJd'.
    assert (blk (vxor (A R c (vxor f1 (cI c d))) (vxor (vxor f0 x) t))) as Ha0 by (repeat first [assumption|apply blk_xor|apply (blk_A R R_blk c Hc)]).
    set (a0 := vxor (A R c (vxor f1 (cI c d))) (vxor (vxor f0 x) t)) in *.
    assert (blk (vxor f1 (aes R c a0 (cJ c d)))) as Ha1 by (apply blk_xor; [|apply blk_aes]; assumption).
    set (a1 := vxor f1 (aes R c a0 (cJ c d))) in *.
    assert (blk (vxor a0 a1)) as Hs by (apply blk_xor; assumption). set (s := vxor a0 a1) in *.
    assert (blk (vxor a0 (aes R c a1 (cJ c (1 - d))))) as Hb0 by (apply blk_xor; [|apply blk_aes]; assumption).
    set (b0 := vxor a0 (aes R c a1 (cJ c (1 - d)))) in *.
    destruct (is_zero_vandnot_a b0 a Ha Hb0) as (pd & -> & Ez). cbn [bind]. rewrite Ez.
    cbn [msg].
    assert (forall u, skipn (length (u ++ b0) - a) (u ++ b0) = skipn (16 - a) b0) as Esk.
    { intros u. rewrite app_length, (blk_len _ Hb0), skipn_app, skipn_all2 by lia. cbn [app]. f_equal. lia. }
    match goal with |- context [skipn (length (?A ++ ?B ++ ?C ++ b0) - a) _] =>
      assert (skipn (length (A ++ B ++ C ++ b0) - a) (A ++ B ++ C ++ b0) = skipn (16 - a) b0) as -> by (rewrite (app_assoc B), (app_assoc A); apply Esk) end.
    destruct (negb (d =? 0) && negb (is_zero (skipn (16 - a) b0))); [eexists; reflexivity|]. exists [].
    change (aes4 R (vxor b0 (cI c (1 - d))) (cJ0 c) (cI0 c) (cL c) a1) with (vxor (A R c (vxor b0 (cI c (1 - d)))) a1).
    assert (blk (vxor (A R c (vxor b0 (cI c (1 - d)))) a1)) as Hb1 by (repeat first [assumption|apply blk_xor|apply (blk_A R R_blk c Hc)]).
    set (b1 := vxor (A R c (vxor b0 (cI c (1 - d)))) a1) in *.
    rewrite (pass_two_ok R R_blk c Hc s qs D (length ps)) by assumption. fold os. cbn [bind].
    assert (Forall pblk (map2 (one2 R c s) os qs)) as Hpp by (apply (pblk_p2 R R_blk c Hc); assumption).
    assert (zlen (flat (map2 (one2 R c s) os qs)) = 32 * zlen ps) as Zpp.
    { rewrite (flat_zlen _ Hpp). unfold zlen. rewrite map2_length; lia. }
    assert (Forall blk (tmps R c s os qs)) as Htm by (apply (blk_tmps R R_blk c Hc); assumption).
    set (y0 := sumx (tmps R c s os qs) zero) in *.
    assert (blk y0) as Hy0 by (apply blk_sumx; [assumption|apply blk_zero]).
    assert (is_bytes (fm R c f s)) as Hfm by (apply fm_bytes; assumption).
    assert (length (fm R c f s) = length f) as Lfm by (apply fm_length; assumption).
    assert (blk (fx R c (fm R c f s) y0)) as Hy by (apply blk_fx; [assumption|assumption|assumption|lia|assumption]).
    set (P := flat (map2 (one2 R c s) os qs)) in *.
    destruct (wr_frag_a P D f s Hf Hl Hs) as (D' & LD' & ED' & EW); [destruct (d =? 0); lia|].
    match goal with |- bind ?e _ = _ => assert (e = Ok (P ++ D', fx R c (fm R c f s) y0)) as -> end.
    { destruct (Hc). revert EW. unfold fr0, fr1, fx. rewrite Lfm, Zf. destruct (Nat.leb_spec 16 (length f)) as [H|H].
      - replace (16 <=? Z.of_nat (length f)) with true by lia. intros EW.
        replace (32 - Z.of_nat (length f)) with (16 - Z.of_nat (length f - 16)) by lia.
        assert (blk (vxor (firstn 16 f) (aes R c s (cJ2 c)))) as B0 by (apply blk_xor; [apply blk_first16; assumption|apply blk_aes; assumption]).
        assert (blk (vxor (f1of f) (aes R c s (vxor (cJ2 c) (cJ0 c))))) as B1.
        { apply blk_xor; [apply blk_f1of; [assumption|lia]|apply blk_aes; try assumption; apply blk_xor; assumption]. }
        rewrite one_zero_pad_norm by (lia || assumption). cbn [bind].
        rewrite Zpp, Zp in EW.
        destruct (wr (P ++ D) (32 * Z.of_nat (length ps)) (vxor (firstn 16 f) (aes R c s (cJ2 c)))) as [e| | | |]; cbn [bind] in EW |- *; try discriminate.
        rewrite EW. cbn [bind]. f_equal. f_equal.
        assert (firstn 16 (fm R c f s) = vxor (firstn 16 f) (aes R c s (cJ2 c))) as ->.
        { unfold fm. replace (Nat.leb 16 (length f)) with true by (symmetry; apply Nat.leb_le; lia). apply firstn16, blk_len, B0. }
        assert (f1of (fm R c f s) = norm (length f - 16) (vxor (f1of f) (aes R c s (vxor (cJ2 c) (cJ0 c))))) as ->.
        { unfold f1of at 1. rewrite Lfm. unfold fm. replace (Nat.leb 16 (length f)) with true by (symmetry; apply Nat.leb_le; lia).
          rewrite skipn16 by (apply blk_len, B0). reflexivity. }
        reflexivity.
      - replace (16 <=? Z.of_nat (length f)) with false by lia.
        destruct (Nat.eqb_spec (length f) 0) as [Z|Z].
        + replace (Z.of_nat (length f) =? 0) with true by lia. cbn [negb]. intros EW. injection EW as ->. reflexivity.
        + replace (Z.of_nat (length f) =? 0) with false by lia. cbn [negb]. intros EW.
          assert (blk (vxor (f0of f) (aes R c s (cJ2 c)))) as B1.
          { apply blk_xor; [apply blk_f0of; [assumption|lia]|apply blk_aes; assumption]. }
          rewrite one_zero_pad_norm by (lia || assumption). cbn [bind].
          rewrite Zpp, Zp in EW. rewrite EW. cbn [bind]. f_equal. f_equal.
          assert (f0of (fm R c f s) = norm (length f) (vxor (f0of f) (aes R c s (cJ2 c)))) as ->.
          { unfold f0of at 1. rewrite Lfm. unfold fm. replace (Nat.leb 16 (length f)) with false by (symmetry; apply Nat.leb_gt; lia). reflexivity. }
          reflexivity. }
    cbn [bind].
    assert (blk (vxor (vxor b1 (fx R c (fm R c f s) y0)) t)) as Hg0 by (repeat first [assumption|apply blk_xor]).
    replace (32 * zlen ps + zlen f + 32 - 32) with (zlen P + zlen f) by lia. 
    assert (zlen D' = zlen f + 32 - (if d =? 0 then 0 else Z.of_nat a)) as LDx by (clear - Ldst LD LD' LD0 Zp; lia). revert LDx. clear Ldst.
    destruct (Z.eqb_spec d 0) as [E0|E0]; cbn [orb]; intros LDx.
    - assert (zlen D' = zlen f + 32) as LD'' by lia.
      pose proof (wr_tail P D' _ b0 (zlen f) Hg0 Hb0 (zlen_nonneg f) LD'') as HW.
      destruct (wr (P ++ D') (zlen P + zlen f) (vxor (vxor b1 (fx R c (fm R c f s) y0)) t)) as [e| | | |]; cbn [bind] in HW |- *; try discriminate.
      rewrite HW. cbn [bind]. rewrite Zf, Nat2Z.id, ED'. do 2 f_equal. symmetry. apply firstn_all2. unfold zlen in *. rewrite !app_length, Lfm, (blk_len _ Hg0), (blk_len _ Hb0). lia.
    - assert (zlen D' = zlen f + 32 - Z.of_nat a) as LD'' by lia.
      destruct (zsplit D' (zlen f)) as (u & v & EDv & Hu & Hv); [lia|]. destruct (zsplit v 16) as (w & w' & Ev & Hw & Hw'); [lia|]. subst v D'.
      assert (u = fm R c f s) as Eu by (rewrite <- ED', firstn_app; unfold zlen in Hu; replace (length f - length u)%nat with 0%nat by lia; rewrite firstn_all2 by lia; symmetry; apply app_nil_r).
      rewrite <- Eu in Hg0 |- *.
      replace (P ++ u ++ w ++ w') with ((P ++ u) ++ w ++ w') by (rewrite <- !app_assoc; reflexivity).
      rewrite (wr_mid (P ++ u) w w'); [|rewrite zlen_app, Hu; reflexivity|rewrite Hw; apply (blk_zlen _ Hg0)]. cbn [bind].
      set (G0 := vxor (vxor b1 (fx R c u y0)) t) in *.
      assert ((if Z.of_nat a =? 0 then wr ((P ++ u) ++ G0 ++ w') (zlen P + zlen f + 16) b0
               else b <- rd b0 0 (u32 (16 - Z.of_nat a)) ;; wr ((P ++ u) ++ G0 ++ w') (32 * zlen ps + zlen f + 32 - 16) b)
              = Ok ((P ++ u) ++ G0 ++ firstn (16 - a) b0)) as ->.
      { rewrite !zlen_app in LD''. rewrite (app_assoc (P ++ u) G0 w'). destruct (Z.eqb_spec (Z.of_nat a) 0) as [E|E].
        - assert (a = 0)%nat as -> by lia. rewrite (wr_suffix ((P ++ u) ++ G0) w') by (rewrite ?zlen_app, ?(blk_zlen _ Hg0), ?(blk_zlen _ Hb0); lia).
          rewrite <- !app_assoc. rewrite (firstn_all2 b0) by (rewrite (blk_len _ Hb0); lia). reflexivity.
        - assert (u32 (16 - Z.of_nat a) = Z.of_nat (16 - a)) as -> by (unfold u32; rewrite Z.mod_small; lia).
          rewrite rd_ok by (rewrite ?(blk_zlen _ Hb0); lia). cbn [bind]. change (Z.to_nat 0) with 0%nat. unfold window. cbn [skipn]. rewrite Nat2Z.id.
          assert (zlen (firstn (16 - a) b0) = 16 - Z.of_nat a) as Lfb by (unfold zlen; rewrite firstn_length, (blk_len _ Hb0); lia).
          rewrite (wr_suffix ((P ++ u) ++ G0) w') by (rewrite ?zlen_app, ?(blk_zlen _ Hg0); lia). rewrite <- !app_assoc. reflexivity. }
      cbn [bind]. f_equal. f_equal.
      assert (length (flat qs0 ++ D) = (length (P ++ u ++ G0) + (16 - a))%nat) as ->.
      { rewrite !app_length, (blk_len _ Hg0). rewrite !zlen_app in LDx. unfold zlen in *. rewrite !app_length in LD'. lia. }
      replace (P ++ u ++ G0 ++ b0) with ((P ++ u ++ G0) ++ b0) by (rewrite <- !app_assoc; reflexivity).
      rewrite firstn_app_2, <- !app_assoc. reflexivity.
  Qed.
End Core.
