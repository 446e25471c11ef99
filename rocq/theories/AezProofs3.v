(** cipher_aez_core computes the values of AezProofs2, inside of the buffers. *)
From Verif Require Import Base BaseFacts AezModel AezProofs AezProofs2.
From Coq Require Import Lia.

Lemma load_app a b pos : pos = zlen a -> 16 <= zlen b -> load (a ++ b) pos = Ok (firstn 16 b).
Proof.
  intros -> Hb. unfold load. destruct (zsplit b 16) as (x & y & E & Hx & _); [lia|]. subst b. rewrite rd_mid by (reflexivity || lia).
  f_equal. symmetry. apply firstn16. unfold zlen in Hx. lia.
Qed.
Lemma wr_tail (P D g0 g1 : bytes) k : blk g0 -> blk g1 -> 0 <= k -> zlen D = k + 32 ->
  (d <- wr (P ++ D) (zlen P + k) g0 ;; wr d (zlen P + k + 16) g1) = Ok (P ++ firstn (Z.to_nat k) D ++ g0 ++ g1).
Proof.
  intros H0 H1 Hk HD. destruct (zsplit D k) as (u & v & ED & Hu & Hv); [lia|].
  destruct (zsplit v 16) as (w & w' & Ev & Hw & Hw'); [lia|]. subst v D. rewrite HD in *.
  rewrite firstn_zlen_app by lia.
  replace (P ++ u ++ w ++ w') with ((P ++ u) ++ w ++ w') by (rewrite <- !app_assoc; reflexivity).
  rewrite (wr_mid (P ++ u) w w' g0) by (rewrite ?zlen_app, ?(blk_zlen _ H0); lia). cbn [bind].
  rewrite (app_assoc (P ++ u) g0).
  rewrite (wr_suffix ((P ++ u) ++ g0) w' g1) by (rewrite ?zlen_app, ?(blk_zlen _ H0), ?(blk_zlen _ H1); lia).
  rewrite <- !app_assoc. reflexivity.
Qed.
Lemma is_zero_vandnot x : blk x -> exists p, load pad 0 = Ok p /\ is_zero (vandnot p x) = true.
Proof.
  intros [L B]. exists (repeat 255 16). split; [vm_compute; reflexivity|].
  revert L. generalize 16%nat as n. intros n <-. clear B. induction x as [|b x IH]; [reflexivity|].
  unfold is_zero, vandnot in *. cbn [length repeat zipw forallb]. change (Z.lxor 255 255) with 0. rewrite Z.land_0_l, IH. reflexivity.
Qed.

Section Core.
  Variable R : bytes -> bytes.
  Hypothesis R_blk : forall x, blk x -> blk (R x).
  Variable c : ctx.
  Hypothesis Hc : ctx_ok c.

  Lemma wr_frag P D f s (x0 x1 : bytes) : is_bytes f -> (length f < 32)%nat -> blk s -> zlen D = zlen f + 32 ->
    exists D', zlen D' = zlen f + 32 /\ firstn (length f) D' = fm R c f s /\
     (if (16 <=? length f)%nat then
        d <- wr (P ++ D) (zlen P) (vxor (firstn 16 f) (aes R c s (cJ2 c))) ;;
        wr d (zlen P + 16) (norm (length f - 16) (vxor (f1of f) (aes R c s (vxor (cJ2 c) (cJ0 c)))))
      else if (length f =? 0)%nat then Ok (P ++ D)
      else wr (P ++ D) (zlen P) (norm (length f) (vxor (f0of f) (aes R c s (cJ2 c))))) = Ok (P ++ D').
  Proof using R_blk Hc.
    intros Hb Hf Hs HD. destruct (Hc). unfold fm. destruct (Nat.leb_spec 16 (length f)) as [H|H].
    - assert (blk (vxor (firstn 16 f) (aes R c s (cJ2 c)))) as B0 by (apply blk_xor; [apply blk_first16; assumption|apply blk_aes; assumption]).
      assert (blk (vxor (f1of f) (aes R c s (vxor (cJ2 c) (cJ0 c))))) as B1.
      { apply blk_xor; [apply blk_f1of; [assumption|lia]|apply blk_aes; try assumption; apply blk_xor; assumption]. }
      assert (blk (norm (length f - 16) (vxor (f1of f) (aes R c s (vxor (cJ2 c) (cJ0 c)))))) as B2 by (apply norm_blk; [lia|assumption]).
      set (u := vxor (firstn 16 f) (aes R c s (cJ2 c))) in *. set (v := vxor (f1of f) (aes R c s (vxor (cJ2 c) (cJ0 c)))) in *.
      exists (u ++ norm (length f - 16) v ++ skipn 32 D).
      assert (zlen f = Z.of_nat (length f)) as Zf by reflexivity.
      split; [rewrite !zlen_app, (blk_zlen _ B0), (blk_zlen _ B2); unfold zlen in *; rewrite skipn_length; lia|].
      split.
      + rewrite firstn_app, (blk_len _ B0), (firstn_all2 u) by (rewrite (blk_len _ B0); lia). f_equal.
        rewrite firstn_app, (blk_len _ B2). replace (length f - 16 - 16)%nat with 0%nat by lia. cbn [firstn].
        rewrite app_nil_r. apply norm_firstn. rewrite (blk_len _ B1). lia.
      + rewrite wr_app_eq by (try reflexivity; rewrite (blk_zlen _ B0); lia). cbn [bind].
        rewrite app_assoc, wr_app_eq; [|rewrite zlen_app, (blk_zlen _ B0); lia|].
        * rewrite (blk_len _ B0), (blk_len _ B2), skipn_skipn_add, <- app_assoc. reflexivity.
        * rewrite (blk_zlen _ B2). unfold zlen in *. rewrite skipn_length, (blk_len _ B0). lia.
    - destruct (Nat.eqb_spec (length f) 0) as [Z|Z].
      + exists D. split; [assumption|]. split; [|reflexivity]. rewrite Z. reflexivity.
      + assert (blk (vxor (f0of f) (aes R c s (cJ2 c)))) as B1.
        { apply blk_xor; [apply blk_f0of; [assumption|lia]|apply blk_aes; assumption]. }
        assert (blk (norm (length f) (vxor (f0of f) (aes R c s (cJ2 c))))) as B2 by (apply norm_blk; [lia|assumption]).
        exists (norm (length f) (vxor (f0of f) (aes R c s (cJ2 c))) ++ skipn 16 D).
        split; [rewrite !zlen_app, (blk_zlen _ B2); unfold zlen in *; rewrite skipn_length; lia|].
        split.
        * rewrite firstn_app, (blk_len _ B2). replace (length f - 16)%nat with 0%nat by lia. cbn [firstn].
          rewrite app_nil_r. apply norm_firstn. rewrite (blk_len _ B1). lia.
        * rewrite wr_app_eq by (try reflexivity; rewrite (blk_zlen _ B2); pose proof (zlen_nonneg f); lia). rewrite (blk_len _ B2). reflexivity.
  Qed.

  Lemma core_ok t d m dst : d = 0 \/ d = 1 -> blk t -> msg_ok m -> is_bytes dst -> zlen dst = zlen (msg m) -> zlen (msg m) < 2 ^ 32 ->
    cipher_aez_core R c t d (msg m) (zlen (msg m)) dst = Ok (0, msg (core_val R c t d m)).
  Proof using R_blk Hc.
    destruct m as [[[ps f] f0] f1]. intros Hd Ht (Hp & Hf & Hl & H0 & H1) Hdst Ldst Hmax.
    cbn [msg] in *.
    assert (zlen (flat ps ++ f ++ f0 ++ f1) = 32 * zlen ps + zlen f + 32) as Z1.
    { rewrite !zlen_app, (flat_zlen _ Hp), (blk_zlen _ H0), (blk_zlen _ H1). lia. }
    rewrite Z1 in *. unfold cipher_aez_core. cbv zeta.
    assert (zlen f = Z.of_nat (length f)) as Zf by reflexivity.
    assert (zlen ps = Z.of_nat (length ps)) as Zp by reflexivity.
    replace ((32 * zlen ps + zlen f + 32) mod 32) with (zlen f) by lia.
    assert (u32 (u32 (32 * zlen ps + zlen f + 32 - zlen f) - 32) = 32 * Z.of_nat (length ps)) as ->.
    { unfold u32. rewrite !Z.mod_small by lia. lia. }
    destruct (zsplit dst (32 * zlen ps)) as (D0 & D & ED & LD0 & LD); [lia|]. subst dst.
    apply is_bytes_app in Hdst as [BD0 BD].
    destruct (flat_split R R_blk D0 (length ps) BD0) as (qs0 & -> & Hq0 & Lq0); [lia|].
    rewrite (pass_one_ok R R_blk c Hc ps qs0 (f ++ f0 ++ f1) D (length ps)) by (assumption || reflexivity). cbn [bind].
    unfold core_val. cbv zeta.
    destruct (offsets_ok R R_blk c Hc (length ps)) as [O1 O2]. set (os := offsets c (length ps)) in *.
    assert (Forall pblk (map2 (one1 R c) os ps)) as Hq by (apply (pblk_p1 R R_blk c Hc); assumption).
    assert (length (map2 (one1 R c) os ps) = length ps) as Lq by (rewrite map2_length; lia).
    set (qs := map2 (one1 R c) os ps) in *.
    assert (Forall blk (map snd qs)) as Hsq by (apply Forall_map; eapply Forall_impl; [|exact Hq]; intros ? [_ ?]; assumption).
    assert (blk (sumx (map snd qs) zero)) as Hx0 by (apply blk_sumx; [assumption|apply blk_zero]).
    assert (zlen (flat ps) = 32 * zlen ps) as Zfl by (apply flat_zlen; assumption).
    pose (fr0 := if Nat.leb 16 (length f) then firstn 16 f else if Nat.eqb (length f) 0 then zero else f0of f).
    pose (fr1 := if Nat.leb 16 (length f) then f1of f else zero).
    match goal with |- bind ?e _ = _ => assert (e = Ok (fr0, fr1, fx R c f (sumx (map snd qs) zero))) as -> end.
    { unfold fr0, fr1, fx. rewrite Zf. destruct (Nat.leb_spec 16 (length f)) as [H|H].
      - replace (16 <=? Z.of_nat (length f)) with true by lia.
        rewrite load_app by (rewrite ?zlen_app; lia || (pose proof (zlen_nonneg f0); pose proof (zlen_nonneg f1); lia)). cbn [bind].
        assert (firstn 16 (f ++ f0 ++ f1) = firstn 16 f) as E16.
        { rewrite firstn_app. replace (16 - length f)%nat with 0%nat by lia. apply app_nil_r. }
        rewrite E16.
        assert (flat ps ++ f ++ f0 ++ f1 = (flat ps ++ firstn 16 f) ++ skipn 16 f ++ f0 ++ f1) as Es.
        { rewrite <- (firstn_skipn 16 f) at 1. rewrite <- !app_assoc. reflexivity. }
        rewrite Es, load_app; [|rewrite zlen_app, Zfl; unfold zlen at 2; rewrite firstn_length; lia|rewrite !zlen_app, (blk_zlen _ H0), (blk_zlen _ H1); pose proof (zlen_nonneg (skipn 16 f)); lia].
        cbn [bind].
        replace (32 - Z.of_nat (length f)) with (16 - Z.of_nat (length f - 16)) by lia.
        assert (blk (firstn 16 (skipn 16 f ++ f0 ++ f1))) as Bb.
        { split; [rewrite firstn_length, !app_length, (blk_len _ H0), (blk_len _ H1); lia|].
          apply is_bytes_firstn. rewrite !is_bytes_app. split; [apply is_bytes_skipn, Hf|]. destruct H0, H1; auto. }
        rewrite one_zero_pad_norm by (lia || assumption). cbn [bind].
        assert (norm (length f - 16) (firstn 16 (skipn 16 f ++ f0 ++ f1)) = f1of f) as ->.
        { unfold norm, f1of. f_equal. rewrite firstn_firstn. replace (Nat.min (length f - 16) 16) with (length f - 16)%nat by lia.
          rewrite firstn_app, skipn_length, Nat.sub_diag, firstn_all2 by (rewrite skipn_length; lia). apply app_nil_r. }
        reflexivity.
      - replace (16 <=? Z.of_nat (length f)) with false by lia.
        destruct (Nat.eqb_spec (length f) 0) as [Z|Z].
        + replace (Z.of_nat (length f) =? 0) with true by lia. reflexivity.
        + replace (Z.of_nat (length f) =? 0) with false by lia. cbn [negb].
          rewrite load_app by (rewrite ?zlen_app, ?(blk_zlen _ H0), ?(blk_zlen _ H1); lia). cbn [bind].
          assert (blk (firstn 16 (f ++ f0 ++ f1))) as Bb.
          { split; [rewrite firstn_length, !app_length, (blk_len _ H0), (blk_len _ H1); lia|].
            apply is_bytes_firstn. rewrite !is_bytes_app. split; [exact Hf|]. destruct H0, H1; auto. }
          rewrite one_zero_pad_norm by (lia || assumption). cbn [bind].
          assert (norm (length f) (firstn 16 (f ++ f0 ++ f1)) = f0of f) as ->.
          { unfold norm, f0of. f_equal. rewrite firstn_firstn. replace (Nat.min (length f) 16) with (length f) by lia.
            rewrite firstn_app, Nat.sub_diag, firstn_all. apply app_nil_r. }
          reflexivity. }
    cbn [bind].
    assert (blk (fx R c f (sumx (map snd qs) zero))) as Hx by (apply blk_fx; assumption).
    set (x := fx R c f (sumx (map snd qs) zero)) in *.
    assert (load (flat ps ++ f ++ f0 ++ f1) (32 * zlen ps + zlen f + 32 - 32) = Ok f0) as ->.
    { rewrite app_assoc. unfold load. apply rd_mid; [rewrite zlen_app; lia|rewrite (blk_zlen _ H0); reflexivity]. }
    cbn [bind].
    assert (load (flat ps ++ f ++ f0 ++ f1) (32 * zlen ps + zlen f + 32 - 32 + 16) = Ok f1) as ->.
    { replace (flat ps ++ f ++ f0 ++ f1) with ((flat ps ++ f ++ f0) ++ f1) by (rewrite <- !app_assoc; reflexivity).
      unfold load. apply rd_suffix; [rewrite !zlen_app, (blk_zlen _ H0); lia|rewrite (blk_zlen _ H1); reflexivity]. }
    cbn [bind].
    change (aes4 R (vxor f1 (cI c d)) (cJ0 c) (cI0 c) (cL c) (vxor (vxor f0 x) t)) with (vxor (A R c (vxor f1 (cI c d))) (vxor (vxor f0 x) t)).
    pose proof (blk_cI c Hc d) as HId. pose proof (blk_cI c Hc (1 - d)) as HId'. pose proof (blk_cJ c Hc d) as HJd. pose proof (blk_cJ c Hc (1 - d)) as HJd'.
    assert (blk (vxor (A R c (vxor f1 (cI c d))) (vxor (vxor f0 x) t))) as Ha0 by (repeat first [assumption|apply blk_xor|apply (blk_A R R_blk c Hc)]).
    set (a0 := vxor (A R c (vxor f1 (cI c d))) (vxor (vxor f0 x) t)) in *.
    assert (blk (vxor f1 (aes R c a0 (cJ c d)))) as Ha1 by (apply blk_xor; [|apply blk_aes]; assumption).
    set (a1 := vxor f1 (aes R c a0 (cJ c d))) in *.
    assert (blk (vxor a0 a1)) as Hs by (apply blk_xor; assumption). set (s := vxor a0 a1) in *.
    assert (blk (vxor a0 (aes R c a1 (cJ c (1 - d))))) as Hb0 by (apply blk_xor; [|apply blk_aes]; assumption).
    set (b0 := vxor a0 (aes R c a1 (cJ c (1 - d)))) in *.
    destruct (is_zero_vandnot b0 Hb0) as (pd & -> & Ez). cbn [bind]. rewrite Ez. cbn [negb]. rewrite andb_false_r.
    change (aes4 R (vxor b0 (cI c (1 - d))) (cJ0 c) (cI0 c) (cL c) a1) with (vxor (A R c (vxor b0 (cI c (1 - d)))) a1).
    assert (blk (vxor (A R c (vxor b0 (cI c (1 - d)))) a1)) as Hb1 by (repeat first [assumption|apply blk_xor|apply (blk_A R R_blk c Hc)]).
    set (b1 := vxor (A R c (vxor b0 (cI c (1 - d)))) a1) in *.
    rewrite (pass_two_ok R R_blk c Hc s qs D (length ps)) by assumption. fold os. cbn [bind].
    assert (Forall pblk (map2 (one2 R c s) os qs)) as Hpp by (apply (pblk_p2 R R_blk c Hc); assumption).
    assert (zlen (flat (map2 (one2 R c s) os qs)) = 32 * zlen ps) as Zpp.
    { rewrite (flat_zlen _ Hpp). unfold zlen. rewrite map2_length; lia. }
    assert (Forall blk (tmps R c s os qs)) as Htm by (apply (blk_tmps R R_blk c Hc); assumption).
    set (y0 := sumx (tmps R c s os qs) zero) in *.
    assert (blk y0) as Hy0 by (apply blk_sumx; [assumption|apply blk_zero]).
    assert (is_bytes (fm R c f s)) as Hfm by (apply fm_bytes; assumption).
    assert (length (fm R c f s) = length f) as Lfm by (apply fm_length; assumption).
    assert (blk (fx R c (fm R c f s) y0)) as Hy by (apply blk_fx; [assumption|assumption|assumption|lia|assumption]).
    set (P := flat (map2 (one2 R c s) os qs)) in *.
    destruct (wr_frag P D f s zero zero Hf Hl Hs) as (D' & LD' & ED' & EW); [lia|].
    match goal with |- bind ?e _ = _ => assert (e = Ok (P ++ D', fx R c (fm R c f s) y0)) as -> end.
    { destruct (Hc). revert EW. unfold fr0, fr1, fx. rewrite Lfm, Zf. destruct (Nat.leb_spec 16 (length f)) as [H|H].
      - replace (16 <=? Z.of_nat (length f)) with true by lia. intros EW.
        replace (32 - Z.of_nat (length f)) with (16 - Z.of_nat (length f - 16)) by lia.
        assert (blk (vxor (firstn 16 f) (aes R c s (cJ2 c)))) as B0 by (apply blk_xor; [apply blk_first16; assumption|apply blk_aes; assumption]).
        assert (blk (vxor (f1of f) (aes R c s (vxor (cJ2 c) (cJ0 c))))) as B1.
        { apply blk_xor; [apply blk_f1of; [assumption|lia]|apply blk_aes; try assumption; apply blk_xor; assumption]. }
        rewrite one_zero_pad_norm by (lia || assumption). cbn [bind].
        rewrite Zpp, Zp in EW.
        destruct (wr (P ++ D) (32 * Z.of_nat (length ps)) (vxor (firstn 16 f) (aes R c s (cJ2 c)))) as [e| | | |]; cbn [bind] in EW |- *; try discriminate.
        rewrite EW. cbn [bind]. f_equal. f_equal.
        assert (firstn 16 (fm R c f s) = vxor (firstn 16 f) (aes R c s (cJ2 c))) as ->.
        { unfold fm. replace (Nat.leb 16 (length f)) with true by (symmetry; apply Nat.leb_le; lia). apply firstn16, blk_len, B0. }
        assert (f1of (fm R c f s) = norm (length f - 16) (vxor (f1of f) (aes R c s (vxor (cJ2 c) (cJ0 c))))) as ->.
        { unfold f1of at 1. rewrite Lfm. unfold fm. replace (Nat.leb 16 (length f)) with true by (symmetry; apply Nat.leb_le; lia).
          rewrite skipn16 by (apply blk_len, B0). reflexivity. }
        reflexivity.
      - replace (16 <=? Z.of_nat (length f)) with false by lia.
        destruct (Nat.eqb_spec (length f) 0) as [Z|Z].
        + replace (Z.of_nat (length f) =? 0) with true by lia. cbn [negb]. intros EW. injection EW as ->. reflexivity.
        + replace (Z.of_nat (length f) =? 0) with false by lia. cbn [negb]. intros EW.
          assert (blk (vxor (f0of f) (aes R c s (cJ2 c)))) as B1.
          { apply blk_xor; [apply blk_f0of; [assumption|lia]|apply blk_aes; assumption]. }
          rewrite one_zero_pad_norm by (lia || assumption). cbn [bind].
          rewrite Zpp, Zp in EW. rewrite EW. cbn [bind]. f_equal. f_equal.
          assert (f0of (fm R c f s) = norm (length f) (vxor (f0of f) (aes R c s (cJ2 c)))) as ->.
          { unfold f0of at 1. rewrite Lfm. unfold fm. replace (Nat.leb 16 (length f)) with false by (symmetry; apply Nat.leb_gt; lia). reflexivity. }
          reflexivity. }
    cbn [bind].
    assert (blk (vxor (vxor b1 (fx R c (fm R c f s) y0)) t)) as Hg0 by (repeat first [assumption|apply blk_xor]).
    pose proof (wr_tail P D' _ b0 (zlen f) Hg0 Hb0 (zlen_nonneg f) LD') as HW.
    replace (32 * zlen ps + zlen f + 32 - 32) with (zlen P + zlen f) by lia.
    destruct (wr (P ++ D') (zlen P + zlen f) (vxor (vxor b1 (fx R c (fm R c f s) y0)) t)) as [e| | | |]; cbn [bind] in HW |- *; try discriminate.
    rewrite HW. cbn [bind]. rewrite Zf, Nat2Z.id, ED'. reflexivity.
  Qed.

  (** every message of at least 32 bytes has this form *)
  Lemma msg_split l : is_bytes l -> 32 <= zlen l -> exists m, l = msg m /\ msg_ok m.
  Proof.
    intros Hb Hl. destruct (zsplit l (32 * (zlen l / 32 - 1))) as (a & r & El & La & Lr); [lia|].
    destruct (zsplit r (zlen l mod 32)) as (f & g & Er & Lf & Lg); [lia|].
    destruct (zsplit g 16) as (g0 & g1 & Eg & L0 & L1); [lia|].
    assert (zlen g1 = 16) by lia. subst g r. rewrite El in Hb. rewrite !is_bytes_app in Hb. destruct Hb as (B1 & B2 & B3 & B4).
    destruct (flat_split R R_blk a (Z.to_nat (zlen l / 32 - 1)) B1) as (ps & -> & Hps & _); [lia|].
    exists (ps, f, g0, g1). split; [exact El|]. unfold zlen in *.
    repeat (split; try assumption); lia.
  Qed.
End Core.
