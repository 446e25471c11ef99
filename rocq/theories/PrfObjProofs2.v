From Verif Require Import Base BaseFacts KeyVal PrgModel HmacModel CipherModel PrpModel RcprfModel WrapperModel HmacProofs2 RcprfProofs PrfObjProofs.
From Coq Require Import Lia.

Lemma prg_empty : forall blk ml, (forall g offset len out, 0 < len ->
    derive_buf blk ml VEmpty offset len out = (VEmpty, Throw RuntimeError) /\ derive_str blk ml g VEmpty offset len = (VEmpty, Throw RuntimeError)) /\
  (forall g K i, 0 < K -> too_large K i = false -> derive_key blk ml g VEmpty K i = (VEmpty, Throw RuntimeError)) /\
  (forall g K n i, 0 < K -> 0 < n -> n * K < 2 ^ 64 -> too_large K n = false -> too_large K i = false -> derive_keys blk ml g VEmpty K n i = (VEmpty, Throw RuntimeError)) /\
  prg_duplicate ml VEmpty = (VEmpty, Throw RuntimeError) /\ prg_serialize ml VEmpty = (VEmpty, Throw RuntimeError).
Proof.
  intros blk ml.
  assert (D : forall offset len out, len <> 0 -> derive_buf blk ml VEmpty offset len out = (VEmpty, Throw RuntimeError)).
  { intros offset len out L. unfold derive_buf. destruct (Z.eqb_spec len 0); [contradiction|reflexivity]. }
  split; [|split; [|split; [|split; reflexivity]]].
  - intros g offset len out L. split; [apply D; lia|]. unfold derive_str. rewrite D by lia. reflexivity.
  - intros g K i L T. unfold derive_key. rewrite T, D by lia. reflexivity.
  - intros g K n i L N M T T'. unfold derive_keys. rewrite T, T'. destruct (Z.eqb_spec n 0); [lia|]. rewrite D; [reflexivity|].
    unfold u64. rewrite Z.mod_small by nia. nia.
Qed.

Lemma cipher_empty : forall kdf enc dec inp len out r, zlen r = 16 -> 16 <= zlen out -> 16 <= zlen inp ->
  encrypt kdf enc true VEmpty inp len out r = (VEmpty, Throw RuntimeError) /\
  (32 <= len -> decrypt kdf dec true VEmpty inp len out = (VEmpty, out, Throw RuntimeError)) /\
  cipher_serialize true VEmpty = (VEmpty, Throw RuntimeError).
Proof.
  intros kdf enc dec inp len out r R O I. split; [|split; [|reflexivity]].
  - unfold encrypt. assert (W : exists o, wr out 0 r = Ok o) by (eexists; apply wr_ok; lia). destruct W as (o & W). rewrite W.
    assert (L : zlen o = zlen out) by (unfold zlen; rewrite (wr_length _ _ _ _ W); reflexivity).
    rewrite rd_ok by (unfold NONCE_SIZE; lia). reflexivity.
  - intros L. unfold decrypt. change (ciphertext_length 0) with 32. replace (len <? 32) with false by (symmetry; apply Z.ltb_ge; lia).
    rewrite rd_ok by (unfold NONCE_SIZE; lia). reflexivity.
Qed.

Lemma rcprf_empty : forall blk ml dbg N gN gK h leaf, 2 <= h <= 63 -> 1 <= N < 2 ^ 16 -> 0 <= leaf < 2 ^ (h - 1) ->
  rc_eval blk ml dbg N gN gK (mk_rcprf h VEmpty) leaf = (mk_rcprf h VEmpty, Throw RuntimeError).
Proof.
  intros blk ml dbg N gN gK h leaf Hh HN Hl.
  assert (C : get_child h leaf 0 = Ok ((leaf / 2 ^ (h - 0 - 2)) mod 2)) by (apply get_child_ok; lia).
  assert (R : 0 <= (leaf / 2 ^ (h - 0 - 2)) mod 2 < 2) by (apply Z.mod_pos_bound; lia).
  set (c := (leaf / 2 ^ (h - 0 - 2)) mod 2) in *.
  unfold rc_eval. cbn [r_height r_key]. unfold shr64. replace ((0 <=? h) && (h <? 64)) with true by (symmetry; apply andb_true_intro; split; [apply Z.leb_le|apply Z.ltb_lt]; lia).
  cbn [kbind]. rewrite Z.shiftr_div_pow2 by lia. rewrite Z.div_small.
  2: { split; [lia|]. apply Z.lt_le_trans with (2 ^ (h - 1)); [lia|]. apply Z.pow_le_mono_r; lia. }
  cbn [negb Z.eqb r_height r_key]. unfold derive_leaf, kassert.
  replace (2 <=? h) with true by (symmetry; apply Z.leb_le; lia). replace (0 <? h - 1) with true by (symmetry; apply Z.ltb_lt; lia).
  destruct (Z.eqb_spec h (0 + 2)) as [E|E].
  - rewrite C. cbn [kbind]. unfold leaf_derive, derive_buf. destruct (Z.eqb_spec N 0); [lia|]. reflexivity.
  - replace (0 <? h - 2) with true by (symmetry; apply Z.ltb_lt; lia). rewrite C. cbn [kbind]. unfold derive_key.
    assert (T : too_large rc_kKeySize c = false) by (assert (c = 0 \/ c = 1) as [-> | ->] by lia; reflexivity).
    rewrite T. reflexivity.
Qed.

Lemma derive_key_empty blk ml g c : c = 0 \/ c = 1 -> derive_key blk ml g VEmpty rc_kKeySize c = (VEmpty, Throw RuntimeError).
Proof. intros [-> | ->]; reflexivity. Qed.
Lemma leaf_derive_empty blk ml N gN c : 1 <= N -> leaf_derive blk ml N gN VEmpty c = (VEmpty, Throw RuntimeError).
Proof. intros HN. unfold leaf_derive, derive_buf. destruct (Z.eqb_spec N 0); [lia|]. reflexivity. Qed.
Lemma rcprf_empty_range : forall blk ml dbg N gN gK h mn mx, 2 <= h <= 63 -> 1 <= N < 2 ^ 16 -> 0 <= mn <= mx -> mx < 2 ^ (h - 1) ->
  rc_eval_range blk ml dbg N gN gK (mk_rcprf h VEmpty) mn mx = (mk_rcprf h VEmpty, [], Throw RuntimeError).
Proof.
  intros blk ml dbg N gN gK h mn mx Hh HN Hr Hm.
  unfold rc_eval_range. cbn [r_height r_key]. unfold shr64. replace ((0 <=? h) && (h <? 64)) with true by (symmetry; apply andb_true_intro; split; [apply Z.leb_le|apply Z.ltb_lt]; lia).
  rewrite Z.shiftr_div_pow2 by lia. rewrite Z.div_small.
  2: { split; [lia|]. apply Z.lt_le_trans with (2 ^ (h - 1)); [lia|]. apply Z.pow_le_mono_r; lia. }
  cbn [negb Z.eqb]. replace (mx <? mn) with false by (symmetry; apply Z.ltb_ge; lia).
  destruct (Z.to_nat h) as [|n] eqn:E; [lia|]. cbn [derive_leaf_range].
  replace (mn <=? mx) with true by (symmetry; apply Z.leb_le; lia). replace (0 + 1 <? h) with true by (symmetry; apply Z.ltb_lt; lia).
  cbn [negb]. rewrite !Bool.andb_false_r. destruct (Z.eqb_spec h (0 + 2)) as [Eh|Eh].
  - assert (h = 2) by lia. subst h. change (2 ^ (2 - 1)) with 2 in Hm. replace (u64 (mx - mn) <=? 1) with true by (symmetry; apply Z.leb_le; unfold u64; rewrite Z.mod_small; lia).
    cbn [negb]. rewrite Bool.andb_false_r. rewrite get_child_ok by lia. cbn [kbind]. rewrite leaf_derive_empty by lia. reflexivity.
  - replace (2 <? h - 0) with true by (symmetry; apply Z.ltb_lt; lia). cbn [negb]. rewrite Bool.andb_false_r.
    destruct (Z.leb_spec mn (max_leaf_index (u8 (h - 0 - 1)))) as [L|L].
    + rewrite derive_key_empty by (left; reflexivity). reflexivity.
    + cbn [cbind]. replace (max_leaf_index (u8 (h - 0 - 1)) <? mx) with true by (symmetry; apply Z.ltb_lt; lia).
      rewrite derive_key_empty by (right; reflexivity). reflexivity.
Qed.
Lemma rcprf_empty_constrain : forall blk ml dbg N gN gK h mn mx, 2 <= h <= 64 -> 1 <= N < 2 ^ 16 -> 0 <= mn <= mx -> mx < 2 ^ (h - 1) ->
  (mn <> 0 \/ mx <> 2 ^ (h - 1) - 1) ->
  rc_constrain blk ml dbg N gN gK (mk_rcprf h VEmpty) mn mx = (mk_rcprf h VEmpty, Throw RuntimeError).
Proof.
  intros blk ml dbg N gN gK h mn mx Hh HN Hr Hm Hp.
  unfold rc_constrain, rc_gen. cbn [r_height r_key]. rewrite max_leaf_index_ok by lia.
  replace (mx <? mn) with false by (symmetry; apply Z.ltb_ge; lia). replace (2 ^ (h - 1) - 1 <? mx) with false by (symmetry; apply Z.ltb_ge; lia).
  replace ((mx =? 2 ^ (h - 1) - 1) && (mn =? 0)) with false.
  2: { symmetry. apply Bool.andb_false_iff. destruct Hp; [right|left]; apply Z.eqb_neq; assumption. }
  destruct (Z.to_nat h) as [|n] eqn:E; [lia|]. cbn [gen_subkeys].
  destruct (Z.leb_spec h 2) as [L|L].
  - assert (h = 2) by lia. subst h. change (2 ^ (2 - 1)) with 2 in *. unfold kassert. replace (mn =? mx) with true by (symmetry; apply Z.eqb_eq; lia).
    unfold gen_leaf. rewrite leaf_derive_empty by lia. reflexivity.
  - destruct (Z.leb_spec mn (u64 (2 ^ (h - 1) - 1 + 0) / 2)) as [Q|Q].
    + rewrite derive_key_empty by (left; reflexivity). reflexivity.
    + cbn [kbind]. replace (u64 (2 ^ (h - 1) - 1 + 0) / 2 <? mx) with true by (symmetry; apply Z.ltb_lt; lia).
      rewrite derive_key_empty by (right; reflexivity). reflexivity.
Qed.
Lemma wr_some b pos d : 0 <= pos -> pos + zlen d <= zlen b -> exists b', wr b pos d = Ok b' /\ zlen b' = zlen b.
Proof. intros P L. destruct (wr b pos d) as [b'| | | |] eqn:W; rewrite wr_ok in W by assumption; try discriminate. exists b'. split; [reflexivity|]. injection W as <-.
  pose proof (wr_ok b pos d P L) as W'. unfold zlen. rewrite (wr_length _ _ _ _ W'). reflexivity. Qed.
Lemma header_some C buffer iv : zlen iv = 16 -> 17 + zlen (w_ctx C) <= zlen buffer -> exists b, header C buffer iv = Ok b /\ zlen b = zlen buffer.
Proof.
  intros I L. pose proof (zlen_nonneg (w_ctx C)). unfold header, kRandomIVSize.
  destruct (wr_some buffer 0 iv) as (b1 & -> & L1); [lia|lia|]. cbn [bind].
  destruct (wr_some b1 16 [w_type C]) as (b2 & -> & L2); [lia|change (zlen [w_type C]) with 1; lia|]. cbn [bind].
  destruct (wr_some b2 (16 + 1) (w_ctx C)) as (b3 & E3 & L3); [lia|lia|]. exists b3. split; [exact E3|lia].
Qed.
Lemma wrapper_empty : forall H stream ml g, sized g -> forall C,
  (forall rep, 28 < zlen rep -> zlen rep + zlen (w_ctx C) < 2 ^ 63 ->
     exists buffer, unwrap H stream ml g C (mk_wrapper VEmpty VEmpty) rep = (rep, (mk_wrapper VEmpty VEmpty, Some buffer, Throw RuntimeError))) /\
  (ml = true -> forall c c' n s iv, w_size C c = Ok n -> w_ser C c = (c', Ok s) -> zlen s = n -> n + zlen (w_ctx C) < 2 ^ 63 -> zlen iv = 16 ->
     exists buffer, wrap H stream ml g C (mk_wrapper VEmpty VEmpty) c iv = (c', (mk_wrapper VEmpty VEmpty, Some buffer, Throw RuntimeError))).
Proof.
  intros H stream ml g LG C. pose proof (zlen_nonneg (w_ctx C)) as Hc. split.
  - intros rep L1 L2. unfold unwrap, w_kCiphertextExpansion, kTagSize, kRandomIVSize.
    replace (zlen rep <=? 12 + 16) with false by (symmetry; apply Z.leb_gt; lia).
    rewrite rd_ok by lia. cbn [bind].
    assert (U : u64 (16 + (zlen rep - (12 + 16)) + zlen (w_ctx C) + 1) = 16 + (zlen rep - (12 + 16)) + zlen (w_ctx C) + 1) by (unfold u64; apply Z.mod_small; lia).
    rewrite U.
    destruct (header_some C (g (16 + (zlen rep - (12 + 16)) + zlen (w_ctx C) + 1)) (window rep (Z.to_nat 0) (Z.to_nat 16))) as (b & -> & _).
    + unfold zlen, window. rewrite firstn_length, skipn_length. unfold zlen in L1. lia.
    + rewrite LG by lia. lia.
    + rewrite rd_ok by lia. cbn [enck v_unlock_get]. eexists. reflexivity.
  - intros -> c c' n s iv S1 S2 L1 L2 LI. pose proof (zlen_nonneg s) as Hs. unfold wrap. rewrite S1. unfold kRandomIVSize.
    assert (U : u64 (16 + n + zlen (w_ctx C) + 1) = 16 + n + zlen (w_ctx C) + 1) by (unfold u64; apply Z.mod_small; lia). rewrite U.
    destruct (header_some C (g (16 + n + zlen (w_ctx C) + 1)) iv) as (b & -> & Lb); [exact LI|rewrite LG by lia; lia|]. rewrite LG in Lb by lia.
    rewrite S2. destruct (wr_some b (16 + 1 + zlen (w_ctx C)) s) as (b2 & -> & L2'); [lia|lia|].
    rewrite rd_ok by lia. cbn [bind].
    assert (U' : u64 (w_kCiphertextExpansion + n) = 28 + n) by (unfold u64, w_kCiphertextExpansion, kTagSize, kRandomIVSize; rewrite Z.mod_small; lia). rewrite U'.
    match goal with |- context [wr (zeros ?m) 0 ?d] => destruct (wr_some (zeros m) 0 d) as (o & -> & _) end.
    { lia. } { rewrite zlen_zeros. unfold zlen at 1, window. rewrite firstn_length, skipn_length. lia. }
    cbn [tagk]. unfold w_tag, prf, kTagSize. change (64 <? 12) with false. cbn iota. unfold base_hmac, hmac. change (64 <? 12) with false. cbn. eexists. reflexivity.
Qed.
Lemma hmac_empty : forall H B D N inp len out opos out_len g1 g2, out_len <= D ->
  hmac H B D true N VEmpty (Some inp) len (Some out) opos out_len g1 g2 = (VEmpty, Throw RuntimeError).
Proof. intros. unfold hmac. replace (D <? out_len) with false by (symmetry; apply Z.ltb_ge; lia). reflexivity. Qed.
Lemma hmac_empty_ub : forall H B D N inp len out opos out_len g1 g2, out_len <= D ->
  hmac H B D false N VEmpty (Some inp) len (Some out) opos out_len g1 g2 = (VEmpty, UB).
Proof. intros. unfold hmac. replace (D <? out_len) with false by (symmetry; apply Z.ltb_ge; lia). reflexivity. Qed.
Lemma cipher_empty_abort : forall kdf enc dec inp len out r, zlen r = 16 -> 16 <= zlen out -> 16 <= zlen inp -> 32 <= len ->
  encrypt kdf enc false VEmpty inp len out r = (VEmpty, Abort) /\ decrypt kdf dec false VEmpty inp len out = (VEmpty, out, Abort).
Proof.
  intros kdf enc dec inp len out r R O I L. split.
  - unfold encrypt. destruct (wr_some out 0 r) as (o & -> & Lo); [lia|lia|]. rewrite rd_ok by (unfold NONCE_SIZE; lia). reflexivity.
  - unfold decrypt. change (ciphertext_length 0) with 32. replace (len <? 32) with false by (symmetry; apply Z.ltb_ge; lia).
    rewrite rd_ok by (unfold NONCE_SIZE; lia). reflexivity.
Qed.
