From Verif Require Import BaseFacts KeyVal PrgModel PrgSpec.

Lemma zseq_length o n : length (zseq o n) = n.
Proof. revert o; induction n as [|n IH]; intros o; simpl; auto. Qed.
Lemma zseq_app o n m : zseq o (n + m) = zseq o n ++ zseq (o + Z.of_nat n) m.
Proof.
  revert o; induction n as [|n IH]; intros o; simpl.
  - f_equal; lia.
  - rewrite IH. do 3 f_equal. lia.
Qed.
Lemma zseq_firstn o n k : (k <= n)%nat -> firstn k (zseq o n) = zseq o k.
Proof.
  intros H. replace n with (k + (n - k))%nat by lia. rewrite zseq_app, firstn_app, zseq_length, Nat.sub_diag.
  simpl. rewrite app_nil_r. apply firstn_all2. rewrite zseq_length; lia.
Qed.
Lemma zseq_skipn o n k : (k <= n)%nat -> skipn k (zseq o n) = zseq (o + Z.of_nat k) (n - k).
Proof.
  intros H. replace n with (k + (n - k))%nat at 1 by lia.
  rewrite zseq_app, skipn_app, zseq_length, Nat.sub_diag.
  rewrite skipn_all2 by (rewrite zseq_length; lia). reflexivity.
Qed.
Lemma zseq_nth o n i : (i < n)%nat -> nth i (zseq o n) 0 = o + Z.of_nat i.
Proof.
  revert o i; induction n as [|n IH]; intros o [|i] H; simpl; try lia. rewrite IH by lia. lia.
Qed.
Lemma zseq_In o n x : In x (zseq o n) <-> o <= x < o + Z.of_nat n.
Proof.
  revert o; induction n as [|n IH]; intros o; simpl; [lia|]. rewrite IH. lia.
Qed.

Lemma stream_window_length S o n : 0 <= n -> zlen (stream_window S o n) = n.
Proof. intros; unfold zlen, stream_window; rewrite map_length, zseq_length; lia. Qed.
Lemma stream_window_length_nat S o n : length (stream_window S o n) = Z.to_nat n.
Proof. unfold stream_window; rewrite map_length, zseq_length; lia. Qed.
Lemma stream_window_app S o a b : 0 <= a -> 0 <= b ->
  stream_window S o (a + b) = stream_window S o a ++ stream_window S (o + a) b.
Proof.
  intros; unfold stream_window. rewrite Z2Nat.inj_add, zseq_app, map_app by lia.
  do 2 f_equal. f_equal. lia.
Qed.
Lemma stream_window_window S o n p m : 0 <= p -> 0 <= m -> p + m <= n ->
  window (stream_window S o n) (Z.to_nat p) (Z.to_nat m) = stream_window S (o + p) m.
Proof.
  intros. unfold window, stream_window. rewrite skipn_map, firstn_map, zseq_skipn, zseq_firstn by lia.
  do 2 f_equal. lia.
Qed.

Local Arguments prg_derivation : simpl never.
Local Arguments derive_buf : simpl never.
Local Arguments sderive_buf : simpl never.
Lemma too_large_false K n : 0 <= K -> 0 <= n -> too_large K n = false -> 0 <= n * K < 2 ^ 64.
Proof.
  unfold too_large, SIZE_MAX. intros HK Hn H.
  destruct (Z.eq_dec n 0) as [->|Hn0]; [lia|].
  assert (K < (2 ^ 64 - 1) / n) as Hlt by lia.
  assert (n * ((2 ^ 64 - 1) / n) <= 2 ^ 64 - 1) by (apply Z.mul_div_le; lia).
  split; [apply Z.mul_nonneg_nonneg; lia|].
  assert (n * K <= n * ((2 ^ 64 - 1) / n)) by (apply Z.mul_le_mono_nonneg_l; lia). lia.
Qed.

Section PrgP.
  Variable blk : bytes -> Z -> bytes.
  Variable ml : bool.
  Notation S key := (chacha_stream blk key).

  Lemma xor_ic_from_zeros key ic j n : 
    xor_ic_from blk key ic j (zeros n) = map (S key) (zseq (64 * ic + j) n).
  Proof.
    revert j; induction n as [|n IH]; intros j; simpl; [reflexivity|].
    unfold zeros in IH; rewrite IH. f_equal.
    - unfold chacha_stream, u64. f_equal; [f_equal; lia|]. do 2 f_equal. lia.
    - do 2 f_equal. lia.
  Qed.
  Lemma chacha_zeros key ic n : 0 <= n -> chacha20_xor_ic blk key ic (zeros (Z.to_nat n)) = stream_window (S key) (64 * ic) n.
  Proof. intros; unfold chacha20_xor_ic, stream_window. rewrite xor_ic_from_zeros. do 2 f_equal. lia. Qed.

  (** In-place key stream on a zeroed part of the buffer. *)
  Lemma xor_ic_at_zeros key ic pre n rest : 0 <= n ->
    xor_ic_at blk key ic (pre ++ zeros (Z.to_nat n) ++ rest) (zlen pre) n =
    Ok (pre ++ stream_window (S key) (64 * ic) n ++ rest).
  Proof.
    intros Hn. unfold xor_ic_at.
    rewrite rd_ok; [|apply zlen_nonneg|lia|].
    2:{ rewrite !zlen_app. unfold zlen. rewrite zeros_length. lia. }
    replace (window (pre ++ zeros (Z.to_nat n) ++ rest) (Z.to_nat (zlen pre)) (Z.to_nat n)) with (zeros (Z.to_nat n)).
    2:{ unfold zlen. rewrite Nat2Z.id.
        rewrite <- (zeros_length (Z.to_nat n)) at 3. rewrite window_app_mid. reflexivity. }
    simpl. rewrite chacha_zeros by lia.
    rewrite wr_ok; [|apply zlen_nonneg|].
    2:{ rewrite !zlen_app. rewrite stream_window_length by lia. unfold zlen. rewrite zeros_length. lia. }
    unfold zlen. rewrite Nat2Z.id. rewrite firstn_app, firstn_all, Nat.sub_diag. simpl firstn. rewrite app_nil_r.
    rewrite stream_window_length_nat.
    rewrite skipn_app. rewrite skipn_all2 by lia. replace (length pre + Z.to_nat n - length pre)%nat with (Z.to_nat n) by lia.
    rewrite skipn_app, zeros_length, Nat.sub_diag, skipn_all2 by (rewrite zeros_length; lia). reflexivity.
  Qed.

  Lemma derivation_ok key offset len buf :
    0 <= offset < 2 ^ 64 -> 0 <= len <= 2 ^ 63 -> len <= zlen buf ->
    prg_derivation blk key offset len (Some buf) = Ok (prefix_replaced (stream_window (S key) offset len) buf).
  Proof.
    intros Ho Hl Hb. unfold prg_derivation, prefix_replaced. rewrite stream_window_length_nat.
    destruct (Z.eqb_spec len 0) as [->|Hlen]; [reflexivity|].
    unfold CHACHA20_BLOCK_SIZE.
    rewrite wr_ok by (unfold zlen in *; rewrite ?zeros_length; lia).
    cbv beta zeta. unfold bind at 1.
    change (firstn (Z.to_nat 0) buf) with (@nil Z). change (Z.to_nat 0) with 0%nat. rewrite zeros_length. rewrite app_nil_l, Nat.add_0_l.
    set (rest := skipn (Z.to_nat len) buf).
    destruct (Z.eqb_spec (offset mod 64) 0) as [Ha|Ha].
    - pose proof (xor_ic_at_zeros key (offset / 64) [] len rest ltac:(lia)) as HX.
      change (zlen (@nil Z)) with 0 in HX. rewrite !app_nil_l in HX. rewrite HX. do 3 f_equal. lia.
    - (* number of blocks *)
      set (block_len := u64 (u64 (u64 (u64 (len + offset) - 1) / 64 + 1) - offset / 64)).
      assert (1 < block_len <-> len > 64 - offset mod 64) as Hbl.
      { subst block_len. unfold u64.
        destruct (Z_lt_le_dec (len + offset) (2 ^ 64)) as [Hlt|Hge].
        - rewrite (Z.mod_small (len + offset)) by lia.
          rewrite (Z.mod_small (len + offset - 1)) by lia.
          rewrite (Z.mod_small ((len + offset - 1) / 64 + 1)) by lia.
          rewrite (Z.mod_small _ (2^64)) by lia. lia.
        - assert (E : (len + offset) mod 2 ^ 64 = len + offset - 2 ^ 64).
          { symmetry; apply (Z.mod_unique _ _ 1); lia. }
          rewrite E; clear E.
          destruct (Z.eq_dec (len + offset) (2 ^ 64)) as [He|He].
          + assert (E : (len + offset - 2 ^ 64 - 1) mod 2 ^ 64 = 2 ^ 64 - 1) by (symmetry; apply (Z.mod_unique _ _ (-1)); lia).
            rewrite E; clear E. change ((2 ^ 64 - 1) / 64 + 1) with (2 ^ 58). rewrite (Z.mod_small (2 ^ 58)) by lia.
            rewrite Z.mod_small by lia. lia.
          + rewrite (Z.mod_small (len + offset - 2 ^ 64 - 1)) by lia.
            rewrite (Z.mod_small ((len + offset - 2 ^ 64 - 1) / 64 + 1)) by lia.
            assert (E : ((len + offset - 2 ^ 64 - 1) / 64 + 1 - offset / 64) mod 2 ^ 64
                        = (len + offset - 2 ^ 64 - 1) / 64 + 1 - offset / 64 + 2 ^ 64).
            { symmetry; apply (Z.mod_unique _ _ (-1)); lia. }
            rewrite E. lia. }
      assert (Hbuf : chacha20_xor_ic blk key (offset / 64) (zeros 64) = stream_window (S key) (64 * (offset / 64)) 64).
      { apply (chacha_zeros key (offset / 64) 64). lia. }
      rewrite Hbuf.
      assert (Hrd : forall pl, 0 <= pl -> offset mod 64 + pl <= 64 ->
        rd (stream_window (S key) (64 * (offset / 64)) 64) (offset mod 64) pl = Ok (stream_window (S key) offset pl)).
      { intros pl H0 H1. rewrite rd_ok; [|lia|lia|rewrite stream_window_length; lia].
        rewrite stream_window_window by lia. do 2 f_equal. lia. }
      destruct (Z.ltb_spec 1 block_len) as [Hb1|Hb1].
      + apply Hbl in Hb1.
        assert (u64 (len - (64 - offset mod 64)) = len - (64 - offset mod 64)) as -> by (unfold u64; rewrite Z.mod_small; lia).
        assert (u64 (offset / 64 + 1) = offset / 64 + 1) as -> by (unfold u64; rewrite Z.mod_small; lia).
        set (pl := 64 - offset mod 64) in *.
        replace (zeros (Z.to_nat len) ++ rest) with (zeros (Z.to_nat pl) ++ zeros (Z.to_nat (len - pl)) ++ rest).
        2:{ rewrite app_assoc, <- zeros_app. do 2 f_equal. lia. }
        assert (zlen (zeros (Z.to_nat pl)) = pl) as Hzp by (unfold zlen; rewrite zeros_length; lia).
        pose proof (xor_ic_at_zeros key (offset / 64 + 1) (zeros (Z.to_nat pl)) (len - pl) rest ltac:(lia)) as HX.
        rewrite Hzp in HX. rewrite HX. unfold bind at 1. unfold bind at 1. rewrite Hrd by lia. simpl.
        rewrite wr_ok; [|lia|].
        2:{ rewrite !zlen_app, !stream_window_length, Hzp by lia. pose proof (zlen_nonneg rest); lia. }
        change (Z.to_nat 0) with 0%nat. simpl firstn. rewrite app_nil_l, Nat.add_0_l, stream_window_length_nat.
        rewrite skipn_app, zeros_length, Nat.sub_diag, skipn_all2 by (rewrite zeros_length; lia). simpl.
        replace len with (pl + (len - pl)) at 2 by lia.
        rewrite stream_window_app, <- app_assoc by lia. do 4 f_equal. lia.
      + assert (len <= 64 - offset mod 64) by lia.
        unfold bind at 1. rewrite Hrd by lia. simpl.
        rewrite wr_ok; [|lia|].
        2:{ rewrite !zlen_app, !stream_window_length by lia. unfold zlen at 1. rewrite zeros_length. pose proof (zlen_nonneg rest); lia. }
        change (Z.to_nat 0) with 0%nat. simpl firstn. rewrite app_nil_l, Nat.add_0_l, stream_window_length_nat.
        rewrite skipn_app, zeros_length, Nat.sub_diag, skipn_all2 by (rewrite zeros_length; lia). reflexivity.
  Qed.

  (** member and static derivations *)
  Lemma derive_buf_ok kb l offset len buf :
    0 <= offset < 2 ^ 64 -> 0 < len <= 2 ^ 63 -> len <= zlen buf ->
    derive_buf blk ml (VKey kb l) offset len (Some buf) =
      (VKey kb ml, Ok (Some (prefix_replaced (stream_window (S kb) offset len) buf))).
  Proof.
    intros Ho Hl Hb. unfold derive_buf. destruct (Z.eqb_spec len 0); [lia|]. simpl.
    rewrite derivation_ok by lia. reflexivity.
  Qed.
  Lemma derive_buf_zero k offset out : derive_buf blk ml k offset 0 out = (k, Ok out).
  Proof. reflexivity. Qed.
  Lemma sderive_buf_ok kb l offset len buf :
    0 <= offset < 2 ^ 64 -> 0 <= len <= 2 ^ 63 -> len <= zlen buf ->
    sderive_buf blk (VKey kb l) offset len (Some buf) =
      (VEmpty, Ok (Some (prefix_replaced (stream_window (S kb) offset len) buf))).
  Proof. intros. unfold sderive_buf. simpl. rewrite derivation_ok by lia. reflexivity. Qed.

  Lemma prefix_replaced_rd w buf : zlen w <= zlen buf -> rd (prefix_replaced w buf) 0 (zlen w) = Ok w.
  Proof.
    intros H. pose proof (zlen_nonneg w). unfold prefix_replaced. rewrite rd_ok; [|lia|lia|].
    - unfold window. unfold zlen at 1. rewrite Nat2Z.id. change (Z.to_nat 0) with 0%nat. simpl.
      rewrite firstn_app, firstn_all, Nat.sub_diag. simpl. rewrite app_nil_r. reflexivity.
    - rewrite zlen_app. pose proof (zlen_nonneg (skipn (length w) buf)). lia.
  Qed.
  Lemma prefix_replaced_all w buf : zlen w = zlen buf -> prefix_replaced w buf = w.
  Proof. intros H. unfold prefix_replaced. rewrite skipn_all2 by (unfold zlen in H; lia). apply app_nil_r. Qed.

  Lemma derive_str_ok kb l offset len g :
    0 <= offset < 2 ^ 64 -> 0 <= len <= 2 ^ 63 -> zlen g = len ->
    derive_str blk ml g (VKey kb l) offset len =
      (VKey kb (if len =? 0 then l else ml), Ok (stream_window (S kb) offset len)).
  Proof.
    intros Ho Hl Hg. unfold derive_str. destruct (Z.eqb_spec len 0) as [->|Hn].
    - rewrite derive_buf_zero. destruct g; [reflexivity|]. rewrite zlen_cons in Hg. pose proof (zlen_nonneg g); lia.
    - rewrite derive_buf_ok by lia. simpl. f_equal.
      rewrite <- (stream_window_length (S kb) offset len) at 2 by lia. apply prefix_replaced_rd.
      rewrite stream_window_length; lia.
  Qed.
  Lemma sderive_str_ok kb l offset len g :
    0 <= offset < 2 ^ 64 -> 0 <= len <= 2 ^ 63 -> zlen g = len ->
    sderive_str blk g (VKey kb l) offset len = (VEmpty, Ok (stream_window (S kb) offset len)).
  Proof.
    intros Ho Hl Hg. unfold sderive_str. rewrite sderive_buf_ok by lia. simpl. f_equal.
    rewrite <- (stream_window_length (S kb) offset len) at 2 by lia. apply prefix_replaced_rd.
    rewrite stream_window_length; lia.
  Qed.
  Lemma sderive_vec_ok ne kb l len :
    0 <= len <= 2 ^ 63 -> (len = 0 -> ne = false) ->
    sderive_vec blk ne (VKey kb l) len = (VEmpty, Ok (stream_window (S kb) 0 len)).
  Proof.
    intros Hl Hn. unfold sderive_vec.
    replace ((len =? 0) && ne) with false by (destruct (Z.eqb_spec len 0); [rewrite Hn by assumption|]; reflexivity).
    rewrite sderive_buf_ok; [|lia|lia|unfold zlen; rewrite zeros_length; lia]. simpl. f_equal.
    rewrite <- (stream_window_length (S kb) 0 len) at 3 by lia. apply prefix_replaced_rd.
    rewrite stream_window_length by lia. unfold zlen. rewrite zeros_length. lia.
  Qed.

  (** derived keys *)
  Lemma u64_small x : 0 <= x < 2 ^ 64 -> u64 x = x.
  Proof. intros; apply Z.mod_small; assumption. Qed.
  Definition key_spec (kb : bytes) (K i : Z) : vkey := VKey (stream_window (S kb) (i * K) K) ml.

  Lemma derive_key_ok g kb l K i :
    0 < K <= 2 ^ 63 -> zlen g = K -> 0 <= i < 2 ^ 16 ->
    derive_key blk ml g (VKey kb l) K i =
      if too_large K i then (VKey kb l, Throw InvalidArgument) else (VKey kb ml, Ok (key_spec kb K i)).
  Proof.
    intros HK Hg Hi. unfold derive_key. destruct (too_large K i) eqn:E; [reflexivity|].
    pose proof (too_large_false K i ltac:(lia) ltac:(lia) E) as Hr. rewrite u64_small by lia.
    rewrite derive_buf_ok by lia. unfold v_make, key_spec.
    rewrite prefix_replaced_all; [reflexivity|]. rewrite stream_window_length; lia.
  Qed.
  Lemma sderive_key_ok g kb l K i :
    0 < K <= 2 ^ 63 -> zlen g = K -> 0 <= i < 2 ^ 16 ->
    sderive_key blk ml g (VKey kb l) K i =
      if too_large K i then (VKey kb l, Throw InvalidArgument) else (VEmpty, Ok (key_spec kb K i)).
  Proof.
    intros HK Hg Hi. unfold sderive_key. destruct (too_large K i) eqn:E; [reflexivity|].
    pose proof (too_large_false K i ltac:(lia) ltac:(lia) E) as Hr. rewrite u64_small by lia.
    rewrite sderive_buf_ok by lia. unfold v_make, key_spec.
    rewrite prefix_replaced_all; [reflexivity|]. rewrite stream_window_length; lia.
  Qed.

  Lemma cut_keys_ok K kb base n : 0 < K -> forall i done, zlen done = i * K -> 0 <= i ->
    cut_keys ml (done ++ stream_window (S kb) (base + i * K) (Z.of_nat n * K)) K i n =
    Ok (map (fun j => VKey (stream_window (S kb) (base + j * K) K) ml) (zseq i n)).
  Proof.
    intros HK. induction n as [|n IH]; intros i done Hd Hi; simpl; [reflexivity|].
    assert (0 <= i * K) by (apply Z.mul_nonneg_nonneg; lia).
    assert (Z.of_nat (Datatypes.S n) * K = K + Z.of_nat n * K) as EK by lia.
    assert (0 <= Z.of_nat n * K) by (apply Z.mul_nonneg_nonneg; lia).
    rewrite EK, stream_window_app by lia.
    rewrite rd_ok; [|lia|lia|rewrite !zlen_app, !stream_window_length by lia; lia].
    match goal with |- context [window ?w ?p ?q] => replace (window w p q) with (stream_window (S kb) (base + i * K) K) end.
    2:{ replace (Z.to_nat (i * K)) with (length done) by (unfold zlen in Hd; lia).
        rewrite <- (stream_window_length_nat (S kb) (base + i * K) K). rewrite window_app_mid. reflexivity. }
    unfold bind at 1.
    rewrite wr_ok; [|lia|rewrite !zlen_app, !stream_window_length by lia; unfold zlen at 1; rewrite zeros_length; lia].
    simpl. replace (Z.to_nat (i * K)) with (length done) by (unfold zlen in Hd; lia).
    rewrite firstn_app, firstn_all, Nat.sub_diag. simpl firstn. rewrite app_nil_r.
    rewrite zeros_length. rewrite skipn_app, skipn_all2 by lia.
    replace (length done + Z.to_nat K - length done)%nat with (Z.to_nat K) by lia.
    rewrite skipn_app, stream_window_length_nat, Nat.sub_diag, skipn_all2 by (rewrite stream_window_length_nat; lia).
    simpl. rewrite app_assoc.
    replace (base + i * K + K) with (base + (i + 1) * K) by lia.
    rewrite IH; [|rewrite zlen_app, Hd; unfold zlen; rewrite zeros_length; lia|lia]. reflexivity.
  Qed.

  Lemma derive_keys_ok g kb l K n off :
    0 < K -> 0 <= n < 2 ^ 16 -> 0 <= off < 2 ^ 16 -> n * K <= 2 ^ 63 -> zlen g = n * K ->
    derive_keys blk ml g (VKey kb l) K n off =
      if too_large K n || too_large K off then (VKey kb l, Throw InvalidArgument)
      else (VKey kb (if n =? 0 then l else ml), Ok (map (key_spec kb K) (zseq off (Z.to_nat n)))).
  Proof.
    intros HK Hn Ho Hnk Hg. unfold derive_keys.
    destruct (too_large K n) eqn:E1; [reflexivity|]. destruct (too_large K off) eqn:E2; [reflexivity|].
    simpl orb. cbv iota.
    destruct (Z.eqb_spec n 0) as [->|Hn0]; [reflexivity|].
    pose proof (too_large_false K n ltac:(lia) ltac:(lia) E1) as H1.
    pose proof (too_large_false K off ltac:(lia) ltac:(lia) E2) as H2.
    rewrite !u64_small by lia. rewrite derive_buf_ok; [|lia|split; [|lia]|lia].
    2:{ apply Z.mul_pos_pos; lia. }
    f_equal. rewrite prefix_replaced_all by (rewrite stream_window_length; lia).
    pose proof (cut_keys_ok K kb (off * K) (Z.to_nat n) HK 0 [] eq_refl ltac:(lia)) as HC.
    rewrite app_nil_l in HC. replace (off * K + 0 * K) with (off * K) in HC by lia.
    rewrite Z2Nat.id in HC by lia. rewrite HC. f_equal.
    clear. generalize (Z.to_nat n) as m; intros m. unfold key_spec.
    assert (forall a, map (fun j => VKey (stream_window (S kb) (off * K + j * K) K) ml) (zseq a m)
            = map (fun i => VKey (stream_window (S kb) (i * K) K) ml) (zseq (off + a) m)) as H.
    { induction m as [|m IH]; intros a; simpl; [reflexivity|]. rewrite IH. f_equal; [do 2 f_equal; lia|]. do 2 f_equal. lia. }
    rewrite H. do 2 f_equal. lia.
  Qed.
  Lemma sderive_keys_ok g kb l K n off :
    0 < K -> 0 <= n < 2 ^ 16 -> 0 <= off < 2 ^ 16 -> n * K <= 2 ^ 63 -> zlen g = n * K ->
    sderive_keys blk ml g (VKey kb l) K n off =
      if n =? 0 then (VKey kb l, Ok [])
      else if too_large K n || too_large K off then (VKey kb l, Throw InvalidArgument)
      else (VEmpty, Ok (map (key_spec kb K) (zseq off (Z.to_nat n)))).
  Proof.
    intros HK Hn Ho Hnk Hg. unfold sderive_keys. simpl v_is_empty. cbv iota.
    destruct (Z.eqb_spec n 0) as [->|Hn0]; [reflexivity|].
    destruct (too_large K n) eqn:E1; [reflexivity|]. destruct (too_large K off) eqn:E2; [reflexivity|].
    simpl orb. cbv iota.
    pose proof (too_large_false K n ltac:(lia) ltac:(lia) E1) as H1.
    pose proof (too_large_false K off ltac:(lia) ltac:(lia) E2) as H2.
    pose proof (derive_keys_ok g kb l K n off HK Hn Ho Hnk Hg) as HD.
    unfold derive_keys in HD. rewrite E1, E2 in HD. simpl orb in HD. cbv iota in HD.
    destruct (Z.eqb_spec n 0); [contradiction|].
    rewrite !u64_small in * by lia.
    rewrite derive_buf_ok in HD; [|lia|split; [apply Z.mul_pos_pos; lia|lia]|lia].
    rewrite sderive_buf_ok by lia.
    inversion HD as [HD']. rewrite HD'. reflexivity.
  Qed.

  (** C10 *)
  Lemma derive_buf_protected k offset len out :
    v_protected ml k -> out <> None ->
    0 <= offset < 2 ^ 64 -> 0 <= len <= 2 ^ 63 -> (forall b, out = Some b -> len <= zlen b) ->
    v_protected ml (fst (derive_buf blk ml k offset len out)).
  Proof.
    intros Hk Ho Hof Hl Hb. destruct out as [b|]; [|congruence]. specialize (Hb b eq_refl).
    destruct k as [|kb l]; [unfold derive_buf; destruct (len =? 0); exact I|].
    destruct (Z.eq_dec len 0) as [->|]; [exact Hk|]. rewrite derive_buf_ok by lia. reflexivity.
  Qed.
End PrgP.

Section PrgQ.
  Variable blk : bytes -> Z -> bytes.
  Variable ml : bool.

  Lemma all_overloads kb :
    exists S : Z -> Z, forall offset len, 0 <= offset < 2 ^ 64 -> 0 <= len <= 2 ^ 63 ->
    (forall l buf, len <= zlen buf ->
       snd (derive_buf blk ml (VKey kb l) offset len (Some buf)) = Ok (Some (prefix_replaced (stream_window S offset len) buf)) /\
       snd (sderive_buf blk (VKey kb l) offset len (Some buf)) = Ok (Some (prefix_replaced (stream_window S offset len) buf))) /\
    (forall l g, zlen g = len ->
       snd (derive_str blk ml g (VKey kb l) offset len) = Ok (stream_window S offset len) /\
       snd (sderive_str blk g (VKey kb l) offset len) = Ok (stream_window S offset len)) /\
    (forall l ne, offset = 0 -> 0 < len -> snd (sderive_vec blk ne (VKey kb l) len) = Ok (stream_window S offset len)).
  Proof.
    exists (chacha_stream blk kb). intros offset len Ho Hl. repeat split.
    - destruct (Z.eq_dec len 0) as [->|]; [reflexivity|]. rewrite derive_buf_ok by lia. reflexivity.
    - rewrite sderive_buf_ok by lia. reflexivity.
    - rewrite derive_str_ok by lia. reflexivity.
    - rewrite sderive_str_ok by lia. reflexivity.
    - intros l ne -> H. rewrite sderive_vec_ok by lia. reflexivity.
  Qed.

  Lemma stream_is_chacha kb l offset len g :
    0 <= offset < 2 ^ 64 -> 0 <= len <= 2 ^ 63 -> zlen g = len ->
    snd (derive_str blk ml g (VKey kb l) offset len) = Ok (stream_window (chacha_stream blk kb) offset len).
  Proof. intros. rewrite derive_str_ok by lia. reflexivity. Qed.

  Lemma compose kb l l1 l2 offset a b g g1 g2 o oa ob :
    0 <= offset -> 0 <= a -> 0 <= b -> offset + a < 2 ^ 64 -> a + b <= 2 ^ 63 ->
    zlen g = a + b -> zlen g1 = a -> zlen g2 = b ->
    snd (derive_str blk ml g (VKey kb l) offset (a + b)) = Ok o ->
    snd (derive_str blk ml g1 (VKey kb l1) offset a) = Ok oa ->
    snd (derive_str blk ml g2 (VKey kb l2) (offset + a) b) = Ok ob ->
    o = oa ++ ob.
  Proof.
    intros. rewrite derive_str_ok in * by lia. simpl in *. repeat match goal with H : Ok _ = Ok _ |- _ => inversion H; clear H end.
    subst. apply stream_window_app; lia.
  Qed.

  Lemma in_bounds kb l offset len buf :
    0 <= offset < 2 ^ 64 -> 0 <= len <= 2 ^ 63 -> len <= zlen buf ->
    exists o, snd (derive_buf blk ml (VKey kb l) offset len (Some buf)) = Ok (Some o) /\
              snd (sderive_buf blk (VKey kb l) offset len (Some buf)) = Ok (Some o) /\
              length o = length buf /\ skipn (Z.to_nat len) o = skipn (Z.to_nat len) buf.
  Proof.
    intros Ho Hl Hb. exists (prefix_replaced (stream_window (chacha_stream blk kb) offset len) buf).
    split; [|split; [|split]].
    - destruct (Z.eq_dec len 0) as [->|]; [reflexivity|]. rewrite derive_buf_ok by lia. reflexivity.
    - rewrite sderive_buf_ok by lia. reflexivity.
    - unfold prefix_replaced. rewrite app_length, skipn_length, stream_window_length_nat. unfold zlen in Hb. lia.
    - unfold prefix_replaced. rewrite skipn_app, stream_window_length_nat, Nat.sub_diag.
      rewrite skipn_all2 by (rewrite stream_window_length_nat; lia). reflexivity.
  Qed.

  Lemma members_protected k : v_protected ml k ->
    (forall offset len buf, 0 <= offset < 2 ^ 64 -> 0 <= len <= 2 ^ 63 -> len <= zlen buf ->
       v_protected ml (fst (derive_buf blk ml k offset len (Some buf)))) /\
    (forall offset len g, 0 <= offset < 2 ^ 64 -> 0 <= len <= 2 ^ 63 -> zlen g = len ->
       v_protected ml (fst (derive_str blk ml g k offset len))) /\
    (forall K i g, 0 < K <= 2 ^ 63 -> 0 <= i < 2 ^ 16 -> zlen g = K ->
       v_protected ml (fst (derive_key blk ml g k K i))) /\
    (forall K n off g, 0 < K -> 0 <= n < 2 ^ 16 -> 0 <= off < 2 ^ 16 -> n * K <= 2 ^ 63 -> zlen g = n * K ->
       v_protected ml (fst (derive_keys blk ml g k K n off))) /\
    v_protected ml (fst (prg_duplicate ml k)) /\
    v_protected ml (fst (prg_serialize ml k)).
  Proof.
    intros Hk. destruct k as [|kb l].
    { unfold derive_str, derive_key, derive_keys, derive_buf; simpl. repeat split; intros.
      - destruct (len =? 0); exact I.
      - destruct (len =? 0); exact I.
      - destruct (too_large K i); [exact I|]. destruct (K =? 0); exact I.
      - destruct (too_large K n); [exact I|]. destruct (too_large K off); [exact I|].
        destruct (n =? 0); [exact I|]. destruct (u64 (n * K) =? 0); exact I. }
    simpl in Hk. subst l. repeat split; intros.
    - apply derive_buf_protected; [reflexivity|congruence|lia|lia|]. intros b Hb; inversion Hb; subst; assumption.
    - rewrite derive_str_ok by lia. simpl. destruct (len =? 0); reflexivity.
    - rewrite derive_key_ok by lia. destruct (too_large K i); reflexivity.
    - rewrite derive_keys_ok by lia. destruct (_ || _); [reflexivity|]. simpl. destruct (n =? 0); reflexivity.
  Qed.

  Lemma statics_consume k :
    (forall offset len out, fst (sderive_buf blk k offset len out) = VEmpty) /\
    (forall offset len g, fst (sderive_str blk g k offset len) = VEmpty) /\
    (forall ne len, fst (sderive_vec blk ne k len) = VEmpty) /\
    (forall offset len out, snd (sderive_buf blk VEmpty offset len out) = Throw InvalidArgument) /\
    (forall offset len g, snd (sderive_str blk g VEmpty offset len) = Throw InvalidArgument) /\
    (forall ne len, snd (sderive_vec blk ne VEmpty len) = Throw InvalidArgument).
  Proof.
    assert (forall offset len out, fst (sderive_buf blk k offset len out) = VEmpty) as H.
    { intros. unfold sderive_buf. destruct k; reflexivity. }
    assert (forall r len, fst (to_string r len) = fst r) as HT.
    { intros [k0 [[o|]| | | |]] len; reflexivity. }
    repeat split; intros.
    - apply H.
    - unfold sderive_str. rewrite HT. apply H.
    - unfold sderive_vec. rewrite HT. apply H.
  Qed.

End PrgQ.

Lemma prg_roundtrip ml kb l rest : zlen kb = 32 ->
  prg_serialize ml (VKey kb l) = (VKey kb ml, Ok kb) /\
  prg_deserialize ml (kb ++ rest) (zlen (kb ++ rest)) = Ok (VKey kb ml, zeros 32 ++ rest, 32) /\
  snd (prg_duplicate ml (VKey kb l)) = Ok (VKey kb ml).
Proof.
  intros Hk. split; [reflexivity|]. split; [|reflexivity].
  unfold prg_deserialize, prg_kKeySize. pose proof (zlen_nonneg rest). rewrite zlen_app, Hk.
  destruct (Z.ltb_spec (32 + zlen rest) 32); [lia|].
  rewrite rd_prefix by (symmetry; assumption). unfold bind.
  rewrite wr_prefix by (rewrite zlen_zeros; lia). reflexivity.
Qed.
