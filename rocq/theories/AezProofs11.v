(** cipher_aez_tiny computes AEZ-tiny. *)
From Verif Require Import Base BaseFacts AezModel AezProofs AezProofs2 AezProofs3 AezProofs4 AezProofs5 AezProofs6 AezProofs7 PrpSpec PrpProofs AezSpec AezProofs8 AezProofs9.
From Coq Require Import Lia.

Lemma high_bits x k i : 0 <= x < 2 ^ k -> 0 <= k <= i -> Z.testbit x i = false.
Proof.
  intros Hx Hi. destruct (Z.eq_dec x 0) as [->|Hne]; [apply Z.bits_0|]. apply Z.bits_above_log2; [lia|].
  apply Z.log2_lt_pow2; [lia|]. assert (2 ^ k <= 2 ^ i) by (apply Z.pow_le_mono_r; lia). lia.
Qed.
Lemma split_bits a x k i : 0 <= k -> 0 <= i -> 0 <= x < 2 ^ k -> Z.testbit (a * 2 ^ k + x) i = if i <? k then Z.testbit x i else Z.testbit a (i - k).
Proof.
  intros Hk Hi Hx. rewrite <- lor_add by assumption. rewrite Z.lor_spec. destruct (Z.ltb_spec i k) as [H|H].
  - rewrite Z.mul_pow2_bits_low by exact H. reflexivity.
  - rewrite Z.mul_pow2_bits by lia. rewrite (high_bits x k) by lia. apply orb_false_r.
Qed.
Lemma below (x k : Z) : 0 <= k -> 0 <= x -> (forall i, k <= i -> Z.testbit x i = false) -> x < 2 ^ k.
Proof.
  intros Hk Hx H. destruct (Z.eq_dec x 0) as [->|Hne]; [lia|]. apply Z.log2_lt_pow2; [lia|].
  destruct (Z.ltb_spec (Z.log2 x) k) as [?|G]; [assumption|]. exfalso. pose proof (Z.bit_log2 x ltac:(lia)) as B. rewrite (H _ G) in B. discriminate.
Qed.
Lemma lxor_split a b x y k : 0 <= k -> 0 <= x < 2 ^ k -> 0 <= y < 2 ^ k ->
  Z.lxor (a * 2 ^ k + x) (b * 2 ^ k + y) = Z.lxor a b * 2 ^ k + Z.lxor x y /\ 0 <= Z.lxor x y < 2 ^ k.
Proof.
  intros Hk Hx Hy. assert (0 <= Z.lxor x y < 2 ^ k) as R.
  { assert (0 <= Z.lxor x y) by (apply Z.lxor_nonneg; lia). split; [assumption|]. apply below; [lia|assumption|]. intros i Hi.
    rewrite Z.lxor_spec, !(high_bits _ k) by lia. reflexivity. }
  split; [|exact R]. apply Z.bits_inj'. intros i Hi. rewrite Z.lxor_spec, !split_bits by assumption. destruct (i <? k); rewrite Z.lxor_spec; reflexivity.
Qed.
Lemma lor_split a b x y k : 0 <= k -> 0 <= x < 2 ^ k -> 0 <= y < 2 ^ k ->
  Z.lor (a * 2 ^ k + x) (b * 2 ^ k + y) = Z.lor a b * 2 ^ k + Z.lor x y.
Proof.
  intros Hk Hx Hy. assert (0 <= Z.lor x y < 2 ^ k) as R.
  { assert (0 <= Z.lor x y) by (apply Z.lor_nonneg; lia). split; [assumption|]. apply below; [lia|assumption|]. intros i Hi.
    rewrite Z.lor_spec, !(high_bits _ k) by lia. reflexivity. }
  apply Z.bits_inj'. intros i Hi. rewrite Z.lor_spec, !split_bits by assumption. destruct (i <? k); rewrite Z.lor_spec; reflexivity.
Qed.
Lemma pow16 k : 0 <= k -> 16 ^ k = 2 ^ (4 * k). Proof. intros. rewrite Z.pow_mul_r by lia. reflexivity. Qed.
Lemma nv_app a b : nv (a ++ b) = nv a * 16 ^ zlen b + nv b.
Proof. unfold nv at 1. rewrite fold_left_app. apply fold_nv. Qed.
Lemma nv_zeros k : nv (zeros k) = 0.
Proof. unfold zeros. induction k as [|k IH]; [reflexivity|]. cbn [repeat]. rewrite nv_cons, IH. lia. Qed.
Lemma nv_xor a b : Forall is_nib a -> Forall is_nib b -> length a = length b -> nv (a (+) b) = Z.lxor (nv a) (nv b).
Proof.
  intros Ha. revert b. induction Ha as [|x a Hx Ha IH]; intros [|y b] Hb Hl; try discriminate; [reflexivity|].
  inversion Hb as [|? ? Hy Hb']; subst. injection Hl as Hl. cbn [xorb_list]. rewrite !nv_cons, IH by assumption.
  assert (zlen (a (+) b) = zlen a) as -> by (unfold zlen; rewrite xorb_list_length; lia). assert (zlen b = zlen a) as Eb by (unfold zlen; lia). rewrite Eb.
  pose proof (nv_range a Ha) as Ra. pose proof (nv_range b Hb') as Rb. rewrite Eb in Rb. pose proof (zlen_nonneg a). rewrite pow16 in * by lia.
  symmetry. apply lxor_split; lia.
Qed.
Lemma nv_or a b : Forall is_nib a -> Forall is_nib b -> length a = length b -> nv (vor a b) = Z.lor (nv a) (nv b).
Proof.
  intros Ha. revert b. induction Ha as [|x a Hx Ha IH]; intros [|y b] Hb Hl; try discriminate; [reflexivity|].
  inversion Hb as [|? ? Hy Hb']; subst. injection Hl as Hl. unfold vor in *. cbn [zipw]. rewrite !nv_cons, IH by assumption.
  assert (zlen (zipw Z.lor a b) = zlen a) as -> by (unfold zlen; rewrite zipw_length; lia). assert (zlen b = zlen a) as Eb by (unfold zlen; lia). rewrite Eb.
  pose proof (nv_range a Ha) as Ra. pose proof (nv_range b Hb') as Rb. rewrite Eb in Rb. pose proof (zlen_nonneg a). rewrite pow16 in * by lia.
  symmetry. apply lor_split; lia.
Qed.
Lemma be_or a b : is_bytes a -> is_bytes b -> length a = length b -> be_decode (vor a b) = Z.lor (be_decode a) (be_decode b).
Proof.
  intros Ha Hb Hl. rewrite <- !nv_nibs, nibs_or. apply nv_or; try (apply nibs_nib; assumption). rewrite !nibs_length. lia.
Qed.
(** the first n nibbles *)
Lemma nv_firstn n l : Forall is_nib l -> (n <= length l)%nat -> nv (firstn n l) = nv l / 2 ^ (4 * (zlen l - Z.of_nat n)) /\
  nv (skipn n l) = nv l mod 2 ^ (4 * (zlen l - Z.of_nat n)).
Proof.
  intros Hl Hn. assert (zlen (skipn n l) = zlen l - Z.of_nat n) as Zs by (unfold zlen; rewrite skipn_length; lia).
  assert (nv l = nv (firstn n l) * 16 ^ zlen (skipn n l) + nv (skipn n l)) as E by (rewrite <- nv_app, firstn_skipn; reflexivity).
  pose proof (nv_range _ (Forall_skipn _ n _ Hl)) as R. rewrite Zs in *. rewrite pow16 in * by (unfold zlen; lia).
  split; [apply Z.div_unique with (r := nv (skipn n l))|apply Z.mod_unique with (q := nv (firstn n l))]; lia.
Qed.

Section Tiny.
  Variables I J L : bytes.
  Variable c : ctx.
  Hypothesis K : key_ctx I J L c.
  Variable R : bytes -> bytes.
  Hypothesis R_blk : forall x, blk x -> blk (R x).
  Local Notation A := (A R c).
  Local Notation tbc := (tbc R I J L).
  Local Notation tbcz := (tbcz R I J L).

  Definition num (st : list Z * list Z) : Z * Z := (nv (fst st), nv (snd st)).
  Definition idx (n : nat) : Z := if (n <? 16)%nat then 7 else 6.
  Lemma tweak_times t n : tweak c t n = vxor t (times (idx n) I).
  Proof using K R_blk.
    unfold tweak, idx. destruct K as [E0 E1 E2 _ _ _ _ HI _ _]. destruct (times_2_4 I HI) as (_ & _ & M6 & M7). rewrite E0, E1, E2.
    destruct (Nat.leb_spec 16 n) as [H|H].
    - replace (n <? 16)%nat with false by lia. rewrite M6, vxor_assoc. f_equal. apply vxor_comm.
    - replace (n <? 16)%nat with true by lia. rewrite M7, vxor_assoc. f_equal. change xorb_list with vxor.
      rewrite (vxor_comm (times 4 I) (times 2 I)). apply vxor_comm.
  Qed.
  Lemma tbcz_block i x : blk x -> tbcz i (be_decode x) = be_decode (A (vxor x (times i I))).
  Proof using K R_blk.
    intros [Lx Bx]. unfold AezSpec.tbcz. rewrite <- Lx at 1. rewrite be_encode_decode by exact Bx. f_equal. apply (tbc_0 I J L c K R R_blk). split; assumption.
  Qed.
  Lemma padb_value n a : (n <= 31)%nat -> Forall is_nib a -> length a = n ->
    be_decode (padb n a) = nv a * 2 ^ (128 - 4 * Z.of_nat n) + 2 ^ (127 - 4 * Z.of_nat n).
  Proof.
    intros Hn Ha La. destruct (padb_ok n a Hn Ha La) as [_ E]. rewrite <- nv_nibs, E, nv_app, nv_cons, nv_zeros, zlen_cons.
    assert (zlen (zeros (31 - n)) = 31 - Z.of_nat n) as -> by (unfold zlen; rewrite zeros_length; lia). rewrite !pow16 by lia.
    replace (4 * (1 + (31 - Z.of_nat n))) with (128 - 4 * Z.of_nat n) by lia.
    replace (127 - 4 * Z.of_nat n) with (3 + 4 * (31 - Z.of_nat n)) by lia. rewrite (Z.pow_add_r 2 3) by lia. lia.
  Qed.
  Section Step.
    Variable n : nat.
    Hypothesis Hn : (n <= 31)%nat.
    Variable t : bytes.
    Hypothesis Ht : blk t.
    Lemma step_num st rc : blk rc -> half_ok n (fst st) -> half_ok n (snd st) ->
      num (fstep R c n (tweak c t n) st rc) = tiny_round R I J L (idx n) (4 * Z.of_nat n) (be_decode t) (num st) (be_decode rc).
    Proof using K R_blk Hn Ht.
      destruct st as [a b]. intros Hr [Na La] [Nb Lb]. cbn [fst snd] in *. unfold fstep, num, tiny_round. cbn [fst snd].
      pose proof (blk_padb R R_blk c (key_ctx_ok _ _ _ _ K) n Hn b (conj Nb Lb)) as Bp.
      assert (blk (vxor (vxor t (padb n b)) rc)) as Bx by (repeat first [assumption|apply blk_xor]).
      f_equal. rewrite <- padb_value by assumption. rewrite <- !blk_xors by (repeat first [assumption|apply blk_xor]).
      change xorb_list with vxor. rewrite tbcz_block by exact Bx.
      assert (vxor (vxor (tweak c t n) (padb n b)) rc = vxor (vxor (vxor t (padb n b)) rc) (times (idx n) I)) as ->.
      { rewrite tweak_times, !vxor_assoc. f_equal. rewrite (vxor_comm (times (idx n) I)), !vxor_assoc. reflexivity. }
      set (X := A _). assert (blk X) as BX.
      { apply (blk_A R R_blk c (key_ctx_ok _ _ _ _ K)). apply blk_xor; [exact Bx|apply blk_times, K]. }
      clearbody X. destruct (half_firstn R R_blk c (key_ctx_ok _ _ _ _ K) n Hn X BX) as [NX LX].
      change vxor with xorb_list. rewrite nv_xor by (assumption || lia). rewrite Z.lxor_comm. f_equal.
      assert (zlen (nibs X) = 32) as ZX by (unfold zlen; rewrite nibs_length, (blk_len _ BX); reflexivity).
      destruct (nv_firstn n (nibs X)) as [E _]; [apply nibs_nib, BX|rewrite nibs_length, (blk_len _ BX); lia|].
      rewrite E, ZX, nv_nibs. f_equal. f_equal. lia.
    Qed.
    Lemma feist_num rcl st : Forall blk rcl -> half_ok n (fst st) -> half_ok n (snd st) ->
      num (feist R c n (tweak c t n) rcl st) = fold_left (tiny_round R I J L (idx n) (4 * Z.of_nat n) (be_decode t)) (map be_decode rcl) (num st).
    Proof using K R_blk Hn Ht.
      intros H. revert st. induction H as [|rc rcl Hr _ IH]; intros st Ha Hb; [reflexivity|]. cbn [feist fold_left map].
      pose proof (blk_tweak c (key_ctx_ok _ _ _ _ K) t n Ht) as Btw.
      destruct (fstep_ok R R_blk c (key_ctx_ok _ _ _ _ K) n Hn (tweak c t n) Btw st rc Hr Ha Hb) as [Ha' Hb'].
      change (fold_left _ rcl ?s) with (feist R c n (tweak c t n) rcl s). rewrite IH by assumption. rewrite step_num by assumption. reflexivity.
    Qed.
  End Step.
  Lemma rcs_num n : (1 <= n)%nat -> map be_decode (rcs 0 n) = map Z.of_nat (seq 0 (if n =? 1 then 24 else if n =? 2 then 16 else if n <? 16 then 10 else 8)%nat).
  Proof.
    intros Hn. unfold rcs, rcon0, rounds. destruct (Nat.leb_spec 16 n) as [H|H].
    - replace (n =? 1)%nat with false by lia. replace (n =? 2)%nat with false by lia. replace (n <? 16)%nat with false by lia. vm_compute. reflexivity.
    - replace (n <? 16)%nat with true by lia. destruct (Nat.leb_spec 3 n) as [H3|H3].
      + replace (n =? 1)%nat with false by lia. replace (n =? 2)%nat with false by lia. vm_compute. reflexivity.
      + assert (n = 1 \/ n = 2)%nat as [-> | ->] by lia; vm_compute; reflexivity.
  Qed.
  Lemma fe_num t o : blk t -> is_bytes o -> (1 <= length o <= 31)%nat ->
    let n := 4 * zlen o in
    let '(l, r) := fold_left (tiny_round R I J L (idx (length o)) n (be_decode t))
      (map Z.of_nat (seq 0 (if length o =? 1 then 24 else if length o =? 2 then 16 else if length o <? 16 then 10 else 8)%nat))
      (be_decode o / 2 ^ n, be_decode o mod 2 ^ n) in
    be_decode (fe R c t 0 o) = r * 2 ^ n + l.
  Proof using K R_blk.
    intros Ht Bo Lo n. pose proof (key_ctx_ok _ _ _ _ K) as Hc.
    destruct (fe_ok R R_blk c Hc t 0 o (or_introl eq_refl) Ht Bo ltac:(lia)) as (B & Lf & E). cbv zeta in E.
    rewrite <- rcs_num by lia. destruct (halves R R_blk o (length o) Bo eq_refl) as [Ha Hb].
    set (k := length o) in *. set (st := (firstn k (nibs o), skipn k (nibs o))) in *.
    assert ((be_decode o / 2 ^ n, be_decode o mod 2 ^ n) = num st) as ->.
    { unfold num, st. cbn [fst snd]. destruct (nv_firstn k (nibs o)) as [E1 E2]; [apply nibs_nib, Bo|rewrite nibs_length; lia|].
      assert (4 * (zlen (nibs o) - Z.of_nat k) = n) as En by (unfold n, zlen; rewrite nibs_length; lia). rewrite En, nv_nibs in *. rewrite E1, E2. reflexivity. }
    replace n with (4 * Z.of_nat k) by reflexivity.
    rewrite <- (feist_num k) by (try assumption; try lia; apply rcs_blk; left; reflexivity).
    pose proof (blk_tweak c Hc t k Ht) as Btw.
    destruct (feist_ok R R_blk c Hc k ltac:(lia) (tweak c t k) Btw (rcs 0 k) st (rcs_blk 0 k (or_introl eq_refl)) Ha Hb) as [[Na La] [Nb Lb]].
    unfold num. rewrite <- nv_nibs, E, nv_app. f_equal. f_equal. rewrite pow16 by apply zlen_nonneg. unfold zlen. rewrite La. reflexivity.
  Qed.

  Lemma flip_num t o : blk t -> is_bytes o -> (1 <= length o < 16)%nat ->
    let n := 4 * zlen o in
    be_decode (flipv R c t o) =
    Z.lxor (be_decode o) (tbcz 3 (Z.lxor (be_decode t) (Z.lor (be_decode o * 2 ^ (128 - 2 * n)) (2 ^ 127))) / 2 ^ 127 * 2 ^ (2 * n - 1)).
  Proof using K R_blk.
    intros Ht Bo Lo n. pose proof (key_ctx_ok _ _ _ _ K) as Hc. unfold flipv.
    set (u := vor (o ++ zeros (16 - length o)) p80).
    assert (blk (o ++ zeros (16 - length o))) as Bz.
    { split; [rewrite app_length, zeros_length; lia|]. apply is_bytes_app; split; [assumption|apply is_bytes_zeros]. }
    assert (blk p80) as B8 by (apply blkb_ok; vm_compute; reflexivity).
    assert (blk u) as Bu by (apply blk_vor; assumption).
    assert (be_decode u = Z.lor (be_decode o * 2 ^ (128 - 2 * n)) (2 ^ 127)) as Eu.
    { unfold u. rewrite be_or by (try apply Bz; try apply B8; rewrite (blk_len _ Bz), (blk_len _ B8); reflexivity). f_equal.
      rewrite <- nv_nibs, nibs_app, nv_app, nibs_zeros, nv_zeros, nv_nibs, Z.add_0_r. f_equal. rewrite pow16 by apply zlen_nonneg. f_equal.
      unfold n, zlen. rewrite zeros_length. lia. }
    rewrite <- Eu, <- blk_xors by assumption. change xorb_list with vxor.
    assert (blk (vxor t u)) as Btu by (apply blk_xor; assumption). rewrite tbcz_block by exact Btu.
    rewrite aes4_G. fold (A (vxor (vxor u t) (vxor (cI0 c) (cI1 c)))).
    assert (vxor (vxor u t) (vxor (cI0 c) (cI1 c)) = vxor (vxor t u) (times 3 I)) as ->.
    { destruct K as [E0 E1 E2 _ _ _ _ HI _ _]. destruct (times_2_4 I HI) as (M3 & _). rewrite E0, E1, M3. rewrite (vxor_comm u t). f_equal. apply vxor_comm. }
    set (X := A _). assert (blk X) as BX by (apply (blk_A R R_blk c Hc), blk_xor; [exact Btu|apply blk_times, K]). clearbody X.
    rewrite vxor_zero_r by exact BX.
    destruct X as [|x0 X]; [destruct BX; discriminate|]. destruct BX as [LX BX]. inversion BX as [|? ? Hx0 HX]; subst.
    assert (vand (x0 :: X) p80 = Z.land x0 128 :: zeros 15) as ->.
    { unfold vand, p80. cbn [zipw]. f_equal. apply vand_0. cbn in LX. lia. }
    assert (be_decode (x0 :: X) / 2 ^ 127 = x0 / 128) as ->.
    { change (x0 :: X) with ([x0] ++ X). unfold be_decode. rewrite rev_app_distr, le_decode_app. cbn [rev app le_decode].
      pose proof (le_decode_range (rev X) (is_bytes_rev _ HX)) as RX.
      assert (zlen (rev X) = 15) as ZX by (unfold zlen; rewrite rev_length; cbn in LX; lia). rewrite ZX in *. unfold is_byte in Hx0.
      change (2 ^ 127) with (256 ^ 15 * 128). rewrite <- Z.div_div by lia.
      rewrite (Z.mul_comm (256 ^ 15)), Z.div_add, (Z.div_small (le_decode (rev X))) by lia. f_equal. lia. }
    assert (Z.land x0 128 = x0 / 128 * 128) as ->.
    { unfold is_byte in Hx0. assert (x0 / 128 = 0 \/ x0 / 128 = 1) as D by (destruct (Z.ltb_spec x0 128); [left|right]; [apply Z.div_small; lia|symmetry; apply Z.div_unique with (r := x0 - 128); lia]).
      change 128 with (2 ^ 7) at 1. apply Z.bits_inj'. intros i Hi. rewrite Z.land_spec, Z.pow2_bits_eqb by lia.
      change 128 with (2 ^ 7). rewrite Z.mul_pow2_bits by lia.
      destruct (Z.eqb_spec 7 i) as [<-|Hne].
      - rewrite andb_true_r, Z.sub_diag. rewrite <- Z.shiftr_div_pow2, Z.shiftr_spec by lia. reflexivity.
      - rewrite andb_false_r. change (2 ^ 7) with 128. destruct (Z.ltb_spec i 7); [rewrite Z.testbit_neg_r by lia; reflexivity|].
        destruct D as [-> | ->]; [rewrite Z.bits_0; reflexivity|]. change 1 with (2 ^ 0). rewrite Z.pow2_bits_false by lia. reflexivity. }
    set (b := x0 / 128). assert (0 <= b <= 1) as Rb by (unfold b, is_byte in *; split; [apply Z.div_pos; lia|apply Z.lt_succ_r, Z.div_lt_upper_bound; lia]). clearbody b. clear - Bo Lo Rb n.
    assert (vxor o (b * 128 :: zeros 15) = vxor o (b * 128 :: zeros (length o - 1))) as ->.
    { destruct o as [|o0 o]; [cbn in Lo; lia|]. unfold vxor. cbn [xorb_list length]. f_equal. rewrite !xorb_list_zeros_r; [reflexivity| |]; cbn in Lo; lia. }
    unfold vxor. rewrite be_xor; [|exact Bo| |].
    - f_equal. change (b * 128 :: zeros (length o - 1)) with ([b * 128] ++ zeros (length o - 1)).
      rewrite <- nv_nibs, nibs_app, nv_app, nibs_zeros, nv_zeros, Z.add_0_r. rewrite nv_nibs. unfold be_decode. cbn [rev app le_decode].
      rewrite pow16 by apply zlen_nonneg. assert (4 * zlen (zeros (2 * (length o - 1))) = 8 * zlen o - 8) as -> by (unfold zlen; rewrite zeros_length; lia).
      replace (2 * n - 1) with (7 + (8 * zlen o - 8)) by (unfold n; lia). rewrite Z.pow_add_r by (unfold zlen; lia). change (2 ^ 7) with 128. lia.
    - constructor; [unfold is_byte; lia|apply is_bytes_zeros].
    - cbn [length]. rewrite zeros_length. lia.
  Qed.

  Lemma tiny_spec t o : blk t -> is_bytes o -> (1 <= length o <= 31)%nat -> tiny_val R c t 0 o = tiny R I J L t o.
  Proof using K R_blk.
    intros Ht Bo Lo. pose proof (key_ctx_ok _ _ _ _ K) as Hc.
    destruct (tiny_val_ok R R_blk c Hc t 0 o (or_introl eq_refl) Ht Bo Lo) as [Bv Lv].
    destruct (fe_ok R R_blk c Hc t 0 o (or_introl eq_refl) Ht Bo ltac:(lia)) as (Bf & Lf & _).
    rewrite <- (be_encode_decode _ Bv), Lv. pose proof (fe_num t o Ht Bo Lo) as E. cbv zeta in E. unfold tiny. cbv zeta.
    change (Z.of_nat (length o)) with (zlen o). change (if (length o <? 16)%nat then 7 else 6) with (idx (length o)).
    destruct (fold_left _ _ _) as [l r]. f_equal. unfold tiny_val. change (0 =? 0) with true. cbv iota.
    destruct (Nat.leb_spec 16 (length o)) as [H|H].
    - replace (length o <? 16)%nat with false by lia. exact E.
    - replace (length o <? 16)%nat with true by lia. rewrite flip_num by (assumption || lia). cbv zeta.
      assert (zlen (fe R c t 0 o) = zlen o) as -> by (unfold zlen; rewrite Lf; reflexivity). rewrite E. reflexivity.
  Qed.
End Tiny.
