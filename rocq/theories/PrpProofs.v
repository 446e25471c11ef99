(** Proofs for Prp. *)
From Verif Require Import Base BaseFacts KeyVal AezModel AezProofs AezProofs7 AesRound PrpModel PrpSpec.
From Coq Require Import Lia.

Lemma block_map_blk R : block_map R -> forall x, blk x -> blk (R x).
Proof. intros H x [Lx Bx]. destruct (H x Bx) as [B L]; [unfold zlen; rewrite Lx; reflexivity|]. split; [unfold zlen in L; lia|exact B]. Qed.

Lemma perm_enc R ml b m : block_map R -> is_context b -> is_bytes m -> zlen m <= UINT_MAX -> exists c, is_bytes c /\ zlen c = zlen m /\
  (forall l g, buffer (zlen m) g -> prp_encrypt R true (VKey b l) m (zlen m) g = (VKey b false, Ok c)) /\
  (forall l g, buffer (zlen m) g -> prp_decrypt R ml true (VKey b l) c (zlen c) g = (VKey b ml, Ok m)).
Proof.
  intros HR [Bb Lb] Hm Hl. unfold UINT_MAX in Hl.
  destruct (aez_ok R (block_map_blk R HR) (ctx_of b) (ctx_of_ok b Bb Lb) m Hm) as (c & Bc & Lc & E1 & E2); [lia|].
  exists c. split; [exact Bc|]. split; [exact Lc|]. split; intros l g [Bg Lg].
  - unfold prp_encrypt. cbn [negb v_unlock_get]. rewrite E1 by assumption. reflexivity.
  - unfold prp_decrypt. cbn [negb v_unlock_get]. rewrite Lc, E2 by assumption. reflexivity.
Qed.
Lemma perm_dec R ml b c : block_map R -> is_context b -> is_bytes c -> zlen c <= UINT_MAX -> exists m, is_bytes m /\ zlen m = zlen c /\
  (forall l g, buffer (zlen c) g -> prp_decrypt R ml true (VKey b l) c (zlen c) g = (VKey b ml, Ok m)) /\
  (forall l g, buffer (zlen c) g -> prp_encrypt R true (VKey b l) m (zlen m) g = (VKey b false, Ok c)).
Proof.
  intros HR [Bb Lb] Hm Hl. unfold UINT_MAX in Hl.
  destruct (aez_dec_ok R (block_map_blk R HR) (ctx_of b) (ctx_of_ok b Bb Lb) c Hm) as (m & Bc & Lc & E1 & E2); [lia|].
  exists m. split; [exact Bc|]. split; [exact Lc|]. split; intros l g [Bg Lg].
  - unfold prp_decrypt. cbn [negb v_unlock_get]. rewrite E1 by assumption. reflexivity.
  - unfold prp_encrypt. cbn [negb v_unlock_get]. rewrite Lc, E2 by assumption. reflexivity.
Qed.
Lemma enc_str R k m g : zlen m <= UINT_MAX -> prp_encrypt_str R true k m g = prp_encrypt R true k m (zlen m) g.
Proof.
  intros H. unfold prp_encrypt_str. cbn [negb]. replace (UINT_MAX <? zlen m) with false by lia.
  unfold UINT_MAX in H. pose proof (zlen_nonneg m). unfold u32. rewrite Z.mod_small by (change (2 ^ 32) with 4294967296; lia). reflexivity.
Qed.
Lemma dec_str R ml k m g : zlen m <= UINT_MAX -> prp_decrypt_str R ml true k m g = prp_decrypt R ml true k m (zlen m) g.
Proof.
  intros H. unfold prp_decrypt_str. cbn [negb]. replace (UINT_MAX <? zlen m) with false by lia.
  unfold UINT_MAX in H. pose proof (zlen_nonneg m). unfold u32. rewrite Z.mod_small by (change (2 ^ 32) with 4294967296; lia). reflexivity.
Qed.

(** Decryption of an encryption, and conversely. *)
Lemma dec_enc R ml b l l' m g g' k c : block_map R -> is_context b -> is_bytes m -> zlen m <= UINT_MAX -> buffer (zlen m) g -> buffer (zlen m) g' ->
  prp_encrypt R true (VKey b l) m (zlen m) g = (k, Ok c) -> prp_decrypt R ml true (VKey b l') c (zlen c) g' = (VKey b ml, Ok m).
Proof.
  intros HR Hb Hm Hl Hg Hg' E. destruct (perm_enc R ml b m HR Hb Hm Hl) as (c' & _ & _ & E1 & E2).
  rewrite E1 in E by assumption. injection E as _ <-. apply E2. assumption.
Qed.
Lemma enc_dec R ml b l l' m g g' k c : block_map R -> is_context b -> is_bytes m -> zlen m <= UINT_MAX -> buffer (zlen m) g -> buffer (zlen m) g' ->
  prp_decrypt R ml true (VKey b l) m (zlen m) g = (k, Ok c) -> prp_encrypt R true (VKey b l') c (zlen c) g' = (VKey b false, Ok m).
Proof.
  intros HR Hb Hm Hl Hg Hg' E. destruct (perm_dec R ml b m HR Hb Hm Hl) as (c' & _ & _ & E1 & E2).
  rewrite E1 in E by assumption. injection E as _ <-. apply E2. assumption.
Qed.
Lemma dec_enc_str R ml b l l' m g g' k c : block_map R -> is_context b -> is_bytes m -> zlen m <= UINT_MAX -> buffer (zlen m) g -> buffer (zlen m) g' ->
  prp_encrypt_str R true (VKey b l) m g = (k, Ok c) -> prp_decrypt_str R ml true (VKey b l') c g' = (VKey b ml, Ok m).
Proof.
  intros HR Hb Hm Hl Hg Hg' E. rewrite enc_str in E by assumption.
  assert (zlen c = zlen m). { destruct (perm_enc R ml b m HR Hb Hm Hl) as (c' & _ & L & E1 & _). rewrite E1 in E by assumption. congruence. }
  rewrite dec_str by lia. eapply (dec_enc R ml b l l' m g); eassumption.
Qed.
Lemma enc_dec_str R ml b l l' m g g' k c : block_map R -> is_context b -> is_bytes m -> zlen m <= UINT_MAX -> buffer (zlen m) g -> buffer (zlen m) g' ->
  prp_decrypt_str R ml true (VKey b l) m g = (k, Ok c) -> prp_encrypt_str R true (VKey b l') c g' = (VKey b false, Ok m).
Proof.
  intros HR Hb Hm Hl Hg Hg' E. rewrite dec_str in E by assumption.
  assert (zlen c = zlen m). { destruct (perm_dec R ml b m HR Hb Hm Hl) as (c' & _ & L & E1 & _). rewrite E1 in E by assumption. congruence. }
  rewrite enc_str by lia. eapply (enc_dec R ml b l l' m g); eassumption.
Qed.
Lemma lengths_ok R ml b l m g : block_map R -> is_context b -> is_bytes m -> zlen m <= UINT_MAX -> buffer (zlen m) g ->
  exists c c', prp_encrypt R true (VKey b l) m (zlen m) g = (VKey b false, Ok c) /\ is_bytes c /\ zlen c = zlen m /\
    prp_decrypt R ml true (VKey b l) m (zlen m) g = (VKey b ml, Ok c') /\ is_bytes c' /\ zlen c' = zlen m.
Proof.
  intros HR Hb Hm Hl Hg. destruct (perm_enc R ml b m HR Hb Hm Hl) as (c & B & L & E & _).
  destruct (perm_dec R ml b m HR Hb Hm Hl) as (c' & B' & L' & E' & _).
  exists c, c'. rewrite E, E' by assumption. repeat split; assumption.
Qed.
Lemma strings_same R ml k m g : zlen m <= UINT_MAX ->
  prp_encrypt_str R true k m g = prp_encrypt R true k m (zlen m) g /\ prp_decrypt_str R ml true k m g = prp_decrypt R ml true k m (zlen m) g.
Proof. intros. rewrite enc_str, dec_str by assumption. auto. Qed.
Lemma too_long R ml k m g : UINT_MAX < zlen m -> prp_encrypt_str R true k m g = (k, Throw RuntimeError) /\ prp_decrypt_str R ml true k m g = (k, Throw RuntimeError).
Proof. intros. unfold prp_encrypt_str, prp_decrypt_str. cbn [negb]. replace (UINT_MAX <? zlen m) with true by lia. auto. Qed.

(** integers *)
Lemma int_ok R ml b n x : block_map R -> is_context b -> (n <= 8)%nat -> 0 <= x < 256 ^ Z.of_nat n -> exists y, 0 <= y < 256 ^ Z.of_nat n /\
  (forall l g, prp_int (prp_encrypt R true) n (VKey b l) x g = (VKey b false, Ok y)) /\
  (forall l g, prp_int (prp_decrypt R ml true) n (VKey b l) y g = (VKey b ml, Ok x)) /\
  (forall l g, buffer (Z.of_nat n) g -> prp_encrypt R true (VKey b l) (le_encode n x) (Z.of_nat n) g = (VKey b false, Ok (le_encode n y))) /\
  (forall l g, buffer (Z.of_nat n) g -> prp_decrypt R ml true (VKey b l) (le_encode n y) (Z.of_nat n) g = (VKey b ml, Ok (le_encode n x))).
Proof.
  intros HR Hb Hn Hx. assert (forall v, buffer (Z.of_nat n) (le_encode n v)) as HB.
  { intros v. split; [apply le_encode_bytes|]. unfold zlen. rewrite le_encode_length. reflexivity. }
  destruct (HB x) as [B0 L0].
  destruct (perm_enc R ml b (le_encode n x) HR Hb B0) as (c & Bc & Lc & E1 & E2); [unfold UINT_MAX; lia|].
  rewrite Lc in E2. rewrite L0 in *.
  exists (le_decode c). pose proof (le_decode_range c Bc) as Hr. rewrite Lc in Hr.
  assert (le_encode n (le_decode c) = c) as Ec by (assert (length c = n) as <- by (unfold zlen in Lc; lia); apply le_encode_decode; assumption).
  split; [exact Hr|]. unfold prp_int.
  split; [intros; rewrite E1 by apply HB; reflexivity|]. split; [intros; rewrite Ec, E2 by apply HB; rewrite le_decode_encode by assumption; reflexivity|].
  rewrite Ec. split; intros; [apply E1|apply E2]; assumption.
Qed.
Lemma int_dec_ok R ml b n y : block_map R -> is_context b -> (n <= 8)%nat -> 0 <= y < 256 ^ Z.of_nat n -> exists x, 0 <= x < 256 ^ Z.of_nat n /\
  (forall l g, prp_int (prp_decrypt R ml true) n (VKey b l) y g = (VKey b ml, Ok x)) /\
  (forall l g, prp_int (prp_encrypt R true) n (VKey b l) x g = (VKey b false, Ok y)).
Proof.
  intros HR Hb Hn Hx. assert (forall v, buffer (Z.of_nat n) (le_encode n v)) as HB.
  { intros v. split; [apply le_encode_bytes|]. unfold zlen. rewrite le_encode_length. reflexivity. }
  destruct (HB y) as [B0 L0].
  destruct (perm_dec R ml b (le_encode n y) HR Hb B0) as (c & Bc & Lc & E1 & E2); [unfold UINT_MAX; lia|].
  rewrite Lc in E2. rewrite L0 in *.
  exists (le_decode c). pose proof (le_decode_range c Bc) as Hr. rewrite Lc in Hr.
  assert (le_encode n (le_decode c) = c) as Ec by (assert (length c = n) as <- by (unfold zlen in Lc; lia); apply le_encode_decode; assumption).
  split; [exact Hr|]. unfold prp_int.
  split; [intros; rewrite E1 by apply HB; reflexivity|]. intros; rewrite Ec, E2 by apply HB; rewrite le_decode_encode by assumption; reflexivity.
Qed.

(** construction, serialization *)
Lemma make_ok ml kb l : is_bytes kb -> zlen kb = 48 -> exists b, is_context b /\ prp_make ml true (VKey kb l) = (VEmpty, Ok (VKey b ml)) /\
  prp_random ml true kb = Ok (VKey b ml).
Proof.
  intros Hb Hl. destruct (setup_ok kb Hb Hl) as (c & E & _ & L & B). exists (ctx_bytes c). split; [split; assumption|].
  unfold prp_make, prp_random. cbn [negb v_unlock_get]. rewrite E. cbn [bind]. split; reflexivity.
Qed.
Lemma unavailable R ml k inp len out buf n x g :
  prp_random ml false inp = Throw RuntimeError /\ prp_make ml false k = (k, Throw RuntimeError) /\
  prp_encrypt R false k inp len out = (k, Throw RuntimeError) /\ prp_decrypt R ml false k inp len out = (k, Throw RuntimeError) /\
  prp_encrypt_str R false k inp out = (k, Throw RuntimeError) /\ prp_decrypt_str R ml false k inp out = (k, Throw RuntimeError) /\
  prp_encrypt_32 R false k x g = (k, Throw RuntimeError) /\ prp_decrypt_32 R ml false k x g = (k, Throw RuntimeError) /\
  prp_encrypt_64 R false k x g = (k, Throw RuntimeError) /\ prp_decrypt_64 R ml false k x g = (k, Throw RuntimeError) /\
  prp_serialize ml false k = (k, Throw RuntimeError) /\ prp_deserialize ml false buf n = Throw RuntimeError.
Proof. repeat split. Qed.
Lemma emptied R ml inp len out : prp_make ml true VEmpty = (VEmpty, Throw RuntimeError) /\
  prp_encrypt R true VEmpty inp len out = (VEmpty, Throw RuntimeError) /\ prp_decrypt R ml true VEmpty inp len out = (VEmpty, Throw RuntimeError) /\
  prp_serialize ml true VEmpty = (VEmpty, Throw RuntimeError).
Proof. repeat split. Qed.
Lemma serialize_ok ml b l : prp_serialize ml true (VKey b l) = (VKey b ml, Ok b).
Proof. reflexivity. Qed.
Lemma deserialize_ok ml b rest n : is_context b -> 112 <= n ->
  prp_deserialize ml true (b ++ rest) n = Ok (VKey b ml, zeros 112 ++ rest, 112).
Proof.
  intros [Bb Lb] Hn. unfold prp_deserialize, prp_kContextSize. cbn [negb]. replace (n <? 112) with false by lia.
  rewrite rd_prefix by lia. cbn [bind]. rewrite wr_prefix by (rewrite zlen_zeros; lia). reflexivity.
Qed.
Lemma deserialize_short ml buf n : n < 112 -> prp_deserialize ml true buf n = Throw InvalidArgument.
Proof. intros H. unfold prp_deserialize, prp_kContextSize. cbn [negb]. replace (n <? 112) with true by lia. reflexivity. Qed.

(** locking *)
Lemma locked_after R ml avail k inp len out buf n :
  v_protected ml k ->
  (forall k' o, prp_decrypt R ml avail k inp len out = (k', o) -> o <> UB -> v_protected ml k') /\
  (forall k' o, prp_serialize ml avail k = (k', o) -> o <> UB -> v_protected ml k') /\
  (forall k' b' r, prp_deserialize ml avail buf n = Ok (k', b', r) -> v_protected ml k') /\
  (forall k' r, prp_make ml avail k = (k', Ok r) -> v_protected ml k' /\ v_protected ml r).
Proof.
  intros Hk. split; [|split; [|split]].
  - intros k' o E Ho. unfold prp_decrypt in E. destruct avail; cbn [negb] in E; [|congruence].
    destruct k as [|b l]; cbn [v_unlock_get] in E; [injection E as <- <-; exact I|].
    destruct (aez_decrypt _ _ _ _ _ _ _) as [[? ?]| | | |]; injection E as <- <-; try congruence; reflexivity.
  - intros k' o E Ho. unfold prp_serialize in E. destruct avail; cbn [negb] in E; [|congruence].
    destruct k as [|b l]; cbn in E; injection E as <- <-; [exact I|reflexivity].
  - intros k' b' r E. unfold prp_deserialize, prp_of_context in E. destruct avail; cbn [negb] in E; [|congruence].
    destruct (_ <? _); [discriminate|]. destruct (rd buf 0 prp_kContextSize) as [x| | | |]; cbn [bind] in E; try discriminate.
    destruct (wr buf 0 (zeros 112)) as [y| | | |]; cbn [bind] in E; try discriminate. injection E as <- _ _. reflexivity.
  - intros k' r E. unfold prp_make in E. destruct avail; cbn [negb] in E; [|congruence].
    destruct k as [|b l]; cbn [v_unlock_get] in E; [congruence|]. destruct (aez_setup b) as [x| | | |]; try discriminate.
    injection E as <- <-. split; [exact I|reflexivity].
Qed.

(** key expansion *)
Lemma le_app a b : le_decode (a ++ b) = le_decode a + 256 ^ zlen a * le_decode b.
Proof.
  induction a as [|x a IH]; [change (zlen (@nil Z)) with 0; cbn [app le_decode]; lia|]. cbn [app le_decode]. rewrite IH, zlen_cons.
  pose proof (zlen_nonneg a). rewrite Z.pow_add_r by lia. change (256 ^ 1) with 256. lia.
Qed.
Lemma lxor_even x c : 0 <= c <= 1 -> Z.lxor (2 * x) c = 2 * x + c.
Proof.
  intros H. rewrite Z.add_nocarry_lxor; [reflexivity|].
  assert (c = 0 \/ c = 1) as [-> | ->] by lia; [apply Z.land_0_r|]. change 1 with (Z.ones 1). rewrite Z.land_ones by lia. change (2 ^ 1) with 2. lia.
Qed.
Lemma log2_32 v : 0 <= v < 2 ^ 32 -> Z.log2 v < 32.
Proof. intros Hv. destruct (Z.eq_dec v 0) as [->|]; [cbn; lia|apply Z.log2_lt_pow2; lia]. Qed.
Lemma lxor_lo a b k : 0 <= a < 2 ^ 32 -> 0 <= k < 2 ^ 32 -> Z.lxor (a + 2 ^ 32 * b) k = Z.lxor a k + 2 ^ 32 * b.
Proof.
  intros Ha Hk.
  assert (forall x y, 0 <= x < 2 ^ 32 -> x + 2 ^ 32 * y = Z.lxor x (Z.shiftl y 32)) as E.
  { intros x y Hx. rewrite Z.shiftl_mul_pow2 by lia. rewrite <- Z.add_nocarry_lxor; [lia|].
    rewrite <- Z.shiftl_mul_pow2 by lia. apply Z.bits_inj'. intros n Hn. rewrite Z.land_spec, Z.bits_0.
    destruct (Z.lt_ge_cases n 32); [rewrite Z.shiftl_spec_low by lia; apply andb_false_r|].
    rewrite (Z.bits_above_log2 x); [reflexivity|lia|]. pose proof (log2_32 x Hx). lia. }
  rewrite E by assumption.
  assert (0 <= Z.lxor a k < 2 ^ 32) as Hx.
  { split; [apply Z.lxor_nonneg; lia|]. destruct (Z.eq_dec (Z.lxor a k) 0) as [->|Hne]; [lia|].
    assert (0 <= Z.lxor a k) by (apply Z.lxor_nonneg; lia).
    apply Z.log2_lt_pow2; [lia|]. pose proof (Z.log2_lxor a k ltac:(lia) ltac:(lia)).
    assert (forall v, 0 <= v < 2 ^ 32 -> Z.log2 v < 32) as HL.
    { intros v Hv. destruct (Z.eq_dec v 0) as [->|]; [cbn; lia|apply Z.log2_lt_pow2; lia]. }
    pose proof (HL a Ha). pose proof (HL k Hk). lia. }
  rewrite (E (Z.lxor a k)) by assumption.
  rewrite Z.lxor_assoc, (Z.lxor_comm _ k), <- Z.lxor_assoc. reflexivity.
Qed.
Lemma bit31 w : 0 <= w < 2 ^ 32 -> Z.testbit w 31 = (2 ^ 31 <=? w).
Proof.
  intros H. rewrite Z.testbit_eqb by lia. change (2 ^ 31) with 2147483648 in *. change (2 ^ 32) with 4294967296 in *.
  destruct (Z.leb_spec 2147483648 w); [apply Z.eqb_eq|apply Z.eqb_neq]; lia.
Qed.
Lemma double_value x : blk x -> le_decode (double_block x) = gf_double (le_decode x).
Proof.
  intros [L B].
  assert (exists w0 w1 w2 w3, 0 <= w0 < 2 ^ 32 /\ 0 <= w1 < 2 ^ 32 /\ 0 <= w2 < 2 ^ 32 /\ 0 <= w3 < 2 ^ 32 /\
    le_decode (firstn 4 (skipn (4 * 0) x)) = w0 /\ le_decode (firstn 4 (skipn (4 * 1) x)) = w1 /\
    le_decode (firstn 4 (skipn (4 * 2) x)) = w2 /\ le_decode (firstn 4 (skipn (4 * 3) x)) = w3 /\
    le_decode x = w0 + 2 ^ 32 * w1 + 2 ^ 64 * w2 + 2 ^ 96 * w3) as (w0 & w1 & w2 & w3 & R0 & R1 & R2 & R3 & E0 & E1 & E2 & E3 & E).
  { assert (forall i, (i <= 3)%nat -> 0 <= le_decode (firstn 4 (skipn (4 * i) x)) < 2 ^ 32) as HR.
    { intros i Hi. assert (is_bytes (firstn 4 (skipn (4 * i) x))) as Bi by (apply is_bytes_firstn, is_bytes_skipn, B).
      pose proof (le_decode_range _ Bi) as Hr. assert (zlen (firstn 4 (skipn (4 * i) x)) = 4) as Li by (unfold zlen; rewrite firstn_length, skipn_length; lia).
      rewrite Li in Hr. exact Hr. }
    eexists _, _, _, _. split; [apply (HR 0%nat); lia|]. split; [apply (HR 1%nat); lia|]. split; [apply (HR 2%nat); lia|]. split; [apply (HR 3%nat); lia|].
    repeat (split; [reflexivity|]).
    do 16 (destruct x as [|? x]; [discriminate|]). destruct x; [|discriminate]. cbn [Nat.mul Nat.add skipn firstn le_decode].
    change (2 ^ 32) with 4294967296. change (2 ^ 64) with 18446744073709551616. change (2 ^ 96) with 79228162514264337593543950336. lia. }
  unfold double_block. cbv zeta. rewrite E0, E1, E2, E3, E.
  rewrite !le_app. assert (forall v, zlen (le_encode 4 v) = 4) as LE by (intros; unfold zlen; rewrite le_encode_length; reflexivity). rewrite !LE.
  rewrite !le_decode_mod. change (256 ^ Z.of_nat 4) with (2 ^ 32). change (256 ^ 4) with (2 ^ 32).
  rewrite !bit31 by assumption. unfold u32.
  assert (forall w, 0 <= w < 2 ^ 32 -> Z.shiftl w 1 mod 2 ^ 32 = 2 * (if 2 ^ 31 <=? w then w - 2 ^ 31 else w)) as HS.
  { intros w Hw. rewrite Z.shiftl_mul_pow2 by lia. change (2 ^ 1) with 2. change (2 ^ 31) with 2147483648. change (2 ^ 32) with 4294967296 in *.
    destruct (Z.leb_spec 2147483648 w); lia. }
  rewrite !HS by assumption.
  rewrite !(lxor_even (if 2 ^ 31 <=? w1 then _ else _)), !(lxor_even (if 2 ^ 31 <=? w2 then _ else _)), !(lxor_even (if 2 ^ 31 <=? w3 then _ else _))
    by (destruct (2 ^ 31 <=? _); lia).
  unfold gf_double.
  assert (2 ^ 127 <=? w0 + 2 ^ 32 * w1 + 2 ^ 64 * w2 + 2 ^ 96 * w3 = (2 ^ 31 <=? w3)) as ->.
  { change (2 ^ 127) with 170141183460469231731687303715884105728. change (2 ^ 31) with 2147483648. change (2 ^ 32) with 4294967296 in *.
    change (2 ^ 64) with 18446744073709551616. change (2 ^ 96) with 79228162514264337593543950336. lia. }
  set (a0 := if 2 ^ 31 <=? w0 then w0 - 2 ^ 31 else w0). assert (0 <= 2 * a0 < 2 ^ 32) as Ha0 by (unfold a0; change (2 ^ 31) with 2147483648; change (2 ^ 32) with 4294967296 in *; destruct (Z.leb_spec 2147483648 w0); lia).
  assert (forall k, 0 <= k < 2 ^ 32 -> 0 <= Z.lxor (2 * a0) k < 2 ^ 32) as HX.
  { intros k Hk. split; [apply Z.lxor_nonneg; lia|]. pose proof (Z.log2_lxor (2 * a0) k ltac:(lia) ltac:(lia)).
    assert (forall v, 0 <= v < 2 ^ 32 -> Z.log2 v < 32) as HL.
    { intros v Hv. destruct (Z.eq_dec v 0) as [->|]; [cbn; lia|apply Z.log2_lt_pow2; lia]. }
    pose proof (HL _ Ha0). pose proof (HL _ Hk). assert (0 <= Z.lxor (2 * a0) k) by (apply Z.lxor_nonneg; lia).
    destruct (Z.eq_dec (Z.lxor (2 * a0) k) 0) as [->|Hne]; [lia|]. apply Z.log2_lt_pow2; lia. }
  assert (forall w c, 0 <= w < 2 ^ 32 -> 0 <= c <= 1 -> (2 * (if 2 ^ 31 <=? w then w - 2 ^ 31 else w) + c) mod 2 ^ 32 = 2 * (if 2 ^ 31 <=? w then w - 2 ^ 31 else w) + c) as HM.
  { intros w c0 Hw Hc. apply Z.mod_small. change (2 ^ 31) with 2147483648. change (2 ^ 32) with 4294967296 in *. destruct (Z.leb_spec 2147483648 w); lia. }
  rewrite (HM w1), (HM w2), (HM w3) by (assumption || (match goal with |- context [if ?b then _ else _] => destruct b end; lia)).
  rewrite (Z.mod_small (Z.lxor (2 * a0) _)) by (apply HX; destruct (2 ^ 31 <=? w3); lia).
  destruct (Z.leb_spec (2 ^ 31) w3) as [H3|H3].
  - set (b1 := if 2 ^ 31 <=? w0 then 1 else 0). set (b2 := if 2 ^ 31 <=? w1 then 1 else 0). set (b3 := if 2 ^ 31 <=? w2 then 1 else 0).
    set (v1 := if 2 ^ 31 <=? w1 then w1 - 2 ^ 31 else w1). set (v2 := if 2 ^ 31 <=? w2 then w2 - 2 ^ 31 else w2).
    replace (2 * (w0 + 2 ^ 32 * w1 + 2 ^ 64 * w2 + 2 ^ 96 * w3) - 2 ^ 128) with
      (2 * a0 + 2 ^ 32 * (2 * v1 + b1 + 2 ^ 32 * (2 * v2 + b2 + 2 ^ 32 * (2 * (w3 - 2 ^ 31) + b3)))).
    + rewrite lxor_lo by (assumption || lia). reflexivity.
    + unfold a0, v1, v2, b1, b2, b3.
      change (2 ^ 31) with 2147483648 in *. change (2 ^ 32) with 4294967296 in *.
      change (2 ^ 64) with 18446744073709551616. change (2 ^ 96) with 79228162514264337593543950336. change (2 ^ 128) with 340282366920938463463374607431768211456.
      destruct (Z.leb_spec 2147483648 w0), (Z.leb_spec 2147483648 w1), (Z.leb_spec 2147483648 w2); lia.
  - rewrite Z.lxor_0_r. unfold a0.
      change (2 ^ 31) with 2147483648 in *. change (2 ^ 32) with 4294967296 in *.
      change (2 ^ 64) with 18446744073709551616. change (2 ^ 96) with 79228162514264337593543950336.
      destruct (Z.leb_spec 2147483648 w0), (Z.leb_spec 2147483648 w1), (Z.leb_spec 2147483648 w2); lia.
Qed.
Lemma expansion I J L : is_bytes (I ++ J ++ L) -> zlen I = 16 -> zlen J = 16 -> zlen L = 16 -> exists c, aez_setup (I ++ J ++ L) = Ok c /\
  cI0 c = I /\ be_decode (cI1 c) = gf_double (be_decode I) /\ be_decode (cI2 c) = gf_double (gf_double (be_decode I)) /\
  cJ0 c = J /\ be_decode (cJ1 c) = gf_double (be_decode J) /\ be_decode (cJ2 c) = gf_double (gf_double (be_decode J)) /\ cL c = L.
Proof.
  rewrite !is_bytes_app. intros (BI & BJ & BL) LI LJ LL. unfold aez_setup, load.
  rewrite rd_prefix by lia. cbn [bind]. rewrite rd_mid by lia. cbn [bind].
  rewrite app_assoc, rd_suffix by (rewrite ?zlen_app; lia). cbn [bind]. cbv zeta. eexists. split; [reflexivity|]. cbn [cI0 cI1 cI2 cJ0 cJ1 cJ2 cL].
  assert (forall x, be_decode (bswap16 x) = le_decode x) as HB by (intros; unfold be_decode, bswap16; rewrite rev_involutive; reflexivity).
  assert (blk I) as bI by (split; [unfold zlen in LI; lia|assumption]). assert (blk J) as bJ by (split; [unfold zlen in LJ; lia|assumption]).
  rewrite !HB. rewrite !double_value by first [apply blk_double|apply blk_rev; assumption].
  unfold be_decode, bswap16. repeat split.
Qed.

(** the AES round *)
Lemma sbox_bytes n : is_byte (nth n sbox 0).
Proof.
  assert (is_bytes sbox) as H.
  { assert (forallb is_byteb sbox = true) as E by (vm_compute; reflexivity). apply Forall_forall. intros b Hb.
    rewrite forallb_forall in E. specialize (E b Hb). unfold is_byteb, is_byte in *. lia. }
  destruct (Nat.lt_ge_cases n (length sbox)) as [Hn|Hn]; [|rewrite nth_overflow by lia; unfold is_byte; lia].
  unfold is_bytes in H. rewrite Forall_forall in H. apply H, nth_In, Hn.
Qed.
Lemma xtime_byte a : is_byte a -> is_byte (xtime a).
Proof.
  unfold xtime. intros H. rewrite Z.shiftl_mul_pow2 by lia. change (2 ^ 1) with 2. unfold is_byte in *.
  destruct (Z.leb_spec 256 (a * 2)); [|lia]. apply (is_byte_lxor (a * 2 - 256) 27); unfold is_byte; lia.
Qed.
Lemma aes_round_map : block_map aes_round.
Proof.
  intros x Bx Lx. unfold aes_round. set (y := shift_rows _).
  assert (Forall is_byte y) as By.
  { unfold y, shift_rows. apply Forall_map, Forall_forall. intros i _.
    match goal with |- is_byte (nth i ?l 0) => destruct (Nat.lt_ge_cases i (length l)) as [Hn|Hn]; [|rewrite nth_overflow by lia; unfold is_byte; lia] end.
    rewrite map_length in Hn. rewrite (nth_indep _ 0 (nth (Z.to_nat 0) sbox 0)) by (rewrite map_length; exact Hn).
    rewrite (map_nth (fun b => nth (Z.to_nat b) sbox 0)). apply sbox_bytes. }
  assert (length y = 16%nat) as Ly by reflexivity. clearbody y. clear x Bx Lx.
  do 16 (destruct y as [|? y]; [discriminate|]). destruct y; [|discriminate].
  repeat match goal with H : Forall _ (_ :: _) |- _ => inversion H; clear H; subst end.
  split; [|reflexivity]. unfold is_bytes. cbn [mix_columns mix_column app].
  repeat constructor; repeat first [assumption|apply is_byte_lxor|apply xtime_byte].
Qed.
Lemma int_functions R ml b : block_map R -> is_context b ->
  (forall x, 0 <= x < 2 ^ 32 -> exists y, 0 <= y < 2 ^ 32 /\
     (forall l g, prp_encrypt_32 R true (VKey b l) x g = (VKey b false, Ok y)) /\ (forall l g, prp_decrypt_32 R ml true (VKey b l) y g = (VKey b ml, Ok x))) /\
  (forall x, 0 <= x < 2 ^ 64 -> exists y, 0 <= y < 2 ^ 64 /\
     (forall l g, prp_encrypt_64 R true (VKey b l) x g = (VKey b false, Ok y)) /\ (forall l g, prp_decrypt_64 R ml true (VKey b l) y g = (VKey b ml, Ok x))) /\
  (forall y, 0 <= y < 2 ^ 32 -> exists x, 0 <= x < 2 ^ 32 /\
     (forall l g, prp_decrypt_32 R ml true (VKey b l) y g = (VKey b ml, Ok x)) /\ (forall l g, prp_encrypt_32 R true (VKey b l) x g = (VKey b false, Ok y))) /\
  (forall y, 0 <= y < 2 ^ 64 -> exists x, 0 <= x < 2 ^ 64 /\
     (forall l g, prp_decrypt_64 R ml true (VKey b l) y g = (VKey b ml, Ok x)) /\ (forall l g, prp_encrypt_64 R true (VKey b l) x g = (VKey b false, Ok y))).
Proof.
  intros HR Hb. split; [|split; [|split]].
  - intros x Hx. destruct (int_ok R ml b 4 x HR Hb ltac:(lia) Hx) as (y & Hy & E1 & E2 & _). exists y. auto.
  - intros x Hx. destruct (int_ok R ml b 8 x HR Hb ltac:(lia) Hx) as (y & Hy & E1 & E2 & _). exists y. auto.
  - intros x Hx. destruct (int_dec_ok R ml b 4 x HR Hb ltac:(lia) Hx) as (y & Hy & E1 & E2). exists y. auto.
  - intros x Hx. destruct (int_dec_ok R ml b 8 x HR Hb ltac:(lia) Hx) as (y & Hy & E1 & E2). exists y. auto.
Qed.
Lemma encrypt_unlocks : exists R b m g k' c, block_map R /\ is_context b /\ v_protected true (VKey b true) /\
  prp_encrypt R true (VKey b true) m (zlen m) g = (k', Ok c) /\ ~ v_protected true k'.
Proof.
  destruct (lengths_ok aes_round true (zeros 112) true [1; 2; 3] [0; 0; 0] aes_round_map) as (c & _ & E & _).
  - split; [apply is_bytes_zeros|reflexivity].
  - repeat constructor; lia.
  - vm_compute. discriminate.
  - split; [repeat constructor; lia|reflexivity].
  - exists aes_round, (zeros 112), [1; 2; 3], [0; 0; 0], (VKey (zeros 112) false), c.
    split; [exact aes_round_map|]. split; [split; [apply is_bytes_zeros|reflexivity]|]. split; [reflexivity|]. split; [exact E|discriminate].
Qed.
