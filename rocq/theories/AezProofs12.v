(** aez_hash, aez_encrypt and Prp against AezSpec.v. *)
From Verif Require Import Base BaseFacts KeyVal AezModel AezProofs AezProofs2 AezProofs3 AezProofs4 AezProofs5 AezProofs6 AezProofs7 PrpModel PrpSpec PrpProofs AezSpec AezProofs8 AezProofs9 AezProofs10 AezProofs11.
From Coq Require Import Lia.

Section All.
  Variables I J L : bytes.
  Variable c : ctx.
  Hypothesis K : key_ctx I J L c.
  Variable R : bytes -> bytes.
  Hypothesis R_blk : forall x, blk x -> blk (R x).
  Local Notation tbc := (tbc R I J L).

  Lemma tbc_hash j i D X : j = 3 \/ j = 4 \/ j = 5 -> times (2 ^ (j - 3)) L (+) (if i =? 0 then zeros 16 else times (mult i) J) = D ->
    tbc j i X = aes4 R (vxor D X) J I L D.
  Proof. intros Hj <-. rewrite (vxor_comm _ X). destruct Hj as [->|[->| ->]]; reflexivity. Qed.
  Lemma hash_spec N : is_bytes N -> zlen N <= 16 -> aez_hash R c N (zlen N) = Ok (hash R I J L [zeros 16; N; []]) /\ blk (hash R I J L [zeros 16; N; []]).
  Proof using K R_blk.
    intros BN LN. assert (length N <= 16)%nat as LN' by (unfold zlen in LN; lia).
    pose proof K as [E0 E1 E2 F0 F1 F2 G0 HI HJ HL]. unfold aez_hash.
    assert (bswap16 (double_block (bswap16 (cJ2 c))) = times 8 J) as EJ8 by (rewrite F2; apply (dbl_8 J HJ)).
    assert (bswap16 (double_block (bswap16 (cL c))) = times 2 L) as EL2 by (rewrite G0; apply (dbl_2 L HL)).
    assert (bswap16 (double_block (double_block (bswap16 (cL c)))) = times 4 L) as EL4.
    { rewrite G0, <- dbl_4, <- (dbl_2 L) by exact HL. unfold dbl. rewrite bswap_bswap. reflexivity. }
    cbv zeta. rewrite EJ8, EL2, EL4, E0, F0, G0. change (zero_set_byte 0 15) with (Ok zero). cbn [bind].
    assert (load_partial N 0 (zlen N) = Ok (N ++ zeros (16 - length N))) as -> by (apply (load_partial_ok [] N); [reflexivity|reflexivity|exact LN]).
    cbn [bind]. set (x := N ++ zeros (16 - length N)).
    assert (blk x) as Bx by (split; [unfold x; rewrite app_length, zeros_length; lia|apply is_bytes_app; split; [exact BN|apply is_bytes_zeros]]).
    change (16 - zlen N) with (16 - Z.of_nat (length N)). rewrite one_zero_pad_norm by assumption. cbn [bind].
    change (load pad 32) with (Ok p80). cbn [bind].
    assert (forall k y, blk y -> blk (times k y)) as BT by (intros; apply blk_times; assumption).
    assert (blk p80) as B8 by (apply blkb_ok; vm_compute; reflexivity).
    assert (forall D X, blk D -> blk X -> blk (aes4 R (vxor D X) J I L D)) as B4.
    { intros D X HD HX. apply (blk_aes4 R R_blk); try assumption. apply blk_xor; assumption. }
    set (o1 := vxor L (times 8 J)). set (o2 := if zlen N =? 16 then vxor (times 2 L) (times 8 J) else times 2 L).
    assert (blk o1) as Bo1 by (apply blk_xor; auto). assert (blk o2) as Bo2 by (unfold o2; destruct (zlen N =? 16); [apply blk_xor|]; auto).
    assert (norm (length N) x = if zlen N =? 16 then N else pad10 N) as EN.
    { unfold norm, x. rewrite firstn_app, Nat.sub_diag, firstn_all2 by lia. cbn [firstn]. rewrite app_nil_r.
      destruct (Z.eqb_spec (zlen N) 16) as [H|H].
      - assert (length N = 16)%nat as -> by (unfold zlen in H; lia). apply app_nil_r.
      - symmetry. apply pad10_padn. unfold zlen in H. lia. }
    pose proof (norm_blk (length N) x LN' Bx) as BNx.
    assert (hash R I J L [zeros 16; N; []] = vxor (aes4 R (vxor o1 zero) J I L o1) (vxor (aes4 R (vxor o2 (norm (length N) x)) J I L o2) (aes4 R (vxor (times 4 L) p80) J I L (times 4 L)))) as EH.
    { unfold hash. cbn [hash_from].
      assert (hash_string R I J L 3 (zeros 16) = aes4 R (vxor o1 zero) J I L o1) as ->.
      { change (hash_string R I J L 3 (zeros 16)) with (vxor (tbc 3 (Z.of_nat 0 + 1) (block (zeros 16) 0)) zero). change (block (zeros 16) 0) with zero.
        change (Z.of_nat 0 + 1) with 1. rewrite (tbc_hash 3 1 o1) by (auto; unfold o1; change (mult 1) with 8; change (2 ^ (3 - 3)) with 1; change (1 =? 0) with false; cbv iota; rewrite times_1 by exact HL; reflexivity).
        apply vxor_zero_r, B4; [exact Bo1|apply blk_zero]. }
      assert (hash_string R I J L (3 + 1) N = aes4 R (vxor o2 (norm (length N) x)) J I L o2) as ->.
      { rewrite EN. unfold hash_string, o2. change (3 + 1) with 4. destruct (Z.eqb_spec (zlen N) 16) as [H|H].
        - assert (length N = 16)%nat as L16 by (unfold zlen in H; lia). rewrite L16. change (16 / 16)%nat with 1%nat. change (seq 0 1) with [0%nat]. cbn [map xors fold_right].
          change ((16 =? 0)%nat || negb (16 mod 16 =? 0)%nat) with false. cbv iota. change (Z.of_nat 0 + 1) with 1.
          assert (block N 0 = N) as -> by (unfold block; cbn [skipn Nat.mul]; apply firstn_all2; lia).
          rewrite (tbc_hash 4 1 (vxor (times 2 L) (times 8 J))) by (auto; reflexivity). change xorb_list with vxor. apply vxor_zero_r, B4; [apply blk_xor; auto|].
          split; [exact L16|exact BN].
        - assert (length N < 16)%nat as L16 by (unfold zlen in H; lia). rewrite Nat.div_small by exact L16. cbn [seq map xors fold_right].
          assert ((length N =? 0)%nat || negb (length N mod 16 =? 0)%nat = true) as ->.
          { rewrite Nat.mod_small by exact L16. destruct (length N =? 0)%nat; reflexivity. }
          rewrite Nat.mul_0_r. cbn [skipn]. rewrite (tbc_hash 4 0 (times 2 L)); [|auto|].
          + change (zeros 16) with zero. change xorb_list with vxor. apply vxor_zero_l, B4; [auto|apply (blk_pad10 R R_blk); assumption].
          + change (times (2 ^ (4 - 3)) L) with (times 2 L). change (0 =? 0) with true. cbv iota. apply vxor_zero_r. auto. }
      assert (hash_string R I J L (3 + 1 + 1) [] = aes4 R (vxor (times 4 L) p80) J I L (times 4 L)) as ->.
      { change (3 + 1 + 1) with 5. change (hash_string R I J L 5 []) with (vxor zero (tbc 5 0 (pad10 []))). change (pad10 []) with p80.
        rewrite (tbc_hash 5 0 (times 4 L)); [|auto|].
        - apply vxor_zero_l, B4; auto.
        - change (times (2 ^ (5 - 3)) L) with (times 4 L). change (0 =? 0) with true. cbv iota. apply vxor_zero_r. auto. }
      change xorb_list with vxor. change (zeros 16) with zero. rewrite (vxor_zero_r (aes4 R (vxor (times 4 L) p80) J I L (times 4 L))) by (apply B4; auto).
      reflexivity. }
    split.
    - rewrite EH, !vxor_assoc. reflexivity.
    - rewrite EH. apply blk_xor; [apply B4; [exact Bo1|apply blk_zero]|apply blk_xor; apply B4; auto].
  Qed.

  Lemma encipher_spec N m dst : is_bytes N -> zlen N <= 16 -> is_bytes m -> zlen m < 2 ^ 32 -> is_bytes dst -> zlen dst = zlen m ->
    aez_encrypt R c N (zlen N) m (zlen m) dst = Ok (encipher R I J L [zeros 16; N; []] m) /\
    aez_decrypt R c N (zlen N) (encipher R I J L [zeros 16; N; []] m) (zlen m) dst = Ok (0, m) /\
    is_bytes (encipher R I J L [zeros 16; N; []] m) /\ zlen (encipher R I J L [zeros 16; N; []] m) = zlen m.
  Proof using K R_blk.
    intros BN LN Bm Lm Bd Ld. pose proof (key_ctx_ok _ _ _ _ K) as Hc.
    destruct (hash_spec N BN LN) as [Eh Bh]. set (t := hash R I J L [zeros 16; N; []]) in *.
    destruct (run_ok R R_blk c Hc t 0 m (or_introl eq_refl) Bh Bm Lm) as (l' & B' & L' & E1 & E2).
    pose proof (E1 dst Bd Ld) as X1. pose proof (E2 dst Bd Ld) as X2. change (1 - 0) with 1 in X2. unfold run in X1, X2. rewrite L' in X2.
    assert (encipher R I J L [zeros 16; N; []] m = l') as ->.
    { unfold encipher. fold t. unfold zlen in X1. destruct (Nat.eqb_spec (length m) 0) as [E|E].
      - assert (l' = []) as -> by (destruct l'; [reflexivity|unfold zlen in L'; cbn in L'; lia]). reflexivity.
      - destruct (Z.eqb_spec (Z.of_nat (length m)) 0); [lia|]. destruct (Nat.ltb_spec (length m) 32) as [E3|E3].
        + destruct (Z.ltb_spec (Z.of_nat (length m)) 32); [|lia]. fold (zlen m) in X1.
          rewrite (tiny_ok R R_blk c Hc) in X1 by (auto; lia). injection X1 as <-. symmetry. apply (tiny_spec I J L c K R R_blk); (assumption || lia).
        + destruct (Z.ltb_spec (Z.of_nat (length m)) 32); [lia|]. fold (zlen m) in X1.
          destruct (msg_split R R_blk m Bm ltac:(unfold zlen; lia)) as (mm & -> & Hm).
          rewrite (core_ok R R_blk c Hc) in X1 by (assumption || lia). injection X1 as <-. symmetry. apply (core_spec I J L c K R R_blk); assumption. }
    split; [|split; [|split; assumption]].
    - unfold aez_encrypt. rewrite Eh. cbn [bind]. destruct (zlen m =? 0); [injection X1 as ->; reflexivity|]. destruct (zlen m <? 32); rewrite X1; reflexivity.
    - unfold aez_decrypt. rewrite Eh. cbn [bind]. exact X2.
  Qed.
End All.

(** Prp *)
Lemma part_blk x : part x -> blk x.
Proof. intros [B Z]. split; [unfold zlen in Z; lia|exact B]. Qed.
Lemma prp_is_aez R ml I J L l : block_map R -> part I -> part J -> part L -> exists b,
  prp_make ml true (VKey (I ++ J ++ L) l) = (VEmpty, Ok (VKey b ml)) /\
  forall l' m g, is_bytes m -> zlen m <= UINT_MAX -> buffer (zlen m) g ->
    let x := encipher R I J L [zeros 16; zeros 16; []] m in
    prp_encrypt R true (VKey b l') m (zlen m) g = (VKey b false, Ok x) /\ prp_encrypt_str R true (VKey b l') m g = (VKey b false, Ok x) /\
    prp_decrypt R ml true (VKey b l') x (zlen x) g = (VKey b ml, Ok m) /\ prp_decrypt_str R ml true (VKey b l') x g = (VKey b ml, Ok m).
Proof.
  intros HR HI HJ HL. pose proof (block_map_blk R HR) as RB. apply part_blk in HI, HJ, HL.
  destruct (setup_key I J L HI HJ HL) as (c & Ec & K). pose proof (key_ctx_ok _ _ _ _ K) as Hc.
  exists (ctx_bytes c). split.
  { unfold prp_make. cbn [negb v_unlock_get]. rewrite Ec. reflexivity. }
  intros l' m g Bm Lm [Bg Lg]. unfold UINT_MAX in Lm.
  destruct (encipher_spec I J L c K R RB (zeros 16) m g) as (E1 & E2 & E3 & E4); [apply is_bytes_zeros|cbv; discriminate|assumption|lia|assumption|assumption|].
  change (zlen (zeros 16)) with 16 in *. intros x. fold x in E1, E2, E3, E4.
  assert (prp_encrypt R true (VKey (ctx_bytes c) l') m (zlen m) g = (VKey (ctx_bytes c) false, Ok x)) as P1.
  { unfold prp_encrypt. cbn [negb v_unlock_get]. rewrite ctx_of_bytes by exact Hc. rewrite E1. reflexivity. }
  assert (prp_decrypt R ml true (VKey (ctx_bytes c) l') x (zlen x) g = (VKey (ctx_bytes c) ml, Ok m)) as P2.
  { unfold prp_decrypt. cbn [negb v_unlock_get]. rewrite ctx_of_bytes by exact Hc. rewrite E4, E2. reflexivity. }
  destruct (strings_same R ml (VKey (ctx_bytes c) l') m g) as [S1 _]; [unfold UINT_MAX; lia|].
  destruct (strings_same R ml (VKey (ctx_bytes c) l') x g) as [_ S2]; [unfold UINT_MAX; lia|].
  rewrite S1, S2. auto.
Qed.
Lemma aez_any_nonce R I J L N : block_map R -> part I -> part J -> part L -> is_bytes N -> zlen N <= 16 -> exists c, aez_setup (I ++ J ++ L) = Ok c /\
  forall m g, is_bytes m -> zlen m <= UINT_MAX -> buffer (zlen m) g ->
    let x := encipher R I J L [zeros 16; N; []] m in
    aez_encrypt R c N (zlen N) m (zlen m) g = Ok x /\ aez_decrypt R c N (zlen N) x (zlen x) g = Ok (0, m).
Proof.
  intros HR HI HJ HL BN LN. pose proof (block_map_blk R HR) as RB. apply part_blk in HI, HJ, HL.
  destruct (setup_key I J L HI HJ HL) as (c & Ec & K). exists c. split; [exact Ec|].
  intros m g Bm Lm [Bg Lg]. unfold UINT_MAX in Lm.
  destruct (encipher_spec I J L c K R RB N m g) as (E1 & E2 & E3 & E4); [assumption|assumption|assumption|lia|assumption|assumption|].
  intros x. fold x in E1, E2, E3, E4. rewrite E4. auto.
Qed.
(** the scheme of AezSpec.v itself *)
Lemma encipher_perm R I J L N m m' : block_map R -> part I -> part J -> part L -> is_bytes N -> zlen N <= 16 ->
  is_bytes m -> is_bytes m' -> zlen m <= UINT_MAX -> zlen m' = zlen m -> let x := encipher R I J L [zeros 16; N; []] m in
  is_bytes x /\ zlen x = zlen m /\ (x = encipher R I J L [zeros 16; N; []] m' -> m = m').
Proof.
  intros HR HI HJ HL BN LN Bm Bm' Lm Lm' x. pose proof (block_map_blk R HR) as RB. apply part_blk in HI, HJ, HL. unfold UINT_MAX in Lm.
  destruct (setup_key I J L HI HJ HL) as (c & Ec & K).
  destruct (encipher_spec I J L c K R RB N m m') as (E1 & E2 & E3 & E4); [assumption|assumption|assumption|lia|assumption|assumption|].
  split; [exact E3|]. split; [exact E4|]. intros E. fold x in E2. rewrite E in E2.
  destruct (encipher_spec I J L c K R RB N m' m') as (F1 & F2 & F3 & F4); [assumption|assumption|assumption|lia|assumption|reflexivity|].
  rewrite Lm' in F2. rewrite E2 in F2. injection F2 as ->. reflexivity.
Qed.
