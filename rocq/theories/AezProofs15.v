(** aez.c with authentication bytes against AezAuthSpec.v. *)
From Verif Require Import Base BaseFacts KeyVal AezModel AezProofs AezProofs2 AezProofs3 AezProofs4 AezProofs5 AezProofs6 AezProofs7 PrpModel PrpSpec PrpProofs AezSpec AezProofs8 AezProofs9 AezProofs10 AezProofs11 AezProofs12
  AezAuthModel AezAuthSpec AezProofs13 AezProofs14.
From Coq Require Import Lia.

Lemma tau_ok (a : nat) : (a <= 16)%nat -> zero_set_byte (8 * Z.of_nat a) 15 = Ok (be_encode 16 (8 * Z.of_nat a)) /\ blk (be_encode 16 (8 * Z.of_nat a)).
Proof.
  intros H. do 17 (destruct a as [|a]; [split; [vm_compute; reflexivity|apply blkb_ok; vm_compute; reflexivity]|]). lia.
Qed.

Section All.
  Variables I J L : bytes.
  Variable c : ctx.
  Hypothesis K : key_ctx I J L c.
  Variable R : bytes -> bytes.
  Hypothesis R_blk : forall x, blk x -> blk (R x).
  Local Notation tbc := (tbc R I J L).

  Lemma hash_spec_a (a : nat) N : (a <= 16)%nat -> is_bytes N -> zlen N <= 16 ->
    aez_hash_a R c N (zlen N) (Z.of_nat a) = Ok (hash R I J L (tweak_of a N)) /\ blk (hash R I J L (tweak_of a N)).
  Proof using K R_blk.
    intros Ha BN LN. unfold tweak_of. destruct (tau_ok a Ha) as [Eta Bta]. set (tau := be_encode 16 (8 * Z.of_nat a)) in *. assert (length N <= 16)%nat as LN' by (unfold zlen in LN; lia).
    pose proof K as [E0 E1 E2 F0 F1 F2 G0 HI HJ HL]. unfold aez_hash_a.
    assert (bswap16 (double_block (bswap16 (cJ2 c))) = times 8 J) as EJ8 by (rewrite F2; apply (dbl_8 J HJ)).
    assert (bswap16 (double_block (bswap16 (cL c))) = times 2 L) as EL2 by (rewrite G0; apply (dbl_2 L HL)).
    assert (bswap16 (double_block (double_block (bswap16 (cL c)))) = times 4 L) as EL4.
    { rewrite G0, <- dbl_4, <- (dbl_2 L) by exact HL. unfold dbl. rewrite bswap_bswap. reflexivity. }
    cbv zeta. rewrite EJ8, EL2, EL4, E0, F0, G0. rewrite Eta. cbn [bind].
    assert (load_partial N 0 (zlen N) = Ok (N ++ zeros (16 - length N))) as -> by (apply (load_partial_ok [] N); [reflexivity|reflexivity|exact LN]).
    cbn [bind]. set (x := N ++ zeros (16 - length N)).
    assert (blk x) as Bx by (split; [unfold x; rewrite app_length, zeros_length; lia|apply is_bytes_app; split; [exact BN|apply is_bytes_zeros]]).
    change (16 - zlen N) with (16 - Z.of_nat (length N)). rewrite one_zero_pad_norm by assumption. cbn [bind].
    change (load pad 32) with (Ok p80). cbn [bind].
    assert (forall k y, blk y -> blk (times k y)) as BT by (intros; apply blk_times; assumption).
    assert (blk p80) as B8 by (apply blkb_ok; vm_compute; reflexivity).
    assert (forall D X, blk D -> blk X -> blk (aes4 R (vxor D X) J I L D)) as B4.
    { intros D X HD HX. apply (blk_aes4 R R_blk); try assumption. apply blk_xor; assumption. }
    set (o1 := vxor L (times 8 J)). set (o2 := if zlen N =? 16 then vxor (times 2 L) (times 8 J) else times 2 L).
    assert (blk o1) as Bo1 by (apply blk_xor; auto). assert (blk o2) as Bo2 by (unfold o2; destruct (zlen N =? 16); [apply blk_xor|]; auto).
    assert (norm (length N) x = if zlen N =? 16 then N else pad10 N) as EN.
    { unfold norm, x. rewrite firstn_app, Nat.sub_diag, firstn_all2 by lia. cbn [firstn]. rewrite app_nil_r.
      destruct (Z.eqb_spec (zlen N) 16) as [H|H].
      - assert (length N = 16)%nat as -> by (unfold zlen in H; lia). apply app_nil_r.
      - symmetry. apply pad10_padn. unfold zlen in H. lia. }
    pose proof (norm_blk (length N) x LN' Bx) as BNx.
    assert (hash R I J L [tau; N; []] = vxor (aes4 R (vxor o1 tau) J I L o1) (vxor (aes4 R (vxor o2 (norm (length N) x)) J I L o2) (aes4 R (vxor (times 4 L) p80) J I L (times 4 L)))) as EH.
    { unfold hash. cbn [hash_from].
      assert (hash_string R I J L 3 tau = aes4 R (vxor o1 tau) J I L o1) as ->.
      { unfold hash_string. rewrite (blk_len _ Bta). change (16 / 16)%nat with 1%nat. change (seq 0 1) with [0%nat]. cbn [map xors fold_right].
        change ((16 =? 0)%nat || negb (16 mod 16 =? 0)%nat) with false. cbv iota. change (Z.of_nat 0 + 1) with 1.
        assert (block tau 0 = tau) as -> by (unfold block; cbn [skipn Nat.mul]; apply firstn_all2; rewrite (blk_len _ Bta); lia). rewrite (tbc_hash I J L R 3 1 o1) by (auto; unfold o1; change (mult 1) with 8; change (2 ^ (3 - 3)) with 1; change (1 =? 0) with false; cbv iota; rewrite times_1 by exact HL; reflexivity).
        apply vxor_zero_r, B4; [exact Bo1|exact Bta]. }
      assert (hash_string R I J L (3 + 1) N = aes4 R (vxor o2 (norm (length N) x)) J I L o2) as ->.
      { rewrite EN. unfold hash_string, o2. change (3 + 1) with 4. destruct (Z.eqb_spec (zlen N) 16) as [H|H].
        - assert (length N = 16)%nat as L16 by (unfold zlen in H; lia). rewrite L16. change (16 / 16)%nat with 1%nat. change (seq 0 1) with [0%nat]. cbn [map xors fold_right].
          change ((16 =? 0)%nat || negb (16 mod 16 =? 0)%nat) with false. cbv iota. change (Z.of_nat 0 + 1) with 1.
          assert (block N 0 = N) as -> by (unfold block; cbn [skipn Nat.mul]; apply firstn_all2; lia).
          rewrite (tbc_hash I J L R 4 1 (vxor (times 2 L) (times 8 J))) by (auto; reflexivity). change xorb_list with vxor. apply vxor_zero_r, B4; [apply blk_xor; auto|].
          split; [exact L16|exact BN].
        - assert (length N < 16)%nat as L16 by (unfold zlen in H; lia). rewrite Nat.div_small by exact L16. cbn [seq map xors fold_right].
          assert ((length N =? 0)%nat || negb (length N mod 16 =? 0)%nat = true) as ->.
          { rewrite Nat.mod_small by exact L16. destruct (length N =? 0)%nat; reflexivity. }
          rewrite Nat.mul_0_r. cbn [skipn]. rewrite (tbc_hash I J L R 4 0 (times 2 L)); [|auto|].
          + change (zeros 16) with zero. change xorb_list with vxor. apply vxor_zero_l, B4; [auto|apply (blk_pad10 R R_blk); assumption].
          + change (times (2 ^ (4 - 3)) L) with (times 2 L). change (0 =? 0) with true. cbv iota. apply vxor_zero_r. auto. }
      assert (hash_string R I J L (3 + 1 + 1) [] = aes4 R (vxor (times 4 L) p80) J I L (times 4 L)) as ->.
      { change (3 + 1 + 1) with 5. change (hash_string R I J L 5 []) with (vxor zero (tbc 5 0 (pad10 []))). change (pad10 []) with p80.
        rewrite (tbc_hash I J L R 5 0 (times 4 L)); [|auto|].
        - apply vxor_zero_l, B4; auto.
        - change (times (2 ^ (5 - 3)) L) with (times 4 L). change (0 =? 0) with true. cbv iota. apply vxor_zero_r. auto. }
      change xorb_list with vxor. change (zeros 16) with zero. rewrite (vxor_zero_r (aes4 R (vxor (times 4 L) p80) J I L (times 4 L))) by (apply B4; auto).
      reflexivity. }
    split.
    - rewrite EH, !vxor_assoc. reflexivity.
    - rewrite EH. apply blk_xor; [apply B4; [exact Bo1|exact Bta]|apply blk_xor; apply B4; auto].
  Qed.

  (** deciphering and enciphering of non-empty strings with the tweak of [a] and N *)
  Lemma cipher_ok (a : nat) N d l : d = 0 \/ d = 1 -> (a <= 16)%nat -> is_bytes N -> zlen N <= 16 -> is_bytes l -> zlen l < 2 ^ 32 ->
    let t := hash R I J L (tweak_of a N) in
    exists l', is_bytes l' /\ zlen l' = zlen l /\
      (forall dst, is_bytes dst -> zlen dst = zlen l -> run R c t d l dst = Ok (0, l')) /\
      (forall dst, is_bytes dst -> zlen dst = zlen l -> run R c t (1 - d) l' dst = Ok (0, l)).
  Proof using K R_blk.
    intros Hd Ha BN LN Bl Ll t. pose proof (key_ctx_ok _ _ _ _ K) as Hc. destruct (hash_spec_a a N Ha BN LN) as [_ Bt].
    apply (run_ok R R_blk c Hc t d l Hd Bt Bl Ll).
  Qed.
  Lemma run_encipher (a : nat) N l X dst : (a <= 16)%nat -> is_bytes N -> zlen N <= 16 -> is_bytes l -> zlen l < 2 ^ 32 -> is_bytes dst -> zlen dst = zlen l ->
    run R c (hash R I J L (tweak_of a N)) 0 l dst = Ok (0, X) -> X = encipher R I J L (tweak_of a N) l.
  Proof using K R_blk.
    intros Ha BN LN Bl Ll Bd Ld. pose proof (key_ctx_ok _ _ _ _ K) as Hc. destruct (hash_spec_a a N Ha BN LN) as [_ Bt]. unfold run, encipher.
    set (t := hash R I J L (tweak_of a N)) in *. unfold zlen at 1 2. destruct (Nat.eqb_spec (length l) 0) as [E|E].
    - replace (Z.of_nat (length l) =? 0) with true by lia. intros H; injection H as <-. destruct dst; [reflexivity|unfold zlen in Ld; cbn in Ld; lia].
    - replace (Z.of_nat (length l) =? 0) with false by lia. destruct (Nat.ltb_spec (length l) 32) as [E3|E3].
      + replace (Z.of_nat (length l) <? 32) with true by lia. rewrite (tiny_ok R R_blk c Hc) by (auto; lia). intros H; injection H as <-.
        apply (tiny_spec I J L c K R R_blk); (assumption || lia).
      + replace (Z.of_nat (length l) <? 32) with false by lia. destruct (msg_split R R_blk l Bl ltac:(unfold zlen; lia)) as (mm & -> & Hm).
        rewrite (core_ok R R_blk c Hc) by (auto; lia). intros H; injection H as <-. apply (core_spec I J L c K R R_blk); assumption.
  Qed.

  Lemma seal_ok (a : nat) N P g dst : (a <= 16)%nat -> is_bytes N -> zlen N <= 16 -> is_bytes P -> is_bytes g -> Z.of_nat a <= zlen g ->
    zlen P + Z.of_nat a < 2 ^ 32 -> is_bytes dst -> zlen dst = zlen P + Z.of_nat a ->
    aez_encrypt_a R c N (zlen N) (Z.of_nat a) (P ++ g) (zlen P) dst = Ok (seal R I J L a N P) /\
    is_bytes (seal R I J L a N P) /\ zlen (seal R I J L a N P) = zlen P + Z.of_nat a.
  Proof using K R_blk.
    intros Ha BN LN BP Bg Lg Hmax Bd Ld. pose proof (key_ctx_ok _ _ _ _ K) as Hc. destruct (hash_spec_a a N Ha BN LN) as [Eh Bt].
    unfold aez_encrypt_a, seal. rewrite Eh. cbn [bind]. set (t := hash R I J L (tweak_of a N)) in *.
    unfold zlen at 1. destruct (Nat.eqb_spec (length P) 0) as [E|E].
    { replace (Z.of_nat (length P) =? 0) with true by lia.
      assert (aes R c t (vxor (cJ0 c) (cJ1 c)) = tbc (-1) 3 t) as ->.
      { rewrite (tbc_m I J L c K). f_equal. pose proof K as [_ _ _ F0 F1 _ _ _ HJ _]. rewrite F0, F1. destruct (times_2_4 J HJ) as [-> _]. apply vxor_comm. }
      pose proof (blk_tbcm I J L c K R R_blk 3 t Bt) as B3.
      assert (zlen (firstn a (tbc (-1) 3 t)) = Z.of_nat a) as L3 by (unfold zlen; rewrite firstn_length, (blk_len _ B3); lia).
      rewrite rd_ok by (rewrite ?(blk_zlen _ B3); lia). cbn [bind]. unfold window. change (Z.to_nat 0) with 0%nat. cbn [skipn]. rewrite Nat2Z.id.
      assert (zlen P = 0) as ZP by (unfold zlen; lia).
      split; [apply wr_all; lia|]. split; [apply is_bytes_firstn, B3|lia]. }
    replace (Z.of_nat (length P) =? 0) with false by lia.
    assert (u32 (zlen P + Z.of_nat a) = zlen (P ++ zeros a)) as EU.
    { rewrite zlen_app, zlen_zeros. unfold u32. pose proof (zlen_nonneg P). rewrite Z.mod_small; lia. }
    assert (is_bytes (P ++ zeros a)) as BPz by (apply is_bytes_app; split; [assumption|apply is_bytes_zeros]).
    assert (zlen (P ++ zeros a) = zlen P + Z.of_nat a) as LPz by (rewrite zlen_app, zlen_zeros; reflexivity).
    rewrite EU.
    destruct (cipher_ok a N 0 (P ++ zeros a) (or_introl eq_refl) Ha BN LN BPz ltac:(lia)) as (X & BX & LX & EX & _). fold t in EX.
    specialize (EX dst Bd ltac:(lia)).
    pose proof (run_encipher a N (P ++ zeros a) X dst Ha BN LN BPz ltac:(lia) Bd ltac:(lia) EX) as <-.
    split; [|split; [exact BX|lia]]. revert EX. unfold run. assert (1 <= zlen P) as LP1 by (unfold zlen; lia).
    replace (zlen (P ++ zeros a) =? 0) with false by lia. destruct (Z.ltb_spec (zlen (P ++ zeros a)) 32) as [H|H].
    - intros EX. rewrite tiny_a_enc by (try assumption; unfold zlen in *; rewrite app_length, zeros_length in *; lia). rewrite EX. reflexivity.
    - intros EX. destruct (msg_split R R_blk (P ++ zeros a) BPz H) as ([[[ps f] f0] f1] & EM & HM). pose proof HM as (Hp & Hf & Hl & H0 & H1).
      assert (exists f1', f1 = f1' ++ zeros a /\ P = flat ps ++ f ++ f0 ++ f1') as (f1' & E1 & EP).
      { exists (firstn (16 - a) f1). assert (length (skipn (16 - a) f1) = length (zeros a)) as L2 by (rewrite skipn_length, zeros_length, (blk_len _ H1); lia).
        assert (P ++ zeros a = (flat ps ++ f ++ f0 ++ firstn (16 - a) f1) ++ skipn (16 - a) f1) as E2.
        { rewrite EM. cbn [msg]. rewrite <- !app_assoc, firstn_skipn. reflexivity. }
        apply app_inj_len in E2; [|apply (f_equal (@length Z)) in E2; rewrite (app_length P), (app_length _ (skipn _ f1)), L2 in E2; lia]. destruct E2 as [E2 E3]. split; [|exact E2]. rewrite E3. symmetry. apply firstn_skipn. }
      assert (length f1' = (16 - a)%nat) as L1' by (pose proof (blk_len _ H1) as Q; rewrite E1, app_length, zeros_length in Q; lia).
      rewrite EM in LPz.
      destruct (core_a_ok R R_blk c Hc t 0 a ps f f0 f1 (f1' ++ g) dst (or_introl eq_refl) Ha Bt HM Bd) as (junk & EC).
      + change (0 =? 0) with true. cbv iota. lia.
      + lia.
      + apply is_bytes_app. split; [|exact Bg]. rewrite EP in BP. rewrite !is_bytes_app in BP. apply BP.
      + rewrite zlen_app. unfold zlen at 1. lia.
      + change (0 =? 0) with true. cbv iota. rewrite E1. f_equal. rewrite firstn_app, L1', Nat.sub_diag, firstn_all2 by lia. apply app_nil_r.
      + change (0 =? 0) with true in EC. cbv zeta iota in EC. change (negb true && _) with false in EC. cbv iota in EC.
        replace (P ++ g) with (flat ps ++ f ++ f0 ++ f1' ++ g) by (rewrite EP, <- !app_assoc; reflexivity).
        replace (zlen P) with (zlen (msg (ps, f, f0, f1)) - Z.of_nat a) by lia. rewrite EC. cbn [bind].
        rewrite EM, (core_ok R R_blk c Hc) in EX by (auto; lia).
        assert (X = msg (core_val R c t 0 (ps, f, f0, f1))) as -> by (remember (msg (core_val R c t 0 (ps, f, f0, f1))) as Q; congruence).
        f_equal. apply firstn_all2. pose proof (core_val_ok R R_blk c Hc t 0 (ps, f, f0, f1) Bt HM) as [_ Lv]. rewrite Lv. unfold zlen in *. lia.
  Qed.

  (** deciphering *)
  Lemma open_ok (a : nat) N C dst : (a <= 16)%nat -> is_bytes N -> zlen N <= 16 -> is_bytes C -> Z.of_nat a < zlen C -> zlen C < 2 ^ 32 ->
    is_bytes dst -> zlen dst = zlen C - Z.of_nat a -> exists X junk, is_bytes X /\ zlen X = zlen C /\ C = encipher R I J L (tweak_of a N) X /\
    aez_decrypt_a R c N (zlen N) (Z.of_nat a) C (zlen C) dst
    = if is_zero (skipn (length C - a) X) then Ok (0, firstn (length C - a) X) else Ok (-1, junk).
  Proof using K R_blk.
    intros Ha BN LN BC LC Hmax Bd Ld. pose proof (key_ctx_ok _ _ _ _ K) as Hc. destruct (hash_spec_a a N Ha BN LN) as [Eh Bt].
    destruct (cipher_ok a N 1 C (or_intror eq_refl) Ha BN LN BC Hmax) as (X & BX & LX & E1 & E2). set (t := hash R I J L (tweak_of a N)) in *.
    change (1 - 1) with 0 in E2. specialize (E2 C BC eq_refl). specialize (E1 C BC eq_refl).
    pose proof (run_encipher a N X C C Ha BN LN BX ltac:(lia) BC ltac:(lia) E2) as EC. clear E2.
    assert (zlen C = Z.of_nat (length C)) as ZC by reflexivity. assert (zlen X = Z.of_nat (length X)) as ZX by reflexivity.
    unfold aez_decrypt_a. rewrite Eh. cbn [bind]. fold t. replace (zlen C <? Z.of_nat a) with false by lia. replace (zlen C =? Z.of_nat a) with false by lia.
    revert E1. unfold run. replace (zlen C =? 0) with false by lia. destruct (Z.ltb_spec (zlen C) 32) as [H|H]; intros E1.
    - exists X, dst. split; [exact BX|]. split; [exact LX|]. split; [exact EC|].
      apply (tiny_a_dec R c t C a dst X C); try assumption; try reflexivity; lia.
    - destruct (msg_split R R_blk C BC H) as ([[[ps f] f0] f1] & EM & HM). pose proof HM as (Hp & Hf & Hl & H0 & H1).
      rewrite EM in E1. rewrite (core_ok R R_blk c Hc) in E1 by (auto; try (rewrite <- EM; assumption); rewrite <- EM; lia).
      assert (X = msg (core_val R c t 1 (ps, f, f0, f1))) as EXv by (remember (msg (core_val R c t 1 (ps, f, f0, f1))) as Q; congruence).
      destruct (core_a_ok R R_blk c Hc t 1 a ps f f0 f1 f1 dst (or_intror eq_refl) Ha Bt HM Bd) as (junk & Q).
      + rewrite <- EM. exact Ld.
      + rewrite <- EM. exact Hmax.
      + apply H1.
      + rewrite (blk_zlen _ H1). lia.
      + change (1 =? 0) with false. cbv iota. apply firstn_all2. rewrite (blk_len _ H1). lia.
      + change (1 =? 0) with false in Q. cbv zeta iota in Q. cbn [negb andb] in Q. rewrite <- EXv in Q.
        change (flat ps ++ f ++ f0 ++ f1) with (msg (ps, f, f0, f1)) in Q. rewrite <- EM, Z.sub_0_r in Q.
        exists X, junk. split; [exact BX|]. split; [exact LX|]. split; [exact EC|].
        rewrite Q. replace (length X) with (length C) by lia. replace (length dst) with (length C - a)%nat by (unfold zlen in Ld; lia).
        destruct (is_zero (skipn (length C - a) X)); reflexivity.
  Qed.
End All.

Lemma is_zero_spec x : is_zero x = true <-> x = zeros (length x).
Proof.
  unfold is_zero. induction x as [|b x IH]; [split; reflexivity|]. cbn [forallb length zeros repeat]. rewrite andb_true_iff, IH, Z.eqb_eq. unfold zeros. split.
  - intros [-> ->]. rewrite repeat_length. reflexivity.
  - intros H. injection H as -> H. auto.
Qed.
Lemma bits_below_cons x y b c : bits_below (b :: x) (c :: y) <-> (forall k, Z.testbit b k = true -> Z.testbit c k = true) /\ bits_below x y.
Proof.
  unfold bits_below. cbn [length]. split.
  - intros [E H]. split; [exact (H 0%nat)|]. split; [lia|]. intros i. exact (H (S i)).
  - intros [H [E H']]. split; [lia|]. intros [|i]; [exact H|apply H'].
Qed.
Lemma vandnot_zero x y : is_bytes x -> is_bytes y -> length x = length y -> is_zero (vandnot y x) = true <-> bits_below x y.
Proof.
  revert y. induction x as [|b x IH]; intros [|c y] Bx By E; try discriminate.
  - split; [|reflexivity]. intros _. split; [reflexivity|]. intros [|i] k H; cbn [nth] in H; rewrite Z.bits_0 in H; discriminate.
  - inversion Bx as [|? ? Bb Bx']; inversion By as [|? ? Bc By']; subst. injection E as E.
    rewrite bits_below_cons, <- (IH y Bx' By' E). unfold vandnot, is_zero. cbn [zipw forallb]. rewrite andb_true_iff, Z.eqb_eq. apply and_iff_compat_r. split.
    + intros H k Hk. apply (f_equal (fun z => Z.testbit z k)) in H. rewrite Z.land_spec, Z.lxor_spec, Hk, Z.bits_0, andb_true_r in H.
      assert (0 <= k < 8) as Hk8.
      { unfold is_byte in Bb. destruct (Z.neg_nonneg_cases k) as [N|N]; [rewrite Z.testbit_neg_r in Hk by exact N; discriminate|]. split; [exact N|].
        destruct (Z.lt_ge_cases k 8) as [G|G]; [exact G|]. exfalso. destruct (Z.eq_dec b 0) as [->|NZ]; [rewrite Z.bits_0 in Hk; discriminate|].
        rewrite Z.bits_above_log2 in Hk; [discriminate|lia|]. apply Z.log2_lt_pow2; [lia|]. apply Z.lt_le_trans with (2 ^ 8); [lia|]. apply Z.pow_le_mono_r; lia. }
      change 255 with (Z.ones 8) in H. rewrite Z.ones_spec_low in H by exact Hk8. destruct (Z.testbit c k); [reflexivity|discriminate].
    + intros H. apply Z.bits_inj. intros k. rewrite Z.land_spec, Z.lxor_spec, Z.bits_0. specialize (H k).
      destruct (Z.testbit b k) eqn:Eb; [|apply andb_false_r]. rewrite (H eq_refl), andb_true_r.
      assert (0 <= k < 8) as Hk8.
      { unfold is_byte in Bb. destruct (Z.neg_nonneg_cases k) as [N|N]; [rewrite Z.testbit_neg_r in Eb by exact N; discriminate|]. split; [exact N|].
        destruct (Z.lt_ge_cases k 8) as [G|G]; [exact G|]. exfalso. destruct (Z.eq_dec b 0) as [->|NZ]; [rewrite Z.bits_0 in Eb; discriminate|].
        rewrite Z.bits_above_log2 in Eb; [discriminate|lia|]. apply Z.log2_lt_pow2; [lia|]. apply Z.lt_le_trans with (2 ^ 8); [lia|]. apply Z.pow_le_mono_r; lia. }
      change 255 with (Z.ones 8). rewrite Z.ones_spec_low by exact Hk8. reflexivity.
Qed.
Lemma zipw_zeros n : vandnot (zeros n) (zeros n) = zeros n.
Proof. unfold vandnot, zeros. induction n as [|n IH]; [reflexivity|]. cbn [repeat zipw]. rewrite IH. reflexivity. Qed.

(** the theorems of AezAuthProperties.v *)
Lemma auth_encrypt R I J L N (a : nat) : block_map R -> part I -> part J -> part L -> is_bytes N -> zlen N <= 16 -> (a <= 16)%nat ->
  exists c, aez_setup (I ++ J ++ L) = Ok c /\ forall P g dst, is_bytes P -> is_bytes g -> Z.of_nat a <= zlen g -> zlen P + Z.of_nat a <= UINT_MAX ->
    buffer (zlen P + Z.of_nat a) dst -> aez_encrypt_a R c N (zlen N) (Z.of_nat a) (P ++ g) (zlen P) dst = Ok (seal R I J L a N P).
Proof.
  intros HR HI HJ HL BN LN Ha. pose proof (block_map_blk R HR) as RB. apply part_blk in HI, HJ, HL.
  destruct (setup_key I J L HI HJ HL) as (c & Ec & K). exists c. split; [exact Ec|].
  intros P g dst BP Bg Lg Hm [Bd Ld]. unfold UINT_MAX in Hm. apply (seal_ok I J L c K R RB); (assumption || lia).
Qed.
Lemma auth_decrypt R I J L N (a : nat) : block_map R -> part I -> part J -> part L -> is_bytes N -> zlen N <= 16 -> (a <= 16)%nat ->
  exists c, aez_setup (I ++ J ++ L) = Ok c /\ forall C dst, is_bytes C -> zlen C <> Z.of_nat a -> zlen C <= UINT_MAX -> buffer (Z.max 0 (zlen C - Z.of_nat a)) dst ->
    (exists P, is_bytes P /\ zlen P = zlen C - Z.of_nat a /\ C = seal R I J L a N P /\ aez_decrypt_a R c N (zlen N) (Z.of_nat a) C (zlen C) dst = Ok (0, P)) \/
    ((forall P, is_bytes P -> zlen P + Z.of_nat a <= UINT_MAX -> C <> seal R I J L a N P) /\ exists junk, aez_decrypt_a R c N (zlen N) (Z.of_nat a) C (zlen C) dst = Ok (-1, junk)).
Proof.
  intros HR HI HJ HL BN LN Ha. pose proof (block_map_blk R HR) as RB. apply part_blk in HI, HJ, HL.
  destruct (setup_key I J L HI HJ HL) as (c & Ec & K). exists c. split; [exact Ec|].
  intros C dst BC LC Hm [Bd Ld]. unfold UINT_MAX in *.
  assert (forall P, is_bytes P -> zlen P + Z.of_nat a <= 2 ^ 32 - 1 -> is_bytes (seal R I J L a N P) /\ zlen (seal R I J L a N P) = zlen P + Z.of_nat a) as HS.
  { intros P BP LP. apply (seal_ok I J L c K R RB a N P (zeros a) (zeros (length P + a))); try assumption; try apply is_bytes_zeros; try lia.
    - rewrite zlen_zeros. lia.
    - rewrite zlen_zeros. unfold zlen. lia. }
  destruct (Z.lt_ge_cases (zlen C) (Z.of_nat a)) as [H|H].
  { right. split.
    - intros P BP LP ->. destruct (HS P BP LP) as [_ E]. pose proof (zlen_nonneg P). lia.
    - exists dst. unfold aez_decrypt_a. replace (zlen C <? Z.of_nat a) with true by lia. reflexivity. }
  destruct (open_ok I J L c K R RB a N C dst Ha BN LN BC ltac:(lia) ltac:(lia) Bd ltac:(lia)) as (X & junk & BX & LX & EC & ED).
  assert (length X = length C) as LXn by (unfold zlen in LX; lia). assert (a < length C)%nat as LCn by (unfold zlen in *; lia).
  rewrite ED. destruct (is_zero (skipn (length C - a) X)) eqn:EZ.
  - left. exists (firstn (length C - a) X). split; [apply is_bytes_firstn, BX|]. split; [unfold zlen; rewrite firstn_length; unfold zlen in *; lia|]. split; [|reflexivity].
    unfold seal. rewrite firstn_length. replace (Nat.min (length C - a) (length X) =? 0)%nat with false by (symmetry; apply Nat.eqb_neq; lia).
    rewrite EC at 1. f_equal. apply is_zero_spec in EZ. rewrite skipn_length in EZ. replace (length X - (length C - a))%nat with a in EZ by lia.
    rewrite <- EZ. symmetry. apply firstn_skipn.
  - right. split; [|exists junk; reflexivity]. intros P BP LP EP. destruct (HS P BP LP) as [_ LS]. rewrite <- EP in LS.
    assert (length P <> 0)%nat as NP by (unfold zlen in *; lia).
    unfold seal in EP. replace (length P =? 0)%nat with false in EP by (symmetry; apply Nat.eqb_neq; exact NP).
    assert (is_bytes (P ++ zeros a)) as BPz by (apply is_bytes_app; split; [assumption|apply is_bytes_zeros]).
    assert (zlen (P ++ zeros a) = zlen P + Z.of_nat a) as LPz by (rewrite zlen_app, zlen_zeros; reflexivity).
    destruct (cipher_ok I J L c K R RB a N 0 (P ++ zeros a) (or_introl eq_refl) Ha BN LN BPz ltac:(lia)) as (X1 & BX1 & LX1 & E1 & E2).
    destruct (cipher_ok I J L c K R RB a N 0 X (or_introl eq_refl) Ha BN LN BX ltac:(lia)) as (X2 & BX2 & LX2 & F1 & F2).
    specialize (E1 C BC ltac:(lia)). specialize (F1 C BC ltac:(lia)).
    pose proof (run_encipher I J L c K R RB a N _ _ _ Ha BN LN BPz ltac:(lia) BC ltac:(lia) E1) as Q1.
    pose proof (run_encipher I J L c K R RB a N _ _ _ Ha BN LN BX ltac:(lia) BC ltac:(lia) F1) as Q2.
    rewrite <- EP in Q1. rewrite <- EC in Q2. subst X1 X2.
    specialize (E2 C BC ltac:(lia)). specialize (F2 C BC ltac:(lia)). rewrite E2 in F2. injection F2 as F2.
    assert (skipn (length C - a) X = zeros a) as EZ'.
    { rewrite <- F2. rewrite skipn_app. replace (length C - a)%nat with (length P) by (unfold zlen in *; lia). rewrite Nat.sub_diag, skipn_all. reflexivity. }
    rewrite EZ' in EZ. assert (is_zero (zeros a) = true) by (apply is_zero_spec; rewrite zeros_length; reflexivity). congruence.
Qed.
Lemma auth_empty R I J L N (a : nat) : block_map R -> part I -> part J -> part L -> is_bytes N -> zlen N <= 16 -> (a <= 16)%nat ->
  exists c, aez_setup (I ++ J ++ L) = Ok c /\ forall C dst, is_bytes C -> zlen C = Z.of_nat a ->
    (bits_below C (seal R I J L a N []) -> aez_decrypt_a R c N (zlen N) (Z.of_nat a) C (zlen C) dst = Ok (0, dst)) /\
    (~ bits_below C (seal R I J L a N []) -> aez_decrypt_a R c N (zlen N) (Z.of_nat a) C (zlen C) dst = Ok (-1, dst)).
Proof.
  intros HR HI HJ HL BN LN Ha. pose proof (block_map_blk R HR) as RB. apply part_blk in HI, HJ, HL.
  destruct (setup_key I J L HI HJ HL) as (c & Ec & K). exists c. split; [exact Ec|].
  intros C dst BC LC. destruct (hash_spec_a I J L c K R RB a N Ha BN LN) as [Eh Bt]. unfold seal. change (length (@nil Z) =? 0)%nat with true. cbv iota.
  set (t := hash R I J L (tweak_of a N)) in *.
  assert (aes R c t (vxor (cJ0 c) (cJ1 c)) = tbc R I J L (-1) 3 t) as E3.
  { rewrite (tbc_m I J L c K). f_equal. pose proof K as [_ _ _ F0 F1 _ _ _ HJ' _]. rewrite F0, F1. destruct (times_2_4 J HJ') as [-> _]. apply vxor_comm. }
  pose proof (blk_tbcm I J L c K R RB 3 t Bt) as B3. set (tag := tbc R I J L (-1) 3 t) in *.
  assert (length C = a) as LCn by (unfold zlen in LC; lia).
  assert (blk (C ++ zeros (16 - a))) as BCz by (split; [rewrite app_length, zeros_length; lia|apply is_bytes_app; split; [assumption|apply is_bytes_zeros]]).
  assert (aez_decrypt_a R c N (zlen N) (Z.of_nat a) C (zlen C) dst = Ok ((if is_zero (vandnot (firstn a tag) C) then 1 else 0) - 1, dst)) as E.
  { unfold aez_decrypt_a. rewrite LC, Z.ltb_irrefl, Z.eqb_refl, Eh. cbn [bind]. fold t. rewrite E3.
    assert (load_partial C 0 (Z.of_nat a) = Ok (C ++ zeros (16 - a))) as ->.
    { rewrite <- LCn at 2. apply (load_partial_ok [] C); [reflexivity|unfold zlen; lia|lia]. }
    cbn [bind]. rewrite !zero_pad_ok by assumption. cbn [bind].
    rewrite firstn_app, LCn, Nat.sub_diag, (firstn_all2 C) by lia. cbn [firstn]. rewrite app_nil_r.
    assert (vandnot (firstn a tag ++ zeros (16 - a)) (C ++ zeros (16 - a)) = vandnot (firstn a tag) C ++ zeros (16 - a)) as ->.
    { unfold vandnot. rewrite zipw_app by (rewrite firstn_length, (blk_len _ B3); lia). f_equal. apply zipw_zeros. }
    unfold is_zero. rewrite forallb_app. replace (forallb (fun b => b =? 0) (zeros (16 - a))) with true; [rewrite andb_true_r; reflexivity|].
    symmetry. apply is_zero_spec. rewrite zeros_length. reflexivity. }
  rewrite E. assert (is_zero (vandnot (firstn a tag) C) = true <-> bits_below C (firstn a tag)) as V.
  { apply vandnot_zero; [exact BC|apply is_bytes_firstn, B3|rewrite firstn_length, (blk_len _ B3); lia]. }
  destruct (is_zero (vandnot (firstn a tag) C)); split; intros H; try reflexivity.
  - exfalso. apply H, V. reflexivity.
  - apply V in H. discriminate.
Qed.
