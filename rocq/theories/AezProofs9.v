(** The offsets of the two passes and the long messages of aez.c against AezSpec.v. *)
From Verif Require Import Base BaseFacts AezModel AezProofs AezProofs2 AezProofs3 AezProofs4 AezProofs5 AezProofs6 AezProofs7 PrpSpec PrpProofs AezSpec AezProofs8.
From Coq Require Import Lia.

(** the context made from the key I J L *)
Record key_ctx (I J L : bytes) (c : ctx) : Prop := {
  kI0 : cI0 c = I; kI1 : cI1 c = times 2 I; kI2 : cI2 c = times 4 I;
  kJ0 : cJ0 c = J; kJ1 : cJ1 c = times 2 J; kJ2 : cJ2 c = times 4 J; kL : cL c = L;
  kbI : blk I; kbJ : blk J; kbL : blk L }.
Lemma dbl_2 x : blk x -> dbl x = times 2 x.
Proof. intros H. rewrite <- (times_1 x H) at 1. rewrite dbl_times by (assumption || lia). reflexivity. Qed.
Lemma dbl_4 x : blk x -> dbl (times 2 x) = times 4 x.
Proof. intros H. rewrite dbl_times by (assumption || lia). reflexivity. Qed.
Lemma dbl_8 x : blk x -> dbl (times 4 x) = times 8 x.
Proof. intros H. rewrite dbl_times by (assumption || lia). reflexivity. Qed.
Lemma bswap_bswap x : bswap16 (bswap16 x) = x. Proof. apply rev_involutive. Qed.
Lemma setup_key I J L : blk I -> blk J -> blk L -> exists c, aez_setup (I ++ J ++ L) = Ok c /\ key_ctx I J L c.
Proof.
  intros HI HJ HL. unfold aez_setup.
  assert (load (I ++ J ++ L) 0 = Ok I) as ->.
  { unfold load. change (I ++ J ++ L) with ([] ++ I ++ J ++ L). apply rd_mid; [reflexivity|rewrite (blk_zlen _ HI); reflexivity]. }
  assert (load (I ++ J ++ L) 16 = Ok J) as ->.
  { unfold load. apply rd_mid; [rewrite (blk_zlen _ HI); reflexivity|rewrite (blk_zlen _ HJ); reflexivity]. }
  assert (load (I ++ J ++ L) 32 = Ok L) as ->.
  { unfold load. rewrite app_assoc, <- (app_nil_r L) at 1.
    apply rd_mid; [rewrite zlen_app, (blk_zlen _ HI), (blk_zlen _ HJ); reflexivity|rewrite (blk_zlen _ HL); reflexivity]. }
  cbn [bind]. cbv zeta. eexists. split; [reflexivity|].
  assert (forall x, blk x -> bswap16 (double_block (double_block (bswap16 x))) = times 4 x) as D4.
  { intros x H. rewrite <- dbl_4, <- (dbl_2 x) by assumption. unfold dbl. rewrite bswap_bswap. reflexivity. }
  constructor; cbn [cI0 cI1 cI2 cJ0 cJ1 cJ2 cL]; 
    [reflexivity|apply dbl_2, HI|apply D4, HI|reflexivity|apply dbl_2, HJ|apply D4, HJ|reflexivity|assumption|assumption|assumption].
Qed.
Lemma key_ctx_ok I J L c : key_ctx I J L c -> ctx_ok c.
Proof. intros []. 
  assert (forall k x, blk x -> blk (times k x)) as T by (intros; apply blk_times; assumption).
  constructor; [rewrite kI3; assumption|rewrite kI4; auto|rewrite kI5; auto|rewrite kJ3; assumption|rewrite kJ4; auto|rewrite kJ5; auto|rewrite kL0; assumption]. Qed.

(** the multipliers *)
Lemma mult_eq (q r : nat) : (r < 8)%nat -> mult (Z.of_nat (8 * q + 1 + r)) = 8 * 2 ^ Z.of_nat q + Z.of_nat r.
Proof.
  intros Hr. unfold mult. replace (Z.of_nat (8 * q + 1 + r) - 1) with (Z.of_nat r + Z.of_nat q * 8) by lia.
  rewrite Z.div_add, Z.mod_add, Z.div_small, Z.mod_small by lia. rewrite Z.pow_add_r by lia. reflexivity.
Qed.

Section Key.
  Variables I J L : bytes.
  Variable c : ctx.
  Hypothesis K : key_ctx I J L c.
  Definition off (i : nat) : bytes := times (mult (Z.of_nat i)) I.

  Lemma off_values q : let o := times (8 * 2 ^ Z.of_nat q) I in
    map off (seq (8 * q + 1) 8) =
    [o; vxor o (cI0 c); vxor o (cI1 c); vxor (vxor o (cI0 c)) (cI1 c); vxor o (cI2 c); vxor (vxor o (cI0 c)) (cI2 c); vxor (vxor o (cI1 c)) (cI2 c);
     vxor (vxor (vxor o (cI0 c)) (cI1 c)) (cI2 c)].
  Proof using K.
    destruct K as [E0 E1 E2 _ _ _ _ HI _ _]. intros o. rewrite E0, E1, E2.
    assert (forall r : nat, (r < 8)%nat -> off (8 * q + 1 + r) = vxor o (times (Z.of_nat r) I)) as T.
    { intros r Hr. unfold off. rewrite mult_eq by exact Hr. apply times_split; [exact HI|lia]. }
    assert (blk o) as Bo by (apply blk_times, HI).
    pose proof (T 0%nat ltac:(lia)) as T0. pose proof (T 1%nat ltac:(lia)) as T1. pose proof (T 2%nat ltac:(lia)) as T2. pose proof (T 3%nat ltac:(lia)) as T3.
    pose proof (T 4%nat ltac:(lia)) as T4. pose proof (T 5%nat ltac:(lia)) as T5. pose proof (T 6%nat ltac:(lia)) as T6. pose proof (T 7%nat ltac:(lia)) as T7.
    clear T. destruct (times_2_4 I HI) as (M3 & M5 & M6 & M7).
    change (Z.of_nat 0) with 0 in T0. change (Z.of_nat 1) with 1 in T1. change (Z.of_nat 2) with 2 in T2. change (Z.of_nat 3) with 3 in T3. change (Z.of_nat 4) with 4 in T4. change (Z.of_nat 5) with 5 in T5. change (Z.of_nat 6) with 6 in T6. change (Z.of_nat 7) with 7 in T7. rewrite M3 in T3. rewrite M5 in T5. rewrite M6 in T6. rewrite M7 in T7. rewrite (times_1 I HI) in T1.
    change (times 0 I) with zero in T0. rewrite vxor_zero_r in T0 by exact Bo. clearbody o.
    cbn [seq map].
    replace (8 * q + 1)%nat with (8 * q + 1 + 0)%nat at 1 by lia.
    replace (S (8 * q + 1)) with (8 * q + 1 + 1)%nat by lia.
    replace (S (8 * q + 1 + 1)) with (8 * q + 1 + 2)%nat by lia. replace (S (8 * q + 1 + 2)) with (8 * q + 1 + 3)%nat by lia.
    replace (S (8 * q + 1 + 3)) with (8 * q + 1 + 4)%nat by lia. replace (S (8 * q + 1 + 4)) with (8 * q + 1 + 5)%nat by lia.
    replace (S (8 * q + 1 + 5)) with (8 * q + 1 + 6)%nat by lia. replace (S (8 * q + 1 + 6)) with (8 * q + 1 + 7)%nat by lia.
    rewrite T0, T1, T2, T3, T4, T5, T6, T7. change xorb_list with vxor. rewrite !vxor_assoc.
    rewrite (vxor_comm (times 2 I) I), (vxor_comm (times 4 I) I), (vxor_comm (times 4 I) (times 2 I)), (vxor_comm (times 4 I) (vxor I (times 2 I))), vxor_assoc.
    reflexivity.
  Qed.

  Lemma off_firstn q m : (m <= 8)%nat -> map off (seq (8 * q + 1) m) = firstn m (map off (seq (8 * q + 1) 8)).
  Proof.
    intros H. rewrite firstn_map. f_equal. replace 8%nat with (m + (8 - m))%nat at 3 by lia.
    rewrite seq_app, firstn_app, seq_length, Nat.sub_diag, firstn_all2 by (rewrite seq_length; lia). cbn [firstn]. rewrite app_nil_r. reflexivity.
  Qed.
  Lemma tail_values q m : (m < 8)%nat -> concat (groups_tail c m (times (8 * 2 ^ Z.of_nat q) I)) = map off (seq (8 * q + 1) m).
  Proof using K.
    intros H. rewrite off_firstn, off_values by lia. cbv zeta. set (o := times _ I). clearbody o. clear K.
    destruct m as [|[|[|[|[|[|[|[|m]]]]]]]]; [..|lia]; unfold groups_tail, offs4, offs2; cbv zeta; cbn [Nat.leb Nat.sub Nat.eqb app concat firstn];
      try reflexivity.
    - rewrite (vxor_assoc o (cI2 c)), (vxor_comm (cI2 c)), <- vxor_assoc. reflexivity.
    - rewrite (vxor_assoc o (cI2 c) (cI0 c)), (vxor_comm (cI2 c) (cI0 c)), <- vxor_assoc.
      rewrite (vxor_assoc o (cI2 c) (cI1 c)), (vxor_comm (cI2 c) (cI1 c)), <- vxor_assoc. reflexivity.
  Qed.
  Lemma groups_values m k : (m < 8)%nat -> forall q d, bswap16 d = times (8 * 2 ^ Z.of_nat q) I -> concat (groups c k m d) = map off (seq (8 * q + 1) (8 * k + m)).
  Proof using K.
    intros Hm. induction k as [|k IH]; intros q d Hd.
    - cbn [groups]. rewrite Hd. apply tail_values. exact Hm.
    - cbn [groups concat]. replace (8 * S k + m)%nat with (8 + (8 * k + m))%nat by lia. rewrite seq_app, map_app. f_equal.
      + rewrite off_values, Hd. reflexivity.
      + replace (8 * q + 1 + 8)%nat with (8 * S q + 1)%nat by lia. apply IH.
        assert (d = bswap16 (times (8 * 2 ^ Z.of_nat q) I)) as -> by (rewrite <- Hd, bswap_bswap; reflexivity).
        change (bswap16 (double_block (bswap16 (times (8 * 2 ^ Z.of_nat q) I)))) with (dbl (times (8 * 2 ^ Z.of_nat q) I)).
        rewrite dbl_times by (apply K || lia). f_equal. rewrite Nat2Z.inj_succ, Z.pow_succ_r by lia. lia.
  Qed.
  Lemma offsets_values n : offsets c n = map off (seq 1 n).
  Proof using K.
    unfold offsets, sched. destruct (split8 n) as (k & m & Hn & Hm & -> & ->).
    rewrite (groups_values m k Hm 0); [rewrite Hn; reflexivity|].
    change (bswap16 (double_block (bswap16 (cI2 c)))) with (dbl (cI2 c)). destruct K as [_ _ E2 _ _ _ _ HI _ _]. rewrite E2, dbl_8 by exact HI. reflexivity.
  Qed.

  Variable R : bytes -> bytes.
  Hypothesis R_blk : forall x, blk x -> blk (R x).
  Local Notation A := (A R c).
  Local Notation F := (F R c).
  Local Notation tbc := (tbc R I J L).
  Lemma K_ctx : ctx_ok c. Proof using K. eapply key_ctx_ok. exact K. Qed.
  Lemma tbc_0 i X : blk X -> tbc 0 i X = A (vxor X (times i I)).
  Proof using K R_blk.
    intros H. pose proof K_ctx as Hc. pose proof (blk_A R R_blk c Hc) as BA. destruct K as [E0 _ _ F0 _ _ G0 HI HJ HL].
    change (tbc 0 i X) with (vxor (G R (vxor X (times i I)) J I L) zero). rewrite <- E0 at 2. rewrite <- F0, <- G0. apply vxor_zero_r, BA, blk_xor; [exact H|apply blk_times, HI].
  Qed.
  Lemma tbc_1 i X : blk X -> tbc 1 i X = A (vxor X (times (mult i) I)).
  Proof using K R_blk. intros H. exact (tbc_0 (mult i) X H). Qed.
  Lemma tbc_2 i X : tbc 2 i X = F (vxor X (times (mult i) I)).
  Proof using K. unfold AezProofs.F. destruct K as [E0 _ _ F0 _ _ G0 _ _ _]. rewrite E0, F0, G0. reflexivity. Qed.
  Lemma tbc_m i X : tbc (-1) i X = aes R c X (times i J).
  Proof using K. unfold aes. destruct K as [E0 _ _ F0 _ _ G0 _ _ _]. rewrite E0, F0, G0. reflexivity. Qed.
  Lemma blk_tbc0 i X : blk X -> blk (tbc 0 i X).
  Proof using K R_blk. intros H. rewrite tbc_0 by exact H. apply (blk_A R R_blk c K_ctx), blk_xor; [exact H|apply blk_times, K]. Qed.
  Lemma blk_tbc1 i X : blk X -> blk (tbc 1 i X).
  Proof using K R_blk. apply (blk_tbc0 (mult i)). Qed.
  Lemma blk_tbc2 i X : blk X -> blk (tbc 2 i X).
  Proof using K R_blk. intros H. rewrite tbc_2. apply (blk_F R R_blk c K_ctx), blk_xor; [exact H|apply blk_times, K]. Qed.
  Lemma blk_tbcm i X : blk X -> blk (tbc (-1) i X).
  Proof using K R_blk. intros H. rewrite tbc_m. apply (blk_aes R R_blk c _ _ K_ctx H). apply blk_times, K. Qed.
End Key.

(** * Blocks of a long message *)
Lemma block_at (p x q : bytes) i : length p = (16 * i)%nat -> blk x -> block (p ++ x ++ q) i = x.
Proof. intros Hp Hx. unfold block. rewrite skipn_app, <- Hp, Nat.sub_diag, skipn_all. cbn [skipn app]. apply firstn16, Hx. Qed.
Lemma pairs_of ps : Forall pblk ps -> forall a pre rest, length pre = (32 * a)%nat ->
  map (fun i => (block (pre ++ flat ps ++ rest) (2 * Z.to_nat i - 2), block (pre ++ flat ps ++ rest) (2 * Z.to_nat i - 1))) (map Z.of_nat (seq (a + 1) (length ps))) = ps.
Proof.
  induction 1 as [|[x y] ps [Hx Hy] Hps IH]; intros a pre rest Hpre; [reflexivity|].
  cbn [length seq map flat flat_map fst snd] in *. fold (flat ps). rewrite Nat2Z.id. f_equal.
  - f_equal.
    + rewrite <- !app_assoc. apply block_at; [lia|exact Hx].
    + replace (pre ++ ((x ++ y) ++ flat ps) ++ rest) with ((pre ++ x) ++ y ++ (flat ps ++ rest)) by (rewrite <- !app_assoc; reflexivity).
      apply block_at; [rewrite app_length, (blk_len _ Hx); lia|exact Hy].
  - specialize (IH (S a) (pre ++ x ++ y) rest). replace (S (a + 1)) with (S a + 1)%nat by lia.
    replace (pre ++ ((x ++ y) ++ flat ps) ++ rest) with ((pre ++ x ++ y) ++ flat ps ++ rest) by (rewrite <- !app_assoc; reflexivity).
    apply IH. rewrite !app_length, (blk_len _ Hx), (blk_len _ Hy). lia.
Qed.
Lemma map2_map {X Y V W} (f : Y -> V -> W) (g : X -> Y) (h : X -> V) l : map2 f (map g l) (map h l) = map (fun i => f (g i) (h i)) l.
Proof. induction l as [|x l IH]; [reflexivity|]. cbn [map map2]. rewrite IH. reflexivity. Qed.
Lemma sumx_xors l s : Forall blk l -> blk s -> sumx l s = xors l (+) s.
Proof.
  intros H. revert s. unfold sumx. induction H as [|x l Hx Hl IH]; intros s Hs.
  - cbn [fold_left xors fold_right]. symmetry. apply vxor_zero_l, Hs.
  - cbn [fold_left xors fold_right]. rewrite IH by (apply blk_xor; assumption). fold (xors l). change xorb_list with vxor.
    rewrite <- vxor_assoc, (vxor_comm (xors l) s), (vxor_comm x (xors l)). rewrite (vxor_comm s (xors l)), !vxor_assoc, (vxor_comm s x). reflexivity.
Qed.
Lemma blk_xors_list l : Forall blk l -> blk (xors l).
Proof. induction 1 as [|x l Hx Hl IH]; [apply blk_zero|]. cbn [xors fold_right]. fold (xors l). apply blk_xor; assumption. Qed.
Lemma pad10_padn x : (length x < 16)%nat -> pad10 x = x ++ padn (length x).
Proof.
  intros H. unfold pad10, padn. f_equal. replace (16 - length x)%nat with (S (15 - length x)) by lia. cbn [firstn]. f_equal.
  unfold zeros.
  assert (repeat 0 15 = repeat 0 (15 - length x) ++ repeat 0 (length x)) as -> by (rewrite <- repeat_app; f_equal; lia).
  rewrite firstn_app, repeat_length, Nat.sub_diag, firstn_all2 by (rewrite repeat_length; lia). cbn [firstn]. symmetry. apply app_nil_r.
Qed.
