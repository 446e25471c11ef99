(** Proofs about the padding functions and cipher_aez_core. *)
From Verif Require Import Base BaseFacts AezModel AezProofs.
From Coq Require Import Lia.

Lemma land_ff x : is_byte x -> Z.land x 255 = x.
Proof. intros H. unfold is_byte in H. change 255 with (Z.ones 8). rewrite Z.land_ones by lia. change (2 ^ 8) with 256. lia. Qed.
Lemma zipw_length f a b : length (zipw f a b) = Nat.min (length a) (length b).
Proof. revert b; induction a as [|x a IH]; intros [|y b]; simpl; try reflexivity. rewrite IH. reflexivity. Qed.
Lemma zipw_app f a b a' b' : length a = length b -> zipw f (a ++ a') (b ++ b') = zipw f a b ++ zipw f a' b'.
Proof. revert b; induction a as [|x a IH]; intros [|y b] H; simpl in *; try discriminate; [reflexivity|]. rewrite IH by lia. reflexivity. Qed.
Lemma zipw_bytes f a b : (forall x y, is_byte x -> is_byte y -> is_byte (f x y)) -> is_bytes a -> is_bytes b -> is_bytes (zipw f a b).
Proof.
  intros Hf Ha; revert b; induction Ha as [|x a Hx Ha IH]; intros b Hb; simpl; [constructor|].
  destruct Hb; constructor; [apply Hf; assumption|]. apply IH. assumption.
Qed.
Lemma vand_ff a n : is_bytes a -> length a = n -> vand a (repeat 255 n) = a.
Proof.
  intros Ha <-. induction Ha as [|x a Hx Ha IH]; [reflexivity|]. unfold vand in *. cbn [length repeat zipw]. rewrite IH, land_ff by assumption. reflexivity.
Qed.
Lemma vand_0 a n : length a = n -> vand a (zeros n) = zeros n.
Proof.
  intros <-. induction a as [|x a IH]; [reflexivity|]. unfold vand, zeros in *. cbn [length repeat zipw]. rewrite IH, Z.land_0_r. reflexivity.
Qed.
Lemma vor_0_r a n : length a = n -> vor a (zeros n) = a.
Proof.
  intros <-. induction a as [|x a IH]; [reflexivity|]. unfold vor, zeros in *. cbn [length repeat zipw]. rewrite IH, Z.lor_0_r. reflexivity.
Qed.
Lemma vor_0_l a n : length a = n -> vor (zeros n) a = a.
Proof.
  intros <-. induction a as [|x a IH]; [reflexivity|]. unfold vor, zeros in *. cbn [length repeat zipw]. rewrite IH, Z.lor_0_l. reflexivity.
Qed.
Lemma is_byte_land x y : is_byte x -> is_byte y -> is_byte (Z.land x y).
Proof.
  unfold is_byte. intros Hx Hy. assert (0 <= Z.land x y) by (apply Z.land_nonneg; lia).
  split; [assumption|]. rewrite <- (Z.mod_small x 256), <- (Z.mod_small y 256) by lia.
  change 256 with (2 ^ 8). rewrite <- !Z.land_ones by lia.
  replace (Z.land (Z.land x (Z.ones 8)) (Z.land y (Z.ones 8))) with (Z.land (Z.land x y) (Z.ones 8)).
  - rewrite Z.land_ones by lia. apply Z.mod_pos_bound. reflexivity.
  - rewrite <- (Z.land_diag (Z.ones 8)) at 1. rewrite !Z.land_assoc, <- (Z.land_assoc x y), (Z.land_comm y (Z.ones 8)), Z.land_assoc. reflexivity.
Qed.
Lemma is_byte_lor x y : is_byte x -> is_byte y -> is_byte (Z.lor x y).
Proof.
  unfold is_byte. intros Hx Hy. assert (0 <= Z.lor x y) by (apply Z.lor_nonneg; lia).
  split; [assumption|]. rewrite <- (Z.mod_small x 256), <- (Z.mod_small y 256) by lia.
  change 256 with (2 ^ 8). rewrite <- !Z.land_ones by lia. rewrite <- Z.land_lor_distr_l.
  rewrite Z.land_ones by lia. apply Z.mod_pos_bound. reflexivity.
Qed.
Lemma blk_vand x y : blk x -> blk y -> blk (vand x y).
Proof. intros [L1 B1] [L2 B2]. split; [unfold vand; rewrite zipw_length; lia|]. apply zipw_bytes; [apply is_byte_land| |]; assumption. Qed.
Lemma blk_vor x y : blk x -> blk y -> blk (vor x y).
Proof. intros [L1 B1] [L2 B2]. split; [unfold vor; rewrite zipw_length; lia|]. apply zipw_bytes; [apply is_byte_lor| |]; assumption. Qed.

(** the masks at the end of pad *)
Definition padn (k : nat) : bytes := firstn (16 - k) (128 :: zeros 15).
Definition norm (k : nat) (x : bytes) : bytes := firstn k x ++ padn k.
Lemma load_ff (k : nat) : (k <= 16)%nat -> load pad (16 - Z.of_nat k) = Ok (repeat 255 k ++ zeros (16 - k)).
Proof. intros H. do 17 (destruct k as [|k]; [vm_compute; reflexivity|]). lia. Qed.
Lemma load_10 (k : nat) : (k <= 16)%nat -> load pad (32 - Z.of_nat k) = Ok (zeros k ++ padn k).
Proof. intros H. do 17 (destruct k as [|k]; [vm_compute; reflexivity|]). lia. Qed.
Lemma padn_length k : (k <= 16)%nat -> length (padn k) = (16 - k)%nat.
Proof. intros. unfold padn. rewrite firstn_length. change (length (128 :: zeros 15)) with 16%nat. lia. Qed.
Lemma padn_bytes k : is_bytes (padn k).
Proof. apply is_bytes_firstn. constructor; [unfold is_byte; lia|apply is_bytes_zeros]. Qed.
Lemma norm_blk k x : (k <= 16)%nat -> blk x -> blk (norm k x).
Proof.
  intros Hk [L B]. unfold norm. split; [rewrite app_length, padn_length, firstn_length by assumption; lia|].
  apply is_bytes_app. split; [apply is_bytes_firstn, B|apply padn_bytes].
Qed.
Lemma one_zero_pad_norm k x : (k <= 16)%nat -> blk x -> one_zero_pad x (16 - Z.of_nat k) = Ok (norm k x).
Proof.
  intros Hk [L B]. unfold one_zero_pad. rewrite load_ff by assumption. cbn [bind].
  replace (16 - Z.of_nat k + 16) with (32 - Z.of_nat k) by lia. rewrite load_10 by assumption. cbn [bind]. f_equal.
  unfold norm. rewrite <- (firstn_skipn k x) at 1. unfold vand. rewrite zipw_app by (rewrite repeat_length, firstn_length; lia).
  unfold vor. rewrite zipw_app by (rewrite zipw_length, repeat_length, zeros_length, firstn_length; lia).
  fold vor vand. assert (length (firstn k x) = k) as Lk by (rewrite firstn_length; lia).
  rewrite vand_ff, vand_0; [|rewrite skipn_length; lia|apply is_bytes_firstn, B|exact Lk].
  rewrite vor_0_r, vor_0_l; [reflexivity|apply padn_length, Hk|exact Lk].
Qed.
Lemma zero_pad_ok k x : (k <= 16)%nat -> blk x -> zero_pad x (16 - Z.of_nat k) = Ok (firstn k x ++ zeros (16 - k)).
Proof.
  intros Hk [L B]. unfold zero_pad. rewrite load_ff by assumption. cbn [bind]. f_equal.
  rewrite <- (firstn_skipn k x) at 1. unfold vand. rewrite zipw_app by (rewrite repeat_length, firstn_length; lia).
  fold vand. assert (length (firstn k x) = k) as Lk by (rewrite firstn_length; lia).
  rewrite vand_ff, vand_0; [reflexivity|rewrite skipn_length; lia|apply is_bytes_firstn, B|exact Lk].
Qed.
Lemma norm_firstn k x : (k <= length x)%nat -> firstn k (norm k x) = firstn k x.
Proof.
  intros. unfold norm. rewrite firstn_app, firstn_firstn, Nat.min_id, firstn_length.
  replace (k - Nat.min k (length x))%nat with 0%nat by lia. simpl. apply app_nil_r.
Qed.
Lemma norm_ext k x y : firstn k x = firstn k y -> norm k x = norm k y.
Proof. unfold norm. intros ->. reflexivity. Qed.

Lemma firstn16 (u v : bytes) : length u = 16%nat -> firstn 16 (u ++ v) = u.
Proof. intros H. rewrite firstn_app, H, Nat.sub_diag, firstn_all2 by lia. apply app_nil_r. Qed.
Lemma skipn16 (u v : bytes) : length u = 16%nat -> skipn 16 (u ++ v) = v.
Proof. intros H. rewrite skipn_app, H, Nat.sub_diag, skipn_all2 by lia. reflexivity. Qed.

Definition f1of (f : bytes) : bytes := skipn 16 f ++ padn (length f - 16).
Definition f0of (f : bytes) : bytes := f ++ padn (length f).
Lemma blk_f1of f : is_bytes f -> (16 <= length f < 32)%nat -> blk (f1of f).
Proof.
  intros Hb Hf. unfold f1of. split; [rewrite app_length, skipn_length, padn_length by lia; lia|].
  apply is_bytes_app. split; [apply is_bytes_skipn, Hb|apply padn_bytes].
Qed.
Lemma blk_f0of f : is_bytes f -> (length f <= 16)%nat -> blk (f0of f).
Proof.
  intros Hb Hf. unfold f0of. split; [rewrite app_length, padn_length by lia; lia|].
  apply is_bytes_app. split; [assumption|apply padn_bytes].
Qed.
Lemma blk_first16 f : is_bytes f -> (16 <= length f)%nat -> blk (firstn 16 f).
Proof. intros Hb Hf. split; [rewrite firstn_length; lia|apply is_bytes_firstn, Hb]. Qed.

Section Core.
  Variable R : bytes -> bytes.
  Hypothesis R_blk : forall x, blk x -> blk (R x).
  Variable c : ctx.
  Hypothesis Hc : ctx_ok c.
  Local Notation A := (A R c).

  (** values computed by cipher_aez_core on a message made of pairs, a fragment of less than 32 bytes and two blocks *)
  Definition fx (f x : bytes) : bytes :=
    if Nat.leb 16 (length f) then
      vxor (vxor (A (vxor (firstn 16 f) (cI2 c))) x) (vxor (A (vxor (vxor (f1of f) (cI2 c)) (cI0 c))) zero)
    else if Nat.eqb (length f) 0 then x
    else vxor (A (vxor (f0of f) (cI2 c))) x.
  Definition fm (f s : bytes) : bytes :=
    if Nat.leb 16 (length f) then
      vxor (firstn 16 f) (aes R c s (cJ2 c)) ++ firstn (length f - 16) (vxor (f1of f) (aes R c s (vxor (cJ2 c) (cJ0 c))))
    else firstn (length f) (vxor (f0of f) (aes R c s (cJ2 c))).
  Definition core_val (t : bytes) (d : Z) (m : list (bytes * bytes) * bytes * bytes * bytes)
      : list (bytes * bytes) * bytes * bytes * bytes :=
    let '(ps, f, f0, f1) := m in
    let os := offsets c (length ps) in
    let qs := map2 (one1 R c) os ps in
    let x := fx f (sumx (map snd qs) zero) in
    let a0 := vxor (A (vxor f1 (cI c d))) (vxor (vxor f0 x) t) in
    let a1 := vxor f1 (aes R c a0 (cJ c d)) in
    let s := vxor a0 a1 in
    let b0 := vxor a0 (aes R c a1 (cJ c (1 - d))) in
    let b1 := vxor (A (vxor b0 (cI c (1 - d)))) a1 in
    let y := fx (fm f s) (sumx (tmps R c s os qs) zero) in
    (map2 (one2 R c s) os qs, fm f s, vxor (vxor b1 y) t, b0).
  Definition msg (m : list (bytes * bytes) * bytes * bytes * bytes) : bytes :=
    let '(ps, f, f0, f1) := m in flat ps ++ f ++ f0 ++ f1.
  Definition msg_ok (m : list (bytes * bytes) * bytes * bytes * bytes) : Prop :=
    let '(ps, f, f0, f1) := m in Forall pblk ps /\ is_bytes f /\ (length f < 32)%nat /\ blk f0 /\ blk f1.

  Lemma blk_cI d : blk (cI c d). Proof using Hc. unfold cI; destruct (_ =? _), Hc; assumption. Qed.
  Lemma blk_cJ d : blk (cJ c d). Proof using Hc. unfold cJ; destruct (_ =? _), Hc; assumption. Qed.
  Lemma blk_fx f x : is_bytes f -> (length f < 32)%nat -> blk x -> blk (fx f x).
  Proof using R_blk Hc.
    intros Hb Hl Hx. destruct (Hc). unfold fx. destruct (Nat.leb_spec 16 (length f)) as [H|H].
    - repeat first [apply blk_xor|apply (blk_A R R_blk c Hc)|apply blk_zero|apply blk_f1of|apply blk_first16|assumption|lia].
    - destruct (Nat.eqb_spec (length f) 0); [assumption|].
      repeat first [apply blk_xor|apply (blk_A R R_blk c Hc)|apply blk_f0of|assumption|lia].
  Qed.
  Lemma fm_length f s : is_bytes f -> (length f < 32)%nat -> blk s -> length (fm f s) = length f.
  Proof using R_blk Hc.
    intros Hb Hf Hs. destruct (Hc). unfold fm. destruct (Nat.leb_spec 16 (length f)) as [H|H].
    - assert (blk (vxor (firstn 16 f) (aes R c s (cJ2 c)))) as [L1 _] by (apply blk_xor; [apply blk_first16; assumption|apply blk_aes; assumption]).
      assert (blk (vxor (f1of f) (aes R c s (vxor (cJ2 c) (cJ0 c))))) as [L2 _].
      { apply blk_xor; [apply blk_f1of; [assumption|lia]|apply blk_aes; try assumption; apply blk_xor; assumption]. }
      rewrite app_length, L1, firstn_length, L2. lia.
    - assert (blk (vxor (f0of f) (aes R c s (cJ2 c)))) as [L1 _].
      { apply blk_xor; [apply blk_f0of; [assumption|lia]|apply blk_aes; assumption]. }
      rewrite firstn_length. lia.
  Qed.
  Lemma fm_bytes f s : is_bytes f -> (length f < 32)%nat -> blk s -> is_bytes (fm f s).
  Proof using R_blk Hc.
    intros Hb Hf Hs. destruct (Hc). unfold fm. destruct (Nat.leb_spec 16 (length f)) as [H|H].
    - apply is_bytes_app. split; [|apply is_bytes_firstn].
      + eapply blk_xor; [apply blk_first16; assumption|apply blk_aes; assumption].
      + eapply blk_xor; [apply blk_f1of; [assumption|lia]|apply blk_aes; try assumption; apply blk_xor; assumption].
    - apply is_bytes_firstn. eapply blk_xor; [apply blk_f0of; [assumption|lia]|apply blk_aes; assumption].
  Qed.
  Lemma fm_fm f s : is_bytes f -> (length f < 32)%nat -> blk s -> fm (fm f s) s = f.
  Proof using R_blk Hc.
    intros Hb Hf Hs. pose proof (fm_length f s Hb Hf Hs) as HL. destruct (Hc).
    unfold fm at 1. rewrite HL. destruct (Nat.leb_spec 16 (length f)) as [H|H].
    - assert (blk (aes R c s (cJ2 c))) as BE by (apply blk_aes; assumption).
      assert (blk (aes R c s (vxor (cJ2 c) (cJ0 c)))) as BE' by (apply blk_aes; try assumption; apply blk_xor; assumption).
      assert (blk (firstn 16 f)) as B1 by (apply blk_first16; assumption).
      assert (blk (vxor (firstn 16 f) (aes R c s (cJ2 c)))) as B2 by (apply blk_xor; assumption).
      assert (blk (f1of f)) as B3 by (apply blk_f1of; [assumption|lia]).
      unfold f1of at 1. rewrite HL. unfold fm. replace (Nat.leb 16 (length f)) with true by (symmetry; apply Nat.leb_le; lia).
      rewrite firstn16, skipn16 by (apply blk_len; assumption).
      rewrite vxor_cancel_r by assumption. transitivity (firstn 16 f ++ skipn 16 f); [f_equal|apply firstn_skipn].
      set (E := aes R c s (vxor (cJ2 c) (cJ0 c))) in *. set (k := (length f - 16)%nat).
      unfold vxor. rewrite !xorb_list_firstn. destruct BE' as [LE _], B3 as [L3 _].
      assert (length (firstn k (f1of f)) = k) as La by (rewrite firstn_length; lia).
      assert (length (firstn k E) = k) as Lb by (rewrite firstn_length; lia).
      rewrite firstn_app, xorb_list_length, La, Lb, Nat.min_id, Nat.sub_diag. cbn [firstn].
      rewrite app_nil_r, xorb_list_firstn, !firstn_firstn, Nat.min_id.
      rewrite xorb_list_cancel by lia. unfold f1of. rewrite firstn_app, skipn_length. fold k.
      rewrite Nat.sub_diag, firstn_all2 by (rewrite skipn_length; lia). cbn [firstn]. apply app_nil_r.
    - assert (blk (aes R c s (cJ2 c))) as BE by (apply blk_aes; assumption).
      assert (blk (f0of f)) as B3 by (apply blk_f0of; [assumption|lia]).
      unfold f0of at 1. rewrite HL. unfold fm. replace (Nat.leb 16 (length f)) with false by (symmetry; apply Nat.leb_gt; lia).
      set (E := aes R c s (cJ2 c)) in *. set (k := length f).
      unfold vxor. rewrite !xorb_list_firstn. destruct BE as [LE _], B3 as [L3 _].
      assert (length (firstn k (f0of f)) = k) as La by (rewrite firstn_length; lia).
      assert (length (firstn k E) = k) as Lb by (rewrite firstn_length; lia).
      rewrite firstn_app, xorb_list_length, La, Lb, Nat.min_id, Nat.sub_diag. cbn [firstn].
      rewrite app_nil_r, xorb_list_firstn, !firstn_firstn, Nat.min_id.
      rewrite xorb_list_cancel by lia. unfold f0of. rewrite firstn_app. fold k.
      rewrite Nat.sub_diag, firstn_all2 by lia. cbn [firstn]. apply app_nil_r.
  Qed.

  Lemma core_val_ok t d m : blk t -> msg_ok m -> msg_ok (core_val t d m) /\ length (msg (core_val t d m)) = length (msg m).
  Proof using R_blk Hc.
    destruct m as [[[ps f] f0] f1]. intros Ht (Hp & Hf & Hl & H0 & H1). unfold core_val. cbv zeta.
    destruct (offsets_ok R R_blk c Hc (length ps)) as [O1 O2]. set (os := offsets c (length ps)) in *.
    assert (Forall pblk (map2 (one1 R c) os ps)) as Hq by (apply (pblk_p1 R R_blk c Hc); assumption).
    set (qs := map2 (one1 R c) os ps) in *.
    assert (Forall blk (map snd qs)) as Hsq by (apply Forall_map; eapply Forall_impl; [|exact Hq]; intros ? [_ ?]; assumption).
    assert (blk (fx f (sumx (map snd qs) zero))) as Hx by (apply blk_fx; try assumption; apply blk_sumx; [assumption|apply blk_zero]).
    set (x := fx f (sumx (map snd qs) zero)) in *.
    pose proof (blk_cI d) as HId. pose proof (blk_cI (1 - d)) as HId'. pose proof (blk_cJ d) as HJd. pose proof (blk_cJ (1 - d)) as HJd'.
    assert (blk (vxor (A (vxor f1 (cI c d))) (vxor (vxor f0 x) t))) as Ha0 by (repeat first [assumption|apply blk_xor|apply (blk_A R R_blk c Hc)]).
    set (a0 := vxor (A (vxor f1 (cI c d))) (vxor (vxor f0 x) t)) in *.
    assert (blk (vxor f1 (aes R c a0 (cJ c d)))) as Ha1 by (apply blk_xor; [|apply blk_aes]; assumption).
    set (a1 := vxor f1 (aes R c a0 (cJ c d))) in *.
    assert (blk (vxor a0 a1)) as Hs by (apply blk_xor; assumption). set (s := vxor a0 a1) in *.
    assert (blk (vxor a0 (aes R c a1 (cJ c (1 - d))))) as Hb0 by (apply blk_xor; [|apply blk_aes]; assumption).
    set (b0 := vxor a0 (aes R c a1 (cJ c (1 - d)))) in *.
    assert (blk (vxor (A (vxor b0 (cI c (1 - d)))) a1)) as Hb1 by (repeat first [assumption|apply blk_xor|apply (blk_A R R_blk c Hc)]).
    set (b1 := vxor (A (vxor b0 (cI c (1 - d)))) a1) in *.
    assert (Forall blk (tmps R c s os qs)) as Htm by (apply (blk_tmps R R_blk c Hc); assumption).
    assert (is_bytes (fm f s)) as Hfm by (apply fm_bytes; assumption).
    assert (length (fm f s) = length f) as Lfm by (apply fm_length; assumption).
    assert (blk (fx (fm f s) (sumx (tmps R c s os qs) zero))) as Hy.
    { apply blk_fx; [assumption|lia|]. apply blk_sumx; [assumption|apply blk_zero]. }
    assert (Forall pblk (map2 (one2 R c s) os qs)) as Hpp by (apply (pblk_p2 R R_blk c Hc); assumption).
    assert (length (map2 (one2 R c s) os qs) = length ps) as Lpp.
    { rewrite map2_length; [lia|]. subst qs. rewrite map2_length; lia. }
    split.
    - unfold msg_ok. rewrite Lfm. repeat (split; [assumption|]). split; [|assumption]. repeat first [assumption|apply blk_xor].
    - unfold msg. rewrite !app_length. pose proof (flat_zlen _ Hp) as Z1. pose proof (flat_zlen _ Hpp) as Z2. unfold zlen in Z1, Z2.
      rewrite Lpp in Z2. rewrite Lfm, (blk_len _ H0), (blk_len _ H1), (blk_len _ Hb0).
      rewrite (blk_len (vxor (vxor b1 _) t)) by (repeat first [assumption|apply blk_xor]). lia.
  Qed.

  Lemma core_inverse t d m : d = 0 \/ d = 1 -> blk t -> msg_ok m -> core_val t (1 - d) (core_val t d m) = m.
  Proof using R_blk Hc.
    intros Hd Ht Hm. pose proof (core_val_ok t d m Ht Hm) as [Hm' _].
    destruct m as [[[ps f] f0] f1]. destruct Hm as (Hp & Hf & Hl & H0 & H1).
    unfold core_val in *. cbv zeta in *.
    destruct (offsets_ok R R_blk c Hc (length ps)) as [O1 O2]. set (os := offsets c (length ps)) in *.
    assert (Forall pblk (map2 (one1 R c) os ps)) as Hq by (apply (pblk_p1 R R_blk c Hc); assumption).
    set (qs := map2 (one1 R c) os ps) in *.
    assert (Forall blk (map snd qs)) as Hsq by (apply Forall_map; eapply Forall_impl; [|exact Hq]; intros ? [_ ?]; assumption).
    assert (blk (fx f (sumx (map snd qs) zero))) as Hx by (apply blk_fx; try assumption; apply blk_sumx; [assumption|apply blk_zero]).
    set (x := fx f (sumx (map snd qs) zero)) in *.
    pose proof (blk_cI d) as HId. pose proof (blk_cI (1 - d)) as HId'. pose proof (blk_cJ d) as HJd. pose proof (blk_cJ (1 - d)) as HJd'.
    assert (blk (vxor (vxor f0 x) t)) as Hfxt by (repeat first [assumption|apply blk_xor]).
    assert (blk (A (vxor f1 (cI c d)))) as HA1 by (apply (blk_A R R_blk c Hc), blk_xor; assumption).
    assert (blk (vxor (A (vxor f1 (cI c d))) (vxor (vxor f0 x) t))) as Ha0 by (apply blk_xor; assumption).
    set (a0 := vxor (A (vxor f1 (cI c d))) (vxor (vxor f0 x) t)) in *.
    assert (blk (aes R c a0 (cJ c d))) as HE0 by (apply blk_aes; assumption).
    assert (blk (vxor f1 (aes R c a0 (cJ c d)))) as Ha1 by (apply blk_xor; assumption).
    set (a1 := vxor f1 (aes R c a0 (cJ c d))) in *.
    assert (blk (vxor a0 a1)) as Hs by (apply blk_xor; assumption). set (s := vxor a0 a1) in *.
    assert (blk (aes R c a1 (cJ c (1 - d)))) as HE1 by (apply blk_aes; assumption).
    assert (blk (vxor a0 (aes R c a1 (cJ c (1 - d))))) as Hb0 by (apply blk_xor; assumption).
    set (b0 := vxor a0 (aes R c a1 (cJ c (1 - d)))) in *.
    assert (blk (A (vxor b0 (cI c (1 - d))))) as HA2 by (apply (blk_A R R_blk c Hc), blk_xor; assumption).
    assert (blk (vxor (A (vxor b0 (cI c (1 - d)))) a1)) as Hb1 by (apply blk_xor; assumption).
    set (b1 := vxor (A (vxor b0 (cI c (1 - d)))) a1) in *.
    assert (Forall blk (tmps R c s os qs)) as Htm by (apply (blk_tmps R R_blk c Hc); assumption).
    assert (is_bytes (fm f s)) as Hfm by (apply fm_bytes; assumption).
    assert (length (fm f s) = length f) as Lfm by (apply fm_length; assumption).
    assert (blk (fx (fm f s) (sumx (tmps R c s os qs) zero))) as Hy.
    { apply blk_fx; [assumption|lia|]. apply blk_sumx; [assumption|apply blk_zero]. }
    set (y := fx (fm f s) (sumx (tmps R c s os qs) zero)) in *.
    assert (length (map2 (one2 R c s) os qs) = length ps) as Lpp.
    { rewrite map2_length; [lia|]. subst qs. rewrite map2_length; lia. }
    rewrite Lpp. fold os.
    destruct (passes_inverse R R_blk c Hc s os ps Hs O1 Hp) as (I1 & I2 & I3); [lia|]. cbv zeta in I1, I2, I3. fold qs in I1, I2, I3.
    rewrite I2. fold y. replace (1 - (1 - d)) with d by lia.
    assert (vxor (vxor (vxor (vxor b1 y) t) y) t = b1) as Eb1.
    { rewrite (vxor_assoc (vxor b1 y) t y), (vxor_comm t y), <- vxor_assoc, (vxor_cancel_r b1 y) by assumption. apply vxor_cancel_r; assumption. }
    rewrite Eb1.
    assert (vxor (A (vxor b0 (cI c (1 - d)))) b1 = a1) as Ea1 by (apply vxor_cancel_l; assumption).
    rewrite Ea1.
    assert (vxor b0 (aes R c a1 (cJ c (1 - d))) = a0) as Ea0 by (apply vxor_cancel_r; assumption).
    rewrite Ea0, (vxor_comm a1 a0). fold s. rewrite fm_fm, I1, I3 by assumption. fold x.
    assert (vxor a1 (aes R c a0 (cJ c d)) = f1) as Ef1 by (apply vxor_cancel_r; assumption).
    rewrite Ef1.
    assert (vxor (A (vxor f1 (cI c d))) a0 = vxor (vxor f0 x) t) as Ef0 by (apply vxor_cancel_l; assumption).
    rewrite Ef0. f_equal. f_equal.
    rewrite (vxor_assoc (vxor f0 x) t x), (vxor_comm t x), <- vxor_assoc, (vxor_cancel_r f0 x) by assumption. apply vxor_cancel_r; assumption.
  Qed.
End Core.
