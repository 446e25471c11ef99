(** Nibbles: what the byte and bit operations of cipher_aez_tiny do to the sequence of nibbles of a block. *)
From Verif Require Import Base BaseFacts AezModel AezProofs AezProofs2.
From Coq Require Import Lia.

Definition nibs (l : bytes) : list Z := flat_map (fun x => [x / 16; x mod 16]) l.
Fixpoint unn (l : list Z) : bytes := match l with a :: b :: l' => 16 * a + b :: unn l' | _ => [] end.
Definition is_nib (x : Z) : Prop := 0 <= x < 16.

Lemma nibs_cons x l : nibs (x :: l) = x / 16 :: x mod 16 :: nibs l. Proof. reflexivity. Qed.
Lemma nibs_app a b : nibs (a ++ b) = nibs a ++ nibs b. Proof. apply flat_map_app. Qed.
Lemma nibs_length l : length (nibs l) = (2 * length l)%nat.
Proof. induction l as [|x l IH]; [reflexivity|]. rewrite nibs_cons. cbn [length]. rewrite IH. lia. Qed.
Lemma unn_nibs l : unn (nibs l) = l.
Proof. induction l as [|x l IH]; [reflexivity|]. rewrite nibs_cons. cbn [unn]. rewrite IH. f_equal. lia. Qed.
Lemma nibs_inj a b : nibs a = nibs b -> a = b.
Proof. intros H. rewrite <- (unn_nibs a), <- (unn_nibs b), H. reflexivity. Qed.
Lemma nibs_unn_n n l : Forall is_nib l -> length l = (2 * n)%nat -> nibs (unn l) = l /\ length (unn l) = n /\ is_bytes (unn l).
Proof.
  revert l; induction n as [|n IH]; intros l Hl HL.
  - destruct l; [repeat split; constructor|discriminate].
  - destruct l as [|a [|b l]]; try (simpl in HL; lia). inversion Hl as [|? ? Ha Hl']; subst. inversion Hl' as [|? ? Hb Hl'']; subst.
    destruct (IH l Hl'') as (E1 & E2 & E3); [simpl in HL; lia|]. cbn [unn]. rewrite nibs_cons, E1. unfold is_nib in *.
    split; [f_equal; [lia|]; f_equal; lia|]. split; [simpl; lia|]. constructor; [unfold is_byte; lia|assumption].
Qed.
Lemma nibs_nib l : is_bytes l -> Forall is_nib (nibs l).
Proof. induction 1 as [|x l Hx _ IH]; [constructor|]. rewrite nibs_cons. unfold is_byte in Hx. repeat constructor; try lia. assumption. Qed.
Lemma nibs_firstn k l : firstn (2 * k) (nibs l) = nibs (firstn k l).
Proof.
  revert l; induction k as [|k IH]; intros l; [reflexivity|]. destruct l as [|x l]; [reflexivity|].
  replace (2 * S k)%nat with (S (S (2 * k))) by lia. rewrite nibs_cons. cbn [firstn]. rewrite IH. reflexivity.
Qed.
Lemma nibs_skipn k l : skipn (2 * k) (nibs l) = nibs (skipn k l).
Proof.
  revert l; induction k as [|k IH]; intros l; [reflexivity|]. destruct l as [|x l]; [reflexivity|].
  replace (2 * S k)%nat with (S (S (2 * k))) by lia. rewrite nibs_cons. cbn [skipn]. rewrite IH. reflexivity.
Qed.
Lemma nibs_zeros k : nibs (zeros k) = zeros (2 * k).
Proof.
  induction k as [|k IH]; [reflexivity|]. replace (2 * S k)%nat with (S (S (2 * k))) by lia. unfold zeros in *. cbn [repeat].
  rewrite nibs_cons, IH. reflexivity.
Qed.
Lemma div16_shiftr x : x / 16 = Z.shiftr x 4. Proof. rewrite Z.shiftr_div_pow2 by lia. reflexivity. Qed.
Lemma mod16_land x : x mod 16 = Z.land x (Z.ones 4). Proof. rewrite Z.land_ones by lia. reflexivity. Qed.
Lemma nibs_xor a b : nibs (xorb_list a b) = xorb_list (nibs a) (nibs b).
Proof.
  revert b; induction a as [|x a IH]; intros [|y b]; try reflexivity. cbn [xorb_list]. rewrite !nibs_cons. cbn [xorb_list]. rewrite IH.
  f_equal; [rewrite !div16_shiftr; apply Z.shiftr_lxor|]. f_equal. rewrite !mod16_land. apply Z.bits_inj'. intros i Hi.
  rewrite Z.land_spec, !Z.lxor_spec, !Z.land_spec. destruct (Z.testbit x i), (Z.testbit y i), (Z.testbit (Z.ones 4) i); reflexivity.
Qed.
Lemma nibs_and a b : nibs (vand a b) = vand (nibs a) (nibs b).
Proof.
  revert b; induction a as [|x a IH]; intros [|y b]; try reflexivity. unfold vand in *. cbn [zipw]. rewrite !nibs_cons. cbn [zipw]. rewrite IH.
  f_equal; [rewrite !div16_shiftr; apply Z.shiftr_land|]. f_equal. rewrite !mod16_land. apply Z.bits_inj'. intros i Hi.
  rewrite !Z.land_spec. destruct (Z.testbit x i), (Z.testbit y i), (Z.testbit (Z.ones 4) i); reflexivity.
Qed.
Lemma nibs_or a b : nibs (vor a b) = vor (nibs a) (nibs b).
Proof.
  revert b; induction a as [|x a IH]; intros [|y b]; try reflexivity. unfold vor in *. cbn [zipw]. rewrite !nibs_cons. cbn [zipw]. rewrite IH.
  f_equal; [rewrite !div16_shiftr; apply Z.shiftr_lor|]. f_equal. rewrite !mod16_land. apply Z.bits_inj'. intros i Hi.
  rewrite Z.land_spec, !Z.lor_spec, !Z.land_spec. destruct (Z.testbit x i), (Z.testbit y i), (Z.testbit (Z.ones 4) i); reflexivity.
Qed.
Lemma vand_15 a n : Forall is_nib a -> length a = n -> vand a (repeat 15 n) = a.
Proof.
  intros Ha <-. induction Ha as [|x a Hx Ha IH]; [reflexivity|]. unfold vand in *. cbn [length repeat zipw]. rewrite IH. f_equal.
  change 15 with (Z.ones 4). rewrite Z.land_ones by lia. unfold is_nib in Hx. apply Z.mod_small. lia.
Qed.

(** the value of a sequence of nibbles, most significant first *)
Definition nv (l : list Z) : Z := fold_left (fun acc d => 16 * acc + d) l 0.
Lemma nv_snoc l d : nv (l ++ [d]) = 16 * nv l + d.
Proof. unfold nv. rewrite fold_left_app. reflexivity. Qed.
Lemma fold_nv l a : fold_left (fun acc d => 16 * acc + d) l a = a * 16 ^ zlen l + nv l.
Proof.
  unfold nv. revert a. induction l as [|d l IH]; intros a; cbn [fold_left].
  - rewrite zlen_nil, Z.pow_0_r. lia.
  - rewrite IH, (IH (16 * 0 + d)), zlen_cons, Z.pow_add_r by (pose proof (zlen_nonneg l); lia). rewrite Z.pow_1_r. ring.
Qed.
Lemma nv_cons d l : nv (d :: l) = d * 16 ^ zlen l + nv l.
Proof. unfold nv at 1. cbn [fold_left]. rewrite fold_nv. replace (16 * 0 + d) with d by lia. reflexivity. Qed.
Lemma nv_range l : Forall is_nib l -> 0 <= nv l < 16 ^ zlen l.
Proof.
  induction 1 as [|d l Hd _ IH]; [unfold zlen, nv; simpl; lia|]. rewrite nv_cons, zlen_cons, Z.pow_add_r by (pose proof (zlen_nonneg l); lia).
  unfold is_nib in Hd. rewrite Z.pow_1_r. nia.
Qed.
Lemma nv_inj a b : Forall is_nib a -> Forall is_nib b -> length a = length b -> nv a = nv b -> a = b.
Proof.
  intros Ha; revert b; induction Ha as [|x a Hx Ha IH]; intros b Hb HL HV; destruct b as [|y b]; try discriminate; [reflexivity|].
  inversion Hb as [|? ? Hy Hb']; subst. injection HL as HL. rewrite !nv_cons in HV.
  replace (zlen b) with (zlen a) in HV by (unfold zlen; lia).
  pose proof (nv_range a Ha) as Ra. pose proof (nv_range b Hb') as Rb. replace (zlen b) with (zlen a) in Rb by (unfold zlen; lia).
  unfold is_nib in *. assert (x = y) by nia. subst y. f_equal. apply IH; try assumption; lia.
Qed.
Lemma nv_nibs l : nv (nibs l) = be_decode l.
Proof.
  unfold be_decode. induction l as [|x l IH] using rev_ind; [reflexivity|].
  rewrite nibs_app, rev_app_distr. cbn [rev app le_decode]. rewrite <- IH.
  change (nibs [x]) with ([x / 16] ++ [x mod 16]). rewrite app_assoc, !nv_snoc. lia.
Qed.
Lemma le_decode_app a b : le_decode (a ++ b) = le_decode a + 256 ^ zlen a * le_decode b.
Proof.
  induction a as [|x a IH]; [unfold zlen; simpl; lia|]. cbn [app le_decode]. rewrite IH, zlen_cons, Z.pow_add_r by (pose proof (zlen_nonneg a); lia).
  rewrite Z.pow_1_r. ring.
Qed.

Lemma lor_add a b k : 0 <= k -> 0 <= a < 2 ^ k -> Z.lor (b * 2 ^ k) a = b * 2 ^ k + a.
Proof.
  intros Hk Ha. assert (Z.land (b * 2 ^ k) a = 0) as H.
  { apply Z.bits_inj'. intros i Hi. rewrite Z.land_spec, Z.bits_0. destruct (Z.ltb_spec i k).
    - rewrite Z.mul_pow2_bits_low by lia. reflexivity.
    - rewrite <- (Z.mod_small a (2 ^ k)) by lia. rewrite Z.mod_pow2_bits_high by lia. apply andb_false_r. }
  rewrite <- Z.lxor_lor by exact H. symmetry. apply Z.add_nocarry_lxor. exact H.
Qed.
Lemma lanes y : blk y -> exists lo hi, lanes2 y = (lo, hi) /\ 0 <= lo < 2 ^ 64 /\ 0 <= hi < 2 ^ 64 /\ le_decode y = lo + 2 ^ 64 * hi.
Proof.
  intros [L B]. exists (le_decode (firstn 8 y)), (le_decode (skipn 8 y)). split; [reflexivity|].
  assert (zlen (firstn 8 y) = 8) as L1 by (unfold zlen; rewrite firstn_length; lia).
  assert (zlen (skipn 8 y) = 8) as L2 by (unfold zlen; rewrite skipn_length; lia).
  pose proof (le_decode_range _ (is_bytes_firstn 8 _ B)) as R1. pose proof (le_decode_range _ (is_bytes_skipn 8 _ B)) as R2.
  rewrite L1 in R1. rewrite L2 in R2. change (256 ^ 8) with (2 ^ 64) in *. split; [exact R1|]. split; [exact R2|].
  rewrite <- (firstn_skipn 8 y) at 1. rewrite le_decode_app, L1. reflexivity.
Qed.
Lemma of_lanes lo hi : 0 <= lo < 2 ^ 64 -> 0 <= hi < 2 ^ 64 -> blk (of_lanes2 (lo, hi)) /\ le_decode (of_lanes2 (lo, hi)) = lo + 2 ^ 64 * hi.
Proof.
  intros H1 H2. unfold of_lanes2. cbn [fst snd]. split.
  - split; [rewrite app_length, !le_encode_length; reflexivity|]. apply is_bytes_app. split; apply le_encode_bytes.
  - rewrite le_decode_app, !le_decode_encode by assumption. unfold zlen. rewrite le_encode_length. reflexivity.
Qed.
Lemma srl4_ok y : blk y -> blk (srl4 y) /\ le_decode (srl4 y) = (16 * le_decode y) mod 2 ^ 128.
Proof.
  intros Hy. destruct (lanes y Hy) as (lo & hi & E & R1 & R2 & V). unfold srl4. rewrite E, V. clear E V Hy y.
  change (Z.shiftr 0 60) with 0. rewrite Z.lor_0_r. rewrite !Z.shiftl_mul_pow2, Z.shiftr_div_pow2 by lia. unfold u64.
  assert (lo * 2 ^ 4 mod 2 ^ 64 = (lo mod 2 ^ 60) * 2 ^ 4) as E1.
  { change (2 ^ 64) with (2 ^ 60 * 2 ^ 4). apply Z.mul_mod_distr_r; discriminate. }
  assert (hi * 2 ^ 4 mod 2 ^ 64 = (hi mod 2 ^ 60) * 2 ^ 4) as E2.
  { change (2 ^ 64) with (2 ^ 60 * 2 ^ 4). apply Z.mul_mod_distr_r; discriminate. }
  rewrite E1, E2, (lor_add (lo / 2 ^ 60) (hi mod 2 ^ 60) 4) by lia.
  destruct (of_lanes (lo mod 2 ^ 60 * 2 ^ 4) (hi mod 2 ^ 60 * 2 ^ 4 + lo / 2 ^ 60)) as [B D]; [lia|lia|].
  split; [exact B|]. rewrite D. lia.
Qed.
Lemma sll4_ok y : blk y -> blk (sll4 y) /\ le_decode (sll4 y) = le_decode y / 16.
Proof.
  intros Hy. destruct (lanes y Hy) as (lo & hi & E & R1 & R2 & V). unfold sll4. rewrite E, V. clear E V Hy y.
  change (u64 (Z.shiftl 0 60)) with 0. rewrite Z.lor_0_r. rewrite !Z.shiftr_div_pow2, Z.shiftl_mul_pow2 by lia. unfold u64.
  assert (hi * 2 ^ 60 mod 2 ^ 64 = (hi mod 2 ^ 4) * 2 ^ 60) as E2.
  { change (2 ^ 64) with (2 ^ 4 * 2 ^ 60). apply Z.mul_mod_distr_r; discriminate. }
  rewrite E2, Z.lor_comm, (lor_add (lo / 2 ^ 4) (hi mod 2 ^ 4) 60) by lia.
  destruct (of_lanes (hi mod 2 ^ 4 * 2 ^ 60 + lo / 2 ^ 4) (hi / 2 ^ 4)) as [B D]; [lia|lia|].
  split; [exact B|]. rewrite D. lia.
Qed.
Lemma shift_up x : blk x -> blk (bswap16 (srl4 (bswap16 x))) /\ nibs (bswap16 (srl4 (bswap16 x))) = skipn 1 (nibs x) ++ [0].
Proof.
  intros Hx. destruct (srl4_ok _ (blk_rev _ Hx)) as [B V]. pose proof (blk_rev _ B) as B'. split; [exact B'|].
  destruct Hx as [L Bx]. pose proof (nibs_nib x Bx) as Hn. pose proof (nibs_length x) as Ln. rewrite L in Ln.
  apply nv_inj.
  - apply nibs_nib, B'.
  - apply Forall_app. split; [|repeat constructor; lia]. destruct (nibs x); [constructor|]. inversion Hn; assumption.
  - rewrite nibs_length, (blk_len _ B'), app_length, skipn_length, Ln. reflexivity.
  - rewrite nv_nibs. unfold be_decode, bswap16 at 1. rewrite rev_involutive, V, nv_snoc.
    change (le_decode (bswap16 x)) with (be_decode x). rewrite <- nv_nibs.
    destruct (nibs x) as [|d l]; [discriminate|]. cbn [skipn]. rewrite nv_cons. inversion Hn as [|? ? Hd Hl]; subst.
    pose proof (nv_range l Hl) as Rl. simpl in Ln. assert (zlen l = 31) as Zl by (unfold zlen; lia). rewrite Zl in *.
    change (2 ^ 128) with (16 ^ 31 * 16). change (16 ^ 31) with 21267647932558653966460912964485513216 in *. unfold is_nib in Hd. lia.
Qed.
Lemma shift_down x : blk x -> blk (bswap16 (sll4 (bswap16 x))) /\ nibs (bswap16 (sll4 (bswap16 x))) = 0 :: firstn 31 (nibs x).
Proof.
  intros Hx. destruct (sll4_ok _ (blk_rev _ Hx)) as [B V]. pose proof (blk_rev _ B) as B'. split; [exact B'|].
  destruct Hx as [L Bx]. pose proof (nibs_nib x Bx) as Hn. pose proof (nibs_length x) as Ln. rewrite L in Ln.
  apply nv_inj.
  - apply nibs_nib, B'.
  - constructor; [unfold is_nib; lia|]. apply Forall_forall. intros z Hz. rewrite Forall_forall in Hn. apply Hn.
    rewrite <- (firstn_skipn 31 (nibs x)). apply in_or_app. left; exact Hz.
  - rewrite nibs_length, (blk_len _ B'). cbn [length]. rewrite firstn_length, Ln. reflexivity.
  - rewrite nv_nibs. unfold be_decode, bswap16 at 1. rewrite rev_involutive, V, nv_cons.
    change (le_decode (bswap16 x)) with (be_decode x). rewrite <- nv_nibs.
    assert (exists d, nibs x = firstn 31 (nibs x) ++ [d]) as [d E].
    { pose proof (firstn_skipn 31 (nibs x)) as E. assert (length (skipn 31 (nibs x)) = 1%nat) as L1 by (rewrite skipn_length; lia).
      destruct (skipn 31 (nibs x)) as [|d [|? ?]]; try discriminate. exists d. symmetry. exact E. }
    rewrite E in Hn. apply Forall_app in Hn as [_ Hd]. inversion Hd as [|? ? Hd' _]; subst. unfold is_nib in Hd'.
    rewrite E at 1. rewrite nv_snoc. lia.
Qed.

(** the masks of cipher_aez_tiny *)
Lemma masks_even (h : nat) : (h <= 15)%nat ->
  nibs (repeat 255 h ++ zeros (16 - h)) = repeat 15 (2 * h) ++ zeros (32 - 2 * h) /\
  nibs (zeros h ++ padn h) = zeros (2 * h) ++ 8 :: zeros (31 - 2 * h).
Proof. intros H. do 16 (destruct h as [|h]; [split; vm_compute; reflexivity|]). lia. Qed.
Lemma masks_odd (h : nat) : (h <= 15)%nat ->
  exists m, wr (repeat 255 h ++ zeros (16 - h)) (Z.of_nat h) [240] = Ok m /\ blk m /\
  nibs m = repeat 15 (2 * h + 1) ++ zeros (32 - (2 * h + 1)) /\
  nibs (sll4 (zeros h ++ padn h)) = zeros (2 * h + 1) ++ 8 :: zeros (31 - (2 * h + 1)).
Proof.
  intros H. exists (repeat 255 h ++ [240] ++ zeros (15 - h)).
  do 16 (destruct h as [|h]; [split; [vm_compute; reflexivity|]; split; [split; [reflexivity|repeat constructor; unfold is_byte; lia]|]; split; vm_compute; reflexivity|]). lia.
Qed.
(** a half message of n nibbles followed by the padding 10...0 *)
Definition padb (n : nat) (a : list Z) : bytes := unn (a ++ 8 :: zeros (31 - n)).
Lemma padb_ok n a : (n <= 31)%nat -> Forall is_nib a -> length a = n ->
  blk (padb n a) /\ nibs (padb n a) = a ++ 8 :: zeros (31 - n).
Proof.
  intros Hn Ha La. unfold padb.
  destruct (nibs_unn_n 16 (a ++ 8 :: zeros (31 - n))) as (E & L & B).
  - apply Forall_app. split; [assumption|]. constructor; [unfold is_nib; lia|]. apply Forall_forall. intros x Hx.
    apply repeat_spec in Hx. subst x. unfold is_nib. lia.
  - rewrite app_length. cbn [length]. rewrite zeros_length. lia.
  - split; [split; assumption|exact E].
Qed.
Lemma padb_firstn n a : (n <= 31)%nat -> Forall is_nib a -> length a = n -> firstn n (nibs (padb n a)) = a.
Proof. intros Hn Ha La. destruct (padb_ok n a Hn Ha La) as [_ ->]. rewrite firstn_app, La, Nat.sub_diag, firstn_all2 by lia. apply app_nil_r. Qed.
Lemma Forall_firstn {X} (P : X -> Prop) n l : Forall P l -> Forall P (firstn n l).
Proof. intros H. revert n. induction H; intros [|n]; simpl; constructor; auto. Qed.
Lemma Forall_skipn {X} (P : X -> Prop) n l : Forall P l -> Forall P (skipn n l).
Proof. intros H. revert n. induction H; intros [|n]; simpl; auto. Qed.
Lemma mask_padb n ff m10 x : (n <= 31)%nat -> nibs ff = repeat 15 n ++ zeros (32 - n) -> nibs m10 = zeros n ++ 8 :: zeros (31 - n) -> blk x ->
  vor (vand x ff) m10 = padb n (firstn n (nibs x)).
Proof.
  intros Hn Eff E10 [L B]. apply nibs_inj.
  pose proof (nibs_length x) as Lx. rewrite L in Lx. pose proof (nibs_nib x B) as Hx.
  assert (length (firstn n (nibs x)) = n) as Ln by (rewrite firstn_length; lia).
  destruct (padb_ok n (firstn n (nibs x)) Hn) as [_ ->]; [apply Forall_firstn; assumption|exact Ln|].
  rewrite nibs_or, nibs_and, Eff, E10.
  rewrite <- (firstn_skipn n (nibs x)) at 1. unfold vand at 1. rewrite zipw_app by (rewrite repeat_length; exact Ln). fold vand.
  rewrite vand_15 by (try exact Ln; apply Forall_firstn; assumption). rewrite vand_0 by (rewrite skipn_length; lia).
  unfold vor at 1. rewrite zipw_app by (rewrite zeros_length; exact Ln). fold vor.
  rewrite vor_0_r by exact Ln. f_equal. apply vor_0_l. cbn [length]. rewrite zeros_length. lia.
Qed.
