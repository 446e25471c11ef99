(** Proofs about base64.c. *)
From Coq Require Import Lia.
From Verif Require Import Base BaseFacts Base64Model Base64Spec.
Local Arguments rd1 : simpl never.
Local Arguments wr : simpl never.

(** * Tables *)
Lemma range_in n v : 0 <= v < Z.of_nat n -> In v (map Z.of_nat (seq 0 n)).
Proof. intros. apply in_map_iff. exists (Z.to_nat v). split; [lia|]. apply in_seq. lia. Qed.

Lemma enc_map_ok v : 0 <= v < 64 -> rd1 base64_enc_map v = Ok (b64_char v).
Proof.
  intros H. assert (C : forallb (fun v => match rd1 base64_enc_map v with Ok c => c =? b64_char v | _ => false end)
    (map Z.of_nat (seq 0 64)) = true) by (vm_compute; reflexivity).
  rewrite forallb_forall in C. specialize (C v (range_in 64 v ltac:(lia))). destruct (rd1 _ _); try discriminate.
  apply Z.eqb_eq in C. subst. reflexivity.
Qed.

Lemma dec_map_char v : 0 <= v < 64 -> rd1 base64_dec_map (b64_char v) = Ok v /\ 33 <= b64_char v < 128 /\ b64_char v <> 61.
Proof.
  intros H. assert (C : forallb (fun v => match rd1 base64_dec_map (b64_char v) with Ok c => c =? v | _ => false end
    && (33 <=? b64_char v) && (b64_char v <? 128) && negb (b64_char v =? 61))
    (map Z.of_nat (seq 0 64)) = true) by (vm_compute; reflexivity).
  rewrite forallb_forall in C. specialize (C v (range_in 64 v ltac:(lia))).
  rewrite !andb_true_iff in C. destruct C as [[[C1 C2] C3] C4]. apply negb_true_iff in C4. destruct (rd1 _ _); try discriminate.
  apply Z.eqb_eq in C1. subst. repeat split; lia.
Qed.

Lemma dec_map_pad : rd1 base64_dec_map 61 = Ok 64.
Proof. vm_compute; reflexivity. Qed.

Lemma dec_map_inv c : 0 <= c < 128 -> exists m, rd1 base64_dec_map c = Ok m /\
  (m = 127 \/ (m = 64 /\ c = 61) \/ (0 <= m < 64 /\ c = b64_char m)).
Proof.
  intros H. assert (C : forallb (fun c => match rd1 base64_dec_map c with
      | Ok m => (m =? 127) || ((m =? 64) && (c =? 61)) || ((0 <=? m) && (m <? 64) && (c =? b64_char m)) | _ => false end)
    (map Z.of_nat (seq 0 128)) = true) by (vm_compute; reflexivity).
  rewrite forallb_forall in C. specialize (C c (range_in 128 c ltac:(lia))).
  destruct (rd1 base64_dec_map c) as [m| | | |]; try discriminate. exists m. split; [reflexivity|]. lia.
Qed.

Lemma rd1_mid a c l i : i = zlen a -> rd1 (a ++ c :: l) i = Ok c.
Proof.
  intros ->. unfold rd1. rewrite zlen_app, zlen_cons. pose proof (zlen_nonneg a). pose proof (zlen_nonneg l).
  replace ((0 <=? zlen a) && (zlen a <? zlen a + (1 + zlen l))) with true by lia.
  unfold zlen at 1. rewrite Nat2Z.id, nth_error_app2, Nat.sub_diag by lia. reflexivity.
Qed.

(** * Encoding *)
Lemma land63 x : Z.land x 0x3F = x mod 64.
Proof. change 0x3F with (Z.ones 6). rewrite Z.land_ones by lia. reflexivity. Qed.
Lemma land3 x : Z.land x 3 = x mod 4.
Proof. change 3 with (Z.ones 2). rewrite Z.land_ones by lia. reflexivity. Qed.
Lemma land15 x : Z.land x 15 = x mod 16.
Proof. change 15 with (Z.ones 4). rewrite Z.land_ones by lia. reflexivity. Qed.
Lemma land7 x : Z.land x 7 = x mod 8.
Proof. change 7 with (Z.ones 3). rewrite Z.land_ones by lia. reflexivity. Qed.
Lemma shr x k : 0 <= k -> Z.shiftr x k = x / 2 ^ k.
Proof. intros. apply Z.shiftr_div_pow2; lia. Qed.
Lemma shl x k : 0 <= k -> Z.shiftl x k = x * 2 ^ k.
Proof. intros. apply Z.shiftl_mul_pow2; lia. Qed.

Lemma put_enc_ok pre y post p x v : p = zlen pre -> x mod 64 = v ->
  put_enc (pre ++ y :: post) p x = Ok ((pre ++ [b64_char v]) ++ post).
Proof.
  intros -> <-. unfold put_enc. rewrite land63, enc_map_ok by (apply Z.mod_pos_bound; lia). cbn [bind].
  change (pre ++ y :: post) with (pre ++ [y] ++ post). rewrite (wr_mid pre [y] post) by reflexivity.
  rewrite <- app_assoc. reflexivity.
Qed.

Lemma wr1_ok pre y post p c : p = zlen pre -> wr (pre ++ y :: post) p [c] = Ok ((pre ++ [c]) ++ post).
Proof.
  intros ->. change (pre ++ y :: post) with (pre ++ [y] ++ post). rewrite (wr_mid pre [y] post) by reflexivity.
  rewrite <- app_assoc. reflexivity.
Qed.

Lemma sextet0 a b c : is_byte a -> is_byte b -> is_byte c ->
  (a / 2 ^ 2) mod 64 = sextet (65536 * a + 256 * b + c) 0 /\
  (a mod 4 * 2 ^ 4 + b / 2 ^ 4) mod 64 = sextet (65536 * a + 256 * b + c) 1 /\
  (b mod 16 * 2 ^ 2 + c / 2 ^ 6) mod 64 = sextet (65536 * a + 256 * b + c) 2 /\
  c mod 64 = sextet (65536 * a + 256 * b + c) 3.
Proof.
  unfold is_byte, sextet. intros.
  change (64 ^ (3 - 0)) with 262144. change (64 ^ (3 - 1)) with 4096. change (64 ^ (3 - 2)) with 64.
  change (64 ^ (3 - 3)) with 1. change (2 ^ 2) with 4. change (2 ^ 4) with 16. change (2 ^ 6) with 64.
  repeat split; Z.div_mod_to_equations; lia.
Qed.

Lemma zlen_snoc {A} (l : list A) x : zlen (l ++ [x]) = zlen l + 1.
Proof. rewrite zlen_app, zlen_cons, zlen_nil. lia. Qed.

(** One whole group *)
Lemma enc_group src sp a b c sr pre y0 y1 y2 y3 post i p :
  src = sp ++ [a; b; c] ++ sr -> i = zlen sp -> p = zlen pre -> is_byte a -> is_byte b -> is_byte c -> forall k,
  enc_loop (S k) src i (pre ++ y0 :: y1 :: y2 :: y3 :: post) p =
  enc_loop k src (zlen (sp ++ [a; b; c])) ((pre ++ b64 [a; b; c]) ++ post) (zlen (pre ++ b64 [a; b; c])).
Proof.
  intros -> -> -> Ha Hb Hc k. destruct (sextet0 a b c Ha Hb Hc) as (S0 & S1 & S2 & S3).
  cbn [enc_loop]. cbn [app].
  rewrite (rd1_mid sp a (b :: c :: sr)) by reflexivity. cbn [bind].
  replace (sp ++ a :: b :: c :: sr) with ((sp ++ [a]) ++ b :: c :: sr) by (rewrite <- app_assoc; reflexivity).
  rewrite (rd1_mid (sp ++ [a]) b (c :: sr)) by (rewrite zlen_snoc; lia). cbn [bind].
  replace ((sp ++ [a]) ++ b :: c :: sr) with ((sp ++ [a; b]) ++ c :: sr) by (rewrite <- !app_assoc; reflexivity).
  rewrite (rd1_mid (sp ++ [a; b]) c sr) by (rewrite zlen_app, zlen_cons, zlen_cons, zlen_nil; lia). cbn [bind].
  rewrite !shr, !shl, land3, land15 by lia.
  rewrite (put_enc_ok pre y0 _ _ _ _ eq_refl S0). cbn [bind].
  rewrite (put_enc_ok (pre ++ _) y1 _ _ _ (sextet (65536 * a + 256 * b + c) 1)) by (rewrite ?zlen_snoc; (exact S1 || lia)). cbn [bind].
  rewrite (put_enc_ok (_ ++ _) y2 _ _ _ (sextet (65536 * a + 256 * b + c) 2)) by (rewrite ?zlen_snoc; (exact S2 || lia)). cbn [bind].
  rewrite (put_enc_ok (_ ++ _) y3 _ _ _ (sextet (65536 * a + 256 * b + c) 3)) by (rewrite ?zlen_snoc; (exact S3 || lia)). cbn [bind].
  rewrite <- !app_assoc. cbn [app b64]. f_equal.
  - rewrite zlen_app, !zlen_cons, zlen_nil. lia.
  - rewrite zlen_app, !zlen_cons, zlen_nil. lia.
Qed.

Lemma b64_len l : zlen (b64 l) = 4 * (zlen l / 3 + (if zlen l mod 3 =? 0 then 0 else 1)).
Proof.
  assert (G : forall n l, (length l <= n)%nat -> zlen (b64 l) = 4 * (zlen l / 3 + (if zlen l mod 3 =? 0 then 0 else 1))).
  { induction n as [|n IH]; intros [|a [|b [|c r]]] Hl; try reflexivity; try (cbn [length] in Hl; lia).
    cbn [b64]. rewrite zlen_app. rewrite !zlen_cons, zlen_nil. rewrite IH by (cbn [length] in Hl; lia).
    pose proof (zlen_nonneg r).
    replace (1 + (1 + (1 + zlen r))) with (zlen r + 1 * 3) by lia.
    rewrite Z.div_add, Z_mod_plus_full by lia. lia. }
  apply (G (length l)). lia.
Qed.

(** The loop over whole groups *)
Lemma enc_loop_ok k : forall src sp l sr pre buf,
  src = sp ++ l ++ sr -> length l = (3 * k)%nat -> is_bytes l -> zlen (b64 l) <= zlen buf ->
  exists post, enc_loop k src (zlen sp) (pre ++ buf) (zlen pre) = Ok (pre ++ b64 l ++ post, zlen (sp ++ l), zlen (pre ++ b64 l))
    /\ zlen post = zlen buf - zlen (b64 l) /\ post = skipn (length (b64 l)) buf.
Proof.
  induction k as [|k IH]; intros src sp l sr pre buf Hs Hl Hb Hlen.
  - destruct l; [|discriminate]. exists buf. cbn [enc_loop b64 app]. rewrite !app_nil_r. split; [reflexivity|]. split; [rewrite zlen_nil; lia|reflexivity].
  - destruct l as [|a [|b [|c r]]]; try (cbn [length] in Hl; lia).
    inversion Hb as [|? ? Ba Hb1]. inversion Hb1 as [|? ? Bb Hb2]. inversion Hb2 as [|? ? Bc Hb3]. subst.
    assert (E : b64 (a :: b :: c :: r) = b64 [a; b; c] ++ b64 r) by (cbn [b64 app]; reflexivity).
    rewrite E in *. rewrite zlen_app in Hlen.
    assert (L4 : zlen (b64 [a; b; c]) = 4) by reflexivity. rewrite L4 in Hlen. pose proof (zlen_nonneg (b64 r)).
    destruct buf as [|y0 [|y1 [|y2 [|y3 post]]]]; try (rewrite ?zlen_cons, ?zlen_nil in Hlen; lia).
    rewrite !zlen_cons in Hlen.
    rewrite (enc_group (sp ++ (a :: b :: c :: r) ++ sr) sp a b c (r ++ sr) pre y0 y1 y2 y3 post) by (auto; reflexivity).
    destruct (IH (sp ++ (a :: b :: c :: r) ++ sr) (sp ++ [a; b; c]) r sr (pre ++ b64 [a; b; c]) post) as (q & Eq & Lq & Sq).
    + rewrite <- !app_assoc. reflexivity.
    + cbn [length] in Hl. lia.
    + assumption.
    + lia.
    + exists q. split; [|split].
      * rewrite Eq. repeat rewrite <- app_assoc. cbn [app]. reflexivity.
      * rewrite !zlen_cons, zlen_app, L4. lia.
      * rewrite app_length. change (length (b64 [a; b; c])) with 4%nat. exact Sq.
Qed.

Lemma b64_app l r k : length l = (3 * k)%nat -> b64 (l ++ r) = b64 l ++ b64 r.
Proof.
  revert l. induction k as [|k IH]; intros l Hl.
  - destruct l; [reflexivity|discriminate].
  - destruct l as [|a [|b [|c l]]]; try (cbn [length] in Hl; lia).
    change ((a :: b :: c :: l) ++ r) with (a :: b :: c :: (l ++ r)).
    transitivity (b64 [a; b; c] ++ b64 (l ++ r)); [reflexivity|]. rewrite (IH l) by (cbn [length] in Hl; lia).
    rewrite app_assoc. reflexivity.
Qed.

(** The groups and the rest of a byte string *)
Lemma split3 (l : bytes) : exists g r k, l = g ++ r /\ length g = (3 * k)%nat /\ (length r < 3)%nat /\ Z.to_nat (zlen l / 3) = k.
Proof.
  set (k := (length l / 3)%nat). pose proof (Nat.div_mod (length l) 3 ltac:(lia)). pose proof (Nat.mod_upper_bound (length l) 3 ltac:(lia)).
  exists (firstn (3 * k) l), (skipn (3 * k) l), k. split; [symmetry; apply firstn_skipn|]. fold k in H.
  rewrite firstn_length, skipn_length. repeat split; try lia.
  unfold zlen. change 3 with (Z.of_nat 3). rewrite <- Nat2Z.inj_div, Nat2Z.id. reflexivity.
Qed.

Definition enc_blocks (n : Z) : Z := n / 3 + (if n mod 3 =? 0 then 0 else 1).

Lemma encode_ok (src buf : bytes) dlen : is_bytes src -> src <> [] -> 4 * enc_blocks (zlen src) + 1 <= dlen < 2 ^ 64 -> dlen <= zlen buf ->
  base64_encode (Some buf) dlen src (zlen src) =
  Ok (0, zlen (b64 src), Some (b64 src ++ [0] ++ skipn (S (length (b64 src))) buf)).
Proof.
  intros Hb Hne Hd Hbuf. unfold base64_encode. pose proof (zlen_nonneg src).
  assert (zlen src <> 0) by (destruct src; [congruence|rewrite zlen_cons; pose proof (zlen_nonneg src); lia]).
  replace (zlen src =? 0) with false by lia. fold (enc_blocks (zlen src)).
  assert (0 <= enc_blocks (zlen src)) by (unfold enc_blocks; destruct (_ =? 0); Z.div_mod_to_equations; lia).
  replace ((SIZE_MAX - 1) / 4 <? enc_blocks (zlen src)) with false
    by (symmetry; apply Z.ltb_ge; unfold SIZE_MAX; Z.div_mod_to_equations; lia).
  unfold u64. rewrite (Z.mod_small (enc_blocks (zlen src) * 4)) by lia.
  rewrite Z.mod_small by lia. replace (dlen <? enc_blocks (zlen src) * 4 + 1) with false by lia.
  destruct (split3 src) as (g & r & k & E & Lg & Lr & Ek). rewrite Ek.
  pose proof (b64_len src) as Lb. fold (enc_blocks (zlen src)) in Lb.
  assert (Eb : b64 src = b64 g ++ b64 r) by (rewrite E; apply b64_app with k; assumption).
  rewrite E in Hb. apply is_bytes_app in Hb. destruct Hb as [Hbg Hbr].
  assert (zlen (b64 src) = zlen (b64 g) + zlen (b64 r)) by (rewrite Eb, zlen_app; reflexivity).
  pose proof (zlen_nonneg (b64 r)).
  destruct (enc_loop_ok k src [] g r [] buf) as (q & Eq & Lq & Sq); [exact E|exact Lg|assumption|lia|].
  change (zlen []) with 0 in Eq. cbn [app] in Eq. rewrite Eq. cbn [bind]. clear Eq.
  assert (Ls : zlen src = zlen g + zlen r) by (rewrite E, zlen_app; reflexivity).
  assert (Es : src = g ++ r) by exact E.
  rewrite Eb, !app_length, <- app_assoc.
  destruct r as [|a [|b [|c r]]]; try (cbn [length] in Lr; lia).
  - rewrite zlen_nil in Ls. replace (zlen g <? zlen src) with false by lia. cbn [bind].
    cbn [b64 length app]. rewrite Nat.add_0_r.
    destruct q as [|y q]; [rewrite zlen_nil in Lq; change (b64 []) with (@nil Z) in *; rewrite zlen_nil in *; lia|].
    rewrite wr1_ok by reflexivity. cbn [bind]. rewrite app_nil_r, <- app_assoc. cbn [app].
    replace (skipn (S (length (b64 g))) buf) with q; [reflexivity|].
    symmetry. change (S (length (b64 g))) with (1 + length (b64 g))%nat. rewrite <- skipn_skipn_add, <- Sq. reflexivity.
  - rewrite zlen_cons, zlen_nil in Ls. replace (zlen g <? zlen src) with true by lia. rewrite Es at 1.
    inversion Hbr as [|? ? Ba _].
    rewrite rd1_mid by reflexivity. cbn [bind].
    replace (zlen g + 1 <? zlen src) with false by lia. cbn [bind].
    change (zlen (b64 [a])) with 4 in *.

    destruct q as [|y0 [|y1 [|y2 [|y3 [|y4 q]]]]]; try (rewrite ?zlen_cons, ?zlen_nil in Lq; lia).
    destruct (sextet0 a 0 0 Ba) as (S0 & S1 & S2 & S3); [unfold is_byte; lia..|].
    replace (65536 * a + 256 * 0 + 0) with (65536 * a) in * by lia.
    rewrite !shr, !shl, land3 by lia.
    rewrite (put_enc_ok (b64 g) y0 _ _ _ _ eq_refl S0). cbn [bind].
    rewrite (put_enc_ok (_ ++ _) y1 _ _ _ (sextet (65536 * a) 1)) by (rewrite ?zlen_snoc; (exact S1 || lia)). cbn [bind].
    rewrite wr1_ok by (rewrite !zlen_snoc; lia). cbn [bind].
    rewrite wr1_ok by (rewrite !zlen_snoc; lia). cbn [bind].
    rewrite wr1_ok by (rewrite !zlen_snoc; lia). cbn [bind].
    rewrite <- !app_assoc. cbn [app b64 length].
    replace (skipn (S (length (b64 g) + 4)) buf) with q; [rewrite zlen_app; reflexivity|].
    symmetry. replace (S (length (b64 g) + 4)) with (5 + length (b64 g))%nat by lia. rewrite <- skipn_skipn_add, <- Sq. reflexivity.
  - rewrite !zlen_cons, zlen_nil in Ls. replace (zlen g <? zlen src) with true by lia. rewrite Es at 1.
    inversion Hbr as [|? ? Ba Hbr2]. inversion Hbr2 as [|? ? Bb _].
    rewrite rd1_mid by reflexivity. cbn [bind].
    replace (zlen g + 1 <? zlen src) with true by lia. cbn [bind].
    replace src with ((g ++ [a]) ++ [b]) at 1 by (rewrite <- app_assoc; symmetry; exact Es).
    rewrite rd1_mid by (rewrite zlen_snoc; lia). cbn [bind].
    change (zlen (b64 [a; b])) with 4 in *.

    destruct q as [|y0 [|y1 [|y2 [|y3 [|y4 q]]]]]; try (rewrite ?zlen_cons, ?zlen_nil in Lq; lia).
    destruct (sextet0 a b 0 Ba Bb) as (S0 & S1 & S2 & S3); [unfold is_byte; lia..|].
    replace (65536 * a + 256 * b + 0) with (65536 * a + 256 * b) in * by lia.
    replace (b mod 16 * 2 ^ 2 + 0 / 2 ^ 6) with (b mod 16 * 2 ^ 2) in S2 by (rewrite Z.div_0_l; lia).
    rewrite !shr, !shl, land3, land15 by lia.
    rewrite (put_enc_ok (b64 g) y0 _ _ _ _ eq_refl S0). cbn [bind].
    rewrite (put_enc_ok (_ ++ _) y1 _ _ _ (sextet (65536 * a + 256 * b) 1)) by (rewrite ?zlen_snoc; (exact S1 || lia)). cbn [bind].
    rewrite (put_enc_ok (_ ++ _) y2 _ _ _ (sextet (65536 * a + 256 * b) 2)) by (rewrite ?zlen_snoc; (exact S2 || lia)). cbn [bind].
    rewrite wr1_ok by (rewrite !zlen_snoc; lia). cbn [bind].
    rewrite wr1_ok by (rewrite !zlen_snoc; lia). cbn [bind].
    rewrite <- !app_assoc. cbn [app b64 length].
    replace (skipn (S (length (b64 g) + 4)) buf) with q; [rewrite zlen_app; reflexivity|].
    symmetry. replace (S (length (b64 g) + 4)) with (5 + length (b64 g))%nat by lia. rewrite <- skipn_skipn_add, <- Sq. reflexivity.
Qed.
