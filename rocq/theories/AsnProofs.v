(** Writing DER. *)
From Coq Require Import Lia ZifyBool.
From Verif Require Import Base BaseFacts Base64Proofs MpiModel MpiProofs PemProofs2 AsnModel RsaKeyModel RsaKeySpec.

(** A writer that puts [d] in front of what is already there *)
Definition writes (w : bytes -> Z -> wres) (d : bytes) : Prop :=
  forall a b post p, p = zlen a + zlen b -> zlen b = zlen d -> w (a ++ b ++ post) p = ret (a ++ d ++ post, zlen a, zlen d).

Lemma push_at a l y post p x : p = zlen a + zlen l + 1 -> push (a ++ l ++ y :: post) p x = Ok (a ++ l ++ x :: post, p - 1).
Proof.
  intros ->. unfold push. replace (zlen a + zlen l + 1 - 1) with (zlen (a ++ l)) by (rewrite zlen_app; lia).
  replace (a ++ l ++ y :: post) with ((a ++ l) ++ [y] ++ post) by (rewrite <- app_assoc; reflexivity).
  rewrite wr_mid by reflexivity. cbn [bind]. rewrite <- app_assoc. reflexivity.
Qed.
Lemma push_first a y post p x : p = zlen a + 1 -> push (a ++ y :: post) p x = Ok (a ++ x :: post, zlen a).
Proof. intros ->. pose proof (push_at a [] y post (zlen a + 1) x) as H. cbn [app] in H. rewrite H by (change (zlen (@nil Z)) with 0; lia). f_equal. f_equal. lia. Qed.

Lemma nbytes_range x k : 1 <= k -> 256 ^ (k - 1) <= x < 256 ^ k -> nbytes x = k.
Proof.
  intros Hk [H1 H2]. unfold nbytes. assert (0 < 256 ^ (k - 1)) by (apply Z.pow_pos_nonneg; lia).
  change 256 with (2 ^ 8) in *. rewrite <- Z.pow_mul_r in H1, H2 by lia.
  assert (8 * (k - 1) <= Z.log2 x) by (apply Z.log2_le_pow2; lia). assert (Z.log2 x < 8 * k) by (apply Z.log2_lt_pow2; lia).
  Z.div_mod_to_equations; lia.
Qed.

Lemma land_255 x : Z.land x 255 = x mod 256.
Proof. change 255 with (Z.ones 8). rewrite Z.land_ones by lia. reflexivity. Qed.
Lemma be1 x : be_encode 1 x = [x mod 256].
Proof. reflexivity. Qed.
Lemma be2 x : be_encode 2 x = [x / 256 mod 256; x mod 256].
Proof. reflexivity. Qed.
Lemma be3 x : be_encode 3 x = [x / 256 / 256 mod 256; x / 256 mod 256; x mod 256].
Proof. reflexivity. Qed.
Lemma be4 x : be_encode 4 x = [x / 256 / 256 / 256 mod 256; x / 256 / 256 mod 256; x / 256 mod 256; x mod 256].
Proof. reflexivity. Qed.
Lemma shr8 x : Z.shiftr x 8 = x / 256.
Proof. rewrite Z.shiftr_div_pow2 by lia. reflexivity. Qed.
Lemma shr16 x : Z.shiftr x 16 = x / 256 / 256.
Proof. rewrite Z.shiftr_div_pow2, Z.div_div by lia. reflexivity. Qed.
Lemma shr24 x : Z.shiftr x 24 = x / 256 / 256 / 256.
Proof. rewrite Z.shiftr_div_pow2, !Z.div_div by lia. reflexivity. Qed.

(** The five forms of a length *)
Lemma der_length_cases n : 0 <= n < 2 ^ 32 ->
  n < 128 /\ der_length n = [n] \/
  128 <= n <= 0xFF /\ der_length n = [129; n] \/
  0xFF < n <= 0xFFFF /\ der_length n = [130; n / 256 mod 256; n mod 256] \/
  0xFFFF < n <= 0xFFFFFF /\ der_length n = [131; n / 256 / 256 mod 256; n / 256 mod 256; n mod 256] \/
  0xFFFFFF < n <= 0xFFFFFFFF /\ der_length n = [132; n / 256 / 256 / 256 mod 256; n / 256 / 256 mod 256; n / 256 mod 256; n mod 256].
Proof.
  intros H. unfold der_length. destruct (n <? 128) eqn:E; [left; split; [lia|reflexivity]|right].
  destruct (Z_le_gt_dec n 0xFF) as [L1|L1].
  { left. split; [lia|]. rewrite (nbytes_range n 1) by lia. rewrite be1, Z.mod_small by lia. reflexivity. }
  right. destruct (Z_le_gt_dec n 0xFFFF) as [L2|L2].
  { left. split; [lia|]. rewrite (nbytes_range n 2) by lia. rewrite be2. reflexivity. }
  right. destruct (Z_le_gt_dec n 0xFFFFFF) as [L3|L3].
  { left. split; [lia|]. rewrite (nbytes_range n 3) by lia. rewrite be3. reflexivity. }
  right. split; [lia|]. rewrite (nbytes_range n 4) by lia. rewrite be4. reflexivity.
Qed.

Ltac len_contra L := exfalso; rewrite ?zlen_cons in L; repeat match type of L with context [zlen ?x] =>
   lazymatch goal with [H : 0 <= zlen x |- _] => fail | _ => pose proof (zlen_nonneg x) end end; change (zlen (@nil Z)) with 0 in *; lia.
Ltac dest_len b L := let y := fresh "y" in destruct b as [|y b]; [try (exfalso; clear - L; discriminate L); try len_contra L|].

Lemma write_len_ok n : 0 <= n < 2 ^ 32 -> writes (fun b p => asn1_write_len b p n) (der_length n).
Proof.
  intros H a b post p Hp Hb. unfold asn1_write_len. pose proof (zlen_nonneg a) as Ha.
  destruct (der_length_cases n H) as [[R E]|[[R E]|[[R E]|[[R E]|[R E]]]]]; rewrite E in *; cbn [zlen length] in Hb; unfold zlen in Hb; cbn [length] in Hb.
  - destruct b as [|y0 [|]]; cbn [length] in Hb; try lia. change (zlen [y0]) with 1 in Hp.
    replace (n <? 0x80) with true by lia. replace (p <? 1) with false by lia. cbn [app].
    rewrite push_first by assumption. cbn [bind]. unfold u8. rewrite Z.mod_small by lia. reflexivity.
  - destruct b as [|y0 [|y1 [|]]]; cbn [length] in Hb; try lia. change (zlen [y0; y1]) with 2 in Hp.
    replace (n <? 0x80) with false by lia. replace (n <=? 0xFF) with true by lia. replace (p <? 2) with false by lia.
    change (a ++ [y0; y1] ++ post) with (a ++ [y0] ++ y1 :: post).
    rewrite push_at by (change (zlen [y0]) with 1; lia). cbn [bind app]. rewrite push_first by lia. cbn [bind]. unfold u8. rewrite Z.mod_small by lia. reflexivity.
  - destruct b as [|y0 [|y1 [|y2 [|]]]]; cbn [length] in Hb; try lia. change (zlen [y0; y1; y2]) with 3 in Hp.
    replace (n <? 0x80) with false by lia. replace (n <=? 0xFF) with false by lia. replace (n <=? 0xFFFF) with true by lia. replace (p <? 3) with false by lia.
    change (a ++ [y0; y1; y2] ++ post) with (a ++ [y0; y1] ++ y2 :: post).
    rewrite push_at by (change (zlen [y0; y1]) with 2; lia). cbn [bind]. change (a ++ [y0; y1] ++ ?t) with (a ++ [y0] ++ y1 :: t).
    rewrite push_at by (change (zlen [y0]) with 1; lia). cbn [bind app]. rewrite push_first by lia. cbn [bind]. rewrite shr8, !land_255. reflexivity.
  - destruct b as [|y0 [|y1 [|y2 [|y3 [|]]]]]; cbn [length] in Hb; try lia. change (zlen [y0; y1; y2; y3]) with 4 in Hp.
    replace (n <? 0x80) with false by lia. replace (n <=? 0xFF) with false by lia. replace (n <=? 0xFFFF) with false by lia.
    replace (n <=? 0xFFFFFF) with true by lia. replace (p <? 4) with false by lia.
    change (a ++ [y0; y1; y2; y3] ++ post) with (a ++ [y0; y1; y2] ++ y3 :: post).
    rewrite push_at by (change (zlen [y0; y1; y2]) with 3; lia). cbn [bind]. change (a ++ [y0; y1; y2] ++ ?t) with (a ++ [y0; y1] ++ y2 :: t).
    rewrite push_at by (change (zlen [y0; y1]) with 2; lia). cbn [bind]. change (a ++ [y0; y1] ++ ?t) with (a ++ [y0] ++ y1 :: t).
    rewrite push_at by (change (zlen [y0]) with 1; lia). cbn [bind app]. rewrite push_first by lia. cbn [bind]. rewrite shr8, shr16, !land_255. reflexivity.
  - destruct b as [|y0 [|y1 [|y2 [|y3 [|y4 [|]]]]]]; cbn [length] in Hb; try lia. change (zlen [y0; y1; y2; y3; y4]) with 5 in Hp.
    replace (n <? 0x80) with false by lia. replace (n <=? 0xFF) with false by lia. replace (n <=? 0xFFFF) with false by lia.
    replace (n <=? 0xFFFFFF) with false by lia. replace (n <=? 0xFFFFFFFF) with true by lia. replace (p <? 5) with false by lia.
    change (a ++ [y0; y1; y2; y3; y4] ++ post) with (a ++ [y0; y1; y2; y3] ++ y4 :: post).
    rewrite push_at by (change (zlen [y0; y1; y2; y3]) with 4; lia). cbn [bind]. change (a ++ [y0; y1; y2; y3] ++ ?t) with (a ++ [y0; y1; y2] ++ y3 :: t).
    rewrite push_at by (change (zlen [y0; y1; y2]) with 3; lia). cbn [bind]. change (a ++ [y0; y1; y2] ++ ?t) with (a ++ [y0; y1] ++ y2 :: t).
    rewrite push_at by (change (zlen [y0; y1]) with 2; lia). cbn [bind]. change (a ++ [y0; y1] ++ ?t) with (a ++ [y0] ++ y1 :: t).
    rewrite push_at by (change (zlen [y0]) with 1; lia). cbn [bind app]. rewrite push_first by lia. cbn [bind]. rewrite shr8, shr16, shr24, !land_255. reflexivity.
Qed.

Lemma write_tag_ok tag : writes (fun b p => asn1_write_tag b p tag) [tag].
Proof.
  intros a b post p Hp Hb. unfold zlen in Hb. destruct b as [|y0 [|]]; cbn [length] in Hb; try lia. change (zlen [y0]) with 1 in Hp.
  pose proof (zlen_nonneg a). unfold asn1_write_tag. replace (p <? 1) with false by lia. cbn [app]. rewrite push_first by assumption. reflexivity.
Qed.

(** Writing a header in front of contents [c] already written *)
Definition der_header (tag : Z) (n : Z) : bytes := tag :: der_length n.
Lemma write_header_ok tag n a b post p : 0 <= n < 2 ^ 32 -> p = zlen a + zlen b -> zlen b = zlen (der_header tag n) ->
  asn1_write_header (a ++ b ++ post) p n tag = ret (a ++ der_header tag n ++ post, zlen a, n + zlen (der_header tag n)).
Proof.
  intros Hn Hp Hb. unfold der_header in *. rewrite zlen_cons in Hb. pose proof (zlen_nonneg (der_length n)).
  destruct (zsplit b 1 ltac:(lia)) as (b1 & b2 & -> & L1 & L2). rewrite zlen_app in *.
  unfold asn1_write_header. rewrite <- !app_assoc.
  replace (a ++ b1 ++ b2 ++ post) with ((a ++ b1) ++ b2 ++ post) by (rewrite <- app_assoc; reflexivity).
  rewrite (write_len_ok n Hn) by (rewrite ?zlen_app; lia). cbn [bindr bind ret]. unfold ret, bindr. cbn [bind]. rewrite <- app_assoc.
  rewrite (write_tag_ok tag) by (rewrite ?zlen_app; lia || (change (zlen [tag]) with 1; lia)). unfold ret. cbn [bind]. rewrite (zlen_cons tag (der_length n)). change (zlen [tag]) with 1. replace (n + zlen (der_length n) + 1) with (n + (1 + zlen (der_length n))) by lia. reflexivity.
Qed.
Lemma der_tlv_split tag c : der_tlv tag c = der_header tag (zlen c) ++ c.
Proof. unfold der_tlv, der_header. reflexivity. Qed.
Lemma zlen_tlv tag c : zlen (der_tlv tag c) = zlen (der_header tag (zlen c)) + zlen c.
Proof. rewrite der_tlv_split, zlen_app. reflexivity. Qed.
