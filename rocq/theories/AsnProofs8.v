(** Reading booleans, integers, bit strings, sequences and algorithm identifiers. *)
From Coq Require Import Lia ZifyBool.
From Verif Require Import Base BaseFacts Base64Proofs MpiModel MpiProofs PemProofs2 AsnModel AsnModel2 RsaKeyModel RsaKeySpec AsnSpec2 AsnProofs AsnProofs2 AsnProofs3 AsnProofs4 AsnProofs6 AsnProofs7.

Lemma tlv_app a tag c post : a ++ der_tlv tag c ++ post = (a ++ der_header tag (zlen c)) ++ c ++ post.
Proof. rewrite der_tlv_split, <- !app_assoc. reflexivity. Qed.
Lemma le_decode_app a b : le_decode (a ++ b) = le_decode a + 256 ^ zlen a * le_decode b.
Proof.
  induction a as [|x a IH]; [unfold zlen; simpl; lia|]. cbn [app le_decode]. rewrite IH, zlen_cons, Z.pow_add_r by (pose proof (zlen_nonneg a); lia).
  rewrite Z.pow_1_r. ring.
Qed.
Lemma be_decode_cons c l : be_decode (c :: l) = c * 256 ^ zlen l + be_decode l.
Proof. unfold be_decode. cbn [rev]. rewrite le_decode_app. cbn [le_decode]. unfold zlen. rewrite rev_length. lia. Qed.
Lemma be_decode_nonneg l : is_bytes l -> 0 <= be_decode l.
Proof. intros H. apply be_decode_range. exact H. Qed.
Lemma get_bool_ok c a post e : zlen a + 3 <= e < 2 ^ 63 -> asn1_get_bool (a ++ der_tlv 1 [c] ++ post) (zlen a) e = ret (zlen a + 3, if c =? 0 then 0 else 1).
Proof.
  intros He. unfold asn1_get_bool. change TAG_BOOLEAN with 1. rewrite get_tag_ok by (try reflexivity; change (zlen (der_tlv 1 [c])) with 3; lia). rewrite bindr_ret.
  change (zlen [c]) with 1. change (zlen (der_header 1 1)) with 2. change (negb (1 =? 1)) with false. cbn iota. change (der_tlv 1 [c]) with [1; 1; c]. rp 2. cbn [bind]. rewrite <- Z.add_assoc. destruct (c =? 0); reflexivity.
Qed.
Lemma int_loop_ok : forall l a post v, is_bytes l -> 0 <= v -> v * 256 ^ zlen l + be_decode l < 2 ^ 31 ->
  get_int_loop (length l) (a ++ l ++ post) (zlen a) v = Ok (zlen a + zlen l, v * 256 ^ zlen l + be_decode l).
Proof.
  induction l as [|c l IH]; intros a post v Hl Hv Hb.
  - cbn [length get_int_loop]. change (zlen (@nil Z)) with 0. change (be_decode []) with 0. do 2 f_equal; lia.
  - unfold is_bytes in Hl. inversion Hl as [|? ? Hc Hl2]; subst. unfold is_byte in Hc. cbn [length get_int_loop]. change ((c :: l) ++ post) with (c :: (l ++ post)). rewrite rd1_at by reflexivity. cbn [bind].
    rewrite be_decode_cons in Hb |- *. rewrite zlen_cons in Hb |- *. fold (zlen l) in Hb |- *. pose proof (zlen_nonneg l). rewrite Z.pow_add_r in Hb |- * by lia. change (256 ^ 1) with 256 in Hb |- *.
    assert (0 <= be_decode l) by (apply be_decode_nonneg; exact Hl2). assert (1 <= 256 ^ zlen l) by (apply (Z.pow_le_mono_r 256 0); lia).
    replace ((v <? 0) || (2 ^ 31 <=? v * 256)) with false by nia. rewrite lor_shift by (try lia; change (2 ^ 8) with 256; lia). change (2 ^ 8) with 256.
    replace (a ++ c :: l ++ post) with ((a ++ [c]) ++ l ++ post) by (rewrite <- app_assoc; reflexivity). replace (zlen a + 1) with (zlen (a ++ [c])) by (rewrite zlen_app; reflexivity).
    rewrite IH; [|exact Hl2|nia|nia]. rewrite zlen_app. change (zlen [c]) with 1. do 2 f_equal; lia.
Qed.
Lemma int_bytes_first x : 0 <= x -> exists c r, int_bytes x = c :: r /\ 0 <= c < 128.
Proof.
  intros H. destruct (int_bytes_decode x H) as [D B]. destruct (int_bytes x) as [|c r] eqn:E.
  - exfalso. assert (length (int_bytes x) = 0%nat) by (rewrite E; reflexivity). unfold int_bytes in *. rewrite be_encode_length in *. pose proof (Z.log2_nonneg x). destruct (x =? 0); [lia|]. Z.div_mod_to_equations; lia.
  - exists c, r. split; [reflexivity|]. pose proof (Forall_inv B) as Hc. pose proof (Forall_inv_tail B) as Hr. unfold is_byte in Hc. rewrite be_decode_cons in D. assert (0 <= be_decode r) by (apply be_decode_nonneg; exact Hr).
    assert (zlen (c :: r) = if x =? 0 then 1 else (Z.log2 x + 1) / 8 + 1) as L. { rewrite <- E. unfold int_bytes, zlen. rewrite be_encode_length. pose proof (Z.log2_nonneg x). destruct (x =? 0); [reflexivity|]. rewrite Z2Nat.id; [reflexivity|]. Z.div_mod_to_equations; lia. }
    rewrite zlen_cons in L. fold (zlen r) in D. pose proof (zlen_nonneg r). split; [lia|]. assert (1 <= 256 ^ zlen r) by (apply (Z.pow_le_mono_r 256 0); lia).
    destruct (Z.eqb_spec x 0) as [->|Hx]; [nia|]. apply Z.nle_gt. intro Hc2.
    assert (128 * 256 ^ zlen r <= x) by nia. assert (x < 2 ^ Z.succ (Z.log2 x)) by (apply Z.log2_spec; lia).
    assert (2 ^ Z.succ (Z.log2 x) <= 2 ^ (8 * zlen r + 7)) by (apply Z.pow_le_mono_r; [lia|]; Z.div_mod_to_equations; lia).
    rewrite Z.pow_add_r, Z.pow_mul_r in * by lia. change (2 ^ 8) with 256 in *. change (2 ^ 7) with 128 in *. lia.
Qed.
Lemma get_int_ok x a post e : 0 <= x < 2 ^ 31 -> zlen a + zlen (der_integer x) <= e < 2 ^ 63 -> asn1_get_int (a ++ der_integer x ++ post) (zlen a) e = ret (zlen a + zlen (der_integer x), x).
Proof.
  intros Hx He. unfold asn1_get_int, der_integer in *. fold (int_bytes x) in *. change TAG_INTEGER with 2.
  assert (1 <= zlen (int_bytes x) <= 4) as HL.
  { unfold int_bytes, zlen. rewrite be_encode_length. destruct (Z.eqb_spec x 0); [change (Z.to_nat 1) with 1%nat; lia|]. pose proof (Z.log2_nonneg x). assert (Z.log2 x < 31) by (apply Z.log2_lt_pow2; lia). Z.div_mod_to_equations; lia. }
  rewrite get_tag_ok by (try reflexivity; lia). rewrite bindr_ret. replace ((zlen (int_bytes x) =? 0) || (4 <? zlen (int_bytes x))) with false by lia.
  destruct (int_bytes_decode x ltac:(lia)) as [D B]. destruct (int_bytes_first x ltac:(lia)) as [c [r [E Hc]]].
  rewrite tlv_app. set (a2 := a ++ der_header 2 (zlen (int_bytes x))). replace (zlen a + zlen (der_header 2 (zlen (int_bytes x)))) with (zlen a2) by apply zlen_app.
  assert (rd1 (a2 ++ int_bytes x ++ post) (zlen a2) = Ok c) as -> by (rewrite E; cbn [app]; apply rd1_at; reflexivity). cbn [bind]. rewrite land_128 by lia. replace (128 <=? c) with false by lia. cbn [negb].
  replace (Z.to_nat (zlen (int_bytes x))) with (length (int_bytes x)) by (unfold zlen; lia).
  rewrite int_loop_ok by (try assumption; rewrite ?D; lia). cbn [bind]. rewrite D, zlen_tlv. subst a2. rewrite zlen_app. match goal with |- ret (?x, ?z) = ret (?y, ?w) => replace x with y by lia; replace z with w by lia; reflexivity end.
Qed.
Lemma get_bits_ok un data a post e : 0 <= un -> zlen data < 2 ^ 31 -> e = zlen a + zlen (der_tlv 3 (un :: data)) -> e < 2 ^ 63 ->
  asn1_get_bitstring (a ++ der_tlv 3 (un :: data) ++ post) (zlen a) e = if 7 <? un then err ERR_ASN1_INVALID_LENGTH else ret (e, un, (e - zlen data, zlen data)).
Proof.
  intros Hu Hd He He2. unfold asn1_get_bitstring. change TAG_BIT_STRING with 3. pose proof (zlen_nonneg data). assert (zlen (un :: data) = 1 + zlen data) as LC by apply zlen_cons.
  rewrite get_tag_ok by (try reflexivity; lia). rewrite bindr_ret. rewrite zlen_tlv in He. rewrite LC in *. replace (1 + zlen data <? 1) with false by lia.
  rewrite tlv_app, LC. cbn [app]. rewrite rd1_at by (rewrite zlen_app; reflexivity). cbn [bind]. destruct (7 <? un); [reflexivity|]. cbv zeta.
  match goal with |- (if negb (?x =? e) then _ else _) = _ => replace (x =? e) with true by lia end. cbn [negb].
  match goal with |- ret (?x, ?u, (?y, ?z)) = _ => replace x with e by lia; replace y with (e - zlen data) by lia; replace z with (zlen data) by lia end. reflexivity.
Qed.
