(** Reading DER: what was written, and arbitrary bytes. *)
From Coq Require Import Lia ZifyBool.
From Verif Require Import Base BaseFacts Base64Proofs MpiModel MpiProofs PemProofs2 AsnModel RsaKeyModel RsaKeySpec AsnProofs AsnProofs2.

Lemma rd1_plus a l c post j : nth_error l (Z.to_nat j) = Some c -> 0 <= j -> forall p, p = zlen a + j -> rd1 (a ++ l ++ post) p = Ok c.
Proof.
  intros H Hj p ->. assert (Z.to_nat j < length l)%nat by (apply nth_error_Some; congruence).
  unfold rd1. rewrite !zlen_app. pose proof (zlen_nonneg a). pose proof (zlen_nonneg post). unfold zlen in *.
  replace ((0 <=? Z.of_nat (length a) + j) && (Z.of_nat (length a) + j <? Z.of_nat (length a) + (Z.of_nat (length l) + Z.of_nat (length post)))) with true by lia.
  rewrite nth_error_app2 by lia. rewrite nth_error_app1 by lia. replace (Z.to_nat (Z.of_nat (length a) + j) - length a)%nat with (Z.to_nat j) by lia. rewrite H. reflexivity.
Qed.
Ltac rp j := erewrite (rd1_plus _ _ _ _ j); [|reflexivity|lia|lia].
Lemma lor_shift v c k : 0 <= k -> 0 <= c < 2 ^ k -> Z.lor (Z.shiftl v k) c = v * 2 ^ k + c.
Proof.
  intros Hk Hc. rewrite Z.shiftl_mul_pow2 by lia. rewrite <- Z.lxor_lor; [symmetry; apply Z.add_nocarry_lxor|].
  all: apply Z.bits_inj'; intros n Hn; rewrite Z.land_spec, Z.bits_0; destruct (Z_lt_ge_dec n k);
    [rewrite Z.mul_pow2_bits_low by lia; reflexivity|].
  all: replace (Z.testbit c n) with false; [apply andb_false_r|]; symmetry;
    (destruct (Z.eq_dec c 0) as [->|Hc0]; [apply Z.bits_0|]; apply Z.bits_above_log2; [lia|]; assert (Z.log2 c < k) by (apply Z.log2_lt_pow2; lia); lia).
Qed.

Lemma get_len_ok a n post e : 0 <= n < 2 ^ 32 -> zlen a + zlen (der_length n) + n <= e < 2 ^ 63 ->
  asn1_get_len (a ++ der_length n ++ post) (zlen a) e = ret (zlen a + zlen (der_length n), n).
Proof.
  intros Hn He. pose proof (zlen_nonneg a). unfold asn1_get_len.
  assert (exists q, zlen a + q <= e - n /\ q = zlen (der_length n) /\ 1 <= q) as (q & Hq & Eq & Q1).
  { exists (zlen (der_length n)). split; [lia|]. split; [reflexivity|]. destruct (der_length_cases n Hn) as [[R E]|[[R E]|[[R E]|[[R E]|[R E]]]]]; rewrite E; unfold zlen; cbn [length]; lia. }
  replace (e - zlen a <? 1) with false by lia.
  assert (forall m, 0 <= m <= n -> (u64 (e - (zlen a + q)) <? m) = false) as Hu. { intros m Hm. unfold u64. rewrite Z.mod_small by lia. lia. }
  destruct (der_length_cases n Hn) as [[R E]|[[R E]|[[R E]|[[R E]|[R E]]]]]; rewrite E in *; unfold zlen in Eq; cbn [length] in Eq; simpl Z.of_nat in Eq; subst q;
    rp 0; cbn [bind].
  - assert (Z.land n 0x80 =? 0 = true) as ->. { pose proof (land_128 n ltac:(lia)). destruct (Z.land n 0x80 =? 0); [reflexivity|]. cbn [negb] in H0. lia. }
    unfold bindr, ret. cbn [bind]. rewrite Hu by lia. reflexivity.
  - change (Z.land 129 0x80 =? 0) with false. change (Z.land 129 0x7F) with 1. cbn [Z.eqb Pos.eqb]. replace (e - zlen a <? 2) with false by lia.
    rp 1. unfold bindr, ret. cbn [bind]. rewrite Hu by lia. reflexivity.
  - change (Z.land 130 0x80 =? 0) with false. change (Z.land 130 0x7F) with 2. cbn [Z.eqb Pos.eqb]. replace (e - zlen a <? 3) with false by lia.
    rp 1. cbn [bind]. rp 2. cbn [bind].
    rewrite lor_shift by (try lia; apply Z.mod_pos_bound; lia).
    replace (n / 256 mod 256 * 2 ^ 8 + n mod 256) with n by (change (2 ^ 8) with 256; Z.div_mod_to_equations; lia).
    unfold bindr, ret. cbn [bind]. rewrite Hu by lia. reflexivity.
  - change (Z.land 131 0x80 =? 0) with false. change (Z.land 131 0x7F) with 3. cbn [Z.eqb Pos.eqb]. replace (e - zlen a <? 4) with false by lia.
    rp 1. cbn [bind]. rp 2. cbn [bind].
    rp 3. cbn [bind]. change 16 with (8 + 8) at 1. rewrite <- Z.shiftl_shiftl by lia. rewrite <- Z.shiftl_lor.
    rewrite (lor_shift (n / 256 / 256 mod 256)) by (try lia; apply Z.mod_pos_bound; lia). rewrite lor_shift by (try lia; apply Z.mod_pos_bound; lia).
    match goal with |- context [(zlen a + 4, ?x)] => replace x with n by (change (2 ^ 8) with 256; Z.div_mod_to_equations; lia) end.
    unfold bindr, ret. cbn [bind]. rewrite Hu by lia. reflexivity.
  - change (Z.land 132 0x80 =? 0) with false. change (Z.land 132 0x7F) with 4. cbn [Z.eqb Pos.eqb]. replace (e - zlen a <? 5) with false by lia.
    rp 1. cbn [bind]. rp 2. cbn [bind].
    rp 3. cbn [bind]. rp 4. cbn [bind].
    change 24 with (16 + 8) at 1. rewrite <- Z.shiftl_shiftl by lia. change (Z.shiftl (n / 256 / 256 mod 256) 16) with (Z.shiftl (n / 256 / 256 mod 256) (8 + 8)).
    rewrite <- (Z.shiftl_shiftl (n / 256 / 256 mod 256)) by lia. rewrite <- !Z.shiftl_lor. change 16 with (8 + 8) at 1. rewrite <- (Z.shiftl_shiftl (n / 256 / 256 / 256 mod 256)) by lia. rewrite <- !Z.shiftl_lor.
    rewrite (lor_shift (n / 256 / 256 / 256 mod 256)) by (try lia; apply Z.mod_pos_bound; lia). rewrite (lor_shift (_ * _ + _)) by (try lia; apply Z.mod_pos_bound; lia). rewrite lor_shift by (try lia; apply Z.mod_pos_bound; lia).
    match goal with |- context [(zlen a + 5, ?x)] => replace x with n by (change (2 ^ 8) with 256; Z.div_mod_to_equations; lia) end.
    unfold bindr, ret. cbn [bind]. rewrite Hu by lia. reflexivity.
Qed.
