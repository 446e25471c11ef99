(** Bit strings, small integers and algorithm identifiers; reading booleans, integers and bit strings. *)
From Coq Require Import Lia ZifyBool.
From Verif Require Import Base BaseFacts Base64Proofs MpiModel MpiProofs PemProofs2 AsnModel AsnModel2 RsaKeyModel RsaKeySpec AsnSpec2 AsnProofs AsnProofs2 AsnProofs3 AsnProofs4 AsnProofs6.

Lemma rd_prefix l n : 0 <= n <= zlen l -> rd l 0 n = Ok (firstn (Z.to_nat n) l).
Proof. intros H. rewrite rd_ok by lia. reflexivity. Qed.
Lemma wr_put b p d : 0 <= p - zlen d -> p <= zlen b -> wr b (p - zlen d) d = Ok (put b p d).
Proof.
  intros. rewrite wr_ok by lia. unfold put. do 4 f_equal. unfold zlen. pose proof (zlen_nonneg d). unfold zlen in *. lia.
Qed.
Lemma writer_bitstring buf n : 0 <= n < 2 ^ 31 -> (n + 7) / 8 <= zlen buf -> writer (fun b p => asn1_write_bitstring b p buf n) (der_bits buf n) (zlen (der_bits buf n)).
Proof.
  intros Hn Hb. unfold der_bits. set (k := (n + 7) / 8) in *. set (data := firstn (Z.to_nat k) buf).
  assert (n / 8 + (if negb (n mod 8 =? 0) then 1 else 0) = k) as Hk by (subst k; destruct (Z.eqb_spec (n mod 8) 0); cbn [negb]; Z.div_mod_to_equations; lia).
  assert (0 <= k /\ 0 <= 8 * k - n < 8) as [K0 K1] by (subst k; Z.div_mod_to_equations; lia).
  assert (zlen data = k) as Ld by (subst data; unfold zlen in *; rewrite firstn_length; lia).
  intros b p Hp. unfold asn1_write_bitstring. rewrite Hk.
  assert (u8 (u64 (u64 (k * 8) - n)) = 8 * k - n) as HU. { unfold u64, u8. rewrite (Z.mod_small (k * 8)) by (assert (n < 2147483648) by lia; lia). rewrite (Z.mod_small (k * 8 - n)) by lia. rewrite Z.mod_small by lia. lia. }
  rewrite HU. set (un := 8 * k - n) in *. rewrite (rd_prefix buf k) by lia. fold data.
  assert (zlen (der_tlv 3 (un :: data)) = zlen (der_header 3 (k + 1)) + (k + 1)) as LT by (rewrite zlen_tlv, zlen_cons, Ld, (Z.add_comm 1 k); reflexivity).
  pose proof (zlen_nonneg (der_header 3 (k + 1))).
  destruct (Z.ltb_spec p (k + 1)) as [L|L].
  - rewrite Bool.orb_true_r. replace (zlen (der_tlv 3 (un :: data)) <=? p) with false by lia. reflexivity.
  - replace (p <? 0) with false by lia. cbn [orb bind]. rewrite <- Ld at 1. rewrite wr_put by lia. cbn [bind].
    rewrite <- Ld at 1. rewrite push_put by (rewrite put_len by lia; lia). cbn [bind]. change [un] with ([un] ++ []). rewrite app_nil_r.
    rewrite put_put by (change (zlen [un]) with 1; lia). rewrite writer_header by (try (rewrite put_len; change ([un] ++ data) with (un :: data); rewrite ?zlen_cons; lia); lia).
    change TAG_BIT_STRING with 3. rewrite LT, Ld. destruct (Z.leb_spec (zlen (der_header 3 (k + 1))) (p - k - 1)) as [L2|L2].
    + replace (zlen (der_header 3 (k + 1)) + (k + 1) <=? p) with true by lia.
      replace (p - k - 1) with (p - zlen ([un] ++ data)) at 1 by (change ([un] ++ data) with (un :: data); rewrite zlen_cons; lia).
      rewrite put_put by (change ([un] ++ data) with (un :: data); rewrite ?zlen_cons; lia). rewrite der_tlv_split, zlen_cons, Ld, (Z.add_comm 1 k). cbn [app].
      replace (p - k - 1 - zlen (der_header 3 (k + 1))) with (p - (zlen (der_header 3 (k + 1)) + (k + 1))) by lia. replace (k + 1 + zlen (der_header 3 (k + 1))) with (zlen (der_header 3 (k + 1)) + (k + 1)) by lia. reflexivity.
    + replace (zlen (der_header 3 (k + 1)) + (k + 1) <=? p) with false by lia. reflexivity.
Qed.
Lemma rd1_put b p x : 1 <= p <= zlen b -> rd1 (put b p [x]) (p - 1) = Ok x.
Proof. intros. unfold put. change (zlen [x]) with 1. apply rd1_at. unfold zlen in *. rewrite firstn_length. lia. Qed.
Lemma int_small v : 0 <= v <= 255 -> der_integer v = der_tlv 2 (if 128 <=? v then [0; v] else [v]).
Proof.
  intros H. unfold der_integer. f_equal. destruct (Z.eqb_spec v 0) as [->|Hv]; [reflexivity|]. destruct (Z.leb_spec 128 v) as [L|L].
  - assert (Z.log2 v = 7) as -> by (apply Z.log2_unique; lia). change (Z.to_nat ((7 + 1) / 8 + 1)) with 2%nat. rewrite be2, Z.div_small, (Z.mod_small v) by lia. reflexivity.
  - assert (Z.log2 v < 7) by (apply Z.log2_lt_pow2; lia). pose proof (Z.log2_nonneg v). replace ((Z.log2 v + 1) / 8) with 0 by (Z.div_mod_to_equations; lia). change (Z.to_nat (0 + 1)) with 1%nat. rewrite be1, Z.mod_small by lia. reflexivity.
Qed.
Lemma land_128 c : 0 <= c < 256 -> (Z.land c 128 =? 0) = negb (128 <=? c).
Proof.
  intros H. assert (Z.land c 128 = if 128 <=? c then 128 else 0) as ->.
  { change 128 with (2 ^ 7) at 1. destruct (Z.leb_spec 128 c) as [L|L].
    - apply Z.bits_inj'. intros i Hi. rewrite Z.land_spec, Z.pow2_bits_eqb by lia. change 128 with (2 ^ 7). rewrite Z.pow2_bits_eqb by lia. destruct (Z.eqb_spec 7 i) as [<-|]; [|apply Bool.andb_false_r].
      rewrite Bool.andb_true_r. rewrite Z.testbit_true by lia. change (2 ^ 7) with 128. Z.div_mod_to_equations; lia.
    - apply Z.bits_inj'. intros i Hi. rewrite Z.land_spec, Z.pow2_bits_eqb, Z.bits_0 by lia. destruct (Z.eqb_spec 7 i) as [<-|]; [|apply Bool.andb_false_r].
      rewrite Bool.andb_true_r. apply Z.testbit_false; [lia|]. change (2 ^ 7) with 128. rewrite Z.div_small by lia. reflexivity. }
  destruct (128 <=? c); reflexivity.
Qed.
Lemma writer_int v : 0 <= v <= 255 -> writer (fun b p => asn1_write_int b p v) (der_integer v) (zlen (der_integer v)).
Proof.
  intros Hv. rewrite (int_small v Hv). assert (u8 v = v) as HU by (unfold u8; apply Z.mod_small; lia).
  assert (writer (fun b p => if p <? 1 then err ERR_ASN1_BUF_TOO_SMALL else '(b, p) <- push b p v ;;
    (if 128 <=? v then if p <? 1 then err ERR_ASN1_BUF_TOO_SMALL else '(b, p) <- push b p 0 ;; asn1_write_header b p 2 2 else asn1_write_header b p 1 2))
    (der_tlv 2 (if 128 <=? v then [0; v] else [v])) (zlen (der_tlv 2 (if 128 <=? v then [0; v] else [v])))) as W.
  { destruct (128 <=? v).
    - change (der_tlv 2 [0; v]) with ((der_header 2 2 ++ [0]) ++ [v]). change (zlen ((der_header 2 2 ++ [0]) ++ [v])) with (2 + zlen (der_header 2 2)).
      apply (writer_push (fun b p => if p <? 1 then err ERR_ASN1_BUF_TOO_SMALL else '(b, p) <- push b p 0 ;; asn1_write_header b p 2 2)).
      apply (writer_push (fun b p => asn1_write_header b p 2 2)). apply writer_header. lia.
    - change (der_tlv 2 [v]) with (der_header 2 1 ++ [v]). change (zlen (der_header 2 1 ++ [v])) with (1 + zlen (der_header 2 1)).
      apply (writer_push (fun b p => asn1_write_header b p 1 2)). apply writer_header. lia. }
  intros b p Hp. rewrite <- W by exact Hp. unfold asn1_write_int. rewrite HU. destruct (Z.ltb_spec p 1) as [L|L]; [reflexivity|]. rewrite push_put by lia. cbn [bind]. rewrite rd1_put by lia. cbn [bind].
  rewrite land_128 by lia. rewrite Bool.negb_involutive. destruct (Z.leb_spec 128 v).
  - replace (0 <? v) with true by lia. reflexivity.
  - rewrite Bool.andb_false_r. reflexivity.
Qed.
Lemma writer_null : writer asn1_write_null (der_tlv 5 []) 2.
Proof. unfold asn1_write_null. change (der_tlv 5 []) with (der_header 5 0). change 2 with (0 + zlen (der_header 5 0)). apply (writer_header 5 0). lia. Qed.
Lemma writer_oid oid : zlen oid < 2 ^ 31 -> writer (fun b p => asn1_write_oid b p oid) (der_tlv 6 oid) (zlen (der_tlv 6 oid)).
Proof. intros H. exact (writer_string 6 oid H). Qed.
(** With parameters: they are already in the buffer, behind the position *)
Lemma writer_alg_par oid par : 0 < par < 2 ^ 31 -> zlen oid < 2 ^ 31 - 16 ->
  writer (fun b p => asn1_write_algorithm b p oid par) (der_header 48 (zlen (der_tlv 6 oid) + par) ++ der_tlv 6 oid) (zlen (der_header 48 (zlen (der_tlv 6 oid) + par) ++ der_tlv 6 oid) + par).
Proof.
  intros Hp Ho. unfold asn1_write_algorithm. replace (par =? 0) with false by lia. pose proof (zlen_nonneg oid). pose proof (header_len 6 (zlen oid) ltac:(lia)). pose proof (zlen_nonneg (der_tlv 6 oid)).
  assert (zlen (der_tlv 6 oid) = zlen (der_header 6 (zlen oid)) + zlen oid) by apply zlen_tlv.
  apply writer_ext with (fun b p => bindr (asn1_write_oid b p oid) (fun x => let '(b, p, l2) := x in asn1_write_header b p (par + l2) TAG_CONSTRUCTED_SEQUENCE)); [intros; rewrite bindr_ret; reflexivity|].
  apply writer_bind with (r1 := zlen (der_tlv 6 oid)); [apply writer_oid; lia|]. rewrite zlen_app, (Z.add_comm _ par).
  replace (zlen (der_header 48 (par + zlen (der_tlv 6 oid))) + zlen (der_tlv 6 oid) + par) with (par + zlen (der_tlv 6 oid) + zlen (der_header 48 (par + zlen (der_tlv 6 oid)))) by lia.
  apply (writer_header 48). lia.
Qed.
Lemma writer_alg_null oid : zlen oid < 2 ^ 31 - 16 ->
  writer (fun b p => asn1_write_algorithm b p oid 0) (der_sequence (der_tlv 6 oid ++ der_tlv 5 [])) (zlen (der_sequence (der_tlv 6 oid ++ der_tlv 5 []))).
Proof.
  intros Ho. unfold asn1_write_algorithm. change (0 =? 0) with true. cbn iota. pose proof (zlen_nonneg oid). pose proof (header_len 6 (zlen oid) ltac:(lia)). pose proof (zlen_nonneg (der_tlv 6 oid)).
  assert (zlen (der_tlv 6 oid) = zlen (der_header 6 (zlen oid)) + zlen oid) by apply zlen_tlv.
  unfold der_sequence. rewrite der_tlv_split, app_assoc. apply writer_bind with (r1 := 2); [apply writer_null|].
  apply writer_bind with (r1 := zlen (der_tlv 6 oid)); [apply writer_oid; lia|]. rewrite !zlen_app. change (zlen (der_tlv 5 [])) with 2. rewrite (Z.add_comm _ 2).
  replace (zlen (der_header 48 (2 + zlen (der_tlv 6 oid))) + zlen (der_tlv 6 oid) + 2) with (2 + zlen (der_tlv 6 oid) + zlen (der_header 48 (2 + zlen (der_tlv 6 oid)))) by lia.
  apply (writer_header 48). lia.
Qed.
