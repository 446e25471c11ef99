(** The further writers of asn1write.c. *)
From Coq Require Import Lia ZifyBool.
From Verif Require Import Base BaseFacts Base64Proofs MpiModel MpiProofs PemProofs2 AsnModel AsnModel2 RsaKeyModel RsaKeySpec AsnSpec2 AsnProofs AsnProofs2 AsnProofs3 AsnProofs4.

Lemma put_len b p d : 0 <= p <= zlen b -> zlen d <= p -> zlen (put b p d) = zlen b.
Proof. intros. unfold put, zlen in *. rewrite !app_length, firstn_length, skipn_length. lia. Qed.
Lemma put_put b p d1 d2 : 0 <= p <= zlen b -> zlen d1 + zlen d2 <= p -> put (put b p d1) (p - zlen d1) d2 = put b p (d2 ++ d1).
Proof.
  intros. pose proof (zlen_nonneg d1). pose proof (zlen_nonneg d2). unfold put. rewrite zlen_app, <- app_assoc. unfold zlen in *.
  rewrite firstn_app, firstn_firstn. rewrite firstn_length. replace (Z.to_nat (p - Z.of_nat (length d1) - Z.of_nat (length d2)) - Nat.min (Z.to_nat (p - Z.of_nat (length d1))) (length b))%nat with 0%nat by lia.
  cbn [firstn]. rewrite app_nil_r. f_equal; [f_equal; lia|]. f_equal.
  rewrite skipn_app, skipn_all2 by (rewrite firstn_length; lia). rewrite firstn_length. cbn [app].
  replace (Z.to_nat (p - Z.of_nat (length d1)) - Nat.min (Z.to_nat (p - Z.of_nat (length d1))) (length b))%nat with 0%nat by lia. reflexivity.
Qed.
Lemma writer_bind w1 d1 r1 k d2 r : writer w1 d1 r1 -> writer (fun b p => k (b, p, r1)) d2 r -> writer (fun b p => bindr (w1 b p) k) (d2 ++ d1) r.
Proof.
  intros H1 H2 b p Hp. rewrite (H1 b p Hp). rewrite zlen_app. pose proof (zlen_nonneg d2). destruct (Z.leb_spec (zlen d1) p) as [L|L].
  - unfold bindr, ret. cbn [bind]. rewrite H2 by (rewrite put_len by assumption; pose proof (zlen_nonneg d1); lia).
    destruct (Z.leb_spec (zlen d2) (p - zlen d1)) as [L2|L2].
    + replace (zlen d2 + zlen d1 <=? p) with true by lia. rewrite put_put by lia. replace (p - zlen d1 - zlen d2) with (p - (zlen d2 + zlen d1)) by lia. reflexivity.
    + replace (zlen d2 + zlen d1 <=? p) with false by lia. reflexivity.
  - replace (zlen d2 + zlen d1 <=? p) with false by lia. reflexivity.
Qed.
Lemma writer_ret r : writer (fun b p => ret (b, p, r)) [] r.
Proof.
  intros b p Hp. change (zlen (@nil Z)) with 0. replace (0 <=? p) with true by lia. unfold put. change (zlen (@nil Z)) with 0. rewrite Z.sub_0_r. cbn [app]. rewrite firstn_skipn. reflexivity.
Qed.
Lemma writer_ext w w' d r : (forall b p, w b p = w' b p) -> writer w d r -> writer w' d r.
Proof. intros E H b p Hp. rewrite <- E. apply H. exact Hp. Qed.
(** From the lemmas for enough room *)
Lemma writes_writer w d : writes w d -> (forall b p, 0 <= p <= zlen b -> p < zlen d -> w b p = err ERR_ASN1_BUF_TOO_SMALL) -> writer w d (zlen d).
Proof.
  intros H1 H2 b p Hp. destruct (Z.leb_spec (zlen d) p) as [L|L]; [|apply H2; assumption]. pose proof (zlen_nonneg d).
  assert (b = firstn (Z.to_nat (p - zlen d)) b ++ firstn (Z.to_nat (zlen d)) (skipn (Z.to_nat (p - zlen d)) b) ++ skipn (Z.to_nat p) b) as HB.
  { rewrite <- (firstn_skipn (Z.to_nat (p - zlen d)) b) at 1. f_equal. rewrite <- (firstn_skipn (Z.to_nat (zlen d)) (skipn _ b)) at 1. f_equal. rewrite skipn_skipn_add. f_equal. lia. }
  assert (zlen (firstn (Z.to_nat (p - zlen d)) b) = p - zlen d) as L1 by (unfold zlen in *; rewrite firstn_length; lia).
  assert (zlen (firstn (Z.to_nat (zlen d)) (skipn (Z.to_nat (p - zlen d)) b)) = zlen d) as L2 by (unfold zlen in *; rewrite firstn_length, skipn_length; lia).
  rewrite HB at 1. rewrite H1 by lia. rewrite L1. reflexivity.
Qed.
Lemma writer_len n : 0 <= n < 2 ^ 32 -> writer (fun b p => asn1_write_len b p n) (der_length n) (zlen (der_length n)).
Proof.
  intros Hn. apply writes_writer; [apply write_len_ok; exact Hn|]. intros b p Hp L. unfold asn1_write_len.
  destruct (der_length_cases n Hn) as [[R E]|[[R E]|[[R E]|[[R E]|[R E]]]]]; rewrite E in L; unfold zlen in L; cbn [length] in L;
    repeat match goal with |- context [?x <? ?y] => let H := fresh in destruct (x <? y) eqn:H | |- context [?x <=? ?y] => let H := fresh in destruct (x <=? y) eqn:H end; try reflexivity; lia.
Qed.
Lemma writer_tag t : writer (fun b p => asn1_write_tag b p t) [t] 1.
Proof. change 1 with (zlen [t]). apply writes_writer; [apply write_tag_ok|]. intros b p Hp L. change (zlen [t]) with 1 in L. unfold asn1_write_tag. replace (p <? 1) with true by lia. reflexivity. Qed.
Lemma writer_header tag n : 0 <= n < 2 ^ 32 -> writer (fun b p => asn1_write_header b p n tag) (der_header tag n) (n + zlen (der_header tag n)).
Proof.
  intros Hn. unfold asn1_write_header, der_header. change (tag :: der_length n) with ([tag] ++ der_length n).
  apply (writer_bind (fun b p => asn1_write_len b p n) (der_length n) (zlen (der_length n)) (fun x => let '(b, p, l1) := x in '(b, p, l2) <-? asn1_write_tag b p tag ;; ret (b, p, n + l1 + l2))); [apply writer_len; exact Hn|].
  cbn beta iota. change [tag] with ([] ++ [tag]) at 1.
  apply (writer_bind (fun b p => asn1_write_tag b p tag) [tag] 1 (fun x => let '(b, p, l2) := x in ret (b, p, n + zlen (der_length n) + l2))); [apply writer_tag|].
  rewrite zlen_app. change (zlen [tag]) with 1. replace (n + (1 + zlen (der_length n))) with (n + zlen (der_length n) + 1) by lia. apply writer_ret.
Qed.
Lemma writer_raw d : writer (fun b p => asn1_write_raw_buffer b p d) d (zlen d).
Proof.
  apply writes_writer; [apply write_raw_ok|]. intros b p Hp L. unfold asn1_write_raw_buffer. replace ((p <? 0) || (p <? zlen d)) with true by lia. reflexivity.
Qed.
Lemma writer_string tag text : zlen text < 2 ^ 31 -> writer (fun b p => asn1_write_string tag b p text) (der_tlv tag text) (zlen (der_tlv tag text)).
Proof.
  intros H. rewrite der_tlv_split, zlen_app, Z.add_comm. unfold asn1_write_string. pose proof (zlen_nonneg text).
  apply (writer_bind (fun b p => asn1_write_raw_buffer b p text) text (zlen text) (fun x => let '(b, p, l) := x in asn1_write_header b p l tag)); [apply writer_raw|].
  apply writer_header. lia.
Qed.
Lemma push_put b p x : 1 <= p <= zlen b -> push b p x = Ok (put b p [x], p - 1).
Proof.
  intros H. unfold push, put. rewrite wr_ok by (change (zlen [x]) with 1; lia). cbn [bind]. change (zlen [x]) with 1. cbn [length]. f_equal. f_equal. f_equal. f_equal. f_equal. lia.
Qed.
Lemma writer_push (w : bytes -> Z -> wres) x d r : writer w d r -> writer (fun b p => if p <? 1 then err ERR_ASN1_BUF_TOO_SMALL else '(b, p) <- push b p x ;; w b p) (d ++ [x]) r.
Proof.
  intros H b p Hp. rewrite zlen_app. change (zlen [x]) with 1. pose proof (zlen_nonneg d). destruct (Z.ltb_spec p 1) as [L|L].
  - replace (zlen d + 1 <=? p) with false by lia. reflexivity.
  - rewrite push_put by lia. cbn [bind]. rewrite H by (rewrite put_len by (change (zlen [x]) with 1; lia); lia).
    destruct (Z.leb_spec (zlen d) (p - 1)) as [L2|L2].
    + replace (zlen d + 1 <=? p) with true by lia. change (p - 1) with (p - zlen [x]) at 1. rewrite put_put by (change (zlen [x]) with 1; lia). replace (p - 1 - zlen d) with (p - (zlen d + 1)) by lia. reflexivity.
    + replace (zlen d + 1 <=? p) with false by lia. reflexivity.
Qed.
Lemma writer_bool v : writer (fun b p => asn1_write_bool b p v) (der_bool (negb (v =? 0))) 3.
Proof.
  unfold asn1_write_bool, der_bool. rewrite der_tlv_split. change (zlen [if negb (v =? 0) then 255 else 0]) with 1. change 3 with (1 + zlen (der_header TAG_BOOLEAN 1)).
  apply (writer_push (fun b p => asn1_write_header b p 1 TAG_BOOLEAN)). apply writer_header. lia.
Qed.
