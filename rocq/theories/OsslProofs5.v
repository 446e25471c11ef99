(** Lemmas on the implementation with OpenSSL: reading the keys written by the implementation with mbedTLS. *)
From Coq Require Import Lia ZifyBool.
From Verif Require Import Base BaseFacts StrstrModel StrstrProofs Base64Spec PemModel PemSpec PemProofs PemProofs2 AsnModel MpiModel AsnProofs AsnProofs2 AsnProofs3 AsnProofs4 AsnProofs5 RsaKeyModel RsaKeySpec
  RsaKeyProofs RsaKeyProofs2 TdpKeyModel OsslModel OsslSpec OsslProofs4.

(** deserialize with OpenSSL on the text which the implementation with mbedTLS writes *)
Lemma o_deserialize_text k rest : private_ok k -> key_N k < 2 ^ 2048 -> 0 <= key_D k < key_N k -> zlen rest < 2 ^ 61 ->
  forall read, ossl_deserialize read (pem_private_key k ++ rest) (zlen (pem_private_key k ++ rest)) =
    (o <- ossl_from_private read (removelast (pem_private_key k)) ;; Ok (o, zlen (pem_private_key k))).
Proof.
  intros Hk Hm Hd Hr read. pose proof (private_tiny k Hk Hm Hd) as T. destruct (der_private_ok k T) as [Db Dl]. pose proof (private_text_len k T) as Lt.
  assert (Hz : zlen (pem_private_key k ++ rest) <= 2 ^ 62) by (rewrite zlen_app; lia).
  set (body := wrap64 0 (b64 (der_private_key k))) in *.
  assert (pem_private_key k = begin_rsa_private ++ 10 :: body ++ end_rsa_private ++ [10]) as E by reflexivity.
  set (t := begin_rsa_private ++ 10 :: body ++ end_rsa_private).
  assert (pem_private_key k = t ++ [10]) as Et by (rewrite E; unfold t; rewrite <- !app_assoc; cbn [app]; rewrite <- !app_assoc; reflexivity).
  rewrite Et in *. rewrite removelast_last.
  set (h := (t ++ [10]) ++ rest) in *.
  assert (h = t ++ 10 :: rest) as Eh by (unfold h; rewrite <- app_assoc; reflexivity).
  set (pos := 32 + zlen body). pose proof (zlen_nonneg body). pose proof (zlen_nonneg rest).
  assert (zlen t = pos + 29) as Lp.
  { unfold t. rewrite !zlen_app, !zlen_cons, !zlen_app. change (zlen begin_rsa_private) with 31. change (zlen end_rsa_private) with 29. unfold pos. lia. }
  assert (zlen h = pos + 29 + 1 + zlen rest) as Lh by (rewrite Eh, zlen_app, zlen_cons; lia).
  assert (find_sub end_rsa_private h 0 = Some pos) as F.
  { rewrite Eh. transitivity (find_sub end_rsa_private (body ++ end_rsa_private ++ 10 :: rest) 32).
    - unfold t. rewrite <- app_assoc. cbn [app]. rewrite <- app_assoc. reflexivity.
    - unfold end_rsa_private at 1. rewrite find_sub_skip by (apply body_no_dash; assumption). apply find_sub_here. apply is_prefix_app. }
  assert (strstrn h (zlen h) tdp_key_suffix tdp_suffix_size = Ok (Some pos)) as Fs.
  { rewrite <- (strstrn_find (fun _ => true) (fun _ => eq_refl) h end_rsa_private pos Hz ltac:(discriminate) F).
    pose proof (strstrn_confined h [] end_rsa_private [0] Hz ltac:(discriminate)) as C. rewrite app_nil_r in C. exact C. }
  unfold ossl_deserialize. rewrite Fs. cbn [bind]. replace (pos <=? 0) with false by lia. cbv zeta.
  assert (u64 (tdp_suffix_size + pos) = pos + 29) as Eu by (unfold u64, tdp_suffix_size; rewrite Z.mod_small; lia). rewrite Eu.
  assert (rd h 0 (pos + tdp_suffix_size) = Ok t) as Rd by (rewrite Eh; apply rd_prefix; rewrite Lp; reflexivity). rewrite Rd. cbn [bind].
  destruct (ossl_from_private read t) as [o| | | |]; cbn [bind]; try reflexivity.
  replace (pos + 29 <? zlen h) with true by lia. rewrite Eh, rd1_at by (symmetry; exact Lp). cbn [bind Z.eqb Pos.eqb].
  f_equal. f_equal. rewrite zlen_app. change (zlen [10]) with 1. unfold u64. rewrite Z.mod_small; lia.
Qed.
Lemma o_deserialize_reads k rest : private_ok k -> key_N k < 2 ^ 2048 -> 0 <= key_D k < key_N k -> zlen rest < 2 ^ 61 -> forall read k',
  read (removelast (pem_private_key k)) = Some (Some k') ->
  exists o, ossl_deserialize read (pem_private_key k ++ rest) (zlen (pem_private_key k ++ rest)) = Ok (o, zlen (pem_private_key k)) /\ made o /\ oi_key o = k'.
Proof.
  intros Hk Hm Hd Hr read k' R. rewrite o_deserialize_text by assumption. pose proof (private_text_len k (private_tiny k Hk Hm Hd)) as Lt.
  assert (zlen (removelast (pem_private_key k)) < 2 ^ 31) as L.
  { assert (pem_private_key k = removelast (pem_private_key k) ++ [last (pem_private_key k) 0]) as X by (apply app_removelast_last; discriminate).
    rewrite X, zlen_app in Lt. change (zlen [_]) with 1 in Lt. lia. }
  destruct (o_constructors _ L) as (_ & _ & C & _). destruct (C read k' R) as (o & E & M & K). exists o. rewrite E. auto.
Qed.

(** Texts whose length does not fit the int given to BIO_new_mem_buf *)
Lemma o_long_text pre rest : zlen (pre ++ rest) = 2 ^ 32 + zlen pre -> zlen pre < 2 ^ 31 -> BIO_text (pre ++ rest) = pre.
Proof.
  intros L Lp. unfold BIO_text. rewrite L. pose proof (zlen_nonneg pre) as P0.
  replace (2 ^ 32 + zlen pre + 2 ^ 31) with (zlen pre + 2 ^ 31 + 1 * 2 ^ 32) by lia. rewrite Z.mod_add, Z.mod_small by lia.
  rewrite (proj2 (Z.ltb_ge _ _)) by lia. replace (Z.to_nat _) with (length pre) by (unfold zlen; lia).
  rewrite firstn_app, Nat.sub_diag, firstn_all, firstn_O. apply app_nil_r.
Qed.
Lemma o_middle_text pre rest : ~ In 0 pre -> 2 ^ 31 <= zlen (pre ++ 0 :: rest) < 2 ^ 32 -> BIO_text (pre ++ 0 :: rest) = pre.
Proof.
  intros Z0 L. unfold BIO_text. replace (_ <? 0) with true.
  - clear L. induction pre as [|c pre IH]; [reflexivity|]. cbn [app upto_zero]. destruct (Z.eqb_spec c 0) as [->|]; [destruct Z0; left; reflexivity|].
    f_equal. apply IH. intros I. apply Z0. right. exact I.
  - set (n := zlen _) in *. symmetry. apply Z.ltb_lt. destruct (Z_lt_ge_dec (n + 2 ^ 31) (2 ^ 32)); [lia|].
    replace (n + 2 ^ 31) with (n + 2 ^ 31 - 2 ^ 32 + 1 * 2 ^ 32) by lia. rewrite Z.mod_add, Z.mod_small by lia. lia.
Qed.
Lemma o_long_texts pre rest : 
  (zlen (pre ++ rest) = 2 ^ 32 + zlen pre -> zlen pre < 2 ^ 31 ->
    (forall read, ossl_from_public read (pre ++ rest) = ossl_from_public read pre) /\ (forall read, ossl_from_private read (pre ++ rest) = ossl_from_private read pre)) /\
  (~ In 0 pre -> zlen pre < 2 ^ 31 -> 2 ^ 31 <= zlen (pre ++ 0 :: rest) < 2 ^ 32 ->
    (forall read, ossl_from_public read (pre ++ 0 :: rest) = ossl_from_public read pre) /\ (forall read, ossl_from_private read (pre ++ 0 :: rest) = ossl_from_private read pre)).
Proof.
  split.
  - intros L Lp. unfold ossl_from_public, ossl_from_private. rewrite (o_long_text pre rest L Lp), (bio_text_short pre Lp). split; reflexivity.
  - intros Z0 Lp L. unfold ossl_from_public, ossl_from_private. rewrite (o_middle_text pre rest Z0 L), (bio_text_short pre Lp). split; reflexivity.
Qed.
