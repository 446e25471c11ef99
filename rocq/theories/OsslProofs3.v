(** Lemmas on the implementation with OpenSSL: the texts of keys. *)
From Coq Require Import Lia.
From Verif Require Import Base BaseFacts StrstrModel StrstrProofs Base64Spec PemModel PemSpec PemProofs PemProofs2 AsnModel MpiModel AsnProofs AsnProofs2 AsnProofs3 AsnProofs4 AsnProofs5 RsaKeyModel RsaKeySpec
  RsaKeyProofs RsaKeyProofs2 TdpKeyModel OsslModel OsslSpec.

(** A PKCS#1 private key inside of another structure *)
Lemma parse_pkcs1_at k a post : key_small k -> rsa_check_privkey k = ret tt ->
  let der := der_private_key k in forall n, zlen der <= n -> zlen a + n < 2 ^ 63 -> pk_parse_key_pkcs1_der (a ++ der ++ post) (zlen a) n = ret k.
Proof.
  intros (HN & HE & HD & HP & HQ & HDP & HDQ & HQP) Hc der n Hn Hn2. unfold pk_parse_key_pkcs1_der. unfold der, der_private_key, der_sequence in *. rewrite zlen_tlv in Hn.
  set (c := der_integer 0 ++ _) in *. pose proof (zlen_nonneg a) as La.
  assert (zlen c = 3 + (zlen (der_integer (key_N k)) + (zlen (der_integer (key_E k)) + (zlen (der_integer (key_D k)) + (zlen (der_integer (key_P k)) +
    (zlen (der_integer (key_Q k)) + (zlen (der_integer (key_DP k)) + (zlen (der_integer (key_DQ k)) + zlen (der_integer (key_QP k))))))))) ) as Et.
  { unfold c. rewrite !zlen_app. change (zlen (der_integer 0)) with 3. reflexivity. }
  pose proof (int_len _ HN) as U1. pose proof (int_len _ HE) as U2. pose proof (int_len _ HD) as U3. pose proof (int_len _ HP) as U4.
  pose proof (int_len _ HQ) as U5. pose proof (int_len _ HDP) as U6. pose proof (int_len _ HDQ) as U7. pose proof (int_len _ HQP) as U8.
  pose proof (zlen_nonneg (der_integer (key_N k))) as V1. pose proof (zlen_nonneg (der_integer (key_E k))) as V2. pose proof (zlen_nonneg (der_integer (key_D k))) as V3.
  pose proof (zlen_nonneg (der_integer (key_P k))) as V4. pose proof (zlen_nonneg (der_integer (key_Q k))) as V5. pose proof (zlen_nonneg (der_integer (key_DP k))) as V6.
  pose proof (zlen_nonneg (der_integer (key_DQ k))) as V7. pose proof (zlen_nonneg (der_integer (key_QP k))) as V8.
  pose proof (header_len 48 (zlen c) ltac:(lia)) as Hh.
  pose proof (get_tag_ok 48 c a post (zlen a) (zlen a + n) eq_refl) as T.
  change TAG_CONSTRUCTED_SEQUENCE with 48. rewrite T by (rewrite ?zlen_tlv; lia). clear T. rewrite add_ok, bindr_ret. cbv zeta.
  rewrite der_tlv_split. set (hd := der_header 48 (zlen c)) in *. set (e := zlen a + zlen hd + zlen c) in *.
  unfold c. rewrite <- !app_assoc. rewrite (app_assoc a hd). rewrite <- (zlen_app a hd).
  assert (zlen (a ++ hd) = zlen a + zlen hd) as Lah by apply zlen_app.
  rewrite get_int0_ok by (try reflexivity; unfold e; lia). rewrite add_ok, bindr_ret. cbn [Z.eqb negb].
  assert (zlen (der_integer 0) = 3) as L3 by reflexivity. rewrite (app_assoc (a ++ hd)).
  do 8 next. rewrite !zlen_app.
  match goal with |- context [negb (?x =? e)] => replace (x =? e) with true by (unfold e; lia) end. cbn [negb]. cbv zeta.
  match goal with |- context [rsa_check_privkey ?x] => replace x with k by (destruct k; reflexivity) end. rewrite Hc. reflexivity.
Qed.

Lemma parse_pkcs8_ok k : key_small k -> key_tiny k -> rsa_check_privkey k = ret tt -> pk_parse_key_pkcs8 (der_pkcs8 k) (zlen (der_pkcs8 k)) = ret k.
Proof.
  intros Sk Tk Hc. destruct (der_private_ok k Tk) as [Db Dl]. unfold pk_parse_key_pkcs8, der_pkcs8, der_sequence.
  set (inner := der_private_key k) in *. set (c := der_integer 0 ++ _).
  pose proof (header_len 4 (zlen inner) ltac:(lia)) as H4. pose proof (zlen_nonneg (der_header 4 (zlen inner))) as N4.
  assert (Lc : zlen c = 18 + zlen (der_header 4 (zlen inner)) + zlen inner).
  { unfold c. rewrite !zlen_app, zlen_tlv. change (zlen (der_integer 0)) with 3. change (zlen der_rsa_algorithm) with 15. lia. }
  pose proof (header_len 48 (zlen c) ltac:(lia)) as Hh. pose proof (zlen_nonneg (der_header 48 (zlen c))) as Nh.
  pose proof (get_tag_ok 48 c [] [] 0 (zlen (der_tlv 48 c)) eq_refl) as T. cbn [app] in T. rewrite app_nil_r in T. change (zlen (@nil Z)) with 0 in T.
  change TAG_CONSTRUCTED_SEQUENCE with 48. rewrite T by (rewrite ?zlen_tlv; lia). clear T. rewrite add_ok, bindr_ret. cbv zeta.
  rewrite der_tlv_split. set (hd := der_header 48 (zlen c)) in *. rewrite Z.add_0_l. set (e := zlen hd + zlen c) in *.
  unfold c. rewrite get_int0_ok by (try reflexivity; unfold e; lia). rewrite add_ok, bindr_ret. cbn [Z.eqb negb].
  rewrite (app_assoc hd). assert (L3 : zlen (hd ++ der_integer 0) = zlen hd + 3) by (rewrite zlen_app; reflexivity).
  rewrite get_alg_ok by (rewrite ?L3; try reflexivity; unfold e; lia). rewrite add_ok, bindr_ret.
  rewrite (app_assoc _ der_rsa_algorithm). set (a := (hd ++ der_integer 0) ++ der_rsa_algorithm).
  assert (La : zlen a = zlen hd + 18) by (unfold a; rewrite zlen_app, L3; change (zlen der_rsa_algorithm) with 15; lia).
  pose proof (get_tag_ok 4 inner a [] (zlen (hd ++ der_integer 0) + 15) e) as T. rewrite app_nil_r in T. change TAG_OCTET_STRING with 4.
  rewrite T by (rewrite ?zlen_tlv, ?L3, ?La; unfold e; lia). clear T. rewrite add_ok, bindr_ret. cbv beta iota.
  rewrite (proj2 (Z.ltb_ge (zlen inner) 1)) by lia. rewrite der_tlv_split, app_assoc.
  pose proof (parse_pkcs1_at k (a ++ der_header 4 (zlen inner)) [] Sk Hc (zlen inner)) as P. cbv zeta in P. rewrite app_nil_r in P.
  rewrite zlen_app in P. apply P; [apply Z.le_refl|]. rewrite La. lia.
Qed.
Lemma der_pkcs8_ok k : key_tiny k -> is_bytes (der_pkcs8 k) /\ 0 < zlen (der_pkcs8 k) <= 2200.
Proof.
  intros Tk. destruct (der_private_ok k Tk) as [Db Dl]. unfold der_pkcs8, der_sequence.
  set (inner := der_private_key k) in *. pose proof (header_len 4 (zlen inner) ltac:(lia)) as H4.
  set (c := der_integer 0 ++ _).
  assert (Lc : zlen c = 18 + zlen (der_header 4 (zlen inner)) + zlen inner).
  { unfold c. rewrite !zlen_app, zlen_tlv. change (zlen (der_integer 0)) with 3. change (zlen der_rsa_algorithm) with 15. lia. }
  pose proof (header_len 48 (zlen c) ltac:(lia)) as Hh. pose proof (zlen_nonneg (der_header 48 (zlen c))). pose proof (zlen_nonneg (der_header 4 (zlen inner))).
  split.
  - apply der_tlv_bytes; [unfold is_byte; lia| |lia]. unfold c. apply is_bytes_app. split; [change (der_integer 0) with [2; 1; 0]; repeat (constructor; [unfold is_byte; lia|]); constructor|]. apply is_bytes_app.
    split; [change der_rsa_algorithm with [48; 13; 6; 9; 42; 134; 72; 134; 247; 13; 1; 1; 1; 5; 0]; repeat (constructor; [unfold is_byte; lia|]); constructor|]. apply der_tlv_bytes; [unfold is_byte; lia|assumption|lia].
  - rewrite zlen_tlv. lia.
Qed.

(** * Searching the lines of the text *)
Lemma find_sub_never p : forall s i, find_sub p s i = None -> forall a b, s <> a ++ p ++ b.
Proof.
  induction s as [|x s IH]; intros i H a b E; cbn [find_sub] in H.
  - destruct (is_prefixb p []) eqn:Ep; [discriminate|]. destruct a; [|discriminate]. cbn [app] in E. destruct p; [discriminate|discriminate].
  - destruct (is_prefixb p (x :: s)) eqn:Ep; [discriminate|].
    destruct a as [|d a]; [cbn [app] in E; rewrite E, is_prefix_app in Ep; discriminate Ep|]. injection E as <- E. exact (IH _ H a b E).
Qed.
Lemma find_sub_nodash p s i : ~ In 45 s -> find_sub (45 :: p) s i = None.
Proof. intros H. rewrite <- (app_nil_r s). rewrite find_sub_skip by assumption. reflexivity. Qed.
Lemma pkcs8_text k : PEM_write_PKCS8PrivateKey k = begin_private ++ 10 :: wrap64 0 (b64 (der_pkcs8 k)) ++ end_private ++ [10].
Proof. reflexivity. Qed.
Lemma pkcs8_no_begin k : is_bytes (der_pkcs8 k) -> find_sub begin_rsa_private (PEM_write_PKCS8PrivateKey k) 0 = None.
Proof.
  intros B. rewrite pkcs8_text. set (body := wrap64 0 _).
  transitivity (find_sub begin_rsa_private (body ++ end_private ++ [10]) 28); [reflexivity|].
  unfold begin_rsa_private at 1. rewrite find_sub_skip by (apply body_no_dash; exact B). reflexivity.
Qed.
Lemma pkcs8_no_end k rest : is_bytes (der_pkcs8 k) -> ~ In 45 rest -> find_sub end_rsa_private (PEM_write_PKCS8PrivateKey k ++ rest) 0 = None.
Proof.
  intros B R. rewrite pkcs8_text. set (body := wrap64 0 _).
  replace ((begin_private ++ 10 :: body ++ end_private ++ [10]) ++ rest) with (begin_private ++ 10 :: body ++ end_private ++ 10 :: rest)
    by (rewrite <- !app_assoc; cbn [app]; rewrite <- !app_assoc; reflexivity).
  transitivity (find_sub end_rsa_private (body ++ end_private ++ 10 :: rest) 28); [reflexivity|].
  unfold end_rsa_private at 1. rewrite find_sub_skip by (apply body_no_dash; exact B).
  match goal with |- find_sub _ _ ?i = _ => transitivity (find_sub end_rsa_private rest (i + 1 + 1 + 1 + 1 + 1 + 1 + 1 + 1 + 1 + 1 + 1 + 1 + 1 + 1 + 1 + 1 + 1 + 1 + 1 + 1 + 1 + 1 + 1 + 1 + 1 + 1)) end;
    [reflexivity|]. apply find_sub_nodash. exact R.
Qed.
Lemma strstrn_none h n : zlen h <= 2 ^ 62 -> zlen n <= 2 ^ 62 -> find_sub n h 0 = None -> strstrn h (zlen h) n (zlen n) = Ok None.
Proof.
  intros Hh Hn F. destruct (strstrn_first h n Hh Hn) as (r & -> & H). destruct r as [k|]; [|reflexivity].
  destruct H as ((a & b & E & _) & _). destruct (find_sub_never _ _ _ F a b E).
Qed.
Lemma pkcs8_len k : key_tiny k -> zlen (PEM_write_PKCS8PrivateKey k) <= 5000.
Proof.
  intros Tk. destruct (der_pkcs8_ok k Tk) as [B L]. pose proof (text_fits (pem_header label_pkcs8) (pem_footer label_pkcs8) (der_pkcs8 k)) as F.
  pose proof (pem_size_bound (pem_header label_pkcs8) (pem_footer label_pkcs8) (der_pkcs8 k) ltac:(discriminate) ltac:(discriminate) ltac:(lia)).
  rewrite zlen_app in F. change (zlen [0]) with 1 in F. unfold PEM_write_PKCS8PrivateKey. lia.
Qed.
Lemma o_deserialize_none read k rest : key_tiny k -> ~ In 45 rest -> zlen rest <= 2 ^ 61 ->
  ossl_deserialize read (PEM_write_PKCS8PrivateKey k ++ rest) (zlen (PEM_write_PKCS8PrivateKey k ++ rest)) = Throw RuntimeError.
Proof.
  intros Tk R Lr. destruct (der_pkcs8_ok k Tk) as [B L]. pose proof (pkcs8_len k Tk) as Lt.
  assert (Hz : zlen (PEM_write_PKCS8PrivateKey k ++ rest) <= 2 ^ 62) by (rewrite zlen_app; lia).
  pose proof (strstrn_none _ end_rsa_private Hz ltac:(discriminate) (pkcs8_no_end k rest B R)) as F.
  pose proof (strstrn_confined (PEM_write_PKCS8PrivateKey k ++ rest) [] end_rsa_private [0] Hz ltac:(discriminate)) as C. rewrite app_nil_r in C.
  rewrite F in C. unfold ossl_deserialize. change (strstrn ?a ?b tdp_key_suffix tdp_suffix_size) with (strstrn a b (end_rsa_private ++ [0]) (zlen end_rsa_private)).
  rewrite C. reflexivity.
Qed.

(** The text written by OpenSSL is read by the implementation with mbedTLS *)
Lemma pkcs8_mbedtls alloc k : (forall n, alloc n = true) -> private_ok k -> key_N k < 2 ^ 2048 -> 0 <= key_D k < key_N k ->
  tdp_from_private alloc (PEM_write_PKCS8PrivateKey k) = Ok k.
Proof.
  intros Al Hk Hm Hd. pose proof (private_tiny k Hk Hm Hd) as T. destruct (der_pkcs8_ok k T) as [Db Dl]. pose proof (key_tiny_small k T) as S.
  pose proof T as ([TN _] & [TE _] & [TD _] & [TP _] & [TQ _] & _).
  assert (rsa_check_privkey k = ret tt) as Hc by (apply check_privkey_ok; try lia; assumption).
  assert (rsa_check_pubkey (key_pub k) = ret tt) as Hc2 by (apply check_pubkey_ok; cbn [key_pub pub_N pub_E]; try lia; destruct Hk; assumption).
  unfold tdp_from_private, throw_if_err, pk_parse_key. set (s := PEM_write_PKCS8PrivateKey k).
  assert (Nz : nonzero s). { unfold s, PEM_write_PKCS8PrivateKey. apply text_nonzero; [unfold nonzero; lit_nonzero|unfold nonzero; lit_nonzero|assumption]. }
  assert (R1 : read_pem alloc begin_rsa_private end_rsa_private (s ++ [0]) (zlen s + 1) = err ERR_PEM_NO_HEADER_FOOTER_PRESENT).
  { unfold read_pem. pose proof (zlen_nonneg s). replace (zlen s + 1 =? 0) with false by lia. rewrite rd1_at by lia. cbn [bind Z.eqb negb].
    unfold pem_read_buffer, c_strstr. rewrite c_string_ok by assumption. cbn [bind]. unfold s. rewrite pkcs8_no_begin by assumption. reflexivity. }
  rewrite R1. unfold err at 1. cbn [bind]. rewrite Z.eqb_refl. cbn [negb].
  unfold s at 1 2. rewrite pkcs8_text.
  rewrite (read_pem_ok alloc Al begin_private end_private (tl end_private) (der_pkcs8 k) [10] Db); cycle 1.
  - intros Y. rewrite Y in Dl. change (zlen (@nil Z)) with 0 in Dl. lia.
  - lia.
  - reflexivity.
  - unfold nonzero. lit_nonzero.
  - intros t. reflexivity.
  - unfold ret. cbn [bind]. rewrite parse_pkcs8_ok by assumption. unfold ret. cbn [bind]. rewrite Hc2. reflexivity.
Qed.
