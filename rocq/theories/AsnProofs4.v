(** Reading the DER encodings of keys. *)
From Coq Require Import Lia ZifyBool.
From Verif Require Import Base BaseFacts Base64Proofs MpiModel MpiProofs PemProofs2 AsnModel RsaKeyModel RsaKeySpec AsnProofs AsnProofs2 AsnProofs3.

Lemma header_cons tag n : zlen (der_header tag n) = 1 + zlen (der_length n).
Proof. unfold der_header. apply zlen_cons. Qed.
Lemma get_tag_ok tag c a post p e : p = zlen a -> zlen c < 2 ^ 32 -> zlen a + zlen (der_tlv tag c) <= e < 2 ^ 63 ->
  asn1_get_tag (a ++ der_tlv tag c ++ post) p e tag = ret (zlen a + zlen (der_header tag (zlen c)), zlen c).
Proof.
  intros -> Hc He. rewrite zlen_tlv in He. pose proof (zlen_nonneg c). pose proof (header_len tag (zlen c) ltac:(lia)). unfold asn1_get_tag. replace (e - zlen a <? 1) with false by lia.
  unfold der_tlv. change (a ++ (tag :: der_length (zlen c) ++ c) ++ post) with (a ++ tag :: ((der_length (zlen c) ++ c) ++ post)).
  rewrite rd1_at by reflexivity. cbn [bind]. rewrite Z.eqb_refl. cbn [negb].
  replace (a ++ tag :: (der_length (zlen c) ++ c) ++ post) with ((a ++ [tag]) ++ der_length (zlen c) ++ (c ++ post)) by (rewrite <- !app_assoc; reflexivity).
  assert (zlen (a ++ [tag]) = zlen a + 1) as La by (rewrite zlen_app; reflexivity). rewrite <- La.
  pose proof (header_cons tag (zlen c)) as HC.
  rewrite get_len_ok by lia. rewrite La, HC. match goal with |- ret (?x, _) = ret (?y, _) => replace x with y by lia end. reflexivity.
Qed.
Lemma int_bytes_decode x : 0 <= x -> be_decode (int_bytes x) = x /\ is_bytes (int_bytes x).
Proof.
  intros H. split; [|apply be_encode_bytes]. apply be_decode_encode. split; [lia|]. destruct (x =? 0) eqn:E; [cbn; lia|].
  pose proof (Z.log2_nonneg x). rewrite Z2Nat.id by (Z.div_mod_to_equations; lia). change 256 with (2 ^ 8). rewrite <- Z.pow_mul_r by (try lia; Z.div_mod_to_equations; lia).
  apply Z.lt_le_trans with (2 ^ Z.succ (Z.log2 x)); [apply Z.log2_spec; lia|]. apply Z.pow_le_mono_r; [lia|]. Z.div_mod_to_equations; lia.
Qed.
Lemma get_mpi_ok x a post p e : small x -> p = zlen a -> zlen a + zlen (der_integer x) <= e < 2 ^ 63 ->
  asn1_get_mpi (a ++ der_integer x ++ post) p e = ret (zlen a + zlen (der_integer x), x).
Proof.
  intros [H0 Hs] Hp He. unfold der_integer in *. fold (int_bytes x) in *. unfold asn1_get_mpi. pose proof (zlen_int_bytes x H0). change TAG_INTEGER with 2.
  rewrite get_tag_ok by (try assumption; lia). unfold bindr at 1. unfold ret at 1. cbn [bind].
  rewrite der_tlv_split, zlen_app. replace (a ++ (der_header 2 (zlen (int_bytes x)) ++ int_bytes x) ++ post) with ((a ++ der_header 2 (zlen (int_bytes x))) ++ int_bytes x ++ post) by (rewrite <- !app_assoc; reflexivity).
  rewrite rd_mid by (rewrite ?zlen_app; lia). cbn [bind]. destruct (int_bytes_decode x ltac:(lia)) as [D B].
  rewrite read_binary_ok by (try assumption; lia). unfold bindr, ret. cbn [bind]. rewrite D. match goal with |- Ok (inr (?x, ?z)) = Ok (inr (?y, ?w)) => replace x with y by lia; reflexivity | |- ret (?x, _) = ret (?y, _) => replace x with y by lia; reflexivity end.
Qed.
Lemma get_int0_ok a post p e : p = zlen a -> zlen a + 3 <= e < 2 ^ 63 -> asn1_get_int (a ++ der_integer 0 ++ post) p e = ret (zlen a + 3, 0).
Proof.
  intros Hp He. unfold asn1_get_int. change (der_integer 0) with (der_tlv 2 [0]). change TAG_INTEGER with 2.
  rewrite get_tag_ok by (try assumption; change (zlen (der_tlv 2 [0])) with 3; change (zlen [0]) with 1; lia). unfold bindr, ret. cbn [bind].
  change (zlen (der_header 2 (zlen [0]))) with 2. change (zlen [0]) with 1. cbn [Z.eqb Z.ltb Z.compare orb Pos.compare Pos.compare_cont].
  change (der_tlv 2 [0]) with [2; 1; 0].
  rp 2. cbn [bind]. change (Z.land 0 0x80 =? 0) with true. cbn [negb]. change (Z.to_nat 1) with 1%nat. cbn [get_int_loop]. rp 2.
  cbn [bind]. change ((0 <? 0) || (2 ^ 31 <=? 0 * 256)) with false. cbn iota. cbn [bind]. match goal with |- Ok (inr (?x, ?z)) = Ok (inr (?y, ?w)) => replace x with y by lia; reflexivity | |- ret (?x, _) = ret (?y, _) => replace x with y by lia; reflexivity end.
Qed.

Lemma add_ok {A} c (a : A) : err_add c (ret a) = ret a.
Proof. reflexivity. Qed.
Lemma bindr_ret {A B} (a : A) (f : A -> res B) : bindr (ret a) f = f a.
Proof. reflexivity. Qed.

Lemma get_rsapubkey_ok k a post p e : p = zlen a -> small (pub_N k) -> small (pub_E k) -> rsa_check_pubkey k = ret tt ->
  e = zlen a + zlen (der_sequence (der_integer (pub_N k) ++ der_integer (pub_E k))) -> e < 2 ^ 63 ->
  pk_get_rsapubkey (a ++ der_sequence (der_integer (pub_N k) ++ der_integer (pub_E k)) ++ post) p e = ret k.
Proof.
  intros Hp HN HE Hc He He2. unfold pk_get_rsapubkey, der_sequence in *. pose proof (int_len _ HN). pose proof (int_len _ HE).
  pose proof (zlen_nonneg (der_integer (pub_N k))). pose proof (zlen_nonneg (der_integer (pub_E k))).
  change TAG_CONSTRUCTED_SEQUENCE with 48. rewrite get_tag_ok by (try assumption; rewrite ?zlen_app; lia). rewrite add_ok, bindr_ret.
  rewrite zlen_tlv in He. set (hd := der_header 48 (zlen (der_integer (pub_N k) ++ der_integer (pub_E k)))) in *.
  replace (zlen a + zlen hd + zlen (der_integer (pub_N k) ++ der_integer (pub_E k)) =? e) with true by lia. cbn [negb].
  rewrite der_tlv_split. fold hd. rewrite zlen_app in He.
  replace (a ++ (hd ++ der_integer (pub_N k) ++ der_integer (pub_E k)) ++ post) with ((a ++ hd) ++ der_integer (pub_N k) ++ (der_integer (pub_E k) ++ post)) by (rewrite <- !app_assoc; reflexivity).
  rewrite get_mpi_ok by (try assumption; rewrite ?zlen_app; lia). rewrite add_ok, bindr_ret.
  replace ((a ++ hd) ++ der_integer (pub_N k) ++ (der_integer (pub_E k) ++ post)) with (((a ++ hd) ++ der_integer (pub_N k)) ++ der_integer (pub_E k) ++ post) by (rewrite <- !app_assoc; reflexivity).
  rewrite get_mpi_ok by (try assumption; rewrite ?zlen_app; lia). rewrite add_ok, bindr_ret. rewrite !zlen_app.
  match goal with |- context [negb (?x =? e)] => replace (x =? e) with true by lia end. cbn [negb]. cbv zeta.
  replace {| pub_N := pub_N k; pub_E := pub_E k |} with k by (destruct k; reflexivity). rewrite Hc. reflexivity.
Qed.

Lemma get_alg_ok a post p e : p = zlen a -> zlen a + 15 <= e < 2 ^ 63 -> pk_get_pk_alg (a ++ der_rsa_algorithm ++ post) p e = ret (zlen a + 15).
Proof.
  intros Hp He. unfold pk_get_pk_alg, asn1_get_alg. change TAG_CONSTRUCTED_SEQUENCE with 48.
  assert (asn1_get_tag (a ++ der_rsa_algorithm ++ post) p e 48 = ret (zlen a + 2, 13)) as ->.
  { unfold der_rsa_algorithm, der_sequence. rewrite get_tag_ok; [reflexivity|assumption|reflexivity|]. match goal with |- zlen a + ?x <= _ < _ => change x with 15 end. lia. }
  rewrite bindr_ret. replace (e - (zlen a + 2) <? 1) with false by lia.
  change der_rsa_algorithm with [48; 13; 6; 9; 42; 134; 72; 134; 247; 13; 1; 1; 1; 5; 0]. rp 2. cbn [bind]. cbv zeta.
  assert (asn1_get_tag (a ++ [48; 13; 6; 9; 42; 134; 72; 134; 247; 13; 1; 1; 1; 5; 0] ++ post) (zlen a + 2) (zlen a + 2 + 13) TAG_OID = ret (zlen a + 4, 9)) as ->.
  { change (a ++ [48; 13; 6; 9; 42; 134; 72; 134; 247; 13; 1; 1; 1; 5; 0] ++ post) with (a ++ [48; 13] ++ (der_tlv 6 rsa_oid ++ 5 :: 0 :: post)).
    rewrite app_assoc. change TAG_OID with 6. rewrite get_tag_ok; [|rewrite zlen_app; reflexivity|reflexivity|change (zlen (der_tlv 6 rsa_oid)) with 11; rewrite zlen_app; change (zlen [48; 13]) with 2; lia].
    rewrite zlen_app. change (zlen [48; 13]) with 2. change (zlen rsa_oid) with 9. change (zlen (der_header 6 9)) with 2. match goal with |- Ok (inr (?x, ?z)) = Ok (inr (?y, ?w)) => replace x with y by lia; reflexivity | |- ret (?x, _) = ret (?y, _) => replace x with y by lia; reflexivity end. }
  rewrite bindr_ret. replace (zlen a + 4 + 9 =? zlen a + 2 + 13) with false by lia. rp 13. cbn [bind].
  assert (asn1_get_len (a ++ [48; 13; 6; 9; 42; 134; 72; 134; 247; 13; 1; 1; 1; 5; 0] ++ post) (zlen a + 4 + 9 + 1) (zlen a + 2 + 13) = ret (zlen a + 15, 0)) as ->.
  { change (a ++ [48; 13; 6; 9; 42; 134; 72; 134; 247; 13; 1; 1; 1; 5; 0] ++ post) with (a ++ [48; 13; 6; 9; 42; 134; 72; 134; 247; 13; 1; 1; 1; 5] ++ (der_length 0 ++ post)).
    rewrite app_assoc. replace (zlen a + 4 + 9 + 1) with (zlen (a ++ [48; 13; 6; 9; 42; 134; 72; 134; 247; 13; 1; 1; 1; 5])) by (rewrite zlen_app; match goal with |- _ + ?x = _ => change x with 14 end; lia).
    rewrite get_len_ok; [|lia|]; rewrite zlen_app; change (zlen (der_length 0)) with 1; match goal with |- context [zlen a + ?x + 1] => change x with 14 end; [|lia].
    match goal with |- Ok (inr (?x, ?z)) = Ok (inr (?y, ?w)) => replace x with y by lia; reflexivity | |- ret (?x, _) = ret (?y, _) => replace x with y by lia; reflexivity end. }
  rewrite bindr_ret. replace (zlen a + 15 + 0 =? zlen a + 2 + 13) with true by lia. cbn [negb]. rewrite add_ok, bindr_ret. cbn [Z.eqb Pos.eqb negb].
  change (a ++ [48; 13; 6; 9; 42; 134; 72; 134; 247; 13; 1; 1; 1; 5; 0] ++ post) with (a ++ [48; 13; 6; 9] ++ (rsa_oid ++ 5 :: 0 :: post)). rewrite app_assoc.
  rewrite rd_mid by (rewrite ?zlen_app; try reflexivity; change (zlen [48; 13; 6; 9]) with 4; lia). cbn [bind]. rewrite bytes_eqb_refl. cbn [negb].
  change (negb (5 =? TAG_NULL) && negb (5 =? 0) || negb (0 =? 0)) with false. cbn iota. rewrite Z.add_0_r. reflexivity.
Qed.

Lemma parse_subpubkey_ok k : small (pub_N k) -> small (pub_E k) -> rsa_check_pubkey k = ret tt ->
  let der := der_public_key (pub_N k) (pub_E k) in pk_parse_subpubkey der 0 (zlen der) = ret k.
Proof.
  intros HN HE Hc der. unfold pk_parse_subpubkey.
  set (inner := der_sequence (der_integer (pub_N k) ++ der_integer (pub_E k))).
  assert (0 < zlen inner <= 30000) as Li.
  { unfold inner, der_sequence. rewrite zlen_tlv, !zlen_app. pose proof (int_len _ HE). pose proof (int_len _ HN).
    pose proof (zlen_nonneg (der_integer (pub_E k))). pose proof (zlen_nonneg (der_integer (pub_N k))).
    pose proof (header_len 48 (zlen (der_integer (pub_N k)) + zlen (der_integer (pub_E k))) ltac:(lia)). lia. }
  set (bs := der_tlv 3 (0 :: inner)). set (c := der_rsa_algorithm ++ bs).
  assert (der = der_tlv 48 c) as Ed by reflexivity. clearbody der. subst der.
  pose proof (zlen_cons 0 inner) as L0. pose proof (header_len 3 (zlen (0 :: inner)) ltac:(lia)) as Lh.
  assert (zlen bs = zlen (der_header 3 (zlen (0 :: inner))) + (1 + zlen inner)) as Lb by (unfold bs; rewrite zlen_tlv; lia).
  assert (zlen c = 15 + zlen bs) as Lc by (unfold c; rewrite zlen_app; reflexivity).
  pose proof (header_len 48 (zlen c) ltac:(lia)) as Lh2.
  pose proof (get_tag_ok 48 c [] [] 0 (zlen (der_tlv 48 c)) eq_refl) as T. cbn [app] in T. rewrite app_nil_r in T. change (zlen (@nil Z)) with 0 in T. rewrite !Z.add_0_l in T.
  change TAG_CONSTRUCTED_SEQUENCE with 48. rewrite T by (rewrite ?zlen_tlv; lia). clear T. rewrite add_ok, bindr_ret. cbv zeta.
  rewrite der_tlv_split. set (hd := der_header 48 (zlen c)) in *. 
  pose proof (get_alg_ok hd bs (zlen hd) (zlen hd + zlen c) eq_refl ltac:(lia)) as T. unfold c at 1. rewrite T. clear T. rewrite bindr_ret.
  unfold asn1_get_bitstring_null. change TAG_BIT_STRING with 3.
  pose proof (get_tag_ok 3 (0 :: inner) (hd ++ der_rsa_algorithm) [] (zlen hd + 15) (zlen hd + zlen c)) as T. rewrite app_nil_r in T. fold bs in T. rewrite <- app_assoc in T. fold c in T.
  rewrite T by (rewrite ?zlen_app; try reflexivity; change (zlen der_rsa_algorithm) with 15; lia). clear T. rewrite bindr_ret. rewrite zlen_app. change (zlen der_rsa_algorithm) with 15.
  replace (zlen (0 :: inner) <? 2) with false by lia.
  assert (hd ++ c = (hd ++ der_rsa_algorithm ++ der_header 3 (zlen (0 :: inner))) ++ 0 :: inner) as E1 by (unfold c, bs; rewrite der_tlv_split, <- !app_assoc; reflexivity).
  rewrite E1. rewrite rd1_at by (rewrite !zlen_app; change (zlen der_rsa_algorithm) with 15; lia). cbn [bind Z.eqb negb]. rewrite add_ok, bindr_ret.
  match goal with |- context [negb (?x =? ?y)] => replace (x =? y) with true by lia end. cbn [negb].
  pose proof (get_rsapubkey_ok k ((hd ++ der_rsa_algorithm ++ der_header 3 (zlen (0 :: inner))) ++ [0]) []
    (zlen hd + 15 + zlen (der_header 3 (zlen (0 :: inner))) + 1) (zlen hd + zlen c)) as T. fold inner in T. rewrite app_nil_r in T.
  rewrite <- (app_assoc (hd ++ der_rsa_algorithm ++ der_header 3 (zlen (0 :: inner))) [0] inner) in T. change ([0] ++ inner) with (0 :: inner) in T.
  rewrite T; try assumption; try reflexivity; rewrite ?zlen_app; change (zlen der_rsa_algorithm) with 15; change (zlen [0]) with 1; lia.
Qed.

Lemma parse_pkcs1_ok k post : key_small k -> rsa_check_privkey k = ret tt ->
  let der := der_private_key k in forall n, zlen der <= n < 2 ^ 63 -> pk_parse_key_pkcs1_der (der ++ post) 0 n = ret k.
Proof.
  intros (HN & HE & HD & HP & HQ & HDP & HDQ & HQP) Hc der n Hn. unfold pk_parse_key_pkcs1_der. unfold der, der_private_key, der_sequence in *. rewrite zlen_tlv in Hn.
  set (c := der_integer 0 ++ _) in *.
  assert (zlen c = 3 + (zlen (der_integer (key_N k)) + (zlen (der_integer (key_E k)) + (zlen (der_integer (key_D k)) + (zlen (der_integer (key_P k)) +
    (zlen (der_integer (key_Q k)) + (zlen (der_integer (key_DP k)) + (zlen (der_integer (key_DQ k)) + zlen (der_integer (key_QP k))))))))) ) as Et.
  { unfold c. rewrite !zlen_app. change (zlen (der_integer 0)) with 3. reflexivity. }
  pose proof (int_len _ HN) as U1. pose proof (int_len _ HE) as U2. pose proof (int_len _ HD) as U3. pose proof (int_len _ HP) as U4.
  pose proof (int_len _ HQ) as U5. pose proof (int_len _ HDP) as U6. pose proof (int_len _ HDQ) as U7. pose proof (int_len _ HQP) as U8.
  pose proof (zlen_nonneg (der_integer (key_N k))) as V1. pose proof (zlen_nonneg (der_integer (key_E k))) as V2. pose proof (zlen_nonneg (der_integer (key_D k))) as V3.
  pose proof (zlen_nonneg (der_integer (key_P k))) as V4. pose proof (zlen_nonneg (der_integer (key_Q k))) as V5. pose proof (zlen_nonneg (der_integer (key_DP k))) as V6.
  pose proof (zlen_nonneg (der_integer (key_DQ k))) as V7. pose proof (zlen_nonneg (der_integer (key_QP k))) as V8.
  pose proof (header_len 48 (zlen c) ltac:(lia)) as Hh.
  pose proof (get_tag_ok 48 c [] post 0 (0 + n) eq_refl) as T. cbn [app] in T. change (zlen (@nil Z)) with 0 in T. rewrite !Z.add_0_l in T.
  change TAG_CONSTRUCTED_SEQUENCE with 48. rewrite Z.add_0_l. rewrite T by (rewrite ?zlen_tlv; lia). clear T. rewrite add_ok, bindr_ret. cbv zeta.
  rewrite der_tlv_split. set (hd := der_header 48 (zlen c)) in *. set (e := zlen hd + zlen c) in *.
  unfold c. rewrite <- !app_assoc.
  rewrite get_int0_ok by (try reflexivity; unfold e; lia). rewrite add_ok, bindr_ret. cbn [Z.eqb negb].
  assert (zlen (der_integer 0) = 3) as L3 by reflexivity. rewrite (app_assoc hd).
  Ltac next := match goal with |- context [asn1_get_mpi (?a ++ der_integer ?x ++ ?q) ?p ?e] =>
    rewrite (get_mpi_ok x a q p e); [|assumption|rewrite ?zlen_app; lia|rewrite ?zlen_app; lia]; rewrite add_ok, bindr_ret; rewrite ?(app_assoc a (der_integer x)) end.
  do 8 next. rewrite !zlen_app.
  match goal with |- context [negb (?x =? e)] => replace (x =? e) with true by (unfold e; lia) end. cbn [negb]. cbv zeta.
  match goal with |- context [rsa_check_privkey ?x] => replace x with k by (destruct k; reflexivity) end. rewrite Hc. reflexivity.
Qed.
