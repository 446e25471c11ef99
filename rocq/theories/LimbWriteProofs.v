(** Writing keys from limbs *)
From Coq Require Import Lia Znumtheory.
From Verif Require Import Base BaseFacts StrstrModel Base64Model MpiModel MpiProofs LimbModel LimbModel2 LimbSpec LimbSpec2 LimbProofs LimbProofs2 LimbProofs3 LimbProofs20 LimbProofs27 LimbProofs28 LimbProofs32 LimbProofs33
  PemModel PemSpec PemProofs PemProofs2 AsnModel AsnProofs4 AsnProofs5 RsaKeyModel RsaKeySpec RsaKeyProofs RsaKeyProofs2 TdpKeyModel TdpModel TdpSpec RsaMathProofs LimbRsaModel LimbRsaSpec LimbKeyModel LimbProperties LimbWriteModel.

Lemma positive_sign X x : holds X x -> 0 < x -> ms X = 1.
Proof.
  intros ((Sg & F) & V & _) P. destruct Sg as [|Sg]; [assumption|]. exfalso. unfold mval in V. rewrite Sg in V. pose proof (lval_nonneg (mp X) F). lia.
Qed.
Lemma write_mpi_refines b p X x : holds X x -> 0 < x -> l_asn1_write_mpi b p X = asn1_write_mpi b p x.
Proof.
  intros H P. pose proof (positive_sign X x H P) as S1. unfold l_asn1_write_mpi, asn1_write_mpi. rewrite (size_val X x H). cbn [bind]. destruct ((p <? 0) || (p <? mpi_size x)) eqn:G; [reflexivity|].
  apply orb_false_elim in G. destruct G as (G1 & G2). apply Z.ltb_ge in G1, G2. cbv zeta.
  assert (0 <= mpi_size x) as S0 by (unfold mpi_size; apply Z.div_pos; [pose proof (bitlen_nonneg x); lia | lia]).
  destruct H as (O & V & _). rewrite S1. change (1 =? 1) with true. cbv iota.
  assert (forall old, zlen old = mpi_size x -> l_write_binary X old = mpi_write_binary x (mpi_size x)) as W by (intros old E; rewrite s_write_bin by exact O; rewrite V, E; reflexivity).
  destruct (Z_le_gt_dec p (zlen b)) as [L|L].
  - rewrite rd_ok by lia. cbn [bind]. rewrite W; [|unfold zlen, window; rewrite firstn_length, skipn_length; unfold zlen in L; lia].
    unfold bindr. destruct (mpi_write_binary x (mpi_size x)) as [[e|bs]| | | |]; cbn [bind]; try reflexivity. destruct (wr b (p - mpi_size x) bs) as [b'| | | |]; cbn [bind]; try reflexivity.
    destruct (rd1 b' (p - mpi_size x)); reflexivity.
  - assert (rd b (p - mpi_size x) (mpi_size x) = UB) as -> by (unfold rd; destruct (Z.leb_spec (p - mpi_size x + mpi_size x) (zlen b)); [lia|]; rewrite andb_false_r; reflexivity). cbn [bind].
    unfold bindr, mpi_write_binary. rewrite Z.ltb_irrefl. unfold ret. cbn [bind]. unfold wr, zlen at 1. rewrite be_encode_length, Z2Nat.id by lia.
    destruct (Z.leb_spec (p - mpi_size x + mpi_size x) (zlen b)); [lia|]. rewrite andb_false_r. reflexivity.
Qed.
Lemma bindr_cong {A B} (a : res A) (f g : A -> res B) : (forall x, f x = g x) -> bindr a f = bindr a g.
Proof. intros H. unfold bindr. destruct a as [[e|x]| | | |]; cbn [bind]; auto. Qed.
Ltac step3 := apply bindr_cong; intros [[? ?] ?].
Lemma write_pubkey_der_refines c k b size : ctx_pub c k -> 0 < pub_N k -> 0 < pub_E k -> l_write_pubkey_der c b size = rsa_write_pubkey_der k b size.
Proof.
  intros (_ & HN & HE & _) N0 E0. unfold l_write_pubkey_der, rsa_write_pubkey_der.
  assert (l_write_rsa_pubkey b size c = write_rsa_pubkey b size k) as ->; [|reflexivity].
  unfold l_write_rsa_pubkey, write_rsa_pubkey. rewrite (write_mpi_refines _ _ _ _ HE E0). step3. rewrite (write_mpi_refines _ _ _ _ HN N0). reflexivity.
Qed.
(** The numbers of a private key are positive *)
Lemma private_positive k : private_ok k -> 0 <= key_D k -> 0 < key_N k /\ 0 < key_E k /\ 0 < key_D k /\ 0 < key_P k /\ 0 < key_Q k /\ 0 < key_DP k /\ 0 < key_DQ k /\ 0 < key_QP k.
Proof.
  intros ((ON & OE & (N1 & _) & (E1 & _)) & P1 & Q1 & N & DE & _ & DP & DQ & QP & QI) D0. cbn [key_pub pub_N pub_E] in *. rewrite N, Z.odd_mul in ON. apply andb_prop in ON. destruct ON as (OP & OQ).
  pose proof (odd_ge3 _ P1 OP). pose proof (odd_ge3 _ Q1 OQ).
  assert (0 < Z.lcm (key_P k - 1) (key_Q k - 1)) as L0.
  { pose proof (Z.lcm_nonneg (key_P k - 1) (key_Q k - 1)). destruct (Z.eq_dec (Z.lcm (key_P k - 1) (key_Q k - 1)) 0) as [E|]; [apply Z.lcm_eq_0 in E; lia | lia]. }
  destruct (mod_1_exponent _ _ (key_P k - 1) _ ltac:(lia) (Z.divide_lcm_l _ _) L0 DE) as ((A1 & _) & _). destruct (mod_1_exponent _ _ (key_Q k - 1) _ ltac:(lia) (Z.divide_lcm_r _ _) L0 DE) as ((A2 & _) & _).
  assert (0 < 2 ^ 127) by (apply Z.pow_pos_nonneg; lia).
  assert (key_D k <> 0) by (intros Z0; rewrite Z0, Z.mul_0_l, Z.mod_0_l in DE; lia).
  assert (key_QP k <> 0) by (intros Z0; rewrite Z0, Z.mul_0_r, Z.mod_0_l in QI; lia). lia.
Qed.
Lemma write_key_der_refines c k bl b size : ctx_priv c k bl -> private_ok k -> 0 <= key_D k -> l_write_key_der c b size = rsa_write_key_der k b size.
Proof.
  intros ((_ & HN & HE & _) & HD & HP & HQ & HDP & HDQ & HQP & _) PK D0. destruct (private_positive k PK D0) as (A1 & A2 & A3 & A4 & A5 & A6 & A7 & A8). cbn [key_pub pub_N pub_E] in *.
  unfold l_write_key_der, rsa_write_key_der.
  rewrite (write_mpi_refines _ _ _ _ HQP A8). step3. rewrite (write_mpi_refines _ _ _ _ HDQ A7). step3. rewrite (write_mpi_refines _ _ _ _ HDP A6). step3. rewrite (write_mpi_refines _ _ _ _ HQ A5). step3.
  rewrite (write_mpi_refines _ _ _ _ HP A4). step3. rewrite (write_mpi_refines _ _ _ _ HD A3). step3. rewrite (write_mpi_refines _ _ _ _ HE A2). step3. rewrite (write_mpi_refines _ _ _ _ HN A1). reflexivity.
Qed.
(** * The texts *)
Lemma public_bytes k : public_ok k -> pub_N k < 2 ^ 2048 -> is_bytes (pem_public_key (pub_N k) (pub_E k)) /\ zlen (pem_public_key (pub_N k) (pub_E k)) <= 7999.
Proof.
  intros Hk Hm. destruct (public_tiny k Hk Hm) as [TN TE]. destruct (der_public_ok k TN TE) as [Bd Dl]. split.
  - unfold pem_public_key, pem_text. apply is_bytes_app. split; [repeat constructor; discriminate|]. apply is_bytes_app. split; [|repeat constructor; discriminate].
    apply Forall_forall. intros c Hc. apply wrap_in in Hc. destruct Hc as [->|Hc]; [split; discriminate || reflexivity|]. pose proof (b64_syms _ Bd) as Sy. rewrite Forall_forall in Sy. specialize (Sy c Hc). unfold b64_sym in Sy. unfold is_byte. lia.
  - pose proof (text_fits (pem_header label_public) (pem_footer label_public) (der_public_key (pub_N k) (pub_E k))) as F.
    pose proof (pem_size_bound (pem_header label_public) (pem_footer label_public) (der_public_key (pub_N k) (pub_E k)) ltac:(discriminate) ltac:(discriminate) ltac:(lia)).
    rewrite zlen_app in F. change (zlen [0]) with 1 in F. unfold pem_public_key. lia.
Qed.
Section Alloc.
Variable alloc : Z -> bool.
Hypothesis Alloc : forall n, alloc n = true.
Theorem public_text der buf c k : ctx_pub c k -> public_ok k -> pub_N k < 2 ^ 2048 -> zlen der = RSA_PUB_DER_MAX_BYTES -> zlen buf = 5000 ->
  l_tdp_public_key alloc der buf c = Ok (pem_public_key (pub_N k) (pub_E k)) /\ exists c', l_tdp_from_public alloc (pem_public_key (pub_N k) (pub_E k)) = Ok c' /\ pub_object c' k.
Proof.
  intros C PK M D B. destruct (public_key_roundtrip alloc Alloc der buf k PK M D B) as (W & R). split.
  - unfold l_tdp_public_key. rewrite (write_pubkey_der_refines c k) by (first [exact C | destruct PK as (_ & _ & (X & _) & (Y & _)); assert (0 < 2 ^ 127) by (apply Z.pow_pos_nonneg; lia); lia]). exact W.
  - destruct (public_bytes k PK M) as (T1 & T2). pose proof (from_public_refines alloc _ T1 T2) as H. rewrite R in H. exact H.
Qed.
Theorem private_text der buf c k bl : ctx_priv c k bl -> private_ok k -> key_N k < 2 ^ 2048 -> 0 <= key_D k < key_N k -> zlen der = RSA_PRV_DER_MAX_BYTES -> zlen buf = 5000 ->
  l_tdp_private_key alloc der buf c = Ok (pem_private_key k) /\ exists c' P1 Q1, l_tdp_from_private alloc (pem_private_key k) = Ok (c', (P1, Q1)) /\ l_p1_q1 c' = Ok (P1, Q1) /\ ctx_priv c' k None.
Proof.
  intros C PK M DB D B. destruct (private_key_roundtrip alloc Alloc der buf k PK M DB D B) as (W & R). pose proof (private_tiny k PK M DB) as T. split.
  - unfold l_tdp_private_key. rewrite (write_key_der_refines c k bl) by (first [assumption | lia]). exact W.
  - pose proof (from_private_refines alloc _ (pem_bytes k T) ltac:(pose proof (private_text_len k T); lia)) as H. rewrite R in H. destruct H as (c' & P1 & Q1 & H1 & H2 & H3 & _). eauto 6.
Qed.
Lemma deserialize_refines b n k m : is_bytes b -> zlen b < 2 ^ 62 -> tdp_deserialize alloc b n = Ok (k, m) -> m <= 7999 ->
  exists c P1 Q1, l_tdp_deserialize alloc b n = Ok (c, (P1, Q1), m) /\ l_p1_q1 c = Ok (P1, Q1) /\ ctx_priv c k None.
Proof.
  intros Bb Lb. unfold tdp_deserialize, l_tdp_deserialize. destruct (strstrn b n tdp_key_suffix tdp_suffix_size) as [[pos|]| | | |]; cbn [bind]; try discriminate.
  destruct (Z.leb_spec pos 0) as [|P0]; [discriminate|]. cbv zeta. unfold tdp_suffix_size. destruct (rd b 0 (pos + 29)) as [sk| | | |] eqn:Rs; cbn [bind]; try discriminate.
  assert (is_bytes sk /\ zlen sk = pos + 29 /\ pos + 29 <= zlen b) as (Bs & Ls & Lp).
  { unfold rd in Rs. destruct (_ && _ && _) eqn:G; [|discriminate]. injection Rs as <-. rewrite !andb_true_iff, !Z.leb_le in G. unfold window. change (Z.to_nat 0) with 0%nat. cbn [skipn]. split; [|split; [|lia]].
    - unfold is_bytes in *. rewrite <- (firstn_skipn (Z.to_nat (pos + 29)) b) in Bb. apply Forall_app in Bb. exact (proj1 Bb).
    - unfold zlen in *. rewrite firstn_length. lia. }
  assert (u64 (29 + pos) = 29 + pos) as U by (unfold u64; apply Z.mod_small; lia). rewrite U.
  destruct (tdp_from_private alloc sk) as [k'| | | |] eqn:F; cbn [bind]; try discriminate.
  intros E M. assert (29 + pos <= m /\ k' = k) as (Mp & ->).
  { destruct (Z.ltb_spec (29 + pos) n).
    - destruct (rd1 b (29 + pos)) as [ch| | | |]; cbn [bind] in E; try discriminate. injection E as -> <-. split; [|reflexivity]. destruct (ch =? 10); [|lia]. unfold u64. rewrite Z.mod_small; lia.
    - cbn [bind] in E. injection E as -> <-. split; [lia | reflexivity]. }
  pose proof (from_private_refines alloc sk Bs ltac:(lia)) as H. rewrite F in H. destruct H as (c & P1 & Q1 & H1 & H2 & H3 & _). exists c, P1, Q1. rewrite H1. cbn [bind]. split; [|auto].
  destruct (_ <? n); [destruct (rd1 b (29 + pos)); cbn [bind] in *; try discriminate|cbn [bind] in *]; injection E as E; rewrite E; reflexivity.
Qed.
Theorem serialize_text der buf c k bl rest : ctx_priv c k bl -> private_ok k -> key_N k < 2 ^ 2048 -> 0 <= key_D k < key_N k -> zlen der = RSA_PRV_DER_MAX_BYTES -> zlen buf = 5000 ->
  is_bytes rest -> zlen rest < 2 ^ 61 ->
  exists t, l_tdp_serialized_size alloc der buf c = Ok (zlen t) /\ (forall out, zlen out = zlen t -> l_tdp_serialize alloc der buf c out = Ok t) /\
    exists c' P1 Q1, l_tdp_deserialize alloc (t ++ rest) (zlen (t ++ rest)) = Ok (c', (P1, Q1), zlen t) /\ l_p1_q1 c' = Ok (P1, Q1) /\ ctx_priv c' k None.
Proof.
  intros C PK M DB D B Br Lr. destruct (serialize_roundtrip alloc Alloc der buf k rest PK M DB D B Lr) as (t & S1 & S2 & S3).
  destruct (private_text der buf c k bl C PK M DB D B) as (W & _). destruct (private_key_roundtrip alloc Alloc der buf k PK M DB D B) as (W' & _).
  pose proof (private_tiny k PK M DB) as T. assert (zlen t = zlen (pem_private_key k)) as Lt by (unfold tdp_serialized_size in S1; rewrite W' in S1; cbn [bind] in S1; injection S1 as S1; lia).
  assert (t = pem_private_key k) as ->.
  { specialize (S2 t eq_refl). unfold tdp_serialize in S2. rewrite W' in S2. cbn [bind] in S2. rewrite wr_all in S2 by lia. injection S2 as S2. symmetry. exact S2. }
  exists (pem_private_key k). split; [unfold l_tdp_serialized_size; rewrite W; reflexivity|]. split.
  - intros out Lo. unfold l_tdp_serialize. rewrite W. cbn [bind]. apply wr_all. lia.
  - pose proof (private_text_len k T). apply deserialize_refines; [apply is_bytes_app; split; [apply pem_bytes; exact T | exact Br] | rewrite zlen_app; lia | exact S3 | lia].
Qed.
End Alloc.
(** A context with a key of 130 bits *)
Lemma num_holds_small x : (0 <=? x) && (x <? 256 ^ mpi_size x) && (0 <=? mpi_size x) && (mpi_size x <=? 7000) = true -> holds (rd_num (Z.to_nat (mpi_size x)) x) x.
Proof.
  rewrite !andb_true_iff, !Z.leb_le, Z.ltb_lt. intros (((A & B) & C) & D). destruct (rd_num_ok (Z.to_nat (mpi_size x)) x) as (O1 & O2 & O3); rewrite ?Z2Nat.id by exact C; [lia | lia|].
  split; [exact O1|]. split; [exact O2|]. rewrite Z2Nat.id in O3 by exact C. assert ((mpi_size x + 7) / 8 <= 900) by (apply Z.div_le_upper_bound; lia). lia.
Qed.
Lemma ctx_130 : ctx_priv (priv_ctx RsaKeyExample.key130) RsaKeyExample.key130 None.
Proof.
  assert (mpi_ok l_init) as I0 by (split; [left; reflexivity | apply Forall_nil]).
  assert (forall N, cache_ok N (Some l_init)) as CA by (intros N; split; [exact I0|]; split; [discriminate | left; reflexivity]).
  split; [|split; [|split; [|split; [|split; [|split; [|split; [|split; [|split]]]]]]]]; try (apply num_holds_small; vm_compute; reflexivity); try apply CA.
  - split; [reflexivity|]. split; [apply num_holds_small; vm_compute; reflexivity|]. split; [apply num_holds_small; vm_compute; reflexivity | apply CA].
  - split; [exact I0|]. split; [exact I0|]. split; [discriminate|]. split; [discriminate | reflexivity].
Qed.
