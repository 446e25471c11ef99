(** Keys read from the texts written for them. *)
From Coq Require Import Lia ZifyBool.
From Verif Require Import Base BaseFacts Base64Model Base64Spec Base64Proofs StrstrModel StrstrProofs MpiModel MpiProofs PemModel PemSpec PemProofs PemProofs2
  AsnModel RsaKeyModel RsaKeySpec AsnProofs AsnProofs2 AsnProofs3 AsnProofs4 AsnProofs5 RsaKeyProofs TdpKeyModel.

(** * Sizes *)
Lemma der_length_bytes n : 0 <= n < 2 ^ 32 -> is_bytes (der_length n).
Proof.
  intros H. destruct (der_length_cases n H) as [[R E]|[[R E]|[[R E]|[[R E]|[R E]]]]]; rewrite E;
    repeat (apply Forall_cons; [unfold is_byte; first [lia | apply Z.mod_pos_bound; lia]|]); apply Forall_nil.
Qed.
Lemma der_tlv_bytes t c : is_byte t -> is_bytes c -> zlen c < 2 ^ 32 -> is_bytes (der_tlv t c).
Proof.
  intros Ht Hc Hl. unfold der_tlv. constructor; [assumption|]. apply is_bytes_app. split; [apply der_length_bytes; pose proof (zlen_nonneg c); lia|assumption].
Qed.
Lemma der_integer_bytes x : small x -> is_bytes (der_integer x).
Proof.
  intros [H0 H]. apply der_tlv_bytes; [unfold is_byte; lia|apply be_encode_bytes|]. fold (int_bytes x). pose proof (zlen_int_bytes x H0). lia.
Qed.
Lemma pow_2048 : 2 ^ 2048 = 256 ^ 256.
Proof. vm_compute. reflexivity. Qed.
Definition tiny (x : Z) : Prop := 0 < x /\ mpi_size x <= 256.
Lemma tiny_lt x : 0 < x -> x < 2 ^ 2048 -> tiny x.
Proof. intros H0 H. split; [assumption|]. apply size_le; [lia|lia|]. rewrite <- pow_2048. assumption. Qed.
Lemma tiny_small x : tiny x -> small x.
Proof. intros [H0 H]. split; [assumption|lia]. Qed.
Lemma tiny_len x : tiny x -> 0 <= zlen (der_integer x) <= 263.
Proof.
  intros [H0 H]. unfold der_integer. fold (int_bytes x). rewrite zlen_tlv. pose proof (zlen_int_bytes x H0). pose proof (size_nonneg x).
  pose proof (header_len 2 (zlen (int_bytes x)) ltac:(lia)). lia.
Qed.

(** * The numbers of valid keys *)
Lemma public_tiny k : public_ok k -> pub_N k < 2 ^ 2048 -> tiny (pub_N k) /\ tiny (pub_E k).
Proof.
  intros Hk Hm. pose proof (public_N k Hk). destruct Hk as (_ & _ & _ & H3 & H4). split; apply tiny_lt; lia.
Qed.
Definition key_tiny (k : rsa_key) : Prop :=
  tiny (key_N k) /\ tiny (key_E k) /\ tiny (key_D k) /\ tiny (key_P k) /\ tiny (key_Q k) /\ tiny (key_DP k) /\ tiny (key_DQ k) /\ tiny (key_QP k).
Lemma mod_lcm_nonzero d e p q : 1 < p - 1 -> 0 < q - 1 -> (d * e) mod Z.lcm (p - 1) (q - 1) = 1 -> d mod (p - 1) <> 0 /\ d <> 0.
Proof.
  intros Hp Hq H. assert (d mod (p - 1) <> 0) as Hd.
  { intros Z0. destruct (Z.divide_lcm_l (p - 1) (q - 1)) as [c Ec].
    assert (Z.lcm (p - 1) (q - 1) <> 0) as L0 by (rewrite Z.lcm_eq_0; lia).
    pose proof (Z.div_mod (d * e) (Z.lcm (p - 1) (q - 1)) L0) as D. rewrite H in D.
    apply Z.mod_divide in Z0; [|lia]. destruct Z0 as [y Ey]. subst d. rewrite Ec in D.
    set (m := p - 1) in *. assert (m * (y * e - c * (y * m * e / (c * m))) = 1) as M1 by (rewrite Z.mul_sub_distr_l; nia).
    assert (m = 1 \/ m = -1) as [M|M] by (apply Z.mul_eq_1 in M1; exact M1); lia. }
  split; [assumption|]. intros ->. apply Hd. apply Z.mod_0_l. lia.
Qed.
Lemma private_tiny k : private_ok k -> key_N k < 2 ^ 2048 -> 0 <= key_D k < key_N k -> key_tiny k.
Proof.
  intros (Hp & P0 & Q0 & EN & ED & _ & EDP & EDQ & RQP & EQP) Hm Hd. destruct (public_tiny _ Hp Hm) as [TN TE].
  destruct Hp as (ON & _ & _ & _). cbn [key_pub pub_N pub_E] in *. set (M := 2 ^ 2048) in *. assert (forall x, 0 < x -> x < M -> tiny x) as T by exact tiny_lt. clearbody M.
  rewrite EN, Z.odd_mul in ON. apply andb_prop in ON. destruct ON as [OP OQ]. apply Z.odd_spec in OP, OQ. destruct OP as [hp OP]. destruct OQ as [hq OQ].
  assert (2 < key_P k /\ 2 < key_Q k) as [P2 Q2] by lia.
  destruct (mod_lcm_nonzero (key_D k) (key_E k) (key_P k) (key_Q k) ltac:(lia) ltac:(lia) ED) as [D1 D2].
  rewrite Z.lcm_comm in ED. destruct (mod_lcm_nonzero (key_D k) (key_E k) (key_Q k) (key_P k) ltac:(lia) ltac:(lia) ED) as [D3 _].
  pose proof (Z.mod_pos_bound (key_D k) (key_P k - 1) ltac:(lia)) as B1. pose proof (Z.mod_pos_bound (key_D k) (key_Q k - 1) ltac:(lia)) as B2.
  assert (key_QP k <> 0) as QP0 by (intros E; rewrite E, Z.mul_0_r, Z.mod_0_l in EQP by lia; discriminate EQP).
  assert (key_P k < key_N k /\ key_Q k < key_N k) as [BP BQ] by (clear - EN P2 Q2; nia).
  clear ED EQP. split; [exact TN|]. split; [exact TE|]. do 5 (split; [apply T; lia|]). apply T; lia.
Qed.
Lemma key_tiny_small k : key_tiny k -> key_small k.
Proof. intros (A & B & C & D & E & F & G & H). do 7 (split; [apply tiny_small; assumption|]). apply tiny_small; assumption. Qed.

(** * The size of the encodings *)
Lemma der_public_ok k : tiny (pub_N k) -> tiny (pub_E k) ->
  is_bytes (der_public_key (pub_N k) (pub_E k)) /\ 0 < zlen (der_public_key (pub_N k) (pub_E k)) <= 600.
Proof.
  intros HN HE. pose proof (tiny_len _ HN) as L1. pose proof (tiny_len _ HE) as L2. unfold der_public_key.
  set (c := der_integer (pub_N k) ++ der_integer (pub_E k)).
  assert (is_bytes c) as Bc by (apply is_bytes_app; split; apply der_integer_bytes, tiny_small; assumption).
  assert (zlen c <= 526) as Lc by (unfold c; rewrite zlen_app; lia). pose proof (zlen_nonneg c).
  set (s := der_sequence c). pose proof (header_len 48 (zlen c) ltac:(lia)).
  assert (zlen s <= 532 /\ 0 <= zlen s) as [Ls Ls0] by (unfold s, der_sequence; rewrite zlen_tlv; lia).
  assert (is_bytes s) as Bs by (apply der_tlv_bytes; [unfold is_byte; lia|assumption|lia]).
  set (u := der_tlv 3 (0 :: s)). pose proof (zlen_cons 0 s). pose proof (header_len 3 (zlen (0 :: s)) ltac:(lia)).
  assert (zlen u <= 539 /\ 0 <= zlen u) as [Lu Lu0] by (unfold u; rewrite zlen_tlv; lia).
  assert (is_bytes u) as Bu by (apply der_tlv_bytes; [unfold is_byte; lia|constructor; [unfold is_byte; lia|assumption]|lia]).
  assert (zlen (der_rsa_algorithm ++ u) = 15 + zlen u) as La by (rewrite zlen_app; reflexivity).
  pose proof (header_len 48 (zlen (der_rsa_algorithm ++ u)) ltac:(lia)).
  split; [|unfold der_sequence; rewrite zlen_tlv; lia].
  apply der_tlv_bytes; [unfold is_byte; lia| |lia]. apply is_bytes_app. split; [|assumption].
  change der_rsa_algorithm with [48; 13; 6; 9; 42; 134; 72; 134; 247; 13; 1; 1; 1; 5; 0]. repeat (constructor; [unfold is_byte; lia|]). constructor.
Qed.
Lemma der_private_ok k : key_tiny k -> is_bytes (der_private_key k) /\ 0 < zlen (der_private_key k) <= 2120.
Proof.
  intros (A & B & C & D & E & F & G & H). pose proof (tiny_len _ A). pose proof (tiny_len _ B). pose proof (tiny_len _ C). pose proof (tiny_len _ D).
  pose proof (tiny_len _ E). pose proof (tiny_len _ F). pose proof (tiny_len _ G). pose proof (tiny_len _ H).
  unfold der_private_key. set (c := der_integer 0 ++ _).
  assert (zlen c <= 2107 /\ 0 <= zlen c) as [Lc Lc0] by (unfold c; rewrite !zlen_app; change (zlen (der_integer 0)) with 3; lia).
  pose proof (header_len 48 (zlen c) ltac:(lia)). split; [|unfold der_sequence; rewrite zlen_tlv; lia].
  apply der_tlv_bytes; [unfold is_byte; lia| |lia].
  repeat (apply is_bytes_app; split); try (apply der_integer_bytes, tiny_small; assumption). change (der_integer 0) with [2; 1; 0]. repeat (constructor; [unfold is_byte; lia|]). constructor.
Qed.

(** * Texts *)
Lemma text_nonzero header footer der : nonzero header -> nonzero footer -> is_bytes der -> nonzero (pem_text header footer der).
Proof.
  intros Hh Hf Hd. unfold pem_text, nonzero. apply Forall_app. split; [assumption|]. apply Forall_app. split; [|assumption].
  apply Forall_forall. intros c Hc. apply wrap_in in Hc. destruct Hc as [->|Hc]; [lia|]. pose proof (b64_syms der Hd) as S. rewrite Forall_forall in S.
  specialize (S c Hc). unfold b64_sym in S. lia.
Qed.
Ltac lit_nonzero := repeat (apply Forall_cons; [discriminate|]); apply Forall_nil.
Lemma nonzero_headers : nonzero (pem_header label_public) /\ nonzero (pem_footer label_public) /\ nonzero (pem_header label_private) /\ nonzero (pem_footer label_private).
Proof. unfold nonzero. repeat split; lit_nonzero. Qed.
Lemma pem_size_bound header footer der : zlen header <= 40 -> zlen footer <= 40 -> zlen der <= 2200 -> pem_size header footer der <= 5000.
Proof.
  intros H1 H2 H3. unfold pem_size. cbv zeta. rewrite b64_len. pose proof (zlen_nonneg der). destruct (zlen der =? 0); destruct (zlen der mod 3 =? 0); Z.div_mod_to_equations; lia.
Qed.

Section Alloc.
Context (alloc : Z -> bool) (Alloc : forall n, alloc n = true).
Lemma write_pem_ok header footer der b b' size buf : is_bytes der -> zlen der <= 2200 -> zlen header <= 40 -> zlen footer <= 40 ->
  zlen b' = size - zlen der -> b = ret (b' ++ der ++ [], zlen der) -> zlen buf = 5000 -> nonzero header -> nonzero footer ->
  exists r, write_pem alloc header footer b size buf 5000 = ret (pem_text header footer der ++ 0 :: r).
Proof.
  intros Hd Ld Lh Lf Lb -> Lbuf Nh Nf. unfold write_pem. rewrite bindr_ret. cbn beta iota. rewrite rd_mid by lia. cbn [bind]. rewrite <- Lbuf.
  pose proof (zlen_nonneg header). pose proof (zlen_nonneg footer).
  destruct (pem_write_ok alloc header footer der buf Hd ltac:(lia) ltac:(lia) ltac:(lia)) as [[W _]|[(n & A & _)|[_ W]]].
  - pose proof (pem_size_bound header footer der Lh Lf Ld). lia.
  - rewrite Alloc in A. discriminate A.
  - rewrite W. cbn [bind Z.eqb negb]. eexists. rewrite <- app_assoc. reflexivity.
Qed.

Lemma public_key_ok der buf k : public_ok k -> pub_N k < 2 ^ 2048 -> zlen der = RSA_PUB_DER_MAX_BYTES -> zlen buf = tdp_buf_size ->
  tdp_public_key alloc der buf k = Ok (pem_public_key (pub_N k) (pub_E k)).
Proof.
  intros Hk Hm Ld Lb. destruct (public_tiny k Hk Hm) as [TN TE]. destruct (der_public_ok k TN TE) as [Db Dl].
  unfold tdp_public_key, throw_if_err, rsa_write_pubkey_pem.
  assert (RSA_PUB_DER_MAX_BYTES = 2086) as Es by reflexivity. rewrite Es in *.
  destruct (write_pubkey_der_ok k der [] 2086 (tiny_small _ TE) (tiny_small _ TN) ltac:(lia) ltac:(lia)) as (b' & L' & W). rewrite app_nil_r in W.
  destruct nonzero_headers as (N1 & N2 & _).
  change (begin_public ++ [chLF]) with (pem_header label_public). change (end_public ++ [chLF]) with (pem_footer label_public).
  destruct (write_pem_ok (pem_header label_public) (pem_footer label_public) _ _ b' 2086 buf Db ltac:(lia) ltac:(discriminate) ltac:(discriminate) L' W Lb N1 N2) as [r E].
  unfold tdp_buf_size. rewrite E. cbn [bind ret]. apply c_string_ok. apply text_nonzero; assumption.
Qed.
Lemma private_key_ok der buf k : private_ok k -> key_N k < 2 ^ 2048 -> 0 <= key_D k < key_N k -> zlen der = RSA_PRV_DER_MAX_BYTES -> zlen buf = tdp_buf_size ->
  tdp_private_key alloc der buf k = Ok (pem_private_key k).
Proof.
  intros Hk Hm Hd Ld Lb. pose proof (private_tiny k Hk Hm Hd) as T. destruct (der_private_ok k T) as [Db Dl].
  unfold tdp_private_key, throw_if_err, rsa_write_key_pem.
  assert (RSA_PRV_DER_MAX_BYTES = 5679) as Es by reflexivity. rewrite Es in *.
  destruct (write_key_der_ok k der [] 5679 (key_tiny_small _ T) ltac:(lia) ltac:(lia)) as (b' & L' & W). rewrite app_nil_r in W.
  destruct nonzero_headers as (_ & _ & N1 & N2).
  change (begin_rsa_private ++ [chLF]) with (pem_header label_private). change (end_rsa_private ++ [chLF]) with (pem_footer label_private).
  destruct (write_pem_ok (pem_header label_private) (pem_footer label_private) _ _ b' 5679 buf Db ltac:(lia) ltac:(discriminate) ltac:(discriminate) L' W Lb N1 N2) as [r E].
  unfold tdp_buf_size. rewrite E. cbn [bind ret]. apply c_string_ok. apply text_nonzero; assumption.
Qed.

(** A text is read whatever follows its last line *)
Lemma zlen_last {A} (s : list A) x : zlen (s ++ [x]) = zlen s + 1.
Proof. rewrite zlen_app. reflexivity. Qed.
Lemma read_pem_ok header footer fr der tail : is_bytes der -> der <> [] -> zlen der < 2 ^ 60 -> footer = 45 :: fr -> nonzero (header ++ footer ++ tail) ->
  (forall t, find_sub footer (header ++ 10 :: t) 0 = find_sub footer t (zlen header + 1)) ->
  let s := header ++ 10 :: wrap64 0 (b64 der) ++ footer ++ tail in read_pem alloc header footer (s ++ [0]) (zlen s + 1) = ret der.
Proof.
  intros Hb Hn Hl Hf Nz Ff s. unfold read_pem. pose proof (zlen_nonneg s). replace (zlen s + 1 =? 0) with false by lia.
  rewrite rd1_at by lia. cbn [bind Z.eqb negb].
  destruct (pem_read_text alloc header footer der tail [] fr Hb Hn Hl Hf Nz Ff) as [u E].
  replace (s ++ [0]) with (header ++ 10 :: wrap64 0 (b64 der) ++ footer ++ tail ++ [0]).
  - rewrite E, Alloc. reflexivity.
  - unfold s. rewrite <- !app_assoc. cbn [app]. rewrite <- !app_assoc. reflexivity.
Qed.
Lemma from_public_ok k : public_ok k -> pub_N k < 2 ^ 2048 -> tdp_from_public alloc (pem_public_key (pub_N k) (pub_E k)) = Ok k.
Proof.
  intros Hk Hm. destruct (public_tiny k Hk Hm) as [TN TE]. destruct (der_public_ok k TN TE) as [Db Dl]. pose proof (public_N k Hk) as H0.
  assert (rsa_check_pubkey k = ret tt) as Hc by (apply check_pubkey_ok; [lia| |assumption]; destruct TE; lia).
  pose proof (parse_subpubkey_ok k (tiny_small _ TN) (tiny_small _ TE) Hc) as P. cbv zeta in P.
  unfold tdp_from_public, throw_if_err, pk_parse_public_key. set (d := der_public_key (pub_N k) (pub_E k)) in *.
  assert (pem_public_key (pub_N k) (pub_E k) = begin_public ++ 10 :: wrap64 0 (b64 d) ++ end_public ++ [10]) as E by reflexivity.
  rewrite E. rewrite (read_pem_ok begin_public end_public (tl end_public) d [10] Db); cycle 1.
  - intros Y. rewrite Y in Dl. change (zlen (@nil Z)) with 0 in Dl. lia.
  - lia.
  - reflexivity.
  - unfold nonzero. lit_nonzero.
  - intros t. reflexivity.
  - unfold ret. cbn [bind]. rewrite P. unfold ret. cbn [bind]. rewrite Hc. reflexivity.
Qed.
Lemma parse_private_text k tail : private_ok k -> key_tiny k -> nonzero tail ->
  tdp_from_private alloc (begin_rsa_private ++ 10 :: wrap64 0 (b64 (der_private_key k)) ++ end_rsa_private ++ tail) = Ok k.
Proof.
  intros Hk T Nt. destruct (der_private_ok k T) as [Db Dl]. pose proof (key_tiny_small k T) as S.
  destruct T as ([TN _] & [TE _] & [TD _] & [TP _] & [TQ _] & T).
  assert (rsa_check_privkey k = ret tt) as Hc by (apply check_privkey_ok; try lia; assumption).
  assert (rsa_check_pubkey (key_pub k) = ret tt) as Hc2 by (apply check_pubkey_ok; cbn [key_pub pub_N pub_E]; try lia; destruct Hk; assumption).
  unfold tdp_from_private, throw_if_err, pk_parse_key.
  rewrite (read_pem_ok begin_rsa_private end_rsa_private (tl end_rsa_private) (der_private_key k) tail Db); cycle 1.
  - intros Y. rewrite Y in Dl. change (zlen (@nil Z)) with 0 in Dl. lia.
  - lia.
  - reflexivity.
  - unfold nonzero in *. rewrite app_assoc. apply Forall_app. split; [lit_nonzero|assumption].
  - intros t. reflexivity.
  - unfold ret. cbn [bind]. pose proof (parse_pkcs1_ok k [] S Hc (zlen (der_private_key k)) ltac:(lia)) as P. rewrite app_nil_r in P. rewrite P.
    unfold ret. cbn [bind]. rewrite Hc2. reflexivity.
Qed.
Lemma from_private_ok k : private_ok k -> key_N k < 2 ^ 2048 -> 0 <= key_D k < key_N k -> tdp_from_private alloc (pem_private_key k) = Ok k.
Proof. intros Hk Hm Hd. apply (parse_private_text k [10] Hk (private_tiny k Hk Hm Hd)). unfold nonzero. lit_nonzero. Qed.

(** * Serialization *)
Lemma find_sub_first p : forall s i j, find_sub p s i = Some j -> forall a b, s = a ++ p ++ b -> j <= i + zlen a.
Proof.
  induction s as [|c s IH]; intros i j H a b E; cbn [find_sub] in H.
  - destruct (is_prefixb p []); [|discriminate]. injection H as <-. pose proof (zlen_nonneg a). lia.
  - destruct (is_prefixb p (c :: s)) eqn:Ep.
    + injection H as <-. pose proof (zlen_nonneg a). lia.
    + destruct a as [|d a]; [cbn [app] in E; rewrite E, is_prefix_app in Ep; discriminate Ep|]. injection E as <- E.
      specialize (IH _ _ H a b E). rewrite zlen_cons. lia.
Qed.
Lemma strstrn_find h n k : zlen h <= 2 ^ 62 -> zlen n <= 2 ^ 62 -> find_sub n h 0 = Some k -> strstrn h (zlen h) n (zlen n) = Ok (Some k).
Proof.
  intros Hh Hn F. destruct (strstrn_first h n Hh Hn) as (r & -> & H). destruct (find_sub_some _ _ _ _ F) as (a & b & E & Ek).
  destruct r as [k'|].
  - destruct H as ((a' & b' & E' & Ek') & H). pose proof (find_sub_first _ _ _ _ F a' b' E') as L1.
    destruct (Z_lt_le_dec k k') as [L|L]; [exfalso; apply (H k L); exists a, b; split; [assumption|lia]|]. f_equal. f_equal. lia.
  - exfalso. apply (H k). exists a, b. split; [assumption|lia].
Qed.
Lemma body_no_dash d : is_bytes d -> ~ In 45 (wrap64 0 (b64 d)).
Proof.
  intros Hd H. apply wrap_in in H. destruct H as [H|H]; [discriminate H|]. pose proof (b64_syms d Hd) as S. rewrite Forall_forall in S. specialize (S _ H). unfold b64_sym in S. lia.
Qed.
Lemma deserialize_ok k rest : private_ok k -> key_N k < 2 ^ 2048 -> 0 <= key_D k < key_N k ->
  zlen (pem_private_key k ++ rest) <= 2 ^ 62 ->
  tdp_deserialize alloc (pem_private_key k ++ rest) (zlen (pem_private_key k ++ rest)) = Ok (k, zlen (pem_private_key k)).
Proof.
  intros Hk Hm Hd Hz. pose proof (private_tiny k Hk Hm Hd) as T. destruct (der_private_ok k T) as [Db Dl].
  set (body := wrap64 0 (b64 (der_private_key k))) in *.
  assert (pem_private_key k = begin_rsa_private ++ 10 :: body ++ end_rsa_private ++ [10]) as E by reflexivity. 
  set (h := pem_private_key k ++ rest) in *.
  assert (h = begin_rsa_private ++ 10 :: body ++ end_rsa_private ++ 10 :: rest) as Eh.
  { unfold h. rewrite E. rewrite <- !app_assoc. cbn [app]. rewrite <- !app_assoc. reflexivity. }
  set (pos := 32 + zlen body). pose proof (zlen_nonneg body). pose proof (zlen_nonneg rest).
  assert (zlen h = pos + 29 + 1 + zlen rest) as Lh.
  { rewrite Eh, !zlen_app, !zlen_cons, !zlen_app, zlen_cons. change (zlen begin_rsa_private) with 31. change (zlen end_rsa_private) with 29. unfold pos. lia. }
  assert (zlen (pem_private_key k) = pos + 30) as Lp.
  { rewrite E, !zlen_app, !zlen_cons, !zlen_app. change (zlen begin_rsa_private) with 31. change (zlen end_rsa_private) with 29. change (zlen [10]) with 1. unfold pos. lia. }
  assert (find_sub end_rsa_private h 0 = Some pos) as F.
  { rewrite Eh. transitivity (find_sub end_rsa_private (body ++ end_rsa_private ++ 10 :: rest) 32); [reflexivity|].
    unfold end_rsa_private at 1. rewrite find_sub_skip by (apply body_no_dash; assumption). apply find_sub_here. apply is_prefix_app. }
  assert (strstrn h (zlen h) tdp_key_suffix tdp_suffix_size = Ok (Some pos)) as Fs.
  { rewrite <- (strstrn_find h end_rsa_private pos Hz ltac:(discriminate) F).
    pose proof (strstrn_confined h [] end_rsa_private [0] Hz ltac:(discriminate)) as C. rewrite app_nil_r in C. exact C. }
  unfold tdp_deserialize. rewrite Fs. cbn [bind]. replace (pos <=? 0) with false by lia. cbv zeta.
  assert (u64 (tdp_suffix_size + pos) = pos + 29) as Eu by (unfold u64, tdp_suffix_size; rewrite Z.mod_small; lia). rewrite Eu.
  assert (h = (begin_rsa_private ++ 10 :: body ++ end_rsa_private ++ []) ++ 10 :: rest) as Eh2.
  { rewrite Eh, app_nil_r. rewrite <- !app_assoc. cbn [app]. rewrite <- !app_assoc. reflexivity. }
  assert (zlen (begin_rsa_private ++ 10 :: body ++ end_rsa_private ++ []) = pos + 29) as L2.
  { rewrite app_nil_r, !zlen_app, !zlen_cons, !zlen_app. change (zlen begin_rsa_private) with 31. change (zlen end_rsa_private) with 29. unfold pos. lia. }
  rewrite Eh2 at 1. rewrite rd_prefix by (rewrite L2; reflexivity). cbn [bind]. unfold body at 1. rewrite parse_private_text by (try assumption; constructor). cbn [bind].
  replace (pos + 29 <? zlen h) with true by lia. rewrite Eh2, rd1_at by (symmetry; exact L2). cbn [bind Z.eqb Pos.eqb].
  f_equal. f_equal. unfold u64. rewrite Z.mod_small; lia.
Qed.
End Alloc.

Lemma public_key_roundtrip alloc : (forall n, alloc n = true) -> forall der buf k,
  public_ok k -> pub_N k < 2 ^ 2048 -> zlen der = RSA_PUB_DER_MAX_BYTES -> zlen buf = 5000 ->
  tdp_public_key alloc der buf k = Ok (pem_public_key (pub_N k) (pub_E k)) /\
  tdp_from_public alloc (pem_public_key (pub_N k) (pub_E k)) = Ok k.
Proof. intros Ha der buf k Hk Hm Hd Hb. split; [apply public_key_ok|apply from_public_ok]; assumption. Qed.
Lemma private_key_roundtrip alloc : (forall n, alloc n = true) -> forall der buf k,
  private_ok k -> key_N k < 2 ^ 2048 -> 0 <= key_D k < key_N k -> zlen der = RSA_PRV_DER_MAX_BYTES -> zlen buf = 5000 ->
  tdp_private_key alloc der buf k = Ok (pem_private_key k) /\
  tdp_from_private alloc (pem_private_key k) = Ok k.
Proof. intros Ha der buf k Hk Hm HD Hd Hb. split; [apply private_key_ok|apply from_private_ok]; assumption. Qed.
Lemma private_text_len k : key_tiny k -> zlen (pem_private_key k) <= 5000.
Proof.
  intros T. destruct (der_private_ok k T) as [_ Dl]. pose proof (text_fits (pem_header label_private) (pem_footer label_private) (der_private_key k)) as F.
  pose proof (pem_size_bound (pem_header label_private) (pem_footer label_private) (der_private_key k) ltac:(discriminate) ltac:(discriminate) ltac:(lia)).
  rewrite zlen_app in F. change (zlen [0]) with 1 in F. unfold pem_private_key. lia.
Qed.
Lemma serialize_roundtrip alloc : (forall n, alloc n = true) -> forall der buf k rest,
  private_ok k -> key_N k < 2 ^ 2048 -> 0 <= key_D k < key_N k -> zlen der = RSA_PRV_DER_MAX_BYTES -> zlen buf = 5000 ->
  zlen rest < 2 ^ 61 ->
  exists t, tdp_serialized_size alloc der buf k = Ok (zlen t) /\
    (forall out, zlen out = zlen t -> tdp_serialize alloc der buf k out = Ok t) /\
    tdp_deserialize alloc (t ++ rest) (zlen (t ++ rest)) = Ok (k, zlen t).
Proof.
  intros Ha der buf k rest Hk Hm HD Hd Hb Hr. exists (pem_private_key k).
  pose proof (private_key_ok alloc Ha der buf k Hk Hm HD Hd Hb) as W. unfold tdp_serialized_size, tdp_serialize. rewrite W. cbn [bind].
  split; [reflexivity|]. split; [intros out Ho; apply wr_all; lia|]. apply deserialize_ok; try assumption.
  rewrite zlen_app. pose proof (private_text_len k (private_tiny k Hk Hm HD)). lia.
Qed.
Lemma deserialize_total alloc b : is_bytes b -> zlen b <= 2 ^ 61 ->
  tdp_deserialize alloc b (zlen b) = Throw RuntimeError \/
  exists k n, tdp_deserialize alloc b (zlen b) = Ok (k, n) /\ private_ok k /\ 0 < n <= zlen b.
Proof.
  intros Hb Hz. unfold tdp_deserialize.
  pose proof (strstrn_confined b [] end_rsa_private [0] ltac:(lia) ltac:(discriminate)) as C. rewrite app_nil_r in C.
  change (strstrn b (zlen b) tdp_key_suffix tdp_suffix_size) with (strstrn b (zlen b) (end_rsa_private ++ [0]) (zlen end_rsa_private)). rewrite C.
  destruct (strstrn_first b end_rsa_private ltac:(lia) ltac:(discriminate)) as (r & -> & H). cbn [bind].
  destruct r as [pos|]; [|left; reflexivity]. destruct H as ((a & c & E & Ea) & _).
  destruct (pos <=? 0) eqn:E0; [left; reflexivity|]. cbv zeta.
  assert (zlen b = pos + 29 + zlen c) as L by (rewrite E, !zlen_app; change (zlen end_rsa_private) with 29; lia). pose proof (zlen_nonneg c).
  assert (u64 (tdp_suffix_size + pos) = pos + 29) as -> by (unfold u64, tdp_suffix_size; rewrite Z.mod_small; lia).
  change tdp_suffix_size with 29. rewrite rd_ok by lia. cbn [bind]. set (w := window _ _ _).
  destruct (from_private_total alloc w) as [->|(k & -> & Hk)].
  - apply is_bytes_firstn, is_bytes_skipn. assumption.
  - unfold w, zlen in *. rewrite window_length. lia.
  - left. reflexivity.
  - right. cbn [bind]. exists k. destruct (pos + 29 <? zlen b) eqn:E1.
    + destruct (rd1_ok b (pos + 29) ltac:(lia)) as (x & -> & _). cbn [bind]. destruct (x =? 10); eexists; (split; [reflexivity|]); (split; [assumption|]); [|lia].
      unfold u64. rewrite Z.mod_small; lia.
    + exists (pos + 29). split; [reflexivity|]. split; [assumption|lia].
Qed.
