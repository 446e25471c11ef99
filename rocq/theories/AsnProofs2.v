(** Writing integers and keys in DER. *)
From Coq Require Import Lia ZifyBool.
From Verif Require Import Base BaseFacts Base64Proofs MpiModel MpiProofs PemProofs2 AsnModel RsaKeyModel RsaKeySpec AsnProofs.

Lemma le_encode_snoc : forall n x, le_encode (S n) x = le_encode n x ++ [x / 256 ^ Z.of_nat n mod 256].
Proof.
  induction n as [|n IH]; intros x; [cbn; rewrite Z.div_1_r; reflexivity|].
  change (le_encode (S (S n)) x) with (x mod 256 :: le_encode (S n) (x / 256)). rewrite IH. cbn [le_encode app].
  rewrite Nat2Z.inj_succ, Z.pow_succ_r, Z.div_div by lia. reflexivity.
Qed.
Lemma be_encode_cons n x : be_encode (S n) x = (x / 256 ^ Z.of_nat n mod 256) :: be_encode n x.
Proof. unfold be_encode. rewrite le_encode_snoc, rev_app_distr. reflexivity. Qed.
Lemma zlen_be n x : zlen (be_encode n x) = Z.of_nat n.
Proof. unfold zlen. rewrite be_encode_length. reflexivity. Qed.
Lemma land_128 c : 0 <= c < 256 -> negb (Z.land c 128 =? 0) = (128 <=? c).
Proof.
  intros H. assert (Forall (fun c => negb (Z.land c 128 =? 0) = (128 <=? c)) (map Z.of_nat (seq 0 256))) as F.
  { apply Forall_forall. intros x Hx. assert (forallb (fun c => Bool.eqb (negb (Z.land c 128 =? 0)) (128 <=? c)) (map Z.of_nat (seq 0 256)) = true) as G by (vm_compute; reflexivity).
    rewrite forallb_forall in G. apply Bool.eqb_prop. apply G. assumption. }
  rewrite Forall_forall in F. apply F. apply in_map_iff. exists (Z.to_nat c). split; [lia|]. apply in_seq. lia.
Qed.

(** The contents of an INTEGER *)
Definition int_bytes (x : Z) : bytes := be_encode (Z.to_nat (if x =? 0 then 1 else (Z.log2 x + 1) / 8 + 1)) x.
Lemma int_bytes_pos x : 0 < x -> exists s c r, Z.of_nat (S s) = mpi_size x /\ be_encode (S s) x = c :: r /\ 0 <= c < 256 /\
  int_bytes x = if 128 <=? c then 0 :: c :: r else c :: r.
Proof.
  intros Hx. pose proof (size_pos x Hx) as S1. destruct (bitlen_pos x Hx) as (B0 & B1 & B2).
  exists (Z.to_nat (mpi_size x - 1)), (x / 256 ^ Z.of_nat (Z.to_nat (mpi_size x - 1)) mod 256), (be_encode (Z.to_nat (mpi_size x - 1)) x).
  split; [lia|]. split; [apply be_encode_cons|]. rewrite Z2Nat.id by lia. split; [apply Z.mod_pos_bound; lia|].
  pose proof (size_bound x ltac:(lia)) as Sb.
  assert (256 ^ mpi_size x = 256 * 256 ^ (mpi_size x - 1)) as P1 by (rewrite <- Z.pow_succ_r by lia; f_equal; lia).
  assert (0 < 256 ^ (mpi_size x - 1)) by (apply Z.pow_pos_nonneg; lia).
  assert (0 <= x / 256 ^ (mpi_size x - 1) < 256) as Q. { split; [apply Z.div_pos; lia|apply Z.div_lt_upper_bound; lia]. }
  rewrite Z.mod_small by assumption. unfold int_bytes. replace (x =? 0) with false by lia.
  assert (Z.log2 x + 1 = mpi_bitlen x) as Lb. { unfold mpi_bitlen. replace (x =? 0) with false by lia. rewrite Z.abs_eq by lia. reflexivity. }
  rewrite Lb. 
  assert ((128 <=? x / 256 ^ (mpi_size x - 1)) = (mpi_bitlen x =? 8 * mpi_size x)) as ->.
  { destruct (mpi_bitlen x =? 8 * mpi_size x) eqn:E.
    - apply Z.leb_le. apply Z.div_le_lower_bound; [assumption|]. replace (256 ^ (mpi_size x - 1) * 128) with (2 ^ (mpi_bitlen x - 1)); [lia|].
      change 256 with (2 ^ 8). change 128 with (2 ^ 7). rewrite <- Z.pow_mul_r, <- Z.pow_add_r by lia. f_equal. lia.
    - apply Z.leb_gt. apply Z.div_lt_upper_bound; [assumption|]. 
      assert (mpi_bitlen x <= 8 * mpi_size x - 1) by (unfold mpi_size in *; Z.div_mod_to_equations; lia).
      assert (2 ^ mpi_bitlen x <= 2 ^ (8 * mpi_size x - 1)) by (apply Z.pow_le_mono_r; lia).
      replace (256 ^ (mpi_size x - 1) * 128) with (2 ^ (8 * mpi_size x - 1)); [lia|].
      change 256 with (2 ^ 8). change 128 with (2 ^ 7). rewrite <- Z.pow_mul_r, <- Z.pow_add_r by lia. f_equal. lia. }
  destruct (mpi_bitlen x =? 8 * mpi_size x) eqn:E.
  - replace (Z.to_nat (mpi_bitlen x / 8 + 1)) with (S (S (Z.to_nat (mpi_size x - 1)))) by (Z.div_mod_to_equations; lia).
    rewrite be_encode_cons, be_encode_cons. rewrite Nat2Z.inj_succ, Z2Nat.id by lia. replace (Z.succ (mpi_size x - 1)) with (mpi_size x) by lia.
    rewrite (Z.div_small x (256 ^ mpi_size x)) by lia. rewrite (Z.mod_small (x / _)) by assumption. reflexivity.
  - replace (Z.to_nat (mpi_bitlen x / 8 + 1)) with (S (Z.to_nat (mpi_size x - 1))) by (unfold mpi_size in *; Z.div_mod_to_equations; lia).
    rewrite be_encode_cons. rewrite Z2Nat.id by lia. rewrite Z.mod_small by assumption. reflexivity.
Qed.

Lemma zlen_int_bytes x : 0 < x -> mpi_size x <= zlen (int_bytes x) <= mpi_size x + 1.
Proof.
  intros H. destruct (int_bytes_pos x H) as (s & c & r & S1 & E & _ & ->). pose proof (zlen_be (S s) x) as L. rewrite E in L. rewrite S1 in L.
  destruct (128 <=? c); rewrite zlen_cons in *; rewrite ?zlen_cons; lia.
Qed.

(** Numbers of a moderate size *)
Definition small (x : Z) : Prop := 0 < x /\ mpi_size x <= 12500.
Lemma write_mpi_ok x : small x -> writes (fun b p => asn1_write_mpi b p x) (der_integer x).
Proof.
  intros [Hx Hm] a b post p Hp Hb. unfold asn1_write_mpi.
  pose proof (zlen_int_bytes x Hx) as Li. destruct (int_bytes_pos x Hx) as (s & c & r & Sz & E & Hc & I).
  pose proof (zlen_be (S s) x) as Lc. rewrite E, Sz in Lc. rewrite zlen_cons in Lc. pose proof (zlen_nonneg r).
  unfold der_integer in *. fold (int_bytes x) in *. rewrite zlen_tlv in *. pose proof (zlen_nonneg a) as Ha.
  pose proof (zlen_nonneg (der_header 2 (zlen (int_bytes x)))) as Hh.
  destruct (zsplit b (zlen (der_header 2 (zlen (int_bytes x)))) ltac:(lia)) as (h & i & -> & Lh & Lhi). rewrite zlen_app in *.
  assert (exists i0 i1, i = i0 ++ i1 /\ zlen i1 = mpi_size x /\ zlen i0 = if 128 <=? c then 1 else 0) as (i0 & i1 & -> & L1 & L0).
  { assert (zlen i = mpi_size x + if 128 <=? c then 1 else 0) as Lii.
    { replace (zlen i) with (zlen (int_bytes x)) by lia. rewrite I. destruct (128 <=? c); rewrite ?zlen_cons; lia. }
    destruct (zsplit i (if 128 <=? c then 1 else 0)) as (i0 & i1 & -> & L0 & L1). { destruct (128 <=? c); lia. }
    exists i0, i1. split; [reflexivity|]. split; [|assumption]. lia. }
  rewrite zlen_app in *.
  assert (p = zlen a + (zlen h + zlen i0) + mpi_size x) as Hp' by lia.
  pose proof (zlen_nonneg h). pose proof (zlen_nonneg i0).
  replace ((p <? 0) || (p <? mpi_size x)) with false by lia. cbv zeta.
  rewrite write_binary_ok by lia. unfold bindr, ret. cbn [bind]. rewrite <- Sz, Nat2Z.id, E. rewrite Sz.
  replace (a ++ ((h ++ i0 ++ i1) ++ post)) with ((a ++ h ++ i0) ++ i1 ++ post) by (rewrite <- !app_assoc; reflexivity).
  rewrite wr_mid by (rewrite ?zlen_app, ?zlen_cons; lia). cbn [bind].
  change ((a ++ h ++ i0) ++ (c :: r) ++ post) with ((a ++ h ++ i0) ++ c :: (r ++ post)).
  rewrite rd1_at by (rewrite !zlen_app; lia). cbn [bind].
  change 0x80 with 128. rewrite land_128 by assumption. rewrite I. destruct (128 <=? c) eqn:C.
  - replace (p - mpi_size x <? 1) with false by lia.
    destruct i0 as [|y0 [|y1 i0]]; [discriminate L0| |rewrite !zlen_cons in L0; pose proof (zlen_nonneg i0); lia].
    replace ((a ++ h ++ [y0]) ++ c :: r ++ post) with ((a ++ h) ++ y0 :: c :: r ++ post) by (rewrite <- !app_assoc; reflexivity).
    change (zlen [y0]) with 1 in *.
    rewrite push_first by (rewrite ?zlen_app; lia). cbn [bind]. rewrite <- app_assoc.
    assert (zlen (0 :: c :: r) = mpi_size x + 1) as Lx by (rewrite !zlen_cons; lia).
    rewrite I, Lx in *. rewrite zlen_app.
    rewrite (write_header_ok TAG_INTEGER (mpi_size x + 1) a h) by (try assumption; try lia). unfold ret.
    change TAG_INTEGER with 2. rewrite der_tlv_split, Lx. rewrite <- app_assoc. cbn [app]. f_equal. f_equal. f_equal. lia.
  - destruct i0 as [|y0 i0]; [|rewrite zlen_cons in L0; pose proof (zlen_nonneg i0); lia]. rewrite app_nil_r. change (zlen (@nil Z)) with 0 in *. rewrite <- app_assoc.
    assert (zlen (c :: r) = mpi_size x) as Lx by (rewrite !zlen_cons; lia).
    rewrite I, Lx in *. 
    rewrite (write_header_ok TAG_INTEGER (mpi_size x) a h) by (try assumption; try lia). unfold ret.
    change TAG_INTEGER with 2. rewrite der_tlv_split, Lx. rewrite <- app_assoc. cbn [app]. f_equal. f_equal. f_equal. lia.
Qed.

(** One step of a sequence of writers *)
Lemma step {A} w d a b post p (k : bytes * Z * Z -> res A) : writes w d -> p = zlen a + zlen b -> zlen d <= zlen b ->
  exists b', zlen b' = zlen b - zlen d /\ bindr (w (a ++ b ++ post) p) k = k (a ++ b' ++ d ++ post, zlen a + zlen b', zlen d).
Proof.
  intros W Hp Hl. destruct (zsplit b (zlen b - zlen d)) as (b1 & b2 & -> & L1 & L2). { pose proof (zlen_nonneg d). lia. }
  exists b1. split; [assumption|]. rewrite zlen_app in *.
  replace (a ++ (b1 ++ b2) ++ post) with ((a ++ b1) ++ b2 ++ post) by (rewrite <- !app_assoc; reflexivity).
  rewrite (W (a ++ b1) b2 post p) by (rewrite ?zlen_app; lia). unfold bindr, ret. cbn [bind]. rewrite zlen_app, <- app_assoc. reflexivity.
Qed.
Lemma step_header {A} tag n a b post p (k : bytes * Z * Z -> res A) : 0 <= n < 2 ^ 32 -> p = zlen a + zlen b -> zlen (der_header tag n) <= zlen b ->
  exists b', zlen b' = zlen b - zlen (der_header tag n) /\
    bindr (asn1_write_header (a ++ b ++ post) p n tag) k = k (a ++ b' ++ der_header tag n ++ post, zlen a + zlen b', n + zlen (der_header tag n)).
Proof.
  intros Hn Hp Hl. destruct (zsplit b (zlen b - zlen (der_header tag n))) as (b1 & b2 & -> & L1 & L2). { pose proof (zlen_nonneg (der_header tag n)). lia. }
  exists b1. split; [assumption|]. rewrite zlen_app in *.
  replace (a ++ (b1 ++ b2) ++ post) with ((a ++ b1) ++ b2 ++ post) by (rewrite <- !app_assoc; reflexivity).
  rewrite (write_header_ok tag n (a ++ b1) b2 post p) by (rewrite ?zlen_app; lia). unfold bindr, ret. cbn [bind]. rewrite zlen_app, <- app_assoc. reflexivity.
Qed.
Lemma header_len tag n : 0 <= n < 2 ^ 32 -> 2 <= zlen (der_header tag n) <= 6.
Proof.
  intros H. unfold der_header. rewrite zlen_cons. destruct (der_length_cases n H) as [[R E]|[[R E]|[[R E]|[[R E]|[R E]]]]]; rewrite E; unfold zlen; cbn [length]; lia.
Qed.
Lemma header_last tag n a b post p : 0 <= n < 2 ^ 32 -> p = zlen a + zlen b -> zlen b = zlen (der_header tag n) ->
  asn1_write_header (a ++ b ++ post) p n tag = ret (a ++ der_header tag n ++ post, zlen a, n + zlen (der_header tag n)).
Proof. intros. apply write_header_ok; assumption. Qed.

Lemma write_null_ok : writes asn1_write_null (der_tlv 5 []).
Proof.
  intros a b post p Hp Hb. unfold asn1_write_null. change (der_tlv 5 []) with (der_header 5 0) in *. rewrite header_last by (try assumption; lia). reflexivity.
Qed.
Lemma write_raw_ok d : writes (fun b p => asn1_write_raw_buffer b p d) d.
Proof.
  intros a b post p Hp Hb. unfold asn1_write_raw_buffer. pose proof (zlen_nonneg a). pose proof (zlen_nonneg d).
  replace ((p <? 0) || (p <? zlen d)) with false by lia. rewrite wr_mid by lia. cbn [bind]. replace (p - zlen d) with (zlen a) by lia. reflexivity.
Qed.
Lemma write_oid_ok oid : zlen oid < 2 ^ 32 -> writes (fun b p => asn1_write_oid b p oid) (der_tlv 6 oid).
Proof.
  intros Ho a b post p Hp Hb. unfold asn1_write_oid. pose proof (zlen_nonneg oid). rewrite der_tlv_split, zlen_app in *.
  destruct (step (fun b p => asn1_write_raw_buffer b p oid) oid a b post p
     (fun x => let '(b, p, l) := x in asn1_write_header b p l TAG_OID) (write_raw_ok oid) Hp) as (b1 & L1 & ->); [pose proof (header_len 6 (zlen oid)); lia|].
  change TAG_OID with 6. rewrite header_last by lia. rewrite <- app_assoc. rewrite Z.add_comm. reflexivity.
Qed.
Lemma write_alg_ok : writes (fun b p => asn1_write_algorithm_identifier b p rsa_oid) der_rsa_algorithm.
Proof.
  intros a b post p Hp Hb. unfold asn1_write_algorithm_identifier.
  change der_rsa_algorithm with (der_header 48 13 ++ der_tlv 6 rsa_oid ++ der_tlv 5 []) in *. change (zlen (der_header 48 13 ++ der_tlv 6 rsa_oid ++ der_tlv 5 [])) with 15 in *.
  destruct (step asn1_write_null (der_tlv 5 []) a b post p
     (fun x => let '(b, p, l1) := x in '(b, p, l2) <-? asn1_write_oid b p rsa_oid ;; asn1_write_header b p (l1 + l2) TAG_CONSTRUCTED_SEQUENCE)
     write_null_ok Hp) as (b1 & L1 & ->); [change (zlen (der_tlv 5 [])) with 2; lia|]. change (zlen (der_tlv 5 [])) with 2 in *.
  destruct (step (fun b p => asn1_write_oid b p rsa_oid) (der_tlv 6 rsa_oid) a b1 (der_tlv 5 [] ++ post) (zlen a + zlen b1)
     (fun x => let '(b, p, l2) := x in asn1_write_header b p (2 + l2) TAG_CONSTRUCTED_SEQUENCE)
     (write_oid_ok rsa_oid ltac:(reflexivity)) eq_refl) as (b2 & L2 & ->); [change (zlen (der_tlv 6 rsa_oid)) with 11; lia|]. change (zlen (der_tlv 6 rsa_oid)) with 11 in *.
  change TAG_CONSTRUCTED_SEQUENCE with 48. change (2 + 11) with 13. rewrite header_last by (try lia; change (zlen (der_header 48 13)) with 2; lia).
  reflexivity.
Qed.
Lemma write_int0_ok : writes (fun b p => asn1_write_int b p 0) (der_integer 0).
Proof.
  intros a b post p Hp Hb. change (der_integer 0) with [2; 1; 0] in *. unfold zlen in Hb. destruct b as [|y0 [|y1 [|y2 [|]]]]; cbn [length] in Hb; try lia.
  change (zlen [y0; y1; y2]) with 3 in Hp. pose proof (zlen_nonneg a). unfold asn1_write_int. replace (p <? 1) with false by lia.
  change (a ++ [y0; y1; y2] ++ post) with (a ++ [y0; y1] ++ y2 :: post).
  rewrite push_at by (change (zlen [y0; y1]) with 2; lia). cbn [bind]. change (u8 0) with 0.
  replace (a ++ [y0; y1] ++ 0 :: post) with ((a ++ [y0; y1]) ++ 0 :: post) by (rewrite <- app_assoc; reflexivity).
  rewrite rd1_at by (rewrite zlen_app; change (zlen [y0; y1]) with 2; lia). cbn [bind]. change (Z.land 0 0x80) with 0. cbn [Z.ltb Z.compare andb].
  rewrite <- app_assoc. rewrite header_last by (try lia; change (zlen [y0; y1]) with 2; try lia; reflexivity). reflexivity.
Qed.

Lemma int_len x : small x -> zlen (der_integer x) <= 12507.
Proof.
  intros [H0 H]. unfold der_integer. fold (int_bytes x). rewrite zlen_tlv. pose proof (zlen_int_bytes x H0).
  pose proof (size_nonneg x). pose proof (header_len 2 (zlen (int_bytes x)) ltac:(lia)). lia.
Qed.

Lemma write_rsa_pubkey_ok k : small (pub_E k) -> small (pub_N k) ->
  writes (fun b p => write_rsa_pubkey b p k) (der_sequence (der_integer (pub_N k) ++ der_integer (pub_E k))).
Proof.
  intros HE HN a b post p Hp Hb. unfold write_rsa_pubkey, der_sequence in *. rewrite der_tlv_split, !zlen_app in *.
  pose proof (int_len _ HE). pose proof (int_len _ HN). pose proof (zlen_nonneg (der_integer (pub_E k))). pose proof (zlen_nonneg (der_integer (pub_N k))).
  match goal with |- bindr _ ?f = _ => destruct (step _ _ a b post p f (write_mpi_ok _ HE) Hp) as (b1 & L1 & ->) end.
  { pose proof (zlen_nonneg (der_header 48 (zlen (der_integer (pub_N k)) + zlen (der_integer (pub_E k))))). lia. }
  match goal with |- bindr (_ (_ ++ _ ++ ?ps) _ _) ?f = _ => destruct (step _ _ a b1 ps _ f (write_mpi_ok _ HN) eq_refl) as (b2 & L2 & ->) end.
  { pose proof (zlen_nonneg (der_header 48 (zlen (der_integer (pub_N k)) + zlen (der_integer (pub_E k))))). lia. }
  change TAG_CONSTRUCTED_SEQUENCE with 48. rewrite (Z.add_comm (zlen (der_integer (pub_E k)))). rewrite header_last by lia.
  rewrite <- !app_assoc. rewrite (Z.add_comm _ (zlen (der_header _ _))). reflexivity.
Qed.

Lemma write_pubkey_der_ok k b post size : small (pub_E k) -> small (pub_N k) -> size = zlen b -> zlen (der_public_key (pub_N k) (pub_E k)) <= size ->
  exists b', zlen b' = size - zlen (der_public_key (pub_N k) (pub_E k)) /\
    rsa_write_pubkey_der k (b ++ post) size = ret (b' ++ der_public_key (pub_N k) (pub_E k) ++ post, zlen (der_public_key (pub_N k) (pub_E k))).
Proof.
  intros HE HN Hs Hl. unfold rsa_write_pubkey_der.
  set (inner := der_sequence (der_integer (pub_N k) ++ der_integer (pub_E k))) in *.
  assert (der_public_key (pub_N k) (pub_E k) = der_header 48 (15 + (zlen (der_header 3 (zlen (0 :: inner))) + zlen (0 :: inner))) ++
     der_rsa_algorithm ++ der_header 3 (zlen (0 :: inner)) ++ 0 :: inner) as Epk.
  { unfold der_public_key. fold inner. unfold der_sequence. rewrite der_tlv_split. f_equal. f_equal. rewrite zlen_app, zlen_tlv. reflexivity. }
  rewrite Epk in *. rewrite !zlen_app in Hl.
  assert (zlen inner <= 30000).
  { unfold inner, der_sequence. rewrite zlen_tlv, !zlen_app. pose proof (int_len _ HE). pose proof (int_len _ HN).
    pose proof (zlen_nonneg (der_integer (pub_E k))). pose proof (zlen_nonneg (der_integer (pub_N k))).
    pose proof (header_len 48 (zlen (der_integer (pub_N k)) + zlen (der_integer (pub_E k))) ltac:(lia)). lia. }
  pose proof (zlen_nonneg inner). change (zlen der_rsa_algorithm) with 15 in Hl.
  pose proof (zlen_cons 0 inner) as Li. rewrite Li in Hl, Epk |- *.
  pose proof (header_len 3 (1 + zlen inner) ltac:(lia)). pose proof (header_len 48 (15 + (zlen (der_header 3 (1 + zlen inner)) + (1 + zlen inner))) ltac:(lia)).
  match goal with |- context [bindr _ ?f] => destruct (step _ _ [] b post size f (write_rsa_pubkey_ok k HE HN)) as (b1 & L1 & S1) end;
    [assumption|fold inner; lia|]. fold inner in L1, S1. cbn [app] in S1. rewrite S1. clear S1. change (zlen (@nil Z)) with 0. rewrite Z.add_0_l.
  replace (zlen b1 <? 1) with false by lia.
  destruct (zsplit b1 (zlen b1 - 1) ltac:(lia)) as (b2 & y & -> & L2 & Ly). rewrite zlen_app in *.
  destruct y as [|y0 [|y1 y]]; [change (zlen (@nil Z)) with 0 in *; lia| |rewrite !zlen_cons in *; pose proof (zlen_nonneg y); lia].
  rewrite <- app_assoc. cbn [app]. rewrite push_first by (rewrite ?zlen_app; change (zlen [y0]) with 1; lia). cbn [bind]. change (zlen [y0]) with 1 in *.
  match goal with |- context [bindr (asn1_write_header (b2 ++ ?ps) _ ?n _) ?f] => destruct (step_header 3 n [] b2 ps (zlen b2) f) as (b3 & L3 & S3) end;
    [lia|reflexivity|rewrite Z.add_comm; lia|]. cbn [app] in S3. change TAG_BIT_STRING with 3. rewrite S3. clear S3. change (zlen (@nil Z)) with 0. rewrite Z.add_0_l.
  match goal with |- context [bindr (asn1_write_algorithm_identifier (b3 ++ ?ps) _ _) ?f] => destruct (step _ _ [] b3 ps (zlen b3) f write_alg_ok) as (b4 & L4 & S4) end;
    [reflexivity|change (zlen der_rsa_algorithm) with 15; rewrite (Z.add_comm (zlen inner)) in L3; lia|]. cbn [app] in S4. rewrite S4. clear S4. change (zlen (@nil Z)) with 0. rewrite Z.add_0_l.
  change (zlen der_rsa_algorithm) with 15 in *. rewrite (Z.add_comm (zlen inner) 1) in *.
  replace (1 + zlen inner + zlen (der_header 3 (1 + zlen inner)) + 15) with (15 + (zlen (der_header 3 (1 + zlen inner)) + (1 + zlen inner))) by lia.
  match goal with |- context [bindr (asn1_write_header (b4 ++ ?ps) _ ?n _) ?f] => destruct (step_header 48 n [] b4 ps (zlen b4) f) as (b5 & L5 & S5) end;
    [lia|reflexivity|lia|]. cbn [app] in S5. change TAG_CONSTRUCTED_SEQUENCE with 48. rewrite S5. clear S5. change (zlen (@nil Z)) with 0. 
  exists b5. rewrite !zlen_app. change (zlen der_rsa_algorithm) with 15. rewrite Li. split; [lia|].
  rewrite <- !app_assoc. cbn [app].
  match goal with |- ret (_, ?x) = ret (_, ?y) => replace x with y by lia end. reflexivity.
Qed.

Definition key_small (k : rsa_key) : Prop :=
  small (key_N k) /\ small (key_E k) /\ small (key_D k) /\ small (key_P k) /\ small (key_Q k) /\ small (key_DP k) /\ small (key_DQ k) /\ small (key_QP k).

Lemma write_key_der_ok k b post size : key_small k -> size = zlen b -> zlen (der_private_key k) <= size ->
  exists b', zlen b' = size - zlen (der_private_key k) /\
    rsa_write_key_der k (b ++ post) size = ret (b' ++ der_private_key k ++ post, zlen (der_private_key k)).
Proof.
  intros (HN & HE & HD & HP & HQ & HDP & HDQ & HQP) Hs Hl. unfold rsa_write_key_der. unfold der_private_key, der_sequence in *.
  rewrite der_tlv_split, !zlen_app in *. change (zlen (der_integer 0)) with 3 in *.
  pose proof (int_len _ HN) as U1. pose proof (int_len _ HE) as U2. pose proof (int_len _ HD) as U3. pose proof (int_len _ HP) as U4.
  pose proof (int_len _ HQ) as U5. pose proof (int_len _ HDP) as U6. pose proof (int_len _ HDQ) as U7. pose proof (int_len _ HQP) as U8.
  pose proof (zlen_nonneg (der_integer (key_N k))) as V1. pose proof (zlen_nonneg (der_integer (key_E k))) as V2. pose proof (zlen_nonneg (der_integer (key_D k))) as V3.
  pose proof (zlen_nonneg (der_integer (key_P k))) as V4. pose proof (zlen_nonneg (der_integer (key_Q k))) as V5. pose proof (zlen_nonneg (der_integer (key_DP k))) as V6.
  pose proof (zlen_nonneg (der_integer (key_DQ k))) as V7. pose proof (zlen_nonneg (der_integer (key_QP k))) as V8.
  match type of Hl with zlen (der_header 48 ?n) + _ <= _ => pose proof (header_len 48 n ltac:(lia)) as Hh; set (total := n) in * end.
  assert (total = 3 + (zlen (der_integer (key_N k)) + (zlen (der_integer (key_E k)) + (zlen (der_integer (key_D k)) + (zlen (der_integer (key_P k)) +
    (zlen (der_integer (key_Q k)) + (zlen (der_integer (key_DP k)) + (zlen (der_integer (key_DQ k)) + zlen (der_integer (key_QP k))))))))) ) as Et by reflexivity.
  match goal with |- context [bindr _ ?f] => destruct (step _ _ [] b post size f (write_mpi_ok _ HQP)) as (b1 & L1 & S1) end; [assumption|lia|].
  cbn [app] in S1. rewrite S1. clear S1. change (zlen (@nil Z)) with 0. rewrite Z.add_0_l.
  match goal with |- context [bindr (_ (b1 ++ ?ps) _ _) ?f] => destruct (step _ _ [] b1 ps (zlen b1) f (write_mpi_ok _ HDQ)) as (b2 & L2 & S2) end; [reflexivity|lia|].
  cbn [app] in S2. rewrite S2. clear S2. change (zlen (@nil Z)) with 0. rewrite Z.add_0_l.
  match goal with |- context [bindr (_ (b2 ++ ?ps) _ _) ?f] => destruct (step _ _ [] b2 ps (zlen b2) f (write_mpi_ok _ HDP)) as (b3 & L3 & S3) end; [reflexivity|lia|].
  cbn [app] in S3. rewrite S3. clear S3. change (zlen (@nil Z)) with 0. rewrite Z.add_0_l.
  match goal with |- context [bindr (_ (b3 ++ ?ps) _ _) ?f] => destruct (step _ _ [] b3 ps (zlen b3) f (write_mpi_ok _ HQ)) as (b4 & L4 & S4) end; [reflexivity|lia|].
  cbn [app] in S4. rewrite S4. clear S4. change (zlen (@nil Z)) with 0. rewrite Z.add_0_l.
  match goal with |- context [bindr (_ (b4 ++ ?ps) _ _) ?f] => destruct (step _ _ [] b4 ps (zlen b4) f (write_mpi_ok _ HP)) as (b5 & L5 & S5) end; [reflexivity|lia|].
  cbn [app] in S5. rewrite S5. clear S5. change (zlen (@nil Z)) with 0. rewrite Z.add_0_l.
  match goal with |- context [bindr (_ (b5 ++ ?ps) _ _) ?f] => destruct (step _ _ [] b5 ps (zlen b5) f (write_mpi_ok _ HD)) as (b6 & L6 & S6) end; [reflexivity|lia|].
  cbn [app] in S6. rewrite S6. clear S6. change (zlen (@nil Z)) with 0. rewrite Z.add_0_l.
  match goal with |- context [bindr (_ (b6 ++ ?ps) _ _) ?f] => destruct (step _ _ [] b6 ps (zlen b6) f (write_mpi_ok _ HE)) as (b7 & L7 & S7) end; [reflexivity|lia|].
  cbn [app] in S7. rewrite S7. clear S7. change (zlen (@nil Z)) with 0. rewrite Z.add_0_l.
  match goal with |- context [bindr (_ (b7 ++ ?ps) _ _) ?f] => destruct (step _ _ [] b7 ps (zlen b7) f (write_mpi_ok _ HN)) as (b8 & L8 & S8) end; [reflexivity|lia|].
  cbn [app] in S8. rewrite S8. clear S8. change (zlen (@nil Z)) with 0. rewrite Z.add_0_l.
  match goal with |- context [bindr (_ (b8 ++ ?ps) _ _) ?f] => destruct (step _ _ [] b8 ps (zlen b8) f write_int0_ok) as (b9 & L9 & S9) end; [reflexivity|change (zlen (der_integer 0)) with 3; lia|].
  cbn [app] in S9. rewrite S9. clear S9. change (zlen (@nil Z)) with 0. rewrite Z.add_0_l. change (zlen (der_integer 0)) with 3 in *.
  match goal with |- context [bindr (asn1_write_header _ _ ?n _) _] => replace n with total by lia end.
  match goal with |- context [bindr (asn1_write_header (b9 ++ ?ps) _ ?n _) ?f] => destruct (step_header 48 n [] b9 ps (zlen b9) f) as (b10 & L10 & S10) end;
    [lia|reflexivity|lia|]. cbn [app] in S10. change TAG_CONSTRUCTED_SEQUENCE with 48. rewrite S10. clear S10.
  exists b10. split; [lia|]. rewrite <- !app_assoc.
  match goal with |- ret (_, ?x) = ret (_, ?y) => replace x with y by lia end. reflexivity.
Qed.
