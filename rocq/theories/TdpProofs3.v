(** Lemmas on pools, key generation and generate. *)
From Coq Require Import Znumtheory Zpow_facts Lia.
From Verif Require Import Base BaseFacts KeyVal MpiModel MpiProofs RsaKeyModel RsaKeySpec AsnProofs5 TdpKeyModel TdpModel TdpSpec RsaMathProofs TdpProofs TdpProofs2
  HmacModel HmacSpec HmacProofs2.

(** * Pools *)
Lemma check_exp k e : public_ok k -> Z.odd e = true -> 3 <= e ->
  throw_if_err (rsa_check_pubkey (with_exp k e)) = if e <? pub_N k then Ok tt else Throw RuntimeError.
Proof.
  intros (ON & OE & BN & BE) Oe He. assert (N0 : 0 <= pub_N k) by (clear - BE; lia).
  destruct (check_pubkey_ok (with_exp k e) N0 ltac:(cbn [with_exp pub_E]; lia)) as [(r & Er & Hr) T2].
  destruct (e <? pub_N k) eqn:C.
  - apply Z.ltb_lt in C. rewrite T2; [reflexivity|]. unfold public_ok. cbn [with_exp pub_E pub_N]. split; [exact ON|]. split; [exact Oe|]. split; [exact BN|]. lia.
  - apply Z.ltb_ge in C. rewrite Er. destruct r as [c|[]]; [reflexivity|]. exfalso.
    destruct (Hr tt eq_refl) as (_ & _ & _ & B). cbn [with_exp pub_E pub_N] in B. lia.
Qed.

(** The exponents e * c, e * c^2, ..., e * c^n *)
Fixpoint exps (n : nat) (c e : Z) : list Z := match n with O => [] | S n' => e * c :: exps n' c (e * c) end.
Lemma exps_length c : forall n e, length (exps n c e) = n.
Proof. induction n as [|n IH]; intros e; [reflexivity|]. cbn [exps length]. now rewrite IH. Qed.
Lemma exps_nth c : forall n e i, (i < n)%nat -> nth_error (exps n c e) i = Some (e * c ^ (Z.of_nat i + 1)).
Proof.
  induction n as [|n IH]; intros e i Hi; [lia|]. cbn [exps]. destruct i as [|i]; cbn [nth_error].
  - change (Z.of_nat 0 + 1) with 1. now rewrite Z.pow_1_r.
  - rewrite IH by lia. f_equal. rewrite Nat2Z.inj_succ. replace (Z.succ (Z.of_nat i) + 1) with (Z.succ (Z.of_nat i + 1)) by lia.
    rewrite Z.pow_succ_r by lia. ring.
Qed.

Lemma pk_odd e : Z.odd e = true -> Z.odd (e * RSA_PK) = true.
Proof. intros H. rewrite Z.odd_mul, H. reflexivity. Qed.
Lemma pk_grow e : 3 <= e -> 3 <= e * RSA_PK.
Proof. unfold RSA_PK. lia. Qed.

Lemma pool_loop_ok k : public_ok k -> forall n e, Z.odd e = true -> 3 <= e ->
  pool_loop n k e = if (n =? 0)%nat || (e * RSA_PK ^ Z.of_nat n <? pub_N k) then Ok (exps n RSA_PK e) else Throw RuntimeError.
Proof.
  intros HK. induction n as [|n IH]; intros e Oe He; [reflexivity|]. cbn [pool_loop Nat.eqb orb].
  rewrite check_exp by (first [exact HK|now apply pk_odd|now apply pk_grow]).
  rewrite Nat2Z.inj_succ, Z.pow_succ_r by lia. rewrite Z.mul_assoc.
  destruct (e * RSA_PK <? pub_N k) eqn:C; cbn [bind].
  - rewrite IH by (first [now apply pk_odd|now apply pk_grow]). destruct n as [|n].
    + change (Z.of_nat 0) with 0. rewrite Z.pow_0_r, Z.mul_1_r, C. reflexivity.
    + cbn [Nat.eqb orb]. destruct (e * RSA_PK * RSA_PK ^ Z.of_nat (S n) <? pub_N k); reflexivity.
  - apply Z.ltb_ge in C.
    assert (1 <= RSA_PK ^ Z.of_nat n) by (apply Z.lt_pred_le; apply Z.pow_pos_nonneg; [reflexivity|lia]).
    assert (0 <= e * RSA_PK) by (unfold RSA_PK; lia).
    rewrite (proj2 (Z.ltb_ge _ _)); [reflexivity|]. nia.
Qed.

Lemma pool_new_ok k size : public_ok k -> 1 < size < 256 ->
  pool_new k size = if pub_E k * RSA_PK ^ (size - 1) <? pub_N k then Ok {| pool_key := k; pool_exps := exps (Z.to_nat (size - 1)) RSA_PK (pub_E k) |}
                    else Throw RuntimeError.
Proof.
  intros HK Hs. pose proof HK as (ON & OE & BN & BE). unfold pool_new. unfold u8. rewrite Z.mod_small by (change (2 ^ 8) with 256; lia).
  rewrite (proj2 (Z.eqb_neq size 0)), (proj2 (Z.eqb_neq (size - 1) 0)) by lia.
  pose proof (pool_loop_ok k HK (Z.to_nat (size - 1)) (pub_E k) OE ltac:(clear - BE; lia)) as P.
  replace (Z.to_nat (size - 1)) with (S (Z.to_nat (size - 1 - 1))) in * by lia. cbn [pool_loop Nat.eqb orb] in P.
  replace (Z.of_nat (S (Z.to_nat (size - 1 - 1)))) with (size - 1) in P by lia.
  destruct (throw_if_err _) as [[]|e| | |]; cbn [bind] in P |- *.
  - destruct (pool_loop _ k _) as [r|e| | |]; cbn [bind] in P |- *; destruct (pub_E k * RSA_PK ^ (size - 1) <? pub_N k); congruence.
  - destruct (pub_E k * RSA_PK ^ (size - 1) <? pub_N k); congruence.
  - destruct (pub_E k * RSA_PK ^ (size - 1) <? pub_N k); congruence.
  - destruct (pub_E k * RSA_PK ^ (size - 1) <? pub_N k); congruence.
  - destruct (pub_E k * RSA_PK ^ (size - 1) <? pub_N k); congruence.
Qed.
Lemma pool_new_1 k : pool_new k 1 = UB.
Proof. reflexivity. Qed.
Lemma pool_new_0 k : pool_new k 0 = Throw InvalidArgument.
Proof. reflexivity. Qed.

Lemma pool_sizes k size : public_ok k -> bits2048 (pub_N k) -> pub_E k = 65537 -> 2 <= size <= 127 ->
  exists p, pool_new k size = Ok p /\ pool_maximum_order p = size /\ pool_key p = k.
Proof.
  intros HK HB HE Hs. rewrite pool_new_ok by (first [exact HK|lia]). rewrite HE.
  assert (pub_E k * RSA_PK ^ (size - 1) < pub_N k) as B.
  { destruct HB as [HB _]. rewrite HE. apply Z.lt_le_trans with (2 ^ 2047); [|exact HB].
    apply Z.le_lt_trans with (65537 * RSA_PK ^ 126); [|reflexivity].
    apply Z.mul_le_mono_nonneg_l; [discriminate|]. apply Z.pow_le_mono_r; [reflexivity|lia]. }
  rewrite HE in B. rewrite (proj2 (Z.ltb_lt _ _) B). eexists. split; [reflexivity|]. split; [|reflexivity].
  unfold pool_maximum_order, zlen. cbn [pool_exps]. rewrite exps_length. unfold u8. rewrite Z.mod_small by (change (2 ^ 8) with 256; lia). lia.
Qed.
Lemma pool_sizes_large k size : public_ok k -> bits2048 (pub_N k) -> pub_E k = 65537 -> 128 <= size <= 255 ->
  pool_new k size = Throw RuntimeError.
Proof.
  intros HK HB HE Hs. rewrite pool_new_ok by (first [exact HK|lia]). rewrite HE.
  rewrite (proj2 (Z.ltb_ge _ _)); [reflexivity|]. destruct HB as [_ HB]. apply Z.le_trans with (2 ^ 2048); [now apply Z.lt_le_incl|].
  apply Z.le_trans with (65537 * RSA_PK ^ 127); [vm_compute; discriminate|].
  apply Z.mul_le_mono_nonneg_l; [discriminate|]. apply Z.pow_le_mono_r; [reflexivity|lia].
Qed.

Lemma pool_copy_loop_ok k : public_ok k -> forall n e, Z.odd e = true -> 3 <= e -> (n = O \/ e * RSA_PK ^ Z.of_nat n < pub_N k) ->
  pool_copy_loop k (exps n RSA_PK e) = Ok (exps n RSA_PK e).
Proof.
  intros HK. induction n as [|n IH]; intros e Oe He Hn; [reflexivity|]. cbn [exps pool_copy_loop].
  destruct Hn as [Hn|Hn]; [discriminate|]. rewrite Nat2Z.inj_succ, Z.pow_succ_r, Z.mul_assoc in Hn by lia.
  assert (1 <= RSA_PK ^ Z.of_nat n) by (apply Z.lt_pred_le; apply Z.pow_pos_nonneg; [reflexivity|lia]).
  assert (0 <= e * RSA_PK) by (unfold RSA_PK; lia).
  rewrite check_exp by (first [exact HK|now apply pk_odd|now apply pk_grow]).
  rewrite (proj2 (Z.ltb_lt _ _)) by nia. cbn [bind].
  rewrite IH by (first [now apply pk_odd|now apply pk_grow|right; exact Hn]). reflexivity.
Qed.
Lemma pool_copy_ok k size p : public_ok k -> 0 <= size < 256 -> pool_new k size = Ok p -> pool_copy p = Ok p.
Proof.
  intros HK Hs H. destruct (Z.eq_dec size 0) as [->|]; [rewrite pool_new_0 in H; discriminate|].
  destruct (Z.eq_dec size 1) as [->|]; [rewrite pool_new_1 in H; discriminate|].
  rewrite pool_new_ok in H by (first [exact HK|lia]). destruct (_ <? _) eqn:C; [|discriminate]. injection H as <-.
  unfold pool_copy. cbn [pool_key pool_exps]. pose proof HK as (ON & OE & BN & BE).
  rewrite pool_copy_loop_ok; [reflexivity|exact HK|exact OE|clear - BE; lia|]. right. rewrite Z2Nat.id by lia. now apply Z.ltb_lt.
Qed.

Lemma repeat_eval k g : bits2048 (pub_N k) -> Z.odd (pub_N k) = true -> 0 <= pub_E k -> zlen g = 256 -> forall n inp,
  is_bytes inp -> zlen inp = 256 ->
  repeat_call (S n) (tdp_eval k g) inp = Ok (message (be_decode inp ^ (pub_E k ^ Z.of_nat (S n)) mod pub_N k)).
Proof.
  intros HB HO HE Lg. destruct (bits2048_facts _ HB) as (L & N2 & NS).
  induction n as [|n IH]; intros inp Hi Li.
  - cbn [repeat_call]. rewrite eval_ok by assumption. cbn [bind]. change (Z.of_nat 1) with 1. now rewrite Z.pow_1_r.
  - remember (S n) as m. cbn [repeat_call]. rewrite eval_ok by assumption. cbn [bind].
    rewrite IH by (first [apply message_bytes|apply message_len]).
    pose proof (Z.mod_pos_bound (be_decode inp ^ pub_E k) (pub_N k) ltac:(lia)).
    rewrite message_decode by lia.
    assert (0 <= pub_E k ^ Z.of_nat m) by (apply Z.pow_nonneg; exact HE).
    rewrite (pow_mod_base _ (be_decode inp ^ pub_E k)) by (first [apply Zmod_mod|lia]).
    rewrite <- Z.pow_mul_r by lia. rewrite Nat2Z.inj_succ, Z.pow_succ_r by lia. reflexivity.
Qed.

Lemma pool_eval_val k size p g inp order : public_ok k -> bits2048 (pub_N k) -> 0 <= size < 256 -> pool_new k size = Ok p ->
  zlen g = 256 -> is_bytes inp -> zlen inp = 256 -> 1 <= order <= pool_maximum_order p ->
  pool_eval p g inp order = Ok (message (be_decode inp ^ (pub_E k * RSA_PK ^ (order - 1)) mod pub_N k)).
Proof.
  intros HK HB Hs H Lg Hi Li Ho. destruct (bits2048_facts _ HB) as (L & N2 & NS).
  destruct (Z.eq_dec size 0) as [->|]; [rewrite pool_new_0 in H; discriminate|].
  destruct (Z.eq_dec size 1) as [->|]; [rewrite pool_new_1 in H; discriminate|].
  rewrite pool_new_ok in H by (first [exact HK|lia]). destruct (_ <? _) eqn:C; [|discriminate]. injection H as <-.
  pose proof HK as (ON & OE & BN & BE).
  unfold pool_maximum_order, zlen in Ho. cbn [pool_exps] in Ho. rewrite exps_length in Ho. unfold u8 in Ho.
  rewrite Z.mod_small in Ho by (change (2 ^ 8) with 256; lia).
  assert (E0 : 0 <= pub_E k * RSA_PK ^ (order - 1)).
  { apply Z.mul_nonneg_nonneg; [clear - BE; lia|]. apply Z.pow_nonneg. discriminate. }
  unfold pool_eval. cbn [pool_key pool_exps].
  assert (Tail : forall e, e = pub_E k * RSA_PK ^ (order - 1) ->
    (if negb (kMessageSize =? rsa_len k) then Throw RuntimeError
     else x <- throw_if_err (mpi_read_binary inp) ;; x <- throw_if_err (mpi_exp_mod x e (pub_N k)) ;; write_array x g)
    = Ok (message (be_decode inp ^ (pub_E k * RSA_PK ^ (order - 1)) mod pub_N k))).
  { intros e ->. rewrite (bits2048_len k HB). change (kMessageSize =? 256) with true. cbn [negb].
    rewrite read_256 by assumption. cbn [throw_if_err bind ret].
    rewrite exp_mod_ok by (first [exact ON|exact E0|lia]). cbn [throw_if_err bind ret].
    set (w := be_decode inp ^ _). pose proof (Z.mod_pos_bound w (pub_N k) ltac:(lia)). apply write_array_ok; [lia|exact Lg]. }
  destruct (order =? 1) eqn:O1.
  - apply Z.eqb_eq in O1. cbn [bind]. apply Tail. rewrite O1. change (1 - 1) with 0. now rewrite Z.pow_0_r, Z.mul_1_r.
  - apply Z.eqb_neq in O1. unfold pool_maximum_order, zlen. cbn [pool_exps]. rewrite exps_length. unfold u8.
    rewrite Z.mod_small by (change (2 ^ 8) with 256; lia).
    rewrite (proj2 (Z.leb_le _ _)) by lia. rewrite (proj2 (Z.leb_le _ _)) by lia. rewrite (proj2 (Z.ltb_lt _ _)) by lia. cbn [andb].
    rewrite exps_nth by lia. cbn [bind]. apply Tail. f_equal. f_equal. lia.
Qed.
Lemma pool_eval_times k size p g g' inp order : public_ok k -> bits2048 (pub_N k) -> pub_E k = 65537 -> 0 <= size < 256 -> pool_new k size = Ok p ->
  zlen g = 256 -> zlen g' = 256 -> is_bytes inp -> zlen inp = 256 -> 1 <= order <= pool_maximum_order p ->
  pool_eval p g inp order = repeat_call (Z.to_nat order) (tdp_eval k g') inp.
Proof.
  intros HK HB HE Hs H Lg Lg' Hi Li Ho. rewrite (pool_eval_val k size p) by assumption. pose proof HK as (ON & OE & BN & BE).
  replace (Z.to_nat order) with (S (Z.to_nat (order - 1))) by lia.
  rewrite repeat_eval by (first [assumption|clear - BE; lia]). do 4 f_equal.
  rewrite Nat2Z.inj_succ, Z2Nat.id, Z.pow_succ_r by lia. now rewrite HE.
Qed.
Lemma pool_eval_order_0 p g inp : pool_eval p g inp 0 = UB.
Proof.
  unfold pool_eval. change (0 =? 1) with false. cbn iota. unfold pool_maximum_order, u8.
  pose proof (Z.mod_pos_bound (zlen (pool_exps p) + 1) (2 ^ 8) ltac:(reflexivity)) as B.
  rewrite (proj2 (Z.leb_le 0 _)) by lia. reflexivity.
Qed.
Lemma pool_eval_order_large p g inp order : pool_maximum_order p < order -> order <> 1 -> pool_eval p g inp order = Throw InvalidArgument.
Proof.
  intros H H1. unfold pool_eval. rewrite (proj2 (Z.eqb_neq order 1)) by lia. rewrite (proj2 (Z.leb_gt _ _)) by lia. reflexivity.
Qed.
Lemma pool_eval_string_ok p g s order : bits2048 (pub_N (pool_key p)) -> zlen s = 256 ->
  pool_eval_string p g s order = pool_eval p g s order.
Proof.
  intros HB Ls. unfold pool_eval_string. rewrite (bits2048_len _ HB), Ls. change (256 =? 256) with true. cbn [negb].
  unfold kMessageSize. now rewrite str_data_rd.
Qed.
Lemma pool_eval_string_bad p g s order : bits2048 (pub_N (pool_key p)) -> zlen s <> 256 ->
  pool_eval_string p g s order = Throw InvalidArgument.
Proof. intros HB Ls. unfold pool_eval_string. rewrite (bits2048_len _ HB). now rewrite (proj2 (Z.eqb_neq _ _) Ls). Qed.

(** * generate *)
Lemma generate_ok H ml gp kb l seed r t k : bits2048 (pub_N k) -> (forall y, zlen (H y) = 64 /\ is_bytes (H y)) -> sized gp -> zlen kb = 32 ->
  zlen seed < 2 ^ 63 -> zlen r = 264 -> zlen t = zlen seed + 1 ->
  tdp_generate H ml gp r t k (VKey kb l) seed =
    (VKey kb ml, Ok (message (be_decode (ctr_mode (rfc_hmac H 128 kb) seed 264) mod pub_N k))).
Proof.
  intros HB HH Hg Lk Ls Lr Lt. destruct (bits2048_facts _ HB) as (L & N2 & NS).
  unfold tdp_generate, prf_string, kRSAPrfSize. rewrite <- (app_nil_r seed) at 1.
  rewrite prf_ctr by (first [assumption|lia|intros; apply HH]).
  change (264 <=? 64) with false. cbn iota. change (Z.to_nat 264) with 264%nat.
  set (o := ctr_mode _ seed 264).
  assert (Bo : is_bytes o).
  { unfold o, ctr_mode. apply is_bytes_firstn. apply Forall_concat. apply Forall_forall. intros b Hb. apply in_map_iff in Hb.
    destruct Hb as (i & <- & _). apply HH. }
  assert (Lo : zlen o <= 264) by (unfold o, ctr_mode, zlen; rewrite firstn_length; lia).
  f_equal. cbn [bind]. rewrite read_binary_ok by (first [exact Bo|lia]). cbn [throw_if_err bind ret].
  rewrite mod_ok by lia. cbn [throw_if_err bind ret]. apply write_array_ok; [|reflexivity].
  pose proof (Z.mod_pos_bound (be_decode o) (pub_N k) ltac:(lia)). lia.
Qed.
Lemma generate_key_ok H ml gp kb l seed r t k : bits2048 (pub_N k) -> (forall y, zlen (H y) = 64 /\ is_bytes (H y)) -> sized gp -> zlen kb = 32 ->
  zlen seed < 2 ^ 63 -> zlen r = 264 -> zlen t = zlen seed + 1 ->
  tdp_generate_key H ml gp r t k (VKey kb l) seed =
    (VEmpty, Ok (message (be_decode (ctr_mode (rfc_hmac H 128 kb) seed 264) mod pub_N k))).
Proof.
  intros. unfold tdp_generate_key. cbn [prf_ctor v_is_empty]. now rewrite generate_ok.
Qed.

(** * Key generation *)
Definition candidates_ok (cand : list (Z * Z)) : Prop := Forall (fun c => 1 < fst c /\ 1 < snd c /\ Z.odd (fst c) = true /\ Z.odd (snd c) = true) cand.
Lemma gen_loop_ok nbits E : forall cand N P Q H, candidates_ok cand -> gen_loop cand nbits E = Ok (N, P, Q, H) ->
  N = P * Q /\ 1 < P /\ 1 < Q /\ Z.odd P = true /\ Z.odd Q = true /\ H = (P - 1) * (Q - 1) /\ mpi_bitlen N = nbits /\ Z.gcd E H = 1 /\
  (In (P, Q) cand \/ In (Q, P) cand).
Proof.
  induction cand as [|[p q] cand IH]; intros N P Q H Hc; [discriminate|]. cbn [gen_loop].
  inversion Hc as [|? ? Hpq Hc']; subst. cbn [fst snd] in Hpq. destruct Hpq as (H1 & H2 & H3 & H4).
  assert (Rec : gen_loop cand nbits E = Ok (N, P, Q, H) -> N = P * Q /\ 1 < P /\ 1 < Q /\ Z.odd P = true /\ Z.odd Q = true /\
    H = (P - 1) * (Q - 1) /\ mpi_bitlen N = nbits /\ Z.gcd E H = 1 /\ (In (P, Q) ((p, q) :: cand) \/ In (Q, P) ((p, q) :: cand))).
  { intros G. destruct (IH N P Q H Hc' G) as (A1 & A2 & A3 & A4 & A5 & A6 & A7 & A8 & A9).
    do 8 (split; [assumption|]). destruct A9; [left|right]; now right. }
  destruct (p =? q); [exact Rec|]. cbn zeta. destruct (negb (mpi_bitlen (p * q) =? nbits)) eqn:B; [exact Rec|].
  apply negb_false_iff, Z.eqb_eq in B.
  destruct (p <? q).
  - destruct (mpi_gcd E ((q - 1) * (p - 1)) =? 1) eqn:G; [|exact Rec]. intros X. injection X as <- <- <- <-.
    apply Z.eqb_eq in G. unfold mpi_gcd in G. destruct (_ =? 0); [discriminate|].
    do 8 (split; [first [assumption|ring|reflexivity]|]). right. now left.
  - destruct (mpi_gcd E ((p - 1) * (q - 1)) =? 1) eqn:G; [|exact Rec]. intros X. injection X as <- <- <- <-.
    apply Z.eqb_eq in G. unfold mpi_gcd in G. destruct (_ =? 0); [discriminate|].
    do 8 (split; [first [assumption|ring|reflexivity]|]). left. now left.
Qed.
Definition coprime_pairs (cand : list (Z * Z)) : Prop := Forall (fun c => fst c <> snd c -> Z.gcd (fst c) (snd c) = 1) cand.
Lemma gen_loop_total nbits E : forall cand, gen_loop cand nbits E = Diverge \/
  exists N P Q H, gen_loop cand nbits E = Ok (N, P, Q, H) /\ P <> Q /\ (In (P, Q) cand \/ In (Q, P) cand).
Proof.
  induction cand as [|[p q] cand IH]; [now left|]. cbn [gen_loop].
  assert (Rec : gen_loop cand nbits E = Diverge \/
    exists N P Q H, gen_loop cand nbits E = Ok (N, P, Q, H) /\ P <> Q /\ (In (P, Q) ((p, q) :: cand) \/ In (Q, P) ((p, q) :: cand))).
  { destruct IH as [IH|(N & P & Q & H & E1 & E2 & E3)]; [now left|]. right. exists N, P, Q, H. split; [exact E1|]. split; [exact E2|].
    destruct E3; [left|right]; now right. }
  destruct (p =? q) eqn:D; [exact Rec|]. apply Z.eqb_neq in D. cbn zeta. destruct (negb _); [exact Rec|].
  destruct (p <? q); destruct (_ =? 1); try exact Rec; right; do 4 eexists; (split; [reflexivity|]).
  - split; [congruence|]. right. now left.
  - split; [congruence|]. left. now left.
Qed.

Lemma gen_loop_diverge nbits E : forall cand, candidates_ok cand -> gen_loop cand nbits E = Diverge ->
  Forall (fun c => ~ (fst c <> snd c /\ mpi_bitlen (fst c * snd c) = nbits /\ Z.gcd E ((fst c - 1) * (snd c - 1)) = 1)) cand.
Proof.
  induction cand as [|[p q] cand IH]; intros Hc; [constructor|]. cbn [gen_loop].
  inversion Hc as [|? ? Hpq Hc']; subst. cbn [fst snd] in Hpq. destruct Hpq as (H1 & H2 & H3 & H4). specialize (IH Hc').
  assert (Gcd : forall a b, 1 < a -> 1 < b -> mpi_gcd E ((a - 1) * (b - 1)) = Z.gcd E ((a - 1) * (b - 1))).
  { intros a b Ha Hb. unfold mpi_gcd. rewrite (proj2 (Z.eqb_neq _ 0)) by nia. reflexivity. }
  destruct (p =? q) eqn:D.
  { apply Z.eqb_eq in D. intros H. constructor; [|now apply IH]. cbn [fst snd]. now intros [X _]. }
  cbn zeta. destruct (negb (mpi_bitlen (p * q) =? nbits)) eqn:B.
  { apply negb_true_iff, Z.eqb_neq in B. intros H. constructor; [|now apply IH]. cbn [fst snd]. now intros (_ & X & _). }
  destruct (p <? q).
  - destruct (mpi_gcd E ((q - 1) * (p - 1)) =? 1) eqn:G; [discriminate|]. apply Z.eqb_neq in G. rewrite Gcd, Z.mul_comm in G by assumption.
    intros H. constructor; [|now apply IH]. cbn [fst snd]. now intros (_ & _ & X).
  - destruct (mpi_gcd E ((p - 1) * (q - 1)) =? 1) eqn:G; [discriminate|]. apply Z.eqb_neq in G. rewrite Gcd in G by assumption.
    intros H. constructor; [|now apply IH]. cbn [fst snd]. now intros (_ & _ & X).
Qed.

Lemma inverse_lcm E D P Q : 1 < P - 1 -> 1 < Q - 1 -> (E * D) mod ((P - 1) * (Q - 1)) = 1 -> (D * E) mod (Z.lcm (P - 1) (Q - 1)) = 1.
Proof.
  intros HP HQ H.
  assert (HL : 0 < Z.lcm (P - 1) (Q - 1)).
  { pose proof (Z.lcm_nonneg (P - 1) (Q - 1)) as A. assert (Z.lcm (P - 1) (Q - 1) <> 0) by (rewrite Z.lcm_eq_0; lia). lia. }
  assert (1 < Z.lcm (P - 1) (Q - 1)) as HL1.
  { destruct (Z.divide_lcm_l (P - 1) (Q - 1)) as [c Hc]. destruct (Z.eq_dec (Z.lcm (P - 1) (Q - 1)) 1) as [E1|]; [|lia].
    rewrite E1 in Hc. assert (P - 1 = 1); [|lia]. apply Z.divide_1_r_nonneg; [lia|exists c; exact Hc]. }
  rewrite Z.mul_comm. apply eq_trans with (1 mod Z.lcm (P - 1) (Q - 1)); [|apply Z.mod_small; lia]. apply divide_mod_eq; [exact HL|].
  apply Z.divide_trans with ((P - 1) * (Q - 1)).
  - apply Z.lcm_least; [now apply Z.divide_mul_l|now apply Z.divide_mul_r].
  - apply mod_eq_divide; [nia|]. rewrite H. symmetry. apply Z.mod_small. nia.
Qed.

Lemma gen_key_ok nbits E cand : 128 <= nbits -> nbits mod 2 = 0 -> Z.odd E = true -> 3 <= E < 2 ^ 64 -> candidates_ok cand -> coprime_pairs cand ->
  nbits <= 8192 ->
  (rsa_gen_key cand nbits E = Diverge /\ gen_loop cand nbits E = Diverge) \/
  exists k, rsa_gen_key cand nbits E = ret k /\ private_ok k /\ mpi_bitlen (key_N k) = nbits /\ key_E k = E /\
    (In (key_P k, key_Q k) cand \/ In (key_Q k, key_P k) cand).
Proof.
  intros Hn H2 OE HE Hc Hp Hmax. unfold rsa_gen_key. rewrite (proj2 (Z.ltb_ge nbits 128)), (proj2 (Z.ltb_ge E 3)) by lia. cbn [orb].
  rewrite H2. change (negb (0 =? 0)) with false. cbn iota.
  destruct (gen_loop_total nbits E cand) as [E0|(N & P & Q & H & E1 & E2 & E3)]; [left; now rewrite E0|]. right.
  destruct (gen_loop_ok nbits E cand N P Q H Hc E1) as (A1 & A2 & A3 & A4 & A5 & A6 & A7 & A8 & _).
  pose proof (odd_ge3 P A2 A4) as P3. pose proof (odd_ge3 Q A3 A5) as Q3.
  assert (GPQ : Z.gcd Q P = 1).
  { unfold coprime_pairs in Hp. rewrite Forall_forall in Hp. destruct E3 as [I|I]; specialize (Hp _ I); cbn [fst snd] in Hp.
    - rewrite Z.gcd_comm. now apply Hp.
    - apply Hp. congruence. }
  rewrite E1. cbn [bind].
  assert (H1 : 1 < H) by (clear - A6 P3 Q3; nia).
  destruct (inv_mod_ok E H H1 A8) as (D & -> & BD & HD). rewrite bindr_ret.
  rewrite mod_ok by lia. rewrite bindr_ret. rewrite mod_ok by lia. rewrite bindr_ret.
  destruct (inv_mod_ok Q P A2 GPQ) as (qp & -> & Bq & Hq). rewrite bindr_ret. eexists. split; [reflexivity|].
  cbn [key_N key_E key_P key_Q].
  assert (NP : 0 < N) by (clear - A1 P3 Q3; nia).
  split; [|repeat (split; [first [exact A7|reflexivity]|]); exact E3].
  unfold private_ok. cbn [key_N key_E key_D key_P key_Q key_DP key_DQ key_QP key_pub].
  assert (2 ^ 127 <= N) as BN.
  { assert (1 <= 127 + 1) by lia. pose proof (proj1 (bitlen_ge N 128 ltac:(lia) ltac:(lia))) as X. apply X. lia. }
  split.
  { unfold public_ok. cbn [key_pub pub_N pub_E key_N key_E]. split; [rewrite A1, Z.odd_mul, A4, A5; reflexivity|]. split; [exact OE|].
    split.
    - split; [exact BN|]. apply (proj1 (bitlen_le N 8192 ltac:(lia) ltac:(lia))). lia.
    - split; [clear - HE; lia|]. apply Z.lt_le_trans with (2 ^ 64); [apply HE|]. apply Z.le_trans with (2 ^ 127); [vm_compute; discriminate|exact BN]. }
  split; [exact A2|]. split; [exact A3|]. split; [exact A1|].
  split. { apply inverse_lcm; [lia|lia|]. now rewrite <- A6. }
  split; [now rewrite <- A6|]. split; [reflexivity|]. split; [reflexivity|]. split; [exact Bq|exact Hq].
Qed.

Lemma bits2048_bitlen n : bits2048 n -> mpi_bitlen n = 2048.
Proof.
  intros [A B]. assert (0 <= n) as C by (apply Z.le_trans with (2 ^ 2047); [vm_compute; discriminate|exact A]).
  apply Z.le_antisymm; [apply (proj2 (bitlen_le n 2048 C ltac:(discriminate)) B)|apply (proj2 (bitlen_ge n 2048 C ltac:(discriminate)) A)].
Qed.
Lemma tdp_new_ok cand : candidates_ok cand -> coprime_pairs cand ->
  (tdp_new cand = Diverge /\ Forall (fun c => ~ usable c) cand) \/
  exists k, tdp_new cand = Ok k /\ private_ok k /\ bits2048 (key_N k) /\ key_E k = 65537 /\
    (In (key_P k, key_Q k) cand \/ In (key_Q k, key_P k) cand).
Proof.
  intros Hc Hp. unfold tdp_new. change (rsa_gen_key cand RSA_MODULUS_SIZE RSA_PK) with (rsa_gen_key cand 2048 65537).
  assert (B : 3 <= 65537 < 2 ^ 64) by (split; [discriminate|reflexivity]).
  destruct (gen_key_ok 2048 65537 cand ltac:(discriminate) eq_refl eq_refl B Hc Hp ltac:(discriminate)) as [[-> D]|(k & -> & A1 & A2 & A3 & A4)].
  { left. split; [reflexivity|]. apply (gen_loop_diverge _ _ _ Hc) in D. eapply Forall_impl; [|exact D]. cbn beta. intros c X (U1 & U2 & U3).
    apply X. split; [exact U1|]. split; [|exact U3]. apply bits2048_bitlen. exact U2. }
  right. exists k. cbn [throw_if_err bind ret].
  pose proof A1 as (PK & _). pose proof PK as (ON & OE & BN & BE). change (pub_N (key_pub k)) with (key_N k) in *.
  change (pub_E (key_pub k)) with (key_E k) in *.
  assert (N0 : 0 <= key_N k) by (clear - BE; lia).
  rewrite (proj2 (check_pubkey_ok (key_pub k) N0 ltac:(clear - BE; change (0 <= key_E k); lia)) PK). cbn [throw_if_err bind ret].
  split; [reflexivity|]. split; [exact A1|]. split; [|split; [exact A3|exact A4]].
  destruct (bitlen_pos (key_N k)) as [_ B2]; [clear - BE; lia|]. rewrite A2 in B2. exact B2.
Qed.
