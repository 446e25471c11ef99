(** Lemmas on the model of the RSA private operation: blinding, Chinese remainders, roots. *)
From Coq Require Import Znumtheory Zpow_facts Lia.
From Verif Require Import Base BaseFacts MpiModel MpiProofs RsaKeyModel RsaKeySpec TdpKeyModel TdpModel TdpSpec FermatProofs RsaMathProofs.

Lemma mod_ok a n : 0 < n -> mpi_mod a n = ret (a mod n).
Proof. intros H. unfold mpi_mod. rewrite (proj2 (Z.ltb_ge n 0)), (proj2 (Z.eqb_neq n 0)) by lia. reflexivity. Qed.
Lemma exp_mod_ok a e n : 0 < n -> Z.odd n = true -> 0 <= e -> mpi_exp_mod a e n = ret (a ^ e mod n).
Proof.
  intros Hn Ho He. unfold mpi_exp_mod. rewrite (proj2 (Z.ltb_ge n 0)), (proj2 (Z.ltb_ge e 0)) by lia.
  rewrite <- Z.negb_odd, Ho. cbn [orb negb]. rewrite Zpow_mod_correct by lia. now rewrite Zmod_mod.
Qed.
Lemma bindr_ret {A B} (a : A) (f : A -> res B) : bindr (ret a) f = f a.
Proof. reflexivity. Qed.

(** y is the root of T modulo N *)
Definition root (k : rsa_key) (T y : Z) : Prop := 0 <= y < key_N k /\ y ^ key_E k mod key_N k = T mod key_N k.

Section Key.
Context (k : rsa_key) (F : key_facts k) (FP : rsa_factor (key_P k)) (FQ : rsa_factor (key_Q k)).

Lemma N_pos : 0 < key_N k.
Proof. destruct F as [kP kQ kN oP oQ kE kR kqp kDP kDQ]. rewrite kN. nia. Qed.
Lemma N_gt1 : 1 < key_N k.
Proof. destruct F as [kP kQ kN oP oQ kE kR kqp kDP kDQ]. rewrite kN. nia. Qed.
Lemma N_odd : Z.odd (key_N k) = true.
Proof. destruct F as [kP kQ kN oP oQ kE kR kqp kDP kDQ]. rewrite kN, Z.odd_mul, oP, oQ. reflexivity. Qed.

(** An exponent that is 1 modulo P - 1 *)
Lemma pow_inverse M a d e : rsa_factor M -> 3 <= M -> 0 < d -> 0 < e -> (d * e) mod (M - 1) = 1 -> (a ^ d) ^ e mod M = a mod M.
Proof.
  intros HM H3 Hd He H. rewrite <- Z.pow_mul_r by lia. rewrite <- (Z.pow_1_r a) at 2.
  apply factor_pow; [exact HM|lia|nia|lia|]. rewrite H. symmetry. apply Z.mod_small.
  destruct (Z.eq_dec M 2); [lia|]. destruct (Z.eq_dec (M - 1) 1); [lia|]. lia.
Qed.

Lemma root_unique T y z : root k T y -> root k T z -> y = z.
Proof.
  intros [By Hy] [Bz Hz]. pose proof N_pos as HN. destruct F as [kP kQ kN oP oQ kE kR kqp kDP kDQ].
  rewrite <- (Z.mod_small y (key_N k)), <- (Z.mod_small z (key_N k)) by lia.
  assert (Eq : y ^ key_E k mod key_N k = z ^ key_E k mod key_N k) by congruence.
  rewrite kN in Eq |- *. apply crt_mod in Eq; [|lia|lia]. destruct Eq as [Ep Eq].
  pose proof (odd_ge3 _ kP oP). pose proof (odd_ge3 _ kQ oQ).
  apply crt_unique; [lia|lia|assumption| |].
  - destruct kDP as [D1 D2]. rewrite Z.mul_comm in D2.
    rewrite <- (pow_inverse (key_P k) y (key_E k) (key_DP k) FP ltac:(lia) ltac:(lia) (proj1 D1) D2).
    rewrite <- (pow_inverse (key_P k) z (key_E k) (key_DP k) FP ltac:(lia) ltac:(lia) (proj1 D1) D2).
    apply pow_mod_base; [lia|lia|exact Ep].
  - destruct kDQ as [D1 D2]. rewrite Z.mul_comm in D2.
    rewrite <- (pow_inverse (key_Q k) y (key_E k) (key_DQ k) FQ ltac:(lia) ltac:(lia) (proj1 D1) D2).
    rewrite <- (pow_inverse (key_Q k) z (key_E k) (key_DQ k) FQ ltac:(lia) ltac:(lia) (proj1 D1) D2).
    apply pow_mod_base; [lia|lia|exact Eq].
Qed.

(** The blinding pair undoes itself *)
Definition pair_ok (vi vf : Z) : Prop := (vi * vf ^ key_E k) mod key_N k = 1.
Definition bl_ok (bl : blinding) : Prop := match bl with None => True | Some (vi, vf) => pair_ok vi vf end.

(** CRT recombination: a number with given powers modulo P and Q is a root *)
Lemma crt_root T dp dq : 0 < dp -> 0 < dq -> (dp * key_E k) mod (key_P k - 1) = 1 -> (dq * key_E k) mod (key_Q k - 1) = 1 ->
  let t2 := T ^ dq mod key_Q k in
  root k T (t2 + ((T ^ dp mod key_P k - t2) * key_QP k) mod key_P k * key_Q k).
Proof.
  intros Hdp Hdq Ep Eq t2. destruct F as [kP kQ kN oP oQ kE kR kqp kDP kDQ].
  pose proof (odd_ge3 _ kP oP). pose proof (odd_ge3 _ kQ oQ).
  pose proof (crt_combine (key_P k) (key_Q k) (key_QP k) (T ^ dp mod key_P k) t2 kP ltac:(lia) kqp
    (Z.mod_pos_bound _ (key_Q k) ltac:(lia))) as C. cbn zeta in C.
  set (y := t2 + _) in *. destruct C as (B & C1 & C2). split; [rewrite kN; exact B|].
  rewrite kN. apply crt_unique; [lia|lia|assumption| |].
  - rewrite Zmod_mod in C1. rewrite (pow_mod_base y (T ^ dp)) by (first [exact C1|lia]).
    apply pow_inverse; first [assumption|lia].
  - unfold t2 in C2. rewrite Zmod_mod in C2. rewrite (pow_mod_base y (T ^ dq)) by (first [exact C2|lia]).
    apply pow_inverse; first [assumption|lia].
Qed.

Lemma blinded_exponent d M r e : 0 < d -> 3 <= M -> 0 <= r -> (d * e) mod (M - 1) = 1 ->
  0 < (M - 1) * r + d /\ (((M - 1) * r + d) * e) mod (M - 1) = 1.
Proof.
  intros Hd HM Hr H. split; [nia|].
  replace (((M - 1) * r + d) * e) with (d * e + r * e * (M - 1)) by ring. now rewrite Z_mod_plus_full.
Qed.

Lemma core_ok vi vf rnd i T : pair_ok vi vf -> rng_ok rnd -> 0 <= T ->
  exists y, rsa_private_core k vi vf rnd i T = ret y /\ root k T y.
Proof.
  intros Hb Hr HT. pose proof N_pos as HN. pose proof F as F'. destruct F' as [kP kQ kN oP oQ kE kR kqp kDP kDQ].
  pose proof (odd_ge3 _ kP oP). pose proof (odd_ge3 _ kQ oQ).
  unfold rsa_private_core. rewrite mod_ok by lia. rewrite bindr_ret.
  set (T0 := (T * vi) mod key_N k).
  destruct (Hr i RSA_EXPONENT_BLINDING ltac:(unfold RSA_EXPONENT_BLINDING; lia)) as [R1 _].
  destruct (Hr (S i) RSA_EXPONENT_BLINDING ltac:(unfold RSA_EXPONENT_BLINDING; lia)) as [R2 _].
  set (r1 := rnd i RSA_EXPONENT_BLINDING) in *. set (r2 := rnd (S i) RSA_EXPONENT_BLINDING) in *.
  destruct kDP as [D1 D2]. destruct kDQ as [D3 D4].
  pose proof (blinded_exponent (key_DP k) (key_P k) r1 (key_E k) (proj1 D1) ltac:(lia) R1 D2) as [A1 A2].
  pose proof (blinded_exponent (key_DQ k) (key_Q k) r2 (key_E k) (proj1 D3) ltac:(lia) R2 D4) as [B1 B2].
  set (dp := (key_P k - 1) * r1 + key_DP k) in *. set (dq := (key_Q k - 1) * r2 + key_DQ k) in *.
  cbn zeta. rewrite exp_mod_ok by (first [assumption|lia]). rewrite bindr_ret.
  rewrite exp_mod_ok by (first [assumption|lia]). rewrite bindr_ret.
  rewrite mod_ok by lia. rewrite bindr_ret. rewrite mod_ok by lia.
  eexists; split; [reflexivity|].
  pose proof (crt_root T0 dp dq A1 B1 A2 B2) as [Bs Hs]. cbn zeta in Bs, Hs.
  match type of Hs with ?y ^ _ mod _ = _ => set (s := y) in * end. split; [apply Z.mod_pos_bound; lia|].
  rewrite (pow_mod_base ((s * vf) mod key_N k) (s * vf)) by (first [apply Zmod_mod|lia]).
  rewrite Z.pow_mul_l. rewrite Zmult_mod, Hs. unfold T0. rewrite Zmod_mod, <- Zmult_mod.
  replace (T * vi * vf ^ key_E k) with (T * (vi * vf ^ key_E k)) by ring.
  rewrite Zmult_mod. unfold pair_ok in Hb. rewrite Hb, Z.mul_1_r. now rewrite Zmod_mod.
Qed.

(** * The blinding pair *)
Lemma blinding_loop_found N' len rnd : forall n i vi vf, (exists j, (i <= j < i + n)%nat /\ Z.gcd (rnd j (len - 1)) N' = 1) -> N' <> 0 ->
  exists vf' i', blinding_loop n N' len rnd i vi vf = (1, vf', i', true) /\ Z.gcd vf' N' = 1 /\ exists j, vf' = rnd j (len - 1).
Proof.
  induction n as [|n IH]; intros i vi vf (j & Hj & Hg) HN; [lia|].
  cbn [blinding_loop]. unfold mpi_gcd. rewrite (proj2 (Z.eqb_neq N' 0)) by exact HN.
  destruct (Z.gcd (rnd i (len - 1)) N' =? 1) eqn:G.
  - apply Z.eqb_eq in G. rewrite G. eauto 6.
  - apply IH; [|exact HN]. exists j. split; [|exact Hg]. destruct (Nat.eq_dec i j) as [->|]; [|lia].
    apply Z.eqb_neq in G. contradiction.
Qed.

Lemma pair_square vi vf : pair_ok vi vf -> pair_ok ((vi * vi) mod key_N k) ((vf * vf) mod key_N k).
Proof.
  intros H. pose proof N_gt1. unfold pair_ok in *. destruct F as [kP kQ kN oP oQ kE kR kqp kDP kDQ].
  rewrite (mul_mod_eq _ (vi * vi) _ ((vf * vf) ^ key_E k)).
  - rewrite Z.pow_mul_l. replace (vi * vi * (vf ^ key_E k * vf ^ key_E k)) with ((vi * vf ^ key_E k) * (vi * vf ^ key_E k)) by ring.
    rewrite Zmult_mod, H. rewrite Z.mul_1_l. apply Z.mod_small. lia.
  - apply Zmod_mod.
  - apply pow_mod_base; [lia|lia|apply Zmod_mod].
Qed.

Lemma prepare_ok bl rnd : bl_ok bl -> rng_good (key_N k) rnd -> rsa_len (key_pub k) = 256 ->
  exists vi vf i, rsa_prepare_blinding k bl rnd = Ok (Some (vi, vf), inr i) /\ pair_ok vi vf.
Proof.
  intros Hb [Hr (j & Hj & Hg)] Hl. pose proof N_odd as HO. pose proof pair_square as Sq. pose proof N_gt1. destruct F as [kP kQ kN oP oQ kE kR kqp kDP kDQ]. destruct bl as [[vi vf]|]; cbn [rsa_prepare_blinding].
  - rewrite !mod_ok by lia. cbn [bind ret]. do 3 eexists. split; [reflexivity|]. now apply Sq.
  - rewrite Hl.
    destruct (blinding_loop_found (key_N k) 256 rnd 11 0 0 0) as (vf & i & -> & Hv & (j' & ->)); [|lia|].
    { exists j. split; [lia|exact Hg]. }
    cbn [negb]. destruct (inv_mod_ok (rnd j' (256 - 1)) (key_N k) ltac:(lia) Hv) as (v & -> & Bv & Ev). cbn [bind ret].
    rewrite exp_mod_ok by (first [exact HO|lia]). cbn [bind ret].
    do 3 eexists. split; [reflexivity|]. unfold pair_ok.
    rewrite (mul_mod_eq _ (v ^ key_E k) _ (rnd j' (256 - 1) ^ key_E k)) by (first [reflexivity|apply Zmod_mod]).
    rewrite <- Z.pow_mul_l. rewrite Zpower_mod by lia.
    rewrite (Z.mul_comm v), Ev. rewrite Z.pow_1_l by lia. apply Z.mod_small. lia.
Qed.
End Key.
