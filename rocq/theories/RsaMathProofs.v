(** Modular arithmetic behind RSA: Chinese remainders, blinding, uniqueness of roots. *)
From Coq Require Import Znumtheory Zpow_facts Lia.
From Verif Require Import Base RsaKeyModel RsaKeySpec TdpSpec FermatProofs.

Lemma prime_rsa_factor P : prime P -> rsa_factor P.
Proof.
  intros HP. exists [P]. split; [cbn; ring|]. split; [constructor; [intros []|constructor]|].
  constructor; [|constructor]. split; [exact HP|apply Z.divide_refl].
Qed.

Lemma divide_mod_eq a b m : 0 < m -> (m | a - b) -> a mod m = b mod m.
Proof. intros Hm [k Hk]. replace a with (b + k * m) by lia. now rewrite Z_mod_plus_full. Qed.
Lemma mod_eq_divide a b m : 0 < m -> a mod m = b mod m -> (m | a - b).
Proof. intros Hm H. apply Zmod_divide; [lia|]. rewrite Zminus_mod, H, Z.sub_diag. now apply Zmod_0_l. Qed.

(** Distinct primes that divide a number: their product divides it *)
Lemma prod_divides rs x : NoDup rs -> Forall (fun r => prime r /\ (r | x)) rs -> (prod rs | x).
Proof.
  induction rs as [|r rs IH]; intros Hn Hf; [apply Z.divide_1_l|].
  inversion Hn; subst. inversion Hf as [|? ? [Hr Hd] Hf']; subst.
  change (prod (r :: rs)) with (r * prod rs).
  destruct (IH H2 Hf') as [y Hy]. rewrite Hy in Hd. rewrite Z.mul_comm in Hd.
  assert (R : rel_prime r (prod rs)).
  { apply prime_rel_prime; [exact Hr|]. intros D.
    assert (E : forall l, Forall (fun r => prime r /\ (r | x)) l -> (r | prod l) -> In r l).
    { clear - Hr. induction l as [|q l IH]; intros Hf D.
      - apply Z.divide_1_r_nonneg in D; [|pose proof (prime_ge_2 r Hr); lia]. pose proof (prime_ge_2 r Hr). lia.
      - inversion Hf as [|? ? [Hq _] Hf']; subst. change (prod (q :: l)) with (q * prod l) in D.
        apply prime_mult in D; [|exact Hr]. destruct D as [D|D]; [|right; auto].
        left. apply prime_div_prime in D; auto. }
    apply H1. exact (E rs Hf' D). }
  apply Gauss in Hd; [|exact R]. destruct Hd as [z Hz]. exists z. rewrite Hy, Hz. ring.
Qed.

Lemma prod_ge_1 rs : Forall (fun r => 2 <= r) rs -> 1 <= prod rs.
Proof.
  induction 1 as [|r rs Hr _ IH]; [reflexivity|]. change (prod (r :: rs)) with (r * prod rs). nia.
Qed.

Lemma factor_pow P a e f : rsa_factor P -> 1 < P -> 0 < e -> 0 < f -> e mod (P - 1) = f mod (P - 1) -> a ^ e mod P = a ^ f mod P.
Proof.
  intros (rs & HP & Hn & Hf) H1 He Hf0 E.
  apply divide_mod_eq; [lia|]. change (P = prod rs) in HP. rewrite HP. apply prod_divides; [exact Hn|].
  apply Forall_forall. intros r Hr. rewrite Forall_forall in Hf. destruct (Hf r Hr) as [Pr D]. split; [exact Pr|].
  pose proof (prime_ge_2 r Pr). apply mod_eq_divide; [lia|]. apply pow_mod_exponent; try assumption.
  apply divide_mod_eq; [lia|]. apply Z.divide_trans with (P - 1); [exact D|]. apply mod_eq_divide; [lia|exact E].
Qed.

(** * Chinese remainders *)
Lemma crt_unique P Q a b : 0 < P -> 0 < Q -> rel_prime P Q -> a mod P = b mod P -> a mod Q = b mod Q -> a mod (P * Q) = b mod (P * Q).
Proof.
  intros HP HQ R E1 E2. apply divide_mod_eq; [nia|].
  apply mod_eq_divide in E1; [|lia]. apply mod_eq_divide in E2; [|lia].
  destruct E1 as [x Hx]. rewrite Hx in E2. rewrite Z.mul_comm in E2. apply Gauss in E2; [|now apply rel_prime_sym].
  destruct E2 as [y Hy]. exists y. rewrite Hx, Hy. ring.
Qed.
Lemma crt_mod a b P Q : 0 < P -> 0 < Q -> a mod (P * Q) = b mod (P * Q) -> a mod P = b mod P /\ a mod Q = b mod Q.
Proof.
  intros HP HQ E. apply mod_eq_divide in E; [|nia]. destruct E as [x Hx].
  split; apply divide_mod_eq; try lia; rewrite Hx; [exists (x * Q)|exists (x * P)]; ring.
Qed.

Lemma crt_combine P Q qp t1 t2 : 1 < P -> 0 < Q -> (Q * qp) mod P = 1 -> 0 <= t2 < Q ->
  let y := t2 + ((t1 - t2) * qp) mod P * Q in
  0 <= y < P * Q /\ y mod P = t1 mod P /\ y mod Q = t2 mod Q.
Proof.
  intros HP HQ Hqp Ht y. pose proof (Z.mod_pos_bound ((t1 - t2) * qp) P ltac:(lia)) as B.
  split; [|split].
  - unfold y. set (h := ((t1 - t2) * qp) mod P) in *. clearbody h. nia.
  - unfold y. rewrite Zplus_mod, Zmult_mod, Zmod_mod, <- Zmult_mod.
    replace ((t1 - t2) * qp * Q) with ((t1 - t2) * (Q * qp)) by ring.
    rewrite (Zmult_mod (t1 - t2)), Hqp, Z.mul_1_r, Zmod_mod, <- Zplus_mod. f_equal. ring.
  - unfold y. now rewrite Z_mod_plus_full.
Qed.

Lemma qp_coprime P Q qp : 1 < P -> (Q * qp) mod P = 1 -> rel_prime P Q.
Proof.
  intros HP H. apply rel_prime_sym, bezout_rel_prime. apply Bezout_intro with qp (- (Q * qp / P)).
  pose proof (Z.div_mod (Q * qp) P ltac:(lia)). nia.
Qed.

(** * Powers *)
Lemma pow_mod_base a b e n : 0 < n -> 0 <= e -> a mod n = b mod n -> a ^ e mod n = b ^ e mod n.
Proof. intros Hn He E. rewrite (Zpower_mod a), (Zpower_mod b), E by lia. reflexivity. Qed.
Lemma mul_mod_eq a b c d n : a mod n = b mod n -> c mod n = d mod n -> (a * c) mod n = (b * d) mod n.
Proof. intros E F. now rewrite (Zmult_mod a), (Zmult_mod b), E, F. Qed.

(** * The facts about a key *)
Record key_facts (k : rsa_key) : Prop := {
  kf_P : 1 < key_P k; kf_Q : 1 < key_Q k; kf_N : key_N k = key_P k * key_Q k;
  kf_oddP : Z.odd (key_P k) = true; kf_oddQ : Z.odd (key_Q k) = true;
  kf_E : 3 <= key_E k; kf_rel : rel_prime (key_P k) (key_Q k);
  kf_qp : (key_Q k * key_QP k) mod key_P k = 1;
  kf_DP : 0 < key_DP k < key_P k - 1 /\ (key_DP k * key_E k) mod (key_P k - 1) = 1;
  kf_DQ : 0 < key_DQ k < key_Q k - 1 /\ (key_DQ k * key_E k) mod (key_Q k - 1) = 1 }.

Lemma odd_ge3 x : 1 < x -> Z.odd x = true -> 3 <= x.
Proof. intros H O. destruct (Z.eq_dec x 2) as [->|]; [discriminate|lia]. Qed.
Lemma mod_1_exponent d e m l : 1 < m -> (m | l) -> 0 < l -> (d * e) mod l = 1 -> 0 < d mod m < m /\ (d mod m * e) mod m = 1.
Proof.
  intros Hm [c Hc] Hl H.
  assert (E : (d * e) mod m = 1).
  { rewrite (Z.div_mod (d * e) l) by lia. rewrite H, Hc. rewrite Z.add_comm.
    replace (c * m * (d * e / (c * m))) with (c * (d * e / (c * m)) * m) by ring.
    rewrite Z_mod_plus_full. apply Z.mod_small. lia. }
  assert (F : (d mod m * e) mod m = 1) by (rewrite Zmult_mod, Zmod_mod, <- Zmult_mod; exact E).
  split; [|exact F]. pose proof (Z.mod_pos_bound d m ltac:(lia)).
  enough (d mod m <> 0) by lia. intros Z0. rewrite Z0, Z.mul_0_l, Zmod_0_l in F. discriminate.
Qed.

Lemma private_facts k : private_ok k -> key_facts k.
Proof.
  intros ((ON & OE & BN & BE) & HP & HQ & HN & HDE & HG & HDP & HDQ & HQPr & HQP). cbn [pub_N pub_E key_pub] in *.
  rewrite HN, Z.odd_mul in ON. apply andb_true_iff in ON. destruct ON as [OP OQ].
  pose proof (odd_ge3 _ HP OP) as HP3. pose proof (odd_ge3 _ HQ OQ) as HQ3.
  assert (HL : 0 < Z.lcm (key_P k - 1) (key_Q k - 1)).
  { pose proof (Z.lcm_nonneg (key_P k - 1) (key_Q k - 1)).
    enough (Z.lcm (key_P k - 1) (key_Q k - 1) <> 0) by lia. intros Z0. apply Z.lcm_eq_0 in Z0. lia. }
  pose proof (mod_1_exponent _ _ (key_P k - 1) _ ltac:(lia) (Z.divide_lcm_l _ _) HL HDE) as [A1 A2].
  pose proof (mod_1_exponent _ _ (key_Q k - 1) _ ltac:(lia) (Z.divide_lcm_r _ _) HL HDE) as [B1 B2].
  rewrite <- HDP in A1, A2. rewrite <- HDQ in B1, B2.
  constructor; try assumption; try lia.
  exact (qp_coprime _ _ _ HP HQP).
Qed.
