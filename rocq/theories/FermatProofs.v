(** Fermat's little theorem over [Z]: multiplication by a number prime to p permutes the residues 1, ..., p - 1. *)
From Coq Require Import ZArith Znumtheory Zpow_facts List Permutation Lia.
Import ListNotations.
Open Scope Z_scope.

Definition prod (l : list Z) : Z := fold_right Z.mul 1 l.
Lemma prod_perm l l' : Permutation l l' -> prod l = prod l'.
Proof.
  induction 1; [reflexivity| | |congruence]; unfold prod in *; cbn [fold_right].
  - now rewrite IHPermutation.
  - ring.
Qed.

Definition residues (n : nat) : list Z := map Z.of_nat (seq 1 n).
Lemma residues_in n x : In x (residues n) <-> 1 <= x <= Z.of_nat n.
Proof.
  unfold residues. rewrite in_map_iff. split.
  - intros (y & <- & H). apply in_seq in H. lia.
  - intros H. exists (Z.to_nat x). split; [lia|]. apply in_seq. lia.
Qed.
Lemma residues_nodup n : NoDup (residues n).
Proof. apply FinFun.Injective_map_NoDup; [intros x y; lia|apply seq_NoDup]. Qed.
Lemma residues_length n : length (residues n) = n.
Proof. unfold residues. now rewrite map_length, seq_length. Qed.

Lemma nodup_map_inj (f : Z -> Z) l : (forall x y, In x l -> In y l -> f x = f y -> x = y) -> NoDup l -> NoDup (map f l).
Proof.
  induction l as [|a l IH]; intros Hf Hn; cbn; [constructor|].
  inversion Hn; subst. constructor.
  - intros Hin. apply in_map_iff in Hin. destruct Hin as (y & Hy & Hin).
    apply Hf in Hy; [subst; contradiction|now right|now left].
  - apply IH; [|assumption]. intros x y Hx Hy. apply Hf; now right.
Qed.

Lemma prod_mod p a l : 0 < p -> prod (map (fun i => (a * i) mod p) l) mod p = (a ^ Z.of_nat (length l) * prod l) mod p.
Proof.
  intros Hp. induction l as [|i l IH]; [reflexivity|].
  change (prod (map _ (i :: l))) with (((a * i) mod p) * prod (map (fun i => (a * i) mod p) l)).
  change (prod (i :: l)) with (i * prod l). cbn [length].
  rewrite Zmult_mod, IH, Zmod_mod, <- Zmult_mod. rewrite Nat2Z.inj_succ, Z.pow_succ_r by lia. f_equal. ring.
Qed.

Lemma rel_prime_prod p l : prime p -> (forall x, In x l -> 1 <= x < p) -> rel_prime p (prod l).
Proof.
  intros Hp. induction l as [|a l IH]; intros H.
  - apply rel_prime_sym. apply rel_prime_1.
  - change (prod (a :: l)) with (a * prod l). apply rel_prime_mult.
    + apply rel_prime_sym. apply rel_prime_le_prime; [assumption|]. apply H. now left.
    + apply IH. intros x Hx. apply H. now right.
Qed.

Lemma cancel_mod p a b c : 0 < p -> rel_prime p c -> (a * c) mod p = (b * c) mod p -> a mod p = b mod p.
Proof.
  intros Hp Hc H.
  assert (D : (p | c * (a - b))).
  { apply Zmod_divide; [lia|]. replace (c * (a - b)) with (a * c - b * c) by ring.
    rewrite Zminus_mod, H, Z.sub_diag. now apply Zmod_0_l. }
  apply Gauss in D; [|assumption]. destruct D as [k Hk].
  replace a with (b + k * p) by lia. now rewrite Z_mod_plus_full.
Qed.

Lemma fermat_1 p a : prime p -> ~ (p | a) -> a ^ (p - 1) mod p = 1.
Proof.
  intros Hp Hd. pose proof (prime_ge_2 p Hp) as Hp2.
  set (n := Z.to_nat (p - 1)). set (l := residues n). set (f := fun i => (a * i) mod p).
  assert (Hin : forall x, In x l <-> 1 <= x < p).
  { intros x. unfold l. rewrite residues_in. unfold n. lia. }
  assert (Rel : rel_prime p a) by (apply prime_rel_prime; assumption).
  assert (Perm : Permutation (map f l) l).
  { apply NoDup_Permutation_bis.
    - apply nodup_map_inj; [|apply residues_nodup].
      intros x y Hx Hy E. unfold f in E. rewrite (Z.mul_comm a x), (Z.mul_comm a y) in E.
      apply cancel_mod in E; [|lia|assumption].
      apply Hin in Hx. apply Hin in Hy. rewrite !Z.mod_small in E by lia. exact E.
    - rewrite map_length. lia.
    - intros y Hy. apply in_map_iff in Hy. destruct Hy as (x & <- & Hx). apply Hin. apply Hin in Hx.
      unfold f. pose proof (Z.mod_pos_bound (a * x) p ltac:(lia)).
      enough ((a * x) mod p <> 0) by lia.
      intros E. apply Zmod_divide in E; [|lia]. apply prime_mult in E; [|assumption].
      destruct E as [E|E]; [contradiction|]. apply Z.divide_pos_le in E; lia. }
  assert (E : (a ^ (p - 1) * prod l) mod p = (1 * prod l) mod p).
  { rewrite Z.mul_1_l. rewrite <- (prod_perm _ _ Perm) at 2. unfold f. rewrite prod_mod by lia.
    unfold l at 2. rewrite residues_length. unfold n. now rewrite Z2Nat.id by lia. }
  apply cancel_mod in E; [|lia|].
  - rewrite E. apply Z.mod_small. lia.
  - apply rel_prime_prod; [assumption|]. intros x Hx. apply Hin. exact Hx.
Qed.

(** Exponents count modulo p - 1 *)
Lemma pow_mod_exponent p a e f : prime p -> 0 < e -> 0 < f -> e mod (p - 1) = f mod (p - 1) -> a ^ e mod p = a ^ f mod p.
Proof.
  intros Hp He Hf E. pose proof (prime_ge_2 p Hp) as Hp2.
  destruct (Zdivide_dec p a) as [D|D].
  - assert (Z0 : forall n, 0 < n -> a ^ n mod p = 0).
    { intros n Hn. apply Zdivide_mod. replace n with (Z.succ (n - 1)) by lia. rewrite Z.pow_succ_r by lia.
      apply Z.divide_mul_l. exact D. }
    now rewrite !Z0.
  - assert (R : forall n, 0 <= n -> a ^ n mod p = a ^ (n mod (p - 1)) mod p).
    { intros n Hn. rewrite (Z.div_mod n (p - 1)) at 1 by lia.
      pose proof (Z.mod_pos_bound n (p - 1) ltac:(lia)). pose proof (Z.div_pos n (p - 1) Hn ltac:(lia)).
      rewrite Z.pow_add_r by (try lia; apply Z.mul_nonneg_nonneg; lia). rewrite Z.pow_mul_r by lia.
      rewrite Zmult_mod. rewrite Zpow_facts.Zpower_mod by lia. rewrite fermat_1 by assumption.
      rewrite Z.pow_1_l by assumption. rewrite (Z.mod_small 1) by lia. now rewrite Z.mul_1_l, Zmod_mod. }
    rewrite (R e), (R f), E by lia. reflexivity.
Qed.
