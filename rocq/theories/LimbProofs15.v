(** Number theory for the primality test *)
From Coq Require Import Lia Znumtheory.
From Verif Require Import Base BaseFacts FermatProofs MpiModel LimbModel LimbModel2 LimbSpec LimbSpec3.

(** * Trial division *)
Lemma prime_no_divisor x : 1 < x -> (forall d, 1 < d -> d * d <= x -> ~ (d | x)) -> prime x.
Proof.
  intros X H. apply prime_alt. split; [exact X|]. intros n Hn [q E]. assert (0 < q) as Q by nia.
  destruct (Z.le_gt_cases (n * n) x) as [C|C]; [apply (H n); [lia | exact C | exists q; exact E]|].
  apply (H q); [nia | nia | exists n; lia].
Qed.
Definition trial (x : Z) : bool := forallb (fun d => (x <=? d) || negb (x mod d =? 0)) (map Z.of_nat (seq 2 30)).
Lemma trial_prime x : 1 < x < 1024 -> trial x = true <-> prime x.
Proof.
  intros X. unfold trial. rewrite forallb_forall. split.
  - intros H. apply prime_no_divisor; [lia|]. intros d D1 D2 D3. specialize (H d). assert (d < 32) as D4 by nia.
    assert (In d (map Z.of_nat (seq 2 30))) as I by (apply in_map_iff; exists (Z.to_nat d); split; [lia | apply in_seq; lia]). specialize (H I).
    apply orb_true_iff in H. destruct H as [H|H]; [apply Z.leb_le in H; nia|]. apply Z.mod_divide in D3; [|lia]. rewrite D3 in H. discriminate.
  - intros P d I. apply in_map_iff in I. destruct I as (k & <- & I). apply in_seq in I. destruct (Z.leb_spec x (Z.of_nat k)) as [C|C]; [reflexivity|]. cbn [orb].
    apply prime_alt in P. destruct P as [_ P]. destruct (Z.eqb_spec (x mod Z.of_nat k) 0) as [Q|Q]; [|reflexivity]. exfalso. apply (P (Z.of_nat k)); [lia|]. apply Z.mod_divide; [lia | exact Q].
Qed.
(** The loop of mpi_check_small_factors on numbers *)
Fixpoint sf (ps : list Z) (x : Z) : Z :=
  match ps with [] => 0 | p :: ps => if x <=? p then 1 else if x mod p =? 0 then ERR_MPI_NOT_ACCEPTABLE else sf ps x end.
Definition sf_check (x : Z) : bool := negb (Z.odd x) || (sf small_prime x =? if trial x then 1 else ERR_MPI_NOT_ACCEPTABLE).
Lemma sf_checked : forallb sf_check (map Z.of_nat (seq 3 995)) = true. Proof. vm_compute. reflexivity. Qed.
Lemma sf_small x : 3 <= x <= 997 -> Z.odd x = true -> sf small_prime x = if trial x then 1 else ERR_MPI_NOT_ACCEPTABLE.
Proof.
  intros X O. pose proof sf_checked as H. rewrite forallb_forall in H. specialize (H x). assert (In x (map Z.of_nat (seq 3 995))) as I by (apply in_map_iff; exists (Z.to_nat x); split; [lia | apply in_seq; lia]).
  specialize (H I). unfold sf_check in H. rewrite O in H. cbn [negb orb] in H. apply Z.eqb_eq. exact H.
Qed.
Lemma table_checked : forallb (fun p => negb (trial p) || (p =? 2) || existsb (Z.eqb p) small_prime) (map Z.of_nat (seq 2 996)) = true. Proof. vm_compute. reflexivity. Qed.
Lemma table_complete p : prime p -> p <= 997 -> p = 2 \/ In p small_prime.
Proof.
  intros P L. pose proof (prime_ge_2 p P) as G. pose proof table_checked as H. rewrite forallb_forall in H. specialize (H p).
  assert (In p (map Z.of_nat (seq 2 996))) as I by (apply in_map_iff; exists (Z.to_nat p); split; [lia | apply in_seq; lia]). specialize (H I).
  assert (trial p = true) as T by (apply trial_prime; [lia | exact P]). rewrite T in H. cbn [negb orb] in H. apply orb_true_iff in H. destruct H as [H|H]; [left; now apply Z.eqb_eq|].
  right. apply existsb_exists in H. destruct H as (q & I' & E). apply Z.eqb_eq in E. now subst q.
Qed.
Lemma table_range : Forall (fun p => 3 <= p <= 997) small_prime.
Proof. apply Forall_forall. intros p I. assert (forallb (fun p => (3 <=? p) && (p <=? 997)) small_prime = true) as H by (vm_compute; reflexivity). rewrite forallb_forall in H. specialize (H p I). lia. Qed.
Lemma sf_large ps x : 997 < x -> Forall (fun p => 3 <= p <= 997) ps ->
  (sf ps x = 0 /\ forall p, In p ps -> ~ (p | x)) \/ (sf ps x = ERR_MPI_NOT_ACCEPTABLE /\ exists p, 1 < p < x /\ (p | x)).
Proof.
  intros X. induction ps as [|p ps IH]; intros F; [left; split; [reflexivity | intros p []]|]. inversion F as [|? ? B F']; subst. cbn [sf].
  destruct (Z.leb_spec x p) as [C|C]; [lia|]. destruct (Z.eqb_spec (x mod p) 0) as [M|M].
  - right. split; [reflexivity|]. exists p. split; [lia|]. apply Z.mod_divide; [lia | exact M].
  - destruct (IH F') as [[E H] | H]; [left; split; [exact E|] | now right]. intros q [<-|I]; [|now apply H]. intros D. apply M. apply Z.mod_divide; [lia | exact D].
Qed.
(** What the loop decides *)
Definition no_small_factor (x : Z) : Prop := 997 < x /\ forall p, prime p -> p <= 997 -> ~ (p | x).
Lemma sf_ok x : 3 <= x -> Z.odd x = true ->
  (sf small_prime x = 1 /\ prime x /\ x <= 997) \/ (sf small_prime x = 0 /\ no_small_factor x) \/ (sf small_prime x = ERR_MPI_NOT_ACCEPTABLE /\ ~ prime x).
Proof.
  intros X O. destruct (Z.le_gt_cases x 997) as [C|C].
  - rewrite sf_small by (lia || exact O). pose proof (trial_prime x ltac:(lia)) as T. destruct (trial x); [left | right; right].
    + split; [reflexivity|]. split; [now apply T | exact C].
    + split; [reflexivity|]. intros P. apply T in P. discriminate.
  - destruct (sf_large small_prime x C table_range) as [[E H] | [E (p & B & D)]]; right; [left | right]; (split; [exact E|]).
    + split; [exact C|]. intros p P L D. destruct (table_complete p P L) as [->|I]; [|now apply (H p I)]. destruct D as [q ->]. rewrite Z.odd_mul in O. now rewrite andb_false_r in O.
    + intros P. apply prime_alt in P. destruct P as [_ P]. now apply (P p B).
Qed.
Lemma divisor_prime d : 1 < d -> exists p, prime p /\ p <= d /\ (p | d).
Proof.
  intros D. assert (0 <= d) as D0 by lia. revert D. pattern d. apply Z_lt_induction; [|exact D0]. clear. intros d IH D.
  destruct (prime_dec d) as [P|P]; [exists d; split; [exact P | split; [lia | apply Z.divide_refl]]|].
  destruct (not_prime_divide d D P) as (q & B & V). destruct (IH q ltac:(lia) ltac:(lia)) as (p & P1 & P2 & P3). exists p. split; [exact P1|]. split; [lia | eapply Z.divide_trans; eassumption].
Qed.
Lemma no_small_factor_prime x : no_small_factor x -> x < 998 * 998 -> prime x.
Proof.
  intros [X H] L. apply prime_no_divisor; [lia|]. intros d D1 D2 D3. destruct (divisor_prime d D1) as (p & P1 & P2 & P3). apply (H p P1); [nia | eapply Z.divide_trans; eassumption].
Qed.

(** * The strong test *)
Lemma sqrt_one x b : prime x -> (b * b) mod x = 1 -> b mod x = 1 \/ b mod x = x - 1.
Proof.
  intros P E. pose proof (prime_ge_2 x P) as G. assert (x | (b - 1) * (b + 1)) as D.
  { apply Z.mod_divide; [lia|]. replace ((b - 1) * (b + 1)) with (b * b - 1) by ring. rewrite Zminus_mod, E. rewrite (Z.mod_small 1) by lia. rewrite Z.sub_diag. apply Z.mod_0_l. lia. }
  apply prime_mult in D; [|exact P]. destruct D as [[q D]|[q D]].
  - left. replace b with (1 + q * x) by lia. rewrite Z.mod_add by lia. apply Z.mod_small. lia.
  - right. replace b with (x - 1 + (q - 1) * x) by lia. rewrite Z.mod_add by lia. apply Z.mod_small. lia.
Qed.
Lemma pow2_split y : 0 < y -> exists d s, 0 <= s /\ Z.odd d = true /\ 0 < d /\ y = d * 2 ^ s.
Proof.
  intros Y. assert (0 <= y) as Y0 by lia. revert Y. pattern y. apply Z_lt_induction; [|exact Y0]. clear. intros y IH Y.
  destruct (Z.odd y) eqn:O; [exists y, 0; split; [lia|]; split; [exact O|]; split; [exact Y | lia]|].
  assert (y = 2 * (y / 2)) as E. { rewrite <- Z.negb_even in O. apply negb_false_iff, Z.even_spec in O. destruct O as [k ->]. rewrite (Z.mul_comm 2 k), Z.div_mul by lia. lia. }
  destruct (IH (y / 2) ltac:(lia) ltac:(lia)) as (d & s & S0 & D1 & D2 & D3). exists d, (s + 1). split; [lia|]. split; [exact D1|]. split; [exact D2|]. rewrite Z.pow_add_r by lia. lia.
Qed.
Lemma chain x a d : prime x -> 0 <= d -> forall s : nat, a ^ (d * 2 ^ Z.of_nat s) mod x = 1 ->
  a ^ d mod x = 1 \/ exists r, 0 <= r < Z.of_nat s /\ a ^ (d * 2 ^ r) mod x = x - 1.
Proof.
  intros P D. induction s as [|s IH]; intros E.
  - left. now rewrite Z.mul_1_r in E.
  - rewrite Nat2Z.inj_succ, Z.pow_succ_r in E by lia. replace (d * (2 * 2 ^ Z.of_nat s)) with (d * 2 ^ Z.of_nat s + d * 2 ^ Z.of_nat s) in E by ring.
    assert (0 <= d * 2 ^ Z.of_nat s) as N by (apply Z.mul_nonneg_nonneg; [exact D | apply Z.pow_nonneg; lia]). rewrite Z.pow_add_r in E by exact N.
    destruct (sqrt_one x _ P E) as [E'|E'].
    + destruct (IH E') as [H|(r & B & H)]; [now left | right; exists r; split; [lia | exact H]].
    + right. exists (Z.of_nat s). split; [lia | exact E'].
Qed.
Lemma prime_strong x a : prime x -> 2 < x -> 0 < a < x -> strong_probable_prime x a.
Proof.
  intros P X A. destruct (pow2_split (x - 1) ltac:(lia)) as (d & s & S0 & O & D & E).
  assert (Z.odd x = true) as OX. { destruct (Z.odd x) eqn:Q; [reflexivity|]. rewrite <- Z.negb_even in Q. apply negb_false_iff, Z.even_spec in Q. destruct Q as [k Q]. apply prime_alt in P. destruct P as [_ P]. exfalso. apply (P 2 ltac:(lia)). exists k. lia. }
  assert (0 < s) as S1. { destruct (Z.eq_dec s 0) as [->|]; [|lia]. rewrite Z.mul_1_r in E. rewrite <- E in O. rewrite Z.odd_sub, OX in O. discriminate. }
  exists d, s. split; [exact S1|]. split; [exact O|]. split; [exact E|].
  assert (a ^ (x - 1) mod x = 1) as F. { apply fermat_1; [exact P|]. intros Q. apply Z.divide_pos_le in Q; lia. }
  rewrite E in F. replace s with (Z.of_nat (Z.to_nat s)) in * by lia. destruct (chain x a d P ltac:(lia) _ F) as [H|H]; [now left | now right].
Qed.
(** The squaring loop on numbers *)
Fixpoint sq (k : nat) (x a : Z) : Z :=
  match k with O => a | S k => if a =? x - 1 then a else let b := (a * a) mod x in if b =? 1 then b else sq k x b end.
Lemma sq_range k x : 2 < x -> forall a, 0 <= a < x -> 0 <= sq k x a < x.
Proof.
  intros X. induction k as [|k IH]; intros a A; cbn [sq]; [exact A|]. pose proof (Z.mod_pos_bound (a * a) x ltac:(lia)). destruct (a =? x - 1); [exact A|]. cbv zeta. destruct (_ =? 1); [assumption|]. now apply IH.
Qed.
Lemma pow_sq_mod x a m : 0 <= m -> 0 < x -> ((a * a) mod x) ^ m mod x = a ^ (2 * m) mod x.
Proof. intros M X. rewrite <- Zpow_facts.Zpower_mod by lia. f_equal. rewrite Z.pow_mul_r by lia. f_equal. ring. Qed.
Lemma sq_ok k x : 2 < x -> forall a, 0 <= a < x -> sq k x a = x - 1 <-> exists r, 0 <= r <= Z.of_nat k /\ a ^ (2 ^ r) mod x = x - 1.
Proof.
  intros X. induction k as [|k IH]; intros a A; cbn [sq].
  - split.
    + intros ->. exists 0. split; [lia|]. rewrite Z.pow_0_r, Z.pow_1_r. apply Z.mod_small. lia.
    + intros (r & B & E). replace r with 0 in E by lia. rewrite Z.pow_0_r, Z.pow_1_r, Z.mod_small in E by lia. exact E.
  - destruct (Z.eqb_spec a (x - 1)) as [Q|Q].
    { split; [|intros _; exact Q]. intros _. exists 0. split; [lia|]. rewrite Z.pow_0_r, Z.pow_1_r, Q. apply Z.mod_small. lia. }
    cbv zeta. set (b := (a * a) mod x). pose proof (Z.mod_pos_bound (a * a) x ltac:(lia)) as B. fold b in B.
    assert (forall r, 0 <= r -> b ^ (2 ^ r) mod x = a ^ (2 ^ (r + 1)) mod x) as ST.
    { intros r R. unfold b. rewrite pow_sq_mod by (try apply Z.pow_nonneg; lia). f_equal. f_equal. rewrite Z.pow_add_r by lia. lia. }
    destruct (Z.eqb_spec b 1) as [Q1|Q1].
    + split; [lia|]. intros (r & R & E). exfalso. destruct (Z.eq_dec r 0) as [->|N].
      * rewrite Z.pow_0_r, Z.pow_1_r, Z.mod_small in E by lia. contradiction.
      * replace r with (r - 1 + 1) in E by lia. rewrite <- ST, Q1, Z.pow_1_l, Z.mod_small in E by (try apply Z.pow_nonneg; lia). lia.
    + rewrite (IH b B). split; intros (r & R & E).
      * exists (r + 1). split; [lia|]. now rewrite <- ST by lia.
      * destruct (Z.eq_dec r 0) as [->|N].
        -- rewrite Z.pow_0_r, Z.pow_1_r, Z.mod_small in E by lia. contradiction.
        -- exists (r - 1). split; [lia|]. rewrite ST by lia. replace (r - 1 + 1) with r by lia. exact E.
Qed.
Lemma split_unique d s d' s' : 0 <= s -> 0 <= s' -> Z.odd d = true -> Z.odd d' = true -> d * 2 ^ s = d' * 2 ^ s' -> d = d' /\ s = s'.
Proof.
  assert (forall d s d' s', 0 <= s -> s < s' -> Z.odd d = true -> d * 2 ^ s = d' * 2 ^ s' -> False) as H.
  { intros a t a' t' T L O E. replace t' with (t + (1 + (t' - t - 1))) in E by lia. rewrite !Z.pow_add_r in E by lia. assert (0 < 2 ^ t) by (apply Z.pow_pos_nonneg; lia).
    assert (a = a' * (2 ^ 1 * 2 ^ (t' - t - 1))) as E' by (apply (Z.mul_reg_r _ _ (2 ^ t)); lia). rewrite E' in O. rewrite !Z.odd_mul in O. change (Z.odd (2 ^ 1)) with false in O. cbn [andb] in O. now rewrite andb_false_r in O. }
  intros S1 S2 O1 O2 E. destruct (Z.lt_trichotomy s s') as [L|[L|L]]; [exfalso; exact (H d s d' s' S1 L O1 E) | | exfalso; exact (H d' s' d s S2 L O2 (eq_sym E))].
  split; [|exact L]. subst s'. apply (Z.mul_reg_r _ _ (2 ^ s)); [apply Z.pow_nonzero; lia | exact E].
Qed.
(** The answer of the test on numbers *)
Definition test (x d s a : Z) : bool :=
  let b := a ^ d mod x in if (b =? x - 1) || (b =? 1) then true else let r := sq (Z.to_nat (s - 1)) x b in (r =? x - 1) && negb (r =? 1).
Lemma test_ok x d s a : 2 < x -> 0 <= d -> 0 < s -> Z.odd d = true -> x - 1 = d * 2 ^ s -> test x d s a = true <-> strong_probable_prime x a.
Proof.
  intros X D S0 O E. unfold test. cbv zeta. set (b := a ^ d mod x). pose proof (Z.mod_pos_bound (a ^ d) x ltac:(lia)) as B. fold b in B.
  assert (forall r, 0 <= r -> b ^ (2 ^ r) mod x = a ^ (d * 2 ^ r) mod x) as ST.
  { intros r R. unfold b. rewrite <- Zpow_facts.Zpower_mod by lia. rewrite Z.pow_mul_r by (try apply Z.pow_nonneg; lia). reflexivity. }
  pose proof (sq_ok (Z.to_nat (s - 1)) x X b B) as SQ. rewrite Z2Nat.id in SQ by lia.
  assert (strong_probable_prime x a <-> b = 1 \/ sq (Z.to_nat (s - 1)) x b = x - 1) as SP.
  { split.
    - intros (d' & s' & S1 & O' & E' & H). destruct (split_unique d s d' s' (Z.lt_le_incl _ _ S0) (Z.lt_le_incl _ _ S1) O O' (eq_trans (eq_sym E) E')) as [<- <-]. destruct H as [H|(r & R & H)]; [now left|].
      right. apply SQ. exists r. split; [lia|]. now rewrite ST by lia.
    - intros H. exists d, s. split; [exact S0|]. split; [exact O|]. split; [exact E|]. destruct H as [H|H]; [now left|]. right. apply SQ in H. destruct H as (r & R & H). exists r. split; [lia|]. now rewrite <- ST by lia. }
  rewrite SP. destruct (Z.eqb_spec b (x - 1)) as [Q|Q].
  - cbn [orb]. split; [|reflexivity]. intros _. right. apply SQ. exists 0. split; [lia|]. rewrite Z.pow_0_r, Z.pow_1_r, Q. apply Z.mod_small. lia.
  - destruct (Z.eqb_spec b 1) as [Q1|Q1]; cbn [orb]; [tauto|]. set (r := sq _ _ _). clearbody r b. clear - X Q Q1. destruct (Z.eqb_spec r (x - 1)) as [R|R], (Z.eqb_spec r 1) as [R1|R1]; cbn [andb negb]; split; intros H; try reflexivity; try discriminate; try tauto; lia.
Qed.
