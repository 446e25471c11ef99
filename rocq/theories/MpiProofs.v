(** Facts about the big-integer operations. *)
From Coq Require Import Lia ZifyBool Znumtheory.
From Verif Require Import Base BaseFacts MpiModel.

Lemma bitlen_pos x : 0 < x -> 1 <= mpi_bitlen x /\ 2 ^ (mpi_bitlen x - 1) <= x < 2 ^ mpi_bitlen x.
Proof.
  intros H. unfold mpi_bitlen. replace (x =? 0) with false by lia. rewrite Z.abs_eq by lia.
  pose proof (Z.log2_spec x H). pose proof (Z.log2_nonneg x). replace (Z.log2 x + 1 - 1) with (Z.log2 x) by lia.
  replace (Z.log2 x + 1) with (Z.succ (Z.log2 x)) by lia. lia.
Qed.
Lemma bitlen_nonneg x : 0 <= mpi_bitlen x.
Proof. unfold mpi_bitlen. destruct (_ =? 0); pose proof (Z.log2_nonneg (Z.abs x)); lia. Qed.
Lemma bitlen_le x n : 0 <= x -> 0 <= n -> (mpi_bitlen x <= n <-> x < 2 ^ n).
Proof.
  intros Hx Hn. destruct (Z.eq_dec x 0) as [->|N].
  - cbn. pose proof (Z.pow_pos_nonneg 2 n). lia.
  - unfold mpi_bitlen. replace (x =? 0) with false by lia. rewrite Z.abs_eq by lia. rewrite (Z.log2_lt_pow2 x n) by lia. lia.
Qed.
Lemma bitlen_ge x n : 0 <= x -> 1 <= n -> (n <= mpi_bitlen x <-> 2 ^ (n - 1) <= x).
Proof. intros Hx Hn. pose proof (bitlen_le x (n - 1) Hx ltac:(lia)). lia. Qed.
Lemma size_nonneg x : 0 <= mpi_size x.
Proof. unfold mpi_size. pose proof (bitlen_nonneg x). Z.div_mod_to_equations; lia. Qed.
Lemma size_bound x : 0 <= x -> x < 256 ^ mpi_size x.
Proof.
  intros H. unfold mpi_size. pose proof (bitlen_nonneg x). change 256 with (2 ^ 8). rewrite <- Z.pow_mul_r by (try lia; Z.div_mod_to_equations; lia).
  apply (bitlen_le x); [assumption| |]; Z.div_mod_to_equations; lia.
Qed.
Lemma size_le x n : 0 <= x -> 0 <= n -> (mpi_size x <= n <-> x < 256 ^ n).
Proof.
  intros Hx Hn. change 256 with (2 ^ 8). rewrite <- Z.pow_mul_r by lia. rewrite <- bitlen_le by lia. unfold mpi_size. pose proof (bitlen_nonneg x). Z.div_mod_to_equations; lia.
Qed.
Lemma size_pos x : 0 < x -> 1 <= mpi_size x.
Proof. intros H. pose proof (bitlen_pos x H). unfold mpi_size. Z.div_mod_to_equations; lia. Qed.
Lemma size_zero : mpi_size 0 = 0.
Proof. reflexivity. Qed.

Lemma read_binary_ok bs : is_bytes bs -> zlen bs <= 80000 -> mpi_read_binary bs = ret (be_decode bs).
Proof.
  intros Hb Hl. unfold mpi_read_binary. cbv zeta. pose proof (be_decode_range bs Hb) as R.
  assert (mpi_size (be_decode bs) <= zlen bs) by (apply size_le; [lia|apply zlen_nonneg|lia]). pose proof (size_nonneg (be_decode bs)).
  unfold MPI_MAX_LIMBS. destruct (10000 <? _) eqn:E; [|reflexivity]. destruct (_ mod 8 =? 0) eqn:?; Z.div_mod_to_equations; lia.
Qed.
Lemma read_binary_total bs : is_bytes bs -> exists r, mpi_read_binary bs = Ok r /\ forall v, r = inr v -> v = be_decode bs /\ 0 <= v.
Proof.
  intros Hb. unfold mpi_read_binary. cbv zeta. destruct (_ <? _); eexists; (split; [reflexivity|]); [discriminate|].
  intros v [= <-]. split; [reflexivity|]. apply be_decode_range. assumption.
Qed.
Lemma write_binary_ok x n : 0 <= x -> mpi_size x <= n -> mpi_write_binary x n = ret (be_encode (Z.to_nat n) x).
Proof. intros. unfold mpi_write_binary. replace (n <? mpi_size x) with false by lia. rewrite Z.abs_eq by lia. reflexivity. Qed.

(** * Inverses *)
Lemma egcd_ok : forall fuel a n r0 r1 s0 s1, 0 <= r0 -> 0 <= r1 -> r1 < 2 ^ Z.of_nat (Nat.div2 fuel) -> r1 <= r0 ->
  n <> 0 ->
  (r0 - s0 * a) mod n = 0 -> (r1 - s1 * a) mod n = 0 ->
  let (g, s) := egcd (S fuel) r0 r1 s0 s1 in g = Z.gcd r0 r1 /\ (g - s * a) mod n = 0.
Proof.
  intros fuel. induction fuel as [fuel IH] using lt_wf_ind. intros a n r0 r1 s0 s1 H0 H1 Hf Hle Hn C0 C1. cbn [egcd].
  destruct (r1 =? 0) eqn:E; [assert (r1 = 0) by lia; subst r1; rewrite Z.gcd_0_r, Z.abs_eq by lia; split; [reflexivity|assumption]|].
  assert (0 < r1) by lia. pose proof (Z.mod_pos_bound r0 r1 ltac:(lia)) as B.
  assert (forall q r r' s s', r' = r - q * s -> forall t t', (r - t * a) mod n = 0 -> (s - t' * a) mod n = 0 -> s' = t - q * t' -> (r' - s' * a) mod n = 0) as Lin.
  { intros q r r' s s' -> t t' X Y ->. apply Z.mod_divide in X; [|assumption]. apply Z.mod_divide in Y; [|assumption]. apply Z.mod_divide; [assumption|].
    destruct X as [x X], Y as [y Y]. exists (x - q * y). replace (r - q * s - (t - q * t') * a) with ((r - t * a) - q * (s - t' * a)) by ring. rewrite X, Y. ring. }
  destruct fuel as [|fuel]; [cbn in Hf; lia|].
  assert ((r0 mod r1 - (s0 - r0 / r1 * s1) * a) mod n = 0) as C2 by (eapply (Lin (r0 / r1) r0 (r0 mod r1) r1); [rewrite Z.mod_eq by lia; ring|exact C0|exact C1|reflexivity]).
  cbn [egcd]. destruct (r0 mod r1 =? 0) eqn:E2.
  { assert (r0 mod r1 = 0) by lia. rewrite (Z.gcd_comm r0), <- (Z.gcd_mod r0 r1) by lia. replace (r0 mod r1) with 0 by lia. rewrite Z.gcd_0_l, Z.abs_eq by lia. split; [reflexivity|assumption]. }
  pose proof (Z.mod_pos_bound r1 (r0 mod r1) ltac:(lia)) as B2.
  destruct fuel as [|fuel]; [cbn in Hf; lia|].
  specialize (IH fuel ltac:(lia) a n (r0 mod r1) (r1 mod (r0 mod r1)) (s0 - r0 / r1 * s1) (s1 - r1 / (r0 mod r1) * (s0 - r0 / r1 * s1))).
  assert (r1 mod (r0 mod r1) * 2 < r1 + 1) as Half. { pose proof (Z.div_mod r1 (r0 mod r1) ltac:(lia)). pose proof (Z.div_str_pos r1 (r0 mod r1) ltac:(lia)). nia. }
  assert (Z.gcd r0 r1 = Z.gcd (r0 mod r1) (r1 mod (r0 mod r1))) as ->.
  { rewrite (Z.gcd_comm (r0 mod r1)), (Z.gcd_mod r1) by lia. rewrite Z.gcd_mod by lia. apply Z.gcd_comm. }
  change (Nat.div2 (S (S fuel))) with (S (Nat.div2 fuel)) in Hf. rewrite Nat2Z.inj_succ, Z.pow_succ_r in Hf by lia.
  apply IH; try lia; try assumption.
  eapply (Lin (r1 / (r0 mod r1)) r1 _ (r0 mod r1)); [rewrite Z.mod_eq by lia; ring|exact C1|exact C2|reflexivity].
Qed.

Lemma inv_mod_ok a n : 1 < n -> Z.gcd a n = 1 -> exists v, mpi_inv_mod a n = ret v /\ 0 <= v < n /\ (a * v) mod n = 1.
Proof.
  intros Hn Hg. unfold mpi_inv_mod, mpi_gcd. replace (n <=? 1) with false by lia. replace (n =? 0) with false by lia. rewrite Hg. cbn [Z.eqb Pos.eqb negb].
  eexists. split; [reflexivity|]. split; [apply Z.mod_pos_bound; lia|].
  pose proof (Z.mod_pos_bound a n ltac:(lia)) as B.
  set (f := (2 * Z.to_nat (Z.log2_up n) + 2)%nat). 
  assert (egcd (S f) (a mod n) n 1 0 = egcd f n (a mod n) 0 1) as ->.
  { cbn [egcd]. replace (n =? 0) with false by lia. rewrite (Z.mod_small (a mod n) n) by lia. rewrite (Z.div_small (a mod n)) by lia. f_equal. }
  assert (f = S (S (2 * Z.to_nat (Z.log2_up n)))) as -> by (unfold f; lia).
  pose proof (egcd_ok (S (2 * Z.to_nat (Z.log2_up n))) a n n (a mod n) 0 1) as E.
  destruct (egcd _ n (a mod n) 0 1) as [g s].
  destruct E as [E1 E2]; try lia.
  - replace (S (2 * Z.to_nat (Z.log2_up n))) with (1 + 2 * Z.to_nat (Z.log2_up n))%nat by lia. rewrite Nat.div2_succ_double, Z2Nat.id by apply Z.log2_up_nonneg.
    destruct (Z.log2_up_spec n ltac:(lia)). lia.
  - rewrite Z.mul_0_l, Z.sub_0_r. apply Z.mod_same. lia.
  - rewrite Z.mul_1_l. rewrite Zminus_mod, Z.mod_mod, Z.sub_diag by lia. reflexivity.
  - cbn [snd]. rewrite Z.gcd_comm, Z.gcd_mod, Z.gcd_comm, Hg in E1 by lia. subst g.
    rewrite Z.mul_mod_idemp_r by lia. apply Z.mod_divide in E2; [|lia]. destruct E2 as [q E2].
    replace (a * s) with (1 + (- q) * n) by lia. rewrite Z.mod_add by lia. apply Z.mod_small. lia.
Qed.
Lemma inv_mod_total a n : exists r, mpi_inv_mod a n = Ok r /\
  forall v, r = inr v <-> (1 < n /\ 0 <= v < n /\ (a * v) mod n = 1).
Proof.
  destruct (Z_le_gt_dec n 1) as [L|L].
  { exists (inl ERR_MPI_BAD_INPUT_DATA). split; [unfold mpi_inv_mod; replace (n <=? 1) with true by lia; reflexivity|]. intros v. split; [discriminate|lia]. }
  destruct (Z.eq_dec (Z.gcd a n) 1) as [G|G].
  - destruct (inv_mod_ok a n ltac:(lia) G) as (w & -> & Hw & W). exists (inr w). split; [reflexivity|]. intros v. split.
    + intros [= <-]. lia.
    + intros (_ & Hv & V). f_equal.
      assert ((w * (a * v)) mod n = (v * (a * w)) mod n) as X by (f_equal; ring).
      rewrite <- Z.mul_mod_idemp_r, V in X by lia. rewrite <- (Z.mul_mod_idemp_r v), W in X by lia. rewrite !Z.mul_1_r, !Z.mod_small in X by lia. assumption.
  - exists (inl ERR_MPI_NOT_ACCEPTABLE). split.
    + unfold mpi_inv_mod, mpi_gcd. replace (n <=? 1) with false by lia. replace (n =? 0) with false by lia. replace (Z.gcd a n =? 1) with false by lia. reflexivity.
    + intros v. split; [discriminate|]. intros (_ & _ & V). exfalso. apply G. apply Z.bezout_1_gcd. exists v, (- (a * v / n)).
      pose proof (Z.div_mod (a * v) n ltac:(lia)). lia.
Qed.
