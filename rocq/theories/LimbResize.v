(** Growing and shrinking a big number. *)
From Coq Require Import Lia.
From Verif Require Import Base BaseFacts MpiModel LimbModel LimbSpec LimbProofs.

Lemma grow_f X n : mpi_ok X -> Z.of_nat n <= 10000 ->
  exists R, l_grow X n = ret R /\ mpi_ok R /\ mval R = mval X /\ mlen R = Z.max (mlen X) (Z.of_nat n).
Proof.
  intros HX Hn. destruct (grow_ok X n HX Hn) as [R H]. exists R. unfold l_grow in *. destruct (MPI_MAX_LIMBS <? Z.of_nat n) eqn:E.
  - apply Z.ltb_lt in E. unfold MPI_MAX_LIMBS in E. lia.
  - destruct HX as [S F]. destruct H as [[= <-] H]. split; [reflexivity|].
    assert (O : mpi_ok (MkMpi (ms X) (mp X ++ repeat 0 (n - length (mp X))))).
    { split; [exact S|]. cbn [mp]. apply Forall_app. split; [exact F|]. apply Forall_forall. intros x Hx. apply repeat_spec in Hx. subst x.
      unfold is_limb. pose proof LB_pos. lia. }
    split; [exact O|]. unfold mval, mlen, zlen. cbn [ms mp]. split.
    + f_equal. rewrite lval_app, lval_zeros. ring.
    + rewrite app_length, repeat_length. lia.
Qed.
Lemma grow_too_long X n : 10000 < Z.of_nat n -> l_grow X n = err ERR_MPI_ALLOC_FAILED.
Proof. intros H. unfold l_grow. destruct (MPI_MAX_LIMBS <? Z.of_nat n) eqn:E; [reflexivity|]. apply Z.ltb_ge in E. unfold MPI_MAX_LIMBS in E. lia. Qed.
Lemma shrink_f X n : mpi_ok X -> Z.of_nat n <= 10000 ->
  exists R, l_shrink X n = ret R /\ mpi_ok R /\ mval R = mval X /\ Z.of_nat n <= mlen R <= Z.max (mlen X) (Z.of_nat n) /\
    (Z.of_nat n < mlen R -> mlen R = 1 \/ LB ^ (mlen R - 1) <= Z.abs (mval X)).
Proof.
  intros HX Hn. unfold l_shrink. destruct (length (mp X) <=? n)%nat eqn:E.
  - apply Nat.leb_le in E. destruct (grow_f X n HX Hn) as [R [G [O [V L]]]]. exists R. rewrite G. repeat split; try assumption; try (apply O); try lia.
    unfold mlen, zlen in *. lia.
  - apply Nat.leb_gt in E. destruct HX as [Sg0 F]. eexists. split; [reflexivity|].
    set (k := Nat.max (Nat.max 1 (sig (mp X))) n).
    pose proof (sig_le (mp X)) as Sl.
    assert (K : (k <= length (mp X))%nat) by (unfold k; lia).
    assert (Lk : length (firstn k (mp X)) = k) by (apply firstn_length_le; exact K).
    split; [split; [exact Sg0|]; cbn [mp]; rewrite <- (firstn_skipn k (mp X)) in F; apply Forall_app in F; exact (proj1 F)|].
    unfold mval, mlen, zlen. cbn [ms mp]. rewrite Lk, lval_firstn by (unfold k; lia). split; [reflexivity|]. split; [unfold k in *; lia|].
    intros Hlt. unfold k in *. destruct (sig (mp X)) as [|m] eqn:Sg; [left; lia|].
    pose proof (sig_ge (mp X) m F Sg) as G. right.
    replace (Z.of_nat (Nat.max (Nat.max 1 (S m)) n) - 1) with (Z.of_nat m) by lia.
    assert (A : Z.abs (ms X * lval (mp X)) = lval (mp X)).
    { rewrite Z.abs_mul. assert (P : 0 <= lval (mp X)) by (pose proof (Z.pow_nonneg LB (Z.of_nat m)); pose proof LB_pos; lia).
      rewrite (Z.abs_eq _ P). destruct Sg0 as [-> | ->]; cbn [Z.abs]; ring. }
    rewrite A. exact G.
Qed.
