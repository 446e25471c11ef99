(** The statements of LimbProperties2.v about exponentiation, gcd and inverse *)
From Coq Require Import Lia Znumtheory.
From Verif Require Import Base BaseFacts MpiModel MpiProofs LimbModel LimbModel2 LimbSpec LimbSpec2 LimbProofs LimbProofs2 LimbProofs3 LimbProofs4 LimbProofs5 LimbProofs6 LimbProofs7 LimbProofs8 LimbProofs9 LimbProofs10 LimbProofs11 LimbProofs12 LimbProofs13.

Lemma RN_sq N : RN N ^ 2 = LB ^ (2 * mlen N).
Proof. unfold RN, mlen, zlen. rewrite <- Z.pow_mul_r by lia. f_equal. lia. Qed.
Lemma cache_rr N rr : cache_ok N rr -> rr_ok N rr.
Proof. destruct rr as [P|]; cbn [cache_ok rr_ok]; [|tauto]. rewrite RN_sq. tauto. Qed.
Lemma new_cache N rr rr' : rr_new N rr rr' -> cache_ok N rr' /\ (rr = None <-> rr' = None).
Proof. destruct rr as [P|], rr' as [P'|]; cbn [cache_ok rr_new]; try tauto; rewrite ?RN_sq; intros H; (split; [tauto|]); split; congruence. Qed.
Lemma neg_odd_pow a e : 0 <= e -> Z.odd e = true -> (- a) ^ e = - a ^ e.
Proof. intros P O. destruct (Z.odd_spec e) as [O' _]. specialize (O' O). now apply Z.pow_opp_odd. Qed.
Lemma exp_spec_pow A E N : mpi_ok A -> 0 < mval N -> 0 <= mval E -> ~ (ms A = -1 /\ Z.odd (mval E) = true /\ (mval N | mval A ^ mval E)) ->
  exp_spec A E N = mval A ^ mval E mod mval N.
Proof.
  intros HA PN PE H. assert (mval A = ms A * lval (mp A)) as V by reflexivity. unfold exp_spec. rewrite V in *. clear V. destruct HA as [[S1|S1] _]; rewrite S1 in *.
  - cbn [Z.eqb andb Z.opp]. now rewrite Z.mul_1_l.
  - change (-1 =? -1) with true. cbn [andb]. replace (-1 * lval (mp A)) with (- lval (mp A)) in * by lia. destruct (Z.odd (mval E)) eqn:O.
    + assert (~ (mval N | (- lval (mp A)) ^ mval E)) as ND by tauto. rewrite neg_odd_pow in * by assumption.
      rewrite Z.mod_opp_l_nz; [reflexivity | lia|]. intros D. apply ND. rewrite Z.divide_opp_r. apply Z.mod_divide; [lia | exact D].
    + rewrite Z.pow_opp_even by (apply Z.even_spec; rewrite <- Z.negb_odd, O; reflexivity). reflexivity.
Qed.
Section Exp.
  Context (xa : bool) (X A E N : mpi) (rr : option mpi).
  Hypothesis HX : mpi_ok X. Hypothesis HA : mpi_ok A. Hypothesis HE : mpi_ok E. Hypothesis HN : mpi_ok N. Hypothesis HR : cache_ok N rr.
  Hypothesis AL : alias xa X A. Hypothesis NA : xa = true \/ mp A <> [].
  Hypothesis PN : 0 < mval N. Hypothesis ON : Z.odd (mval N) = true. Hypothesis PE : 0 <= mval E.
  Hypothesis LN : mlen N <= 4990. Hypothesis LA : mlen A <= 9990. Hypothesis LX : mlen X <= 9990.
  Lemma exp_mod_f : ~ (ms A = -1 /\ Z.odd (mval E) = true /\ (mval N | mval A ^ mval E)) ->
    exists R rr', l_exp_mod xa X A E N rr = ret (R, rr') /\ mpi_ok R /\ mval R = mval A ^ mval E mod mval N /\ cache_ok N rr' /\ (rr = None <-> rr' = None).
  Proof using All.
    intros H. destruct (exp_mod_ok xa X A E N rr HX HA HE HN (cache_rr _ _ HR) AL NA PN ON PE LN LA LX) as ([R rr'] & E1 & O & M & _ & RR). cbn [fst snd] in *.
    exists R, rr'. split; [exact E1|]. split; [exact O|]. rewrite <- exp_spec_pow by assumption. split; [exact M|]. now apply new_cache.
  Qed.
  Lemma exp_mod_neg_f : ms A = -1 -> Z.odd (mval E) = true -> (mval N | mval A ^ mval E) ->
    exists R rr', l_exp_mod xa X A E N rr = ret (R, rr') /\ mpi_ok R /\ mval R = mval N.
  Proof using All.
    intros S1 OE D. destruct (exp_mod_ok xa X A E N rr HX HA HE HN (cache_rr _ _ HR) AL NA PN ON PE LN LA LX) as ([R rr'] & E1 & O & M & _ & RR). cbn [fst snd] in *.
    exists R, rr'. split; [exact E1|]. split; [exact O|]. rewrite M. unfold exp_spec. rewrite S1, OE. change (-1 =? -1) with true. cbn [andb].
    assert (mval A = ms A * lval (mp A)) as V by reflexivity. rewrite V, S1 in D. replace (-1 * lval (mp A)) with (- lval (mp A)) in D by lia. rewrite neg_odd_pow in D by assumption. rewrite Z.divide_opp_r in D. apply Z.mod_divide in D; [|lia]. rewrite D. lia.
  Qed.
End Exp.
Lemma exp_mod_bad_f xa X A E N rr : mpi_ok E -> mpi_ok N -> mp N <> [] -> mval N <= 0 \/ Z.odd (mval N) = false \/ mval E < 0 ->
  l_exp_mod xa X A E N rr = err ERR_MPI_BAD_INPUT_DATA.
Proof.
  intros HE HN NN H. unfold l_exp_mod. rewrite cmp_int_ok by (assumption || lia). cbn [bind]. rewrite cmp3_lt.
  assert (1 <= length (mp N))%nat as L1 by (destruct (mp N); [congruence | cbn; lia]).
  destruct (Z.compare_spec (mval N) 0) as [C|C|C]; [| reflexivity |].
  all: rewrite (lnth_ok (mp N) 0 0) by lia; cbn [bind]; rewrite land1_odd, <- mval_odd by exact HN.
  - rewrite C. reflexivity.
  - destruct (Z.odd (mval N)) eqn:O; [|reflexivity]. cbn [negb]. destruct H as [H | [H | H]]; [lia | discriminate|].
    rewrite cmp_int_ok by (assumption || lia). cbn [bind]. rewrite cmp3_lt. destruct (Z.compare_spec (mval E) 0); try lia. reflexivity.
Qed.
Lemma gcd_f G A B : mpi_ok G -> mpi_ok A -> mpi_ok B -> mlen A <= 10000 -> mlen B <= 10000 -> mval B <> 0 ->
  exists R, l_gcd G A B = ret R /\ mpi_ok R /\ mval R = Z.gcd (mval A) (mval B).
Proof.
  intros HG HA HB LA L N. destruct (gcd_ok G A B HG HA HB LA L) as (R & E & O & M & _). exists R. split; [exact E|]. split; [exact O|]. rewrite M. unfold gcd_spec. destruct (Z.eqb_spec (mval B) 0) as [Q|Q]; [congruence | reflexivity].
Qed.
Lemma gcd_zero_f G A B : mpi_ok G -> mpi_ok A -> mpi_ok B -> mlen A <= 10000 -> mlen B <= 10000 -> mval B = 0 ->
  exists R, l_gcd G A B = ret R /\ mpi_ok R /\ mval R = 0.
Proof.
  intros HG HA HB LA L N. destruct (gcd_ok G A B HG HA HB LA L) as (R & E & O & M & _). exists R. split; [exact E|]. split; [exact O|]. rewrite M, N. reflexivity.
Qed.
Lemma inv_mod_f X A N : mpi_ok X -> mpi_ok A -> mpi_ok N -> mlen A <= 9990 -> mlen N <= 9990 ->
  if mval N <=? 1 then l_inv_mod X A N = err ERR_MPI_BAD_INPUT_DATA
  else if Z.gcd (mval A) (mval N) =? 1 then exists R, l_inv_mod X A N = ret R /\ mpi_ok R /\ 0 <= mval R < mval N /\ (mval R * mval A) mod mval N = 1
  else l_inv_mod X A N = err ERR_MPI_NOT_ACCEPTABLE.
Proof.
  intros HX HA HN LA LN. destruct (Z.leb_spec (mval N) 1) as [C|C]; [now apply inv_mod_bad|]. destruct (Z.eqb_spec (Z.gcd (mval A) (mval N)) 1) as [G|G]; [|now apply inv_mod_none].
  destruct (inv_mod_ok X A N HX HA HN C G LA LN) as (R & E & O & B & [q D] & _). exists R. split; [exact E|]. split; [exact O|]. split; [exact B|].
  replace (mval R * mval A) with (1 + q * mval N) by lia. rewrite Z.mod_add by lia. apply Z.mod_small. lia.
Qed.
