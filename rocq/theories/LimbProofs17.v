(** is_prime and gen_prime *)
From Coq Require Import Lia Znumtheory.
From Verif Require Import Base BaseFacts MpiModel MpiProofs LimbModel LimbModel2 LimbSpec LimbSpec2 LimbSpec3 LimbProofs LimbProofs2 LimbProofs3 LimbProofs4 LimbProofs5 LimbProofs6 LimbProofs7 LimbProofs8 LimbProofs9 LimbProofs10 LimbProofs11 LimbProofs12 LimbProofs13 LimbProofs15 LimbProofs16.

Lemma sub_one X : mpi_ok X -> 0 < mval X -> mlen X < 10000 ->
  wp (l_sub_int false l_init X 1) (fun W => mpi_ok W /\ mval W = mval X - 1 /\ (length (mp W) <= length (mp X))%nat).
Proof.
  intros HX P L. unfold l_sub_int. destruct (sint_ok 1 ltac:(lia)) as (Y & E & OY & MY & LY). rewrite E. cbn [bind].
  eapply wp_mono; [apply (sub_ok false false l_init X Y init_ok HX OY ltac:(discriminate) ltac:(discriminate)); [reflexivity | exact L | unfold mlen, zlen; lia]|].
  cbv beta. intros W (OW & MW & [LW _]). split; [exact OW|]. split; [lia|]. assert (mp X <> []) as N by (apply nonnil_val; lia). apply len_pos in N. cbn [l_init mp length] in LW.
  assert (sig (mp W) <= length (mp X))%nat; [|lia]. apply sig_abs_bound; [exact OW|]. pose proof (lval_lt (mp X) _ (proj2 HX) (Nat.le_refl _)) as LL. rewrite (lval_mval X HX) in LL by lia. lia.
Qed.
Lemma add_two X : mpi_ok X -> 0 < mval X -> mlen X < 10000 ->
  wp (l_add_int true X X 2) (fun W => mpi_ok W /\ mval W = mval X + 2 /\ (length (mp W) <= Nat.max (length (mp X)) (sig (mp W)))%nat).
Proof.
  intros HX P L. unfold l_add_int. destruct (sint_ok 2 ltac:(lia)) as (Y & E & OY & MY & LY). rewrite E. cbn [bind].
  eapply wp_mono; [apply (add_ok true false X X Y HX HX OY ltac:(reflexivity) ltac:(discriminate)); [exact L | exact L | unfold mlen, zlen; lia]|].
  cbv beta. intros W (OW & MW & [LW _]). split; [exact OW|]. split; [lia|]. assert (mp X <> []) as N by (apply nonnil_val; lia). apply len_pos in N. lia.
Qed.
Lemma factors_loop_ok X ps : mpi_ok X -> Forall (fun p => 3 <= p <= 997) ps -> small_factors_loop ps X = Ok (sf ps (mval X)).
Proof.
  intros HX. induction ps as [|p ps IH]; intros F; [reflexivity|]. inversion F as [|? ? B F']; subst. cbn [small_factors_loop sf]. rewrite cmp_int_ok by (assumption || lia). cbn [bind].
  rewrite (mod_int_ok X p HX) by lia. cbn [bind ret].
  destruct (Z.compare_spec (mval X) p), (Z.leb_spec (mval X) p); try lia; try reflexivity. cbn [cmp3 Z.leb Z.compare]. destruct (mval X mod p =? 0); [reflexivity | now apply IH].
Qed.
Lemma check_factors_ok X : mpi_ok X -> mp X <> [] -> l_check_small_factors X = Ok (if Z.odd (mval X) then sf small_prime (mval X) else ERR_MPI_NOT_ACCEPTABLE).
Proof.
  intros HX NX. apply len_pos in NX. unfold l_check_small_factors. rewrite (lnth_ok _ _ 0) by lia. cbn [bind]. rewrite land1_odd, <- mval_odd by exact HX.
  destruct (Z.odd (mval X)); [|reflexivity]. apply factors_loop_ok; [exact HX | exact table_range].
Qed.
Lemma even_not_prime x : 2 < x -> Z.odd x = false -> ~ prime x.
Proof. intros X O P. rewrite <- Z.negb_even in O. apply negb_false_iff, Z.even_spec in O. destruct O as [k ->]. apply prime_alt in P. destruct P as [_ P]. apply (P 2 ltac:(lia)). exists k. lia. Qed.

Lemma rounds_ok i : mr_rounds i = bases_for i.
Proof.
  unfold mr_rounds, bases_for. Local Ltac down := repeat match goal with |- context [?a <=? ?b] => destruct (Z.leb_spec a b); [lia || reflexivity|] end; lia || reflexivity.
  destruct (Z.ltb_spec i 150); [down|]. destruct (Z.ltb_spec i 250); [down|]. destruct (Z.ltb_spec i 350); [down|]. destruct (Z.ltb_spec i 650); [down|]. destruct (Z.ltb_spec i 850); [down|]. destruct (Z.ltb_spec i 1300); down.
Qed.
Definition bits (x : Z) : Z := Z.log2 x + 1.
Section IsPrime.
  Context (f : rng).
  Hypothesis Hf : rng_ok f.
  Lemma miller_rabin_ok X c : mpi_ok X -> ms X = 1 -> 2 < mval X -> Z.odd (mval X) = true -> (length (mp X) <= 128)%nat ->
    rwp (l_miller_rabin f X) c (fun r c' => (c <= c')%nat /\
      match r with inl e => rejected f X c c' e | inr _ => passed f (length (mp X) * 8) c c' (bases_for (bits (mval X))) (mval X) end).
  Proof using Hf.
    intros HX SX BX OX LX. unfold l_miller_rabin. eapply rwp_lift; [apply sub_one; [exact HX | lia | unfold mlen, zlen; lia]|]. intros W (OW & MW & LW). cbv zeta.
    assert (lval (mp W) = mval X - 1) as VW by (rewrite <- MW; apply lval_mval; [exact OW | lia]).
    destruct (lsb_ok W OW ltac:(lia)) as (S0 & [q D] & OD). rewrite VW in D, OD. set (s := l_lsb W) in *.
    assert (0 < 2 ^ s) as PS by (apply Z.pow_pos_nonneg; lia). assert ((mval X - 1) / 2 ^ s = q) as EQ by (rewrite D; apply Z.div_mul; lia).
    assert (mp W <> []) as NW by (apply nonnil_val; lia).
    eapply rwp_lift; [apply copy_new; [exact init_ok | exact OW | exact NW | unfold zlen; lia]|]. intros R0 (OR0 & VR0 & SR0 & LR0).
    eapply rwp_lift; [apply shift_r_ok; [exact OR0 | exact S0]|]. intros R (OR & VR & _ & _ & SR). rewrite VR0, VW, EQ in VR.
    assert (ms W = 1) as SW by (destruct OW as [[?|Q] _]; [assumption | pose proof (eq_refl : mval W = ms W * lval (mp W)) as Q'; rewrite Q, VW in Q'; lia]).
    assert (mval R = q) as MR by (unfold mval; rewrite VR; replace (ms R) with 1 by (destruct SR; congruence); apply Z.mul_1_l). rewrite EQ in OD.
    assert (0 < s) as S1. { destruct (Z.eq_dec s 0) as [Q|]; [|lia]. rewrite Q, Z.pow_0_r, Z.mul_1_r in D. rewrite <- D, Z.odd_sub, OX in OD. discriminate. }
    eapply rwp_lifto; [apply bitlen_ok; exact HX|]. rewrite (lval_mval X HX) by lia. rewrite rounds_ok. unfold mpi_bitlen. destruct (Z.eqb_spec (mval X) 0) as [|_]; [lia|]. rewrite Z.abs_eq by lia.
    assert (0 <= q) as PQ by nia. rewrite <- MR in OD, PQ, D. apply (loop_ok f X Hf HX SX OX BX LX W OW MW R s OR OD PQ S1 D); [exact init_ok | cbn; lia|].
    cbn [rr_ok]. split; [exact init_ok|]. split; [discriminate | now left].
  Qed.
  Lemma miller_rabin_big X c : mpi_ok X -> ms X = 1 -> 2 < mval X -> (128 < length (mp X))%nat -> mlen X < 10000 ->
    Z.odd (mval X) = true -> l_miller_rabin f X c = Ok (inl ERR_MPI_BAD_INPUT_DATA, c).
  Proof using Hf.
    intros HX SX BX LX LL OX. assert (rwp (l_miller_rabin f X) c (fun r c' => r = inl ERR_MPI_BAD_INPUT_DATA /\ c' = c)) as H; [|destruct H as (r & c' & E & -> & ->); exact E].
    unfold l_miller_rabin. eapply rwp_lift; [apply sub_one; [exact HX | lia | unfold mlen, zlen in *; lia]|]. intros W (OW & MW & LW). cbv zeta.
    assert (lval (mp W) = mval X - 1) as VW by (rewrite <- MW; apply lval_mval; [exact OW | lia]).
    destruct (lsb_ok W OW ltac:(lia)) as (S0 & _ & _). assert (mp W <> []) as NW by (apply nonnil_val; lia). unfold mlen, zlen in LL.
    eapply rwp_lift; [apply copy_new; [exact init_ok | exact OW | exact NW | unfold zlen; lia]|]. intros R0 (OR0 & _).
    eapply rwp_lift; [apply shift_r_ok; [exact OR0 | exact S0]|]. intros R _.
    eapply rwp_lifto; [apply bitlen_ok; exact HX|]. assert (exists k, mr_rounds (mpi_bitlen (lval (mp X))) = S k) as [k ->].
    { unfold mr_rounds. repeat destruct (_ <=? _); eexists; reflexivity. }
    cbn [mr_loop]. unfold mr_first, rwp, rm_bind. rewrite fill_big by (unfold zlen; lia). cbn [bind fst snd]. exists (inl ERR_MPI_BAD_INPUT_DATA), c. split; [reflexivity | now split].
  Qed.
  Definition verdict (X : mpi) (c : nat) (r : Z + unit) (c' : nat) : Prop :=
    let x := Z.abs (mval X) in let sz := (length (mp X) * 8)%nat in
    (c <= c')%nat /\
    match r with
    | inr _ => (prime x /\ x <= 997 /\ c' = c) \/ (no_small_factor x /\ (length (mp X) <= 128)%nat /\ passed f sz c c' (bases_for (bits x)) x)
    | inl e => (e = ERR_MPI_NOT_ACCEPTABLE /\ ~ prime x) \/
        (no_small_factor x /\ (((128 < length (mp X))%nat /\ e = ERR_MPI_BAD_INPUT_DATA) \/
          ((length (mp X) <= 128)%nat /\ (rng_fails f sz c c' e \/ (e = ERR_MPI_NOT_ACCEPTABLE /\ rng_stuck f sz c c' x)))))
    end.
  Lemma is_prime_ok X c : mpi_ok X -> mlen X < 10000 -> rwp (l_is_prime f X) c (verdict X c).
  Proof using Hf.
    intros HX0 LX. unfold l_is_prime, verdict. cbv zeta. rewrite mval_abs by exact HX0. set (XX := MkMpi 1 (mp X)). assert (mpi_ok XX) as HX by (split; [now left | apply HX0]).
    assert (mval XX = lval (mp X)) as MX by (unfold XX, mval; cbn [ms mp]; lia). pose proof (lval_nonneg _ (proj2 HX0)) as P0. set (x := lval (mp X)) in *.
    assert (~ prime 0 /\ ~ prime 1) as [NP0 NP1] by (split; intros Q; apply prime_ge_2 in Q; lia).
    eapply rwp_lifto; [apply cmp_int_ok; [exact HX | lia]|]. eapply rwp_lifto; [apply cmp_int_ok; [exact HX | lia]|]. rewrite !cmp3_eq, MX.
    destruct (Z.compare_spec x 0) as [C0|C0|C0]; cbn [orb]; [apply rwp_err; rewrite C0; split; [lia | left; now split] | lia|].
    destruct (Z.compare_spec x 1) as [C1|C1|C1]; cbn [orb]; [apply rwp_err; rewrite C1; split; [lia | left; now split] | lia|].
    eapply rwp_lifto; [apply cmp_int_ok; [exact HX | lia]|]. rewrite cmp3_eq, MX.
    destruct (Z.compare_spec x 2) as [C2|C2|C2]; [apply rwp_ret; rewrite C2; split; [lia|]; left; split; [exact prime_2 | split; [discriminate | reflexivity]] | lia|].
    eapply rwp_lifto; [apply check_factors_ok; [exact HX | apply nonnil_val; lia]|]. rewrite MX. destruct (Z.odd x) eqn:O.
    2: { change (ERR_MPI_NOT_ACCEPTABLE =? 0) with false. change (ERR_MPI_NOT_ACCEPTABLE =? 1) with false. cbv iota. apply rwp_err. split; [lia|]. left. split; [reflexivity | now apply even_not_prime]. }
    destruct (sf_ok x ltac:(lia) O) as [(-> & P & L) | [(-> & NS) | (-> & NP)]].
    - change (1 =? 0) with false. change (1 =? 1) with true. cbv iota. apply rwp_ret. split; [lia|]. left. now split.
    - change (0 =? 0) with true. cbv iota. destruct (Nat.le_gt_cases (length (mp X)) 128) as [LL|LL].
      + eapply rwp_mono; [apply miller_rabin_ok; [exact HX | reflexivity | lia | rewrite MX; exact O | exact LL]|]. cbv beta. intros r c' [CC H]. split; [exact CC|]. destruct r as [e|u].
        * unfold rejected in H. change (mp XX) with (mp X) in H. rewrite MX in H. destruct H as [H | (-> & [H | (a & B & H)])]; [right; split; [exact NS|]; right; split; [exact LL|]; now left | right; split; [exact NS|]; right; split; [exact LL|]; right; now split |].
          left. split; [reflexivity|]. intros Q. apply H. apply prime_strong; [exact Q | lia | lia].
        * right. split; [exact NS|]. split; [exact LL|]. change (mp XX) with (mp X) in H. rewrite MX in H. exact H.
      + exists (inl ERR_MPI_BAD_INPUT_DATA), c. split; [apply miller_rabin_big; [exact HX | reflexivity | lia | exact LL | exact LX | rewrite MX; exact O]|]. split; [lia|]. right. split; [exact NS|]. left. now split.
    - change (ERR_MPI_NOT_ACCEPTABLE =? 0) with false. change (ERR_MPI_NOT_ACCEPTABLE =? 1) with false. cbv iota. apply rwp_err. split; [lia|]. left. now split.
  Qed.
End IsPrime.
