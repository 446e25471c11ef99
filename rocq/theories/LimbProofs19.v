(** The signs of products and remainders; the operations in the form needed for sequences of calls *)
From Coq Require Import Lia Znumtheory.
From Verif Require Import Base BaseFacts MpiModel MpiProofs LimbModel LimbModel2 LimbSpec LimbSpec2 LimbSpec3 LimbProofs LimbProofs2 LimbProofs3 LimbProofs4 LimbProofs5 LimbProofs6 LimbProofs9 LimbProofs11 LimbProofs12 LimbProofs13 LimbProofs14 LimbProofs16.

Lemma bindr_inv {A B} (x : res A) (f : A -> res B) b : bindr x f = ret b -> exists a, x = ret a /\ f a = ret b.
Proof. unfold bindr, bind, ret, err. destruct x as [[e|a]| | | |]; intros H; try discriminate. now exists a. Qed.
Lemma bind_inv {A B} (x : outcome A) (f : A -> res B) b : bind x f = ret b -> exists a, x = Ok a /\ f a = ret b.
Proof. unfold bind, ret. destruct x as [a| | | |]; intros H; try discriminate. now exists a. Qed.
Lemma ret_inj {A} (a b : A) : ret a = ret b -> a = b. Proof. unfold ret. congruence. Qed.
Lemma copy_sign same X Y R : (same = true -> X = Y) -> ms Y = 1 -> l_copy same X Y = ret R -> ms R = 1.
Proof.
  intros E S. unfold l_copy. destruct same; [intros H; apply ret_inj in H; subst; now rewrite E|].
  destruct (mp Y) as [|y l]; [intros H; apply ret_inj in H; now subst|]. intros H. apply bindr_inv in H. destruct H as (X1 & _ & H). apply ret_inj in H. now subst.
Qed.
Lemma mul_sign xa xb X A B R : ms A = 1 -> ms B = 1 -> l_mul xa xb X A B = ret R -> ms R = 1.
Proof.
  intros SA SB H. unfold l_mul in H. apply bindr_inv in H. destruct H as (A1 & HA & H). apply bindr_inv in H. destruct H as (B1 & HB & H).
  assert (ms A1 = 1) as S1 by (destruct xa; [eapply (copy_sign false); [discriminate | exact SA | exact HA] | apply ret_inj in HA; now subst]).
  assert (ms B1 = 1) as S2 by (destruct xb; [eapply (copy_sign false); [discriminate | exact SB | exact HB] | apply ret_inj in HB; now subst]).
  apply bindr_inv in H. destruct H as (X1 & _ & H). apply bindr_inv in H. destruct H as (X2 & _ & H). apply bind_inv in H. destruct H as (p & _ & H).
  apply ret_inj in H. subst R. cbn [ms]. rewrite S1, S2. reflexivity.
Qed.
Lemma div_sign ra R A B Q' R' : (ra = true -> R = A) -> ms A = 1 -> l_div false ra None (Some R) A B = ret (Q', Some R') -> ms R' = 1.
Proof.
  intros E SA H. unfold l_div in H. apply bind_inv in H. destruct H as (c & _ & H). destruct (c =? 0); [discriminate|]. apply bind_inv in H. destruct H as (c2 & _ & H).
  destruct (c2 <? 0).
  - apply bindr_inv in H. destruct H as (q & Hq & H). apply ret_inj in Hq. subst q. cbn iota in H. apply bindr_inv in H. destruct H as (r & Hr & H). apply bindr_inv in Hr. destruct Hr as (r1 & Hr & K).
    apply ret_inj in K. subst r. apply ret_inj in H. injection H as _ <-. eapply (copy_sign ra); [exact E | exact SA | exact Hr].
  - apply bindr_inv in H. destruct H as ([[X Zq] k] & _ & H). apply bindr_inv in H. destruct H as (q & Hq & H). apply ret_inj in Hq. subst q. cbn iota in H.
    apply bindr_inv in H. destruct H as (r & Hr & H). apply bindr_inv in Hr. destruct Hr as (X1 & _ & Hr). cbv zeta in Hr. apply bindr_inv in Hr. destruct Hr as (r1 & Hr & K).
    apply bind_inv in K. destruct K as (c3 & _ & K). apply ret_inj in K. subst r. apply ret_inj in H. injection H as _ <-.
    assert (ms r1 = 1) by (eapply (copy_sign false); [discriminate | | exact Hr]; exact SA). now destruct (c3 =? 0).
Qed.
Lemma mod_sign ra R A B : mpi_ok R -> mpi_ok A -> mpi_ok B -> (ra = true -> R = A) -> 0 < mval B -> mlen R < 10000 -> mlen A <= 9990 -> mlen B < 10000 ->
  ms A = 1 -> forall R', l_mod ra R A B = ret R' -> ms R' = 1.
Proof.
  intros HR HA HB ER PB LR LA LB' SA R' H. unfold l_mod in H. apply bind_inv in H. destruct H as (c & _ & H). destruct (c <? 0); [discriminate|].
  pose proof (div_ok ra None (Some R) A B I HR HA HB (fun e => f_equal Some (ER e)) ltac:(lia) LA ltac:(lia)) as ([Q1 R1] & E & _ & O). cbn [snd] in O.
  destruct R1 as [R1|]; [|destruct O]. destruct O as (O1 & M1 & _). rewrite E in H. pose proof (div_sign _ _ _ _ _ _ ER SA E) as S1.
  assert (0 <= mval A) as PA by (unfold mval; rewrite SA; pose proof (lval_nonneg (mp A) (proj2 HA)); lia). pose proof (Z.rem_bound_pos (mval A) (mval B) PA PB) as RB. rewrite <- M1 in RB.
  cbn [bindr bind ret] in H. change (bindr (ret (Q1, Some R1))) with (fun f : (option mpi * option mpi -> res mpi) => f (Q1, Some R1)) in H. cbn beta iota in H.
  apply bindr_inv in H. destruct H as (R2 & H2 & H). cbn [mod_up] in H2. rewrite cmp_int_ok in H2 by (assumption || lia). cbn [bind] in H2. rewrite cmp3_lt in H2.
  destruct (Z.compare_spec (mval R1) 0); try lia; apply ret_inj in H2; subst R2.
  all: cbn [mod_down] in H; rewrite cmp_ok in H by assumption; cbn [bind] in H; rewrite cmp3_ge in H; destruct (Z.compare_spec (mval R1) (mval B)); try lia; apply ret_inj in H; now subst.
Qed.

(** * Operations in sequences.  Lengths are integers here. *)
Lemma zsig X n : mpi_ok X -> 0 <= n -> Z.abs (mval X) < LB ^ n -> Z.of_nat (sig (mp X)) <= n.
Proof. intros H N B. rewrite <- (Z2Nat.id n N) in B |- *. apply inj_le, sig_abs_bound; assumption. Qed.
Lemma zsig_len X : Z.of_nat (sig (mp X)) <= mlen X. Proof. unfold mlen, zlen. pose proof (sig_le (mp X)). lia. Qed.
Lemma mlen_nonneg X : 0 <= mlen X. Proof. apply zlen_nonneg. Qed.
Lemma mlen_nonnil X : 1 <= mlen X <-> mp X <> [].
Proof. unfold mlen, zlen. destruct (mp X); cbn; split; intros; lia || congruence || discriminate. Qed.
Lemma mval_nonnil X : mval X <> 0 -> mp X <> [].
Proof. intros H E. apply H. unfold mval. rewrite E. cbn. lia. Qed.
Lemma abs_lt_len X n : mpi_ok X -> mlen X <= n -> Z.abs (mval X) < LB ^ n.
Proof.
  intros H L. rewrite mval_abs by exact H. pose proof (lval_range (mp X) (proj2 H)) as B. apply Z.lt_le_trans with (LB ^ zlen (mp X)); [apply B|]. apply Z.pow_le_mono_r; [exact LB_pos | exact L].
Qed.
Lemma mval_sign X : mpi_ok X -> 0 < mval X -> ms X = 1.
Proof. intros [[-> | H] F] P; [reflexivity|]. unfold mval in P. rewrite H in P. pose proof (lval_nonneg (mp X) F). lia. Qed.

Lemma s_mul xa xb X A B : mpi_ok X -> mpi_ok A -> mpi_ok B -> alias xa X A -> alias xb X B -> mlen A + mlen B <= 10000 ->
  wp (l_mul xa xb X A B) (fun R => mpi_ok R /\ mval R = mval A * mval B /\ 1 <= mlen R <= Z.max 1 (Z.max (mlen X) (Z.of_nat (sig (mp A)) + Z.of_nat (sig (mp B)))) /\
    (ms A = 1 -> ms B = 1 -> ms R = 1)).
Proof.
  intros HX HA HB EA EB L. destruct (mul_ok xa xb X A B HX HA HB EA EB L) as (R & E & O & M & _ & LR). exists R. split; [exact E|]. split; [exact O|]. split; [exact M|]. unfold mlen, zlen.
  split; [lia|]. intros SA SB. eapply mul_sign; [exact SA | exact SB | exact E].
Qed.
Lemma s_mod ra R A B : mpi_ok R -> mpi_ok A -> mpi_ok B -> alias ra R A -> 0 < mval B -> mlen R < 10000 -> mlen A <= 9990 -> mlen B < 10000 ->
  wp (l_mod ra R A B) (fun R' => mpi_ok R' /\ mval R' = mval A mod mval B /\ mlen R' <= Z.max (mlen R) (Z.max 1 (mlen B)) /\ (mp A <> [] -> 1 <= mlen R') /\ (ms A = 1 -> ms R' = 1)).
Proof.
  intros HR HA HB ER P LR LA LB'. destruct (mod_ok ra R A B HR HA HB ER P LR LA LB') as (R' & E & O & M & L & N). exists R'. split; [exact E|]. split; [exact O|]. split; [exact M|].
  unfold mlen, zlen in *. split; [lia|]. split; [intros NA; destruct (N NA) as [_ Q]; destruct (mp R'); [congruence | cbn; lia]|]. intros SA. eapply mod_sign; [exact HR | exact HA | exact HB | exact ER | exact P | exact LR | exact LA | exact LB' | exact SA | exact E].
Qed.
Lemma s_add xa xb X A B : mpi_ok X -> mpi_ok A -> mpi_ok B -> alias xa X A -> alias xb X B -> mlen X < 10000 -> mlen A < 10000 -> mlen B < 10000 ->
  wp (l_add xa xb X A B) (fun R => mpi_ok R /\ mval R = mval A + mval B /\ mlen R <= Z.max (mlen X) (Z.max (mlen A) (mlen B)) + 1).
Proof.
  intros HX HA HB EA EB LX LA LB'. destruct (add_ok xa xb X A B HX HA HB EA EB LX LA LB') as (R & E & O & M & L & _). exists R. split; [exact E|]. split; [exact O|]. split; [exact M|].
  set (m := Z.max (mlen X) (Z.max (mlen A) (mlen B))). assert (Z.of_nat (sig (mp R)) <= m + 1); [|unfold mlen, zlen in *; unfold m; lia].
  pose proof (mlen_nonneg X). apply zsig; [exact O | unfold m; lia|]. rewrite M. assert (Z.abs (mval A) < LB ^ m) by (apply abs_lt_len; [exact HA | unfold m; lia]). assert (Z.abs (mval B) < LB ^ m) by (apply abs_lt_len; [exact HB | unfold m; lia]).
  rewrite Z.pow_add_r by (unfold m; lia). rewrite Z.pow_1_r. pose proof LB_gt1. set (q := LB ^ m) in *. clearbody q. nia.
Qed.
Lemma s_sub xa xb X A B : mpi_ok X -> mpi_ok A -> mpi_ok B -> alias xa X A -> alias xb X B -> mlen X < 10000 -> mlen A < 10000 -> mlen B < 10000 ->
  wp (l_sub xa xb X A B) (fun R => mpi_ok R /\ mval R = mval A - mval B /\ mlen R <= Z.max (mlen X) (Z.max (mlen A) (mlen B)) + 1 /\ (mp A <> [] -> mp B <> [] -> mlen X <= mlen R)).
Proof.
  intros HX HA HB EA EB LX LA LB'. destruct (sub_ok xa xb X A B HX HA HB EA EB LX LA LB') as (R & E & O & M & L & L2). exists R. split; [exact E|]. split; [exact O|]. split; [exact M|].
  split; [|intros NA NB; specialize (L2 NA NB); unfold mlen, zlen; lia].
  set (m := Z.max (mlen X) (Z.max (mlen A) (mlen B))). assert (Z.of_nat (sig (mp R)) <= m + 1); [|unfold mlen, zlen in *; unfold m; lia].
  pose proof (mlen_nonneg X). apply zsig; [exact O | unfold m; lia|]. rewrite M. assert (Z.abs (mval A) < LB ^ m) by (apply abs_lt_len; [exact HA | unfold m; lia]). assert (Z.abs (mval B) < LB ^ m) by (apply abs_lt_len; [exact HB | unfold m; lia]).
  rewrite Z.pow_add_r by (unfold m; lia). rewrite Z.pow_1_r. pose proof LB_gt1. set (q := LB ^ m) in *. clearbody q. nia.
Qed.
Lemma s_sub_int xa X A z : mpi_ok X -> mpi_ok A -> alias xa X A -> mlen X < 10000 -> mlen A < 10000 -> - 2 ^ 63 < z < 2 ^ 63 ->
  wp (l_sub_int xa X A z) (fun R => mpi_ok R /\ mval R = mval A - z /\ mlen R <= Z.max 1 (Z.max (mlen X) (mlen A)) + 1).
Proof.
  intros HX HA EA LX LA Z1. unfold l_sub_int. destruct (sint_ok z Z1) as (B & EB & OB & MB & LB'). rewrite EB. cbn [bind].
  eapply wp_mono; [apply s_sub; [exact HX | exact HA | exact OB | exact EA | discriminate | exact LX | exact LA | unfold mlen, zlen; rewrite LB'; lia]|].
  cbv beta. intros R (O & M & L & _). split; [exact O|]. split; [rewrite M, MB; reflexivity|]. replace (mlen B) with 1 in L by (unfold mlen, zlen; rewrite LB'; reflexivity). lia.
Qed.
Lemma s_read X bs : mpi_ok X -> is_bytes bs -> zlen bs <= 80000 ->
  wp (l_read_binary X bs) (fun R => mpi_ok R /\ mval R = be_decode bs /\ ms R = 1 /\ 1 <= mlen R <= Z.max 1 (Z.max (mlen X) ((zlen bs + 7) / 8))).
Proof.
  intros HX HB L. pose proof (be_decode_range bs HB) as R. assert (mpi_size (be_decode bs) <= zlen bs) as SZ by (apply size_le; [lia | apply zlen_nonneg | lia]).
  destruct (read_binary_limb X bs HX HB ltac:(lia)) as (A' & E & O & M & V & S1 & L1). exists A'. split; [exact E|]. split; [exact O|]. split; [exact M|]. split; [exact S1|].
  assert ((mpi_size (be_decode bs) + 7) / 8 <= (zlen bs + 7) / 8) by (apply Z.div_le_mono; lia). assert (0 <= (mpi_size (be_decode bs) + 7) / 8) by (apply Z.div_pos; [pose proof (size_nonneg (be_decode bs)); lia | lia]).
  unfold mlen. unfold zlen at 1 2. rewrite L1. unfold zlen at 1. lia.
Qed.
Lemma s_fill f X n c bs : mpi_ok X -> 0 <= n <= 1024 -> f c (Z.to_nat n) = inr bs -> is_bytes bs -> zlen bs = n ->
  exists R, l_fill_random f X n c = Ok (inr R, S c) /\ mpi_ok R /\ mval R = be_decode bs /\ ms R = 1 /\ 1 <= mlen R <= Z.max 1 (Z.max (mlen X) ((n + 7) / 8)).
Proof.
  intros HX N F B L. destruct (s_read X bs HX B ltac:(lia)) as (R & E & O & M & S1 & L1). exists R. unfold l_fill_random. destruct (Z.ltb_spec 1024 n); [lia|]. rewrite F. unfold rm_lift. rewrite E. cbn [bind ret].
  split; [reflexivity|]. split; [exact O|]. split; [exact M|]. split; [exact S1|]. rewrite L in L1. exact L1.
Qed.
Lemma s_exp xa X A E N R : mpi_ok X -> mpi_ok A -> mpi_ok E -> mpi_ok N -> cache_ok N (Some R) -> alias xa X A -> (xa = true \/ mp A <> []) -> 0 < mval N -> Z.odd (mval N) = true -> 0 <= mval E ->
  mlen N <= 4990 -> mlen A <= 9990 -> mlen X <= 9990 -> ms A = 1 ->
  wp (l_exp_mod xa X A E N (Some R)) (fun r => mpi_ok (fst r) /\ mval (fst r) = mval A ^ mval E mod mval N /\ mlen (fst r) <= Z.max (mlen X) (mlen N + 1) /\
    exists R', snd r = Some R' /\ cache_ok N (Some R')).
Proof.
  intros HX HA HE HN C EA NA PN ON PE LN LA LX SA. assert (rr_ok N (Some R)) as RR.
  { destruct C as (C1 & C2 & C3). split; [exact C1|]. split; [exact C2|]. destruct C3 as [C3|C3]; [now left|]. right. rewrite C3. f_equal. unfold RN. rewrite <- Z.pow_mul_r by (try lia; apply zlen_nonneg). unfold mlen, zlen. f_equal. lia. }
  destruct (exp_mod_ok xa X A E N (Some R) HX HA HE HN RR EA NA PN ON PE LN LA LX) as (r & EQ & O & M & L & RN1). exists r. split; [exact EQ|]. split; [exact O|].
  split; [rewrite M; apply exp_spec_pow; [exact HA | exact PN | exact PE | rewrite SA; lia]|]. split; [exact L|]. destruct (snd r) as [R'|]; [|destruct RN1]. destruct RN1 as (Q1 & Q2 & Q3 & Q4). exists R'. split; [reflexivity|].
  split; [exact Q1|]. split; [exact Q2|]. right. rewrite Q4. f_equal. unfold RN. rewrite <- Z.pow_mul_r by (try lia; apply zlen_nonneg). unfold mlen, zlen. f_equal. lia.
Qed.
