(** The Miller-Rabin test *)
From Coq Require Import Lia Znumtheory.
From Verif Require Import Base BaseFacts MpiModel MpiProofs LimbModel LimbModel2 LimbSpec LimbSpec2 LimbSpec3 LimbProofs LimbProofs2 LimbProofs3 LimbProofs4 LimbProofs5 LimbProofs6 LimbProofs7 LimbProofs8 LimbProofs9 LimbProofs10 LimbProofs11 LimbProofs12 LimbProofs13 LimbProofs15.

Definition rwp {A} (m : rm A) (c : nat) (Q : Z + A -> nat -> Prop) : Prop := exists r c', m c = Ok (r, c') /\ Q r c'.
Lemma rwp_mono {A} (m : rm A) c (P Q : Z + A -> nat -> Prop) : rwp m c P -> (forall r c', P r c' -> Q r c') -> rwp m c Q.
Proof. intros (r & c' & E & H) K. exists r, c'. split; [exact E | now apply K]. Qed.
Lemma rwp_bind {A B} (m : rm A) (k : A -> rm B) c (P : Z + A -> nat -> Prop) (Q : Z + B -> nat -> Prop) : rwp m c P ->
  (forall e c', P (inl e) c' -> Q (inl e) c') -> (forall a c', P (inr a) c' -> rwp (k a) c' Q) -> rwp (rm_bind m k) c Q.
Proof.
  intros (r & c' & E & H) K1 K2. unfold rwp, rm_bind. rewrite E. cbn [bind fst snd]. destruct r as [e|a]; [exists (inl e), c'; split; [reflexivity | now apply K1] | now apply K2].
Qed.
Lemma rwp_lift {A B} (x : res A) (k : A -> rm B) c (P : A -> Prop) (Q : Z + B -> nat -> Prop) : wp x P -> (forall a, P a -> rwp (k a) c Q) -> rwp (rm_bind (rm_lift x) k) c Q.
Proof. intros (a & E & H) K. unfold rwp, rm_bind, rm_lift. rewrite E. cbn [bind fst snd ret]. now apply K. Qed.
Lemma rwp_lifto {A B} (x : outcome A) (k : A -> rm B) a c Q : x = Ok a -> rwp (k a) c Q -> rwp (rm_bind (rm_lifto x) k) c Q.
Proof. intros E H. unfold rwp, rm_bind, rm_lifto. rewrite E. cbn [bind fst snd]. exact H. Qed.
Lemma rwp_ret {A} (a : A) c (Q : Z + A -> nat -> Prop) : Q (inr a) c -> rwp (rm_ret a) c Q.
Proof. intros H. exists (inr a), c. split; [reflexivity | exact H]. Qed.
Lemma rwp_err {A} e c (Q : Z + A -> nat -> Prop) : Q (inl e) c -> rwp (rm_err e) c Q.
Proof. intros H. exists (inl e), c. split; [reflexivity | exact H]. Qed.

Lemma cut_ok w a : 0 < w -> 0 <= a -> cut w a = if mpi_bitlen w <? mpi_bitlen a then a / 2 ^ (mpi_bitlen a - mpi_bitlen w) else a.
Proof.
  intros W A. unfold cut, mpi_bitlen. destruct (Z.eqb_spec w 0) as [|_]; [lia|]. rewrite (Z.abs_eq w) by lia. pose proof (Z.log2_nonneg w). destruct (Z.eqb_spec a 0) as [->|N].
  - destruct (Z.ltb_spec (Z.log2 w + 1) 0); [lia|]. rewrite Z.div_0_l; [reflexivity|]. apply Z.pow_nonzero; lia.
  - rewrite (Z.abs_eq a) by lia. destruct (Z.ltb_spec (Z.log2 w + 1) (Z.log2 a + 1)) as [C|C].
    + f_equal. f_equal. lia.
    + rewrite Z.max_l by lia. rewrite Z.pow_0_r. apply Z.div_1_r.
Qed.
Lemma fill_ok f A (n : nat) c : rng_ok f -> mpi_ok A -> (n <= 128)%nat ->
  rwp (l_fill_random f A (Z.of_nat n * 8)) c (fun r c' => c' = S c /\
    match r with
    | inl e => f c (n * 8)%nat = inl e
    | inr A' => exists b, f c (n * 8)%nat = inr b /\ mpi_ok A' /\ ms A' = 1 /\ lval (mp A') = be_decode b /\ 0 <= be_decode b /\
        (1 <= length (mp A') <= Nat.max 1 (Nat.max (length (mp A)) n))%nat /\ is_bytes b /\ length b = (n * 8)%nat
    end).
Proof.
  intros Hf HA Hn. unfold l_fill_random. destruct (Z.ltb_spec 1024 (Z.of_nat n * 8)) as [C|C]; [lia|]. replace (Z.to_nat (Z.of_nat n * 8)) with (n * 8)%nat by lia.
  unfold rwp. specialize (Hf c (n * 8)%nat). destruct (f c (n * 8)%nat) as [e|b]; [exists (inl e), (S c); now repeat split|]. destruct Hf as [Hb Lb].
  pose proof (be_decode_range b Hb) as R. unfold zlen in R. rewrite Lb in R. assert (mpi_size (be_decode b) <= Z.of_nat (n * 8)) as SZ by (apply size_le; lia).
  destruct (read_binary_limb A b HA Hb ltac:(lia)) as (A' & E & O & _ & V & S1 & L). exists (inr A'), (S c). unfold rm_lift. rewrite E. cbn [bind ret]. split; [reflexivity|]. split; [reflexivity|].
  exists b. split; [reflexivity|]. split; [exact O|]. split; [exact S1|]. split; [exact V|]. split; [lia|]. split; [|now split]. rewrite L.
  assert ((mpi_size (be_decode b) + 7) / 8 <= Z.of_nat n) by (assert ((mpi_size (be_decode b) + 7) / 8 < Z.of_nat n + 1); [apply Z.div_lt_upper_bound; lia | lia]). lia.
Qed.
Lemma fill_big f A n c : 1024 < n * 8 -> l_fill_random f A (n * 8) c = Ok (inl ERR_MPI_BAD_INPUT_DATA, c).
Proof. intros H. unfold l_fill_random. destruct (Z.ltb_spec 1024 (n * 8)); [reflexivity | lia]. Qed.

Section MR.
  Context (f : rng) (X : mpi).
  Hypothesis Hf : rng_ok f.
  Hypothesis HX : mpi_ok X. Hypothesis SX : ms X = 1. Hypothesis OX : Z.odd (mval X) = true. Hypothesis BX : 2 < mval X.
  Hypothesis LX : (length (mp X) <= 128)%nat.
  Let x := mval X. Let n := length (mp X). Let sz := (n * 8)%nat.
  Context (W : mpi).
  Hypothesis HW : mpi_ok W. Hypothesis MW : mval W = x - 1.

  Lemma n_pos : (1 <= n)%nat. Proof using All. apply len_pos, nonnil_val. lia. Qed.
  Lemma lW : lval (mp W) = x - 1. Proof using All. rewrite <- MW. apply lval_mval; [exact HW|]. rewrite MW. unfold x. lia. Qed.
  Lemma first_ok A c : mpi_ok A -> (length (mp A) <= n + 1)%nat ->
    rwp (mr_first f X W A) c (fun r c' => c' = S c /\ match r with inl e => f c sz = inl e | inr A' => mpi_ok A' /\ (length (mp A') <= n + 1)%nat end).
  Proof using All.
    intros HA LA. pose proof n_pos as N1. unfold mr_first, zlen. fold n. eapply rwp_bind; [apply fill_ok; [exact Hf | exact HA | exact LX]| |].
    - cbv beta. intros e c' [-> E]. split; [reflexivity | exact E].
    - cbv beta. intros A1 c' (-> & b & _ & O1 & S1 & V1 & P1 & L1 & _).
      assert (mval A1 = be_decode b) as M1 by (unfold mval; rewrite S1, V1; lia).
      eapply rwp_lifto; [apply cmp_ok; [exact O1 | exact HW]|]. rewrite cmp3_ge.
      eapply rwp_lift with (P := fun A2 => mpi_ok A2 /\ (1 <= length (mp A2) <= n + 1)%nat).
      { destruct (Z.compare_spec (mval A1) (mval W)) as [C|C|C]; [| apply wp_ret; split; [exact O1 | lia] |].
        all: rewrite bitlen_ok by exact O1; cbn [bind]; rewrite bitlen_ok by exact HW; cbn [bind];
          assert (mpi_bitlen (lval (mp W)) <= mpi_bitlen (lval (mp A1))) as BM by (apply bitlen_mono; rewrite lW, V1; unfold x in *; lia);
          (eapply wp_mono; [apply shift_r_ok; [exact O1 | lia]|]); cbv beta; intros A2 (O2 & _ & _ & L2 & _); (split; [exact O2|]); rewrite L2; destruct (_ || _); lia. }
      intros A2 [O2 L2]. eapply rwp_lifto; [apply (lnth_ok (mp A2) 0 0); lia|]. eapply rwp_lifto; [apply lupd_ok; lia|]. apply rwp_ret. split; [reflexivity|].
      destruct (mp A2) as [|a0 l] eqn:EA; [cbn in L2; lia|]. cbn [nth firstn skipn app mp length] in *. split; [|apply L2]. destruct O2 as [OS OF]. rewrite EA in OF. inversion OF as [|? ? B0 F0]; subst.
      split; [exact OS|]. cbn [mp]. constructor; [|exact F0]. unfold is_limb, LB in *. split; [apply Z.lor_nonneg; lia|].
      destruct (Z.eq_dec a0 0) as [->|NZ]; [reflexivity|]. apply Z.log2_lt_pow2; [assert (0 <= Z.lor a0 3) by (apply Z.lor_nonneg; lia); destruct (Z.eq_dec (Z.lor a0 3) 0) as [Q|Q]; [apply Z.lor_eq_0_iff in Q; lia | lia]|].
      rewrite Z.log2_lor by lia. apply Z.max_lub_lt; [apply Z.log2_lt_pow2; lia | reflexivity].
  Qed.
  Definition out_of_range c := exists a, base_drawn f sz x c a /\ ~ 1 < a < x - 1.
  Lemma draw_ok k : forall A c, mpi_ok A -> (length (mp A) <= n + 1)%nat ->
    rwp (mr_draw f k X W A) c (fun r c' => (c < c')%nat /\
      match r with
      | inl e => rng_fails f sz c c' e \/ (e = ERR_MPI_NOT_ACCEPTABLE /\ (c + k <= c')%nat /\ forall j, (j < k)%nat -> out_of_range (c + j))
      | inr A' => mpi_ok A' /\ ms A' = 1 /\ (1 <= length (mp A') <= n + 1)%nat /\ 1 < mval A' < x - 1 /\ base_drawn f sz x (c' - 1) (mval A')
      end).
  Proof using All.
    pose proof n_pos as N1. induction k as [|k IH]; intros A c HA LA; cbn [mr_draw]; unfold zlen; fold n.
    all: eapply rwp_bind; [apply fill_ok; [exact Hf | exact HA | exact LX]| |]; cbv beta;
      [intros e c' [-> E]; split; [lia|]; left; exists c; split; [lia | exact E]|].
    all: intros A1 c' (-> & b & EB & O1 & S1 & V1 & P1 & L1 & _);
      (eapply rwp_lifto; [apply bitlen_ok; exact O1|]); (eapply rwp_lifto; [apply bitlen_ok; exact HW|]);
      (eapply rwp_lift with (P := fun A2 => mpi_ok A2 /\ ms A2 = 1 /\ (1 <= length (mp A2) <= n + 1)%nat /\ mval A2 = cut (x - 1) (be_decode b));
        [rewrite (cut_ok (x - 1)) by (unfold x; lia); rewrite V1, lW; destruct (Z.ltb_spec (mpi_bitlen (x - 1)) (mpi_bitlen (be_decode b))) as [C|C];
          [eapply wp_mono; [apply shift_r_ok; [exact O1 | lia]|]; cbv beta; intros A2 (O2 & _ & M2 & L2 & S2); split; [exact O2|]; split; [destruct S2; congruence|]; split; [rewrite L2; destruct (_ || _); lia | rewrite M2, S1, V1; apply Z.mul_1_l]
          | apply wp_ret; split; [exact O1|]; split; [exact S1|]; split; [lia | unfold mval; rewrite S1, V1; apply Z.mul_1_l]]|]).
    all: intros A2 (O2 & S2 & L2 & M2).
    - apply rwp_err. split; [lia|]. right. split; [reflexivity|]. split; [lia|]. intros j J. lia.
    - eapply rwp_lifto; [apply cmp_ok; [exact O2 | exact HW]|]. rewrite cmp3_ge.
      set (bad := match mval A2 ?= mval W with Lt => mval A2 <=? 1 | _ => true end).
      eapply (rwp_lifto _ _ bad).
      { unfold bad. destruct (mval A2 ?= mval W); try reflexivity. rewrite cmp_int_ok by (assumption || lia). cbn [bind]. f_equal. destruct (Z.compare_spec (mval A2) 1), (Z.leb_spec (mval A2) 1); try lia; reflexivity. }
      assert (bad = negb ((1 <? mval A2) && (mval A2 <? x - 1))) as EB'.
      { unfold bad. rewrite MW. destruct (Z.compare_spec (mval A2) (x - 1)), (Z.ltb_spec 1 (mval A2)), (Z.ltb_spec (mval A2) (x - 1)), (Z.leb_spec (mval A2) 1); try lia; reflexivity. }
      assert (base_drawn f sz x c (mval A2)) as BD by (exists b; split; [exact EB | exact M2]).
      rewrite EB'. destruct (Z.ltb_spec 1 (mval A2)) as [C1|C1]; [destruct (Z.ltb_spec (mval A2) (x - 1)) as [C2|C2]|]; cbn [andb negb].
      1: { apply rwp_ret. split; [lia|]. split; [exact O2|]. split; [exact S2|]. split; [exact L2|]. split; [lia|]. now rewrite Nat.sub_succ, Nat.sub_0_r. }
      all: eapply rwp_mono; [apply (IH A2 (S c) O2); lia|]; cbv beta; intros r c' [C' H]; (split; [lia|]); destruct r as [e|A'];
        [destruct H as [(i & I & E) | (-> & C3 & H)]; [left; exists i; split; [lia | exact E] | right; split; [reflexivity|]; split; [lia|]; intros [|j] J;
          [rewrite Nat.add_0_r; exists (mval A2); split; [exact BD | lia] | rewrite <- Nat.add_succ_comm; apply H; lia]]
        | exact H].
  Qed.
  Lemma square_ok k : forall A T, mpi_ok A -> mpi_ok T -> 0 <= mval A < x -> (length (mp A) <= n + 1)%nat -> (length (mp T) <= 2 * n + 2)%nat ->
    wp (mr_square k X W A T) (fun A' => mpi_ok A' /\ (length (mp A') <= n + 1)%nat /\ mval A' = sq k x (mval A)).
  Proof using All.
    pose proof n_pos as N1. induction k as [|k IH]; intros A T HA HT B LA LT; cbn [mr_square sq]; [apply wp_ret; tauto|].
    rewrite cmp_ok by assumption. cbn [bind]. rewrite cmp3_eq, MW. destruct (Z.compare_spec (mval A) (x - 1)) as [C|C|C]; destruct (Z.eqb_spec (mval A) (x - 1)) as [Q|Q]; try lia; [apply wp_ret; tauto | ].
    eapply wp_bind; [apply (mul_ok false false); [exact HT | exact HA | exact HA | discriminate | discriminate | unfold mlen, zlen; lia]|].
    cbv beta. intros T1 (OT1 & MT1 & _ & LT1). pose proof (sig_le (mp A)) as SA.
    eapply wp_bind; [apply (mod_ok false); [exact HA | exact OT1 | exact HX | discriminate | unfold x in *; lia | | | ]; unfold mlen, zlen; fold n; lia|].
    cbv beta. intros A1 (O1 & M1 & L1 & _). fold n in L1. fold x in M1. rewrite MT1 in M1. rewrite cmp_int_ok by (assumption || lia). cbn [bind]. rewrite cmp3_eq. rewrite M1 in *. cbv zeta.
    destruct (Z.compare_spec ((mval A * mval A) mod x) 1) as [D|D|D]; destruct (Z.eqb_spec ((mval A * mval A) mod x) 1) as [Q1|Q1]; try lia; [apply wp_ret; split; [exact O1|]; split; [lia | congruence] | | ].
    all: rewrite <- M1; apply IH; try assumption; try lia; rewrite M1; apply Z.mod_pos_bound; unfold x; lia.
  Qed.
  Context (R : mpi) (s : Z).
  Hypothesis HR : mpi_ok R. Hypothesis OR : Z.odd (mval R) = true. Hypothesis PR : 0 <= mval R. Hypothesis PS : 0 < s. Hypothesis ES : x - 1 = mval R * 2 ^ s.
  Lemma test_limb A RR : mpi_ok A -> ms A = 1 -> (1 <= length (mp A) <= n + 1)%nat -> rr_ok X (Some RR) ->
    wp (mr_test X W R A l_init RR s) (fun r => mpi_ok (fst (fst r)) /\ (length (mp (fst (fst r))) <= n + 1)%nat /\ rr_ok X (Some (snd (fst r))) /\
      (snd r = true <-> strong_probable_prime x (mval A))).
  Proof using All.
    intros HA SA LA HRR. pose proof n_pos as N1. unfold mr_test.
    eapply wp_bind; [apply (exp_mod_ok true A A R X (Some RR)); try assumption; [intros _; reflexivity | now left | lia | | | ]; unfold mlen, zlen; fold n; lia|].
    cbv beta. intros [A1 rr] (O1 & M1 & L1 & RR1). cbn [fst snd] in *. unfold mlen, zlen in L1. fold n in L1.
    destruct rr as [RR'|]; cbn [rr_new] in RR1; [|contradiction]. assert (rr_ok X (Some RR')) as HRR' by (cbn [rr_ok]; tauto).
    assert (mval A1 = mval A ^ mval R mod x) as M1'. { rewrite M1. unfold exp_spec. rewrite SA. cbn [Z.eqb Z.opp andb]. unfold mval at 3. rewrite SA, Z.mul_1_l. reflexivity. }
    pose proof (Z.mod_pos_bound (mval A ^ mval R) x ltac:(unfold x; lia)) as B1. rewrite <- M1' in B1.
    pose proof (test_ok x (mval R) s (mval A) ltac:(unfold x; lia) PR PS OR ES) as TO. unfold test in TO. cbv zeta in TO. rewrite <- M1' in TO.
    rewrite cmp_ok by assumption. cbn [bind]. rewrite cmp3_eq, MW.
    set (ok1 := (mval A1 =? x - 1) || (mval A1 =? 1)) in TO.
    replace (if match mval A1 ?= x - 1 with Eq => true | _ => false end then Ok true else c2 <- l_cmp_int A1 1;; Ok (c2 =? 0)) with (Ok ok1).
    2: { unfold ok1. rewrite cmp_int_ok by (assumption || lia). cbn [bind]. rewrite cmp3_eq. clear. destruct (Z.compare_spec (mval A1) (x - 1)), (Z.eqb_spec (mval A1) (x - 1)), (Z.compare_spec (mval A1) 1), (Z.eqb_spec (mval A1) 1); try lia; reflexivity. }
    cbn [bind]. clearbody ok1. destruct ok1.
    { apply wp_ret. cbn [fst snd]. split; [exact O1|]. split; [lia|]. split; [exact HRR' | tauto]. }
    eapply wp_bind; [apply square_ok; [exact O1 | exact init_ok | exact B1 | lia | cbn; lia]|]. cbv beta. intros A2 (O2 & L2 & M2).
    rewrite cmp_ok by assumption. cbn [bind]. rewrite cmp3_eq, MW.
    set (g := (mval A2 =? x - 1) && negb (mval A2 =? 1)).
    replace (if negb match mval A2 ?= x - 1 with Eq => true | _ => false end then Ok true else c2 <- l_cmp_int A2 1;; Ok (c2 =? 0)) with (Ok (negb g)).
    2: { unfold g. rewrite cmp_int_ok by (assumption || lia). cbn [bind]. rewrite cmp3_eq. clear. destruct (Z.compare_spec (mval A2) (x - 1)), (Z.eqb_spec (mval A2) (x - 1)), (Z.compare_spec (mval A2) 1), (Z.eqb_spec (mval A2) 1); try lia; reflexivity. }
    cbn [bind]. apply wp_ret. cbn [fst snd]. rewrite negb_involutive. split; [exact O2|]. split; [exact L2|]. split; [exact HRR'|]. unfold g. rewrite M2. exact TO.
  Qed.
  Definition rejected c c' e := rng_fails f sz c c' e \/
    (e = ERR_MPI_NOT_ACCEPTABLE /\ (rng_stuck f sz c c' x \/ exists a, 1 < a < x - 1 /\ ~ strong_probable_prime x a)).
  Lemma loop_ok k : forall A RR c, mpi_ok A -> (length (mp A) <= n + 1)%nat -> rr_ok X (Some RR) ->
    rwp (mr_loop f k X W R A RR s) c (fun r c' => (c <= c')%nat /\ match r with inl e => rejected c c' e | inr _ => passed f sz c c' k x end).
  Proof using All.
    induction k as [|k IH]; intros A RR c HA LA HRR; cbn [mr_loop].
    { apply rwp_ret. split; [lia|]. exists []. repeat split; constructor. }
    eapply rwp_bind; [apply first_ok; assumption| |]; cbv beta.
    { intros e c' [-> E]. split; [lia|]. left. exists c. split; [lia | exact E]. }
    intros A1 c1 (-> & O1 & L1). eapply rwp_bind; [apply (draw_ok 31 A1 (S c) O1 L1)| |]; cbv beta.
    { intros e c' [C H]. split; [lia|]. destruct H as [(i & I & E) | (-> & C3 & H)]; [left; exists i; split; [lia | exact E]|].
      right. split; [reflexivity|]. left. exists (S c). split; [lia|]. split; [lia|]. exact H. }
    intros A2 c2 (C2 & O2 & S2 & L2 & B2 & BD). eapply rwp_lift; [apply test_limb; assumption|]. intros [[A3 RR3] pass] (O3 & L3 & HRR3 & T). cbn [fst snd] in *.
    destruct pass.
    - eapply rwp_mono; [apply (IH A3 RR3 c2 O3 L3 HRR3)|]. cbv beta. intros r c' [C' H]. split; [lia|]. destruct r as [e|u].
      + destruct H as [(i & I & E) | (-> & H)]; [left; exists i; split; [lia | exact E]|]. right. split; [reflexivity|]. destruct H as [(i & I1 & I2 & H) | H]; [left | now right]. exists i. split; [lia|]. split; [lia | exact H].
      + destruct H as (is & LI & ND & F). exists ((c2 - 1)%nat :: is). split; [cbn; lia|]. split.
        * constructor; [|exact ND]. intros I. rewrite Forall_forall in F. specialize (F _ I). lia.
        * constructor.
          -- split; [lia|]. exists (mval A2). split; [exact BD|]. split; [exact B2 | now apply T].
          -- eapply Forall_impl; [|exact F]. cbv beta. intros i (I & H). split; [lia | exact H].
    - apply rwp_err. split; [lia|]. right. split; [reflexivity|]. right. exists (mval A2). split; [exact B2|]. intros Q. apply T in Q. discriminate.
  Qed.
End MR.
