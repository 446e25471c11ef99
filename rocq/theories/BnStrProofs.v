(** Reading texts *)
From Coq Require Import Lia.
From Verif Require Import Base BaseFacts MpiModel LimbModel LimbSpec LimbProofs LimbProofs2 LimbProofs3 LimbProofs4 LimbProofs5 LimbProofs6 LimbProofs7 LimbProofs8 LimbProofs19 BnStrModel BnStrSpec.

(** * Digits *)
Definition dig (radix c : Z) : option Z :=
  let d := if (48 <=? c) && (c <=? 57) then c - 48 else if (65 <=? c) && (c <=? 70) then c - 55 else if (97 <=? c) && (c <=? 102) then c - 87 else 255 in
  if d <? radix then Some d else None.
Ltac zb := repeat (match goal with |- context [?a <=? ?b] => destruct (Z.leb_spec a b) | |- context [?a <? ?b] => destruct (Z.ltb_spec a b) end; cbn [andb]).
Lemma get_digit_ok radix c : 2 <= radix <= 16 -> get_digit radix c = match dig radix c with Some d => ret d | None => err ERR_MPI_INVALID_CHARACTER end.
Proof.
  intros R. unfold get_digit, dig. cbv zeta. change 0x30 with 48. change 0x39 with 57. change 0x41 with 65. change 0x46 with 70. change 0x61 with 97. change 0x66 with 102. change 0x37 with 55. change 0x57 with 87.
  destruct (Z.leb_spec 48 c), (Z.leb_spec c 57), (Z.leb_spec 65 c), (Z.leb_spec c 70), (Z.leb_spec 97 c), (Z.leb_spec c 102); cbn [andb]; try lia.
  all: match goal with |- context [?r <=? ?d] => destruct (Z.leb_spec r d), (Z.ltb_spec d r) end; lia || reflexivity.
Qed.
Lemma dig_iff radix c d : 2 <= radix <= 16 -> dig radix c = Some d <-> digit radix c d.
Proof.
  intros R. unfold dig, digit. cbv zeta.
  destruct (Z.leb_spec 48 c), (Z.leb_spec c 57), (Z.leb_spec 65 c), (Z.leb_spec c 70), (Z.leb_spec 97 c), (Z.leb_spec c 102); cbn [andb]; try lia.
  all: match goal with |- context [?d <? ?r] => destruct (Z.ltb_spec d r) end; split; intros Q; try discriminate; try lia.
  all: try (injection Q as <-; lia). all: f_equal; lia.
Qed.
Lemma digit_minus radix d : ~ digit radix 45 d.
Proof. unfold digit. lia. Qed.
Lemma digit_range radix c d : digit radix c d -> 0 <= d < radix. Proof. intros H. apply H. Qed.
(** The value of a text, if all its characters are digits *)
Fixpoint parse (radix : Z) (acc : Z) (cs : bytes) : option Z :=
  match cs with [] => Some acc | c :: cs => match dig radix c with Some d => parse radix (acc * radix + d) cs | None => None end end.
Lemma parse_app radix acc a b : parse radix acc (a ++ b) = match parse radix acc a with Some v => parse radix v b | None => None end.
Proof. revert acc. induction a as [|c a IH]; intros acc; [reflexivity|]. cbn [parse app]. destruct (dig radix c); [apply IH | reflexivity]. Qed.
Lemma parse_digits radix cs v : 2 <= radix <= 16 -> parse radix 0 cs = Some v <-> digits radix cs v.
Proof.
  intros R. revert v. induction cs as [|c cs IH] using rev_ind; intros v.
  - cbn. split; [intros [= <-]; constructor|]. intros H. inversion H as [|x ? ? ? ? ? E]; [reflexivity | destruct x; discriminate].
  - rewrite parse_app. split.
    + destruct (parse radix 0 cs) as [w|]; [|discriminate]. cbn [parse]. destruct (dig radix c) as [d|] eqn:D; [|discriminate]. intros [= <-]. apply dig_iff in D; [|exact R]. constructor; [now apply IH | exact D].
    + intros H. inversion H as [E1 E2 | x w c' d H1 H2 E1 E2]; [destruct cs; discriminate|]. apply app_inj_tail in E1. destruct E1 as [-> ->].
      apply IH in H1. rewrite H1. cbn [parse]. apply (dig_iff radix c d R) in H2. now rewrite H2.
Qed.
Lemma parse_range radix cs acc v : 2 <= radix <= 16 -> 0 <= acc -> parse radix acc cs = Some v -> acc * radix ^ zlen cs <= v < (acc + 1) * radix ^ zlen cs.
Proof.
  intros R. revert acc. induction cs as [|c cs IH]; intros acc A; cbn [parse].
  - intros [= <-]. unfold zlen. cbn [length Z.of_nat]. rewrite Z.pow_0_r. lia.
  - destruct (dig radix c) as [d|] eqn:D; [|discriminate]. apply dig_iff in D; [|exact R]. apply digit_range in D. intros H. apply IH in H; [|nia].
    rewrite zlen_cons. replace (1 + zlen cs) with (Z.succ (zlen cs)) by lia. rewrite Z.pow_succ_r by apply zlen_nonneg. pose proof (Z.pow_pos_nonneg radix (zlen cs) ltac:(lia) (zlen_nonneg cs)) as P. set (q := radix ^ zlen cs) in *. clearbody q. clear IH. nia.
Qed.

(** * A radix other than 16 *)
Lemma mul_sign2 X A B R : l_mul false false X A B = ret R -> ms R = ms A * ms B.
Proof.
  unfold l_mul. cbn [bindr ret bind]. intros H. apply bindr_inv in H. destruct H as (X1 & _ & H). apply bindr_inv in H. destruct H as (X2 & _ & H). apply bind_inv in H. destruct H as (p & _ & H).
  apply ret_inj in H. now subst R.
Qed.
Lemma add_same_sign X A B R : ms A = 1 -> ms B = 1 -> l_add false false X A B = ret R -> ms R = 1.
Proof. intros S1 S2 H. unfold l_add in H. rewrite S1, S2 in H. cbn in H. apply bindr_inv in H. destruct H as (X1 & _ & H). apply ret_inj in H. now subst. Qed.
Lemma sub_other_sign X A B R : ms A = -1 -> ms B = 1 -> l_sub false false X A B = ret R -> ms R = -1.
Proof. intros S1 S2 H. unfold l_sub in H. rewrite S1, S2 in H. cbn in H. apply bindr_inv in H. destruct H as (X1 & _ & H). apply ret_inj in H. now subst. Qed.

(** One digit: the magnitude v becomes v * radix + d, the sign stays *)
Definition small_text : Z := 6250.
Lemma read_digit_ok radix d X T N : 2 <= radix <= 16 -> 0 <= d < radix -> mpi_ok X -> mpi_ok T -> 6252 <= N < 9999 -> mlen X <= N -> mlen T <= N -> lval (mp X) * radix + d < LB ^ 6250 ->
  wp (T <-? l_mul_int false T X radix ;; X <-? (if ms X =? 1 then l_add_int false X T d else l_sub_int false X T d) ;; ret (X, T))
    (fun r => let '(X', T') := r in mpi_ok X' /\ mpi_ok T' /\ ms X' = ms X /\ lval (mp X') = lval (mp X) * radix + d /\ mlen X' <= N /\ mlen T' <= N).
Proof.
  intros R D HX HT HN LX LT BV. unfold l_mul_int. pose proof (lval_nonneg _ (proj2 HX)) as PX.
  assert (u64 radix = radix) as UR by (unfold u64; apply Z.mod_small; lia). rewrite UR.
  assert (mpi_ok (MkMpi 1 [radix])) as HB by (split; [now left|]; constructor; [unfold is_limb, LB; cbn [ms mp]; lia | constructor]).
  assert (Z.of_nat (sig (mp X)) <= 6250) as SX.
  { apply zsig; [exact HX | lia|]. rewrite mval_abs by exact HX. nia. }
  assert (mlen (MkMpi 1 [radix]) = 1) as L1 by reflexivity.
  eapply wp_bind.
  { destruct (s_mul false false T X (MkMpi 1 [radix]) HT HX HB ltac:(discriminate) ltac:(discriminate) ltac:(lia)) as (T1 & E1 & O1 & M1 & Q1 & _).
    exists T1. split; [exact E1|]. apply mul_sign2 in E1. cbn [ms] in E1. exact (conj O1 (conj M1 (conj Q1 E1))). }
  cbv beta. intros T1 (O1 & M1 & Q1 & S1). assert (sig [radix] = 1%nat) as SR by (cbn [sig]; destruct (Z.eqb_spec radix 0); [lia | reflexivity]). cbn [mp] in Q1. rewrite SR in Q1.
  assert (mlen T1 <= N) as LT1 by lia. rewrite Z.mul_1_r in S1.
  assert (mval (MkMpi 1 [radix]) = radix) as VR by (unfold mval; cbn [ms mp lval]; lia). rewrite VR in M1.
  assert (- 2 ^ 63 < d < 2 ^ 63) as DB by lia.
  unfold l_add_int, l_sub_int. unfold l_sint. destruct (sint_abs_ok d DB) as [-> HL]. cbn [bind].
  assert (sint_sgn d = 1) as -> by (unfold sint_sgn; destruct (Z.ltb_spec d 0); lia). rewrite Z.abs_eq in HL |- * by lia.
  assert (mpi_ok (MkMpi 1 [d])) as HD by (split; [now left|]; constructor; [exact HL | constructor]).
  assert (mval (MkMpi 1 [d]) = d) as VD by (unfold mval; cbn [ms mp lval]; lia).
  assert (mlen (MkMpi 1 [d]) = 1) as L2 by reflexivity.
  assert (forall R, mpi_ok R -> lval (mp R) = lval (mp X) * radix + d -> (length (mp R) <= Nat.max (sig (mp R)) (Nat.max (length (mp X)) (Nat.max (length (mp T1)) (length [d]))))%nat -> mlen R <= N) as LEN.
  { intros Y OY VY LY. assert (Z.of_nat (sig (mp Y)) <= 6250) by (apply zsig; [exact OY | lia|]; rewrite mval_abs, VY by exact OY; exact BV). cbn [length] in LY. unfold mlen, zlen in *. lia. }
  destruct HX as [[SX1|SX1] FX]; rewrite SX1; cbn [Z.eqb Pos.eqb].
  - change (1 =? 1) with true. cbv iota. eapply wp_bind.
    { destruct (add_ok false false X T1 (MkMpi 1 [d]) (conj (or_introl SX1) FX) O1 HD ltac:(discriminate) ltac:(discriminate) ltac:(lia) ltac:(lia) ltac:(lia)) as (Y & E & OY & MY & LY & _).
      exists Y. split; [exact E|]. apply add_same_sign in E; [|rewrite S1; exact SX1 | reflexivity]. exact (conj OY (conj MY (conj LY E))). }
    cbv beta. intros Y (OY & MY & LY & SY). apply wp_ret. cbn [mp] in LY.
    assert (lval (mp Y) = lval (mp X) * radix + d) as VY. { rewrite VD, M1 in MY. unfold mval in MY. rewrite SY, SX1 in MY. lia. }
    split; [exact OY|]. split; [exact O1|]. split; [exact SY|]. split; [exact VY|]. split; [now apply LEN | exact LT1].
  - change (-1 =? 1) with false. cbv iota. eapply wp_bind.
    { destruct (sub_ok false false X T1 (MkMpi 1 [d]) (conj (or_intror SX1) FX) O1 HD ltac:(discriminate) ltac:(discriminate) ltac:(lia) ltac:(lia) ltac:(lia)) as (Y & E & OY & MY & LY & _).
      exists Y. split; [exact E|]. apply sub_other_sign in E; [|rewrite S1; exact SX1 | reflexivity]. exact (conj OY (conj MY (conj LY E))). }
    cbv beta. intros Y (OY & MY & LY & SY). apply wp_ret. cbn [mp] in LY.
    assert (lval (mp Y) = lval (mp X) * radix + d) as VY. { rewrite VD, M1 in MY. unfold mval in MY. rewrite SY, SX1 in MY. lia. }
    split; [exact OY|]. split; [exact O1|]. split; [exact SY|]. split; [exact VY|]. split; [now apply LEN | exact LT1].
Qed.
Lemma read_digits_ok radix cs N : 2 <= radix <= 16 -> 6252 <= N < 9999 -> forall X T, mpi_ok X -> mpi_ok T -> mlen X <= N -> mlen T <= N ->
  (lval (mp X) + 1) * radix ^ zlen cs <= LB ^ 6250 ->
  match parse radix (lval (mp X)) cs with
  | Some v => exists Y, read_digits radix false cs X T = ret Y /\ mpi_ok Y /\ ms Y = ms X /\ lval (mp Y) = v
  | None => read_digits radix false cs X T = err ERR_MPI_INVALID_CHARACTER
  end.
Proof.
  intros R HN. induction cs as [|c cs IH]; intros X T HX HT LX LT B.
  - cbn [parse read_digits]. exists X. repeat split; apply HX.
  - cbn [parse read_digits andb]. rewrite get_digit_ok by exact R. destruct (dig radix c) as [d|] eqn:D; [|reflexivity].
    apply dig_iff in D; [|exact R]. apply digit_range in D.
    change (bindr (ret d)) with (fun f : (Z -> res mpi) => f d). cbv beta.
    assert (zlen (c :: cs) = Z.succ (zlen cs)) as ZL by (rewrite zlen_cons; lia). rewrite ZL, Z.pow_succ_r in B by apply zlen_nonneg.
    pose proof (Z.pow_pos_nonneg radix (zlen cs) ltac:(lia) (zlen_nonneg cs)) as P. pose proof (lval_nonneg _ (proj2 HX)) as PX.
    assert ((lval (mp X) * radix + d + 1) * radix ^ zlen cs <= LB ^ 6250) as B2. { set (q := radix ^ zlen cs) in *. set (M := LB ^ 6250) in *. clearbody q M. clear - B P PX D R. nia. }
    assert (lval (mp X) * radix + d < LB ^ 6250) as B3. { set (q := radix ^ zlen cs) in *. set (M := LB ^ 6250) in *. clearbody q M. clear - B2 P PX D R. nia. }
    destruct (read_digit_ok radix d X T N R D HX HT HN LX LT B3) as ([X' T'] & E & OX & OT & SX & VX & LX' & LT').
    apply bindr_inv in E. destruct E as (T1 & E1 & E). apply bindr_inv in E. destruct E as (X1 & E2 & E). apply ret_inj in E. injection E as <- <-.
    rewrite E1. change (bindr (ret T1)) with (fun f : (mpi -> res mpi) => f T1). cbv beta. rewrite E2. change (bindr (ret X1)) with (fun f : (mpi -> res mpi) => f X1). cbv beta.
    specialize (IH X1 T1 OX OT LX' LT'). rewrite VX, SX in IH. exact (IH B2).
Qed.

(** * Radix 16 *)
Lemma p16 n : 16 ^ n = 2 ^ (4 * n). Proof. change 16 with (2 ^ 4). destruct (Z_lt_ge_dec n 0); [|rewrite <- Z.pow_mul_r by lia; reflexivity]. rewrite !Z.pow_neg_r by lia. reflexivity. Qed.
Lemma nibble_pos j : 16 ^ Z.of_nat j = LB ^ Z.of_nat (j / 16) * 2 ^ (4 * Z.of_nat (j mod 16)).
Proof.
  rewrite p16, LB_two, <- Z.pow_add_r by lia. f_equal. pose proof (Nat.div_mod j 16 ltac:(lia)). lia.
Qed.
Fixpoint hexval (rs : bytes) : option Z :=
  match rs with [] => Some 0 | c :: rs => match dig 16 c with Some d => match hexval rs with Some v => Some (d + 16 * v) | None => None end | None => None end end.
Lemma hexval_app a b : hexval (a ++ b) = match hexval a with Some x => match hexval b with Some y => Some (x + 16 ^ zlen a * y) | None => None end | None => None end.
Proof.
  induction a as [|c a IH]; cbn [app hexval].
  - destruct (hexval b); [|reflexivity]. unfold zlen. cbn. f_equal. lia.
  - rewrite IH. destruct (dig 16 c); [|reflexivity]. destruct (hexval a); [|reflexivity]. destruct (hexval b); [|reflexivity].
    f_equal. rewrite zlen_cons. replace (1 + zlen a) with (Z.succ (zlen a)) by lia. rewrite Z.pow_succ_r by apply zlen_nonneg. ring.
Qed.
Lemma hexval_parse cs : hexval (rev cs) = parse 16 0 cs.
Proof.
  induction cs as [|c cs IH] using rev_ind; [reflexivity|]. rewrite rev_app_distr, parse_app. cbn [rev app hexval parse]. rewrite IH.
  destruct (parse 16 0 cs) as [w|]; destruct (dig 16 c); try reflexivity. f_equal. ring.
Qed.
Lemma lor_nibble p j d : Forall is_limb p -> (j < 16 * length p)%nat -> lval p < 16 ^ Z.of_nat j -> 0 <= d < 16 ->
  wpo (x <- lnth p (j / 16) ;; lupd p (j / 16) (Z.lor x (u64 (Z.shiftl d (4 * Z.of_nat (j mod 16)))))) (fun r => Forall is_limb r /\ length r = length p /\ lval r = lval p + 16 ^ Z.of_nat j * d).
Proof.
  intros Hp L V Hb. assert (j / 16 < length p)%nat as LJ by (apply Nat.div_lt_upper_bound; lia).
  rewrite (lnth_ok _ _ 0) by exact LJ. cbn [bind].
  pose proof (Nat.mod_upper_bound j 16 ltac:(lia)) as MJ. set (t := 4 * Z.of_nat (j mod 16)) in *.
  assert (0 <= t <= 60) as Ht by lia. rewrite (nibble_pos j) in V |- *. fold t in V |- *.
  set (k := (j / 16)%nat) in *. set (x := nth k p 0).
  pose proof (Z.pow_pos_nonneg 2 t ltac:(lia) ltac:(lia)) as PT. pose proof (LB_pow k) as PK.
  assert (0 <= x < 2 ^ t) as BX.
  { pose proof (nth_limb p k Hp) as N. fold x in N. unfold is_limb in N. split; [lia|].
    pose proof (lval_split k p) as E. rewrite firstn_length, Nat.min_l, (nth_skipn_lval p k LJ) in E by lia. fold x in E.
    pose proof (lval_nonneg _ (Forall_firstn' _ k _ Hp)). pose proof (lval_nonneg _ (Forall_skipn' _ (S k) _ Hp)). pose proof LB_pos.
    apply (Z.mul_lt_mono_pos_l (LB ^ Z.of_nat k)); [exact PK|]. clear - E V H H0 PK H1. nia. }
  assert (0 <= d * 2 ^ t < LB) as BB.
  { split; [nia|]. rewrite (LB_split t ltac:(lia)). assert (16 <= 2 ^ (64 - t)). { change 16 with (2 ^ 4). apply Z.pow_le_mono_r; lia. } nia. }
  assert (Z.lor x (u64 (Z.shiftl d t)) = x + d * 2 ^ t) as ->.
  { rewrite Z.shiftl_mul_pow2, u64_limb by (lia || exact BB). rewrite Z.lor_comm, lor_add by lia. lia. }
  assert (is_limb (x + d * 2 ^ t)) as LX.
  { unfold is_limb. split; [lia|]. rewrite (LB_split t ltac:(lia)). assert (2 ^ 4 <= 2 ^ (64 - t)) as G by (apply Z.pow_le_mono_r; lia). change (2 ^ 4) with 16 in G. nia. }
  eapply wpo_mono; [apply lupd_wp; [exact LJ | exact Hp | exact LX]|]. intros p' (F & L' & V'). fold x in V'.
  replace (x + d * 2 ^ t - x) with (d * 2 ^ t) in V' by lia. split; [exact F|]. split; [exact L'|]. rewrite V'. ring.
Qed.
