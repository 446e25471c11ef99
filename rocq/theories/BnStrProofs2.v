(** Reading texts: the whole function *)
From Coq Require Import Lia.
From Verif Require Import Base BaseFacts MpiModel LimbModel LimbSpec LimbProofs LimbProofs2 LimbProofs3 LimbProofs4 LimbProofs5 LimbProofs6 LimbProofs7 LimbProofs8 LimbProofs19 BnStrModel BnStrSpec BnStrProofs.

Lemma ret_bindr {A B} (a : A) (f : A -> res B) : bindr (ret a) f = f a. Proof. reflexivity. Qed.
Lemma err_bindr {A B} e (f : A -> res B) : bindr (err e) f = err e. Proof. reflexivity. Qed.
(** One character *)
Lemma hex_step c rs j X : mpi_ok X -> (j < 16 * length (mp X))%nat -> lval (mp X) < 16 ^ Z.of_nat j ->
  match rs with [] => c <> 45 | _ => True end ->
  match dig 16 c with
  | Some d => exists X', read_hex (c :: rs) j X = read_hex rs (S j) X' /\ mpi_ok X' /\ ms X' = ms X /\ length (mp X') = length (mp X) /\ lval (mp X') = lval (mp X) + 16 ^ Z.of_nat j * d /\ 0 <= d < 16
  | None => read_hex (c :: rs) j X = err ERR_MPI_INVALID_CHARACTER
  end.
Proof.
  intros HX L V NM. cbn [read_hex].
  assert (match rs with [] => c =? MINUS | _ => false end = false) as -> by (destruct rs; [unfold MINUS; now apply Z.eqb_neq | reflexivity]).
  rewrite get_digit_ok by lia. destruct (dig 16 c) as [d|] eqn:D; [|reflexivity]. apply dig_iff in D; [|lia]. apply digit_range in D.
  rewrite ret_bindr. destruct (lor_nibble (mp X) j d (proj2 HX) L V D) as (p & E & F & L' & V').
  destruct (lnth (mp X) (j / 16)) as [x| | | |]; try discriminate E. cbn [bind] in E |- *. rewrite E. cbn [bind].
  exists (MkMpi (ms X) p). cbn [ms mp]. split; [reflexivity|]. split; [split; [apply HX | exact F]|]. auto.
Qed.
Lemma read_hex_ok (rs : bytes) (sgn : bool) : forall j X, mpi_ok X -> (j + length rs <= 16 * length (mp X))%nat -> lval (mp X) < 16 ^ Z.of_nat j ->
  (if sgn then True else forall r, rs <> r ++ [45]) ->
  match hexval rs with
  | Some v => exists Y, read_hex (rs ++ (if sgn then [45] else [])) j X = ret Y /\ mpi_ok Y /\ ms Y = (if sgn then -1 else ms X) /\ lval (mp Y) = lval (mp X) + 16 ^ Z.of_nat j * v
  | None => read_hex (rs ++ (if sgn then [45] else [])) j X = err ERR_MPI_INVALID_CHARACTER
  end.
Proof.
  induction rs as [|c rs IH]; intros j X HX L V NM.
  - cbn [hexval app]. destruct sgn.
    + cbn [read_hex]. exists (with_s X (-1)). split; [reflexivity|]. split; [split; [now right | apply HX]|]. split; [reflexivity|]. cbn [mp with_s]. lia.
    + exists X. split; [reflexivity|]. split; [exact HX|]. split; [reflexivity | lia].
  - cbn [length] in L. rewrite <- app_comm_cons. cbn [hexval].
    assert (match rs ++ (if sgn then [45] else []) with [] => c <> 45 | _ => True end) as NC.
    { destruct sgn; [destruct rs; exact I|]. rewrite app_nil_r. destruct rs; [|exact I]. intros ->. apply (NM []). reflexivity. }
    pose proof (hex_step c (rs ++ (if sgn then [45] else [])) j X HX ltac:(lia) V NC) as ST.
    destruct (dig 16 c) as [d|]; [|exact ST]. destruct ST as (X' & -> & O & S1 & L' & V' & D).
    assert (16 ^ Z.of_nat (S j) = 16 * 16 ^ Z.of_nat j) as PS by (rewrite Nat2Z.inj_succ, Z.pow_succ_r by lia; reflexivity).
    assert (0 <= lval (mp X)) as PX by (apply lval_nonneg, HX).
    specialize (IH (S j) X' O ltac:(lia)). rewrite PS, V' in IH. specialize (IH ltac:(nia)).
    assert (if sgn then True else forall r, rs <> r ++ [45]) as NM'. { destruct sgn; [exact I|]. intros r ->. apply (NM (c :: r)). reflexivity. }
    specialize (IH NM'). destruct (hexval rs) as [v|]; [|exact IH]. destruct IH as (Y & E & OY & SY & VY). exists Y. split; [exact E|]. split; [exact OY|]. split; [destruct sgn; congruence|]. rewrite VY. ring.
Qed.

Lemma rev_not_minus (s : bytes) : (forall cs, s <> 45 :: cs) -> forall r, rev s <> r ++ [45].
Proof. intros H r E. apply (H (rev r)). rewrite <- (rev_involutive s), E, rev_app_distr. reflexivity. Qed.
(** A text is a number exactly if what follows the sign can be parsed *)
Lemma numeral_minus radix cs v : 2 <= radix <= 16 -> numeral radix (45 :: cs) v <-> exists m, parse radix 0 cs = Some m /\ v = - m.
Proof.
  intros R. split.
  - intros [H | (cs' & m & E & H & V)].
    + apply parse_digits in H; [|exact R]. cbn [parse] in H. destruct (dig radix 45) as [d|] eqn:D; [|discriminate]. apply dig_iff in D; [|exact R]. now apply digit_minus in D.
    + injection E as <-. exists m. split; [now apply parse_digits | exact V].
  - intros (m & H & V). right. exists cs, m. split; [reflexivity|]. split; [now apply parse_digits | exact V].
Qed.
Lemma numeral_plain radix s v : 2 <= radix <= 16 -> (forall cs, s <> 45 :: cs) -> numeral radix s v <-> parse radix 0 s = Some v.
Proof.
  intros R N. rewrite parse_digits by exact R. split; [|now left]. intros [H | (cs & m & E & _)]; [exact H | now apply N in E].
Qed.
Lemma minus_dec (s : bytes) : (exists cs, s = 45 :: cs) \/ (forall cs, s <> 45 :: cs).
Proof. destruct s as [|c cs]; [right; intros; discriminate|]. destruct (Z.eq_dec c 45) as [-> | N]; [left; now exists cs | right; congruence]. Qed.

Lemma limbs_for s : 0 <= s -> let n := (4 * s) / 64 + bz (negb ((4 * s) mod 64 =? 0)) in s <= 16 * n < s + 16 /\ 0 <= n.
Proof.
  intros H n. unfold n, bz. pose proof (Z.div_mod (4 * s) 64 ltac:(lia)). pose proof (Z.mod_pos_bound (4 * s) 64 ltac:(lia)).
  destruct (Z.eqb_spec ((4 * s) mod 64) 0); cbn [negb]; lia.
Qed.
Lemma read_string_case X radix s : 2 <= radix <= 16 -> mpi_ok X -> mlen X <= 9990 -> zlen s <= max_text radix ->
  exists (neg : bool) cs, s = (if neg then [45] else []) ++ cs /\ (neg = false -> forall r, s <> 45 :: r) /\
  match parse radix 0 cs with
  | Some m => exists Y, l_read_string X radix s = ret Y /\ mpi_ok Y /\ ms Y = (if neg then -1 else 1) /\ lval (mp Y) = m
  | None => l_read_string X radix s = err ERR_MPI_INVALID_CHARACTER
  end.
Proof.
  intros R HX LX LS. unfold l_read_string. destruct (Z.ltb_spec radix 2); [lia|]. destruct (Z.ltb_spec 16 radix); [lia|]. cbn [orb].
  unfold max_text in LS. destruct (Z.eqb_spec radix 16) as [->|N16].
  - cbv zeta. destruct (Z.ltb_spec (2 ^ 62 - 1) (zlen s)); [lia|]. pose proof (limbs_for (zlen s) (zlen_nonneg s)) as [NB N0]. set (n := (4 * zlen s) / 64 + bz (negb ((4 * zlen s) mod 64 =? 0))) in *. clearbody n.
    unfold MPI_MAX_LIMBS. destruct (Z.ltb_spec 10000 n); [lia|].
    destruct (grow_ok X (Z.to_nat n) HX ltac:(lia)) as (X1 & E1 & O1 & _ & _ & L1 & _). rewrite E1, ret_bindr.
    destruct (lset0_ok X1 O1) as (X2 & E2 & O2 & P2 & S2 & V2). rewrite E2, ret_bindr.
    assert (lval (mp X2) = 0) as Z2 by (rewrite P2; apply lval_zeros). assert (length (mp X2) = Nat.max 1 (length (mp X1))) as L2 by (rewrite P2; apply repeat_length).
    assert (length s <= 16 * length (mp X2))%nat as LN by (unfold zlen in *; lia).
    destruct (minus_dec s) as [[cs ->] | NM].
    + exists true, cs. split; [reflexivity|]. split; [discriminate|]. cbn [rev]. rewrite <- hexval_parse.
      pose proof (read_hex_ok (rev cs) true O X2 O2 ltac:(cbn [length] in LN; rewrite rev_length; lia) ltac:(rewrite Z2; cbn; lia) I) as RH. cbv iota in RH.
      destruct (hexval (rev cs)) as [v|]; [|exact RH]. destruct RH as (Y & E & OY & SY & VY). exists Y. split; [exact E|]. split; [exact OY|]. split; [exact SY|]. rewrite VY, Z2. change (16 ^ Z.of_nat 0) with 1. lia.
    + exists false, s. split; [reflexivity|]. split; [intros _; exact NM|]. rewrite <- hexval_parse.
      pose proof (read_hex_ok (rev s) false O X2 O2 ltac:(rewrite rev_length; lia) ltac:(rewrite Z2; cbn; lia) (rev_not_minus s NM)) as RH. cbv iota in RH. rewrite app_nil_r in RH.
      destruct (hexval (rev s)) as [v|]; [|exact RH]. destruct RH as (Y & E & OY & SY & VY). exists Y. split; [exact E|]. split; [exact OY|]. split; [congruence|]. rewrite VY, Z2. change (16 ^ Z.of_nat 0) with 1. lia.
  - destruct (lset0_ok X HX) as (X2 & E2 & O2 & P2 & S2 & V2). rewrite E2, ret_bindr.
    assert (lval (mp X2) = 0) as Z2 by (rewrite P2; apply lval_zeros). assert (length (mp X2) = Nat.max 1 (length (mp X))) as L2 by (rewrite P2; apply repeat_length).
    assert (mlen X2 <= 9991) as LX2 by (unfold mlen, zlen in *; lia).
    assert (forall k, 0 <= k <= 100000 -> (0 + 1) * radix ^ k <= LB ^ 6250) as BOUND.
    { intros k K. apply Z.le_trans with (16 ^ k). { rewrite Z.mul_1_l. apply Z.pow_le_mono_l. lia. } rewrite p16. change LB with (2 ^ 64). rewrite <- Z.pow_mul_r by lia. apply Z.pow_le_mono_r; lia. }
    destruct (minus_dec s) as [[cs ->] | NM].
    + exists true, cs. split; [reflexivity|]. split; [discriminate|]. cbn [read_digits andb]. change (45 =? MINUS) with true. cbv iota.
      rewrite zlen_cons in LS. pose proof (zlen_nonneg cs).
      pose proof (read_digits_ok radix cs 9991 R ltac:(lia) (with_s X2 (-1)) l_init (conj (or_intror eq_refl) (proj2 O2)) init_ok LX2 ltac:(discriminate)) as RD. cbn [mp with_s ms] in RD. rewrite Z2 in RD.
      specialize (RD (BOUND (zlen cs) ltac:(lia))). destruct (parse radix 0 cs); exact RD.
    + exists false, s. split; [reflexivity|]. split; [intros _; exact NM|].
      assert (read_digits radix true s X2 l_init = read_digits radix false s X2 l_init) as ->.
      { destruct s as [|c s]; [reflexivity|]. cbn [read_digits andb]. unfold MINUS. destruct (Z.eqb_spec c 45) as [-> | _]; [now specialize (NM s) | reflexivity]. }
      pose proof (read_digits_ok radix s 9991 R ltac:(lia) X2 l_init O2 init_ok LX2 ltac:(discriminate)) as RD. rewrite Z2, S2 in RD.
      specialize (RD (BOUND (zlen s) ltac:(pose proof (zlen_nonneg s); lia))). exact RD.
Qed.
Lemma read_string_numeral X radix s v : 2 <= radix <= 16 -> mpi_ok X -> mlen X <= 9990 -> zlen s <= max_text radix -> numeral radix s v ->
  exists Y, l_read_string X radix s = ret Y /\ mpi_ok Y /\ mval Y = v.
Proof.
  intros R HX LX LS NV. destruct (read_string_case X radix s R HX LX LS) as ([|] & cs & E & NM & H); cbn [app] in E; subst s.
  - apply numeral_minus in NV; [|exact R]. destruct NV as (m & P & ->). rewrite P in H. destruct H as (Y & EY & OY & SY & VY). exists Y. split; [exact EY|]. split; [exact OY|]. unfold mval. rewrite SY, VY. lia.
  - apply numeral_plain in NV; [|exact R | apply NM; reflexivity]. rewrite NV in H. destruct H as (Y & EY & OY & SY & VY). exists Y. split; [exact EY|]. split; [exact OY|]. unfold mval. rewrite SY, VY. lia.
Qed.
Lemma read_string_other X radix s : 2 <= radix <= 16 -> mpi_ok X -> mlen X <= 9990 -> zlen s <= max_text radix -> (forall v, ~ numeral radix s v) ->
  l_read_string X radix s = err ERR_MPI_INVALID_CHARACTER.
Proof.
  intros R HX LX LS NV. destruct (read_string_case X radix s R HX LX LS) as ([|] & cs & E & NM & H); cbn [app] in E; subst s.
  - destruct (parse radix 0 cs) as [m|] eqn:P; [|exact H]. exfalso. apply (NV (- m)). apply numeral_minus; [exact R|]. now exists m.
  - destruct (parse radix 0 cs) as [m|] eqn:P; [|exact H]. exfalso. apply (NV m). apply numeral_plain; [exact R | apply NM; reflexivity | exact P].
Qed.
Lemma read_string_radix X radix s : radix < 2 \/ 16 < radix -> l_read_string X radix s = err ERR_MPI_BAD_INPUT_DATA.
Proof. intros H. unfold l_read_string. destruct (Z.ltb_spec radix 2); [reflexivity|]. destruct (Z.ltb_spec 16 radix); [reflexivity | lia]. Qed.
Lemma read_string_long X s : 160000 < zlen s < 2 ^ 62 -> l_read_string X 16 s = err ERR_MPI_ALLOC_FAILED.
Proof.
  intros H. unfold l_read_string. cbn [Z.ltb Z.compare Pos.compare Pos.compare_cont orb Z.eqb Pos.eqb]. cbv zeta. destruct (Z.ltb_spec (2 ^ 62 - 1) (zlen s)); [lia|].
  pose proof (limbs_for (zlen s) (zlen_nonneg s)) as [NB N0]. set (n := (4 * zlen s) / 64 + bz (negb ((4 * zlen s) mod 64 =? 0))) in *. clearbody n.
  unfold MPI_MAX_LIMBS. destruct (Z.ltb_spec 10000 n); [reflexivity | lia].
Qed.
