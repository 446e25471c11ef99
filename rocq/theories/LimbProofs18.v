(** Generation of primes; the statements of LimbProperties3.v *)
From Coq Require Import Lia Znumtheory.
From Verif Require Import Base BaseFacts MpiModel MpiProofs LimbModel LimbModel2 LimbSpec LimbSpec2 LimbSpec3 LimbProofs LimbProofs2 LimbProofs3 LimbProofs4 LimbProofs5 LimbProofs6 LimbProofs7 LimbProofs8 LimbProofs9 LimbProofs10 LimbProofs11 LimbProofs12 LimbProofs13 LimbProofs15 LimbProofs16 LimbProofs17.

Lemma useful_ok f sz x c c' e : rng_useful f sz x -> ~ rng_fails f sz c c' e /\ ~ rng_stuck f sz c c' x.
Proof.
  intros [H1 H2]. split.
  - intros (i & _ & E). now apply (H1 i e).
  - intros (i & _ & _ & H). destruct (H2 i) as (j & a & J & (b & E & A) & B). destruct (H j J) as (a' & (b' & E' & A') & B'). apply B'. rewrite E in E'. injection E' as <-. congruence.
Qed.
Section Gen.
  Context (f : rng).
  Hypothesis Hf : rng_ok f.
  Definition found (x0 : Z) (c : nat) (X' : mpi) (c' : nat) : Prop :=
    mpi_ok X' /\ Z.odd (mval X') = true /\ x0 <= mval X' /\ (exists c1, (c <= c1 <= c')%nat /\ l_is_prime f X' c1 = Ok (inr tt, c')) /\
    (rng_good f -> forall y, x0 <= y < mval X' -> Z.odd y = true -> ~ prime y).
  Definition gen_post (x0 : Z) (c : nat) (r : Z + mpi) (c' : nat) : Prop :=
    match r with inr X' => found x0 c X' c' | inl e => e = ERR_MPI_BAD_INPUT_DATA \/ exists sz, rng_fails f sz c c' e end.
  Lemma good_reject X c e c' : rng_good f -> verdict f X c (inl e) c' -> (length (mp X) <= 128)%nat -> 0 < mval X -> e = ERR_MPI_NOT_ACCEPTABLE /\ ~ prime (mval X).
  Proof using Hf.
    intros G V L P. unfold verdict in V. cbv zeta in V. rewrite (Z.abs_eq (mval X)) in V by lia. destruct V as (_ & [V | (NS & [[V _] | (_ & V)])]); [exact V | lia|].
    assert (mp X <> []) as N by (apply nonnil_val; lia). apply len_pos in N.
    destruct (useful_ok f (length (mp X) * 8) (mval X) c c' e (G (length (mp X) * 8)%nat (mval X) ltac:(lia) (proj1 NS))) as [U1 U2]. destruct V as [V | [_ V]]; contradiction.
  Qed.
  Lemma reject_shape X c e c' : rng_good f -> verdict f X c (inl e) c' -> e = ERR_MPI_NOT_ACCEPTABLE -> 0 < mval X -> ~ prime (mval X).
  Proof using Hf.
    intros G V E P. destruct (Nat.le_gt_cases (length (mp X)) 128) as [L|L]; [now apply (good_reject X c e c' G V L P)|].
    unfold verdict in V. cbv zeta in V. rewrite (Z.abs_eq (mval X)) in V by lia. destruct V as (_ & [[_ V] | (NS & [[_ V] | (V & _)])]); [exact V | rewrite E in V; discriminate | lia].
  Qed.
  Lemma gen_loop_ok fuel : forall X c, mpi_ok X -> 0 < mval X -> Z.odd (mval X) = true -> (length (mp X) <= 200)%nat -> mval X + 2 * Z.of_nat fuel < LB ^ 200 ->
    gen_loop fuel f X c = Diverge \/ exists r c', gen_loop fuel f X c = Ok (r, c') /\ (c <= c')%nat /\ gen_post (mval X) c r c'.
  Proof using Hf.
    induction fuel as [|fuel IH]; intros X c HX PX OX LX BX; [now left|]. cbn [gen_loop].
    destruct (is_prime_ok f Hf X c HX ltac:(unfold mlen, zlen; lia)) as (r & c1 & E & V). rewrite E. cbn [bind fst snd]. destruct r as [e|[]].
    - destruct (Z.eqb_spec e ERR_MPI_NOT_ACCEPTABLE) as [Q|Q].
      + destruct (add_two X HX PX ltac:(unfold mlen, zlen; lia)) as (X1 & E1 & O1 & M1 & L1). unfold rm_bind, rm_lift. rewrite E1. cbn [bind fst snd ret].
        assert (sig (mp X1) <= 200)%nat as S1 by (apply sig_abs_bound; [exact O1|]; change (Z.of_nat 200) with 200; rewrite M1; lia).
        destruct (IH X1 c1 O1) as [D | (r & c' & E2 & CC & G)]; [lia | rewrite M1, Z.odd_add, OX; reflexivity | lia | lia | left; exact D|].
        right. exists r, c'. destruct V as [C1 V]. split; [exact E2|]. split; [lia|]. destruct r as [e'|X']; cbn [gen_post] in *.
        * destruct G as [G | (sz & i & I & G)]; [now left | right; exists sz, i; split; [lia | exact G]].
        * destruct G as (O' & OD & LE & (c2 & C2 & E3) & G). split; [exact O'|]. split; [exact OD|]. split; [lia|]. split; [exists c2; split; [lia | exact E3]|].
          intros GD y Y OY. destruct (Z.eq_dec y (mval X)) as [-> | NY]; [apply (reject_shape X c e c1 GD (conj C1 V) Q PX)|].
          assert (y <> mval X + 1) by (intros ->; rewrite Z.odd_add, OX in OY; discriminate). apply G; [exact GD | lia | exact OY].
      + right. exists (inl e), c1. split; [reflexivity|]. destruct V as [C1 V]. split; [exact C1|]. cbn [gen_post]. destruct V as [[V _] | (_ & [[_ V] | (_ & [V | [V _]])])]; [contradiction | now left | right; eexists; exact V | contradiction].
    - right. exists (inr X), c1. split; [reflexivity|]. destruct V as [C1 V]. split; [exact C1|]. split; [exact HX|]. split; [exact OX|]. split; [lia|]. split; [exists c; split; [lia | exact E]|]. intros _ y Y. lia.
  Qed.
  Lemma gen_loop_finds fuel : forall X c p, rng_good f -> mpi_ok X -> 0 < mval X -> Z.odd (mval X) = true -> (length (mp X) <= 128)%nat ->
    prime p -> mval X <= p < mval X + 2 * Z.of_nat fuel -> Z.odd p = true -> p < LB ^ 128 ->
    exists X' c', gen_loop fuel f X c = Ok (inr X', c') /\ mval X' <= p.
  Proof using Hf.
    induction fuel as [|fuel IH]; intros X c p GD HX PX OX LX PP RP OP BP; [lia|]. cbn [gen_loop].
    destruct (is_prime_ok f Hf X c HX ltac:(unfold mlen, zlen; lia)) as (r & c1 & E & V). rewrite E. cbn [bind fst snd]. destruct r as [e|[]]; [|exists X, c1; split; [reflexivity | lia]].
    destruct (good_reject X c e c1 GD V LX PX) as [-> NP]. change (ERR_MPI_NOT_ACCEPTABLE =? ERR_MPI_NOT_ACCEPTABLE) with true. cbv iota.
    assert (mval X <> p) as N1 by (intros <-; contradiction). assert (p <> mval X + 1) as N2 by (intros ->; rewrite Z.odd_add, OX in OP; discriminate).
    destruct (add_two X HX PX ltac:(unfold mlen, zlen; lia)) as (X1 & E1 & O1 & M1 & L1). unfold rm_bind, rm_lift. rewrite E1. cbn [bind fst snd ret].
    assert (sig (mp X1) <= 128)%nat as S1 by (apply sig_abs_bound; [exact O1|]; change (Z.of_nat 128) with 128; rewrite M1; lia).
    apply IH; try assumption; [lia | rewrite M1, Z.odd_add, OX; reflexivity | lia | lia].
  Qed.
End Gen.

Lemma lor1 x : 0 <= x -> Z.lor x 1 = x + (if Z.odd x then 0 else 1) /\ Z.odd (Z.lor x 1) = true.
Proof.
  intros X. split; [|rewrite <- Z.bit0_odd, Z.lor_spec; apply orb_true_r]. destruct (Z.odd x) eqn:O.
  - rewrite Z.add_0_r. apply Z.bits_inj'. intros n N. rewrite Z.lor_spec. destruct (Z.eq_dec n 0) as [->|]; [rewrite Z.bit0_odd, O; reflexivity|].
    replace (Z.testbit 1 n) with false; [apply orb_false_r|]. symmetry. apply Z.bits_above_log2; [lia|]. change (Z.log2 1) with 0. lia.
  - assert (Z.land x 1 = 0) as L. { change 1 with (Z.ones 1). rewrite Z.land_ones by lia. change (2 ^ 1) with 2. rewrite Zmod_odd, O. reflexivity. }
    rewrite <- Z.lxor_lor by exact L. symmetry. now apply Z.add_nocarry_lxor.
Qed.
Lemma setbit_len X pos R : 0 <= pos < 640000 -> mpi_ok X -> l_set_bit X pos 1 = ret R -> (length (mp R) <= Nat.max (length (mp X)) (Z.to_nat (pos / 64 + 1)))%nat.
Proof.
  intros P HX. unfold l_set_bit. cbv zeta. cbn [negb andb Z.eqb]. change (1 =? 0) with false. rewrite andb_false_r.
  assert (0 <= pos / 64 < 10000) as B by (split; [apply Z.div_pos; lia | apply Z.div_lt_upper_bound; lia]).
  assert (wp (if zlen (mp X) * 64 <=? pos then if MPI_MAX_LIMBS <? pos / 64 + 1 then err ERR_MPI_ALLOC_FAILED else l_grow X (Z.to_nat (pos / 64 + 1)) else ret X)
    (fun Y => (length (mp Y) <= Nat.max (length (mp X)) (Z.to_nat (pos / 64 + 1)))%nat)) as (Y & E & L).
  { destruct (zlen (mp X) * 64 <=? pos); [|apply wp_ret; lia]. unfold MPI_MAX_LIMBS. destruct (Z.ltb_spec 10000 (pos / 64 + 1)); [lia|]. eapply wp_mono; [apply grow_ok; [exact HX | lia]|]. cbv beta. intros Y (_ & _ & _ & L & _). lia. }
  change (negb (1 =? 0) && negb true) with false. cbv iota. cbn [negb]. cbv iota. cbn [Z.eqb Pos.eqb negb andb]. cbv iota. rewrite E. cbn [bindr ret bind].
  destruct (Nat.lt_ge_cases (Z.to_nat (pos / 64)) (length (mp Y))) as [C|C].
  - rewrite (lnth_ok _ _ 0) by exact C. cbn [bind]. rewrite lupd_ok by exact C. cbn [bind]. intros Q. apply (f_equal (fun o : res mpi => match o with Ok (inr R) => length (mp R) | _ => O end)) in Q. unfold ret in Q. cbv beta iota in Q. cbn [mp] in Q. rewrite upd_length in Q by exact C. lia.
  - unfold lnth. rewrite (proj2 (nth_error_None _ _)) by exact C. cbn [bind]. discriminate.
Qed.
Lemma pow2_or k v : 0 < k -> 0 <= v < 2 ^ k -> 2 ^ (k - 1) <= Z.lor v (2 ^ (k - 1)) < 2 ^ k.
Proof.
  intros K V. assert (0 < 2 ^ (k - 1)) as P by (apply Z.pow_pos_nonneg; lia). assert (0 <= Z.lor v (2 ^ (k - 1))) as N by (apply Z.lor_nonneg; lia).
  assert (Z.lor v (2 ^ (k - 1)) <> 0) as NZ by (intros Q; apply Z.lor_eq_0_iff in Q; lia).
  assert (Z.log2 (Z.lor v (2 ^ (k - 1))) = k - 1) as LG.
  { rewrite Z.log2_lor by lia. rewrite Z.log2_pow2 by lia. apply Z.max_r. destruct (Z.eq_dec v 0) as [->|]; [change (Z.log2 0) with 0; lia|]. assert (Z.log2 v < k) by (apply Z.log2_lt_pow2; lia). lia. }
  split; [rewrite <- LG at 1; apply Z.log2_spec; lia | apply Z.log2_lt_pow2; lia].
Qed.
Lemma start_range k v : 2 < k -> 0 <= v -> let s := search_start k v in 2 ^ (k - 1) <= s < 2 ^ k /\ Z.odd s = true.
Proof.
  intros K V. cbv zeta. unfold search_start. set (u := if Z.log2 v <? k then v else v / 2 ^ (Z.log2 v + 2 - k)).
  assert (0 <= u < 2 ^ k) as U.
  { unfold u. destruct (Z.ltb_spec (Z.log2 v) k) as [C|C].
    - split; [exact V|]. destruct (Z.eq_dec v 0) as [->|]; [apply Z.pow_pos_nonneg; lia | apply Z.log2_lt_pow2; lia].
    - assert (0 < v) as V0 by (destruct (Z.eq_dec v 0) as [->|]; [change (Z.log2 0) with 0 in C; lia | lia]). assert (0 < 2 ^ (Z.log2 v + 2 - k)) by (apply Z.pow_pos_nonneg; lia).
      split; [apply Z.div_pos; lia|]. apply Z.div_lt_upper_bound; [lia|]. rewrite <- Z.pow_add_r by lia. apply Z.log2_lt_pow2; lia. }
  clearbody u. pose proof (pow2_or k u ltac:(lia) U) as B. set (w := Z.lor u (2 ^ (k - 1))) in *. destruct (lor1 w ltac:(assert (0 <= 2 ^ (k - 1)) by (apply Z.pow_nonneg; lia); lia)) as [E O]. split; [|exact O]. rewrite E.
  destruct (Z.odd w) eqn:OW; [lia|]. assert (w <> 2 ^ k - 1); [|lia]. intros Q. rewrite Q, Z.odd_sub in OW. replace k with (Z.succ (k - 1)) in OW by lia. rewrite Z.pow_succ_r, Z.odd_mul in OW by lia. discriminate.
Qed.
Section GenPrime.
  Context (f : rng) (X : mpi) (nbits : Z).
  Hypothesis Hf : rng_ok f. Hypothesis HX : mpi_ok X. Hypothesis LX : mlen X <= 128. Hypothesis BN : 3 <= nbits <= 8192.
  (** The bytes asked for: whole limbs *)
  Definition gen_bytes : nat := (Z.to_nat ((nbits + 63) / 64) * 8)%nat.
  Lemma gen_limbs : nbits / 64 + bz (negb (nbits mod 64 =? 0)) = Z.of_nat (Z.to_nat ((nbits + 63) / 64)) /\ (1 <= Z.to_nat ((nbits + 63) / 64) <= 128)%nat.
  Proof using BN.
    clear HX LX. assert (1 <= (nbits + 63) / 64 <= 128) as B by (split; [apply Z.div_le_lower_bound; lia | assert ((nbits + 63) / 64 < 129); [apply Z.div_lt_upper_bound; lia | lia]]).
    split; [|lia]. rewrite Z2Nat.id by lia. unfold bz. pose proof (Z.div_mod nbits 64 ltac:(lia)) as D. pose proof (Z.mod_pos_bound nbits 64 ltac:(lia)) as M. set (q := nbits / 64) in *. set (r := nbits mod 64) in *.
    rewrite D. destruct (Z.eqb_spec r 0) as [Q|Q]; cbn [negb].
    - rewrite Q. apply (Z.div_unique _ 64 (q + 0) 63); lia.
    - apply (Z.div_unique _ 64 (q + 1) (r - 1)); lia.
  Qed.
  Lemma gen_prepare fuel c :
    match f c gen_bytes with
    | inl e => l_gen_prime fuel f X nbits c = Ok (inl e, S c)
    | inr b => exists Y, l_gen_prime fuel f X nbits c = gen_loop fuel f Y (S c) /\ mpi_ok Y /\ mval Y = search_start nbits (be_decode b) /\ (length (mp Y) <= 128)%nat
    end.
  Proof using Hf HX LX BN.
    destruct gen_limbs as [GL GB]. set (n := Z.to_nat ((nbits + 63) / 64)) in *. unfold gen_bytes. fold n. unfold l_gen_prime.
    destruct (Z.ltb_spec nbits 3); [lia|]. destruct (Z.ltb_spec 8192 nbits); [lia|]. cbn [orb]. cbv zeta. rewrite GL.
    destruct (fill_ok f X n c Hf HX ltac:(lia)) as (r & c' & E & -> & H1). destruct r as [e|X1].
    { rewrite H1. unfold rm_bind at 1. rewrite E. reflexivity. }
    destruct H1 as (b & -> & O1 & S1 & V1 & P1 & L1 & Hb & Lb). unfold rm_bind at 1. rewrite E. cbn [bind fst snd].
    assert (length (mp X1) <= 128)%nat as L1' by (unfold mlen, zlen in LX; lia). set (v := be_decode b) in *.
    unfold rm_bind at 1. unfold rm_lifto at 1. rewrite bitlen_ok by exact O1. cbn [bind fst snd]. rewrite V1.
    assert (wp (if nbits <? mpi_bitlen v then l_shift_r X1 (mpi_bitlen v - nbits + 1) else ret X1)
      (fun Y => mpi_ok Y /\ ms Y = 1 /\ lval (mp Y) = (if Z.log2 v <? nbits then v else v / 2 ^ (Z.log2 v + 2 - nbits)) /\ (1 <= length (mp Y) <= 128)%nat)) as (X2 & E2 & O2 & S2 & V2 & L2).
    { unfold mpi_bitlen. destruct (Z.eqb_spec v 0) as [Z0|Z0].
      - destruct (Z.ltb_spec nbits 0); [lia|]. apply wp_ret. split; [exact O1|]. split; [exact S1|]. split; [|lia]. rewrite V1. destruct (Z.ltb_spec (Z.log2 v) nbits) as [C|C]; [reflexivity|]. rewrite Z0 in C. change (Z.log2 0) with 0 in C. lia.
      - rewrite Z.abs_eq by lia. destruct (Z.ltb_spec nbits (Z.log2 v + 1)) as [C|C], (Z.ltb_spec (Z.log2 v) nbits) as [C'|C']; try lia.
        + eapply wp_mono; [apply shift_r_ok; [exact O1 | lia]|]. cbv beta. intros Y (OY & VY & _ & LY & SY). split; [exact OY|]. split; [destruct SY; congruence|]. split; [rewrite VY, V1; f_equal; f_equal; lia|]. rewrite LY. destruct (_ || _); lia.
        + apply wp_ret. split; [exact O1|]. split; [exact S1|]. split; [exact V1 | lia]. }
    unfold rm_bind at 1. unfold rm_lift at 1. rewrite E2. cbn [bind fst snd ret].
    destruct (set_bit_ok X2 (nbits - 1) 1 O2 ltac:(lia) ltac:(now right)) as (X3 & E3 & O3 & S3 & T3). pose proof (setbit_len X2 (nbits - 1) X3 ltac:(lia) O2 E3) as L3.
    unfold rm_bind at 1. unfold rm_lifto at 1. rewrite E3. cbn [bind fst snd ret].
    assert (lval (mp X3) = Z.lor (lval (mp X2)) (2 ^ (nbits - 1))) as V3.
    { apply Z.bits_inj'. intros m M. rewrite T3, Z.lor_spec, Z.pow2_bits_eqb by lia. change (1 =? 1) with true. rewrite (Z.eqb_sym (nbits - 1) m). destruct (m =? nbits - 1); [symmetry; apply orb_true_r | symmetry; apply orb_false_r]. }
    assert (1 <= length (mp X3) <= 128)%nat as L3'.
    { split; [apply len_pos; intros Q; rewrite Q in V3; cbn [lval] in V3; symmetry in V3; apply Z.lor_eq_0_iff in V3; assert (0 < 2 ^ (nbits - 1)) by (apply Z.pow_pos_nonneg; lia); lia|].
      assert ((nbits - 1) / 64 < 128) by (apply Z.div_lt_upper_bound; lia). lia. }
    unfold rm_bind at 1. unfold rm_lifto at 1. rewrite (lnth_ok (mp X3) 0 0) by lia. cbn [bind fst snd].
    unfold rm_bind at 1. unfold rm_lifto at 1. rewrite lupd_ok by lia. cbn [bind fst snd].
    eexists. split; [reflexivity|]. destruct (mp X3) as [|x0 l] eqn:EX; [cbn in L3'; lia|]. cbn [nth firstn skipn app mp]. destruct O3 as [_ F3]. rewrite EX in F3. inversion F3 as [|? ? B0 F0]; subst.
    destruct (lor1 x0 ltac:(apply B0)) as [E0 Od0]. assert (is_limb (Z.lor x0 1)) as IL.
    { unfold is_limb in *. rewrite E0. destruct (Z.odd x0) eqn:OO; [lia|]. assert (x0 <> LB - 1) by (intros ->; discriminate). lia. }
    split; [split; [left; cbn [ms]; congruence | constructor; assumption]|]. split; [|exact (proj2 L3')].
    unfold mval. cbn [ms mp lval]. rewrite S3, S2, Z.mul_1_l. unfold search_start. rewrite <- V2, <- V3. cbn [lval].
    assert (0 <= x0 + LB * lval l) as NN by (pose proof (lval_nonneg _ F0) as P0; unfold is_limb in B0; unfold LB in *; lia). destruct (lor1 _ NN) as [EE _]. rewrite EE, E0.
    rewrite Z.odd_add, Z.odd_mul. change (Z.odd LB) with false. cbn [andb]. rewrite xorb_false_r. lia.
  Qed.
  Lemma gen_prime_ok fuel c : Z.of_nat fuel <= LB ^ 128 ->
    l_gen_prime fuel f X nbits c = Diverge \/ exists r c', l_gen_prime fuel f X nbits c = Ok (r, c') /\
      match r with
      | inl e => e = ERR_MPI_BAD_INPUT_DATA \/ exists sz, rng_fails f sz c c' e
      | inr X' => exists b, f c gen_bytes = inr b /\ found f (search_start nbits (be_decode b)) c X' c'
      end.
  Proof using Hf HX LX BN.
    intros FB. pose proof (gen_prepare fuel c) as H. specialize (Hf c gen_bytes) as Hfc. destruct (f c gen_bytes) as [e|b] eqn:EF.
    - right. exists (inl e), (S c). split; [exact H|]. right. exists gen_bytes, c. split; [lia | exact EF].
    - destruct H as (Y & E & OY & MY & LY). rewrite E. destruct (start_range nbits (be_decode b) ltac:(lia) (proj1 (be_decode_range b (proj1 Hfc)))) as [B O]. rewrite <- MY in B, O.
      assert (0 < 2 ^ (nbits - 1)) as P by (apply Z.pow_pos_nonneg; lia).
      assert (2 ^ nbits <= LB ^ 128) as PB by (change (LB ^ 128) with (2 ^ 8192); apply Z.pow_le_mono_r; lia). assert (3 * LB ^ 128 < LB ^ 200) as PB' by (apply Z.ltb_lt; vm_compute; reflexivity).
      set (M1 := LB ^ 128) in *. set (M2 := LB ^ 200) in *. set (M3 := 2 ^ nbits) in *. set (M4 := 2 ^ (nbits - 1)) in *. clearbody M1 M3 M4.
      destruct (gen_loop_ok f Hf fuel Y (S c) OY) as [D | (r & c' & E' & CC & G)]; [lia | exact O | lia | change (LB ^ 200) with M2; clearbody M2; lia | left; exact D|].
      right. exists r, c'. split; [exact E'|]. destruct r as [e|X']; cbn [gen_post] in G.
      + destruct G as [G | (sz & i & I & G)]; [now left | right; exists sz, i; split; [lia | exact G]].
      + exists b. split; [reflexivity|]. rewrite <- MY. destruct G as (G1 & G2 & G3 & (c1 & C1 & G4) & G5). split; [exact G1|]. split; [exact G2|]. split; [exact G3|]. split; [exists c1; split; [lia | exact G4] | exact G5].
  Qed.
  Lemma gen_prime_finds fuel c b p : rng_good f -> f c gen_bytes = inr b -> prime p -> search_start nbits (be_decode b) <= p < search_start nbits (be_decode b) + 2 * Z.of_nat fuel ->
    p < 2 ^ nbits -> exists X' c', l_gen_prime fuel f X nbits c = Ok (inr X', c') /\ mval X' <= p.
  Proof using Hf HX LX BN.
    intros GD EF PP RP BP. pose proof (gen_prepare fuel c) as H. specialize (Hf c gen_bytes) as Hfc. rewrite EF in *. destruct H as (Y & E & OY & MY & LY). rewrite E.
    destruct (start_range nbits (be_decode b) ltac:(lia) (proj1 (be_decode_range b (proj1 Hfc)))) as [B O]. rewrite <- MY in *.
    assert (2 ^ 2 <= 2 ^ (nbits - 1)) as P by (apply Z.pow_le_mono_r; lia). change (2 ^ 2) with 4 in P.
    assert (2 ^ nbits <= LB ^ 128) as PB by (change (LB ^ 128) with (2 ^ 8192); apply Z.pow_le_mono_r; lia).
    set (M1 := LB ^ 128) in *. set (M3 := 2 ^ nbits) in *. set (M4 := 2 ^ (nbits - 1)) in *.
    apply (gen_loop_finds f Hf fuel Y (S c) p GD OY); [clearbody M1 M3 M4; lia | exact O | exact LY | exact PP | exact RP | | change (LB ^ 128) with M1; clearbody M1 M3 M4; lia].
    destruct (Z.odd p) eqn:Q; [reflexivity|]. exfalso. apply (even_not_prime p); [clearbody M1 M3 M4; lia | exact Q | exact PP].
  Qed.
End GenPrime.

(** * Statements *)
Section Statements.
  Context (f : rng) (X : mpi) (c : nat).
  Hypothesis Hf : rng_ok f. Hypothesis HX : mpi_ok X.
  Let x := Z.abs (mval X).
  Let sz := (length (mp X) * 8)%nat.
  Lemma primes_accepted_f : mlen X <= 128 -> prime x -> x <= 997 \/ rng_useful f sz x -> exists c', l_is_prime f X c = Ok (inr tt, c').
  Proof using Hf HX.
    intros L P U. destruct (is_prime_ok f Hf X c HX ltac:(lia)) as ([e|[]] & c' & E & V); [|now exists c']. exfalso. unfold verdict in V. cbv zeta in V. fold x sz in V. unfold mlen, zlen in L.
    destruct V as (_ & [[_ V] | ([NS1 _] & [[V _] | (_ & V)])]); [contradiction | lia|]. destruct U as [U|U]; [lia|]. destruct (useful_ok f sz x c c' e U) as [U1 U2]. destruct V as [V | [_ V]]; contradiction.
  Qed.
  Lemma rejected_f e c' : mlen X <= 128 -> l_is_prime f X c = Ok (inl e, c') ->
    (e = ERR_MPI_NOT_ACCEPTABLE /\ (~ prime x \/ rng_stuck f sz c c' x)) \/ rng_fails f sz c c' e.
  Proof using Hf HX.
    intros L E. destruct (is_prime_ok f Hf X c HX ltac:(lia)) as (r & c1 & E1 & V). rewrite E in E1. injection E1 as <- <-. unfold verdict in V. cbv zeta in V. fold x sz in V. unfold mlen, zlen in L.
    destruct V as (_ & [[V1 V2] | (NS & [[V _] | (_ & V)])]); [left; split; [exact V1 | now left] | lia|]. destruct V as [V | [V1 V2]]; [now right | left; split; [exact V1 | now right]].
  Qed.
  Lemma accepted_f c' : mlen X < 10000 -> l_is_prime f X c = Ok (inr tt, c') ->
    (prime x /\ x <= 997) \/
    (997 < x /\ (forall p, prime p -> p <= 997 -> ~ (p | x)) /\ exists k, bits_of x k /\ passed f sz c c' (bases_for k) x).
  Proof using Hf HX.
    intros L E. destruct (is_prime_ok f Hf X c HX L) as (r & c1 & E1 & V). rewrite E in E1. injection E1 as <- <-. unfold verdict in V. cbv zeta in V. fold x sz in V.
    destruct V as (_ & [(V1 & V2 & _) | ([N1 N2] & _ & V)]); [left; now split|]. right. split; [exact N1|]. split; [exact N2|]. exists (bits x). split; [|exact V].
    pose proof (bits_of_bitlen x ltac:(lia)) as B. unfold mpi_bitlen in B. destruct (Z.eqb_spec x 0) as [|_]; [lia|]. rewrite Z.abs_eq in B by lia. exact B.
  Qed.
  Lemma small_exact_f c' : mlen X < 10000 -> l_is_prime f X c = Ok (inr tt, c') -> x < 998 * 998 -> prime x.
  Proof using Hf HX.
    intros L E B. destruct (accepted_f c' L E) as [[P _] | (N1 & N2 & _)]; [exact P|]. apply no_small_factor_prime; [now split | exact B].
  Qed.
  Lemma decides_f : mlen X < 10000 -> exists r c', l_is_prime f X c = Ok (r, c').
  Proof using Hf HX. intros L. destruct (is_prime_ok f Hf X c HX L) as (r & c' & E & _). now exists r, c'. Qed.
End Statements.
Section GenStatements.
  Context (f : rng) (X : mpi) (nbits : Z) (fuel c : nat).
  Hypothesis Hf : rng_ok f. Hypothesis HX : mpi_ok X. Hypothesis LX : mlen X <= 128.
  Lemma gen_bad_f : nbits < 3 \/ 8192 < nbits -> l_gen_prime fuel f X nbits c = Ok (inl ERR_MPI_BAD_INPUT_DATA, c).
  Proof using. clear Hf HX LX. intros H. unfold l_gen_prime. replace ((nbits <? 3) || (8192 <? nbits)) with true; [reflexivity|]. destruct (Z.ltb_spec nbits 3), (Z.ltb_spec 8192 nbits); try reflexivity; lia. Qed.
  Hypothesis BN : 3 <= nbits <= 8192.
  Let sz := (Z.to_nat ((nbits + 63) / 64) * 8)%nat.
  Lemma gen_safe_f : Z.of_nat fuel <= LB ^ 128 -> l_gen_prime fuel f X nbits c = Diverge \/ exists r c', l_gen_prime fuel f X nbits c = Ok (r, c') /\
    forall e, r = inl e -> e = ERR_MPI_BAD_INPUT_DATA \/ exists sz, rng_fails f sz c c' e.
  Proof using All.
    intros FB. destruct (gen_prime_ok f X nbits Hf HX LX BN fuel c FB) as [D | (r & c' & E & H)]; [now left | right]. exists r, c'. split; [exact E|]. intros e ->. exact H.
  Qed.
  Lemma gen_found_f X' c' : Z.of_nat fuel <= LB ^ 128 -> l_gen_prime fuel f X nbits c = Ok (inr X', c') ->
    mpi_ok X' /\ Z.odd (mval X') = true /\ 2 ^ (nbits - 1) <= mval X' /\ (exists c1, (c <= c1 <= c')%nat /\ l_is_prime f X' c1 = Ok (inr tt, c')) /\
    exists b, f c sz = inr b /\ 2 ^ (nbits - 1) <= search_start nbits (be_decode b) < 2 ^ nbits /\ search_start nbits (be_decode b) <= mval X' /\
      (rng_good f -> forall y, search_start nbits (be_decode b) <= y < mval X' -> ~ prime y).
  Proof using All.
    intros FB E0. destruct (gen_prime_ok f X nbits Hf HX LX BN fuel c FB) as [D | (r & c1 & E & H)]; [congruence|]. rewrite E0 in E. injection E as <- <-. destruct H as (b & EB & G1 & G2 & G3 & G4 & G5).
    pose proof (Hf c (gen_bytes nbits)) as Hb. rewrite EB in Hb.
    destruct (start_range nbits (be_decode b) ltac:(lia) (proj1 (be_decode_range b (proj1 Hb)))) as [B O].
    assert (2 ^ 2 <= 2 ^ (nbits - 1)) as P by (apply Z.pow_le_mono_r; lia). change (2 ^ 2) with 4 in P. clear FB.
    set (M3 := 2 ^ nbits) in *. set (M4 := 2 ^ (nbits - 1)) in *. clearbody M3 M4.
    split; [exact G1|]. split; [exact G2|]. split; [lia|]. split; [exact G4|]. exists b. split; [exact EB|]. split; [exact B|]. split; [exact G3|].
    intros GD y Y. destruct (Z.odd y) eqn:OY; [now apply G5|]. apply even_not_prime; [lia | exact OY].
  Qed.
  Lemma gen_finds_f b p : rng_good f -> f c sz = inr b -> prime p -> search_start nbits (be_decode b) <= p < 2 ^ nbits ->
    p < search_start nbits (be_decode b) + 2 * Z.of_nat fuel -> Z.of_nat fuel <= LB ^ 128 ->
    exists X' c', l_gen_prime fuel f X nbits c = Ok (inr X', c') /\ 2 ^ (nbits - 1) <= mval X' < 2 ^ nbits.
  Proof using All.
    intros GD EF PP R1 R2 FB. destruct (gen_prime_finds f X nbits Hf HX LX BN fuel c b p GD EF PP (conj (proj1 R1) R2) (proj2 R1)) as (X' & c' & E & LE). exists X', c'. split; [exact E|].
    destruct (gen_found_f X' c' FB E) as (_ & _ & GE & _). split; [exact GE|]. eapply Z.le_lt_trans; [exact LE | apply R1].
  Qed.
End GenStatements.
(** A generator that answers the number 2 is good *)
Definition const_two : rng := fun _ n => match n with O => inr [] | S n => inr (repeat 0 n ++ [2]) end.
Lemma const_two_ok : rng_ok const_two.
Proof.
  intros c [|n]; cbn; [split; [constructor | reflexivity]|]. split; [|rewrite app_length, repeat_length; cbn; lia]. apply Forall_app. split; [|repeat constructor; unfold is_byte; lia].
  apply Forall_forall. intros y I. apply repeat_spec in I. subst. unfold is_byte. lia.
Qed.
Lemma const_two_good : rng_good const_two.
Proof.
  intros [|n] x S0 X; [lia|]. split; [intros c e; cbn; discriminate|]. intros c. exists 0%nat, 2. split; [lia|]. split; [|lia]. exists (repeat 0 n ++ [2]). split; [reflexivity|].
  assert (be_decode (repeat 0 n ++ [2]) = 2) as E.
  { unfold be_decode. rewrite rev_app_distr. cbn [rev app]. cbn [le_decode]. replace (le_decode (rev (repeat 0 n))) with 0; [reflexivity|]. clear.
    assert (forall l, Forall (fun b => b = 0) l -> le_decode l = 0) as H by (induction 1 as [|b l B _ IH]; [reflexivity|]; cbn [le_decode]; rewrite B, IH; reflexivity).
    symmetry. apply H. apply Forall_rev. apply Forall_forall. intros y I. now apply repeat_spec in I. }
  rewrite E. unfold cut. assert (1 <= Z.log2 (x - 1)) by (change 1 with (Z.log2 2) at 1; apply Z.log2_le_mono; lia). change (Z.log2 2) with 1. rewrite Z.max_l by lia. reflexivity.
Qed.
