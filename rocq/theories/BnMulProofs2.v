(** mpi_mul_hlp on memory *)
From Coq Require Import Lia.
From Verif Require Import Base BaseFacts MpiModel MpiProofs LimbModel LimbSpec LimbProofs LimbProofs2 BnMulModel BnMulSpec BnMulProofs.

Lemma holds_app m p a b : holds m p (a ++ b) <-> holds m p a /\ holds m (p + 8 * zlen a) b.
Proof.
  unfold holds, zlen. rewrite app_length. split.
  - intros (A & B & C & H). split; (split; [|split; [|split]]); try lia.
    + intros k K. rewrite H by lia. now rewrite app_nth1.
    + intros k K. replace (p + 8 * Z.of_nat (length a) + 8 * Z.of_nat k) with (p + 8 * Z.of_nat (length a + k)) by lia. rewrite H by lia. rewrite app_nth2 by lia. do 2 f_equal. lia.
  - intros [(A & B & C & H) (A' & B' & C' & H')]. split; [exact A|]. split; [lia|]. split; [lia|]. intros k K. destruct (Nat.lt_ge_cases k (length a)).
    + rewrite H by lia. now rewrite app_nth1.
    + rewrite app_nth2 by lia. rewrite <- H' by lia. f_equal. lia.
Qed.
Definition thn (f g : mem -> Z -> Z -> Z -> Z -> outcome (mem * Z * Z * Z)) := fun m s d c b => r <- f m s d c b ;; let '(m, s, d, c) := r in g m s d c b.
Lemma does_thn n k f g : does n f -> does k g -> does (n + k) (thn f g).
Proof.
  intros F G m s d c b ys xs L1 L2 Hy Hx Hc Hb S1 D1 AP. unfold thn.
  rewrite <- (firstn_skipn n ys) in Hy, S1 |- *. rewrite <- (firstn_skipn n xs) in Hx, D1 |- *. assert (length (firstn n ys) = n) as LY by (rewrite firstn_length; lia). assert (length (firstn n xs) = n) as LX by (rewrite firstn_length; lia).
  assert (length (skipn n ys) = k) as LY' by (rewrite skipn_length; lia). assert (length (skipn n xs) = k) as LX' by (rewrite skipn_length; lia).
  set (y1 := firstn n ys) in *. set (y2 := skipn n ys) in *. set (x1 := firstn n xs) in *. set (x2 := skipn n xs) in *. clearbody y1 y2 x1 x2. clear L1 L2 xs ys.
  apply Forall_app in Hy. apply Forall_app in Hx. destruct Hy as [Hy1 Hy2], Hx as [Hx1 Hx2]. apply holds_app in S1. apply holds_app in D1. destruct S1 as [S1 S2], D1 as [D1 D2].
  unfold apart in AP. unfold zlen in S2, D2. rewrite LY in S2. rewrite LX in D2.
  destruct (F m s d c b y1 x1 LY LX) as (m1 & c1 & w1 & E1 & C1 & W1 & K1 & H1 & O1 & V1); try assumption. { unfold apart. lia. }
  rewrite E1. cbn [bind].
  destruct (G m1 (s + 8 * Z.of_nat n) (d + 8 * Z.of_nat n) c1 b y2 x2 LY' LX') as (m2 & c2 & w2 & E2 & C2 & W2 & K2 & H2 & O2 & V2); try assumption.
  { eapply holds_ext; [exact S2|]. intros a A. apply O1. unfold zlen in A. lia. }
  { eapply holds_ext; [exact D2|]. intros a A. apply O1. lia. }
  { unfold apart. lia. }
  exists m2, c2, (w1 ++ w2). rewrite E2. split; [rewrite Nat2Z.inj_add, Z.mul_add_distr_l, !Z.add_assoc; reflexivity|]. split; [exact C2|]. split; [now apply Forall_app|].
  split; [rewrite app_length; lia|]. split.
  - apply holds_app. split; [|unfold zlen; now rewrite K1]. eapply holds_ext; [exact H1|]. intros a A. apply O2. unfold zlen in A. lia.
  - split; [intros a A; rewrite O2 by lia; apply O1; lia|]. rewrite !lval_app, LB_powadd, K1, LX, LY. clear - V1 V2. set (P := LB ^ Z.of_nat n) in *. set (P' := LB ^ Z.of_nat k) in *. 
    transitivity (lval w1 + P * (lval w2 + P' * c2)); [ring|]. rewrite V2. transitivity (lval w1 + P * c1 + P * (lval x2 + b * lval y2)); [ring|]. rewrite V1. ring.
Qed.
Lemma hlp_loop_ok blk k : (forall n, does n (blk n)) -> (0 < k)%nat -> forall fuel i, (i <= fuel)%nat ->
  exists j f, (j < k)%nat /\ (j <= i)%nat /\ does (i - j) f /\ forall m s d c b, hlp_loop blk k fuel i m s d c b = (r <- f m s d c b ;; Ok (j, r)).
Proof.
  intros B K. induction fuel as [|fuel IH]; intros i L.
  - exists O, (fun m s d c b => Ok (m, s, d, c)). split; [exact K|]. split; [lia|]. replace i with O by lia. split; [exact does_O|]. intros m s d c b. cbn [hlp_loop].
    destruct (Nat.ltb_spec 0 k); [reflexivity | lia].
  - destruct (Nat.ltb_spec i k) as [Q|Q].
    + exists i, (fun m s d c b => Ok (m, s, d, c)). split; [exact Q|]. split; [lia|]. rewrite Nat.sub_diag. split; [exact does_O|]. intros m s d c b. cbn [hlp_loop]. destruct (Nat.ltb_spec i k); [reflexivity | lia].
    + destruct (IH (i - k)%nat ltac:(lia)) as (j & f & J1 & J2 & D & E). exists j, (thn (blk k) f). split; [exact J1|]. split; [lia|]. split.
      * replace (i - j)%nat with (k + (i - k - j))%nat by lia. apply does_thn; [apply B | exact D].
      * intros m s d c b. cbn [hlp_loop]. destruct (Nat.ltb_spec i k); [lia|]. unfold thn. destruct (blk k m s d c b) as [[[[m' s'] d'] c']| | | |]; cbn [bind]; [apply E | reflexivity..].
Qed.
Lemma hlp_carry_ok : forall xs fuel m d c, holds m d xs -> Forall is_limb xs -> is_limb c -> xs <> [] -> lval xs + c < LB ^ zlen xs -> (length xs <= fuel)%nat ->
  exists m' xs', hlp_carry fuel m d c = Ok m' /\ holds m' d xs' /\ Forall is_limb xs' /\ length xs' = length xs /\ only_at d (length xs) m m' /\ lval xs' = lval xs + c.
Proof.
  induction xs as [|x xs IH]; intros fuel m d c D Hx Hc NE V F; [congruence|]. destruct fuel as [|fuel]; [cbn in F; lia|]. cbn [hlp_carry].
  rewrite (load_cons _ _ _ _ D). cbn [bind]. rewrite (store_cons _ _ _ _ _ D). cbn [bind]. inversion Hx as [|? ? Hx1 Hx2]; subst. pose proof (carry_add x c Hx1 Hc) as E. pose proof (is_limb_u64 (x + c)) as R.
  set (w := u64 (x + c)) in *. pose proof (bz_range (w <? c)) as BZ. set (z := bz (w <? c)) in *.
  assert (holds (upd m d w) (d + 8) xs) as D2. { eapply holds_ext; [exact (holds_tail _ _ _ _ D)|]. intros a A. unfold upd. destruct (Z.eqb_spec a d); [lia | reflexivity]. }
  assert (forall m' l, holds m' (d + 8) l -> length l = length xs -> m' d = Some w -> holds m' d (w :: l)) as CONS.
  { intros m' l Hl Ll Hm. destruct D as (A & B & C & _). apply holds_cons; try assumption. unfold zlen in *. cbn [length] in *. lia. }
  rewrite lval_cons in V. unfold zlen in V. cbn [length] in V. rewrite LB_powS in V. fold (zlen xs) in V.
  destruct (Z.eqb_spec z 0) as [Q|Q].
  - exists (upd m d w), (w :: xs). split; [reflexivity|]. split; [apply CONS; [exact D2 | reflexivity | unfold upd; now rewrite Z.eqb_refl]|].
    split; [now constructor|]. split; [reflexivity|]. split; [intros a A; unfold upd; cbn [length] in A; destruct (Z.eqb_spec a d); [lia | reflexivity]|]. rewrite !lval_cons. rewrite Q in E. lia.
  - assert (z = 1) as Z1 by lia. rewrite (ptr _ _ _ _ D). 
    assert (xs <> []) as NE'. { intros ->. change (zlen (@nil Z)) with 0 in V. change (LB ^ 0) with 1 in V. cbn [length] in V. change (LB ^ Z.of_nat 0) with 1 in V. cbn [lval] in V. unfold is_limb in R. lia. }
    assert (lval xs + z < LB ^ zlen xs) as V' by (unfold zlen in *; clear - V E R Z1; unfold is_limb in R; pose proof LB_pos; nia).
    destruct (IH fuel (upd m d w) (d + 8) z D2 ltac:(assumption)) as (m' & xs' & E1 & HH & L1 & K1 & O1 & V1); try assumption; [unfold is_limb; pose proof LB_gt1; lia | cbn [length] in F; lia|].
    exists m', (w :: xs'). split; [exact E1|]. split; [apply CONS; [exact HH | exact K1 |]; rewrite O1 by lia; unfold upd; now rewrite Z.eqb_refl|].
    split; [now constructor|]. split; [cbn; lia|]. split.
    + intros a A. cbn [length] in A. rewrite O1 by lia. unfold upd. destruct (Z.eqb_spec a d); [lia | reflexivity].
    + rewrite !lval_cons, V1. lia.
Qed.
Lemma hlp_mem_ok blk fuel m ps pd ys ds b : (forall n, does n (blk n)) ->
  Forall is_limb ys -> Forall is_limb ds -> is_limb b -> holds m ps ys -> holds m pd ds -> apart ps (length ys) pd (length ds) -> (length ys < length ds)%nat ->
  lval ds + b * lval ys < LB ^ zlen ds -> (length ds <= fuel)%nat ->
  exists m' ds', hlp_mem blk fuel m (length ys) ps pd b = Ok m' /\ holds m' pd ds' /\ Forall is_limb ds' /\ length ds' = length ds /\ only_at pd (length ds) m m' /\
    lval ds' = lval ds + b * lval ys.
Proof.
  intros BLK Hy Hd Hb S1 D1 AP L V F. unfold hlp_mem.
  destruct (hlp_loop_ok blk 16 BLK ltac:(lia) (length ys) (length ys) ltac:(lia)) as (j1 & f1 & A1 & B1 & F1 & E1).
  destruct (hlp_loop_ok blk 8 BLK ltac:(lia) j1 j1 ltac:(lia)) as (j2 & f2 & A2 & B2 & F2 & E2).
  destruct (hlp_loop_ok blk 1 BLK ltac:(lia) j2 j2 ltac:(lia)) as (j3 & f3 & A3 & B3 & F3 & E3).
  assert (j3 = O) as -> by lia. rewrite Nat.sub_0_r in F3.
  pose proof (does_thn _ _ _ _ F1 (does_thn _ _ _ _ F2 F3)) as DO. replace (length ys - j1 + (j1 - j2 + j2))%nat with (length ys) in DO by lia. clear F1 F2 F3 A1 A2 A3.
  rewrite <- (firstn_skipn (length ys) ds) in Hd, D1, V |- *. assert (length (firstn (length ys) ds) = length ys) as L1 by (rewrite firstn_length; lia). assert (length (skipn (length ys) ds) = (length ds - length ys)%nat) as L2 by apply skipn_length.
  set (x1 := firstn _ ds) in *. set (x2 := skipn _ ds) in *. clearbody x1 x2. apply Forall_app in Hd. destruct Hd as [Hd1 Hd2]. apply holds_app in D1. destruct D1 as [D1 D2]. unfold zlen in D2. rewrite L1 in D2.
  unfold apart in AP. 
  destruct (DO m ps pd 0 b ys x1 eq_refl L1 Hy Hd1 is_limb_0 Hb S1 D1) as (m1 & c1 & w1 & EQ & C1 & W1 & K1 & H1 & O1 & V1). { unfold apart. lia. }
  unfold thn in EQ. rewrite E1. destruct (f1 m ps pd 0 b) as [[[[m2 s2] d2] c2]| | | |]; cbn [bind] in EQ |- *; try discriminate. rewrite E2.
  destruct (f2 m2 s2 d2 c2 b) as [[[[m3 s3] d3] c3]| | | |]; cbn [bind] in EQ |- *; try discriminate. rewrite E3, EQ. cbn [bind].
  rewrite Z.add_0_r in V1. rewrite lval_app, L1 in V. set (P := LB ^ Z.of_nat (length ys)) in *. assert (0 < P) as PP by apply LB_pow.
  assert (zlen (x1 ++ x2) = Z.of_nat (length ys) + zlen x2) as ZL by (unfold zlen; rewrite app_length; lia). rewrite ZL, Z.pow_add_r in V by (unfold zlen; lia). fold P in V.
  destruct (hlp_carry_ok x2 fuel m1 (pd + 8 * Z.of_nat (length ys)) c1) as (m' & w2 & E & H' & W' & K' & O' & V'); try assumption.
  { eapply holds_ext; [exact D2|]. intros a A. apply O1. lia. }
  { intros ->. cbn in L2. lia. }
  { pose proof (lval_nonneg _ W1). clear - V V1 PP H. nia. }
  { lia. }
  exists m', (w1 ++ w2). split; [exact E|]. split; [|split; [now apply Forall_app|]; split; [rewrite !app_length; lia|]; split].
  - apply holds_app. split; [|unfold zlen; now rewrite K1]. eapply holds_ext; [exact H1|]. intros a A. apply O'. unfold zlen in A. lia.
  - intros a A. rewrite app_length in A. rewrite O' by lia. apply O1. lia.
  - rewrite !lval_app, K1, L1. fold P. rewrite V'. clear - V1. lia.
Qed.
(** The model on lists gives the same limbs *)
Lemma hlp_mem_list blk fuel m ps pd ys ds b : (forall n, does n (blk n)) ->
  Forall is_limb ys -> Forall is_limb ds -> is_limb b -> holds m ps ys -> holds m pd ds -> apart ps (length ys) pd (length ds) -> (length ys < length ds)%nat ->
  lval ds + b * lval ys < LB ^ zlen ds -> (length ds <= fuel)%nat ->
  exists m' ds', hlp_mem blk fuel m (length ys) ps pd b = Ok m' /\ mul_hlp (length ys) ys ds b = Ok ds' /\ holds m' pd ds' /\ only_at pd (length ds) m m'.
Proof.
  intros BLK Hy Hd Hb S1 D1 AP L V F. destruct (hlp_mem_ok blk fuel m ps pd ys ds b) as (m' & ds' & E & H & W & K & O & VV); try assumption.
  exists m', ds'. split; [exact E|]. split; [|split; assumption].
  pose proof (mul_hlp_ok (length ys) ys ds b Hy Hd ltac:(lia) L Hb) as H2. rewrite firstn_all in H2. specialize (H2 V). destruct H2 as (r' & -> & G1 & G2 & G3). f_equal. apply lval_inj; congruence || assumption.
Qed.
Lemma asm_does junk flag n : does n (asm_block junk flag n).
Proof. intros m s d c b ys xs. rewrite asm_block_eq. apply (c_block_does _ acore_does). Qed.
Lemma hlp_asm junk flag fuel m ps pd ys ds b :
  Forall is_limb ys -> Forall is_limb ds -> is_limb b -> holds m ps ys -> holds m pd ds -> apart ps (length ys) pd (length ds) -> (length ys < length ds)%nat ->
  lval ds + b * lval ys < LB ^ zlen ds -> (length ds <= fuel)%nat ->
  exists m' ds', hlp_mem (asm_block junk flag) fuel m (length ys) ps pd b = Ok m' /\ holds m' pd ds' /\ Forall is_limb ds' /\ length ds' = length ds /\ only_at pd (length ds) m m' /\
    lval ds' = lval ds + b * lval ys.
Proof. apply hlp_mem_ok, asm_does. Qed.
Lemma hlp_udbl fuel m ps pd ys ds b :
  Forall is_limb ys -> Forall is_limb ds -> is_limb b -> holds m ps ys -> holds m pd ds -> apart ps (length ys) pd (length ds) -> (length ys < length ds)%nat ->
  lval ds + b * lval ys < LB ^ zlen ds -> (length ds <= fuel)%nat ->
  exists m' ds', hlp_mem udbl_block fuel m (length ys) ps pd b = Ok m' /\ holds m' pd ds' /\ Forall is_limb ds' /\ length ds' = length ds /\ only_at pd (length ds) m m' /\
    lval ds' = lval ds + b * lval ys.
Proof. apply hlp_mem_ok, c_block_does, udbl_does. Qed.
Lemma hlp_half fuel m ps pd ys ds b :
  Forall is_limb ys -> Forall is_limb ds -> is_limb b -> holds m ps ys -> holds m pd ds -> apart ps (length ys) pd (length ds) -> (length ys < length ds)%nat ->
  lval ds + b * lval ys < LB ^ zlen ds -> (length ds <= fuel)%nat ->
  exists m' ds', hlp_mem half_block fuel m (length ys) ps pd b = Ok m' /\ holds m' pd ds' /\ Forall is_limb ds' /\ length ds' = length ds /\ only_at pd (length ds) m m' /\
    lval ds' = lval ds + b * lval ys.
Proof. apply hlp_mem_ok, c_block_does, half_does. Qed.
Lemma hlp_asm_list junk flag fuel m ps pd ys ds b :
  Forall is_limb ys -> Forall is_limb ds -> is_limb b -> holds m ps ys -> holds m pd ds -> apart ps (length ys) pd (length ds) -> (length ys < length ds)%nat ->
  lval ds + b * lval ys < LB ^ zlen ds -> (length ds <= fuel)%nat ->
  exists m' ds', hlp_mem (asm_block junk flag) fuel m (length ys) ps pd b = Ok m' /\ mul_hlp (length ys) ys ds b = Ok ds' /\ holds m' pd ds' /\ only_at pd (length ds) m m'.
Proof. apply hlp_mem_list, asm_does. Qed.
Lemma hlp_asm_short junk flag fuel m ps pd ys ds b :
  Forall is_limb ys -> Forall is_limb ds -> is_limb b -> holds m ps ys -> holds m pd ds -> apart ps (length ys) pd (length ds) ->
  length ys = length ds -> m (pd + 8 * zlen ds) = None -> (0 < fuel)%nat ->
  hlp_mem (asm_block junk flag) fuel m (length ys) ps pd b = UB.
Proof.
  intros Hy Hd Hb S1 D1 AP L NONE F. unfold hlp_mem. pose proof (asm_does junk flag) as BLK.
  destruct (hlp_loop_ok _ 16 BLK ltac:(lia) (length ys) (length ys) ltac:(lia)) as (j1 & f1 & A1 & B1 & F1 & E1).
  destruct (hlp_loop_ok _ 8 BLK ltac:(lia) j1 j1 ltac:(lia)) as (j2 & f2 & A2 & B2 & F2 & E2).
  destruct (hlp_loop_ok _ 1 BLK ltac:(lia) j2 j2 ltac:(lia)) as (j3 & f3 & A3 & B3 & F3 & E3).
  assert (j3 = O) as -> by lia. rewrite Nat.sub_0_r in F3.
  pose proof (does_thn _ _ _ _ F1 (does_thn _ _ _ _ F2 F3)) as DO. replace (length ys - j1 + (j1 - j2 + j2))%nat with (length ys) in DO by lia.
  destruct (DO m ps pd 0 b ys ds eq_refl (eq_sym L) Hy Hd is_limb_0 Hb S1 D1) as (m1 & c1 & w1 & EQ & C1 & W1 & K1 & H1 & O1 & V1). { rewrite <- L in AP. exact AP. }
  unfold thn in EQ. rewrite E1. destruct (f1 m ps pd 0 b) as [[[[m2 s2] d2] c2]| | | |]; cbn [bind] in EQ |- *; try discriminate. rewrite E2.
  destruct (f2 m2 s2 d2 c2 b) as [[[[m3 s3] d3] c3]| | | |]; cbn [bind] in EQ |- *; try discriminate. rewrite E3, EQ. cbn [bind].
  destruct fuel as [|fuel]; [lia|]. cbn [hlp_carry]. unfold load. rewrite O1 by lia. unfold zlen in NONE. rewrite <- L in NONE. rewrite NONE. destruct (_ =? 0); reflexivity.
Qed.
