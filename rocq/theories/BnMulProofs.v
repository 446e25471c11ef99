(** The variants of the inner loop of the multiplication *)
From Coq Require Import Lia.
From Verif Require Import Base BaseFacts MpiModel MpiProofs LimbModel LimbSpec LimbProofs LimbProofs2 BnMulModel BnMulSpec.

Lemma load_cons m p x l : holds m p (x :: l) -> load m p = Ok x.
Proof. intros (A & _ & _ & H). unfold load. rewrite A. cbn. specialize (H O ltac:(cbn; lia)). rewrite Z.mul_0_r, Z.add_0_r in H. now rewrite H. Qed.
Definition upd (m : mem) (a x : Z) : mem := fun a' => if a' =? a then Some x else m a'.
Lemma store_cons m p y x l : holds m p (x :: l) -> store m p y = Ok (upd m p y).
Proof. intros H. unfold store. now rewrite (load_cons _ _ _ _ H). Qed.
Lemma holds_tail m p x l : holds m p (x :: l) -> holds m (p + 8) l.
Proof.
  intros (A & B & C & H). unfold zlen in *. cbn [length] in *. split; [rewrite Z.add_mod, A by lia; reflexivity|]. split; [lia|]. split; [unfold zlen; lia|].
  intros k K. specialize (H (S k) ltac:(lia)). cbn [nth] in H. rewrite <- H. f_equal. lia.
Qed.
Lemma holds_ext m m' p l : holds m p l -> (forall a, p <= a < p + 8 * zlen l -> m' a = m a) -> holds m' p l.
Proof. intros (A & B & C & H) E. split; [exact A|]. split; [exact B|]. split; [exact C|]. intros k K. rewrite E by (unfold zlen; lia). now apply H. Qed.
Lemma holds_cons m p x l : p mod 8 = 0 -> 0 <= p -> p + 8 * zlen (x :: l) < 2 ^ 64 -> m p = Some x -> holds m (p + 8) l -> holds m p (x :: l).
Proof.
  intros A B C X (_ & _ & _ & H). split; [exact A|]. split; [exact B|]. split; [exact C|]. intros [|k] K; cbn [nth].
  - now rewrite Z.mul_0_r, Z.add_0_r.
  - cbn [length] in K. rewrite <- H by lia. f_equal. lia.
Qed.
Lemma ptr m p x l : holds m p (x :: l) -> u64 (p + 8) = p + 8.
Proof. intros (_ & B & C & _). unfold zlen in C. cbn [length] in C. unfold u64. apply Z.mod_small. lia. Qed.

(** What [n] steps do *)
Definition does (n : nat) (f : mem -> Z -> Z -> Z -> Z -> outcome (mem * Z * Z * Z)) : Prop := forall m s d c b ys xs,
  length ys = n -> length xs = n -> Forall is_limb ys -> Forall is_limb xs -> is_limb c -> is_limb b -> holds m s ys -> holds m d xs -> apart s n d n ->
  exists m' c' xs', f m s d c b = Ok (m', s + 8 * Z.of_nat n, d + 8 * Z.of_nat n, c') /\ is_limb c' /\ Forall is_limb xs' /\ length xs' = n /\ holds m' d xs' /\
    only_at d n m m' /\ lval xs' + LB ^ Z.of_nat n * c' = lval xs + b * lval ys + c.
(** One step *)
Definition core_does (f : mem -> Z -> Z -> Z -> Z -> outcome (mem * Z * Z * Z)) : Prop := forall m s d c b y ys x xs,
  is_limb y -> is_limb x -> is_limb c -> is_limb b -> holds m s (y :: ys) -> holds m d (x :: xs) ->
  exists lo hi, f m s d c b = Ok (upd m d lo, s + 8, d + 8, hi) /\ is_limb lo /\ is_limb hi /\ lo + LB * hi = x + b * y + c.

Lemma does_S f g n : core_does f -> does n g -> does (S n) (fun m s d c b => r <- f m s d c b ;; let '(m, s, d, c) := r in g m s d c b).
Proof.
  intros F G m s d c b ys xs L1 L2 Hy Hx Hc Hb S1 D1 AP. destruct ys as [|y ys]; [discriminate|]. destruct xs as [|x xs]; [discriminate|].
  cbn [length] in L1, L2. injection L1 as L1. injection L2 as L2. inversion Hy; inversion Hx; subst.
  destruct (F m s d c b y ys x xs) as (lo & hi & E & LO & HI & V); try assumption. rewrite E. cbn [bind].
  unfold apart in AP. 
  destruct (G (upd m d lo) (s + 8) (d + 8) hi b ys xs) as (m' & c' & xs' & E' & C' & X' & L' & H' & O' & V'); try assumption.
  - reflexivity.
  - eapply holds_ext; [exact (holds_tail _ _ _ _ S1)|]. intros a A. unfold upd. destruct (Z.eqb_spec a d); [unfold zlen in A; lia | reflexivity].
  - eapply holds_ext; [exact (holds_tail _ _ _ _ D1)|]. intros a A. unfold upd. destruct (Z.eqb_spec a d); [unfold zlen in A; lia | reflexivity].
  - unfold apart. lia.
  - exists m', c', (lo :: xs'). rewrite E'. split; [rewrite !(Nat2Z.inj_succ (length _)), !Z.mul_succ_r, !(Z.add_comm (8 * _) 8), !Z.add_assoc; reflexivity|]. split; [exact C'|]. split; [now constructor|]. split; [cbn; lia|]. split.
    + destruct D1 as (A & B & C & _). apply holds_cons; try assumption; [unfold zlen in *; cbn [length] in *; lia|]. rewrite O' by lia. unfold upd. now rewrite Z.eqb_refl.
    + split.
      * intros a A. rewrite O' by lia. unfold upd. destruct (Z.eqb_spec a d); [lia | reflexivity].
      * rewrite LB_powS, !lval_cons. nia.
Qed.
Lemma does_O : does 0 (fun m s d c b => Ok (m, s, d, c)).
Proof.
  intros m s d c b [|] [|] L1 L2 _ _ Hc Hb _ D _; try discriminate. exists m, c, []. rewrite Z.mul_0_r, !Z.add_0_r. split; [reflexivity|].
  split; [exact Hc|]. split; [constructor|]. split; [reflexivity|]. split; [exact D|]. split; [intros a _; reflexivity|]. cbn [lval]. change (LB ^ Z.of_nat 0) with 1. lia.
Qed.
Lemma c_block_does core : core_does core -> forall n, does n (c_block core n).
Proof.
  intros F. induction n as [|n IH]; [exact does_O|]. intros m s d c b ys xs. exact (does_S core _ n F IH m s d c b ys xs).
Qed.

(** * The 128-bit type *)
Lemma carry_add a c : is_limb a -> is_limb c -> u64 (a + c) + LB * bz (u64 (a + c) <? c) = a + c.
Proof. intros A C. destruct (add_step a c A C) as [E1 E2]. rewrite E1, E2. pose proof (Z.div_mod (a + c) LB ltac:(pose proof LB_pos; lia)). lia. Qed.
Lemma bz_range x : 0 <= bz x <= 1. Proof. destruct x; cbn; lia. Qed.
Lemma udbl_does : core_does udbl_core.
Proof.
  intros m s d c b y ys x xs Hy Hx Hc Hb Hs Hd. unfold udbl_core. rewrite (load_cons _ _ _ _ Hs), (load_cons _ _ _ _ Hd). cbn [bind]. rewrite (store_cons _ _ _ _ _ Hd), (ptr _ _ _ _ Hs), (ptr _ _ _ _ Hd). cbn [bind].
  assert (0 <= y * b <= (LB - 1) * (LB - 1)) as P by (unfold is_limb in *; clear - Hy Hb; nia).
  rewrite Z.mod_small by (change (2 ^ 128) with (LB * LB); pose proof LB_gt1; nia). rewrite Z.shiftr_div_pow2 by lia. change (2 ^ 64) with LB.
  assert (0 <= y * b / LB <= LB - 2) as Q. { split; [apply Z.div_pos; [lia | exact LB_pos]|]. apply Z.lt_succ_r. apply Z.div_lt_upper_bound; [exact LB_pos|]. pose proof LB_gt1. nia. }
  rewrite (u64_limb (y * b / LB)) by (unfold is_limb; lia).
  pose proof (carry_add (u64 (y * b)) c (is_limb_u64 _) Hc) as E1. set (r0 := u64 (u64 (y * b) + c)) in *. assert (is_limb r0) as R0 by apply is_limb_u64.
  pose proof (carry_add r0 x R0 Hx) as E2. set (r2 := u64 (r0 + x)) in *. assert (is_limb r2) as R2 by apply is_limb_u64.
  pose proof (Z.div_mod (y * b) LB ltac:(pose proof LB_pos; lia)) as DM. rewrite u64_LB in E1.
  pose proof (bz_range (r0 <? c)) as B1. pose proof (bz_range (r2 <? x)) as B2. set (b1 := bz (r0 <? c)) in *. set (b2 := bz (r2 <? x)) in *.
  assert (r2 + LB * (y * b / LB + b1 + b2) = x + b * y + c) as V by (clear - E1 E2 DM; lia).
  assert (y * b / LB + b1 + b2 < LB) as T. { clear - V P Hx Hc R2. unfold is_limb in *. pose proof LB_gt1. nia. }
  rewrite (u64_limb (y * b / LB + b1)) by (unfold is_limb; lia). rewrite u64_limb by (unfold is_limb; lia).
  exists r2, (y * b / LB + b1 + b2). split; [reflexivity|]. split; [exact R2|]. split; [unfold is_limb; lia | exact V].
Qed.

(** * Half limbs *)
Definition H32 : Z := 2 ^ 32.
Lemma LB_H32 : LB = H32 * H32. Proof. reflexivity. Qed.
Lemma low_half y : is_limb y -> Z.shiftr (u64 (Z.shiftl y 32)) 32 = y mod H32.
Proof.
  intros _. rewrite Z.shiftr_div_pow2, Z.shiftl_mul_pow2 by lia. rewrite u64_LB, LB_H32. change (2 ^ 32) with H32. rewrite Z.mul_mod_distr_r by discriminate.
  apply Z.div_mul. discriminate.
Qed.
Lemma high_half y : is_limb y -> Z.shiftr y 32 = y / H32. Proof. intros _. now rewrite Z.shiftr_div_pow2 by lia. Qed.
Lemma halves y : is_limb y -> 0 <= y / H32 < H32 /\ 0 <= y mod H32 < H32 /\ y = H32 * (y / H32) + y mod H32.
Proof.
  intros H. unfold is_limb in H. rewrite LB_H32 in H. pose proof (Z.div_mod y H32 ltac:(discriminate)). pose proof (Z.mod_pos_bound y H32 ltac:(reflexivity)).
  split; [|split; assumption]. split; [apply Z.div_pos; [lia | reflexivity] | apply Z.div_lt_upper_bound; [reflexivity | lia]].
Qed.
Lemma half_prod p q : 0 <= p < H32 -> 0 <= q < H32 -> 0 <= p * q <= (H32 - 1) * (H32 - 1) /\ is_limb (p * q) /\ 0 <= p * q / H32 <= H32 - 2.
Proof.
  intros P Q. assert (0 <= p * q <= (H32 - 1) * (H32 - 1)) as B by nia. assert (1 < H32) as G by reflexivity.
  split; [exact B|]. split; [unfold is_limb; rewrite LB_H32; nia|]. split; [apply Z.div_pos; lia|]. apply Z.lt_succ_r, Z.div_lt_upper_bound; nia.
Qed.
(** Adding into a pair of limbs *)
Lemma pair_add hi lo c v : is_limb lo -> is_limb c -> lo + LB * hi + c = v -> 0 <= hi -> v < LB * LB ->
  is_limb (u64 (lo + c)) /\ u64 (hi + bz (u64 (lo + c) <? c)) = hi + bz (u64 (lo + c) <? c) /\
  u64 (lo + c) + LB * (hi + bz (u64 (lo + c) <? c)) = v /\ 0 <= hi + bz (u64 (lo + c) <? c).
Proof.
  intros L C V P B. pose proof (carry_add lo c L C) as E. pose proof (is_limb_u64 (lo + c)) as R. set (r := u64 (lo + c)) in *. pose proof (bz_range (r <? c)) as Z1. set (z := bz (r <? c)) in *.
  assert (r + LB * (hi + z) = v) as V' by (clear - E V; lia). split; [exact R|]. split; [|split; [exact V' | lia]].
  apply u64_limb. unfold is_limb in *. split; [lia|]. clear - V' R B. pose proof LB_pos. nia.
Qed.
Lemma half_does : core_does half_core.
Proof.
  intros m s d c b y ys x xs Hy Hx Hc Hb Hs Hd. unfold half_core. rewrite (load_cons _ _ _ _ Hs), (load_cons _ _ _ _ Hd). cbn [bind].
  rewrite (store_cons _ _ _ _ _ Hd), (ptr _ _ _ _ Hs), (ptr _ _ _ _ Hd). cbn [bind].
  rewrite !low_half by assumption. rewrite !(high_half y), !(high_half b) by assumption.
  destruct (halves y Hy) as (Y1 & Y0 & EY). destruct (halves b Hb) as (B1 & B0 & EB). set (s1 := y / H32) in *. set (s0 := y mod H32) in *. set (b1 := b / H32) in *. set (b0 := b mod H32) in *.
  destruct (half_prod s0 b1 Y0 B1) as (PX & LX & DX). destruct (half_prod s0 b0 Y0 B0) as (P0 & L0 & _). destruct (half_prod s1 b0 Y1 B0) as (PY & LY & DY). destruct (half_prod s1 b1 Y1 B1) as (P1 & L1 & _).
  rewrite (u64_limb _ LX), (u64_limb _ L0), (u64_limb _ LY), (u64_limb _ L1). rewrite !(high_half _ LX), !(high_half _ LY).
  assert (y * b = LB * (s1 * b1) + H32 * (s0 * b1) + H32 * (s1 * b0) + s0 * b0) as E by (rewrite EY, EB, LB_H32; ring).
  clearbody s1 s0 b1 b0. set (rx := s0 * b1) in *. set (ry := s1 * b0) in *. set (r0 := s0 * b0) in *. set (r1 := s1 * b1) in *. clearbody rx ry r0 r1.
  assert (forall r, is_limb r -> u64 (Z.shiftl r 32) = (r mod H32) * H32) as SH.
  { intros r _. rewrite Z.shiftl_mul_pow2, u64_LB, LB_H32 by lia. change (2 ^ 32) with H32. now rewrite Z.mul_mod_distr_r by discriminate. }
  rewrite (SH rx LX), (SH ry LY). clear SH.
  destruct (halves rx LX) as (_ & MX & EX). destruct (halves ry LY) as (_ & MY & EY'). set (hx := rx / H32) in *. set (hy := ry / H32) in *. set (mx := rx mod H32) in *. set (my := ry mod H32) in *. clearbody hx hy mx my.
  rewrite (u64_limb (r1 + hx)) by (clear - P1 DX; unfold is_limb; rewrite LB_H32; assert (1 < H32) by reflexivity; nia).
  rewrite (u64_limb (r1 + hx + hy)) by (clear - P1 DX DY; unfold is_limb; rewrite LB_H32; assert (1 < H32) by reflexivity; nia).
  assert (is_limb (mx * H32)) as LMX by (clear - MX; unfold is_limb; rewrite LB_H32; assert (1 < H32) by reflexivity; nia).
  assert (is_limb (my * H32)) as LMY by (clear - MY; unfold is_limb; rewrite LB_H32; assert (1 < H32) by reflexivity; nia).
  assert (r0 + LB * (r1 + hx + hy) + mx * H32 + my * H32 = y * b) as E'. { rewrite E, EX, EY', LB_H32. ring. }
  assert (y * b + c + x < LB * LB) as T. { clear - Hy Hb Hc Hx. unfold is_limb in *. pose proof LB_gt1. nia. }
  assert (0 <= r1 + hx + hy) as PH by (clear - P1 DX DY; lia). set (h := r1 + hx + hy) in *. clearbody h.
  set (wx := mx * H32) in *. set (wy := my * H32) in *. clearbody wx wy. clear E EX EY' P1 PX PY P0 DX DY MX MY EY EB.
  destruct (pair_add h r0 wx _ L0 LMX eq_refl PH) as (R1 & U1 & V1 & Q1); [clear - E' T LMY Hc Hx; unfold is_limb in *; lia|]. rewrite U1. set (h1 := h + _) in *. set (a1 := u64 (r0 + wx)) in *. clearbody h1 a1.
  destruct (pair_add h1 a1 wy _ R1 LMY eq_refl Q1) as (R2 & U2 & V2 & Q2); [clear - E' T V1 Hc Hx; unfold is_limb in *; lia|]. rewrite U2. set (h2 := h1 + _) in *. set (a2 := u64 (a1 + wy)) in *. clearbody h2 a2.
  destruct (pair_add h2 a2 c _ R2 Hc eq_refl Q2) as (R3 & U3 & V3 & Q3); [clear - E' T V1 V2 Hx; unfold is_limb in *; lia|]. rewrite U3. set (h3 := h2 + _) in *. set (a3 := u64 (a2 + c)) in *. clearbody h3 a3.
  destruct (pair_add h3 a3 x _ R3 Hx eq_refl Q3) as (R4 & U4 & V4 & Q4); [clear - E' T V1 V2 V3; lia|]. rewrite U4. set (h4 := h3 + _) in *. set (a4 := u64 (a3 + x)) in *. clearbody h4 a4.
  exists a4, h4. split; [reflexivity|]. split; [exact R4|]. split.
  - clear - E' T V1 V2 V3 V4 R4 Q4. unfold is_limb in *. split; [exact Q4|]. pose proof LB_pos. nia.
  - clear - E' V1 V2 V3 V4. lia.
Qed.

(** * The assembly *)
(** What MULADDC_CORE computes when r8 is 0 *)
Definition acore (m : mem) (s d c b : Z) : outcome (mem * Z * Z * Z) :=
  y <- load m s ;;
  let p := y * b in
  let t := p mod 2 ^ 64 + c in
  let h := u64 (p / 2 ^ 64 + 0 + bz (2 ^ 64 <=? t)) in
  x <- load m d ;;
  let v := x + u64 t in
  m <- store m d (u64 v) ;;
  Ok (m, u64 (s + 8), u64 (d + 8), u64 (0 + h + bz (2 ^ 64 <=? v))).
Lemma asm_core_run st : regs st R8 = 0 ->
  match acore (cmem st) (regs st RSI) (regs st RDI) (regs st RCX) (regs st RBX) with
  | Ok (m, s, d, c) => exists st', exec asm_core st = Ok st' /\ cmem st' = m /\ regs st' RSI = s /\ regs st' RDI = d /\ regs st' RCX = c /\ regs st' RBX = regs st RBX /\ regs st' R8 = 0
  | UB => exec asm_core st = UB
  | _ => False
  end.
Proof.
  intros R. destruct st as [r f m]. cbn [regs cmem] in *. unfold acore, asm_core. cbn [exec step bind regs cmem].
  assert (forall a, (exists x, load m a = Ok x) \/ load m a = UB) as LD. { intros a. unfold load. destruct (a mod 8 =? 0); [|now right]. destruct (m a); [left; eauto | now right]. }
  destruct (LD (r RSI)) as [[y E]|E]; rewrite E; cbn [bind exec step regs cmem cf setr reg_eqb]; [|reflexivity].
  rewrite R. destruct (LD (r RDI)) as [[x E']|E']; rewrite E'; cbn [bind exec step regs cmem cf setr reg_eqb]; [|reflexivity].
  unfold store. rewrite E'. cbn [bind exec step regs cmem cf setr reg_eqb].
  eexists. split; [reflexivity|]. cbn [regs cmem setr reg_eqb]. repeat split; try reflexivity. exact R.
Qed.
Lemma exec_app p q s : exec (p ++ q) s = (t <- exec p s ;; exec q t).
Proof. revert s. induction p as [|i p IH]; intros s; [reflexivity|]. cbn [exec app]. destruct (step i s); cbn [bind]; auto. Qed.
Lemma asm_cores n : forall st, regs st R8 = 0 ->
  (st' <- exec (concat (repeat asm_core n)) st ;; Ok (cmem st', regs st' RSI, regs st' RDI, regs st' RCX)) = c_block acore n (cmem st) (regs st RSI) (regs st RDI) (regs st RCX) (regs st RBX).
Proof.
  induction n as [|n IH]; intros st R; [reflexivity|]. cbn [repeat concat c_block]. rewrite exec_app. pose proof (asm_core_run st R) as H.
  destruct (acore _ _ _ _ _) as [[[[m s] d] c]| | | |]; try contradiction; cbn [bind].
  - destruct H as (st' & E & M & S1 & D & C & B & R'). rewrite E. cbn [bind]. rewrite IH by exact R'. now rewrite M, S1, D, C, B.
  - rewrite H. reflexivity.
Qed.
Lemma asm_block_eq junk jf n m s d c b : asm_block junk jf n m s d c b = c_block acore n m s d c b.
Proof.
  unfold asm_block. rewrite exec_app. cbn [asm_init exec step bind regs cmem cf]. rewrite asm_cores; [reflexivity|]. cbn [regs setr reg_eqb]. apply Z.lxor_nilpotent.
Qed.
Lemma acore_does : core_does acore.
Proof.
  intros m s d c b y ys x xs Hy Hx Hc Hb Hs Hd. unfold acore. rewrite (load_cons _ _ _ _ Hs), (load_cons _ _ _ _ Hd). cbn [bind].
  rewrite (store_cons _ _ _ _ _ Hd), (ptr _ _ _ _ Hs), (ptr _ _ _ _ Hd). cbn [bind]. change (2 ^ 64) with LB. rewrite Z.add_0_r, Z.add_0_l.
  assert (0 <= y * b <= (LB - 1) * (LB - 1)) as P by (unfold is_limb in *; clear - Hy Hb; nia).
  assert (0 <= y * b / LB <= LB - 2) as Q. { split; [apply Z.div_pos; [lia | exact LB_pos]|]. apply Z.lt_succ_r. apply Z.div_lt_upper_bound; [exact LB_pos|]. pose proof LB_gt1. nia. }
  pose proof (Z.div_mod (y * b) LB ltac:(pose proof LB_pos; lia)) as DM. pose proof (Z.mod_pos_bound (y * b) LB LB_pos) as MB. set (h := y * b / LB) in *. set (l := y * b mod LB) in *.
  assert (forall a e, is_limb a -> is_limb e -> u64 (a + e) + LB * bz (LB <=? a + e) = a + e) as CA.
  { intros a e A E. unfold is_limb in *. rewrite u64_LB. pose proof LB_pos. destruct (Z.leb_spec LB (a + e)); cbn [bz]; [|rewrite Z.mod_small by lia; lia].
    replace (a + e) with (a + e - LB + 1 * LB) at 1 by lia. rewrite Z.mod_add, Z.mod_small by lia. lia. }
  pose proof (CA l c MB Hc) as E1. pose proof (is_limb_u64 (l + c)) as R1. set (z1 := bz (LB <=? l + c)) in *. assert (0 <= z1 <= 1) as Z1 by apply bz_range. set (w := u64 (l + c)) in *.
  pose proof (CA x w Hx R1) as E2. pose proof (is_limb_u64 (x + w)) as R2. set (z2 := bz (LB <=? x + w)) in *. assert (0 <= z2 <= 1) as Z2 by apply bz_range. set (v := u64 (x + w)) in *.
  clearbody z1 z2 w v h l. clear CA.
  rewrite (u64_limb (h + z1)) by (unfold is_limb; lia).
  assert (v + LB * (h + z1 + z2) = x + b * y + c) as V by (clear - E1 E2 DM; lia).
  assert (h + z1 + z2 < LB) as T. { clear - V P Hx Hc R2. unfold is_limb in *. pose proof LB_gt1. nia. }
  rewrite u64_limb by (unfold is_limb; lia). exists v, (h + z1 + z2). split; [reflexivity|]. split; [exact R2|]. split; [unfold is_limb; lia | exact V].
Qed.
