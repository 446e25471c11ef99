(** Multiplication in GF(2^128), the offsets of aez.c and the tweakable block cipher of AezSpec.v. *)
From Verif Require Import Base BaseFacts AezModel AezProofs AezProofs2 AezProofs3 AezProofs4 AezProofs5 AezProofs6 AezProofs7 PrpSpec PrpProofs AezSpec.
From Coq Require Import Lia.

Lemma vxor_is a b : vxor a b = a (+) b. Proof. reflexivity. Qed.
Lemma xor_rev a b : length a = length b -> rev a (+) rev b = rev (a (+) b).
Proof.
  revert b. induction a as [|x a IH]; intros [|y b] H; try discriminate; [reflexivity|].
  cbn [rev xorb_list]. rewrite xorb_list_app by (rewrite !rev_length; cbn in H; lia). rewrite IH by (cbn in H; lia). reflexivity.
Qed.
Lemma lxor_bytes x y a b : is_byte x -> is_byte y -> Z.lxor (x + 256 * a) (y + 256 * b) = Z.lxor x y + 256 * Z.lxor a b.
Proof.
  intros Hx Hy. unfold is_byte in *.
  assert (forall u v, 0 <= u < 256 -> u + 256 * v = Z.lor (v * 2 ^ 8) u) as E.
  { intros u v Hu. rewrite lor_add by (change (2 ^ 8) with 256; lia). change (2 ^ 8) with 256. lia. }
  assert (0 <= Z.lxor x y < 256) as R.
  { pose proof (xorb_list_bytes [x] [y]) as H. assert (is_bytes ([x] (+) [y])) as B by (apply H; repeat constructor; unfold is_byte; lia).
    inversion B as [|? ? B1 _]. exact B1. }
  rewrite !E by assumption.
  apply Z.bits_inj'. intros i Hi. rewrite Z.lxor_spec, !Z.lor_spec, !Z.lxor_spec.
  destruct (Z.ltb_spec i 8) as [H|H].
  - rewrite !Z.mul_pow2_bits_low by lia. reflexivity.
  - rewrite !Z.mul_pow2_bits by lia. rewrite Z.lxor_spec.
    assert (forall u, 0 <= u < 256 -> Z.testbit u i = false) as Z0.
    { intros u Hu. destruct (Z.eq_dec u 0) as [->|Hne]; [apply Z.bits_0|]. apply Z.bits_above_log2; [lia|].
      apply Z.log2_lt_pow2; [lia|]. assert (2 ^ 8 <= 2 ^ i) by (apply Z.pow_le_mono_r; lia). change (2 ^ 8) with 256 in *. lia. }
    rewrite !(Z0 x), !(Z0 y) by lia. rewrite !orb_false_r. reflexivity.
Qed.
Lemma le_xor a b : is_bytes a -> is_bytes b -> length a = length b -> le_decode (a (+) b) = Z.lxor (le_decode a) (le_decode b).
Proof.
  revert b. induction a as [|x a IH]; intros [|y b] Ha Hb Hl; try discriminate; [reflexivity|].
  inversion Ha; inversion Hb; subst. cbn [xorb_list le_decode]. rewrite IH by (assumption || (cbn in Hl; lia)).
  symmetry. apply lxor_bytes; assumption.
Qed.
Lemma be_xor a b : is_bytes a -> is_bytes b -> length a = length b -> be_decode (a (+) b) = Z.lxor (be_decode a) (be_decode b).
Proof.
  intros Ha Hb Hl. unfold be_decode. rewrite <- xor_rev by assumption.
  apply le_xor; try (apply is_bytes_rev; assumption). rewrite !rev_length. exact Hl.
Qed.

(** * Doubling *)
Definition P128 : Z := 2 ^ 128.
Lemma lxor_range a b : 0 <= a < P128 -> 0 <= b < P128 -> 0 <= Z.lxor a b < P128.
Proof.
  intros Ha Hb. unfold P128 in *. split; [apply Z.lxor_nonneg; lia|].
  assert (forall v, 0 <= v < 2 ^ 128 -> v mod 2 ^ 128 = v) as M by (intros; apply Z.mod_small; assumption).
  rewrite <- (M a Ha), <- (M b Hb), <- !Z.land_ones by lia.
  replace (Z.lxor (Z.land a (Z.ones 128)) (Z.land b (Z.ones 128))) with (Z.land (Z.lxor a b) (Z.ones 128)).
  - rewrite Z.land_ones by lia. apply Z.mod_pos_bound. lia.
  - apply Z.bits_inj'. intros i Hi. rewrite !Z.lxor_spec, !Z.land_spec, Z.lxor_spec. destruct (Z.testbit a i), (Z.testbit b i), (Z.testbit (Z.ones 128) i); reflexivity.
Qed.
Lemma top_bit v : 0 <= v < P128 -> Z.testbit v 127 = (2 ^ 127 <=? v).
Proof.
  unfold P128. intros H. rewrite Z.testbit_eqb by lia.
  change (2 ^ 128) with (2 * 2 ^ 127) in H. set (p := 2 ^ 127) in *. assert (0 < p) by (unfold p; lia). clearbody p.
  destruct (Z.leb_spec p v) as [E|E].
  - assert (v / p = 1) as -> by (symmetry; apply Z.div_unique with (r := v - p); lia). reflexivity.
  - rewrite Z.div_small by lia. reflexivity.
Qed.
Definition poly : Z := 2 ^ 128 + 135.
Lemma double_xor_form v : 0 <= v < P128 -> gf_double v = Z.lxor (2 * v) (if Z.testbit v 127 then poly else 0).
Proof.
  intros H. rewrite top_bit by exact H. unfold gf_double. destruct (Z.leb_spec (2 ^ 127) v) as [E|E]; [|rewrite Z.lxor_0_r; reflexivity].
  assert (2 * v - 2 ^ 128 = Z.lxor (2 * v) (2 ^ 128)) as ->.
  { assert (2 * v = Z.lxor (2 * v - 2 ^ 128) (2 ^ 128)) as E2.
    { assert (0 <= 2 * v - 2 ^ 128 < 2 ^ 128) as R by (unfold P128 in H; change (2 ^ 128) with (2 * 2 ^ 127) in *; lia).
      transitivity (Z.lor (1 * 2 ^ 128) (2 * v - 2 ^ 128)).
      - rewrite lor_add by lia. lia.
      - rewrite Z.mul_1_l, Z.lor_comm. symmetry. apply Z.add_nocarry_lxor || idtac.
        rewrite Z.lxor_lor; [reflexivity|].
        apply Z.bits_inj'. intros i Hi. rewrite Z.land_spec, Z.bits_0, Z.pow2_bits_eqb by lia.
        destruct (Z.eqb_spec 128 i) as [<-|Hne]; [|apply andb_false_r].
        rewrite andb_true_r. destruct (Z.eq_dec (2 * v - 2 ^ 128) 0) as [->|Hz]; [apply Z.bits_0|].
        apply Z.bits_above_log2; [lia|]. apply Z.log2_lt_pow2; lia. }
    rewrite E2 at 2. rewrite Z.lxor_assoc, Z.lxor_nilpotent, Z.lxor_0_r. reflexivity. }
  rewrite Z.lxor_assoc. reflexivity.
Qed.
Lemma double_range v : 0 <= v < P128 -> 0 <= gf_double v < P128.
Proof.
  intros H. unfold gf_double, P128 in *. destruct (Z.leb_spec (2 ^ 127) v) as [E|E].
  - apply lxor_range; unfold P128; [|lia]. change (2 ^ 128) with (2 * 2 ^ 127) in *. lia.
  - change (2 ^ 128) with (2 * 2 ^ 127) in *. lia.
Qed.
Lemma double_lxor a b : 0 <= a < P128 -> 0 <= b < P128 -> gf_double (Z.lxor a b) = Z.lxor (gf_double a) (gf_double b).
Proof.
  intros Ha Hb. rewrite !double_xor_form by (try apply lxor_range; assumption). rewrite Z.lxor_spec.
  assert (2 * Z.lxor a b = Z.lxor (2 * a) (2 * b)) as ->.
  { rewrite !(Z.mul_comm 2). change 2 with (2 ^ 1). rewrite <- !Z.shiftl_mul_pow2 by lia. apply Z.shiftl_lxor. }
  assert (forall p q r s, Z.lxor (Z.lxor p q) (Z.lxor r s) = Z.lxor (Z.lxor p r) (Z.lxor q s)) as AC.
  { intros. rewrite !Z.lxor_assoc. f_equal. rewrite <- !Z.lxor_assoc. f_equal. apply Z.lxor_comm. }
  rewrite <- AC. f_equal. destruct (Z.testbit a 127), (Z.testbit b 127); cbn [xorb];
    rewrite ?Z.lxor_nilpotent, ?Z.lxor_0_r, ?Z.lxor_0_l; reflexivity.
Qed.
Lemma gf_times_range k v : 0 <= v < P128 -> 0 <= gf_times k v < P128.
Proof. intros H. induction k; cbn [gf_times]; try apply lxor_range; try apply double_range; assumption. Qed.

(** * Blocks *)
Lemma blk_range x : blk x -> 0 <= be_decode x < P128.
Proof. intros H. pose proof (be_decode_range x (proj2 H)) as R. rewrite (blk_zlen _ H) in R. exact R. Qed.
Lemma blk_encode v : blk (be_encode 16 v).
Proof. split; [apply be_encode_length|apply be_encode_bytes]. Qed.
Lemma blk_ext x y : blk x -> blk y -> be_decode x = be_decode y -> x = y.
Proof. intros [L B] [L' B'] H. rewrite <- (be_encode_decode x B), <- (be_encode_decode y B'), L, L', H. reflexivity. Qed.
Lemma decode_encode v : 0 <= v < P128 -> be_decode (be_encode 16 v) = v.
Proof. intros H. apply be_decode_encode. exact H. Qed.
Lemma be_zero : be_decode (zeros 16) = 0. Proof. reflexivity. Qed.
Lemma blk_xors a b : blk a -> blk b -> be_decode (a (+) b) = Z.lxor (be_decode a) (be_decode b).
Proof. intros [L B] [L' B']. apply be_xor; try assumption. lia. Qed.
Lemma blk_times k x : blk x -> blk (times k x).
Proof. intros H. destruct k; cbn [times]; try apply blk_zero. apply blk_encode. Qed.
Lemma times_1 x : blk x -> times 1 x = x.
Proof. intros H. apply blk_ext; [apply blk_encode|exact H|]. cbn [times gf_times]. apply decode_encode, blk_range, H. Qed.
(** doubling as aez.c does it *)
Definition dbl (x : bytes) : bytes := bswap16 (double_block (bswap16 x)).
Lemma dbl_value x : blk x -> blk (dbl x) /\ be_decode (dbl x) = gf_double (be_decode x).
Proof.
  intros H. split; [apply blk_rev, blk_double|]. unfold dbl, be_decode, bswap16 at 1. rewrite rev_involutive.
  rewrite double_value by (apply blk_rev; exact H). reflexivity.
Qed.
Lemma dbl_times k x : blk x -> 0 < k -> dbl (times k x) = times (2 * k) x.
Proof.
  intros H Hk. destruct k as [|p|p]; try lia. change (2 * Z.pos p) with (Z.pos (xO p)).
  destruct (dbl_value (times (Z.pos p) x) (blk_times _ _ H)) as [B E].
  apply blk_ext; [exact B|apply blk_encode|]. rewrite E. cbn [times gf_times].
  pose proof (gf_times_range p _ (blk_range _ H)) as R.
  rewrite !decode_encode by (try apply double_range; exact R). reflexivity.
Qed.
Lemma pow2_pos q : exists p, 2 ^ Z.of_nat q = Z.pos p.
Proof. assert (0 < 2 ^ Z.of_nat q) by lia. destruct (2 ^ Z.of_nat q); try lia. eexists. reflexivity. Qed.
(** the polynomial x^(q+3) + r, r < 8 *)
Lemma times_split q r x : blk x -> 0 <= r < 8 -> times (8 * 2 ^ Z.of_nat q + r) x = times (8 * 2 ^ Z.of_nat q) x (+) times r x.
Proof.
  intros H Hr. destruct (pow2_pos q) as [p ->].
  assert (forall k, blk (times k x)) as BT by (intros; apply blk_times, H).
  apply blk_ext; [apply BT|apply blk_xor; apply BT|]. rewrite blk_xors by apply BT.
  assert (forall u, gf_double u = gf_double u) as _ by reflexivity.
  pose proof (blk_range _ H) as Rv. set (v := be_decode x) in *. pose proof (gf_times_range p _ Rv) as RP.
  assert (forall k, be_decode (times (Z.pos k) x) = gf_times k v) as T by (intros k; apply decode_encode, gf_times_range, Rv).
  change (8 * Z.pos p) with (Z.pos (xO (xO (xO p)))).
  set (w := gf_times p v) in *.
  assert (r = 0 \/ r = 1 \/ r = 2 \/ r = 3 \/ r = 4 \/ r = 5 \/ r = 6 \/ r = 7) as D by lia.
  assert (forall a b, 0 <= a < P128 -> 0 <= b < P128 -> gf_double (Z.lxor a b) = Z.lxor (gf_double a) (gf_double b)) as DX by exact double_lxor.
  destruct D as [-> | D]; [rewrite Z.add_0_r; cbn [times]; rewrite be_zero, Z.lxor_0_r; reflexivity|].
  destruct D as [->|[->|[->|[->|[->|[->| ->]]]]]];
  match goal with |- context [Z.pos ?a + ?b] => let v := eval cbv [Z.add Pos.add] in (Z.pos a + b) in change (Z.pos a + b) with v end;
  rewrite ?T; cbn [gf_times]; fold w;
  repeat (first [rewrite DX by (repeat first [assumption|apply double_range|apply lxor_range]) ]);
  rewrite <- ?Z.lxor_assoc; reflexivity.
Qed.
Lemma times_2_4 x : blk x -> times 3 x = times 2 x (+) x /\ times 5 x = times 4 x (+) x /\ times 6 x = times 4 x (+) times 2 x /\
  times 7 x = times 4 x (+) times 2 x (+) x.
Proof.
  intros H. assert (forall k, blk (times k x)) as BT by (intros; apply blk_times, H).
  pose proof (blk_range _ H) as Rv. set (v := be_decode x) in *.
  assert (forall k, be_decode (times (Z.pos k) x) = gf_times k v) as T by (intros k; apply decode_encode, gf_times_range, Rv).
  repeat split; (apply blk_ext; [apply BT|repeat first [assumption|apply blk_xor|apply BT]|]);
  rewrite !blk_xors by (repeat first [assumption|apply blk_xor|apply BT]); rewrite !T; cbn [gf_times]; fold v;
  rewrite ?double_lxor by (repeat first [assumption|apply double_range|apply lxor_range]); reflexivity.
Qed.
