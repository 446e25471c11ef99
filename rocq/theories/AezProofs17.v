(** The common part of aez.c with the functions of the AES-NI path, and the ARM functions. *)
From Verif Require Import Base BaseFacts AezModel AezProofs AezProofs2 AezProofs3 AezProofs4 PrpSpec AezProofs8 AezAuthModel AezArchModel AezArchSpec.
From Coq Require Import Lia.

Lemma ni_setup h key k old : aez_setup_any h key k old = setup_g double_block bswap16 h key k old.
Proof. reflexivity. Qed.
Lemma ni_encrypt R c n nb a src b dst : aez_encrypt_a R c n nb a src b dst = encrypt_g double_block bswap16 sll4 srl4 is_zero (aes R) (aes4 R) c n nb a src b dst.
Proof. reflexivity. Qed.
Lemma ni_decrypt R c n nb a src b dst : aez_decrypt_a R c n nb a src b dst = decrypt_g double_block bswap16 sll4 srl4 is_zero (aes R) (aes4 R) c n nb a src b dst.
Proof. reflexivity. Qed.

Lemma all_bytes (P : Z -> bool) : forallb P (map Z.of_nat (seq 0 256)) = true -> forall b, is_byte b -> P b = true.
Proof.
  intros H b Hb. rewrite forallb_forall in H. apply H. unfold is_byte in Hb. rewrite <- (Z2Nat.id b) by lia. apply in_map. apply in_seq. lia.
Qed.
Ltac bytewise f := intros; apply Z.eqb_eq; apply (all_bytes f); [vm_compute; reflexivity|assumption].
Lemma sshr7_1 b : is_byte b -> Z.land (u8 (Z.shiftr (if 128 <=? b then b - 256 else b) 7)) 1 = b / 128.
Proof. bytewise (fun b => Z.land (u8 (Z.shiftr (if 128 <=? b then b - 256 else b) 7)) 1 =? b / 128). Qed.
Lemma sshr7_135 b : is_byte b -> Z.land (u8 (Z.shiftr (if 128 <=? b then b - 256 else b) 7)) 135 = 135 * (b / 128).
Proof. bytewise (fun b => Z.land (u8 (Z.shiftr (if 128 <=? b then b - 256 else b) 7)) 135 =? 135 * (b / 128)). Qed.
Lemma sshr4_15 b : is_byte b -> Z.land (u8 (Z.shiftr (if 128 <=? b then b - 256 else b) 4)) 15 = b / 16.
Proof. bytewise (fun b => Z.land (u8 (Z.shiftr (if 128 <=? b then b - 256 else b) 4)) 15 =? b / 16). Qed.
Lemma bshl4_v b : is_byte b -> u8 (Z.shiftl b 4) = 16 * (b mod 16).
Proof. bytewise (fun b => u8 (Z.shiftl b 4) =? 16 * (b mod 16)). Qed.
Lemma bshl4_15 b : is_byte b -> u8 (Z.shiftl (Z.land b 15) 4) = 16 * (b mod 16).
Proof. bytewise (fun b => u8 (Z.shiftl (Z.land b 15) 4) =? 16 * (b mod 16)). Qed.
Lemma bshr4_v b : is_byte b -> Z.shiftr b 4 = b / 16.
Proof. bytewise (fun b => Z.shiftr b 4 =? b / 16). Qed.
Lemma bshl1_0 b : is_byte b -> Z.lxor 0 (u8 (Z.shiftl b 1)) = 2 * b - 256 * (b / 128).
Proof. bytewise (fun b => Z.lxor 0 (u8 (Z.shiftl b 1)) =? 2 * b - 256 * (b / 128)). Qed.
Lemma bshl1_1 b : is_byte b -> Z.lxor 1 (u8 (Z.shiftl b 1)) = 2 * b - 256 * (b / 128) + 1.
Proof. bytewise (fun b => Z.lxor 1 (u8 (Z.shiftl b 1)) =? 2 * b - 256 * (b / 128) + 1). Qed.
Lemma bshl1_q b p : is_byte b -> is_byte p -> Z.lxor (p / 128) (u8 (Z.shiftl b 1)) = 2 * b - 256 * (b / 128) + p / 128.
Proof.
  intros Hb Hp. unfold is_byte in Hp. assert (p / 128 = 0 \/ p / 128 = 1) as [-> | ->] by lia; [rewrite bshl1_0 by exact Hb; lia|apply bshl1_1, Hb].
Qed.
Lemma bshl1_v b : is_byte b -> u8 (Z.shiftl b 1) = 2 * b - 256 * (b / 128).
Proof. bytewise (fun b => u8 (Z.shiftl b 1) =? 2 * b - 256 * (b / 128)). Qed.
Lemma lxor_nibs p m : 0 <= p < 16 -> 0 <= m < 16 -> Z.lxor p (16 * m) = 16 * m + p.
Proof.
  intros Hp Hm. assert (is_byte (16 * m + p)) as Hb by (unfold is_byte; lia).
  assert (forall b, is_byte b -> Z.lxor (b mod 16) (16 * (b / 16)) = b) as H by (bytewise (fun b => Z.lxor (b mod 16) (16 * (b / 16)) =? b)).
  specialize (H _ Hb). replace ((16 * m + p) mod 16) with p in H by lia. replace ((16 * m + p) / 16) with m in H by lia. exact H.
Qed.
Ltac bytes16 x H :=
  let L := fresh "L" in let B := fresh "B" in destruct H as [L B];
  do 16 (destruct x as [|? x]; [discriminate L|]); destruct x; [|discriminate L]; unfold is_bytes in B;
  repeat match goal with B : Forall _ (_ :: _) |- _ => inversion B; clear B; subst end.
Lemma pack b c : is_byte b -> is_byte c -> Z.lxor (c / 16) (16 * (b mod 16)) = 16 * (b mod 16) + c / 16.
Proof. unfold is_byte. intros Hb Hc. apply lxor_nibs; lia. Qed.
Lemma pack_hi b c : is_byte b -> is_byte c -> (16 * (b mod 16) + c / 16) / 16 = b mod 16.
Proof. unfold is_byte. lia. Qed.
Lemma pack_lo b c : is_byte b -> is_byte c -> (16 * (b mod 16) + c / 16) mod 16 = c / 16.
Proof. unfold is_byte. lia. Qed.
Lemma pack_byte b c : is_byte b -> is_byte c -> is_byte (16 * (b mod 16) + c / 16).
Proof. unfold is_byte. lia. Qed.
Lemma byte_0 : is_byte 0. Proof. unfold is_byte. lia. Qed.
Lemma arm_srl4_ok x : blk x -> arm_srl4 x = bswap16 (srl4 (bswap16 x)).
Proof.
  intros Hx. destruct (shift_up x Hx) as [B E]. assert (nibs (arm_srl4 x) = skipn 1 (nibs x) ++ [0] /\ blk (arm_srl4 x)) as [E' B'].
  - clear B E. bytes16 x Hx. pose proof byte_0. unfold arm_srl4, vext, sshr, bshl, vand, vxor, nibs. cbn [skipn firstn app repeat map zipw xorb_list].
    rewrite !sshr4_15, Z.land_0_r, !bshl4_v by assumption. match goal with |- context [Z.lxor 0 ?e] => change (Z.lxor 0 e) with (Z.lxor (0 / 16) e) end. rewrite !pack by assumption.
    split.
    + cbn [flat_map skipn app]. rewrite !pack_hi, !pack_lo by assumption. reflexivity.
    + split; [reflexivity|]. repeat (apply Forall_cons; [apply pack_byte; assumption|]). constructor.
  - apply blk_ext; [exact B'|exact B|]. rewrite <- !nv_nibs, E, E'. reflexivity.
Qed.
Lemma arm_sll4_ok x : blk x -> arm_sll4 x = bswap16 (sll4 (bswap16 x)).
Proof.
  intros Hx. destruct (shift_down x Hx) as [B E]. assert (nibs (arm_sll4 x) = 0 :: firstn 31 (nibs x) /\ blk (arm_sll4 x)) as [E' B'].
  - clear B E. bytes16 x Hx. pose proof byte_0. unfold arm_sll4, vext, bshr, bshl, vand, vxor, nibs. cbn [skipn firstn app repeat map zipw xorb_list].
    rewrite Z.land_0_r. change (u8 (Z.shiftl 0 4)) with (16 * (0 mod 16)). rewrite !bshl4_15, !bshr4_v by assumption.
    rewrite !(Z.lxor_comm (16 * _)). rewrite !pack by assumption.
    split.
    + cbn [flat_map firstn app]. rewrite !pack_hi, !pack_lo by assumption. reflexivity.
    + split; [reflexivity|]. repeat (apply Forall_cons; [apply pack_byte; assumption|]). constructor.
  - apply blk_ext; [exact B'|exact B|]. rewrite <- !nv_nibs, E, E'. reflexivity.
Qed.
Lemma lxor_135 b0 q b : is_byte b0 -> is_byte b -> Z.lxor (256 * q + b) 135 = 256 * q + Z.lxor b 135.
Proof.
  intros _ Hb. unfold is_byte in Hb. change 256 with (2 ^ 8). rewrite (Z.mul_comm _ q). rewrite <- (lor_add b q 8) by lia.
  assert (0 <= Z.lxor b 135 < 2 ^ 8) as H by (assert (is_byte (Z.lxor b 135)) as X by (apply is_byte_lxor; unfold is_byte; lia); unfold is_byte in X; lia).
  rewrite <- (lor_add (Z.lxor b 135) q 8) by lia. apply Z.bits_inj'. intros i Hi. rewrite Z.lxor_spec, !Z.lor_spec, Z.lxor_spec.
  destruct (Z.ltb_spec i 8) as [L|L].
  - rewrite Z.mul_pow2_bits_low by lia. reflexivity.
  - assert (Z.testbit b i = false) as ->.
    { rewrite <- (Z.mod_small b (2 ^ 8)) by lia. apply Z.mod_pow2_bits_high. lia. }
    change 135 with (135 mod 2 ^ 8). rewrite Z.mod_pow2_bits_high by lia. cbn. rewrite xorb_false_r. reflexivity.
Qed.
Lemma carry_byte b p : is_byte b -> is_byte p -> is_byte (2 * b - 256 * (b / 128) + p / 128).
Proof. unfold is_byte. lia. Qed.
Lemma top_byte b p : is_byte b -> is_byte p -> is_byte (Z.lxor (135 * (p / 128)) (2 * b - 256 * (b / 128))).
Proof.
  intros Hb Hp. apply is_byte_lxor; [|unfold is_byte in *; lia]. unfold is_byte in *. assert (p / 128 = 0 \/ p / 128 = 1) as [-> | ->] by lia; lia.
Qed.
(** the bytes x of a number and those of its double; c: the byte whose top bit is shifted in *)
Fixpoint shl1 (x : bytes) (c : Z) : bytes :=
  match x with [] => [] | b :: r => (2 * b - 256 * (b / 128) + match r with [] => c | b' :: _ => b' / 128 end) :: shl1 r c end.
Lemma shl1_value x c : x <> [] -> be_decode (shl1 x c) = 2 * be_decode x + c - 256 ^ zlen x * (hd 0 x / 128).
Proof.
  unfold be_decode. induction x as [|b x IH]; [congruence|]. intros _. cbn [shl1 rev hd]. rewrite !le_decode_app, zlen_cons.
  assert (zlen (rev (shl1 x c)) = zlen x) as L1. { unfold zlen. rewrite rev_length. f_equal. clear. induction x; cbn [shl1 length]; congruence. }
  assert (zlen (rev x) = zlen x) as L2 by (unfold zlen; rewrite rev_length; reflexivity). rewrite L1, L2. cbn [le_decode].
  rewrite Z.pow_add_r, Z.pow_1_r by (pose proof (zlen_nonneg x); lia). destruct x as [|b' x].
  - change (256 ^ zlen (@nil Z)) with 1. cbn [shl1 rev le_decode]. lia.
  - rewrite IH by congruence. cbn [hd]. ring.
Qed.
Lemma carry_chain b0 b1 b2 b3 b4 b5 b6 b7 b8 b9 b10 b11 b12 b13 b14 b15 :
  is_bytes [b0; b1; b2; b3; b4; b5; b6; b7; b8; b9; b10; b11; b12; b13; b14; b15] ->
  be_decode [2 * b0 - 256 * (b0 / 128) + b1 / 128; 2 * b1 - 256 * (b1 / 128) + b2 / 128; 2 * b2 - 256 * (b2 / 128) + b3 / 128; 2 * b3 - 256 * (b3 / 128) + b4 / 128;
    2 * b4 - 256 * (b4 / 128) + b5 / 128; 2 * b5 - 256 * (b5 / 128) + b6 / 128; 2 * b6 - 256 * (b6 / 128) + b7 / 128; 2 * b7 - 256 * (b7 / 128) + b8 / 128;
    2 * b8 - 256 * (b8 / 128) + b9 / 128; 2 * b9 - 256 * (b9 / 128) + b10 / 128; 2 * b10 - 256 * (b10 / 128) + b11 / 128; 2 * b11 - 256 * (b11 / 128) + b12 / 128;
    2 * b12 - 256 * (b12 / 128) + b13 / 128; 2 * b13 - 256 * (b13 / 128) + b14 / 128; 2 * b14 - 256 * (b14 / 128) + b15 / 128;
    Z.lxor (135 * (b0 / 128)) (2 * b15 - 256 * (b15 / 128))]
  = gf_double (be_decode [b0; b1; b2; b3; b4; b5; b6; b7; b8; b9; b10; b11; b12; b13; b14; b15]).
Proof.
  set (x := [b0; b1; b2; b3; b4; b5; b6; b7; b8; b9; b10; b11; b12; b13; b14; b15]). intros B.
  assert (is_byte b0 /\ is_byte b15) as [H0 H15].
  { unfold is_bytes, x in B. rewrite Forall_forall in B. split; apply B; cbn [In]; tauto. }
  pose proof (shl1_value x 0 ltac:(discriminate)) as V. change (hd 0 x) with b0 in V. change (256 ^ zlen x) with (2 ^ 128) in V.
  pose proof (be_decode_range x B) as Rx. change (256 ^ zlen x) with (2 ^ 128) in Rx.
  assert (2 ^ 127 <= be_decode x <-> 1 <= b0 / 128) as T.
  { unfold x, be_decode. cbn [rev]. change [b0; b1; b2; b3; b4; b5; b6; b7; b8; b9; b10; b11; b12; b13; b14; b15] with ([b0] ++ [b1; b2; b3; b4; b5; b6; b7; b8; b9; b10; b11; b12; b13; b14; b15]).
    change ((((((((((((((((([] ++ [b15]) ++ [b14]) ++ [b13]) ++ [b12]) ++ [b11]) ++ [b10]) ++ [b9]) ++ [b8]) ++ [b7]) ++ [b6]) ++ [b5]) ++ [b4]) ++ [b3]) ++ [b2]) ++ [b1]) ++ [b0]))
      with (rev [b1; b2; b3; b4; b5; b6; b7; b8; b9; b10; b11; b12; b13; b14; b15] ++ [b0]).
    rewrite le_decode_app. assert (is_bytes [b1; b2; b3; b4; b5; b6; b7; b8; b9; b10; b11; b12; b13; b14; b15]) as B1 by (unfold is_bytes, x in B; inversion B; assumption).
    pose proof (be_decode_range _ B1) as R1. unfold be_decode in R1. revert R1. generalize (le_decode (rev [b1; b2; b3; b4; b5; b6; b7; b8; b9; b10; b11; b12; b13; b14; b15])) as v.
    change (256 ^ zlen [b1; b2; b3; b4; b5; b6; b7; b8; b9; b10; b11; b12; b13; b14; b15]) with (2 ^ 120). change (256 ^ zlen (rev [b1; b2; b3; b4; b5; b6; b7; b8; b9; b10; b11; b12; b13; b14; b15])) with (2 ^ 120).
    cbn [le_decode]. change (2 ^ 127) with (128 * 2 ^ 120). unfold is_byte in H0. generalize H0. clear. intros H0 v Hv. set (P := 2 ^ 120) in *. assert (0 < P) by (unfold P; lia). clearbody P. split; intros.
    - apply Z.div_le_lower_bound; nia.
    - assert (128 <= b0) by lia. nia. }
  match goal with |- be_decode ?y = _ => change y with (removelast (shl1 x 0) ++ [Z.lxor (135 * (b0 / 128)) (2 * b15 - 256 * (b15 / 128))]) end.
  assert (shl1 x 0 = removelast (shl1 x 0) ++ [2 * b15 - 256 * (b15 / 128) + 0]) as Es by reflexivity.
  assert (is_byte (2 * b15 - 256 * (b15 / 128))) as Ht by (unfold is_byte in *; lia).
  assert (forall l v, be_decode (l ++ [v]) = 256 * be_decode l + v) as Sn.
  { intros l v. unfold be_decode. rewrite rev_app_distr. cbn [rev app le_decode]. lia. }
  rewrite Es, Sn in V. rewrite Sn. set (h := be_decode (removelast (shl1 x 0))) in *. set (t := 2 * b15 - 256 * (b15 / 128)) in *. set (v := be_decode x) in *.
  clearbody h t v. clear Es Sn x B Rx.
  unfold gf_double. destruct (Z.leb_spec (2 ^ 127) v) as [G|G].
  - assert (b0 / 128 = 1) as E0 by (unfold is_byte in H0; apply T in G; lia). rewrite E0 in *.
    replace (2 * v - 2 ^ 128) with (256 * h + t) by lia. rewrite (lxor_135 b0) by assumption. rewrite (Z.lxor_comm (135 * 1)). reflexivity.
  - assert (b0 / 128 = 0) as E0 by (unfold is_byte in H0; lia). rewrite E0 in *. change (135 * 0) with 0. rewrite Z.lxor_0_l. lia.
Qed.
Lemma arm_double_ok x : blk x -> arm_double x = bswap16 (double_block (bswap16 x)).
Proof.
  intros Hx. change (bswap16 (double_block (bswap16 x))) with (dbl x). destruct (dbl_value x Hx) as [B E].
  assert (be_decode (arm_double x) = gf_double (be_decode x) /\ blk (arm_double x)) as [E' B'].
  - clear B E. bytes16 x Hx. unfold arm_double, vext, sshr, bshl, vand, vxor. cbn [skipn firstn app repeat map zipw xorb_list].
    rewrite !sshr7_1, !sshr7_135 by assumption. rewrite !bshl1_q by assumption. rewrite bshl1_v by assumption.
    split.
    + apply carry_chain. unfold is_bytes. repeat (apply Forall_cons; [assumption|]). constructor.
    + split; [reflexivity|]. repeat (apply Forall_cons; [apply carry_byte; assumption|]). apply Forall_cons; [apply top_byte; assumption|constructor].
  - apply blk_ext; [exact B'|exact B|]. rewrite E, E'. reflexivity.
Qed.

Lemma arm_is_zero_ok x : blk x -> arm_is_zero x = is_zero x.
Proof.
  intros Hx. bytes16 x Hx. unfold arm_is_zero, is_zero. cbn [skipn firstn vor zipw forallb].
  assert (forall l, is_bytes l -> (le_decode l =? 0) = forallb (fun b => b =? 0) l) as D.
  { induction l as [|b l IH]; intros B; [reflexivity|]. unfold is_bytes in B. inversion B as [|? ? Hb Bl]; subst. cbn [le_decode forallb]. rewrite <- (IH Bl).
    pose proof (le_decode_range _ Bl). unfold is_byte in Hb. destruct (Z.eqb_spec b 0), (Z.eqb_spec (le_decode l) 0), (Z.eqb_spec (b + 256 * le_decode l) 0); cbn [andb]; try reflexivity; lia. }
  assert (forall a b, is_byte a -> is_byte b -> (Z.lor a b =? 0) = (a =? 0) && (b =? 0)) as O.
  { intros a b Ha Hb. destruct (Z.eqb_spec (Z.lor a b) 0) as [E|E].
    - apply Z.lor_eq_0_iff in E as [-> ->]. reflexivity.
    - destruct (Z.eqb_spec a 0), (Z.eqb_spec b 0); try reflexivity. subst. exfalso. apply E. reflexivity. }
  rewrite D by (unfold is_bytes; repeat (apply Forall_cons; [apply is_byte_lor; assumption|]); constructor).
  cbn [forallb]. rewrite !O by assumption. rewrite !andb_true_r.
  apply eq_true_iff_eq. rewrite !andb_true_iff. intuition.
Qed.
Lemma arm_mask (half : Z) m : 0 <= half <= 15 -> load pad (32 - half) = Ok m -> arm_sll4 m = sll4 m.
Proof.
  intros H. assert (exists k, (k <= 15)%nat /\ half = Z.of_nat k) as (k & Hk & ->) by (exists (Z.to_nat half); lia). clear H.
  do 16 (destruct k as [|k]; [intros E; vm_compute in E; injection E as <-; vm_compute; reflexivity|]). lia.
Qed.

Section Rounds.
  Variable R : bytes -> bytes.
  Lemma arm_aes_ok c x k : arm_aes R c x k = aes R c x k. Proof. reflexivity. Qed.
  Lemma arm_aes4_ok x a b c d : register_map R -> arm_aes4 R x a b c d = aes4 R x a b c d.
  Proof.
    intros H. unfold arm_aes4, arm_round, aes4, aesenc. do 7 f_equal. rewrite (H x), (H (vxor x zero)).
    assert (vxor x zero = firstn 16 x) as E.
    { unfold vxor, zero, zeros. generalize 16%nat. clear. induction x as [|b x IH]; intros [|n]; try reflexivity. cbn [repeat xorb_list firstn]. rewrite Z.lxor_0_r, IH. reflexivity. }
    rewrite E, firstn_firstn. reflexivity.
  Qed.
End Rounds.
