(** Proofs about base64.c: the second pass of decoding. *)
From Coq Require Import Lia.
From Verif Require Import Base BaseFacts Base64Model Base64Spec Base64Proofs Base64Proofs2.
Local Arguments rd1 : simpl never.
Local Arguments wr : simpl never.

Definition val (c : Z) : Z := if c =? 61 then 64 else match rd1 base64_dec_map c with Ok m => m | _ => 0 end.

(** The output of the second pass on an input without white space *)
Fixpoint decL (s : bytes) (j n x : Z) : bytes :=
  match s with
  | [] => []
  | c :: s' =>
    let m := val c in
    let j := u32 (j - (if m =? 64 then 1 else 0)) in
    let x := Z.lor (u32 (Z.shiftl x 6)) (Z.land m 0x3F) in
    if n + 1 =? 4 then
      (if 0 <? j then [u8 (Z.shiftr x 16)] else []) ++ (if 1 <? j then [u8 (Z.shiftr x 8)] else []) ++
      (if 2 <? j then [u8 x] else []) ++ decL s' j 0 x
    else decL s' j (n + 1) x
  end.

Lemma val_ok c : is_digit c \/ c = 61 -> rd1 base64_dec_map c = Ok (val c).
Proof.
  intros [(v & Hv & ->)| ->]; [|apply dec_map_pad]. destruct (dec_map_char v Hv) as (E & _ & N). unfold val.
  replace (b64_char v =? 61) with false by lia. rewrite E. reflexivity.
Qed.
Lemma val_digit v : 0 <= v < 64 -> val (b64_char v) = v.
Proof. intros Hv. destruct (dec_map_char v Hv) as (E & _ & N). unfold val. replace (b64_char v =? 61) with false by lia. rewrite E. reflexivity. Qed.

(** Writing one optional byte *)
Lemma put_opt (b : bool) d1 d2 v : (if b then 1 else 0) <= zlen d2 ->
  (if b then d <- wr (d1 ++ d2) (zlen d1) [v] ;; Ok (d, zlen d1 + 1) else Ok (d1 ++ d2, zlen d1)) =
  Ok ((d1 ++ (if b then [v] else [])) ++ skipn (if b then 1 else 0) d2, zlen (d1 ++ (if b then [v] else []))).
Proof.
  destruct b; intros H.
  - destruct d2 as [|y d2]; [rewrite zlen_nil in H; lia|]. rewrite wr1_ok by reflexivity. cbn [bind]. rewrite zlen_snoc. reflexivity.
  - rewrite app_nil_r. reflexivity.
Qed.

Lemma dec_loop_ok : forall t src a j n x d1 d2, src = a ++ t -> plain (strip t) -> zlen (decL (strip t) j n x) <= zlen d2 ->
  dec_loop (length t) src (zlen a) (d1 ++ d2) (zlen d1) j n x =
  Ok (d1 ++ decL (strip t) j n x ++ skipn (length (decL (strip t) j n x)) d2, zlen d1 + zlen (decL (strip t) j n x)).
Proof.
  induction t as [|c t IH]; intros src a j n x d1 d2 E P L.
  - cbn [length dec_loop strip filter decL app]. rewrite zlen_nil, skipn_O. f_equal. f_equal. lia.
  - cbn [length dec_loop].
    replace (rd1 src (zlen a)) with (Ok c) by (rewrite E, rd1_mid by reflexivity; reflexivity). cbn [bind].
    unfold chCR, chLF, chSP. change ((c =? 13) || (c =? 10) || (c =? 32)) with (white c).
    assert (En : src = (a ++ [c]) ++ t) by (rewrite E, <- app_assoc; reflexivity).
    replace (zlen a + 1) with (zlen (a ++ [c])) by (rewrite zlen_snoc; reflexivity).
    unfold strip in P, L |- *. cbn [filter] in P, L |- *. fold (strip t) in P, L |- *.
    destruct (white c) eqn:W; cbn [negb] in P, L |- *.
    + apply IH; assumption.
    + pose proof (Forall_inv P) as Pc. pose proof (Forall_inv_tail P) as Pt.
      rewrite (val_ok c Pc). cbn [bind]. cbv zeta. cbn [decL] in L |- *. cbv zeta in L |- *.
      set (j' := u32 (j - (if val c =? 64 then 1 else 0))) in *.
      set (x' := Z.lor (u32 (Z.shiftl x 6)) (Z.land (val c) 63)) in *.
      destruct (n + 1 =? 4).
      * rewrite !zlen_app in L.
        pose proof (zlen_nonneg (decL (strip t) j' 0 x')).
        pose proof (zlen_nonneg (if 1 <? j' then [u8 (Z.shiftr x' 8)] else [])).
        pose proof (zlen_nonneg (if 2 <? j' then [u8 x'] else [])).
        assert (L0 : forall (b : bool) (v : Z), zlen (if b then [v] else []) = if b then 1 else 0) by (intros []; reflexivity).
        assert (L1 : forall (b : bool) (v : Z), length (if b then [v] else []) = if b then 1%nat else 0%nat) by (intros []; reflexivity).
        rewrite !L0 in *.
        assert (S0 : forall (b : bool) (l : bytes), (if b then 1 else 0) <= zlen l -> zlen (skipn (if b then 1%nat else 0%nat) l) = zlen l - (if b then 1 else 0)).
        { intros b l Hl. unfold zlen in *. rewrite skipn_length. destruct b; lia. }
        rewrite (put_opt (0 <? j') d1 d2) by lia. cbn [bind].
        rewrite (put_opt (1 <? j')) by (rewrite S0; lia). cbn [bind].
        rewrite (put_opt (2 <? j')) by (rewrite !S0; rewrite ?S0; lia). cbn [bind].
        rewrite (IH src (a ++ [c])); try assumption.
        2:{ rewrite !S0; rewrite ?S0; rewrite ?S0; rewrite ?S0; lia. }
        rewrite !skipn_skipn_add, !zlen_app, !app_length, !L0, !L1. rewrite <- !app_assoc. f_equal. f_equal; [|lia].
        match goal with |- ?l = ?r => match l with context [skipn ?n d2] => match r with context [skipn ?m d2] =>
          replace n with m by lia end end end. reflexivity.
      * apply IH; assumption.
Qed.

(** * The accumulator *)
Definition step (x m : Z) : Z := Z.lor (u32 (Z.shiftl x 6)) (Z.land m 0x3F).

Lemma lor_add y m : 0 <= m < 64 -> Z.lor (y * 64) m = y * 64 + m.
Proof.
  intros H. rewrite <- (Z.lxor_lor (y * 64) m), <- Z.add_nocarry_lxor; [reflexivity| |].
  all: apply Z.bits_inj'; intros n Hn; rewrite Z.land_spec, Z.bits_0; change 64 with (2 ^ 6); destruct (Z_lt_le_dec n 6);
    [rewrite Z.mul_pow2_bits_low by lia; reflexivity|].
  all: replace m with (m mod 2 ^ 6) by (apply Z.mod_small; lia); rewrite Z.mod_pow2_bits_high by lia; apply andb_false_r.
Qed.

Lemma step_eq x m : 0 <= x -> exists q, step x m = 64 * x + m mod 64 - 2 ^ 32 * q /\ 0 <= step x m < 2 ^ 32.
Proof.
  intros Hx. unfold step. rewrite shl, land63 by lia. unfold u32.
  exists (x * 2 ^ 6 / 2 ^ 32).
  pose proof (Z.div_mod (x * 2 ^ 6) (2 ^ 32) ltac:(lia)) as D. pose proof (Z.mod_pos_bound m 64 ltac:(lia)).
  pose proof (Z.mod_pos_bound (x * 2 ^ 6) (2 ^ 32) ltac:(lia)).
  assert (M : (x * 2 ^ 6) mod 2 ^ 32 = (x mod 2 ^ 26) * 64).
  { change (2 ^ 32) with (2 ^ 26 * 2 ^ 6). rewrite Z.mul_mod_distr_r by lia. reflexivity. }
  pose proof (Z.mod_pos_bound x (2 ^ 26) ltac:(lia)).
  rewrite M in *. rewrite lor_add by assumption. split; [|lia]. change (2 ^ 6) with 64 in *. lia.
Qed.

Lemma step4 x m0 m1 m2 m3 : 0 <= x ->
  let xs := step (step (step (step x m0) m1) m2) m3 in
  let V := group (m0 mod 64) (m1 mod 64) (m2 mod 64) (m3 mod 64) in
  0 <= xs /\ u8 (Z.shiftr xs 16) = V / 65536 /\ u8 (Z.shiftr xs 8) = V / 256 mod 256 /\ u8 xs = V mod 256.
Proof.
  intros Hx xs V.
  destruct (step_eq x m0 Hx) as (q0 & E0 & R0). destruct (step_eq (step x m0) m1 ltac:(lia)) as (q1 & E1 & R1).
  destruct (step_eq (step (step x m0) m1) m2 ltac:(lia)) as (q2 & E2 & R2).
  destruct (step_eq (step (step (step x m0) m1) m2) m3 ltac:(lia)) as (q3 & E3 & R3). fold xs in E3, R3.
  assert (E : exists K, xs = V + 16777216 * K).
  { exists (x - 2 ^ 26 * q0 - 2 ^ 20 * q1 - 2 ^ 14 * q2 - 2 ^ 8 * q3). unfold V, group. rewrite E3, E2, E1, E0. lia. }
  destruct E as (K & E).
  assert (0 <= V < 16777216).
  { unfold V, group. pose proof (Z.mod_pos_bound m0 64 ltac:(lia)). pose proof (Z.mod_pos_bound m1 64 ltac:(lia)).
    pose proof (Z.mod_pos_bound m2 64 ltac:(lia)). pose proof (Z.mod_pos_bound m3 64 ltac:(lia)). lia. }
  clearbody xs V. clear E0 E1 E2 E3 R0 R1 R2.
  split; [lia|]. unfold u8. rewrite !shr by lia. change (2 ^ 16) with 65536. change (2 ^ 8) with 256. subst xs.
  replace (V + 16777216 * K) with (V + (256 * K) * 65536) at 1 by lia. rewrite Z.div_add by lia.
  replace (V + 16777216 * K) with (V + (65536 * K) * 256) by lia. rewrite Z.div_add by lia.
  rewrite Z_mod_plus_full.
  replace (V / 65536 + 256 * K) with (V / 65536 + K * 256) by lia. rewrite Z_mod_plus_full.
  replace (V / 256 + 65536 * K) with (V / 256 + (256 * K) * 256) by lia. rewrite Z_mod_plus_full.
  split; [|split; reflexivity]. apply Z.mod_small. Z.div_mod_to_equations; lia.
Qed.

(** * The output *)
(** The number of bytes decoded from [nd] digits and [p] padding characters *)
Definition dec_len (nd p : Z) : Z := 3 * ((nd + p) / 4) - Z.max 0 (p - (nd + p) mod 4).
Definition chars (vs : list Z) (p : nat) : bytes := map b64_char vs ++ repeat 61 p.
Definition is_val (v : Z) : Prop := 0 <= v < 64.

Lemma decL_group v0 v1 v2 v3 s x : is_val v0 -> is_val v1 -> is_val v2 -> is_val v3 -> 0 <= x ->
  exists x', 0 <= x' /\ decL (b64_char v0 :: b64_char v1 :: b64_char v2 :: b64_char v3 :: s) 3 0 x =
    regroup [v0; v1; v2; v3] ++ decL s 3 0 x'.
Proof.
  unfold is_val. intros H0 H1 H2 H3 Hx. destruct (step4 x v0 v1 v2 v3 Hx) as (X & A & B & C). cbv zeta in X, A, B, C.
  rewrite (Z.mod_small v0), (Z.mod_small v1), (Z.mod_small v2), (Z.mod_small v3) in A, B, C by lia.
  eexists. split; [exact X|]. cbn [decL]. rewrite !val_digit by lia. cbv zeta.
  replace (v0 =? 64) with false by lia. replace (v1 =? 64) with false by lia.
  replace (v2 =? 64) with false by lia. replace (v3 =? 64) with false by lia.
  change (0 + 1 =? 4) with false. change (0 + 1 + 1 =? 4) with false. change (0 + 1 + 1 + 1 =? 4) with false. change (0 + 1 + 1 + 1 + 1 =? 4) with true.
  cbn match. change (u32 (u32 (u32 (u32 (3 - 0) - 0) - 0) - 0)) with 3. change (0 <? 3) with true. change (1 <? 3) with true. change (2 <? 3) with true.
  cbn match. fold (step x v0). fold (step (step x v0) v1). fold (step (step (step x v0) v1) v2). fold (step (step (step (step x v0) v1) v2) v3).
  rewrite A, B, C. cbn [regroup app]. reflexivity.
Qed.

Lemma regroup_group v0 v1 v2 v3 r : regroup (v0 :: v1 :: v2 :: v3 :: r) = regroup [v0; v1; v2; v3] ++ regroup r.
Proof. reflexivity. Qed.

Lemma decL_out : forall n vs p x, (length vs <= n)%nat -> Forall is_val vs -> (p <= 2)%nat -> 0 <= x ->
  decL (chars vs p) 3 0 x = firstn (Z.to_nat (dec_len (zlen vs) (Z.of_nat p))) (regroup (vs ++ repeat 0 p)).
Proof.
  induction n as [|n IH]; intros vs p x Hn Hv Hp Hx.
  - destruct vs; [|cbn [length] in Hn; lia]. destruct p as [|[|[|p]]]; [..|lia]; reflexivity.
  - destruct vs as [|v0 [|v1 [|v2 [|v3 vs]]]].
    + destruct p as [|[|[|p]]]; [..|lia]; reflexivity.
    + pose proof (Forall_inv Hv) as V0. unfold is_val in V0.
      destruct p as [|[|[|p]]]; [..|lia]; unfold chars; cbn [map repeat app decL]; rewrite ?val_digit by lia; reflexivity.
    + pose proof (Forall_inv Hv) as V0. pose proof (Forall_inv (Forall_inv_tail Hv)) as V1. unfold is_val in V0, V1.
      destruct p as [|[|[|p]]]; [..|lia]; unfold chars; cbn [map repeat app decL]; rewrite ?val_digit by lia; try reflexivity.
      destruct (step4 x v0 v1 64 64 Hx) as (X & A & B & C). cbv zeta in X, A, B, C.
      change (64 mod 64) with 0 in *. rewrite (Z.mod_small v0), (Z.mod_small v1) in A by lia.
      change (val 61) with 64. cbv zeta.
      replace (v0 =? 64) with false by lia. replace (v1 =? 64) with false by lia. change (64 =? 64) with true.
      change (0 + 1 =? 4) with false. change (0 + 1 + 1 =? 4) with false. change (0 + 1 + 1 + 1 =? 4) with false. change (0 + 1 + 1 + 1 + 1 =? 4) with true.
      cbn match. change (u32 (u32 (u32 (u32 (3 - 0) - 0) - 1) - 1)) with 1. change (0 <? 1) with true. change (1 <? 1) with false. change (2 <? 1) with false.
      cbn match. fold (step x v0). fold (step (step x v0) v1). fold (step (step (step x v0) v1) 64). fold (step (step (step (step x v0) v1) 64) 64).
      rewrite A. cbn [app repeat regroup]. reflexivity.
    + pose proof (Forall_inv Hv) as V0. pose proof (Forall_inv (Forall_inv_tail Hv)) as V1.
      pose proof (Forall_inv (Forall_inv_tail (Forall_inv_tail Hv))) as V2. unfold is_val in V0, V1, V2.
      destruct p as [|p]; [unfold chars; cbn [map repeat app decL]; rewrite ?val_digit by lia; reflexivity|].
      destruct (step4 x v0 v1 v2 64 Hx) as (X & A & B & C). cbv zeta in X, A, B, C.
      change (64 mod 64) with 0 in *. rewrite (Z.mod_small v0), (Z.mod_small v1), (Z.mod_small v2) in A, B by lia.
      unfold chars. cbn [map repeat app decL]. rewrite !val_digit by lia.
      change (val 61) with 64. cbv zeta.
      replace (v0 =? 64) with false by lia. replace (v1 =? 64) with false by lia. replace (v2 =? 64) with false by lia. change (64 =? 64) with true.
      change (0 + 1 =? 4) with false. change (0 + 1 + 1 =? 4) with false. change (0 + 1 + 1 + 1 =? 4) with false. change (0 + 1 + 1 + 1 + 1 =? 4) with true.
      cbn match. change (u32 (u32 (u32 (u32 (3 - 0) - 0) - 0) - 1)) with 2. change (0 <? 2) with true. change (1 <? 2) with true. change (2 <? 2) with false.
      cbn match. fold (step x v0). fold (step (step x v0) v1). fold (step (step (step x v0) v1) v2). fold (step (step (step (step x v0) v1) v2) 64).
      rewrite A, B. destruct p as [|[|p]]; [..|lia]; cbn [app repeat regroup decL]; reflexivity.
    + pose proof (Forall_inv Hv) as V0. pose proof (Forall_inv (Forall_inv_tail Hv)) as V1.
      pose proof (Forall_inv (Forall_inv_tail (Forall_inv_tail Hv))) as V2.
      pose proof (Forall_inv (Forall_inv_tail (Forall_inv_tail (Forall_inv_tail Hv)))) as V3.
      pose proof (Forall_inv_tail (Forall_inv_tail (Forall_inv_tail (Forall_inv_tail Hv)))) as Vr.
      unfold chars. cbn [map app].
      destruct (decL_group v0 v1 v2 v3 (map b64_char vs ++ repeat 61 p) x V0 V1 V2 V3 Hx) as (x' & Hx' & ->).
      fold (chars vs p). rewrite IH by (cbn [length] in Hn; (lia || assumption)).
      rewrite (regroup_group v0 v1 v2 v3 (vs ++ repeat 0 p)). rewrite !zlen_cons.
      pose proof (zlen_nonneg vs).
      assert (D : dec_len (1 + (1 + (1 + (1 + zlen vs)))) (Z.of_nat p) = 3 + dec_len (zlen vs) (Z.of_nat p)).
      { unfold dec_len. replace (1 + (1 + (1 + (1 + zlen vs))) + Z.of_nat p) with (zlen vs + Z.of_nat p + 1 * 4) by lia.
        rewrite Z.div_add, Z_mod_plus_full by lia. lia. }
      assert (0 <= dec_len (zlen vs) (Z.of_nat p)).
      { unfold dec_len. assert (p = 0 \/ p = 1 \/ p = 2)%nat by lia. Z.div_mod_to_equations; lia. }
      rewrite D. replace (Z.to_nat (3 + dec_len (zlen vs) (Z.of_nat p))) with (length (regroup [v0; v1; v2; v3]) + Z.to_nat (dec_len (zlen vs) (Z.of_nat p)))%nat
        by (change (length (regroup [v0; v1; v2; v3])) with 3%nat; lia).
      rewrite firstn_app_2. reflexivity.
Qed.
