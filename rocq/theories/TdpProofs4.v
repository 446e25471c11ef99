(** The lemmas behind the theorems on the trapdoor permutation, and the counterexamples. *)
From Coq Require Import Znumtheory Zpow_facts Lia.
From Verif Require Import Base BaseFacts MpiModel MpiProofs RsaKeyModel RsaKeySpec AsnProofs5 RsaKeyExample RsaKeyProofs3 TdpKeyModel TdpModel TdpSpec RsaMathProofs
  TdpProofs TdpProofs2 TdpProofs3 TdpExample KeyVal HmacModel HmacSpec HmacProofs2.

(** * Inversion *)
Section K.
Context (k : rsa_key) (HK : tdp_key k).
Let N := key_N k.

Lemma key_small : 2 < N /\ N < space.
Proof. destruct HK as (_ & B & _). destruct (bits2048_facts _ B) as (_ & A & C). split; assumption. Qed.
Lemma key_odd : Z.odd (pub_N (key_pub k)) = true.
Proof. destruct HK as ((P & _) & _). apply P. Qed.
Lemma key_exp : 3 <= key_E k.
Proof. destruct HK as ((P & _) & _). apply P. Qed.
Lemma eval_key g inp : is_bytes inp -> zlen inp = 256 -> zlen g = 256 -> tdp_eval (key_pub k) g inp = Ok (message (be_decode inp ^ key_E k mod N)).
Proof. intros. apply eval_ok; try assumption; [apply HK|apply key_odd|]. pose proof key_exp. change (0 <= key_E k). lia. Qed.
Lemma eval_key_string g inp : is_bytes inp -> zlen inp = 256 -> zlen g = 256 -> tdp_eval_string (key_pub k) g inp = Ok (message (be_decode inp ^ key_E k mod N)).
Proof. intros. apply eval_string_ok; try assumption; [apply HK|apply key_odd|]. pose proof key_exp. change (0 <= key_E k). lia. Qed.

Lemma history_ok cs : Forall (good_call N) cs -> bl_ok k (tdp_run k None cs).
Proof. intros H. apply run_ok; [exact HK|exact I|exact H]. Qed.

Lemma invert_val rnd g bl x : bl_ok k bl -> rng_good N rnd -> zlen g = 256 -> 0 <= x < N ->
  exists bl' y, tdp_invert k rnd g bl (message x) = (bl', Ok (message y)) /\ root k x y /\ bl_ok k bl'.
Proof.
  intros Hb Hr Hg Hx. destruct key_small as [N2 NS]. pose proof (invert_ok k HK rnd g bl (message x) Hb Hr Hg (message_bytes x) (message_len x)) as H.
  rewrite message_decode in H by lia. fold N in H. rewrite (proj2 (Z.leb_gt N x)) in H by lia. exact H.
Qed.
Lemma root_spec x y : root k x y -> 0 <= y < N /\ y ^ key_E k mod N = x mod N.
Proof. intros H. exact H. Qed.

Lemma invert_eval cs rnd g g' x : Forall (good_call N) cs -> rng_good N rnd -> zlen g = 256 -> zlen g' = 256 -> 0 <= x < N ->
  exists c, tdp_eval (key_pub k) g (message x) = Ok c /\ snd (tdp_invert k rnd g' (tdp_run k None cs) c) = Ok (message x).
Proof.
  intros Hc Hr Hg Hg' Hx. destruct key_small as [N2 NS]. pose proof key_exp as HE.
  rewrite eval_key by (first [apply message_bytes|apply message_len|assumption]). rewrite message_decode by lia.
  pose proof (Z.mod_pos_bound (x ^ key_E k) N ltac:(lia)) as B. eexists. split; [reflexivity|].
  destruct (invert_val rnd g' _ _ (history_ok cs Hc) Hr Hg' B) as (bl' & y & -> & R & _). cbn [snd]. do 2 f_equal.
  destruct (tdp_key_facts k HK) as (F & FP & FQ & _). apply (root_unique k F FP FQ _ _ _ R).
  split; [exact Hx|]. fold N. symmetry. apply Zmod_mod.
Qed.
Lemma eval_invert cs rnd g g' x : Forall (good_call N) cs -> rng_good N rnd -> zlen g = 256 -> zlen g' = 256 -> 0 <= x < N ->
  exists c, snd (tdp_invert k rnd g (tdp_run k None cs) (message x)) = Ok c /\ tdp_eval (key_pub k) g' c = Ok (message x).
Proof.
  intros Hc Hr Hg Hg' Hx. destruct key_small as [N2 NS]. pose proof key_exp as HE.
  destruct (invert_val rnd g _ _ (history_ok cs Hc) Hr Hg Hx) as (bl' & y & -> & R & _). eexists. split; [reflexivity|].
  destruct (root_spec _ _ R) as [By Ey].
  rewrite eval_key by (first [apply message_bytes|apply message_len|assumption]). rewrite message_decode by lia.
  rewrite Ey. rewrite Z.mod_small by lia. reflexivity.
Qed.
Lemma string_overloads cs rnd g s : Forall (good_call N) cs -> rng_good N rnd -> zlen g = 256 -> is_bytes s -> zlen s = 256 ->
  tdp_eval_string (key_pub k) g s = tdp_eval (key_pub k) g s /\
  tdp_invert_string k rnd g (tdp_run k None cs) s = tdp_invert k rnd g (tdp_run k None cs) s /\
  forall order, tdp_invert_mult_string k s order = tdp_invert_mult k s order.
Proof.
  intros Hc Hr Hg Hs Ls. split; [now rewrite eval_key, eval_key_string|]. split; [apply invert_string_ok; try assumption; now apply history_ok|].
  intros order. unfold tdp_invert_mult_string, kMessageSize. now rewrite str_data_rd.
Qed.

Lemma invert_mult_times cs cs' x order : Forall (good_call N) cs -> Forall (fun c => rng_good N (fst c) /\ zlen (snd c) = 256) cs' ->
  0 <= x < N -> 0 <= order < 2 ^ 32 -> zlen cs' = order ->
  exists y, tdp_invert_mult k (message x) order = Ok y /\ invert_repeat k (tdp_run k None cs) cs' (message x) = Ok y.
Proof.
  intros Hc Hc' Hx Ho Lc. destruct key_small as [N2 NS].
  pose proof (invert_mult_repeat k HK (message x) order (tdp_run k None cs) cs' (message_bytes x) (message_len x)) as H.
  rewrite message_decode in H by lia. rewrite H by (first [assumption|now apply history_ok|apply Hx]).
  destruct (repeat_root k HK cs' (tdp_run k None cs) (message x)) as (y & E & _);
    try first [assumption|now apply history_ok|apply message_bytes|apply message_len].
  - rewrite message_decode; [apply Hx|lia].
  - exists (message y). now split.
Qed.

Lemma ranges cs rnd g inp order : Forall (good_call N) cs -> rng_good N rnd -> zlen g = 256 -> is_bytes inp -> zlen inp = 256 -> 0 < order < 2 ^ 32 ->
  (exists y, tdp_eval (key_pub k) g inp = Ok (message y) /\ 0 <= y < N) /\
  (exists y, tdp_sample (key_pub k) rnd = Ok (message y) /\ 0 <= y < N) /\
  (exists y, tdp_invert_mult k inp order = Ok (message y) /\ 0 <= y < N) /\
  (be_decode inp < N -> exists y, snd (tdp_invert k rnd g (tdp_run k None cs) inp) = Ok (message y) /\ 0 <= y < N).
Proof.
  intros Hc Hr Hg Hi Li Ho. destruct key_small as [N2 NS].
  split; [|split; [|split]].
  - rewrite eval_key by assumption. eexists. split; [reflexivity|]. apply Z.mod_pos_bound. lia.
  - rewrite sample_ok by (first [apply HK|apply Hr]). eexists. split; [reflexivity|]. apply Z.mod_pos_bound. lia.
  - destruct (invert_mult_root k HK inp order Hi Li Ho) as (y & E & B & _). exists y. now split.
  - intros Hx. destruct (decode_range inp Hi Li) as [D0 _]. rewrite (message_of inp Hi Li).
    destruct (invert_val rnd g _ _ (history_ok cs Hc) Hr Hg (conj D0 Hx)) as (bl' & y & -> & R & _). exists y. split; [reflexivity|].
    now apply root_spec in R.
Qed.

Lemma out_of_range cs rnd g inp : Forall (good_call N) cs -> rng_good N rnd -> zlen g = 256 -> is_bytes inp -> zlen inp = 256 -> N <= be_decode inp ->
  tdp_invert k rnd g (tdp_run k None cs) inp = (tdp_run k None cs, Throw InvalidArgument) /\
  tdp_eval (key_pub k) g inp = tdp_eval (key_pub k) g (message (be_decode inp mod N)) /\
  forall order, 0 < order < 2 ^ 32 -> tdp_invert_mult k inp order = tdp_invert_mult k (message (be_decode inp mod N)) order.
Proof.
  intros Hc Hr Hg Hi Li Hx. destruct key_small as [N2 NS]. pose proof key_exp as HE.
  pose proof (Z.mod_pos_bound (be_decode inp) N ltac:(lia)) as B.
  split; [|split].
  - pose proof (invert_ok k HK rnd g _ inp (history_ok cs Hc) Hr Hg Hi Li) as H. fold N in H. rewrite (proj2 (Z.leb_le N _)) in H by exact Hx. exact H.
  - rewrite !eval_key by (first [assumption|apply message_bytes|apply message_len]). rewrite message_decode by lia. do 2 f_equal.
    apply pow_mod_base; [lia|lia|]. symmetry. apply Zmod_mod.
  - intros order Ho. destruct (invert_mult_root k HK inp order Hi Li Ho) as (y & -> & R).
    destruct (invert_mult_root k HK (message (be_decode inp mod N)) order (message_bytes _) (message_len _) Ho) as (z & -> & R'). do 2 f_equal.
    apply (nroot_unique k HK (Z.to_nat order) (be_decode inp)); [exact R|]. destruct R' as [Bz Ez]. split; [exact Bz|].
    rewrite Ez. rewrite message_decode by lia. fold N. apply Zmod_mod.
Qed.
End K.

(** * Sizes *)
Lemma wrong_sizes k rnd g bl p order s : bits2048 (key_N k) -> bits2048 (pub_N (pool_key p)) -> zlen s <> 256 ->
  tdp_eval_string (key_pub k) g s = Throw InvalidArgument /\
  tdp_invert_string k rnd g bl s = (bl, Throw InvalidArgument) /\
  pool_eval_string p g s order = Throw InvalidArgument.
Proof.
  intros HB HP Hs. split; [now apply eval_string_bad|]. split; [now apply invert_string_bad|]. now apply pool_eval_string_bad.
Qed.
Lemma other_moduli k g inp order p : rsa_len (key_pub k) <> 256 -> rsa_len (pool_key p) <> 256 -> order <> 0 ->
  tdp_eval (key_pub k) g inp = Throw RuntimeError /\ tdp_invert_mult k inp order = Throw InvalidArgument /\
  (1 <= order <= pool_maximum_order p -> zlen (pool_exps p) < 255 -> pool_eval p g inp order = Throw RuntimeError).
Proof.
  intros H1 H2 Ho. unfold tdp_eval, tdp_invert_mult, pool_eval, kMessageSize.
  rewrite (proj2 (Z.eqb_neq 256 (rsa_len (key_pub k)))), (proj2 (Z.eqb_neq 256 (rsa_len (pool_key p)))), (proj2 (Z.eqb_neq order 0)) by congruence.
  cbn [negb]. split; [reflexivity|]. split; [reflexivity|]. intros Hor Hl.
  destruct (order =? 1) eqn:O1; [reflexivity|]. apply Z.eqb_neq in O1. rewrite (proj2 (Z.leb_le _ _)) by lia.
  unfold pool_maximum_order in Hor. unfold u8 in Hor. assert (0 <= zlen (pool_exps p)) by (unfold zlen; lia).
  rewrite Z.mod_small in Hor by (change (2 ^ 8) with 256; lia).
  rewrite (proj2 (Z.leb_le 0 _)), (proj2 (Z.ltb_lt _ _)) by lia. cbn [andb].
  destruct (nth_error _ _) eqn:E; [reflexivity|]. apply nth_error_None in E. unfold zlen in Hor. lia.
Qed.

(** * Counterexamples *)
Definition rnd_zero : nat -> Z -> Z := fun _ _ => 0.
Definition rnd_one : nat -> Z -> Z := fun _ n => if n =? 0 then 0 else 1.
Lemma rnd_zero_ok : rng_ok rnd_zero.
Proof. intros i n H. unfold rnd_zero. split; [lia|]. apply Z.pow_pos_nonneg; lia. Qed.
Lemma rnd_one_good n : 0 <= n -> rng_good n rnd_one.
Proof.
  intros Hn. split.
  - intros i m H. unfold rnd_one. destruct (m =? 0) eqn:E; [apply Z.eqb_eq in E; subst; split; [lia|reflexivity]|].
    apply Z.eqb_neq in E. split; [lia|]. apply Z.pow_gt_1; lia.
  - exists O. split; [lia|]. change (rnd_one 0 255) with 1. apply Z.gcd_1_l.
Qed.
Definition zero_call : tdp_call := {| call_string := false; call_rnd := rnd_zero; call_buf := zeros 256; call_input := message 2 |}.
(** A random generator that answers zeros makes the first inversion fail, and the next one return zero *)
Lemma zero_loop n len N : 1 < N -> forall i vi vf, blinding_loop (S n) N len rnd_zero i vi vf = (N, 0, (S n + i)%nat, false).
Proof.
  intros HN.
  assert (G : mpi_gcd 0 N = N). { unfold mpi_gcd. rewrite (proj2 (Z.eqb_neq N 0)) by lia. rewrite Z.gcd_0_l. apply Z.abs_eq. lia. }
  induction n as [|n IH]; intros i vi vf; [|remember (S n) as m]; cbn [blinding_loop]; change (rnd_zero i (len - 1)) with 0; cbn zeta; rewrite G;
    rewrite (proj2 (Z.eqb_neq N 1)) by lia; [reflexivity|].
  rewrite IH. do 2 f_equal. lia.
Qed.
Lemma zero_blinding k rnd g x : tdp_key k -> rng_ok rnd -> zlen g = 256 -> 0 <= x < key_N k ->
  snd (tdp_do k None zero_call) = Throw InvalidArgument /\
  snd (tdp_invert k rnd g (tdp_run k None [zero_call]) (message x)) = Ok (message 0).
Proof.
  intros HK Hr Hg Hx. destruct (key_small k HK) as [N2 NS]. destruct (tdp_key_facts k HK) as (F & FP & FQ & HB).
  pose proof (bits2048_len (key_pub k) HB) as HL.
  assert (S : rsa_private k None rnd_zero (message 2) (zeros 256) = Ok (Some (key_N k, 0), inl (ERR_RSA_PRIVATE_FAILED + ERR_RSA_RNG_FAILED))).
  { unfold rsa_private. rewrite HL. rewrite (rd_all (message 2) 256 (eq_sym (message_len 2))). cbn [bind].
    rewrite read_message by (split; [lia|apply Z.lt_trans with (key_N k); assumption]). cbn [bind ret].
    rewrite (proj2 (Z.leb_gt _ _)) by lia. unfold rsa_prepare_blinding. rewrite zero_loop by lia. cbn [negb bind]. reflexivity. }
  cbn [tdp_run tdp_do zero_call call_string call_rnd call_buf call_input]. unfold tdp_do. cbn [zero_call call_string call_rnd call_buf call_input].
  unfold tdp_invert. rewrite S. cbn [to_call fst snd]. split; [reflexivity|].
  unfold rsa_private. rewrite HL. rewrite (rd_all (message x) 256 (eq_sym (message_len x))). cbn [bind].
  rewrite read_message by lia. cbn [bind ret]. rewrite (proj2 (Z.leb_gt _ _)) by lia.
  unfold rsa_prepare_blinding. rewrite mod_ok by lia. cbn [bind ret]. rewrite Z_mod_mult. rewrite mod_ok by lia. cbn [bind ret]. change (0 * 0) with 0. rewrite Zmod_0_l.
  cbn [bind]. unfold rsa_private_core. rewrite Z.mul_0_r. rewrite mod_ok by lia. rewrite bindr_ret. rewrite Zmod_0_l.
  pose proof (Hr O 28 ltac:(lia)) as [R0 _]. pose proof (Hr 1%nat 28 ltac:(lia)) as [R1 _]. unfold RSA_EXPONENT_BLINDING.
  destruct F as [kP kQ kN oP oQ kE kR kqp kDP kDQ].
  assert (0 < (key_P k - 1) * rnd O 28 + key_DP k) as D1 by (destruct kDP as [? _]; nia).
  assert (0 < (key_Q k - 1) * rnd 1%nat 28 + key_DQ k) as D2 by (destruct kDQ as [? _]; nia).
  rewrite exp_mod_ok by (first [assumption|lia]). rewrite bindr_ret. rewrite Z.pow_0_l by exact D1. rewrite Zmod_0_l.
  rewrite exp_mod_ok by (first [assumption|lia]). rewrite bindr_ret. rewrite Z.pow_0_l by exact D2. rewrite Zmod_0_l.
  change ((0 - 0) * key_QP k) with 0. rewrite mod_ok by lia. rewrite bindr_ret. rewrite Zmod_0_l. rewrite Z.mul_0_r. rewrite mod_ok by lia. rewrite bindr_ret.
  rewrite Zmod_0_l. rewrite write_256 by (split; [lia|apply space_pos]). rewrite bindr_ret.
  rewrite (wr_all g (message 0)) by (rewrite Hg; apply message_len). reflexivity.
Qed.

(** A valid key with a modulus of 2052 bits *)
Definition bigkey : rsa_key := {|
  key_N := 3 * (2 ^ 2050 + 1); key_E := 3; key_D := (2 ^ 2051 + 1) / 3; key_P := 3; key_Q := 2 ^ 2050 + 1;
  key_DP := 1; key_DQ := ((2 ^ 2051 + 1) / 3) mod 2 ^ 2050; key_QP := 2 |}.
Lemma bigkey_ok : private_ok bigkey.
Proof. apply private_okb_ok. vm_compute. reflexivity. Qed.
Lemma invert_bigkey rnd g bl inp : zlen inp = 256 -> tdp_invert bigkey rnd g bl inp = (bl, UB).
Proof.
  intros L. unfold tdp_invert, rsa_private. replace (rsa_len (key_pub bigkey)) with 257 by (vm_compute; reflexivity).
  unfold rd. rewrite L. reflexivity.
Qed.
Lemma sample_bigkey rnd : rnd O 264 = 2 ^ 2048 -> tdp_sample (key_pub bigkey) rnd = Ok (zeros 256).
Proof. intros H. unfold tdp_sample, kRSAPrfSize. rewrite H. vm_compute. reflexivity. Qed.
(** The valid key [key130] has a modulus of 130 bits *)
Lemma eval_key130 g s : zlen s = 17 -> tdp_eval_string (key_pub key130) g s = UB.
Proof.
  intros L. unfold tdp_eval_string. replace (rsa_len (key_pub key130)) with 17 by (vm_compute; reflexivity). rewrite L. change (17 =? 17) with true. cbn [negb].
  unfold rd, str_data. rewrite zlen_app, L. reflexivity.
Qed.
Lemma invert_key130 : exists g g' r r', zlen g = 256 /\ zlen g' = 256 /\
  snd (tdp_invert key130 rnd_one g None (zeros 256)) = Ok r /\ snd (tdp_invert key130 rnd_one g' None (zeros 256)) = Ok r' /\ r <> r'.
Proof.
  exists (zeros 256), (repeat 1 256), (zeros 256), (zeros 17 ++ repeat 1 239). split; [reflexivity|]. split; [reflexivity|].
  split; [vm_compute; reflexivity|]. split; [vm_compute; reflexivity|]. vm_compute. discriminate.
Qed.
Lemma invert_mult_short k s order : zlen s < 255 -> tdp_invert_mult_string k s order = UB.
Proof.
  intros L. unfold tdp_invert_mult_string, rd, kMessageSize, str_data. rewrite zlen_app. change (zlen [0]) with 1.
  rewrite (proj2 (Z.leb_gt (0 + 256) _)) by lia. rewrite !andb_false_r. reflexivity.
Qed.
Lemma invert_mult_long k s t order : zlen s = 256 -> tdp_invert_mult_string k (s ++ t) order = tdp_invert_mult_string k s order.
Proof.
  intros L. unfold tdp_invert_mult_string, kMessageSize, str_data. rewrite <- app_assoc. rewrite !rd_prefix by congruence. reflexivity.
Qed.

(** A valid key one factor of which is 15 *)
Definition compkey : rsa_key := {|
  key_N := 15 * (2 ^ 2044 + 1); key_E := 3; key_D := (14 * 2 ^ 2044 + 1) / 3; key_P := 15; key_Q := 2 ^ 2044 + 1;
  key_DP := 5; key_DQ := (2 ^ 2045 + 1) / 3; key_QP := 8 |}.
Lemma compkey_ok : private_ok compkey /\ bits2048 (key_N compkey).
Proof. split; [apply private_okb_ok; vm_compute; reflexivity|]. split; [vm_compute; discriminate|vm_compute; reflexivity]. Qed.
Definition comp_x : Z := 2 ^ 2044 + 2.
Definition rnd_composite : nat -> Z -> Z := fun _ n => if n =? 255 then 1 else 0.
Lemma rnd_composite_good n : 0 <= n -> rng_good n rnd_composite.
Proof.
  intros Hn. split.
  - intros i m H. unfold rnd_composite. destruct (m =? 255) eqn:E; [apply Z.eqb_eq in E; subst; split; [lia|reflexivity]|].
    split; [lia|]. apply Z.pow_pos_nonneg; lia.
  - exists O. split; [lia|]. change (rnd_composite 0 255) with 1. apply Z.gcd_1_l.
Qed.
Lemma comp_core y : 0 <= y < space -> y mod (2 ^ 2044 + 1) = 1 mod (2 ^ 2044 + 1) -> (key_N compkey <=? y) = false ->
  mpi_mod (y * 1) (key_N compkey) = ret y -> mpi_exp_mod y 5 15 = ret 12 -> mpi_mod ((1 + 13 * key_Q compkey) * 1) (key_N compkey) = ret y ->
  snd (tdp_invert compkey rnd_composite (zeros 256) None (message y)) = Ok (message y).
Proof.
  intros Y Y2 F1 F2 F3 F4.
  unfold tdp_invert, rsa_private. rewrite (bits2048_len (key_pub compkey) (proj2 compkey_ok)).
  rewrite (rd_all (message y) 256 (eq_sym (message_len y))). cbn [bind]. rewrite read_message by exact Y. cbn [bind ret].
  rewrite F1.
  assert (B : rsa_prepare_blinding compkey None rnd_composite = Ok (Some (1, 1), inr 1%nat)) by (vm_compute; reflexivity).
  rewrite B. cbn [bind]. unfold rsa_private_core. rewrite F2. rewrite bindr_ret.
  change ((key_P compkey - 1) * rnd_composite 1%nat RSA_EXPONENT_BLINDING + key_DP compkey) with 5. change (mpi_exp_mod y 5 (key_P compkey)) with (mpi_exp_mod y 5 15).
  rewrite F3. rewrite bindr_ret.
  set (e := (key_Q compkey - 1) * _ + key_DQ compkey). assert (E0 : 0 <= e) by (vm_compute; discriminate). clearbody e.
  assert (E : mpi_exp_mod y e (key_Q compkey) = ret 1).
  { rewrite exp_mod_ok by (first [exact E0|vm_compute; reflexivity]).
    rewrite (pow_mod_base y 1) by (first [exact E0|exact Y2|vm_compute; reflexivity]).
    rewrite Z.pow_1_l by exact E0. vm_compute. reflexivity. }
  rewrite E. rewrite bindr_ret.
  change (mpi_mod ((12 - 1) * key_QP compkey) (key_P compkey)) with (ret 13). rewrite bindr_ret.
  rewrite F4. rewrite bindr_ret. rewrite write_256 by exact Y. rewrite bindr_ret.
  rewrite (wr_all (zeros 256) (message y)) by (rewrite message_len; reflexivity). reflexivity.
Qed.
Lemma compkey_invert : 0 <= comp_x < key_N compkey /\
  tdp_eval (key_pub compkey) (zeros 256) (message comp_x) = Ok (message (13 * 2 ^ 2044 + 14)) /\
  snd (tdp_invert compkey rnd_composite (zeros 256) None (message (13 * 2 ^ 2044 + 14))) = Ok (message (13 * 2 ^ 2044 + 14)) /\
  message (13 * 2 ^ 2044 + 14) <> message comp_x.
Proof.
  split; [split; [vm_compute; discriminate|vm_compute; reflexivity]|]. split; [vm_compute; reflexivity|].
  split; [|vm_compute; discriminate].
  apply comp_core.
  - split; [vm_compute; discriminate|vm_compute; reflexivity].
  - apply divide_mod_eq; [vm_compute; reflexivity|]. exists 13. vm_compute. reflexivity.
  - vm_compute. reflexivity.
  - vm_compute. reflexivity.
  - vm_compute. reflexivity.
  - vm_compute. reflexivity.
Qed.

(** A public key with exponent 3 *)
Definition pub3 : rsa_pub := {| pub_N := 2 ^ 2047 + 1; pub_E := 3 |}.
Lemma pub3_ok : public_ok pub3 /\ bits2048 (pub_N pub3).
Proof.
  assert (B : bits2048 (pub_N pub3)) by (split; [vm_compute; discriminate|vm_compute; reflexivity]). split; [|exact B].
  split; [vm_compute; reflexivity|]. split; [reflexivity|]. split; [split; [vm_compute; discriminate|vm_compute; reflexivity]|].
  split; [discriminate|vm_compute; reflexivity].
Qed.
Lemma two_196611 : 2 ^ 196611 mod (2 ^ 2047 + 1) = 2 ^ 99.
Proof.
  assert (HN : 0 < 2 ^ 2047 + 1) by (vm_compute; reflexivity).
  assert (E1 : 2 ^ 196611 = (2 ^ 2047) ^ 96 * 2 ^ 99).
  { rewrite <- Z.pow_mul_r by discriminate. rewrite <- Z.pow_add_r by discriminate. reflexivity. }
  rewrite E1. clear E1.
  assert (E2 : (2 ^ 2047) ^ 96 mod (2 ^ 2047 + 1) = (-1) ^ 96 mod (2 ^ 2047 + 1)).
  { apply pow_mod_base; [exact HN|discriminate|]. apply divide_mod_eq; [exact HN|]. exists 1. vm_compute. reflexivity. }
  rewrite (mul_mod_eq _ _ (2 ^ 99) (2 ^ 99) _ E2 eq_refl). change ((-1) ^ 96) with 1. rewrite Z.mul_1_l.
  apply Z.mod_small. split; [vm_compute; discriminate|vm_compute; reflexivity].
Qed.
Lemma pool_exponent_3 : exists p, pool_new pub3 2 = Ok p /\ pool_maximum_order p = 2 /\
  pool_eval p (zeros 256) (message 2) 2 = Ok (message (2 ^ 99)) /\
  repeat_call 2 (tdp_eval pub3 (zeros 256)) (message 2) = Ok (message 512).
Proof.
  destruct pub3_ok as [K B].
  destruct (pool_new pub3 2) as [p|e| | |] eqn:E; [|exfalso; revert E; rewrite pool_new_ok by (first [exact K|lia]); vm_compute; discriminate..].
  exists p. split; [reflexivity|].
  assert (M : pool_maximum_order p = 2).
  { rewrite pool_new_ok in E by (first [exact K|lia]). destruct (_ <? _) in E; [|discriminate]. injection E as <-. reflexivity. }
  split; [exact M|].
  assert (S2 : 0 <= 2 < space) by (split; [lia|vm_compute; reflexivity]).
  split.
  - rewrite (pool_eval_val pub3 2 p (zeros 256) (message 2) 2 K B ltac:(lia) E eq_refl (message_bytes 2) (message_len 2)) by (rewrite M; lia).
    rewrite message_decode by exact S2. change (pub_E pub3 * RSA_PK ^ (2 - 1)) with 196611. change (pub_N pub3) with (2 ^ 2047 + 1). now rewrite two_196611.
  - rewrite (repeat_eval pub3 (zeros 256) B (proj1 K) ltac:(discriminate) eq_refl 1 (message 2) (message_bytes 2) (message_len 2)).
    rewrite message_decode by exact S2. vm_compute. reflexivity.
Qed.
Lemma generate_range H ml gp kb l seed r t k : bits2048 (pub_N k) -> (forall y, zlen (H y) = 64 /\ is_bytes (H y)) -> sized gp -> zlen kb = 32 ->
  zlen seed < 2 ^ 63 -> zlen r = 264 -> zlen t = zlen seed + 1 ->
  exists x, x = be_decode (ctr_mode (rfc_hmac H 128 kb) seed 264) mod pub_N k /\ 0 <= x < pub_N k /\
    tdp_generate H ml gp r t k (VKey kb l) seed = (VKey kb ml, Ok (message x)) /\
    tdp_generate_key H ml gp r t k (VKey kb l) seed = (VEmpty, Ok (message x)).
Proof.
  intros HB HH Hg Lk Ls Lr Lt. destruct (bits2048_facts _ HB) as (L & N2 & NS). eexists. split; [reflexivity|].
  split; [apply Z.mod_pos_bound; lia|]. split; [now apply generate_ok|now apply generate_key_ok].
Qed.
Lemma sample_range k rnd : bits2048 (pub_N k) -> rng_ok rnd -> exists x, tdp_sample k rnd = Ok (message x) /\ x = rnd O 264 mod pub_N k /\ 0 <= x < pub_N k.
Proof.
  intros HB Hr. destruct (bits2048_facts _ HB) as (L & N2 & NS). rewrite sample_ok by assumption. eexists. split; [reflexivity|]. split; [reflexivity|].
  apply Z.mod_pos_bound. lia.
Qed.
Lemma new_key_ok cand : candidates_ok cand -> coprime_pairs cand -> Forall (fun c => rsa_factor (fst c) /\ rsa_factor (snd c)) cand ->
  (tdp_new cand = Diverge /\ Forall (fun c => ~ usable c) cand) \/
  exists k, tdp_new cand = Ok k /\ tdp_key k /\ key_E k = 65537 /\ (In (key_P k, key_Q k) cand \/ In (key_Q k, key_P k) cand).
Proof.
  intros Hc Hp Hf. destruct (tdp_new_ok cand Hc Hp) as [E|(k & E & A1 & A2 & A3 & A4)]; [now left|]. right. exists k. split; [exact E|].
  split; [|split; [exact A3|exact A4]]. rewrite Forall_forall in Hf. split; [exact A1|]. split; [exact A2|].
  destruct A4 as [I|I]; destruct (Hf _ I) as [F1 F2]; cbn [fst snd] in *; split; assumption.
Qed.
Lemma new_primes cand : Forall (fun c => prime (fst c) /\ prime (snd c) /\ 2 < fst c /\ 2 < snd c) cand ->
  candidates_ok cand /\ coprime_pairs cand /\ Forall (fun c => rsa_factor (fst c) /\ rsa_factor (snd c)) cand.
Proof.
  intros H. assert (O : forall p, prime p -> 2 < p -> Z.odd p = true).
  { intros p Hp H2. destruct (Z.odd p) eqn:E; [reflexivity|]. exfalso. rewrite <- Z.negb_even in E. apply negb_false_iff, Z.even_spec in E.
    destruct E as [z Hz]. destruct (prime_divisors p Hp 2) as [D|[D|[D|D]]]; [exists z; lia|lia..]. }
  rewrite Forall_forall in H. split; [|split]; apply Forall_forall; intros c Hc; destruct (H c Hc) as (A & B & C & D).
  - repeat split; [lia|lia|now apply O|now apply O].
  - intros N. apply Zgcd_1_rel_prime. apply prime_rel_prime; [exact A|]. intros X. apply prime_div_prime in X; congruence.
  - split; now apply prime_rsa_factor.
Qed.
