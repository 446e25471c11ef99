(** Lemmas on the model of Tdp and TdpInverse: messages, evaluation, inversion and repeated inversion. *)
From Coq Require Import Znumtheory Zpow_facts Lia.
From Verif Require Import Base BaseFacts MpiModel MpiProofs RsaKeyModel RsaKeySpec TdpKeyModel TdpModel TdpSpec FermatProofs RsaMathProofs TdpProofs.

(** 256 ^ 256, kept away from the decision procedures *)
Definition space : Z := 256 ^ 256.
Lemma space_pos : 0 < space.
Proof. reflexivity. Qed.
Lemma bits2048_facts n : bits2048 n -> mpi_size n = 256 /\ 2 < n /\ n < space.
Proof.
  intros [A B]. assert (2 < n) as C by (apply Z.lt_le_trans with (2 ^ 2047); [reflexivity|exact A]).
  split; [|split; [exact C|]].
  - pose proof (proj2 (bitlen_le n 2048 ltac:(lia) ltac:(lia)) B) as H1.
    pose proof (proj2 (bitlen_ge n 2048 ltac:(lia) ltac:(lia)) A) as H2.
    unfold mpi_size. replace (mpi_bitlen n) with 2048 by lia. reflexivity.
  - apply Z.lt_le_trans with (2 ^ 2048); [exact B|]. vm_compute. discriminate.
Qed.
Lemma bits2048_len k : bits2048 (pub_N k) -> rsa_len k = 256.
Proof. intros H. apply bits2048_facts in H. apply H. Qed.

Lemma message_len x : zlen (message x) = 256.
Proof. unfold zlen, message. now rewrite be_encode_length. Qed.
Lemma message_bytes x : is_bytes (message x).
Proof. apply be_encode_bytes. Qed.
Lemma message_decode x : 0 <= x < space -> be_decode (message x) = x.
Proof. intros H. apply be_decode_encode. exact H. Qed.
Lemma decode_range inp : is_bytes inp -> zlen inp = 256 -> 0 <= be_decode inp < space.
Proof. intros H L. pose proof (be_decode_range inp H) as R. rewrite L in R. exact R. Qed.
Lemma message_of inp : is_bytes inp -> zlen inp = 256 -> inp = message (be_decode inp).
Proof.
  intros H L. unfold message. rewrite <- (be_encode_decode inp H) at 1. f_equal.
  unfold zlen in L. apply Nat2Z.inj. exact L.
Qed.
Lemma message_inj x y : 0 <= x < space -> 0 <= y < space -> message x = message y -> x = y.
Proof. intros Hx Hy E. rewrite <- (message_decode x Hx), <- (message_decode y Hy). now rewrite E. Qed.

Lemma write_256 x : 0 <= x < space -> mpi_write_binary x 256 = ret (message x).
Proof. intros H. apply write_binary_ok; [lia|]. apply size_le; [lia|lia|]. apply H. Qed.
Lemma write_array_ok x g : 0 <= x < space -> zlen g = 256 -> write_array x g = Ok (message x).
Proof. intros H L. unfold write_array. rewrite L, write_256 by exact H. reflexivity. Qed.
Lemma read_256 inp : is_bytes inp -> zlen inp = 256 -> mpi_read_binary inp = ret (be_decode inp).
Proof. intros H L. apply read_binary_ok; [exact H|lia]. Qed.
Lemma read_message x : 0 <= x < space -> mpi_read_binary (message x) = ret x.
Proof. intros H. rewrite read_256 by (first [apply message_bytes|apply message_len]). now rewrite message_decode. Qed.

Lemma str_data_rd s : zlen s = 256 -> rd (str_data s) 0 256 = Ok s.
Proof. intros L. unfold str_data. apply rd_prefix. congruence. Qed.

(** * Evaluation *)
Section Pub.
Context (k : rsa_pub) (HB : bits2048 (pub_N k)) (HO : Z.odd (pub_N k) = true) (HE : 0 <= pub_E k).

Lemma eval_ok g inp : is_bytes inp -> zlen inp = 256 -> zlen g = 256 ->
  tdp_eval k g inp = Ok (message (be_decode inp ^ pub_E k mod pub_N k)).
Proof.
  intros Hi Li Lg. destruct (bits2048_facts _ HB) as (L & N2 & NS). unfold tdp_eval, rsa_len, kMessageSize. rewrite L.
  cbn [Z.eqb negb]. change (256 =? 256) with true. cbn [negb].
  rewrite read_256 by assumption. unfold throw_if_err. cbn [bind ret]. rewrite mod_ok by lia. cbn [bind ret].
  rewrite exp_mod_ok by (first [assumption|lia]). cbn [bind ret].
  rewrite (pow_mod_base _ (be_decode inp)) by (first [apply Zmod_mod|lia]).
  apply write_array_ok; [|exact Lg]. pose proof (Z.mod_pos_bound (be_decode inp ^ pub_E k) (pub_N k) ltac:(lia)). lia.
Qed.
Lemma eval_string_ok g s : is_bytes s -> zlen s = 256 -> zlen g = 256 ->
  tdp_eval_string k g s = Ok (message (be_decode s ^ pub_E k mod pub_N k)).
Proof.
  intros Hi Li Lg. unfold tdp_eval_string. rewrite (bits2048_len k HB), Li. change (256 =? 256) with true. cbn [negb].
  unfold kMessageSize. rewrite str_data_rd by exact Li. cbn [bind]. now apply eval_ok.
Qed.
Lemma eval_string_bad g s : zlen s <> 256 -> tdp_eval_string k g s = Throw InvalidArgument.
Proof.
  intros H. unfold tdp_eval_string. rewrite (bits2048_len k HB). rewrite (proj2 (Z.eqb_neq _ _) H). reflexivity.
Qed.
Lemma sample_ok rnd : rng_ok rnd -> tdp_sample k rnd = Ok (message (rnd O 264%Z mod pub_N k)).
Proof.
  intros H. destruct (bits2048_facts _ HB) as (L & N2 & NS). unfold tdp_sample, kRSAPrfSize. rewrite mod_ok by lia. cbn [throw_if_err bind ret].
  apply write_array_ok; [|reflexivity]. pose proof (Z.mod_pos_bound (rnd O 264) (pub_N k) ltac:(lia)). lia.
Qed.
End Pub.

(** * Inversion *)
Lemma tdp_key_facts k : tdp_key k -> key_facts k /\ rsa_factor (key_P k) /\ rsa_factor (key_Q k) /\ bits2048 (key_N k).
Proof. intros (H & B & FP & FQ). split; [now apply private_facts|]. auto. Qed.

Section Inv.
Context (k : rsa_key) (HK : tdp_key k).

Lemma private_op rnd g bl inp rest : bl_ok k bl -> rng_good (key_N k) rnd -> zlen g = 256 -> is_bytes inp -> zlen inp = 256 ->
  if key_N k <=? be_decode inp then rsa_private k bl rnd (inp ++ rest) g = Ok (bl, inl (ERR_RSA_PRIVATE_FAILED + ERR_MPI_BAD_INPUT_DATA))
  else exists bl' y, rsa_private k bl rnd (inp ++ rest) g = Ok (bl', inr (message y)) /\ root k (be_decode inp) y /\ bl_ok k bl'.
Proof.
  intros Hb Hr Lg Hi Li. destruct (tdp_key_facts k HK) as (F & FP & FQ & HB).
  destruct (bits2048_facts _ HB) as (L & N2 & NS). pose proof (decode_range inp Hi Li) as R.
  assert (Hl : rsa_len (key_pub k) = 256) by exact L.
  unfold rsa_private. rewrite Hl. rewrite rd_prefix by congruence. cbn [bind]. rewrite read_256 by assumption. cbn [bind ret].
  destruct (key_N k <=? be_decode inp) eqn:C; [reflexivity|]. apply Z.leb_gt in C.
  destruct (prepare_ok k F bl rnd Hb Hr Hl) as (vi & vf & i & -> & Hp). cbn [bind].
  destruct (core_ok k F FP FQ vi vf rnd i (be_decode inp) Hp (proj1 Hr) (proj1 R)) as (y & -> & Hy).
  rewrite bindr_ret. destruct Hy as [By Ey]. rewrite write_256 by lia. rewrite bindr_ret.
  rewrite wr_all by (rewrite message_len; congruence). cbn [bind ret err_add].
  do 2 eexists. split; [reflexivity|]. split; [split; assumption|exact Hp].
Qed.

Lemma invert_ok rnd g bl inp : bl_ok k bl -> rng_good (key_N k) rnd -> zlen g = 256 -> is_bytes inp -> zlen inp = 256 ->
  if key_N k <=? be_decode inp then tdp_invert k rnd g bl inp = (bl, Throw InvalidArgument)
  else exists bl' y, tdp_invert k rnd g bl inp = (bl', Ok (message y)) /\ root k (be_decode inp) y /\ bl_ok k bl'.
Proof.
  intros Hb Hr Lg Hi Li. pose proof (private_op rnd g bl inp [] Hb Hr Lg Hi Li) as H. rewrite app_nil_r in H. unfold tdp_invert.
  destruct (key_N k <=? be_decode inp); [now rewrite H|].
  destruct H as (bl' & y & -> & H1 & H2). cbn [to_call]. eauto.
Qed.
Lemma invert_string_ok rnd g bl s : bl_ok k bl -> rng_good (key_N k) rnd -> zlen g = 256 -> is_bytes s -> zlen s = 256 ->
  tdp_invert_string k rnd g bl s = tdp_invert k rnd g bl s.
Proof.
  intros Hb Hr Lg Hi Li. pose proof (private_op rnd g bl s [] Hb Hr Lg Hi Li) as H. rewrite app_nil_r in H.
  pose proof (private_op rnd g bl s [0] Hb Hr Lg Hi Li) as H'.
  unfold tdp_invert_string, tdp_invert. rewrite Li. change (256 =? kMessageSize) with true. cbn [negb]. unfold str_data.
  destruct (key_N k <=? be_decode s); [now rewrite H, H'|].
  destruct H as (b1 & y1 & E1 & R1 & _). destruct H' as (b2 & y2 & E2 & R2 & _).
  assert (Ey : rsa_private k bl rnd (s ++ [0]) g = rsa_private k bl rnd s g).
  { destruct (tdp_key_facts k HK) as (_ & _ & _ & HB).
    unfold rsa_private. rewrite (bits2048_len (key_pub k) HB). rewrite rd_prefix by congruence. rewrite rd_all by congruence. reflexivity. }
  now rewrite Ey.
Qed.
Lemma invert_string_bad rnd g bl s : zlen s <> 256 -> tdp_invert_string k rnd g bl s = (bl, Throw InvalidArgument).
Proof. intros H. unfold tdp_invert_string, kMessageSize. rewrite (proj2 (Z.eqb_neq _ _) H). reflexivity. Qed.

Lemma do_ok bl c : bl_ok k bl -> good_call (key_N k) c -> bl_ok k (fst (tdp_do k bl c)).
Proof.
  intros Hb (Hr & Lg & Hi & Ha). unfold tdp_do.
  assert (G : zlen (call_input c) = 256 -> bl_ok k (fst (tdp_invert k (call_rnd c) (call_buf c) bl (call_input c)))).
  { intros L. pose proof (invert_ok _ _ _ _ Hb Hr Lg Hi L) as H. destruct (key_N k <=? be_decode (call_input c)); [now rewrite H|].
    destruct H as (bl' & y & -> & _ & H). exact H. }
  destruct (call_string c).
  - destruct (Z.eq_dec (zlen (call_input c)) 256) as [L|L].
    + rewrite invert_string_ok by assumption. auto.
    + now rewrite invert_string_bad.
  - auto.
Qed.
Lemma run_ok : forall cs bl, bl_ok k bl -> Forall (good_call (key_N k)) cs -> bl_ok k (tdp_run k bl cs).
Proof.
  induction cs as [|c cs IH]; intros bl Hb Hf; [exact Hb|]. inversion Hf; subst. cbn [tdp_run].
  apply IH; [|assumption]. now apply do_ok.
Qed.

(** * Roots of higher order *)
Definition nroot (n : nat) (T y : Z) : Prop := 0 <= y < key_N k /\ y ^ (key_E k ^ Z.of_nat n) mod key_N k = T mod key_N k.

Lemma pow_pow_mod d e m n : 1 < m -> (d * e) mod m = 1 -> (d ^ Z.of_nat n * e ^ Z.of_nat n) mod m = 1.
Proof.
  intros Hm H. rewrite <- Z.pow_mul_l. rewrite Zpower_mod by lia. rewrite H, Z.pow_1_l by lia. apply Z.mod_small. lia.
Qed.
Lemma nroot_unique n T y z : nroot n T y -> nroot n T z -> y = z.
Proof.
  destruct (tdp_key_facts k HK) as (F & FP & FQ & _).
  intros [By Hy] [Bz Hz]. pose proof (N_pos k F) as HN. destruct F as [kP kQ kN oP oQ kE kR kqp kDP kDQ].
  rewrite <- (Z.mod_small y (key_N k)), <- (Z.mod_small z (key_N k)) by lia.
  assert (Eq : y ^ (key_E k ^ Z.of_nat n) mod key_N k = z ^ (key_E k ^ Z.of_nat n) mod key_N k) by congruence.
  rewrite kN in Eq |- *. apply crt_mod in Eq; [|lia|lia]. destruct Eq as [Ep Eq]. clear Hy Hz.
  pose proof (odd_ge3 _ kP oP) as P3. pose proof (odd_ge3 _ kQ oQ) as Q3.
  assert (E0 : 0 < key_E k ^ Z.of_nat n) by (apply Z.pow_pos_nonneg; lia).
  set (en := key_E k ^ Z.of_nat n) in *.
  assert (Inv : forall M d, rsa_factor M -> 3 <= M -> 0 < d < M - 1 -> (d * key_E k) mod (M - 1) = 1 ->
    y ^ en mod M = z ^ en mod M -> y mod M = z mod M).
  { intros M d HM H3 Hd He Heq.
    assert (D0 : 0 < d ^ Z.of_nat n) by (apply Z.pow_pos_nonneg; lia).
    rewrite Z.mul_comm in He. pose proof (pow_pow_mod (key_E k) d (M - 1) n ltac:(lia) He) as X. fold en in X.
    rewrite <- (pow_inverse M y en (d ^ Z.of_nat n) HM H3 E0 D0 X).
    rewrite <- (pow_inverse M z en (d ^ Z.of_nat n) HM H3 E0 D0 X).
    apply pow_mod_base; [lia|lia|exact Heq]. }
  apply crt_unique; [lia|lia|assumption| |].
  - apply (Inv _ _ FP P3 (proj1 kDP) (proj2 kDP) Ep).
  - apply (Inv _ _ FQ Q3 (proj1 kDQ) (proj2 kDQ) Eq).
Qed.

Lemma repeat_root : forall cs bl inp, bl_ok k bl -> Forall (fun c => rng_good (key_N k) (fst c) /\ zlen (snd c) = 256) cs ->
  is_bytes inp -> zlen inp = 256 -> be_decode inp < key_N k ->
  exists y, invert_repeat k bl cs inp = Ok (message y) /\ nroot (length cs) (be_decode inp) y.
Proof.
  destruct (tdp_key_facts k HK) as (F & FP & FQ & HB). destruct (bits2048_facts _ HB) as (L & N2 & NS).
  induction cs as [|[rnd g] cs IH]; intros bl inp Hb Hf Hi Li Hx.
  - exists (be_decode inp). cbn [invert_repeat]. split; [f_equal; now apply message_of|].
    pose proof (decode_range inp Hi Li). split; [lia|]. change (Z.of_nat (@length ((nat -> Z -> Z) * bytes) [])) with 0. now rewrite Z.pow_0_r, Z.pow_1_r.
  - inversion Hf as [|? ? [Hr Lg] Hf']; subst. cbn [fst snd] in *. cbn [invert_repeat].
    pose proof (invert_ok rnd g bl inp Hb Hr Lg Hi Li) as H. rewrite (proj2 (Z.leb_gt _ _) Hx) in H.
    destruct H as (bl' & z & -> & [Bz Ez] & Hb'). cbn [bind].
    destruct (IH bl' (message z) Hb' Hf' (message_bytes z) (message_len z)) as (y & -> & [By Ey]).
    { rewrite message_decode by lia. lia. }
    rewrite message_decode in Ey by lia.
    exists y. split; [reflexivity|]. split; [exact By|].
    cbn [length]. rewrite Nat2Z.inj_succ, Z.pow_succ_r by lia. destruct F as [kP kQ kN oP oQ kE kR kqp kDP kDQ].
    assert (0 <= key_E k ^ Z.of_nat (length cs)) by (apply Z.pow_nonneg; lia).
    rewrite Z.mul_comm, Z.pow_mul_r by lia.
    rewrite (pow_mod_base _ z) by (first [exact Ey|lia]). exact Ez.
Qed.

(** * invert_mult *)
Lemma insecure_loop_ok n : 1 < n -> forall fuel X base exp, 0 <= X < n -> 0 <= exp < 2 ^ Z.of_nat fuel ->
  insecure_loop (S fuel) X base exp n = ret ((X * base ^ exp) mod n).
Proof.
  intros Hn. induction fuel as [|fuel IH]; intros X base exp HX He.
  - change (2 ^ Z.of_nat 0) with 1 in He. replace exp with 0 by lia. cbn [insecure_loop Z.ltb Z.compare].
    rewrite Z.pow_0_r, Z.mul_1_r, Z.mod_small by lia. reflexivity.
  - remember (S fuel) as f eqn:Ef. cbn [insecure_loop]. destruct (0 <? exp) eqn:C.
    + apply Z.ltb_lt in C.
      assert (Sh : Z.shiftr exp 1 = exp / 2) by (rewrite Z.shiftr_div_pow2 by lia; reflexivity). rewrite Sh.
      assert (Hh : 0 <= exp / 2 < 2 ^ Z.of_nat fuel).
      { rewrite Ef, Nat2Z.inj_succ, Z.pow_succ_r in He by lia. split; [apply Z.div_pos; lia|]. apply Z.div_lt_upper_bound; lia. }
      pose proof (Z.div_mod exp 2 ltac:(lia)) as D. pose proof (Z.mod_pos_bound exp 2 ltac:(lia)) as M.
      assert (Sq : forall Y, (Y * ((base * base) mod n) ^ (exp / 2)) mod n = (Y * base ^ (2 * (exp / 2))) mod n).
      { intros Y. apply mul_mod_eq; [reflexivity|]. rewrite (pow_mod_base _ (base * base)) by (first [apply Zmod_mod|lia]).
        rewrite Z.pow_mul_r by lia. now rewrite Z.pow_2_r. }
      subst f.
      destruct (exp mod 2 =? 1) eqn:B.
      * apply Z.eqb_eq in B. rewrite mod_ok by lia. rewrite bindr_ret. rewrite mod_ok by lia. rewrite bindr_ret.
        rewrite IH by (try assumption; apply Z.mod_pos_bound; lia). f_equal. rewrite Sq.
        rewrite Zmult_mod, Zmod_mod, <- Zmult_mod. f_equal.
        rewrite D at 2. rewrite B, Z.pow_add_r by lia. rewrite Z.pow_1_r. ring.
      * apply Z.eqb_neq in B. rewrite bindr_ret. rewrite mod_ok by lia. rewrite bindr_ret.
        rewrite IH by assumption. f_equal. rewrite Sq. assert (exp = 2 * (exp / 2)) as D2 by lia. now rewrite <- D2.
    + apply Z.ltb_ge in C. replace exp with 0 by lia. rewrite Z.pow_0_r, Z.mul_1_r, Z.mod_small by lia. reflexivity.
Qed.
Lemma insecure_mod_exp_ok a e n : 1 < n -> 0 <= e < 2 ^ 64 -> insecure_mod_exp a e n = ret (a ^ e mod n).
Proof.
  intros Hn He. unfold insecure_mod_exp. rewrite mod_ok by lia. rewrite bindr_ret.
  unfold u64. rewrite (Z.mod_small e) by lia. rewrite (insecure_loop_ok n Hn 64) by (first [exact He|lia]).
  rewrite Z.mul_1_l. f_equal. apply pow_mod_base; [lia|lia|apply Zmod_mod].
Qed.

Lemma invert_mult_root inp order : is_bytes inp -> zlen inp = 256 -> 0 < order < 2 ^ 32 ->
  exists y, tdp_invert_mult k inp order = Ok (message y) /\ nroot (Z.to_nat order) (be_decode inp) y.
Proof.
  intros Hi Li Ho. destruct (tdp_key_facts k HK) as (F & FP & FQ & HB). destruct (bits2048_facts _ HB) as (L & N2 & NS).
  unfold tdp_invert_mult. rewrite (proj2 (Z.eqb_neq order 0)) by lia. rewrite (bits2048_len (key_pub k) HB).
  change (kMessageSize =? 256) with true. cbn [negb]. rewrite read_256 by assumption. cbn [throw_if_err bind ret].
  destruct F as [kP kQ kN oP oQ kE kR kqp kDP kDQ].
  pose proof (odd_ge3 _ kP oP) as P3. pose proof (odd_ge3 _ kQ oQ) as Q3.
  assert (P0 : 0 < key_P k) by lia. assert (Q0 : 0 < key_Q k) by lia. assert (P1 : 1 < key_P k) by lia.
  assert (E0 : 0 < key_E k ^ Z.of_nat (Z.to_nat order)) by (apply Z.pow_pos_nonneg; lia). assert (E1 := Z.lt_le_incl _ _ E0).
  set (x := be_decode inp). unfold invert_mult_core.
  rewrite insecure_mod_exp_ok by lia. rewrite bindr_ret. rewrite insecure_mod_exp_ok by lia. rewrite bindr_ret.
  assert (D : forall M d, 3 <= M -> 0 < d < M - 1 -> (d * key_E k) mod (M - 1) = 1 ->
     0 < d ^ order mod (M - 1) /\ (d ^ order mod (M - 1) * key_E k ^ Z.of_nat (Z.to_nat order)) mod (M - 1) = 1).
  { intros M d H3 Hd He. pose proof (pow_pow_mod d (key_E k) (M - 1) (Z.to_nat order) ltac:(lia) He) as X.
    rewrite Z2Nat.id in X |- * by lia. rewrite Zmult_mod in X.
    pose proof (Z.mod_pos_bound (d ^ order) (M - 1) ltac:(lia)) as B. split.
    - enough (d ^ order mod (M - 1) <> 0) by lia. intros Z0. rewrite Z0, Z.mul_0_l, Zmod_0_l in X. discriminate.
    - rewrite Zmult_mod, Zmod_mod. exact X. }
  destruct (D _ _ P3 (proj1 kDP) (proj2 kDP)) as [dp0 dp1]. destruct (D _ _ Q3 (proj1 kDQ) (proj2 kDQ)) as [dq0 dq1]. clear D.
  set (dp := key_DP k ^ order mod (key_P k - 1)) in *. set (dq := key_DQ k ^ order mod (key_Q k - 1)) in *.
  rewrite exp_mod_ok by (first [assumption|lia]). rewrite bindr_ret. rewrite exp_mod_ok by (first [assumption|lia]). rewrite bindr_ret.
  rewrite mod_ok by lia. rewrite bindr_ret. rewrite bindr_ret.
  pose proof (crt_combine (key_P k) (key_Q k) (key_QP k) (x ^ dp mod key_P k) (x ^ dq mod key_Q k) kP ltac:(lia) kqp
    (Z.mod_pos_bound _ (key_Q k) ltac:(lia))) as C. cbn zeta in C.
  match type of C with (0 <= ?t < _) /\ _ => set (y := t) in * end. clearbody y. destruct C as (B & C1 & C2).
  rewrite <- kN in B. assert (BS : 0 <= y < space) by (clear - B NS; lia). unfold kMessageSize. rewrite write_256 by exact BS. cbn [bind ret].
  exists y. split; [reflexivity|]. split; [exact B|].
  rewrite Zmod_mod in C1. rewrite Zmod_mod in C2.
  rewrite kN. apply crt_unique; [assumption|assumption|assumption| |].
  - rewrite (pow_mod_base y (x ^ dp)) by assumption. apply pow_inverse; assumption.
  - rewrite (pow_mod_base y (x ^ dq)) by assumption. apply pow_inverse; assumption.
Qed.

Lemma invert_mult_repeat inp order bl cs : is_bytes inp -> zlen inp = 256 -> be_decode inp < key_N k -> 0 <= order < 2 ^ 32 ->
  bl_ok k bl -> Forall (fun c => rng_good (key_N k) (fst c) /\ zlen (snd c) = 256) cs -> zlen cs = order ->
  tdp_invert_mult k inp order = invert_repeat k bl cs inp.
Proof.
  intros Hi Li Hx Ho Hb Hf Lc. destruct (Z.eq_dec order 0) as [->|].
  - destruct cs; [reflexivity|]. rewrite zlen_cons in Lc. pose proof (zlen_nonneg cs). lia.
  - destruct (invert_mult_root inp order Hi Li ltac:(lia)) as (y & -> & Hy).
    destruct (repeat_root cs bl inp Hb Hf Hi Li Hx) as (z & -> & Hz).
    assert (length cs = Z.to_nat order) as El by (unfold zlen in Lc; lia). rewrite El in Hz.
    now rewrite (nroot_unique _ _ _ _ Hy Hz).
Qed.
End Inv.
