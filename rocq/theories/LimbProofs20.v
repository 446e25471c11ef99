(** The public operations on limbs *)
From Coq Require Import Lia Znumtheory.
From Verif Require Import Base BaseFacts MpiModel MpiProofs LimbModel LimbModel2 LimbSpec LimbSpec2 LimbProofs LimbProofs2 LimbProofs3 LimbProofs4 LimbProofs5 LimbProofs6 LimbProofs9 LimbProofs11 LimbProofs12 LimbProofs13 LimbProofs14 LimbProofs16 LimbProofs19 RsaKeyModel TdpKeyModel TdpModel TdpProofs LimbRsaModel LimbRsaSpec.

Lemma wp_throw {A B} (x : res A) (f : A -> outcome B) P (Q : B -> Prop) : wp x P -> (forall a, P a -> wpo (f a) Q) -> wpo (bind (throw_if_err x) f) Q.
Proof. intros (a & E & H) K. unfold throw_if_err. rewrite E. cbn [bind ret]. now apply K. Qed.
Lemma throw_ret {A B} (a : A) (f : A -> outcome B) : bind (throw_if_err (ret a)) f = f a.
Proof. reflexivity. Qed.
Lemma throw_e {A B} e (f : A -> outcome B) : bind (throw_if_err (err e)) f = Throw RuntimeError.
Proof. reflexivity. Qed.
Lemma throw_err {A B} (x : res A) (f : A -> outcome B) e : x = err e -> bind (throw_if_err x) f = Throw RuntimeError.
Proof. intros ->. reflexivity. Qed.
Lemma bitlen_abs x : mpi_bitlen (Z.abs x) = mpi_bitlen x.
Proof. unfold mpi_bitlen. destruct (Z.eqb_spec (Z.abs x) 0), (Z.eqb_spec x 0); try lia. now rewrite Z.abs_involutive. Qed.
Lemma size_abs x : mpi_size (Z.abs x) = mpi_size x. Proof. unfold mpi_size. now rewrite bitlen_abs. Qed.
Lemma s_write X out : mpi_ok X -> l_write_array X out = write_array (mval X) out.
Proof.
  intros H. unfold l_write_array, write_array, mpi_write_binary. rewrite write_binary_limb by exact H. rewrite <- mval_abs, size_abs by exact H. unfold zlen. rewrite Nat2Z.id. destruct (_ <? _); reflexivity.
Qed.
Lemma s_write_bin X buf : mpi_ok X -> l_write_binary X buf = mpi_write_binary (mval X) (zlen buf).
Proof. intros H. unfold mpi_write_binary. rewrite write_binary_limb by exact H. rewrite <- mval_abs, size_abs by exact H. unfold zlen. rewrite Nat2Z.id. reflexivity. Qed.
Lemma exp_bad_i a e n : n < 0 \/ Z.odd n = false \/ e < 0 -> mpi_exp_mod a e n = err ERR_MPI_BAD_INPUT_DATA.
Proof.
  intros H. unfold mpi_exp_mod. rewrite <- Z.negb_odd. destruct (Z.ltb_spec n 0); [reflexivity|]. cbn [orb]. destruct (Z.odd n) eqn:O; cbn [negb]; [|reflexivity]. destruct (Z.ltb_spec e 0); [reflexivity|].
  destruct H as [H|[H|H]]; [lia | congruence | lia].
Qed.
(** Reading at most 80000 bytes *)
Lemma read_both bs : is_bytes bs -> zlen bs <= 80000 -> mpi_read_binary bs = ret (be_decode bs) /\
  wp (l_read_binary l_init bs) (fun R => mpi_ok R /\ mval R = be_decode bs /\ ms R = 1 /\ 1 <= mlen R <= Z.max 1 ((zlen bs + 7) / 8)).
Proof.
  intros B L. split; [now apply read_binary_ok|]. eapply wp_mono; [apply s_read; [exact init_ok | exact B | exact L]|]. cbv beta. intros R (O & M & S1 & L1). split; [exact O|]. split; [exact M|]. split; [exact S1|].
  change (mlen l_init) with 0 in L1. assert (0 <= (zlen bs + 7) / 8) by (apply Z.div_pos; [pose proof (zlen_nonneg bs); lia | lia]). lia.
Qed.

(** Exponentiation in place: what eval and eval_pool do *)
Lemma exp_refines c k X g : ctx_pub c k -> mpi_ok X -> ms X = 1 -> 1 <= mlen X <= 9000 ->
  drop (xr <- throw_if_err (l_exp_mod true X X (c_E c) (c_N c) (Some (c_RN c))) ;; out <- l_write_array (fst xr) g ;; Ok (set_R c (kept (c_RN c) (snd xr)) (c_RP c) (c_RQ c), out)) =
    (x <- throw_if_err (mpi_exp_mod (mval X) (pub_E k) (pub_N k)) ;; write_array x g) /\
  (forall xr, l_exp_mod true X X (c_E c) (c_N c) (Some (c_RN c)) = ret xr -> ctx_pub (set_R c (kept (c_RN c) (snd xr)) (c_RP c) (c_RQ c)) k).
Proof.
  intros (CL & (ON & MN & LN) & (OE & ME & LE) & CR) OX SX LX.
  destruct (Z_lt_le_dec 0 (pub_N k)) as [PN|PN]; [destruct (Z.odd (pub_N k)) eqn:OD; [destruct (Z_lt_le_dec (pub_E k) 0) as [PE|PE]|]|].
  2: { assert (Z.odd (mval (c_N c)) = true) as OD1 by (rewrite MN; exact OD).
    destruct (s_exp true X X (c_E c) (c_N c) (c_RN c) OX OX OE ON CR (fun _ => eq_refl) (or_introl eq_refl) ltac:(lia) OD1 ltac:(lia) ltac:(lia) ltac:(lia) ltac:(lia) SX) as (r & E & O & M & _ & R' & ER & CR').
    rewrite E. unfold throw_if_err at 1. cbn [ret bind]. rewrite s_write by exact O. rewrite M, MN, ME. rewrite TdpProofs.exp_mod_ok by assumption. unfold throw_if_err. cbn [ret bind]. split.
    - destruct (write_array _ g); reflexivity.
    - intros xr H. apply ret_inj in H. subst xr. rewrite ER. cbn [kept]. repeat split; cbn [set_R c_len c_N c_E c_RN]; assumption || apply LN || apply LE || apply CR' || apply OE || apply ON. }
  all: rewrite exp_mod_bad_f by (try assumption; (apply mlen_nonnil; lia) || (rewrite ?MN, ?ME; tauto)).
  all: split; [|discriminate]; unfold throw_if_err at 1; cbn [err bind drop].
  - rewrite exp_bad_i by tauto. reflexivity.
  - rewrite exp_bad_i by tauto. reflexivity.
  - destruct (Z.odd (pub_N k)) eqn:OD; [|rewrite exp_bad_i by tauto; reflexivity]. assert (pub_N k <> 0) by (intros Q; rewrite Q in OD; discriminate). rewrite exp_bad_i by lia. reflexivity.
Qed.
Lemma mod_refines c k X : ctx_pub c k -> mpi_ok X -> ms X = 1 -> 1 <= mlen X <= 9000 ->
  match mpi_mod (mval X) (pub_N k) with
  | Ok (inr v) => wp (l_mod true X X (c_N c)) (fun R => mpi_ok R /\ mval R = v /\ ms R = 1 /\ 1 <= mlen R <= 9000)
  | Ok (inl e) => l_mod true X X (c_N c) = err e
  | _ => False
  end.
Proof.
  intros (_ & (ON & MN & LN) & _) OX SX LX. unfold mpi_mod. destruct (Z.ltb_spec (pub_N k) 0) as [P|P]; [apply mod_neg; [exact ON | lia]|].
  destruct (Z.eqb_spec (pub_N k) 0) as [Q|Q]; [apply mod_zero; [exact ON | lia]|]. cbn [ret].
  eapply wp_mono; [apply s_mod; [exact OX | exact OX | exact ON | intros _; reflexivity | lia | lia | lia | lia]|]. cbv beta. intros R (O & M & L & N1 & S1). split; [exact O|]. split; [rewrite M, MN; reflexivity|]. split; [exact (S1 SX)|].
  specialize (N1 (proj1 (mlen_nonnil X) ltac:(lia))). lia.
Qed.
Lemma eval_refines c k g inp : ctx_pub c k -> is_bytes inp -> zlen inp <= 8000 ->
  drop (l_tdp_eval c g inp) = tdp_eval k g inp /\ forall c' y, l_tdp_eval c g inp = Ok (c', y) -> ctx_pub c' k.
Proof.
  intros C B L. unfold l_tdp_eval, tdp_eval. rewrite (proj1 C). destruct (negb _); [split; [reflexivity | discriminate]|].
  destruct (read_both inp B ltac:(lia)) as (-> & X & EX & OX & MX & SX & LX). rewrite EX. rewrite ?throw_ret. rewrite <- MX.
  assert (1 <= mlen X <= 9000) as LX1. { assert ((zlen inp + 7) / 8 <= 1001) by (assert ((zlen inp + 7) / 8 < 1002); [apply Z.div_lt_upper_bound; lia | lia]). lia. }
  pose proof (mod_refines c k X C OX SX LX1) as H. destruct (mpi_mod (mval X) (pub_N k)) as [[e|v]| | | |]; try contradiction.
  - rewrite H. rewrite !throw_e. split; [reflexivity | discriminate].
  - destruct H as (Y & H0 & OY & MY & SY & LY). rewrite H0.
    rewrite ?throw_ret. rewrite <- MY. destruct (exp_refines c k Y g C OY SY LY) as [E1 E2]. split; [exact E1|]. intros c' y HH.
    unfold throw_if_err in HH. destruct (l_exp_mod true Y Y (c_E c) (c_N c) (Some (c_RN c))) as [[e|xr]| | | |]; try discriminate. specialize (E2 xr eq_refl). cbn [bind] in HH. destruct (l_write_array (fst xr) g); try discriminate.
    injection HH as <- _. exact E2.
Qed.
Lemma sample_refines c k f n rnd : ctx_pub c k -> same_random f n rnd -> l_tdp_sample c f n = tdp_sample k rnd.
Proof.
  intros C R. unfold l_tdp_sample, tdp_sample. destruct (R O (Z.to_nat kRSAPrfSize) ltac:(unfold kRSAPrfSize; lia)) as (bs & F & B & L & V). rewrite Nat.add_0_r in F.
  destruct (s_fill f l_init kRSAPrfSize n bs init_ok ltac:(unfold kRSAPrfSize; lia) F B ltac:(unfold zlen; rewrite L; reflexivity)) as (X & E & OX & MX & SX & LX). rewrite E. cbn [bind fst]. change (Ok (inr X)) with (@ret mpi X). rewrite ?throw_ret.
  change (rnd O kRSAPrfSize) with (rnd O (Z.of_nat (Z.to_nat kRSAPrfSize))). rewrite V, <- MX. change (mlen l_init) with 0 in LX. change ((kRSAPrfSize + 7) / 8) with 33 in LX.
  pose proof (mod_refines c k X C OX SX ltac:(lia)) as H. destruct (mpi_mod (mval X) (pub_N k)) as [[e|v]| | | |]; try contradiction.
  - rewrite H, ?throw_e. reflexivity.
  - destruct H as (Y & H0 & OY & MY & _). rewrite H0. rewrite ?throw_ret. rewrite s_write by exact OY. now rewrite MY.
Qed.
Lemma generate_refines c k rnd : ctx_pub c k -> is_bytes rnd -> zlen rnd <= 8000 ->
  l_tdp_generate c rnd = (x <- throw_if_err (mpi_read_binary rnd) ;; x <- throw_if_err (mpi_mod x (pub_N k)) ;; write_array x (zeros 256)).
Proof.
  intros C B L. unfold l_tdp_generate. destruct (read_both rnd B ltac:(lia)) as (-> & X & EX & OX & MX & SX & LX). rewrite EX. rewrite ?throw_ret. rewrite <- MX.
  assert (1 <= mlen X <= 9000) as LX1. { assert ((zlen rnd + 7) / 8 <= 1001) by (assert ((zlen rnd + 7) / 8 < 1002); [apply Z.div_lt_upper_bound; lia | lia]). lia. }
  pose proof (mod_refines c k X C OX SX LX1) as H. destruct (mpi_mod (mval X) (pub_N k)) as [[e|v]| | | |]; try contradiction.
  - rewrite H, ?throw_e. reflexivity.
  - destruct H as (Y & H0 & OY & MY & _). rewrite H0. rewrite ?throw_ret. rewrite s_write by exact OY. now rewrite MY.
Qed.
