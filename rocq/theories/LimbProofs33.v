(** Lemmas for the properties *)
From Coq Require Import Lia ZifyBool Znumtheory.
From Verif Require Import Base BaseFacts MpiModel MpiProofs LimbModel LimbModel2 LimbSpec LimbSpec2 LimbProofs LimbProofs2 LimbProofs3 LimbProofs19 LimbProofs20 LimbProofs24 LimbProofs25 LimbProofs27 LimbProofs29 LimbProofs32
  PemModel PemSpec PemProofs PemProofs2 AsnModel RsaKeyModel RsaKeySpec AsnProofs4 AsnProofs5 RsaKeyProofs RsaKeyProofs2 TdpKeyModel TdpModel TdpSpec TdpProofs TdpProofs2 TdpProofs3 TdpProofs4 LimbRsaModel LimbRsaSpec.

Lemma evals_value k g : forall inps c, pub_object c k -> public_ok k -> bits2048 (pub_N k) -> zlen g = 256 -> Forall (fun inp => is_bytes inp /\ zlen inp = 256) inps ->
  l_evals c g inps = Ok (map (fun inp => message (be_decode inp ^ pub_E k mod pub_N k)) inps).
Proof.
  induction inps as [|inp inps IH]; intros c PO PK B G F; [reflexivity|]. apply Forall_cons_iff in F. destruct F as [[Bi Li] F]. cbn [l_evals map].
  destruct (eval_refines c k g inp (proj1 PO) Bi ltac:(lia)) as [E _]. pose proof PK as (ON & OE & BN & BE).
  rewrite eval_ok in E by (try assumption; lia). destruct (l_tdp_eval c g inp) as [[c' y]| | | |] eqn:EE; try discriminate. cbn [drop] in E. injection E as ->. cbn [bind fst snd].
  rewrite (IH c'); [reflexivity| |assumption..]. apply (eval_object c k g inp c' _ PO Bi ltac:(lia) EE).
Qed.
Lemma generate_value c k rnd : ctx_pub c k -> is_bytes rnd -> zlen rnd = 264 -> bits2048 (pub_N k) -> l_tdp_generate c rnd = Ok (message (be_decode rnd mod pub_N k)).
Proof.
  intros C B L K. rewrite (generate_refines c k rnd C B) by lia. destruct (bits2048_facts _ K) as (_ & N2 & NS).
  rewrite read_binary_ok by (first [assumption | lia]). rewrite throw_ret. rewrite mod_ok by lia. rewrite throw_ret. apply write_array_ok; [|reflexivity]. pose proof (Z.mod_pos_bound (be_decode rnd) (pub_N k) ltac:(lia)). lia.
Qed.
Lemma check_pub_exact c k : ctx_pub c k -> 0 <= pub_N k -> 0 <= pub_E k -> (l_check_pubkey c = ret tt <-> public_ok k) /\ exists r, l_check_pubkey c = Ok r.
Proof.
  intros C N E. rewrite (check_pub_refines c k C). destruct (check_pubkey_ok k N E) as [(r & Er & Hr) T]. split; [|now exists r]. split; [|exact T]. intros H. rewrite Er in H. injection H as ->. now apply (Hr tt).
Qed.
Lemma check_priv_exact c k : ctx_pub c (key_pub k) -> holds (c_D c) (key_D k) -> holds (c_P c) (key_P k) -> holds (c_Q c) (key_Q k) ->
  holds (c_DP c) (key_DP k) -> holds (c_DQ c) (key_DQ k) -> holds (c_QP c) (key_QP k) -> key_nonneg k ->
  (l_check_privkey c = ret tt <-> private_ok k) /\ exists r, l_check_privkey c = Ok r.
Proof.
  intros C1 C2 C3 C4 C5 C6 C7 (N1 & N2 & N3 & N4 & N5 & _). rewrite (check_priv_refines c k) by assumption. destruct (check_privkey_ok k N1 N2 N3 N4 N5) as [(r & Er & Hr) T]. split; [|now exists r]. split; [|exact T]. intros H. rewrite Er in H. injection H as ->. now apply (Hr tt).
Qed.
Lemma copy_object c k : pub_object c k -> public_ok k -> exists c', l_tdp_copy c = Ok c' /\ pub_object c' k.
Proof.
  intros (PUB & F & T) PK. pose proof (public_N k PK) as NP. pose proof (tdp_copy_refines c k PUB F (or_introl T) ltac:(lia)) as H.
  assert (rsa_check_pubkey k = ret tt) as CK. { destruct PK as (X1 & X2 & X3 & X4). apply (proj2 (check_pubkey_ok k ltac:(clear - NP; lia) ltac:(clear - X4; lia))). exact (conj X1 (conj X2 (conj X3 X4))). }
  rewrite CK in H. exact H.
Qed.
Lemma ctx_of_2048 k : public_ok k -> bits2048 (pub_N k) -> pub_E k < 256 -> pub_object (ctx_of 256 1 k) k.
Proof.
  intros PK [B1 B2] E. apply ctx_of_ok; [split; discriminate | discriminate | |].
  - split; [|exact B2]. apply Z.le_trans with (2 ^ 2047); [vm_compute; discriminate | exact B1].
  - destruct PK as (_ & _ & _ & P). change (256 ^ Z.of_nat 1) with 256. clear - P E. lia.
Qed.
(** A context with a private key read from its bytes *)
Definition priv_ctx (k : rsa_key) : rsa_ctx :=
  let num x := rd_num (Z.to_nat (mpi_size x)) x in
  MkCtx (rsa_len (key_pub k)) (num (key_N k)) (num (key_E k)) (num (key_D k)) (num (key_P k)) (num (key_Q k)) (num (key_DP k)) (num (key_DQ k)) (num (key_QP k))
    l_init l_init l_init l_init l_init.
Definition with_D (k : rsa_key) (d : Z) : rsa_key :=
  {| key_N := key_N k; key_E := key_E k; key_D := d; key_P := key_P k; key_Q := key_Q k; key_DP := key_DP k; key_DQ := key_DQ k; key_QP := key_QP k |}.
Lemma pem_bytes k : key_tiny k -> is_bytes (pem_private_key k).
Proof.
  intros T. destruct (der_private_ok k T) as [Bd _]. unfold pem_private_key, pem_text. apply is_bytes_app. split; [repeat constructor; discriminate|]. apply is_bytes_app. split; [|repeat constructor; discriminate].
  apply Forall_forall. intros c Hc. apply wrap_in in Hc. destruct Hc as [->|Hc]; [split; discriminate || reflexivity|]. pose proof (b64_syms _ Bd) as S. rewrite Forall_forall in S. specialize (S c Hc). unfold b64_sym in S. unfold is_byte. lia.
Qed.
