(** Keys read from arbitrary texts and from the texts written. *)
From Coq Require Import Lia ZifyBool.
From Verif Require Import Base BaseFacts Base64Model Base64Spec Base64Proofs MpiModel MpiProofs PemModel PemSpec PemProofs PemProofs2
  AsnModel RsaKeyModel RsaKeySpec AsnProofs AsnProofs2 AsnProofs3 AsnProofs4 AsnProofs5 TdpKeyModel.

(** * Arbitrary texts *)
Section Buffer.
Context (b : bytes) (Hb : is_bytes b) (Hz : zlen b < 2 ^ 63).
Lemma rsapubkey_total p e : 0 <= p -> e <= zlen b -> total (pk_get_rsapubkey b p e) public_ok.
Proof.
  intros Hp He. unfold pk_get_rsapubkey. eapply total_bindr; [apply total_add, get_tag_total; assumption|]. intros [p1 l1] (A1 & A2 & A3). cbn beta iota.
  destruct (negb (p1 + l1 =? e)); [apply total_err|]. eapply total_bindr; [apply total_add, get_mpi_total; try assumption; lia|]. intros [p2 n] (B1 & B2). cbn beta iota.
  eapply total_bindr; [apply total_add, get_mpi_total; try assumption; lia|]. intros [p3 x] (C1 & C2). cbn beta iota.
  destruct (negb (p3 =? e)); [apply total_err|]. cbv zeta. destruct (check_pubkey_ok {| pub_N := n; pub_E := x |} B2 C2) as [T _].
  eapply total_bindr; [apply total_set; exact T|]. intros x0 H. apply total_ret. assumption.
Qed.
Lemma subpubkey_total p e : 0 <= p -> e <= zlen b -> total (pk_parse_subpubkey b p e) public_ok.
Proof.
  intros Hp He. unfold pk_parse_subpubkey. eapply total_bindr; [apply total_add, get_tag_total; assumption|]. intros [p1 l1] (A1 & A2 & A3). cbn beta iota zeta.
  eapply total_bindr; [apply pk_alg_total; try assumption; lia|]. intros p2 B. cbn beta in *.
  eapply total_bindr; [apply total_add, get_bitstring_total; try assumption; lia|]. intros [p3 l3] (C1 & C2 & C3). cbn beta iota.
  destruct (negb _); [apply total_err|]. apply rsapubkey_total; lia.
Qed.
Lemma pkcs1_total p n : 0 <= p -> p + n <= zlen b -> total (pk_parse_key_pkcs1_der b p n) private_ok.
Proof.
  intros Hp He. unfold pk_parse_key_pkcs1_der. eapply total_bindr; [apply total_add, get_tag_total; assumption|]. intros [p1 l1] (A1 & A2 & A3). cbn beta iota zeta.
  eapply total_bindr; [apply total_add, get_int_total; try assumption; lia|]. intros [p2 v] A4. cbn beta iota. destruct (negb _); [apply total_err|].
  eapply total_bindr; [apply total_add, get_mpi_total; try assumption; lia|]. intros [q1 k1] (B1 & K1). cbn beta iota.
  eapply total_bindr; [apply total_add, get_mpi_total; try assumption; lia|]. intros [q2 k2] (B2 & K2). cbn beta iota.
  eapply total_bindr; [apply total_add, get_mpi_total; try assumption; lia|]. intros [q3 k3] (B3 & K3). cbn beta iota.
  eapply total_bindr; [apply total_add, get_mpi_total; try assumption; lia|]. intros [q4 k4] (B4 & K4). cbn beta iota.
  eapply total_bindr; [apply total_add, get_mpi_total; try assumption; lia|]. intros [q5 k5] (B5 & K5). cbn beta iota.
  eapply total_bindr; [apply total_add, get_mpi_total; try assumption; lia|]. intros [q6 k6] (B6 & K6). cbn beta iota.
  eapply total_bindr; [apply total_add, get_mpi_total; try assumption; lia|]. intros [q7 k7] (B7 & K7). cbn beta iota.
  eapply total_bindr; [apply total_add, get_mpi_total; try assumption; lia|]. intros [q8 k8] (B8 & K8). cbn beta iota.
  destruct (negb _); [apply total_err|]. cbv zeta.
  match goal with |- context [rsa_check_privkey ?k] => destruct (check_privkey_ok k K1 K2 K3 K4 K5) as [T _] end.
  eapply total_bindr; [exact T|]. intros x0 H. apply total_ret. assumption.
Qed.
Lemma pkcs8_total n : n <= zlen b -> total (pk_parse_key_pkcs8 b n) private_ok.
Proof.
  intros He. unfold pk_parse_key_pkcs8. eapply total_bindr; [apply total_add, get_tag_total; try assumption; lia|]. intros [p1 l1] (A1 & A2 & A3). cbn beta iota zeta.
  eapply total_bindr; [apply total_add, get_int_total; try assumption; lia|]. intros [p2 v] A4. cbn beta iota. destruct (negb _); [apply total_err|].
  eapply total_bindr; [apply total_add, pk_alg_total; try assumption; lia|]. intros p3 B. cbn beta in *.
  eapply total_bindr; [apply total_add, get_tag_total; try assumption; lia|]. intros [p4 l4] (C1 & C2 & C3). cbn beta iota.
  destruct (_ <? _) eqn:E; [apply total_err|]. apply pkcs1_total; lia.
Qed.
End Buffer.

Section Alloc.
Context (alloc : Z -> bool).
Lemma read_pem_total header footer key : is_bytes key -> zlen key < 2 ^ 63 ->
  total (read_pem alloc header footer key (zlen key)) (fun buf => is_bytes buf /\ zlen buf < 2 ^ 63).
Proof.
  intros Hb Hz. unfold read_pem. destruct (zlen key =? 0) eqn:E; [apply total_err|]. pose proof (zlen_nonneg key).
  destruct (rd1_ok key (zlen key - 1) ltac:(lia)) as (c & -> & En). cbn [bind]. destruct (c =? 0) eqn:E0; [|apply total_err]. cbn [negb].
  apply Z.eqb_eq in E0. subst c. pose proof (nth_error_In _ _ En) as Hin.
  destruct (pem_read_total alloc header footer key Hb Hin Hz) as (r & Er & Hr).
  apply total_bindr with (fun '(buf, _) => is_bytes buf /\ zlen buf < 2 ^ 63); [|intros [buf u] H0; apply total_ret; assumption].
  exists r. split; [assumption|]. intros [buf u] ->. destruct (Hr buf u eq_refl) as (H1 & H2 & _). split; [assumption|lia].
Qed.
Lemma parse_key_total key : is_bytes key -> zlen key < 2 ^ 63 -> total (pk_parse_key alloc key (zlen key)) private_ok.
Proof.
  intros Hb Hz. unfold pk_parse_key. destruct (read_pem_total begin_rsa_private end_rsa_private key Hb Hz) as (r1 & -> & H1). cbn [bind].
  destruct r1 as [e1|b1]; [|destruct (H1 b1 eq_refl); apply pkcs1_total; try assumption; lia].
  destruct (negb _); [apply total_err|]. destruct (read_pem_total begin_private end_private key Hb Hz) as (r2 & -> & H2). cbn [bind].
  destruct r2 as [e2|b2]; [|destruct (H2 b2 eq_refl); apply pkcs8_total; try assumption; lia].
  destruct (negb _); [apply total_err|]. destruct (pkcs8_total key Hb Hz (zlen key) (Z.le_refl _)) as (r3 & -> & H3). cbn [bind].
  destruct r3 as [e3|k3]; [|apply total_ret, H3; reflexivity].
  destruct (pkcs1_total key Hb Hz 0 (zlen key) (Z.le_refl _) (Z.le_refl _)) as (r4 & -> & H4). cbn [bind].
  destruct r4 as [e4|k4]; [apply total_err|apply total_ret, H4; reflexivity].
Qed.
Lemma parse_public_key_total key : is_bytes key -> zlen key < 2 ^ 63 -> total (pk_parse_public_key alloc key (zlen key)) public_ok.
Proof.
  intros Hb Hz. unfold pk_parse_public_key. destruct (read_pem_total begin_public end_public key Hb Hz) as (r1 & -> & H1). cbn [bind].
  destruct r1 as [e1|b1]; [|destruct (H1 b1 eq_refl); apply subpubkey_total; try assumption; lia].
  destruct (negb _); [apply total_err|]. apply subpubkey_total; try assumption; lia.
Qed.

Lemma from_public_total s : is_bytes s -> zlen s < 2 ^ 62 ->
  tdp_from_public alloc s = Throw RuntimeError \/ exists k, tdp_from_public alloc s = Ok k /\ public_ok k.
Proof.
  intros Hb Hz. unfold tdp_from_public, throw_if_err. assert (zlen (s ++ [0]) = zlen s + 1) as El by (rewrite zlen_app; reflexivity). rewrite <- El.
  destruct (parse_public_key_total (s ++ [0])) as (r & -> & H); [apply is_bytes_app; split; [assumption|repeat constructor; lia]|lia|]. cbn [bind].
  destruct r as [e|k]; [left; reflexivity|]. pose proof (H k eq_refl) as Hk. cbn [bind].
  assert (rsa_check_pubkey k = ret tt) as ->; [|right; exists k; split; [reflexivity|assumption]].
  apply check_pubkey_ok; [| |assumption]; pose proof (public_N k Hk); destruct Hk as (_ & _ & _ & H3); lia.
Qed.
Lemma from_private_total s : is_bytes s -> zlen s < 2 ^ 62 ->
  tdp_from_private alloc s = Throw RuntimeError \/ exists k, tdp_from_private alloc s = Ok k /\ private_ok k.
Proof.
  intros Hb Hz. unfold tdp_from_private, throw_if_err. assert (zlen (s ++ [0]) = zlen s + 1) as El by (rewrite zlen_app; reflexivity). rewrite <- El.
  destruct (parse_key_total (s ++ [0])) as (r & -> & H); [apply is_bytes_app; split; [assumption|repeat constructor; lia]|lia|]. cbn [bind].
  destruct r as [e|k]; [left; reflexivity|]. pose proof (H k eq_refl) as Hk. cbn [bind].
  assert (rsa_check_pubkey (key_pub k) = ret tt) as ->; [|right; exists k; split; [reflexivity|assumption]].
  destruct Hk as (Hp & _). apply check_pubkey_ok; [| |assumption]; pose proof (public_N _ Hp); destruct Hp as (_ & _ & _ & H3); lia.
Qed.
End Alloc.
