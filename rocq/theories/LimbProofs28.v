(** Keys read from a text into a context *)
From Coq Require Import Lia ZifyBool Znumtheory.
From Verif Require Import Base BaseFacts MpiModel MpiProofs LimbModel LimbModel2 LimbSpec LimbSpec2 LimbProofs LimbProofs2 LimbProofs3 LimbProofs4 LimbProofs5 LimbProofs6 LimbProofs9 LimbProofs11 LimbProofs12 LimbProofs13 LimbProofs14 LimbProofs16 LimbProofs19 LimbProofs20 LimbProofs21 LimbProofs24 LimbProofs25 LimbProofs26 LimbProofs27
  Base64Model PemModel PemProofs2 AsnModel RsaKeyModel RsaKeySpec AsnProofs3 AsnProofs5 RsaKeyProofs TdpKeyModel TdpModel TdpProofs LimbRsaModel LimbRsaSpec LimbKeyModel.

Lemma agrees_shared {T A B} (x : res T) (k : T -> res A) (k' : T -> res B) (R : T -> Prop) P : total x R -> (forall v, R v -> agrees (k v) (k' v) P) -> agrees (bindr x k) (bindr x k') P.
Proof. intros (r & -> & H) K. cbn [bindr bind]. destruct r as [e|v]; [reflexivity | apply K, H; reflexivity]. Qed.
Lemma agrees_ret {A B} (a : A) (b : B) (P : A -> B -> Prop) : P a b -> agrees (ret a) (ret b) P.
Proof. intros H. exists a. split; [reflexivity | exact H]. Qed.
Lemma agrees_mono {A B} (l : res A) (i : res B) (P Q : A -> B -> Prop) : agrees l i P -> (forall a b, P a b -> Q a b) -> agrees l i Q.
Proof. unfold agrees. destruct i as [[e|v]| | | |]; auto. intros (a & E & H) K. exists a. split; [exact E | apply K, H]. Qed.

Section Buffer.
Context (b : bytes) (Hb : is_bytes b) (Hz : zlen b <= 8000).
Definition num (p : Z) (X : Z * mpi) (x : Z * Z) : Prop := fst X = fst x /\ p < fst x /\ 0 <= snd x /\ holds (snd X) (snd x).
Lemma get_mpi_agrees p e : 0 <= p -> e <= zlen b -> agrees (l_asn1_get_mpi b p e) (asn1_get_mpi b p e) (fun X x => num p X x /\ fst x <= e).
Proof.
  intros Hp He. unfold l_asn1_get_mpi, asn1_get_mpi. eapply agrees_shared; [apply (get_tag_total b Hb ltac:(lia)); assumption|]. intros [p' l] (H1 & H2 & H3). cbn beta iota.
  rewrite rd_ok by lia. cbn [bind]. match goal with |- context [l_read_binary l_init ?x] => set (bs := x) end.
  assert (is_bytes bs) as B by (apply is_bytes_firstn, is_bytes_skipn, Hb). assert (zlen bs <= 8000) as L by (unfold zlen, bs in *; rewrite window_length; lia).
  destruct (read_both bs B ltac:(lia)) as (-> & X & -> & O & M & S1 & LX). cbn [bindr bind ret]. apply agrees_ret. cbn [fst snd].
  assert ((zlen bs + 7) / 8 < 1001) by (apply Z.div_lt_upper_bound; lia). unfold num. cbn [fst snd]. pose proof (be_decode_range bs B). unfold holds. repeat split; try apply O; lia.
Qed.
Definition fresh_pub (c : rsa_ctx) (k : rsa_pub) : Prop := ctx_pub c k /\ ctx_objects c /\ mp (c_RN c) = [].
Definition fresh_priv (c : rsa_ctx) (k : rsa_key) : Prop := ctx_priv c k None /\ ctx_objects c /\ mp (c_RN c) = [] /\ mp (c_RP c) = [] /\ mp (c_RQ c) = [].
Lemma init_cache X : cache_ok X (Some l_init).
Proof. split; [exact init_ok|]. split; [now change (mlen l_init) with 0 | now left]. Qed.
Lemma holds_obj X x : holds X x -> mpi_ok X /\ mlen X <= 10000. Proof. intros (O & _ & L). split; [exact O | lia]. Qed.
Lemma init_obj : mpi_ok l_init /\ mlen l_init <= 10000. Proof. split; [exact init_ok | now change (mlen l_init) with 0]. Qed.
Lemma size_val X x : holds X x -> l_size X = Ok (mpi_size x).
Proof. intros (O & M & _). rewrite size_ok by exact O. rewrite <- mval_abs, size_abs, M by exact O. reflexivity. Qed.
Lemma rsapubkey_agrees p e : 0 <= p -> e <= zlen b -> agrees (l_get_rsapubkey b p e) (pk_get_rsapubkey b p e) fresh_pub.
Proof.
  intros Hp He. unfold l_get_rsapubkey, pk_get_rsapubkey. eapply agrees_shared; [apply total_add, (get_tag_total b Hb ltac:(lia)); assumption|]. intros [p1 l1] (A1 & A2 & A3). cbn beta iota.
  destruct (negb _); [reflexivity|]. eapply agrees_bind; [apply agrees_err_add, get_mpi_agrees; lia|]. intros [q1 N] [q1' n] [(E1 & K1 & P1 & H1) F1]. cbn [fst snd] in *. subst q1'.
  eapply agrees_bind; [apply agrees_err_add, get_mpi_agrees; lia|]. intros [q2 E] [q2' x] [(E2 & K2 & P2 & H2) F2]. cbn [fst snd] in *. subst q2'. destruct (negb _); [reflexivity|].
  set (c0 := fun len => MkCtx len N E l_init l_init l_init l_init l_init l_init l_init l_init l_init l_init l_init).
  assert (ctx_pub (c0 (mpi_size n)) {| pub_N := n; pub_E := x |}) as PUB. { split; [reflexivity|]. split; [exact H1|]. split; [exact H2 | apply init_cache]. }
  pose proof (check_pub_refines _ _ PUB) as CH. change (l_check_pubkey (c0 (mpi_size n))) with (l_check_pubkey (c0 0)) in CH. change (l_check_pubkey (MkCtx 0 N E l_init l_init l_init l_init l_init l_init l_init l_init l_init l_init l_init)) with (l_check_pubkey (c0 0)). rewrite CH. cbv zeta.
  eapply agrees_shared; [apply total_set, (proj1 (check_pubkey_ok {| pub_N := n; pub_E := x |} P1 P2))|]. intros _ _. rewrite (size_val N n H1). cbn [bind]. apply agrees_ret. split; [exact PUB|]. split; [|reflexivity].
  unfold ctx_objects. cbn [c_N c_E c_D c_P c_Q c_DP c_DQ c_QP c_RN c_RP c_RQ c_Vi c_Vf]. pose proof init_obj. pose proof (holds_obj _ _ H1). pose proof (holds_obj _ _ H2). repeat (apply Forall_cons; [assumption|]). apply Forall_nil.
Qed.
Lemma subpubkey_agrees p e : 0 <= p -> e <= zlen b -> agrees (l_parse_subpubkey b p e) (pk_parse_subpubkey b p e) fresh_pub.
Proof.
  intros Hp He. unfold l_parse_subpubkey, pk_parse_subpubkey. eapply agrees_shared; [apply total_add, (get_tag_total b Hb ltac:(lia)); assumption|]. intros [p1 l1] (A1 & A2 & A3). cbn beta iota zeta.
  eapply agrees_shared; [apply (pk_alg_total b Hb ltac:(lia)); lia|]. intros p2 B. cbn beta in *.
  eapply agrees_shared; [apply total_add, (get_bitstring_total b Hb ltac:(lia)); lia|]. intros [p3 l3] (C1 & C2 & C3). cbn beta iota. destruct (negb _); [reflexivity|]. apply rsapubkey_agrees; lia.
Qed.
Ltac num_step H F P := eapply agrees_bind; [apply agrees_err_add, get_mpi_agrees; lia|]; let q := fresh "q" in let X := fresh "X" in let q' := fresh "q" in let x := fresh "x" in let E := fresh "E" in let K := fresh "K" in
  intros [q X] [q' x] [(E & K & P & H) F]; cbn [fst snd] in *; subst q'; cbn beta iota.
Lemma pkcs1_agrees p n : 0 <= p -> p + n <= zlen b -> agrees (l_parse_pkcs1 b p n) (pk_parse_key_pkcs1_der b p n) fresh_priv.
Proof.
  intros Hp He. unfold l_parse_pkcs1, pk_parse_key_pkcs1_der. eapply agrees_shared; [apply total_add, (get_tag_total b Hb ltac:(lia)); assumption|]. intros [p1 l1] (A1 & A2 & A3). cbn beta iota zeta.
  eapply agrees_shared; [apply total_add, (get_int_total b Hb ltac:(lia)); lia|]. intros [p2 v] A4. cbn beta iota. destruct (negb _); [reflexivity|].
  num_step H1 F1 P1. num_step H2 F2 P2. num_step H3 F3 P3. num_step H4 F4 P4. num_step H5 F5 P5. num_step H6 F6 P6. num_step H7 F7 P7. num_step H8 F8 P8.
  rewrite (size_val _ _ H1). cbn [bind]. destruct (negb _); [reflexivity|]. cbv zeta.
  match goal with |- context [rsa_check_privkey ?kk] => set (k := kk) end. match goal with |- context [l_check_privkey ?cc] => set (c := cc) end.
  assert (ctx_pub c (key_pub k)) as PUB. { split; [reflexivity|]. split; [exact H1|]. split; [exact H2 | apply init_cache]. }
  rewrite (check_priv_refines c k PUB H3 H4 H5 H6 H7 H8). eapply agrees_shared; [apply (check_privkey_ok k P1 P2 P3 P4 P5)|]. intros _ _. apply agrees_ret. split; [|split; [|repeat split; reflexivity]].
  - split; [exact PUB|]. do 6 (split; [assumption|]). split; [apply init_cache|]. split; [apply init_cache|]. unfold holds_blinding. cbn [c c_Vi c_Vf]. change (mlen l_init) with 0. pose proof init_ok. repeat split; try assumption; try apply init_ok; lia.
  - unfold ctx_objects. cbn [c c_N c_E c_D c_P c_Q c_DP c_DQ c_QP c_RN c_RP c_RQ c_Vi c_Vf]. pose proof init_obj. repeat (apply Forall_cons; [assumption || (eapply holds_obj; eassumption)|]). apply Forall_nil.
Qed.
Lemma pkcs8_agrees n : n <= zlen b -> agrees (l_parse_pkcs8 b n) (pk_parse_key_pkcs8 b n) fresh_priv.
Proof.
  intros He. unfold l_parse_pkcs8, pk_parse_key_pkcs8. eapply agrees_shared; [apply total_add, (get_tag_total b Hb ltac:(lia)); lia|]. intros [p1 l1] (A1 & A2 & A3). cbn beta iota zeta.
  eapply agrees_shared; [apply total_add, (get_int_total b Hb ltac:(lia)); lia|]. intros [p2 v] A4. cbn beta iota. destruct (negb _); [reflexivity|].
  eapply agrees_shared; [apply total_add, (pk_alg_total b Hb ltac:(lia)); lia|]. intros p3 B. cbn beta in *.
  eapply agrees_shared; [apply total_add, (get_tag_total b Hb ltac:(lia)); lia|]. intros [p4 l4] (C1 & C2 & C3). cbn beta iota.
  destruct (_ <? _) eqn:E; [reflexivity|]. apply pkcs1_agrees; lia.
Qed.
End Buffer.

Section Alloc.
Context (alloc : Z -> bool).
Lemma read_pem_total2 header footer key : is_bytes key -> zlen key <= 8000 ->
  total (read_pem alloc header footer key (zlen key)) (fun buf => is_bytes buf /\ zlen buf <= 8000).
Proof.
  intros Hb Hz. unfold read_pem. destruct (zlen key =? 0) eqn:E; [apply total_err|]. pose proof (zlen_nonneg key).
  destruct (rd1_ok key (zlen key - 1) ltac:(lia)) as (c & -> & En). cbn [bind]. destruct (c =? 0) eqn:E0; [|apply total_err]. cbn [negb].
  apply Z.eqb_eq in E0. subst c. pose proof (nth_error_In _ _ En) as Hin.
  destruct (pem_read_total alloc header footer key Hb Hin ltac:(lia)) as (r & Er & Hr).
  apply total_bindr with (fun '(buf, _) => is_bytes buf /\ zlen buf <= 8000); [|intros [buf u] H0; apply total_ret; assumption].
  exists r. split; [assumption|]. intros [buf u] ->. destruct (Hr buf u eq_refl) as (H1 & H2 & _). split; [assumption|lia].
Qed.
Lemma parse_key_agrees key : is_bytes key -> zlen key <= 8000 -> agrees (l_parse_key alloc key (zlen key)) (pk_parse_key alloc key (zlen key)) fresh_priv.
Proof.
  intros Hb Hz. unfold l_parse_key, pk_parse_key. destruct (read_pem_total2 begin_rsa_private end_rsa_private key Hb Hz) as (r1 & -> & H1). cbn [bind].
  destruct r1 as [e1|b1]; [|destruct (H1 b1 eq_refl); apply pkcs1_agrees; try assumption; lia].
  destruct (negb _); [reflexivity|]. destruct (read_pem_total2 begin_private end_private key Hb Hz) as (r2 & -> & H2). cbn [bind].
  destruct r2 as [e2|b2]; [|destruct (H2 b2 eq_refl); apply pkcs8_agrees; try assumption; lia].
  destruct (negb _); [reflexivity|]. pose proof (pkcs8_agrees key Hb Hz (zlen key) (Z.le_refl _)) as A1. unfold agrees in A1.
  destruct (pk_parse_key_pkcs8 key (zlen key)) as [[e3|k3]| | | |]; try contradiction.
  - rewrite A1. cbn [bind err]. pose proof (pkcs1_agrees key Hb Hz 0 (zlen key) (Z.le_refl _) (Z.le_refl _)) as A2. unfold agrees in A2. destruct (pk_parse_key_pkcs1_der key 0 (zlen key)) as [[e4|k4]| | | |]; try contradiction.
    + rewrite A2. reflexivity.
    + destruct A2 as (c & -> & F). cbn [bind ret]. now apply agrees_ret.
  - destruct A1 as (c & -> & F). cbn [bind ret]. now apply agrees_ret.
Qed.
Lemma parse_public_key_agrees key : is_bytes key -> zlen key <= 8000 -> agrees (l_parse_public_key alloc key (zlen key)) (pk_parse_public_key alloc key (zlen key)) fresh_pub.
Proof.
  intros Hb Hz. unfold l_parse_public_key, pk_parse_public_key. destruct (read_pem_total2 begin_public end_public key Hb Hz) as (r1 & -> & H1). cbn [bind].
  destruct r1 as [e1|b1]; [|destruct (H1 b1 eq_refl); apply subpubkey_agrees; try assumption; lia]. destruct (negb _); [reflexivity|]. apply subpubkey_agrees; try assumption; lia.
Qed.

Lemma from_public_refines s : is_bytes s -> zlen s <= 7999 ->
  match tdp_from_public alloc s with
  | Ok k => exists c, l_tdp_from_public alloc s = Ok c /\ pub_object c k
  | Throw x => l_tdp_from_public alloc s = Throw x
  | _ => False
  end.
Proof.
  intros Hb Hz. unfold l_tdp_from_public, tdp_from_public. assert (zlen (s ++ [0]) = zlen s + 1) as El by (rewrite zlen_app; reflexivity). rewrite <- El.
  assert (is_bytes (s ++ [0])) as B1 by (apply is_bytes_app; split; [assumption|repeat constructor; lia]).
  pose proof (parse_public_key_agrees (s ++ [0]) B1 ltac:(lia)) as A. destruct (parse_public_key_total alloc (s ++ [0]) B1 ltac:(lia)) as (r & ER & HR). rewrite ER in *. destruct r as [e|k]; unfold agrees in A.
  - rewrite A. reflexivity.
  - pose proof (HR k eq_refl) as PK. destruct A as (c & -> & PUB & F & RN0). change (Ok (inr k)) with (ret k). rewrite !throw_ret.
    assert (rsa_check_pubkey k = ret tt) as CK by (apply check_pubkey_ok; [| |assumption]; pose proof (public_N k PK); destruct PK as (_ & _ & _ & H3); lia).
    destruct (copy_pub c k PUB F (or_intror RN0)) as (c' & EC & PO); [pose proof (public_N k PK); lia|]. unfold l_tdp_assign. rewrite EC. cbn [bind ret]. rewrite (check_pub_refines c' k (proj1 PO)), CK, throw_ret. unfold throw_if_err. cbn [bind ret]. exists c'. split; [reflexivity | exact PO].
Qed.
Lemma from_private_refines s : is_bytes s -> zlen s <= 7999 ->
  match tdp_from_private alloc s with
  | Ok k => exists c P1 Q1, l_tdp_from_private alloc s = Ok (c, (P1, Q1)) /\ l_p1_q1 c = Ok (P1, Q1) /\ ctx_priv c k None /\ pub_object c (key_pub k) /\ private_ok k
  | Throw x => l_tdp_from_private alloc s = Throw x
  | _ => False
  end.
Proof.
  intros Hb Hz. unfold l_tdp_from_private, tdp_from_private. assert (zlen (s ++ [0]) = zlen s + 1) as El by (rewrite zlen_app; reflexivity). rewrite <- El.
  assert (is_bytes (s ++ [0])) as B1 by (apply is_bytes_app; split; [assumption|repeat constructor; lia]).
  pose proof (parse_key_agrees (s ++ [0]) B1 ltac:(lia)) as A. destruct (parse_key_total alloc (s ++ [0]) B1 ltac:(lia)) as (r & ER & HR). rewrite ER in *. destruct r as [e|k]; unfold agrees in A.
  - rewrite A. reflexivity.
  - pose proof (HR k eq_refl) as PK. destruct A as (c & -> & PRIV & F & RN0 & RP0 & RQ0). change (Ok (inr k)) with (ret k). rewrite !throw_ret. pose proof PK as (PP & P1 & Q1 & _). pose proof (public_N _ PP) as NP.
    assert (rsa_check_pubkey (key_pub k) = ret tt) as CK by (apply check_pubkey_ok; [| |assumption]; destruct PP as (_ & _ & _ & H3); lia).
    destruct (copy_priv c k PRIV F RN0 RP0 RQ0) as (c' & EC & PRIV' & PO); [lia | lia | lia|]. unfold l_tdp_assign. rewrite EC. cbn [bind ret]. rewrite (check_pub_refines c' (key_pub k) (proj1 PO)), CK, throw_ret.
    destruct (p1_q1_ok c' k None PRIV' P1 Q1) as (P1' & Q1' & EP & (O1 & _ & L1) & (O2 & _ & L2)). rewrite EP. cbn [bind fst snd].
    destruct (s_mul false false l_init P1' Q1' init_ok O1 O2 ltac:(discriminate) ltac:(discriminate) ltac:(lia)) as (T & -> & _). rewrite throw_ret. unfold throw_if_err. cbn [bind ret]. exists c', P1', Q1'. split; [reflexivity|]. split; [exact EP|]. split; [exact PRIV'|]. split; [exact PO | exact PK].
Qed.
End Alloc.
