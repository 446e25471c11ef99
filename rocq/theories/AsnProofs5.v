(** The parsers on arbitrary data: they stay within the buffer. *)
From Coq Require Import Lia ZifyBool.
From Verif Require Import Base BaseFacts Base64Proofs MpiModel MpiProofs PemModel PemProofs2 AsnModel RsaKeyModel RsaKeySpec AsnProofs3.

Definition total {A} (x : res A) (P : A -> Prop) : Prop := exists r, x = Ok r /\ forall a, r = inr a -> P a.
Lemma total_ret {A} (a : A) (P : A -> Prop) : P a -> total (ret a) P.
Proof. intros H. exists (inr a). split; [reflexivity|]. intros b [= <-]. assumption. Qed.
Lemma total_err {A} e (P : A -> Prop) : total (err e) P.
Proof. exists (inl e). split; [reflexivity|]. discriminate. Qed.
Lemma total_bindr {A B} (x : res A) (f : A -> res B) P Q : total x P -> (forall a, P a -> total (f a) Q) -> total (bindr x f) Q.
Proof.
  intros (r & E & H) Hf. unfold bindr. rewrite E. cbn [bind]. destruct r as [e|a]; [apply total_err|]. apply Hf. apply H. reflexivity.
Qed.
Lemma total_add {A} c (x : res A) P : total x P -> total (err_add c x) P.
Proof. intros (r & E & H). unfold err_add. rewrite E. cbn [bind]. destruct r as [e|a]; [apply total_err|]. apply total_ret. apply H. reflexivity. Qed.
Lemma total_set {A} c (x : res A) P : total x P -> total (err_set c x) P.
Proof. intros (r & E & H). unfold err_set. rewrite E. cbn [bind]. destruct r as [e|a]; [apply total_err|]. apply total_ret. apply H. reflexivity. Qed.
Lemma total_mono {A} (x : res A) (P Q : A -> Prop) : total x P -> (forall a, P a -> Q a) -> total x Q.
Proof. intros (r & E & H) HQ. exists r. split; [assumption|]. intros a Ha. apply HQ, H, Ha. Qed.
Lemma total_rd1 {A} b p (f : Z -> res A) Q : is_bytes b -> 0 <= p < zlen b -> (forall c, is_byte c -> total (f c) Q) -> total (bind (rd1 b p) f) Q.
Proof.
  intros Hb Hp H. destruct (rd1_ok b p Hp) as (c & -> & E). cbn [bind]. apply H. eapply is_bytes_nth; eassumption.
Qed.
Lemma total_rd {A} b p n (f : bytes -> res A) Q : is_bytes b -> 0 <= p -> 0 <= n -> p + n <= zlen b ->
  (forall c, is_bytes c -> zlen c = n -> total (f c) Q) -> total (bind (rd b p n) f) Q.
Proof.
  intros Hb Hp Hn Hl H. rewrite rd_ok by lia. cbn [bind]. apply H.
  - apply is_bytes_firstn, is_bytes_skipn. assumption.
  - unfold zlen in *. rewrite window_length. lia.
Qed.

Section Buffer.
Context (b : bytes) (Hb : is_bytes b) (Hz : zlen b < 2 ^ 63).

Lemma lor_nonneg x y : 0 <= x -> 0 <= y -> 0 <= Z.lor x y.
Proof. intros. apply Z.lor_nonneg. lia. Qed.
Lemma get_len_total p e : 0 <= p -> e <= zlen b -> total (asn1_get_len b p e) (fun '(p', l) => p < p' /\ 0 <= l /\ p' + l <= e).
Proof.
  intros Hp He. unfold asn1_get_len. destruct (e - p <? 1) eqn:E; [apply total_err|]. apply total_rd1; [assumption|lia|]. intros c Hc.
  apply total_bindr with (fun '(p', l) => p < p' <= e /\ 0 <= l).
  - unfold is_byte in *. destruct (Z.land c 0x80 =? 0); [apply total_ret; lia|]. cbv zeta.
    destruct (_ =? 1); [|destruct (_ =? 2); [|destruct (_ =? 3); [|destruct (_ =? 4); [|apply total_err]]]];
      (match goal with |- total (if ?c then _ else _) _ => destruct c eqn:E2; [apply total_err|] end);
      repeat (apply total_rd1; [assumption|lia|intros ? ?]); apply total_ret; (split; [lia|]); unfold is_byte in *;
      repeat apply lor_nonneg; try apply Z.shiftl_nonneg; lia.
  - intros [p' l] [H1 H2]. cbn beta iota. destruct (u64 (e - p') <? l) eqn:E2; [apply total_err|]. apply total_ret.
    assert (u64 (e - p') = e - p') as Eu by (unfold u64; apply Z.mod_small; lia). lia.
Qed.
Lemma get_tag_total p e t : 0 <= p -> e <= zlen b -> total (asn1_get_tag b p e t) (fun '(p', l) => p < p' /\ 0 <= l /\ p' + l <= e).
Proof.
  intros Hp He. unfold asn1_get_tag. destruct (e - p <? 1) eqn:E; [apply total_err|]. apply total_rd1; [assumption|lia|]. intros c Hc.
  destruct (negb _); [apply total_err|]. eapply total_mono; [apply get_len_total; lia|]. intros [p' l]. lia.
Qed.
Lemma get_int_loop_ok : forall k p v, 0 <= p -> p + Z.of_nat k <= zlen b -> 0 <= v -> (v + 1) * 256 ^ Z.of_nat k <= 2 ^ 31 ->
  exists v', get_int_loop k b p v = Ok (p + Z.of_nat k, v').
Proof.
  induction k as [|k IH]; intros p v Hp Hl Hv Hb2; cbn [get_int_loop].
  - exists v. f_equal. f_equal. lia.
  - destruct (rd1_ok b p ltac:(lia)) as (c & -> & E). cbn [bind]. pose proof (is_bytes_nth _ _ _ Hb E) as Hc. unfold is_byte in Hc.
    rewrite Nat2Z.inj_succ, Z.pow_succ_r in Hb2 by lia. pose proof (Z.pow_pos_nonneg 256 (Z.of_nat k)).
    replace ((v <? 0) || (2 ^ 31 <=? v * 256)) with false by nia.
    assert (Z.lor (Z.shiftl v 8) c = v * 256 + c) as El.
    { apply (lor_shift v c 8); [lia|exact Hc]. }
    rewrite El. destruct (IH (p + 1) (v * 256 + c)) as [v' ->]; [lia|lia|lia|nia|].
    exists v'. f_equal. f_equal. lia.
Qed.
Lemma get_int_total p e : 0 <= p -> e <= zlen b -> total (asn1_get_int b p e) (fun '(p', v) => p < p' <= e).
Proof.
  intros Hp He. unfold asn1_get_int. eapply total_bindr; [apply get_tag_total; assumption|]. intros [p' l] (H1 & H2 & H3). cbn beta iota.
  destruct ((l =? 0) || (4 <? l)) eqn:E; [apply total_err|]. destruct (rd1_ok b p' ltac:(lia)) as (c & E1 & E2). rewrite E1. cbn [bind].
  pose proof (is_bytes_nth _ _ _ Hb E2) as Hc. unfold is_byte in Hc.
  destruct (Z.land c 0x80 =? 0) eqn:E3; [|apply total_err]. cbn [negb].
  assert (c < 128) as Hc2.
  { destruct (Z_lt_le_dec c 128) as [L|L]; [assumption|]. exfalso. apply Z.eqb_eq in E3.
    assert (Z.testbit c 7 = true) as T by (apply Z.testbit_true; [lia|]; change (2 ^ 7) with 128; Z.div_mod_to_equations; lia).
    assert (Z.testbit (Z.land c 0x80) 7 = true) as T2 by (rewrite Z.land_spec, T; reflexivity). rewrite E3 in T2. discriminate T2. }
  destruct (Z.to_nat l) as [|k] eqn:El; [lia|]. cbn [get_int_loop]. rewrite E1. cbn [bind].
  change ((0 <? 0) || (2 ^ 31 <=? 0 * 256)) with false. cbn iota. change (Z.shiftl 0 8) with 0. rewrite Z.lor_0_l.
  destruct (get_int_loop_ok k (p' + 1) c) as [v ->]; [lia|lia|lia| |].
  - assert (256 ^ Z.of_nat k <= 256 ^ 3) by (apply Z.pow_le_mono_r; lia). change (256 ^ 3) with 16777216 in *. change (2 ^ 31) with 2147483648. nia.
  - cbn [bind]. apply total_ret. lia.
Qed.
Lemma get_mpi_total p e : 0 <= p -> e <= zlen b -> total (asn1_get_mpi b p e) (fun '(p', v) => p < p' <= e /\ 0 <= v).
Proof.
  intros Hp He. unfold asn1_get_mpi. eapply total_bindr; [apply get_tag_total; assumption|]. intros [p' l] (H1 & H2 & H3). cbn beta iota.
  apply total_rd; [assumption|lia|lia|lia|]. intros c Hc _. apply total_bindr with (fun v => 0 <= v).
  - destruct (read_binary_total c Hc) as (r & E & H). exists r. split; [assumption|]. intros v Hv. apply H. assumption.
  - intros v Hv. apply total_ret. lia.
Qed.
Lemma get_bitstring_total p e : 0 <= p -> e <= zlen b -> total (asn1_get_bitstring_null b p e) (fun '(p', l) => p < p' /\ 0 <= l /\ p' + l <= e).
Proof.
  intros Hp He. unfold asn1_get_bitstring_null. eapply total_bindr; [apply get_tag_total; assumption|]. intros [p' l] (H1 & H2 & H3). cbn beta iota.
  destruct (l <? 2) eqn:E; [apply total_err|]. apply total_rd1; [assumption|lia|]. intros c _. destruct (negb _); [apply total_err|]. apply total_ret. lia.
Qed.
Lemma pk_alg_total p e : 0 <= p -> e <= zlen b -> total (pk_get_pk_alg b p e) (fun p' => p < p' <= e).
Proof.
  intros Hp He. unfold pk_get_pk_alg. apply total_bindr with (fun '(p', (ap, al), (pt, pl)) => p < p' <= e /\ 0 <= ap /\ 0 <= al /\ ap + al <= e).
  - apply total_add. unfold asn1_get_alg. eapply total_bindr; [apply get_tag_total; assumption|]. intros [p1 l1] (A1 & A2 & A3). cbn beta iota.
    destruct (e - p1 <? 1) eqn:E; [apply total_err|]. apply total_rd1; [assumption|lia|]. intros _ _. cbv zeta.
    eapply total_bindr; [apply get_tag_total; lia|]. intros [p2 l2] (B1 & B2 & B3). cbn beta iota.
    destruct (p2 + l2 =? p1 + l1) eqn:E2; [apply total_ret; lia|]. apply total_rd1; [assumption|lia|]. intros pt _.
    eapply total_bindr; [apply get_len_total; lia|]. intros [p3 l3] (C1 & C2 & C3). cbn beta iota.
    destruct (negb _) eqn:E3; [apply total_err|]. apply total_ret. lia.
  - intros [[p' [ap al]] [pt pl]] (H1 & H2 & H3 & H4). cbn beta iota. destruct (negb _) eqn:E; [apply total_err|].
    apply total_rd; [assumption|lia|lia|lia|]. intros o _ _. destruct (negb (bytes_eqb o rsa_oid)); [apply total_err|].
    destruct (_ || _); [apply total_err|]. apply total_ret. assumption.
Qed.
End Buffer.

(** * The checks of keys *)
Lemma check_pubkey_ok k : 0 <= pub_N k -> 0 <= pub_E k -> total (rsa_check_pubkey k) (fun _ => public_ok k) /\ (public_ok k -> rsa_check_pubkey k = ret tt).
Proof.
  intros HN HE. unfold rsa_check_pubkey, public_ok.
  pose proof (bitlen_ge (pub_N k) 128 HN ltac:(lia)) as A. pose proof (bitlen_le (pub_N k) MPI_MAX_BITS HN ltac:(discriminate)) as B.
  pose proof (bitlen_ge (pub_E k) 2 HE ltac:(lia)) as C. change (128 - 1) with 127 in A. change (2 ^ (2 - 1)) with 2 in C.
  change (2 ^ 8192) with (2 ^ MPI_MAX_BITS). set (M := 2 ^ MPI_MAX_BITS) in *. clearbody M.
  pose proof (Z.odd_spec (pub_E k)) as O.
  destruct (Z.odd (pub_N k)); cbn [negb orb]; [|split; [apply total_err|intros (H & _); discriminate H]].
  destruct (Z.odd (pub_E k)); cbn [negb]; [|split; [apply total_err|intros (_ & H & _); discriminate H]].
  destruct O as [O _]. destruct (O eq_refl) as [h O2]. clear O.
  set (K := 2 ^ 127) in *. clearbody K. set (MB := MPI_MAX_BITS) in *. clearbody MB.
  destruct ((mpi_bitlen (pub_N k) <? 128) || (MB <? mpi_bitlen (pub_N k))) eqn:E1; [split; [apply total_err|]; intros (_ & _ & H & _); exfalso; lia|].
  destruct ((mpi_bitlen (pub_E k) <? 2) || (pub_N k <=? pub_E k)) eqn:E2; [split; [apply total_err|]; intros (_ & _ & _ & H); exfalso; lia|].
  split; [apply total_ret; lia|reflexivity].
Qed.
Lemma pow_hide (P : Z -> Prop) : (forall K, 4 <= K -> P K) -> P (2 ^ 127).
Proof. intros H. apply H. discriminate. Qed.
Lemma public_N k : public_ok k -> 128 <= pub_N k.
Proof. unfold public_ok. intros (_ & _ & (H & _) & _). apply Z.le_trans with (2 ^ 127); [discriminate|assumption]. Qed.
Lemma check_privkey_ok k : 0 <= key_N k -> 0 <= key_E k -> 0 <= key_D k -> 0 <= key_P k -> 0 <= key_Q k ->
  total (rsa_check_privkey k) (fun _ => private_ok k) /\ (private_ok k -> rsa_check_privkey k = ret tt).
Proof.
  intros HN HE HD HP HQ. unfold rsa_check_privkey. destruct (check_pubkey_ok (key_pub k) HN HE) as [T1 T2].
  assert (1 < key_P k -> 1 < key_Q k -> forall H, H = (key_P k - 1) * (key_Q k - 1) -> forall g, g = Z.gcd (key_P k - 1) (key_Q k - 1) ->
    0 < g /\ Z.rem H g = 0 /\ Z.quot H g = Z.lcm (key_P k - 1) (key_Q k - 1) /\ 0 < Z.quot H g) as Hlcm.
  { intros P1 Q1 H EH g Eg. pose proof (Z.gcd_nonneg (key_P k - 1) (key_Q k - 1)). assert (g <> 0) as G0 by (intros ->; symmetry in Eg; apply Z.gcd_eq_0_l in Eg; lia).
    destruct (Z.gcd_divide_r (key_P k - 1) (key_Q k - 1)) as [q Eq]. rewrite <- Eg in Eq.
    assert (H = ((key_P k - 1) * q) * g) as EH2 by (rewrite EH, Eq; ring).
    assert (0 < q) by nia.
    assert (Z.quot H g = (key_P k - 1) * q) as EQ by (rewrite EH2; apply Z.quot_mul; assumption).
    assert (0 < (key_P k - 1) * q) by nia.
    repeat split; [lia|rewrite EH2; apply Z.rem_mul; assumption| |lia].
    rewrite EQ. unfold Z.lcm. rewrite <- Eg. replace ((key_Q k - 1) / g) with q by (rewrite Eq at 1; symmetry; apply Z.div_mul; assumption). rewrite Z.abs_eq; lia. }
  split.
  - apply total_bindr with (fun _ => public_ok (key_pub k)); [assumption|]. intros _ Hpub. apply total_add. cbv zeta.
    pose proof (public_N _ Hpub) as BN. cbn [key_pub pub_N] in BN.
    set (P1 := key_P k - 1) in *. set (Q1 := key_Q k - 1) in *. unfold mpi_div. destruct (mpi_gcd P1 Q1 =? 0) eqn:G0; [apply total_err|].
    unfold bindr at 1. unfold ret at 1. cbn [bind]. unfold mpi_mod.
    match goal with |- context [Z.quot ?x ?y <? 0] => set (L := Z.quot x y) in * end.
    destruct (L <? 0) eqn:E1; [apply total_err|]. destruct (L =? 0) eqn:E2; [apply total_err|]. unfold bindr at 1. unfold ret at 1. cbn [bind].
    destruct (P1 <? 0) eqn:E3; [apply total_err|]. destruct (P1 =? 0) eqn:E4; [apply total_err|]. unfold bindr at 1. unfold ret at 1. cbn [bind].
    destruct (Q1 <? 0) eqn:E5; [apply total_err|]. destruct (Q1 =? 0) eqn:E6; [apply total_err|]. unfold bindr at 1. unfold ret at 1. cbn [bind].
    assert (1 < key_P k /\ 1 < key_Q k /\ (P1 * Q1 =? 0) = false) as (PP & QQ & PQ0).
    { clear - E3 E4 E5 E6. unfold P1, Q1 in *. nia. }
    destruct (inv_mod_total (key_Q k) (key_P k)) as (r & Er & Hr). rewrite Er. unfold bindr. cbn [bind]. destruct r as [e|v]; [apply total_err|].
    match goal with |- total (if ?c then _ else _) _ => destruct c eqn:EE end; [apply total_err|]. apply total_ret.
    destruct (Hr v) as [Hv _]. destruct (Hv eq_refl) as (V1 & V2 & V3).
    destruct (Hlcm PP QQ _ eq_refl _ eq_refl) as (L1 & L2 & L3 & L4).
    unfold L in *. unfold mpi_gcd in EE, E2, E1. rewrite E6 in EE, E2, E1. rewrite PQ0 in EE.
    rewrite L3 in EE. unfold private_ok. fold P1 Q1.
    repeat match goal with H : (_ || _) = false |- _ => apply orb_false_elim in H; destruct H end.
    repeat match goal with H : negb (_ =? _) = false |- _ => apply negb_false_iff, Z.eqb_eq in H end.
    split; [assumption|]. split; [assumption|]. split; [assumption|]. split; [symmetry; assumption|]. split; [assumption|]. split; [assumption|]. split; [symmetry; assumption|].
    split; [symmetry; assumption|]. subst v. split; assumption.
  - intros (Hpub & P0 & Q0 & EN & ED & EG & EDP & EDQ & RQP & EQP). rewrite T2 by assumption.
    unfold bindr at 1. unfold ret at 1. cbn [bind]. cbv zeta. unfold mpi_div, mpi_mod, mpi_gcd.
    destruct (Hlcm P0 Q0 _ eq_refl _ eq_refl) as (L1 & L2 & L3 & L4).
    set (P1 := key_P k - 1) in *. set (Q1 := key_Q k - 1) in *.
    assert ((P1 * Q1 =? 0) = false /\ (Q1 =? 0) = false /\ (P1 =? 0) = false /\ (Q1 <? 0) = false /\ (P1 <? 0) = false) as (F1 & F2 & F3 & F4 & F5).
    { clear - P0 Q0. unfold P1, Q1. nia. }
    assert ((Z.gcd P1 Q1 =? 0) = false) as F6 by (clear - L1; lia).
    rewrite F1, F2, F6.
    unfold bindr at 1. unfold ret at 1. cbn [bind]. rewrite L3 in *.
    assert ((Z.lcm P1 Q1 =? 0) = false /\ (Z.lcm P1 Q1 <? 0) = false) as (F7 & F8) by (clear - L4; lia). rewrite F7, F8.
    unfold bindr at 1. unfold ret at 1. cbn [bind]. rewrite F5, F3, F4.
    unfold bindr at 1. unfold ret at 1. cbn [bind]. unfold bindr at 1. unfold ret at 1. cbn [bind].
    destruct (inv_mod_total (key_Q k) (key_P k)) as (r & Er & Hr). rewrite Er. unfold bindr. cbn [bind].
    destruct (Hr (key_QP k)) as [_ Hv]. rewrite Hv by (split; [assumption|split; assumption]).
    rewrite <- EN, <- EDP, <- EDQ, ED, EG, L2, !Z.eqb_refl. reflexivity.
Qed.
