(** Sequences and algorithm identifiers; no parser reads outside of the buffer. *)
From Coq Require Import Lia ZifyBool.
From Verif Require Import Base BaseFacts Base64Proofs MpiModel MpiProofs PemProofs2 AsnModel AsnModel2 RsaKeyModel RsaKeySpec AsnSpec2 AsnProofs AsnProofs2 AsnProofs3 AsnProofs4 AsnProofs5 AsnProofs6 AsnProofs7 AsnProofs8.

Definition items (tag : Z) (cs : list bytes) : bytes := concat (map (der_tlv tag) cs).
Lemma entry_mid a c post tag p l : p = zlen a -> l = zlen c -> entry_of (a ++ c ++ post) (tag, p, l) = (tag, c).
Proof.
  intros -> ->. unfold entry_of. f_equal. unfold zlen. rewrite !Nat2Z.id, skipn_app, skipn_all, Nat.sub_diag. cbn [app skipn]. rewrite firstn_app, Nat.sub_diag, firstn_all. cbn [firstn]. apply app_nil_r.
Qed.
Lemma tlv_pos tag c : 2 <= zlen (der_tlv tag c).
Proof.
  rewrite zlen_tlv, header_cons. pose proof (zlen_nonneg c). enough (1 <= zlen (der_length (zlen c))) by lia.
  unfold der_length. destruct (zlen c <? 128); [apply Z.le_refl|]. cbv zeta. rewrite zlen_cons. match goal with |- 1 <= 1 + zlen ?l => pose proof (zlen_nonneg l) end. lia.
Qed.
Lemma items_small tag c cs : In c cs -> zlen c <= zlen (items tag cs).
Proof.
  unfold items. induction cs as [|c2 cs IH]; cbn [In map concat]; [tauto|]. rewrite zlen_app. pose proof (zlen_nonneg (concat (map (der_tlv tag) cs))). pose proof (zlen_nonneg (der_tlv tag c2)).
  intros [->|H2]; [|specialize (IH H2); lia]. rewrite zlen_tlv. pose proof (zlen_nonneg (der_header tag (zlen c))). lia.
Qed.
(** What the loop gives: all entries, or the report of the first failing allocation *)
Lemma seq_loop_ok tag alloc : forall cs fuel k a post e, cs <> [] -> (length cs <= fuel)%nat -> e = zlen a + zlen (items tag cs) -> e < 2 ^ 32 ->
  ((forall i, (S i < length cs)%nat -> alloc (k + i)%nat = true) ->
   exists l, seq_loop fuel alloc k (a ++ items tag cs ++ post) (zlen a) e tag = ret l /\ map (entry_of (a ++ items tag cs ++ post)) l = map (fun c => (tag, c)) cs) /\
  ((exists i, (S i < length cs)%nat /\ alloc (k + i)%nat = false) ->
   seq_loop fuel alloc k (a ++ items tag cs ++ post) (zlen a) e tag = err ERR_ASN1_ALLOC_FAILED).
Proof.
  induction cs as [|c cs IH]; intros fuel k a post e Hne Hf He He2; [congruence|]. destruct fuel as [|fuel]; [cbn in Hf; lia|]. cbn [length] in Hf.
  change (items tag (c :: cs)) with (der_tlv tag c ++ items tag cs) in *. rewrite zlen_app in He. pose proof (zlen_nonneg (items tag cs)). pose proof (zlen_nonneg a). pose proof (tlv_pos tag c).
  pose proof (zlen_nonneg c). pose proof (zlen_nonneg (der_header tag (zlen c))). pose proof (zlen_tlv tag c) as ZT. cbn [seq_loop]. rewrite <- (app_assoc (der_tlv tag c)).
  assert (rd1 (a ++ der_tlv tag c ++ items tag cs ++ post) (zlen a) = Ok tag) as -> by (unfold der_tlv; cbn [app]; apply rd1_at; reflexivity).
  cbn [bind]. rewrite get_tag_ok by (try reflexivity; assert (2 ^ 32 < 2 ^ 63) by reflexivity; lia). rewrite bindr_ret. cbv zeta.
  set (p := zlen a + zlen (der_header tag (zlen c))). assert (p + zlen c = zlen (a ++ der_tlv tag c)) as Q by (subst p; rewrite zlen_app; lia).
  assert (entry_of (a ++ der_tlv tag c ++ items tag cs ++ post) (tag, p, zlen c) = (tag, c)) as EN by (rewrite tlv_app; apply entry_mid; [subst p; rewrite zlen_app; reflexivity|reflexivity]).
  destruct cs as [|c2 cs].
  - change (items tag []) with (@nil Z) in *. change (zlen (@nil Z)) with 0 in *. replace (p + zlen c <? e) with false by lia. replace (p + zlen c =? e) with true by lia. cbn [negb].
    split; [intros _; exists [(tag, p, zlen c)]; split; [reflexivity|]; cbn [map]; rewrite EN; reflexivity|]. intros [i [Hi _]]. cbn in Hi. lia.
  - set (cs2 := c2 :: cs) in *. assert (2 <= zlen (items tag cs2)). { subst cs2. change (items tag (c2 :: cs)) with (der_tlv tag c2 ++ items tag cs). rewrite zlen_app. pose proof (tlv_pos tag c2). pose proof (zlen_nonneg (items tag cs)). lia. }
    replace (p + zlen c <? e) with true by lia.
    assert (a ++ der_tlv tag c ++ items tag cs2 ++ post = (a ++ der_tlv tag c) ++ items tag cs2 ++ post) as HA by (rewrite <- !app_assoc; reflexivity).
    destruct (IH fuel (S k) (a ++ der_tlv tag c) post e ltac:(subst cs2; congruence) ltac:(lia) ltac:(rewrite zlen_app; lia) He2) as [I1 I2]. rewrite <- HA, <- Q in I1, I2. split.
    + intros HAl. pose proof (HAl 0%nat ltac:(subst cs2; cbn [length]; lia)) as A0. rewrite Nat.add_0_r in A0. rewrite A0.
      destruct I1 as [l [El Em]]. { intros i Hi. replace (S k + i)%nat with (k + S i)%nat by lia. apply HAl. cbn [length]. lia. }
      rewrite El, bindr_ret. exists ((tag, p, zlen c) :: l). split; [reflexivity|]. cbn [map]. rewrite EN, Em. reflexivity.
    + intros [i [Hi Hal]]. destruct i as [|i]; [rewrite Nat.add_0_r in Hal; rewrite Hal; reflexivity|]. destruct (alloc k); [|reflexivity].
      rewrite I2; [reflexivity|]. exists i. split; [cbn [length] in Hi; lia|]. replace (S k + i)%nat with (k + S i)%nat by lia. exact Hal.
Qed.
Lemma items_length tag cs : Z.of_nat (length cs) <= zlen (items tag cs).
Proof.
  induction cs as [|c cs IH]; [vm_compute; discriminate|]. change (items tag (c :: cs)) with (der_tlv tag c ++ items tag cs). rewrite zlen_app. pose proof (tlv_pos tag c). cbn [length]. lia.
Qed.
Lemma sequence_of_ok tag alloc init cs a post : cs <> [] -> let s := der_sequence_of tag cs in let b := a ++ s ++ post in zlen a + zlen s < 2 ^ 31 ->
  ((forall i, (S i < length cs)%nat -> alloc i = true) -> exists l, asn1_get_sequence_of alloc init b (zlen a) (zlen a + zlen s) tag = ret l /\ map (entry_of b) l = map (fun c => (tag, c)) cs) /\
  ((exists i, (S i < length cs)%nat /\ alloc i = false) -> asn1_get_sequence_of alloc init b (zlen a) (zlen a + zlen s) tag = err ERR_ASN1_ALLOC_FAILED).
Proof.
  intros Hne s b Hz. unfold asn1_get_sequence_of, der_sequence_of, der_sequence in *. fold (items tag cs) in *. change TAG_CONSTRUCTED_SEQUENCE with 48. subst s. set (it := items tag cs) in *.
  pose proof (zlen_nonneg a). pose proof (zlen_nonneg it). pose proof (zlen_nonneg (der_header 48 (zlen it))). pose proof (items_length tag cs). fold it in H2. assert (0 < Z.of_nat (length cs)) by (destruct cs; [congruence|cbn [length]; lia]).
  pose proof (zlen_tlv 48 it) as ZT. subst b. assert (2 ^ 31 < 2 ^ 32 /\ 2 ^ 32 < 2 ^ 63) as [P1 P2] by (split; reflexivity).
  rewrite get_tag_ok by (try reflexivity; lia). rewrite bindr_ret. set (a2 := a ++ der_header 48 (zlen it)). assert (zlen a + zlen (der_header 48 (zlen it)) = zlen a2) as La by (subst a2; rewrite zlen_app; reflexivity). rewrite La.
  replace (zlen a2 + zlen it =? zlen a + zlen (der_tlv 48 it)) with true by lia. cbn [negb]. replace (zlen a2 <? zlen a + zlen (der_tlv 48 it)) with true by lia.
  rewrite tlv_app. fold a2. apply (seq_loop_ok tag alloc cs _ 0%nat a2 post); try assumption; fold it; lia.
Qed.

Section Buffer.
Variable b : bytes.
Hypothesis Hb : is_bytes b.
Hypothesis Hz : zlen b < 2 ^ 63.
Lemma get_bool_total p e : 0 <= p -> e <= zlen b -> total (asn1_get_bool b p e) (fun '(p', v) => p < p' <= e /\ (v = 0 \/ v = 1)).
Proof using Hb Hz.
  intros Hp He. unfold asn1_get_bool. eapply total_bindr; [apply (get_tag_total b Hb Hz); assumption|]. intros [p' l] [H1 [H2 H3]]. destruct (Z.eqb_spec l 1) as [->|]; cbn [negb]; [|apply total_err].
  apply total_rd1; [exact Hb|lia|]. intros c _. apply total_ret. split; [lia|]. destruct (c =? 0); [left|right]; reflexivity.
Qed.
Lemma get_bits_total p e : 0 <= p -> e <= zlen b -> total (asn1_get_bitstring b p e) (fun '(p', un, (q, l)) => p' = e /\ 0 <= un <= 7 /\ p < q /\ 0 <= l /\ q + l = e).
Proof using Hb Hz.
  intros Hp He. unfold asn1_get_bitstring. eapply total_bindr; [apply (get_tag_total b Hb Hz); assumption|]. intros [p' l] [H1 [H2 H3]]. destruct (Z.ltb_spec l 1); [apply total_err|]. cbv zeta.
  apply total_rd1; [exact Hb|lia|]. intros c Hc. unfold is_byte in Hc. destruct (Z.ltb_spec 7 c); [apply total_err|]. destruct (Z.eqb_spec (p' + 1 + (l - 1)) e) as [E|]; cbn [negb]; [|apply total_err]. apply total_ret. lia.
Qed.
Lemma seq_loop_total tag alloc : forall fuel k p e, 0 <= p < e -> e <= zlen b -> (Z.to_nat (e - p) <= fuel)%nat ->
  total (seq_loop fuel alloc k b p e tag) (Forall (fun '(t, q, l) => t = tag /\ p < q /\ 0 <= l /\ q + l <= e)).
Proof using Hb Hz.
  induction fuel as [|fuel IH]; intros k p e Hp He Hf; [lia|]. cbn [seq_loop]. destruct (rd1_ok b p ltac:(lia)) as [t [E1 _]]. rewrite E1. cbn [bind].
  assert (total (asn1_get_tag b p e tag) (fun '(p', l) => (p < p' /\ 0 <= l /\ p' + l <= e) /\ t = tag)) as T.
  { pose proof (get_tag_total b Hb Hz p e tag ltac:(lia) He) as [r [T1 T2]]. exists r. split; [exact T1|]. intros [p' l] ->. split; [apply (T2 (p', l)); reflexivity|].
    unfold asn1_get_tag in T1. destruct (e - p <? 1); [discriminate|]. rewrite E1 in T1. cbn [bind] in T1. destruct (Z.eqb_spec t tag); [assumption|discriminate]. }
  eapply total_bindr; [exact T|]. intros [p' l] [[H1 [H2 H3]] ->]. cbv zeta. destruct (Z.ltb_spec (p' + l) e) as [L|L].
  - destruct (alloc k); [|apply total_err]. eapply total_bindr; [apply IH; lia|]. intros r Hr. apply total_ret. constructor; [lia|]. eapply Forall_impl; [|exact Hr]. intros [[t q] l2]. lia.
  - destruct (Z.eqb_spec (p' + l) e); cbn [negb]; [|apply total_err]. apply total_ret. constructor; [lia|constructor].
Qed.
Lemma sequence_of_total tag alloc init p e : 0 <= p -> e <= zlen b ->
  total (asn1_get_sequence_of alloc init b p e tag) (fun l => l = [init] \/ Forall (fun '(t, q, n) => t = tag /\ p < q /\ 0 <= n /\ q + n <= e) l).
Proof using Hb Hz.
  intros Hp He. unfold asn1_get_sequence_of. eapply total_bindr; [apply (get_tag_total b Hb Hz); assumption|]. intros [p' l] [H1 [H2 H3]]. destruct (Z.eqb_spec (p' + l) e) as [E|]; cbn [negb]; [|apply total_err].
  destruct (Z.ltb_spec p' e) as [L|L].
  - eapply total_mono; [apply seq_loop_total; lia|]. intros r Hr. right. eapply Forall_impl; [|exact Hr]. intros [[t q] n]. cbv beta. lia.
  - apply total_ret. left. reflexivity.
Qed.
Lemma alg_total p e : 0 <= p -> e <= zlen b -> total (asn1_get_alg b p e) (fun '(p', (ap, al), (pt, pl)) => p < p' <= e /\ p < ap /\ 0 <= al /\ ap + al <= p' /\ 0 <= pl).
Proof using Hb Hz.
  intros Hp He. unfold asn1_get_alg. eapply total_bindr; [apply (get_tag_total b Hb Hz); assumption|]. intros [p1 l1] [H1 [H2 H3]]. destruct (Z.ltb_spec (e - p1) 1); [apply total_err|].
  apply total_rd1; [exact Hb|lia|]. intros _ _. cbv zeta. eapply total_bindr; [apply (get_tag_total b Hb Hz); lia|]. intros [p2 l2] [H4 [H5 H6]].
  destruct (Z.eqb_spec (p2 + l2) (p1 + l1)); [apply total_ret; lia|]. apply total_rd1; [exact Hb|lia|]. intros pt _. eapply total_bindr; [apply (get_len_total b Hb Hz); lia|]. intros [p3 l3] [H7 [H8 H9]].
  destruct (Z.eqb_spec (p3 + l3) (p1 + l1)); cbn [negb]; [|apply total_err]. apply total_ret. lia.
Qed.
Lemma alg_null_total p e : 0 <= p -> e <= zlen b -> total (asn1_get_alg_null b p e) (fun '(p', (ap, al)) => p < p' <= e /\ p < ap /\ 0 <= al /\ ap + al <= p').
Proof using Hb Hz.
  intros Hp He. unfold asn1_get_alg_null. eapply total_bindr; [apply alg_total; assumption|]. intros [[p' [ap al]] [pt pl]] H. destruct ((negb (pt =? TAG_NULL) && negb (pt =? 0)) || negb (pl =? 0)); [apply total_err|]. apply total_ret. lia.
Qed.
End Buffer.

(** Algorithm identifiers: with parameters of any tag, or without *)
Lemma get_alg_tlv oid par a post e : zlen oid < 2 ^ 30 -> match par with Some (_, c) => zlen c < 2 ^ 30 | None => True end ->
  let s := der_sequence (der_tlv 6 oid ++ match par with Some (t, c) => der_tlv t c | None => [] end) in zlen a + zlen s <= e < 2 ^ 63 ->
  exists ap, asn1_get_alg (a ++ s ++ post) (zlen a) e = ret (zlen a + zlen s, (ap, zlen oid), match par with Some (t, c) => (t, zlen c) | None => (0, 0) end) /\
    entry_of (a ++ s ++ post) (6, ap, zlen oid) = (6, oid).
Proof.
  intros Ho Hc s He. set (pb := match par with Some (t, c) => der_tlv t c | None => [] end) in *. subst s. unfold der_sequence in *.
  pose proof (zlen_nonneg oid). pose proof (zlen_nonneg a). pose proof (zlen_nonneg pb). pose proof (tlv_pos 6 oid).
  assert (zlen pb < 2 ^ 30 + 8). { subst pb. destruct par as [[t c]|]; [|reflexivity]. rewrite zlen_tlv. pose proof (zlen_nonneg c). pose proof (header_len t (zlen c) ltac:(lia)). lia. }
  pose proof (zlen_tlv 6 oid) as Z6. pose proof (header_len 6 (zlen oid) ltac:(lia)). set (body := der_tlv 6 oid ++ pb) in *. assert (zlen body = zlen (der_tlv 6 oid) + zlen pb) as LB2 by apply zlen_app.
  pose proof (zlen_tlv 48 body) as Z48. unfold asn1_get_alg. change TAG_CONSTRUCTED_SEQUENCE with 48. rewrite get_tag_ok by (try reflexivity; lia). rewrite bindr_ret.
  set (a2 := a ++ der_header 48 (zlen body)). assert (zlen a + zlen (der_header 48 (zlen body)) = zlen a2) as La by (subst a2; rewrite zlen_app; reflexivity). rewrite La.
  replace (e - zlen a2 <? 1) with false by lia. rewrite tlv_app. fold a2. replace (a2 ++ body ++ post) with (a2 ++ der_tlv 6 oid ++ pb ++ post) by (subst body; rewrite <- !app_assoc; reflexivity).
  assert (rd1 (a2 ++ der_tlv 6 oid ++ pb ++ post) (zlen a2) = Ok 6) as -> by (unfold der_tlv; cbn [app]; apply rd1_at; reflexivity). cbn [bind]. cbv zeta. change TAG_OID with 6.
  rewrite get_tag_ok by (try reflexivity; lia). rewrite bindr_ret. set (ap := zlen a2 + zlen (der_header 6 (zlen oid))). exists ap.
  assert (entry_of (a2 ++ der_tlv 6 oid ++ pb ++ post) (6, ap, zlen oid) = (6, oid)) as EN by (rewrite tlv_app; apply entry_mid; [subst ap; rewrite zlen_app; reflexivity|reflexivity]).
  split; [|exact EN]. destruct par as [[t c]|].
  - subst pb. pose proof (zlen_nonneg c). pose proof (tlv_pos t c). replace (ap + zlen oid =? zlen a2 + zlen body) with false by lia.
    set (a3 := a2 ++ der_tlv 6 oid). assert (ap + zlen oid = zlen a3) as La3 by (subst a3 ap; rewrite zlen_app; lia). rewrite La3.
    replace (a2 ++ der_tlv 6 oid ++ der_tlv t c ++ post) with (a3 ++ der_tlv t c ++ post) by (subst a3; rewrite <- !app_assoc; reflexivity).
    assert (rd1 (a3 ++ der_tlv t c ++ post) (zlen a3) = Ok t) as -> by (unfold der_tlv; cbn [app]; apply rd1_at; reflexivity). cbn [bind].
    pose proof (zlen_tlv t c) as Zt. pose proof (header_cons t (zlen c)) as HC. assert (zlen a3 = zlen a2 + zlen (der_tlv 6 oid)) as L3 by (subst a3; apply zlen_app).
    assert (asn1_get_len (a3 ++ der_tlv t c ++ post) (zlen a3 + 1) (zlen a2 + zlen body) = ret (zlen a3 + zlen (der_header t (zlen c)), zlen c)) as ->.
    { replace (a3 ++ der_tlv t c ++ post) with ((a3 ++ [t]) ++ der_length (zlen c) ++ (c ++ post)) by (unfold der_tlv; rewrite <- !app_assoc; cbn [app]; rewrite <- app_assoc; reflexivity).
      assert (zlen (a3 ++ [t]) = zlen a3 + 1) as L4 by (rewrite zlen_app; reflexivity). rewrite <- L4. rewrite get_len_ok by lia. rewrite L4. match goal with |- ret (?x, _) = ret (?y, _) => replace x with y by lia; reflexivity end. }
    rewrite bindr_ret. match goal with |- (if negb (?x =? ?y) then _ else _) = _ => replace (x =? y) with true by lia end. cbn [negb].
    match goal with |- ret (?x, _, _) = ret (?y, _, _) => replace x with y by lia; reflexivity end.
  - subst pb. change (zlen (@nil Z)) with 0 in *. replace (ap + zlen oid =? zlen a2 + zlen body) with true by lia. match goal with |- ret (?x, _, _) = ret (?y, _, _) => replace x with y by lia; reflexivity end.
Qed.
