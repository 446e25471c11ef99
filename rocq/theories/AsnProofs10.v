(** The statements of AsnProperties2. *)
From Coq Require Import Lia ZifyBool.
From Verif Require Import Base BaseFacts MpiModel AsnModel AsnModel2 RsaKeySpec AsnSpec2 AsnProofs AsnProofs2 AsnProofs4 AsnProofs5 AsnProofs6 AsnProofs7 AsnProofs8 AsnProofs9.

Lemma total_safe {A} (x : res A) P : total x P -> safe x P.
Proof. intros [[e|a] [E H]]; [left; exists e; exact E|]. right. exists a. split; [exact E|]. apply H. reflexivity. Qed.
Lemma alg_with_parameters front oid par post : par <> [] -> zlen oid + zlen par < 2 ^ 30 ->
  let s := der_sequence (der_tlv 6 oid ++ par) in let room := zlen front + zlen par in
  asn1_write_algorithm (front ++ par ++ post) (zlen front) oid (zlen par) =
    if zlen s <=? room then ret (firstn (Z.to_nat (room - zlen s)) front ++ s ++ post, room - zlen s, zlen s) else err ERR_ASN1_BUF_TOO_SMALL.
Proof.
  intros Hp Hz s room. pose proof (zlen_nonneg oid). pose proof (zlen_nonneg par). pose proof (zlen_nonneg front). pose proof (zlen_nonneg post). assert (0 < zlen par) by (destruct par; [congruence|rewrite zlen_cons; pose proof (zlen_nonneg par); lia]).
  rewrite (writer_alg_par oid (zlen par)) by (try lia; rewrite !zlen_app; lia). set (d := der_header 48 (zlen (der_tlv 6 oid) + zlen par) ++ der_tlv 6 oid).
  assert (s = d ++ par) as Es. { subst s d. unfold der_sequence. rewrite der_tlv_split, zlen_app, <- app_assoc. reflexivity. }
  assert (zlen s = zlen d + zlen par) as Ls by (rewrite Es; apply zlen_app). subst room. destruct (Z.leb_spec (zlen d) (zlen front)) as [L|L].
  - replace (zlen s <=? zlen front + zlen par) with true by lia. unfold put. rewrite Es. rewrite zlen_app. replace (zlen front + zlen par - (zlen d + zlen par)) with (zlen front - zlen d) by lia.
    pose proof (zlen_nonneg d). rewrite firstn_app. replace (Z.to_nat (zlen front - zlen d) - length front)%nat with 0%nat by (unfold zlen in *; lia). cbn [firstn]. rewrite app_nil_r.
    rewrite skipn_app, skipn_all2 by (unfold zlen; lia). replace (Z.to_nat (zlen front) - length front)%nat with 0%nat by (unfold zlen; lia). cbn [skipn app]. rewrite <- app_assoc. reflexivity.
  - replace (zlen s <=? zlen front + zlen par) with false by lia. reflexivity.
Qed.
Lemma alg_null_ok oid par a post e : zlen oid < 2 ^ 30 -> match par with Some (_, c) => zlen c < 2 ^ 30 | None => True end ->
  let s := der_sequence (der_tlv 6 oid ++ match par with Some (t, c) => der_tlv t c | None => [] end) in zlen a + zlen s <= e < 2 ^ 63 ->
  match par with
  | Some (t, c) => (t = 5 \/ t = 0) /\ c = []
  | None => True
  end ->
  exists ap, asn1_get_alg_null (a ++ s ++ post) (zlen a) e = ret (zlen a + zlen s, (ap, zlen oid)) /\ entry_of (a ++ s ++ post) (6, ap, zlen oid) = (6, oid).
Proof.
  intros Ho Hc s He Hpar. destruct (get_alg_tlv oid par a post e Ho Hc He) as [ap [E1 E2]]. fold s in E1, E2. exists ap. split; [|exact E2]. unfold asn1_get_alg_null. rewrite E1, bindr_ret.
  destruct par as [[t c]|]; [|reflexivity]. destruct Hpar as [[->| ->] ->]; reflexivity.
Qed.
Lemma alg_null_other oid t c a post e : zlen oid < 2 ^ 30 -> zlen c < 2 ^ 30 -> let s := der_sequence (der_tlv 6 oid ++ der_tlv t c) in zlen a + zlen s <= e < 2 ^ 63 ->
  (t <> 5 /\ t <> 0) \/ c <> [] -> asn1_get_alg_null (a ++ s ++ post) (zlen a) e = err ERR_ASN1_INVALID_DATA.
Proof.
  intros Ho Hc s He Hpar. destruct (get_alg_tlv oid (Some (t, c)) a post e Ho Hc He) as [ap [E1 E2]]. fold s in E1. unfold asn1_get_alg_null. rewrite E1, bindr_ret. change TAG_NULL with 5.
  assert ((negb (t =? 5) && negb (t =? 0)) || negb (zlen c =? 0) = true) as ->; [|reflexivity].
  destruct Hpar as [[H1 H2]|H]; [lia|]. destruct c as [|x c]; [congruence|]. rewrite zlen_cons. pose proof (zlen_nonneg c). lia.
Qed.
Lemma parsers_safe b p e : is_bytes b -> zlen b < 2 ^ 63 -> 0 <= p -> e <= zlen b ->
  safe (asn1_get_bool b p e) (fun '(p', v) => p < p' <= e /\ (v = 0 \/ v = 1)) /\
  safe (asn1_get_bitstring b p e) (fun '(p', un, (q, l)) => p' = e /\ 0 <= un <= 7 /\ p < q /\ 0 <= l /\ q + l = e) /\
  safe (asn1_get_alg b p e) (fun '(p', (ap, al), (pt, pl)) => p < p' <= e /\ p < ap /\ 0 <= al /\ ap + al <= p' /\ 0 <= pl) /\
  safe (asn1_get_alg_null b p e) (fun '(p', (ap, al)) => p < p' <= e /\ p < ap /\ 0 <= al /\ ap + al <= p') /\
  (forall alloc init tag, safe (asn1_get_sequence_of alloc init b p e tag) (fun l => l = [init] \/ Forall (fun '(t, q, n) => t = tag /\ p < q /\ 0 <= n /\ q + n <= e) l)).
Proof.
  intros Hb Hz Hp He. repeat split; intros; apply total_safe.
  - apply get_bool_total; assumption.
  - apply get_bits_total; assumption.
  - apply alg_total; assumption.
  - apply alg_null_total; assumption.
  - apply sequence_of_total; assumption.
Qed.
Lemma writers_ok : 
  (forall v, writer (fun b p => asn1_write_bool b p v) (der_bool (negb (v =? 0))) (zlen (der_bool (negb (v =? 0))))) /\
  (forall t, zlen t < 2 ^ 31 -> writer (fun b p => asn1_write_printable_string b p t) (der_tlv 19 t) (zlen (der_tlv 19 t)) /\
     writer (fun b p => asn1_write_ia5_string b p t) (der_tlv 22 t) (zlen (der_tlv 22 t)) /\ writer (fun b p => asn1_write_octet_string b p t) (der_tlv 4 t) (zlen (der_tlv 4 t))) /\
  (forall buf n, 0 <= n < 2 ^ 31 -> (n + 7) / 8 <= zlen buf -> writer (fun b p => asn1_write_bitstring b p buf n) (der_bits buf n) (zlen (der_bits buf n))) /\
  (forall oid, zlen oid < 2 ^ 31 - 16 -> let s := der_sequence (der_tlv 6 oid ++ der_tlv 5 []) in writer (fun b p => asn1_write_algorithm b p oid 0) s (zlen s)).
Proof.
  split; [intros v; destruct (negb (v =? 0)) eqn:E; rewrite <- E at 1; change (zlen (der_bool _)) with 3; apply writer_bool|]. split; [intros t H; repeat split; apply writer_string; exact H|].
  split; [apply writer_bitstring|]. intros oid H. apply writer_alg_null. exact H.
Qed.
Lemma bits_value buf n : 0 <= n -> (n + 7) / 8 <= zlen buf -> der_bits buf n = der_tlv 3 ((- n) mod 8 :: firstn (Z.to_nat ((n + 7) / 8)) buf).
Proof. intros. unfold der_bits. cbv zeta. f_equal. f_equal. Z.div_mod_to_equations. lia. Qed.
Lemma readers_ok a post e :
  (forall v, zlen a + zlen (der_bool v) <= e < 2 ^ 63 -> asn1_get_bool (a ++ der_bool v ++ post) (zlen a) e = ret (zlen a + zlen (der_bool v), if v then 1 else 0)) /\
  (forall x, 0 <= x < 2 ^ 31 -> zlen a + zlen (der_integer x) <= e < 2 ^ 63 -> asn1_get_int (a ++ der_integer x ++ post) (zlen a) e = ret (zlen a + zlen (der_integer x), x)) /\
  (forall buf n, 0 <= n < 2 ^ 31 -> (n + 7) / 8 <= zlen buf -> e = zlen a + zlen (der_bits buf n) -> e < 2 ^ 63 ->
     exists q l, asn1_get_bitstring (a ++ der_bits buf n ++ post) (zlen a) e = ret (e, 8 * l - n, (q, l)) /\
       entry_of (a ++ der_bits buf n ++ post) (3, q, l) = (3, firstn (Z.to_nat ((n + 7) / 8)) buf)).
Proof.
  split; [intros v H; destruct v; exact (get_bool_ok _ a post e H)|]. split; [intros; apply get_int_ok; assumption|].
  intros buf n Hn Hk He He2. set (k := (n + 7) / 8) in *. assert (0 <= k /\ 0 <= 8 * k - n < 8 /\ k < 2 ^ 31) as [K0 [K1 K2]] by (subst k; Z.div_mod_to_equations; lia).
  unfold der_bits in *. cbv zeta in *. fold k in He |- *. set (data := firstn (Z.to_nat k) buf) in *. assert (zlen data = k) as Ld by (subst data; unfold zlen in *; rewrite firstn_length; lia).
  exists (e - zlen data), (zlen data). rewrite get_bits_ok by (try assumption; lia). replace (7 <? 8 * k - n) with false by lia. rewrite Ld. split; [reflexivity|].
  rewrite tlv_app. cbn [app]. set (h := a ++ der_header 3 (zlen (8 * k - n :: data))).
  replace (h ++ 8 * k - n :: data ++ post) with ((h ++ [8 * k - n]) ++ data ++ post) by (rewrite <- app_assoc; reflexivity). apply entry_mid; [|lia].
  subst h. rewrite !zlen_app. rewrite zlen_tlv in He. rewrite zlen_cons in *. change (zlen [8 * k - n]) with 1. lia.
Qed.
