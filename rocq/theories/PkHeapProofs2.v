From Coq Require Import Lia Permutation PeanoNat.
From Verif Require Import Base BaseFacts MpiModel Base64Model PemModel AsnModel RsaKeyModel TdpKeyModel RsaKeySpec AsnProofs5 RsaKeyProofs PkHeapModel PkHeapSpec PkHeapProofs.

Lemma read_pem_either : forall hd ft key n r0, read_pem (fun _ => true) hd ft key n = Ok r0 ->
  read_pem (fun _ => false) hd ft key n = Ok r0 \/ read_pem (fun _ => false) hd ft key n = Ok (inl ERR_PEM_ALLOC_FAILED).
Proof.
  intros hd ft key n r0 R. unfold read_pem in *. destruct (n =? 0); [left; exact R|]. destruct (rd1 key (n - 1)) as [c| | | |]; try discriminate. cbn [bind] in *.
  destruct (negb (c =? 0)); [left; exact R|]. unfold pem_read_buffer in *.
  destruct (c_strstr key hd) as [[s1|]| | | |]; try discriminate; cbn [bind] in *; [|left; exact R].
  destruct (c_strstr key ft) as [[s2|]| | | |]; try discriminate; cbn [bind] in *; [|left; exact R].
  destruct (s2 <=? s1); [left; exact R|].
  destruct (skip_if key (s1 + zlen hd) chSP) as [a| | | |]; try discriminate; cbn [bind] in *.
  destruct (skip_if key a chCR) as [a1| | | |]; try discriminate; cbn [bind] in *.
  destruct (rd1 key a1) as [x| | | |]; try discriminate; cbn [bind] in *. destruct (negb (x =? chLF)); [left; exact R|].
  destruct (skip_if key (s2 + zlen ft) chSP) as [b| | | |]; try discriminate; cbn [bind] in *.
  destruct (skip_if key b chCR) as [b1| | | |]; try discriminate; cbn [bind] in *.
  destruct (skip_if key b1 chLF) as [b2| | | |]; try discriminate; cbn [bind] in *.
  match type of R with context [bind ?E (fun enc : bool => _)] => destruct E as [enc| | | |] end; try discriminate; cbn [bind] in *. destruct enc; [left; exact R|].
  destruct (s2 <=? a1 + 1); [left; exact R|]. destruct (rd key (a1 + 1) (s2 - (a1 + 1))) as [txt| | | |]; try discriminate; cbn [bind] in *.
  destruct (base64_decode None 0 txt (s2 - (a1 + 1))) as [[[t1 l] o]| | | |]; try discriminate; cbn [bind] in *.
  destruct (t1 =? ERR_BASE64_INVALID_CHARACTER); [left; exact R|]. right. reflexivity.
Qed.

Lemma tag_is : forall b p e t r, asn1_get_tag b p e t = Ok (inr r) -> rd1 b p = Ok t.
Proof.
  intros b p e t r R. unfold asn1_get_tag in R. destruct (e - p <? 1); [discriminate|]. destruct (rd1 b p) as [c| | | |]; try discriminate. cbn [bind] in R.
  destruct (c =? t) eqn:E; [|discriminate]. apply Z.eqb_eq in E. subst. reflexivity.
Qed.
(** A text is not a key in both formats *)
Lemma one_format : forall b n k k', pk_parse_key_pkcs8 b n = Ok (inr k) -> pk_parse_key_pkcs1_der b 0 n = Ok (inr k') -> False.
Proof.
  intros b n k k' A B. unfold pk_parse_key_pkcs8 in A. unfold pk_parse_key_pkcs1_der in B. rewrite Z.add_0_l in B.
  destruct (asn1_get_tag b 0 n TAG_CONSTRUCTED_SEQUENCE) as [[c|[p1 l1]]| | | |]; try discriminate. st A. st B.
  destruct (asn1_get_int b p1 (p1 + l1)) as [[c|[p2 v]]| | | |]; try discriminate. st A. st B. destruct (negb (v =? 0)); [discriminate|].
  unfold pk_get_pk_alg, asn1_get_alg in A. unfold asn1_get_mpi at 1 in B. st A. st B.
  destruct (asn1_get_tag b p2 (p1 + l1) TAG_CONSTRUCTED_SEQUENCE) as [[c|r]| | | |] eqn:E; try discriminate.
  destruct (asn1_get_tag b p2 (p1 + l1) TAG_INTEGER) as [[c|r']| | | |] eqn:E'; try discriminate.
  apply tag_is in E, E'. rewrite E in E'. discriminate.
Qed.

Section Allocations.
Context (ora : nat -> bool).
Definition ch (c : pk_context) : list handle := match c with None => [] | Some (i, ns) => (i, KContext) :: map lh ns end.
Definition pk_agrees {A} (a : nat) (h : heap) (r : Z + unit) (c : pk_context) (kof : numbers -> option A) (r0 : Z + A) : Prop :=
  match r with
  | inr _ => match c with Some (_, ns) => exists k, r0 = inr k /\ kof ns = Some k | None => ~ fine ora a (clock h) end
  | inl x => fine ora a (clock h) -> r0 = inl x
  end.
Lemma new_pem_ok : forall W h hd ft key r0, is_bytes key -> zlen key < 2 ^ 63 -> read_pem (fun _ => true) hd ft key (zlen key) = Ok r0 -> good W h ->
  exists h' r, new_pem ora h hd ft key (zlen key) = Ok (h', r) /\ (clock h <= clock h')%nat /\
    match r with
    | inr (i, buf) => good ((i, KBuffer) :: W) h' /\ r0 = inr buf
    | inl x => good W h' /\ (r0 = inl x \/ x = ERR_PEM_ALLOC_FAILED /\ ~ fine ora (clock h) (clock h'))
    end.
Proof.
  intros W [c n] hd ft key r0 Hb Hz R G. unfold new_pem, ask. cbn [cells clock]. destruct (ora n) eqn:E.
  - rewrite R. cbn [bind]. destruct r0 as [x|buf]; eexists _, _; (split; [reflexivity|]); cbn [clock]; (split; [lia|]).
    + split; [exact G|]. left. reflexivity.
    + split; [|reflexivity]. eapply add_ok. exact G.
  - assert (X : ~ fine ora n (S n)) by (intro F; rewrite (F n) in E; [discriminate|lia]).
    destruct (read_pem_either _ _ _ _ _ R) as [R'|R']; rewrite R'; cbn [bind].
    + destruct r0 as [x|buf]; eexists _, _; (split; [reflexivity|]); cbn [clock]; (split; [lia|]).
      * split; [exact G|]. left. reflexivity.
      * split; [|reflexivity]. eapply add_ok. exact G.
    + eexists _, _. split; [reflexivity|]. cbn [clock]. split; [lia|]. split; [exact G|]. right. split; [reflexivity|exact X].
Qed.
Lemma pk_setup_ok : forall W h, good W h -> exists h' c r, pk_setup ora h None = (h', c, r) /\ (clock h <= clock h')%nat /\
  match r with inr _ => exists i, c = Some (i, []) /\ good ((i, KContext) :: W) h' | inl _ => c = None /\ good W h' /\ ~ fine ora (clock h) (clock h') end.
Proof.
  intros W h G. unfold pk_setup. destruct (new_ok ora _ _ KContext G) as (h' & o & N & C & H). rewrite N. destruct o as [i|]; eexists _, _, _; (split; [reflexivity|]); (split; [lia|]).
  - exists i. split; [reflexivity|exact H].
  - split; [reflexivity|exact H].
Qed.
Definition pre8 (b : bytes) (keylen : Z) : res (Z * Z) :=
  '(p, len) <-? err_add ERR_PK_KEY_INVALID_FORMAT (asn1_get_tag b 0 keylen TAG_CONSTRUCTED_SEQUENCE) ;;
  let e := p + len in
  '(p, ver) <-? err_add ERR_PK_KEY_INVALID_FORMAT (asn1_get_int b p e) ;;
  if negb (ver =? 0) then err ERR_PK_KEY_INVALID_VERSION
  else
    p <-? err_add ERR_PK_KEY_INVALID_FORMAT (pk_get_pk_alg b p e) ;;
    '(p, len) <-? err_add ERR_PK_KEY_INVALID_FORMAT (asn1_get_tag b p e TAG_OCTET_STRING) ;;
    if len <? 1 then err (ERR_PK_KEY_INVALID_FORMAT + ERR_ASN1_OUT_OF_DATA) else ret (p, len).
Lemma pkcs8_eq : forall b n, pk_parse_key_pkcs8 b n = bindr (pre8 b n) (fun '(p, len) => pk_parse_key_pkcs1_der b p len).
Proof.
  intros. unfold pk_parse_key_pkcs8, pre8.
  destruct (asn1_get_tag b 0 _ _) as [[c|[p1 l1]]| | | |]; try reflexivity. cbn [err_add bindr bind ret].
  destruct (asn1_get_int _ _ _) as [[c|[p2 v]]| | | |]; try reflexivity. cbn [err_add bindr bind ret].
  destruct (negb (v =? 0)); [reflexivity|].
  destruct (pk_get_pk_alg _ _ _) as [[c|p3]| | | |]; try reflexivity. cbn [err_add bindr bind ret].
  destruct (asn1_get_tag b p3 _ _) as [[c|[p4 l4]]| | | |]; try reflexivity. cbn [err_add bindr bind ret].
  destruct (l4 <? 1); reflexivity.
Qed.
(** Numbers read into a new context *)
Lemma in_context : forall {A} i W h a r0 (kof : numbers -> option A) h1 ns r x, good (map lh ns ++ (i, KContext) :: W) h1 -> (a <= clock h)%nat -> (clock h <= clock h1)%nat ->
  agrees ora (clock h) h1 r ns kof r0 -> (forall y, r = inl y -> x = y) ->
  exists h' c, (match r with inr _ => Ok (h1, Some (i, ns)) | inl _ => pk_free h1 (Some (i, ns)) end) = Ok (h', c) /\ good (ch c ++ W) h' /\ (a <= clock h')%nat /\
    (forall y, r = inl y -> c = None) /\ pk_agrees a h' r c kof r0.
Proof.
  intros A i W h a r0 kof h1 ns r x G C0 C1 Q X. assert (G' : good ((i, KContext) :: map lh ns ++ W) h1) by (eapply good_perm; [|exact G]; symmetry; apply Permutation_middle).
  destruct r as [y|[]].
  - destruct (pk_free_ok _ _ _ _ G') as (h2 & F & G2 & C2). exists h2, None. split; [exact F|]. split; [exact G2|]. split; [lia|]. split; [reflexivity|]. intro Y. apply Q.
    rewrite C2 in Y. exact (fine_sub _ _ _ _ _ Y C0 (Nat.le_refl _)).
  - exists h1, (Some (i, ns)). split; [reflexivity|]. split; [exact G'|]. split; [lia|]. split; [discriminate|]. exact Q.
Qed.
Lemma agrees_mono : forall {A} a b h r c (kof : numbers -> option A) r0 h', pk_agrees a h r c kof r0 -> (b <= a)%nat -> (clock h <= clock h')%nat -> pk_agrees b h' r c kof r0.
Proof.
  intros A a b h r c kof r0 h' Q B C. destruct r as [x|[]].
  - intro Y. apply Q. exact (fine_sub _ _ _ _ _ Y B C).
  - cbn in *. destruct c as [[i ns]|]; [exact Q|]. intro Y. apply Q. exact (fine_sub _ _ _ _ _ Y B C).
Qed.
Lemma parse_pkcs8_ok : forall b n W h r0, pk_parse_key_pkcs8 b n = Ok r0 -> good W h ->
  exists h' c r, parse_pkcs8 ora h None b n = Ok (h', c, r) /\ good (ch c ++ W) h' /\ (clock h <= clock h')%nat /\ (forall x, r = inl x -> c = None) /\ (forall u, r = inr u -> c <> None) /\
    pk_agrees (clock h) h' r c private_of r0.
Proof.
  intros b n W h r0 R G. rewrite pkcs8_eq in R. unfold parse_pkcs8. fold (pre8 b n). destruct (pre8 b n) as [[c|[p len]]| | | |]; try discriminate.
  { st R. cbn [bind]. exists h, None, (inl c). split; [reflexivity|]. split; [exact G|]. split; [lia|]. split; [reflexivity|]. split; [discriminate|]. intros _. congruence. }
  st R. cbn [bind]. destruct (pk_setup_ok _ _ G) as (h1 & c & r & E & C & H). rewrite E. destruct r as [x|[]].
  { destruct H as (-> & G1 & X). exists h1, None, (inl x). split; [reflexivity|]. split; [exact G1|]. split; [lia|]. split; [reflexivity|]. split; [discriminate|]. intro Y. contradiction. }
  destruct H as (i & -> & G1). destruct (parse_pkcs1_ok ora _ _ _ _ _ _ R G1) as (h2 & ns & r & F & G2 & C2 & _ & Q). rewrite F. cbn [bind].
  destruct (in_context i W h1 (clock h) r0 private_of h2 ns r (match r with inl y => y | _ => 0 end) G2 C C2 Q ltac:(intros y ->; reflexivity)) as (h3 & c3 & F3 & G3 & C3 & N3 & Q3).
  destruct r as [y|[]].
  - cbn [bind]. match goal with |- context [pk_free ?a ?b] => replace (pk_free a b) with (Ok (h3, c3)) by (symmetry; exact F3) end. cbn [bind]. exists h3, c3, (inl y). split; [reflexivity|]. split; [exact G3|]. split; [lia|]. split; [exact N3|]. split; [discriminate|exact Q3].
  - injection F3 as <- <-. exists h2, (Some (i, ns)), (inr tt). split; [reflexivity|]. split; [exact G3|]. split; [lia|]. split; [exact N3|]. split; [discriminate|exact Q3].
Qed.

(** * Public keys *)
Definition pre_pub (b : bytes) (p e : Z) : res (Z * Z) :=
  '(p, len) <-? err_add ERR_PK_KEY_INVALID_FORMAT (asn1_get_tag b p e TAG_CONSTRUCTED_SEQUENCE) ;;
  let e := p + len in
  p <-? pk_get_pk_alg b p e ;;
  '(p, len) <-? err_add ERR_PK_INVALID_PUBKEY (asn1_get_bitstring_null b p e) ;;
  if negb (p + len =? e) then err (ERR_PK_INVALID_PUBKEY + ERR_ASN1_LENGTH_MISMATCH) else ret (p, e).
Lemma subpubkey_eq : forall b p e, pk_parse_subpubkey b p e = bindr (pre_pub b p e) (fun '(p, e) => pk_get_rsapubkey b p e).
Proof.
  intros. unfold pk_parse_subpubkey, pre_pub.
  destruct (asn1_get_tag b p _ _) as [[c|[p1 l1]]| | | |]; try reflexivity. cbn [err_add bindr bind ret].
  destruct (pk_get_pk_alg _ _ _) as [[c|p3]| | | |]; try reflexivity. cbn [err_add bindr bind ret].
  destruct (asn1_get_bitstring_null _ _ _) as [[c|[p4 l4]]| | | |]; try reflexivity. cbn [err_add bindr bind ret].
  destruct (negb (p4 + l4 =? p1 + l1)); reflexivity.
Qed.
Definition public_values (vs : list Z) : option rsa_pub := match vs with [n; e] => Some {| pub_N := n; pub_E := e |} | _ => None end.
Definition pair_of (ns : numbers) : option rsa_pub := public_values (map snd ns).
Lemma rsapubkey_eq : forall b p e, pk_get_rsapubkey b p e =
  bindr (err_add ERR_PK_INVALID_PUBKEY (asn1_get_tag b p e TAG_CONSTRUCTED_SEQUENCE)) (fun '(p, len) =>
    if negb (p + len =? e) then err (ERR_PK_INVALID_PUBKEY + ERR_ASN1_LENGTH_MISMATCH)
    else '(p, vs) <-? err_add ERR_PK_INVALID_PUBKEY (reads 2 b p e) ;;
      if negb (p =? e) then err (ERR_PK_INVALID_PUBKEY + ERR_ASN1_LENGTH_MISMATCH)
      else match public_values vs with Some k => _ <-? err_set ERR_PK_INVALID_PUBKEY (rsa_check_pubkey k) ;; ret k | None => UB end).
Proof.
  intros. unfold pk_get_rsapubkey. destruct (asn1_get_tag _ _ _ _) as [[c|[p1 l1]]| | | |]; try reflexivity. cbn [err_add bindr bind ret].
  destruct (negb (p1 + l1 =? e)); [reflexivity|]. cbn [err_add bindr bind ret reads].
  do 2 (destruct (asn1_get_mpi _ _ _) as [[?|[? ?]]| | | |]; try reflexivity; cbn [err_add bindr bind ret public_values]).
Qed.
Lemma get_rsapubkey_ok : forall b p e W h r0, pk_get_rsapubkey b p e = Ok r0 -> good W h ->
  exists h' ns r, get_rsapubkey ora h b p e = Ok (h', ns, r) /\ good (map lh ns ++ W) h' /\ (clock h <= clock h')%nat /\ agrees ora (clock h) h' r ns pair_of r0.
Proof.
  intros b p e W h r0 R G. rewrite rsapubkey_eq in R. unfold get_rsapubkey. destruct (asn1_get_tag b p e _) as [[c|[p1 l]]| | | |]; try discriminate.
  { st R. cbn [bind]. eexists h, [], _. split; [reflexivity|]. split; [exact G|]. split; [lia|]. intros _. congruence. }
  st R. cbn [bind]. destruct (negb (p1 + l =? e)). { eexists h, [], _. split; [reflexivity|]. split; [exact G|]. split; [lia|]. intros _. congruence. }
  destruct (reads 2 b p1 e) as [r2| | | |] eqn:E2; try discriminate.
  destruct (get_numbers_ok ora _ _ _ _ _ W h [] E2 G) as (h1 & ns & r & F & G1 & C1 & P). rewrite F. cbn [bind]. destruct r as [c|p2].
  { eexists h1, ns, _. split; [reflexivity|]. split; [exact G1|]. split; [lia|]. intro X. rewrite (P X) in R. st R. congruence. }
  destruct P as (vs & -> & M). cbn in M. st R. destruct (negb (p2 =? e)). { eexists h1, ns, _. split; [reflexivity|]. split; [exact G1|]. split; [lia|]. intros _. congruence. }
  pose proof (reads_length _ _ _ _ _ _ E2) as L. do 3 (destruct vs as [|? vs]; try discriminate L). cbn [public_values] in R.
  unfold check_pubkey. unfold public_of. rewrite M. destruct (rsa_check_pubkey _) as [[c|[]]| | | |]; try discriminate; st R; cbn [bind].
  { eexists h1, ns, _. split; [reflexivity|]. split; [exact G1|]. split; [lia|]. intros _. congruence. }
  exists h1, ns, (inr tt). split; [reflexivity|]. split; [exact G1|]. split; [lia|]. eexists. split; [injection R as <-; reflexivity|]. unfold pair_of. rewrite M. reflexivity.
Qed.
Lemma parse_subpubkey_ok : forall b p e W h r0, pk_parse_subpubkey b p e = Ok r0 -> good W h ->
  exists h' c r, parse_subpubkey ora h None b p e = Ok (h', c, r) /\ good (ch c ++ W) h' /\ (clock h <= clock h')%nat /\ (forall x, r = inl x -> c = None) /\ (forall u, r = inr u -> c <> None) /\
    pk_agrees (clock h) h' r c pair_of r0.
Proof.
  intros b p e W h r0 R G. rewrite subpubkey_eq in R. unfold parse_subpubkey. fold (pre_pub b p e). destruct (pre_pub b p e) as [[c|[p1 e1]]| | | |]; try discriminate.
  { st R. cbn [bind]. exists h, None, (inl c). split; [reflexivity|]. split; [exact G|]. split; [lia|]. split; [reflexivity|]. split; [discriminate|]. intros _. congruence. }
  st R. cbn [bind]. destruct (pk_setup_ok _ _ G) as (h1 & c & r & E & C & H). rewrite E. destruct r as [x|[]].
  { destruct H as (-> & G1 & X). exists h1, None, (inl x). split; [reflexivity|]. split; [exact G1|]. split; [lia|]. split; [reflexivity|]. split; [discriminate|]. intro Y. contradiction. }
  destruct H as (i & -> & G1). destruct (get_rsapubkey_ok _ _ _ _ _ _ R G1) as (h2 & ns & r & F & G2 & C2 & Q). rewrite F. cbn [bind].
  destruct (in_context i W h1 (clock h) r0 pair_of h2 ns r (match r with inl y => y | _ => 0 end) G2 C C2 Q ltac:(intros y ->; reflexivity)) as (h3 & c3 & F3 & G3 & C3 & N3 & Q3).
  destruct r as [y|[]].
  - cbn [bind]. match goal with |- context [pk_free ?a ?b] => replace (pk_free a b) with (Ok (h3, c3)) by (symmetry; exact F3) end. cbn [bind]. exists h3, c3, (inl y). split; [reflexivity|]. split; [exact G3|]. split; [lia|]. split; [exact N3|]. split; [discriminate|exact Q3].
  - injection F3 as <- <-. exists h2, (Some (i, ns)), (inr tt). split; [reflexivity|]. split; [exact G3|]. split; [lia|]. split; [exact N3|]. split; [discriminate|exact Q3].
Qed.
Lemma parse_public_key_ok : forall key W h r0, is_bytes key -> zlen key < 2 ^ 63 -> pk_parse_public_key (fun _ => true) key (zlen key) = Ok r0 -> good W h ->
  exists h' c r, parse_public_key ora h None key (zlen key) = Ok (h', c, r) /\ good (ch c ++ W) h' /\ (clock h <= clock h')%nat /\ (forall x, r = inl x -> c = None) /\ (forall u, r = inr u -> c <> None) /\
    pk_agrees (clock h) h' r c pair_of r0.
Proof.
  intros key W h r0 Hb Hz R G. unfold pk_parse_public_key in R. unfold parse_public_key.
  destruct (read_pem (fun _ => true) begin_public end_public key (zlen key)) as [r1| | | |] eqn:E1; try discriminate. cbn [bind] in R.
  destruct (new_pem_ok W h _ _ key r1 Hb Hz E1 G) as (h1 & q & F & C1 & P). rewrite F. cbn [bind]. destruct q as [x|[i buf]].
  - destruct P as [G1 [-> | [-> X]]].
    + destruct (negb (x =? _)). { eexists h1, None, _. split; [reflexivity|]. split; [exact G1|]. split; [lia|]. split; [reflexivity|]. split; [discriminate|]. intros _. st R. congruence. }
      destruct (parse_subpubkey_ok _ _ _ _ _ _ R G1) as (h2 & c & r & F2 & G2 & C2 & N2 & N2' & Q). exists h2, c, r. split; [exact F2|]. split; [exact G2|]. split; [lia|]. split; [exact N2|]. split; [exact N2'|].
      eapply agrees_mono; [exact Q|lia|lia].
    + change (negb (ERR_PEM_ALLOC_FAILED =? ERR_PEM_NO_HEADER_FOOTER_PRESENT)) with true. cbn iota.
      eexists h1, None, _. split; [reflexivity|]. split; [exact G1|]. split; [lia|]. split; [reflexivity|]. split; [discriminate|]. intro Y. contradiction.
  - destruct P as [G1 ->]. destruct (parse_subpubkey_ok _ _ _ _ _ _ R G1) as (h2 & c & r & F2 & G2 & C2 & N2 & N2' & Q). rewrite F2. cbn [bind].
    destruct (free_at _ (ch c ++ W) _ i KBuffer G2) as (h3 & F3 & G3 & C3); [symmetry; apply Permutation_middle|]. rewrite F3. cbn [bind].
    exists h3, c, r. split; [reflexivity|]. split; [exact G3|]. split; [lia|]. split; [exact N2|]. split; [exact N2'|]. eapply agrees_mono; [exact Q|lia|lia].
Qed.

(** * Private keys *)
Lemma parse_key_ok : forall key W h r0, is_bytes key -> zlen key < 2 ^ 63 -> pk_parse_key (fun _ => true) key (zlen key) = Ok r0 -> good W h ->
  exists h' c r, parse_key ora h None key (zlen key) = Ok (h', c, r) /\ good (ch c ++ W) h' /\ (clock h <= clock h')%nat /\ (forall x, r = inl x -> c = None) /\
    pk_agrees (clock h) h' r c private_of r0.
Proof.
  intros key W h r0 Hb Hz R G. unfold pk_parse_key in R. unfold parse_key.
  destruct (read_pem (fun _ => true) begin_rsa_private end_rsa_private key (zlen key)) as [r1| | | |] eqn:E1; try discriminate. cbn [bind] in R.
  destruct (new_pem_ok W h _ _ key r1 Hb Hz E1 G) as (h1 & q & F & C1 & P). rewrite F. cbn [bind]. destruct q as [x|[i buf]].
  2:{ destruct P as [G1 ->]. destruct (pk_setup_ok _ _ G1) as (h2 & c & r & E & C & H). rewrite E. destruct r as [x|[]].
    - destruct H as (-> & G2 & X). cbn [pk_free bind]. destruct (free_ok _ _ _ _ G2) as (h3 & F3 & G3 & C3). rewrite F3. cbn [bind].
      exists h3, None, (inl x). split; [reflexivity|]. split; [exact G3|]. split; [lia|]. split; [reflexivity|]. intro Y. exfalso. apply X. rewrite C3 in Y. apply (fine_sub _ _ _ _ _ Y); lia.
    - destruct H as (j & -> & G2). destruct (parse_pkcs1_ok ora _ _ _ _ _ _ R G2) as (h3 & ns & r & F3 & G3 & C3 & _ & Q). rewrite F3. cbn [bind].
      destruct (in_context j ((i, KBuffer) :: W) h2 (clock h) r0 private_of h3 ns r (match r with inl y => y | _ => 0 end) G3 ltac:(lia) C3 Q ltac:(intros y ->; reflexivity)) as (h4 & c4 & F4 & G4 & C4 & N4 & Q4).
      replace (match r with inl _ => pk_free h3 (Some (j, ns)) | inr _ => Ok (h3, Some (j, ns)) end) with (Ok (h4, c4)) by (rewrite <- F4; destruct r; reflexivity). cbn [bind].
      destruct (free_at _ (ch c4 ++ W) _ i KBuffer G4) as (h5 & F5 & G5 & C5); [symmetry; apply Permutation_middle|]. rewrite F5. cbn [bind].
      exists h5, c4, r. split; [reflexivity|]. split; [exact G5|]. split; [lia|]. split; [exact N4|]. eapply agrees_mono; [exact Q4|lia|lia]. }
  assert (AF : negb (ERR_PEM_ALLOC_FAILED =? ERR_PEM_NO_HEADER_FOOTER_PRESENT) = true) by reflexivity.
  destruct P as [G1 [-> | [-> X]]].
  2:{ rewrite AF. eexists h1, None, _. split; [reflexivity|]. split; [exact G1|]. split; [lia|]. split; [reflexivity|]. intro Y. contradiction. }
  destruct (negb (x =? _)). { eexists h1, None, _. split; [reflexivity|]. split; [exact G1|]. split; [lia|]. split; [reflexivity|]. intros _. st R. congruence. }
  destruct (read_pem (fun _ => true) begin_private end_private key (zlen key)) as [r2| | | |] eqn:E2; try discriminate. cbn [bind] in R.
  destruct (new_pem_ok W h1 _ _ key r2 Hb Hz E2 G1) as (h2 & q & F2 & C2 & P). rewrite F2. cbn [bind]. destruct q as [y|[i buf]].
  2:{ destruct P as [G2 ->]. destruct (parse_pkcs8_ok _ _ _ _ _ R G2) as (h3 & c & r & F3 & G3 & C3 & N3 & N3' & Q). rewrite F3. cbn [bind].
    assert (K : match r with inl _ => pk_free h3 c | inr _ => Ok (h3, c) end = Ok (h3, c)) by (destruct r as [z|]; [rewrite (N3 z eq_refl)|]; reflexivity). rewrite K. cbn [bind].
    destruct (free_at _ (ch c ++ W) _ i KBuffer G3) as (h5 & F5 & G5 & C5); [symmetry; apply Permutation_middle|]. rewrite F5. cbn [bind].
    exists h5, c, r. split; [reflexivity|]. split; [exact G5|]. split; [lia|]. split; [exact N3|]. eapply agrees_mono; [exact Q|lia|lia]. }
  destruct P as [G2 [-> | [-> X]]].
  2:{ rewrite AF. eexists h2, None, _. split; [reflexivity|]. split; [exact G2|]. split; [lia|]. split; [reflexivity|]. intro Y. exfalso. apply X. apply (fine_sub _ _ _ _ _ Y); lia. }
  destruct (negb (y =? _)). { eexists h2, None, _. split; [reflexivity|]. split; [exact G2|]. split; [lia|]. split; [reflexivity|]. intros _. st R. congruence. }
  destruct (pk_parse_key_pkcs8 key (zlen key)) as [r8| | | |] eqn:E8; try discriminate. cbn [bind] in R.
  destruct (parse_pkcs8_ok _ _ _ _ _ E8 G2) as (h3 & c & r & F3 & G3 & C3 & N3 & N3' & Q). rewrite F3. cbn [bind]. destruct r as [z|[]].
  2:{ exists h3, c, (inr tt). split; [reflexivity|]. split; [exact G3|]. split; [lia|]. split; [discriminate|]. cbn in Q |- *. destruct c as [[j ns]|]; [|exfalso; exact (N3' tt eq_refl eq_refl)].
    destruct Q as (k & -> & Q). exists k. split; [st R; congruence|exact Q]. }
  rewrite (N3 z eq_refl) in *. change (pk_free h3 None) with (Ok (h3, @None (nat * numbers))). cbn [bind]. cbn [ch app] in G3. destruct (pk_setup_ok _ _ G3) as (h4 & c4 & r & E & C & H). rewrite E. destruct r as [w|[]].
  { destruct H as (-> & G4 & X). exists h4, None, (inr tt). split; [reflexivity|]. split; [exact G4|]. split; [lia|]. split; [discriminate|]. intro Y. apply X. apply (fine_sub _ _ _ _ _ Y); lia. }
  destruct H as (j & -> & G4). destruct (pk_parse_key_pkcs1_der key 0 (zlen key)) as [r9| | | |] eqn:E9.
  2,3,4,5: exfalso; destruct (pkcs1_total key Hb Hz 0 (zlen key) (Z.le_refl _) (Z.le_refl _)) as (rr & T & _); rewrite E9 in T; discriminate.
  destruct (parse_pkcs1_ok ora _ _ _ _ _ _ E9 G4) as (h5 & ns & r & F5 & G5 & C5 & _ & Q5). rewrite F5. cbn [bind].
  destruct (in_context j W h4 (clock h) r9 private_of h5 ns r (match r with inl y => y | _ => 0 end) G5 ltac:(lia) C5 Q5 ltac:(intros yy ->; reflexivity)) as (h6 & c6 & F6 & G6 & C6 & N6 & Q6).
  destruct r as [v|[]].
  - cbn [bind]. match goal with |- context [pk_free ?a ?b] => replace (pk_free a b) with (Ok (h6, c6)) by (symmetry; exact F6) end. cbn [bind]. eexists h6, c6, _. split; [reflexivity|]. split; [exact G6|]. split; [lia|]. split; [intros; apply (N6 v eq_refl)|]. intro Y. pose proof (Q6 Y) as ->.
    rewrite (N6 v eq_refl) in *. assert (Z8 : r8 = inl z). { apply Q. intros n Hn. apply Y. cbn in F6. destruct (rsa_free h5 ns) as [ha| | | |] eqn:Ra; try discriminate.
      pose proof (pk_free_ok j ns W h5 (good_perm _ _ _ ltac:(symmetry; apply Permutation_middle) G5)) as (hb & Fb & _ & Cb). cbn in Fb. rewrite Ra in Fb. rewrite Fb in F6. injection F6 as <-. lia. }
    subst r8. st R. congruence.
  - injection F6 as <- <-. exists h5, (Some (j, ns)), (inr tt). split; [reflexivity|]. split; [exact G6|]. split; [lia|]. split; [discriminate|]. destruct Q6 as (k & -> & K). exists k.
    destruct r8 as [e8|k8]; st R; [split; [congruence|exact K]|]. exfalso. exact (one_format _ _ _ _ E8 E9).
Qed.
End Allocations.
