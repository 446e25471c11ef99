From Coq Require Import Lia Permutation PeanoNat.
From Verif Require Import Base BaseFacts MpiModel Base64Model PemModel AsnModel RsaKeyModel TdpKeyModel RsaKeySpec AsnProofs5 RsaKeyProofs PkHeapModel PkHeapSpec.

Definition handle : Type := nat * kind.
Definition good (W : list handle) (h : heap) : Prop := NoDup W /\ forall i k, in_use h k i <-> In (i, k) W.
Definition lh (x : nat * Z) : handle := (fst x, KLimbs).
Lemma kind_eqb_refl : forall k, kind_eqb k k = true. Proof. destruct k; reflexivity. Qed.
Lemma kind_eqb_eq : forall a b, kind_eqb a b = true -> a = b. Proof. destruct a, b; cbn; congruence. Qed.
Lemma good_perm : forall W W' h, Permutation W W' -> good W h -> good W' h.
Proof.
  intros W W' h P [N L]. split; [exact (Permutation_NoDup P N)|]. intros i k. rewrite L. split; apply Permutation_in; [exact P|symmetry; exact P].
Qed.
Lemma good_clock : forall W c n m, good W (MkHeap c n) -> good W (MkHeap c m).
Proof. intros W c n m G. exact G. Qed.
Lemma add_ok : forall W c n m k, good W (MkHeap c n) -> good ((length c, k) :: W) (MkHeap (c ++ [MkCell k true]) m).
Proof.
  intros W c n m k [N L]. split.
  - constructor; [|exact N]. rewrite <- L. unfold in_use. cbn. intro E. assert (nth_error c (length c) <> None) by congruence. apply nth_error_Some in H. lia.
  - intros i k'. unfold in_use. cbn [cells]. cbn [In]. rewrite <- L. unfold in_use. cbn [cells]. destruct (Nat.lt_trichotomy i (length c)) as [T|[->|T]].
    + rewrite nth_error_app1 by exact T. split; [auto|]. intros [E|E]; [injection E; lia|exact E].
    + rewrite nth_error_app2, Nat.sub_diag by lia. cbn. split; [intro E; injection E as <-; left; reflexivity|]. intros [E|E]; [injection E as <-; reflexivity|].
      assert (nth_error c (length c) <> None) by congruence. apply nth_error_Some in H. lia.
    + split; intro E; exfalso.
      * assert (nth_error (c ++ [MkCell k true]) i <> None) as X by congruence. apply nth_error_Some in X. rewrite app_length in X. cbn in X. lia.
      * destruct E as [E|E]; [injection E; lia|]. assert (nth_error c i <> None) as X by congruence. apply nth_error_Some in X. lia.
Qed.
Lemma nth_set : forall {A} (l : list A) i x j, (i < length l)%nat -> nth_error (set_nth l i x) j = if Nat.eq_dec i j then Some x else nth_error l j.
Proof.
  intros A l i x j L. unfold set_nth. destruct (Nat.eq_dec i j) as [<-|n].
  - rewrite nth_error_app2; rewrite firstn_length_le by lia; [|lia]. rewrite Nat.sub_diag. reflexivity.
  - destruct (Nat.lt_ge_cases j i) as [J|J].
    + rewrite nth_error_app1 by (rewrite firstn_length_le; lia). revert i j L n J; induction l as [|a l IH]; intros i j L n J; [cbn in L; lia|].
      destruct i as [|i]; [lia|]. destruct j as [|j]; [reflexivity|]. cbn. apply IH; cbn in L; lia.
    + rewrite nth_error_app2; rewrite firstn_length_le by lia; [|lia]. destruct (j - i)%nat as [|d] eqn:D; [lia|]. cbn [nth_error].
      assert (E : j = (S i + d)%nat) by lia. rewrite E. clear. generalize (S i) as n; intro n; revert n; induction l as [|a l IH]; intro n; [rewrite skipn_nil; destruct d, n; reflexivity|].
      destruct n as [|n]; [reflexivity|]. cbn [skipn]. rewrite IH. reflexivity.
Qed.
Lemma free_ok : forall W h i k, good ((i, k) :: W) h -> exists h', free k h i = Ok h' /\ good W h' /\ clock h' = clock h.
Proof.
  intros W h i k [N L]. inversion N as [|? ? NI N']; subst. pose proof (proj2 (L i k) (or_introl eq_refl)) as U. unfold in_use in U.
  unfold free. rewrite U. cbn [kind_of live]. rewrite kind_eqb_refl. cbn [andb]. eexists. split; [reflexivity|]. split; [|reflexivity]. split; [exact N'|].
  assert (T : (i < length (cells h))%nat) by (apply nth_error_Some; congruence).
  intros j k'. unfold in_use. cbn [cells]. rewrite nth_set by exact T. destruct (Nat.eq_dec i j) as [<-|n].
  - split; [discriminate|]. intro I. exfalso. pose proof (proj2 (L i k') (or_intror I)) as U'. unfold in_use in U'. assert (k' = k) by congruence. subst. contradiction.
  - pose proof (L j k') as LL. unfold in_use in LL. rewrite LL. cbn. split; [intros [E|E]; [congruence|exact E]|auto].
Qed.
Lemma free_at : forall W W' h i k, good W h -> Permutation W ((i, k) :: W') -> exists h', free k h i = Ok h' /\ good W' h' /\ clock h' = clock h.
Proof. intros W W' h i k G P. apply free_ok. exact (good_perm _ _ _ P G). Qed.
Lemma rsa_free_ok : forall ns W h, good (map lh ns ++ W) h -> exists h', rsa_free h ns = Ok h' /\ good W h' /\ clock h' = clock h.
Proof.
  induction ns as [|[i v] ns IH]; intros W h G; [exists h; repeat split; try apply G; reflexivity|]. cbn [map app] in G. change (lh (i, v)) with (i, KLimbs) in G.
  destruct (free_ok _ _ _ _ G) as (h1 & F & G1 & C1). destruct (IH _ _ G1) as (h2 & F2 & G2 & C2). exists h2. cbn. rewrite F. cbn. rewrite F2. repeat split; try apply G2. congruence.
Qed.
Lemma pk_free_ok : forall i (ns : numbers) W h, good ((i, KContext) :: map lh ns ++ W) h -> exists h', pk_free h (Some (i, ns)) = Ok (h', None) /\ good W h' /\ clock h' = clock h.
Proof.
  intros i ns W h G. assert (G' : good (map lh ns ++ (i, KContext) :: W) h) by (eapply good_perm; [|exact G]; apply Permutation_middle).
  destruct (rsa_free_ok _ _ _ G') as (h1 & F & G1 & C1). destruct (free_ok _ _ _ _ G1) as (h2 & F2 & G2 & C2). exists h2. unfold pk_free. rewrite F. cbn [bind]. rewrite F2. cbn [bind].
  split; [reflexivity|]. split; [exact G2|congruence].
Qed.

Ltac st R := unfold err_add, err_set, bindr, ret, err in R; cbn [bind] in R.
Section Allocations.
Context (ora : nat -> bool).
(** No allocation fails between two clocks *)
Definition fine (a b : nat) : Prop := forall n, (a <= n < b)%nat -> ora n = true.
Lemma fine_sub : forall a b c d, fine a d -> (a <= b)%nat -> (c <= d)%nat -> fine b c.
Proof. intros a b c d F A C n H. apply F. lia. Qed.
Lemma new_ok : forall W h k, good W h -> exists h' o, new ora k h = (h', o) /\ clock h' = S (clock h) /\
  match o with Some i => good ((i, k) :: W) h' | None => good W h' /\ ~ fine (clock h) (clock h') end.
Proof.
  intros W [c n] k G. unfold new, ask. cbn [cells clock]. destruct (ora n) eqn:E; eexists _, _; (split; [reflexivity|]); (split; [reflexivity|]).
  - cbn [cells clock]. eapply add_ok. exact G.
  - split; [exact G|]. intro F. rewrite (F n) in E; [discriminate|cbn; lia].
Qed.

(** [n] numbers *)
Fixpoint reads (n : nat) (b : bytes) (p e : Z) : res (Z * list Z) :=
  match n with O => ret (p, []) | S n => '(p, v) <-? asn1_get_mpi b p e ;; '(p, vs) <-? reads n b p e ;; ret (p, v :: vs) end.
Lemma get_numbers_ok : forall n b p e r0 W h ns, reads n b p e = Ok r0 -> good (map lh ns ++ W) h ->
  exists h' ns' r, get_numbers ora n b p e h ns = Ok (h', ns', r) /\ good (map lh ns' ++ W) h' /\ (clock h <= clock h')%nat /\
    match r with
    | inr p' => exists vs, r0 = inr (p', vs) /\ map snd ns' = map snd ns ++ vs
    | inl c => fine (clock h) (clock h') -> r0 = inl c
    end.
Proof.
  induction n as [|n IH]; intros b p e r0 W h ns R G.
  - cbn in R. injection R as <-. exists h, ns, (inr p). split; [reflexivity|]. split; [exact G|]. split; [lia|]. exists []. rewrite app_nil_r. split; reflexivity.
  - cbn in R. cbn [get_numbers]. destruct (asn1_get_mpi b p e) as [[c|[p1 v]]| | | |] eqn:E; try discriminate.
    + cbn in R. injection R as <-. cbn [bind]. exists h, ns, (inl c). split; [reflexivity|]. split; [exact G|]. split; [lia|]. reflexivity.
    + cbn [bindr bind] in *. destruct (new_ok _ _ KLimbs G) as (h1 & o & N & C & H). rewrite N. destruct o as [i|].
      * destruct (reads n b p1 e) as [r1| | | |] eqn:E1; try discriminate.
        assert (G1 : good (map lh (ns ++ [(i, v)]) ++ W) h1).
        { rewrite map_app. eapply good_perm; [|exact H]. cbn. rewrite <- app_assoc. apply Permutation_middle. }
        destruct (IH _ _ _ _ _ _ _ E1 G1) as (h2 & ns2 & r & F & G2 & C2 & P). exists h2, ns2, r. split; [exact F|]. split; [exact G2|]. split; [lia|].
        destruct r as [c|p2].
        -- intro X. assert (Y : fine (clock h1) (clock h2)) by (apply (fine_sub _ _ _ _ X); lia). specialize (P Y). subst r1. cbn in R. unfold err, ret in R. congruence.
        -- destruct P as (vs & -> & M). cbn in R. injection R as <-. exists (v :: vs). split; [reflexivity|]. rewrite M, map_app. cbn. rewrite <- app_assoc. reflexivity.
      * destruct H as [H X]. exists h1, ns, (inl ERR_MPI_ALLOC_FAILED). split; [reflexivity|]. split; [exact H|]. split; [lia|]. intro Y. contradiction.
Qed.

(** A result against what RsaKeyModel computes *)
Definition agrees {A} (a : nat) (h : heap) (r : Z + unit) (ns : numbers) (kof : numbers -> option A) (r0 : Z + A) : Prop :=
  match r with
  | inr _ => exists k, r0 = inr k /\ kof ns = Some k
  | inl x => fine a (clock h) -> r0 = inl x
  end.
Definition private_values (vs : list Z) : option rsa_key :=
  match vs with
  | [n; e; d; p; q; dp; dq; qp] => Some {| key_N := n; key_E := e; key_D := d; key_P := p; key_Q := q; key_DP := dp; key_DQ := dq; key_QP := qp |}
  | _ => None
  end.
Lemma reads_length : forall n b p e p' vs, reads n b p e = Ok (inr (p', vs)) -> length vs = n.
Proof.
  induction n as [|n IH]; intros b p e p' vs R; cbn in R; [injection R as _ <-; reflexivity|].
  destruct (asn1_get_mpi b p e) as [[c|[p1 v]]| | | |]; try discriminate. cbn in R. destruct (reads n b p1 e) as [[c|[p2 vs2]]| | | |] eqn:E; try discriminate. cbn in R. injection R as _ <-. cbn. rewrite (IH _ _ _ _ _ E). reflexivity.
Qed.
Definition pre1 (b : bytes) (p keylen : Z) : res (Z * Z) :=
  '(p, len) <-? err_add ERR_PK_KEY_INVALID_FORMAT (asn1_get_tag b p (p + keylen) TAG_CONSTRUCTED_SEQUENCE) ;;
  let e := p + len in
  '(p, ver) <-? err_add ERR_PK_KEY_INVALID_FORMAT (asn1_get_int b p e) ;;
  if negb (ver =? 0) then err ERR_PK_KEY_INVALID_VERSION else ret (p, e).
Lemma pkcs1_eq : forall b p n, pk_parse_key_pkcs1_der b p n =
  bindr (pre1 b p n) (fun '(p, e) => '(p, vs) <-? err_add ERR_PK_KEY_INVALID_FORMAT (reads 8 b p e) ;;
    if negb (p =? e) then err (ERR_PK_KEY_INVALID_FORMAT + ERR_ASN1_LENGTH_MISMATCH)
    else match private_values vs with Some k => _ <-? rsa_check_privkey k ;; ret k | None => UB end).
Proof.
  intros. unfold pk_parse_key_pkcs1_der, pre1.
  destruct (asn1_get_tag _ _ _ _) as [[c|[p1 l1]]| | | |]; try reflexivity. cbn [err_add bindr bind ret].
  destruct (asn1_get_int _ _ _) as [[c|[p2 v]]| | | |]; try reflexivity. cbn [err_add bindr bind ret].
  destruct (negb (v =? 0)); [reflexivity|]. cbn [err_add bindr bind ret reads].
  do 8 (destruct (asn1_get_mpi _ _ _) as [[?|[? ?]]| | | |]; try reflexivity; cbn [err_add bindr bind ret private_values]).
Qed.
Lemma parse_pkcs1_ok : forall b p n W h r0, pk_parse_key_pkcs1_der b p n = Ok r0 -> good W h ->
  exists h' ns r, parse_pkcs1 ora h b p n = Ok (h', ns, r) /\ good (map lh ns ++ W) h' /\ (clock h <= clock h')%nat /\ (forall x, r = inl x -> ns = []) /\
    agrees (clock h) h' r ns private_of r0.
Proof.
  intros b p n W h r0 R G. rewrite pkcs1_eq in R. unfold parse_pkcs1. fold (pre1 b p n). destruct (pre1 b p n) as [[c|[p1 e]]| | | |]; try discriminate.
  { cbn in R. injection R as <-. cbn [bind]. exists h, [], (inl c). split; [reflexivity|]. split; [exact G|]. split; [lia|]. split; [reflexivity|intros _; reflexivity]. }
  cbn [bindr bind] in *. destruct (reads 8 b p1 e) as [r8| | | |] eqn:E8; try discriminate.
  destruct (get_numbers_ok _ _ _ _ _ W h [] E8 G) as (h1 & ns & r & F & G1 & C1 & P). rewrite F. cbn [bind].
  destruct r as [c|p2].
  { destruct (rsa_free_ok _ _ _ G1) as (h2 & F2 & G2 & C2). rewrite F2. cbn [bind]. exists h2, [], (inl (ERR_PK_KEY_INVALID_FORMAT + c)). split; [reflexivity|]. split; [exact G2|]. split; [lia|].
    split; [reflexivity|]. intro X. rewrite C2 in X. rewrite (P X) in R. cbn in R. unfold err, ret in R. congruence. }
  destruct P as (vs & -> & M). cbn in M. st R.
  destruct (negb (p2 =? e)) eqn:Ep.
  { unfold err in R. injection R as <-. destruct (rsa_free_ok _ _ _ G1) as (h2 & F2 & G2 & C2). rewrite F2. cbn [bind]. eexists h2, [], _. split; [reflexivity|]. split; [exact G2|]. split; [lia|]. split; [reflexivity|]. intros _. reflexivity. }
  pose proof (reads_length _ _ _ _ _ _ E8) as L. do 9 (destruct vs as [|? vs]; try discriminate L). clear L. cbn [private_values] in R.
  assert (PO : private_of ns = private_values [z; z0; z1; z2; z3; z4; z5; z6]) by (unfold private_of; rewrite M; reflexivity). cbn [private_values] in PO.
  set (k := {| key_N := z; key_E := z0; key_D := z1; key_P := z2; key_Q := z3; key_DP := z4; key_DQ := z5; key_QP := z6 |}) in *.
  unfold check_privkey. unfold check_pubkey. replace (public_of ns) with (Some (key_pub k)) by (unfold public_of; rewrite M; reflexivity).
  destruct (rsa_check_pubkey (key_pub k)) as [[c|[]]| | | |] eqn:CP.
  - cbn [bind]. destruct (rsa_free_ok _ _ _ G1) as (h2 & F2 & G2 & C2). rewrite F2. cbn [bind]. eexists h2, [], _. split; [reflexivity|]. split; [exact G2|]. split; [lia|]. split; [reflexivity|]. intros _.
    unfold rsa_check_privkey in R. rewrite CP in R. cbn in R. unfold err, ret in R. congruence.
  - cbn [bind]. rewrite PO. destruct (ask ora h1) as [h2 ok] eqn:A. unfold ask in A. injection A as <- Eo.
    assert (G1' : good (map lh ns ++ W) (MkHeap (cells h1) (S (clock h1)))) by exact G1.
    destruct ok.
    + destruct (rsa_check_privkey k) as [[c|[]]| | | |] eqn:CK; try discriminate; cbn [bind bindr] in *.
      * destruct (rsa_free_ok _ _ _ G1') as (h3 & F3 & G3 & C3). rewrite F3. cbn [bind]. eexists h3, [], _. split; [reflexivity|]. split; [exact G3|]. cbn in C3. split; [lia|]. split; [reflexivity|]. intros _. unfold err, ret in R. congruence.
      * eexists _, ns, (inr tt). split; [reflexivity|]. split; [exact G1'|]. cbn [clock]. split; [lia|]. split; [discriminate|]. exists k. split; [cbn in R; unfold err, ret in R; congruence|exact PO].
    + cbn [bind]. destruct (rsa_free_ok _ _ _ G1') as (h3 & F3 & G3 & C3). rewrite F3. cbn [bind]. eexists h3, [], _. split; [reflexivity|]. split; [exact G3|]. cbn in C3. split; [lia|]. split; [reflexivity|]. intro X.
      rewrite (X (clock h1)) in Eo by lia. discriminate.
  - exfalso. unfold rsa_check_privkey in R. rewrite CP in R. discriminate.
  - exfalso. unfold rsa_check_privkey in R. rewrite CP in R. discriminate.
  - exfalso. unfold rsa_check_privkey in R. rewrite CP in R. discriminate.
  - exfalso. unfold rsa_check_privkey in R. rewrite CP in R. discriminate.
Qed.
End Allocations.
