From Coq Require Import Lia Permutation PeanoNat.
From Verif Require Import Base BaseFacts MpiModel Base64Model PemModel AsnModel RsaKeyModel TdpKeyModel RsaKeySpec AsnProofs5 RsaKeyProofs PkHeapModel PkHeapSpec PkHeapProofs PkHeapProofs2.

Lemma good_exists : forall h, exists W, good W h.
Proof.
  intros [c n]. induction c as [|[k l] c IH] using rev_ind.
  - exists []. split; [constructor|]. intros i k. unfold in_use. cbn. destruct i; cbn; split; try discriminate; contradiction.
  - destruct IH as (W & G). destruct l; [exists ((length c, k) :: W); eapply add_ok; exact G|]. exists W. destruct G as [N L]. split; [exact N|]. intros i k'. rewrite <- L. unfold in_use. cbn.
    destruct (Nat.lt_trichotomy i (length c)) as [T|[->|T]].
    + rewrite nth_error_app1 by exact T. reflexivity.
    + rewrite nth_error_app2, Nat.sub_diag by lia. cbn. rewrite (proj2 (nth_error_None c (length c))) by lia. split; discriminate.
    + rewrite (proj2 (nth_error_None c i)) by lia. rewrite (proj2 (nth_error_None (c ++ _) i)) by (rewrite app_length; cbn; lia). reflexivity.
Qed.
Lemma good_adds : forall W h h' ns, good W h -> good (map lh ns ++ W) h' -> only_adds h h' (map fst ns).
Proof.
  intros W h h' ns [N L] [N' L']. assert (I : forall i, In i (map fst ns) <-> In (i, KLimbs) (map lh ns)).
  { intro i. rewrite !in_map_iff. split; intros (x & E & H); exists x; (split; [|exact H]); unfold lh in *; [rewrite E; reflexivity|congruence]. }
  assert (U : forall j k, in_use h' k j -> forall k', in_use h' k' j -> k = k') by (unfold in_use; congruence).
  split; [|split].
  - assert (X : NoDup (map lh ns)) by (clear - N'; induction (map lh ns) as [|a l IH]; [constructor|]; cbn in N'; inversion N'; subst; constructor; [rewrite in_app_iff in H1; tauto|auto]).
    clear - X. induction ns as [|a l IH]; [constructor|]. cbn in *. inversion X; subst. constructor; [|auto]. rewrite in_map_iff. intros (x & E & H). apply H1. apply in_map_iff. exists x. split; [unfold lh; rewrite E; reflexivity|exact H].
  - intros i k H V. apply I in H. apply L in V. assert (A : in_use h' KLimbs i) by (apply L'; apply in_app_iff; left; exact H). assert (B : in_use h' k i) by (apply L'; apply in_app_iff; right; exact V).
    pose proof (U _ _ A _ B) as <-. clear - N' H V. induction (map lh ns) as [|a l IH]; [contradiction|]. cbn in N'. inversion N'; subst. destruct H as [->|H]; [apply H2; apply in_app_iff; right; exact V|auto].
  - intros k i. rewrite L', in_app_iff, L. split.
    + intros [H|H]; [right|left; exact H]. assert (k = KLimbs) as -> by (apply in_map_iff in H; destruct H as (x & E & _); unfold lh in E; congruence). split; [reflexivity|apply I; exact H].
    + intros [H|[-> H]]; [right; exact H|left; apply I; exact H].
Qed.
Lemma good_same : forall W h h', good W h -> good W h' -> only_adds h h' [].
Proof. intros W h h' G G'. exact (good_adds W h h' [] G G'). Qed.

Section Allocations.
Context (ora : nat -> bool).
Lemma copy_numbers_ok : forall src dst W h, good (map lh dst ++ W) h -> exists h' dst' ok, copy_numbers ora h src dst = (h', dst', ok) /\ good (map lh dst' ++ W) h' /\ (clock h <= clock h')%nat /\
  if ok : bool then map snd dst' = map snd dst ++ map snd src else ~ fine ora (clock h) (clock h').
Proof.
  induction src as [|[j v] src IH]; intros dst W h G; cbn [copy_numbers].
  - exists h, dst, true. split; [reflexivity|]. split; [exact G|]. split; [lia|]. cbn. rewrite app_nil_r. reflexivity.
  - destruct (new_ok ora _ _ KLimbs G) as (h1 & o & N & C & H). rewrite N. destruct o as [i|].
    + assert (G1 : good (map lh (dst ++ [(i, v)]) ++ W) h1). { rewrite map_app. eapply good_perm; [|exact H]. cbn. rewrite <- app_assoc. apply Permutation_middle. }
      destruct (IH _ _ _ G1) as (h2 & d & ok & E & G2 & C2 & P). exists h2, d, ok. split; [exact E|]. split; [exact G2|]. split; [lia|]. destruct ok.
      * rewrite P, map_app, <- app_assoc. reflexivity.
      * intro Y. apply P. apply (fine_sub _ _ _ _ _ Y); lia.
    + exists h1, dst, false. split; [reflexivity|]. destruct H as [H X]. split; [exact H|]. split; [lia|exact X].
Qed.
Lemma into_context_ok : forall {A} (kof : numbers -> option A) (parse : heap -> pk_context -> outcome (heap * pk_context * (Z + unit))) W h h1 c r r0,
  (forall a b, map snd a = map snd b -> kof a = kof b) ->
  good W h -> parse h None = Ok (h1, c, r) -> good (ch c ++ W) h1 -> (clock h <= clock h1)%nat -> (forall x, r = inl x -> c = None) -> pk_agrees ora (clock h) h1 r c kof r0 ->
  exists h' ns r', into_context ora parse h = Ok (h', ns, r') /\ good (map lh ns ++ W) h' /\ (clock h <= clock h')%nat /\
    match r' with
    | inl x => ns = [] /\ (fine ora (clock h) (clock h') -> r0 = inl x)
    | inr _ => exists k, r0 = inr k /\ (kof ns = Some k \/ ns = [] /\ ~ fine ora (clock h) (clock h'))
    end.
Proof.
  intros A kof parse W h h1 c r r0 K G P G1 C1 N Q. unfold into_context. rewrite P. cbn [bind]. destruct r as [x|[]].
  { rewrite (N x eq_refl) in *. cbn [bind pk_free]. exists h1, [], (inl x). split; [reflexivity|]. split; [exact G1|]. split; [exact C1|]. split; [reflexivity|]. exact Q. }
  destruct c as [[i ns]|].
  2:{ cbn [bind pk_free]. eexists h1, [], _. split; [reflexivity|]. split; [exact G1|]. split; [exact C1|]. split; [reflexivity|]. intro Y. cbn in Q. contradiction. }
  cbn in Q. destruct Q as (k & -> & Kn). destruct (copy_numbers_ok ns [] (ch (Some (i, ns)) ++ W) h1 G1) as (h2 & d & ok & E & G2 & C2 & M). unfold rsa_copy. rewrite E. destruct ok.
  - cbn [bind]. assert (G2' : good ((i, KContext) :: map lh ns ++ map lh d ++ W) h2).
    { eapply good_perm; [|exact G2]. cbn [ch]. eapply perm_trans; [symmetry; apply Permutation_middle|]. apply perm_skip. rewrite !app_assoc. apply Permutation_app_tail, Permutation_app_comm. }
    destruct (pk_free_ok _ _ _ _ G2') as (h3 & F3 & G3 & C3). rewrite F3. cbn [bind]. exists h3, d, (inr tt). split; [reflexivity|]. split; [exact G3|]. split; [lia|]. exists k. split; [reflexivity|]. left. rewrite <- Kn. apply K. exact M.
  - destruct (rsa_free_ok _ _ _ G2) as (h3 & F3 & G3 & C3). rewrite F3. cbn [bind]. destruct (pk_free_ok _ _ _ _ G3) as (h4 & F4 & G4 & C4). rewrite F4. cbn [bind].
    exists h4, [], (inr tt). split; [reflexivity|]. split; [exact G4|]. split; [lia|]. exists k. split; [reflexivity|]. right. split; [reflexivity|]. intro Y. apply M. apply (fine_sub _ _ _ _ _ Y); lia.
Qed.
Lemma rsa_parse_public_key_ok : forall key W h, is_bytes key -> zlen key < 2 ^ 63 -> good W h -> exists r0, pk_parse_public_key (fun _ => true) key (zlen key) = Ok r0 /\
  exists h' ns r', rsa_parse_public_key ora h key = Ok (h', ns, r') /\ good (map lh ns ++ W) h' /\ (clock h <= clock h')%nat /\
    match r' with
    | inl x => ns = [] /\ (fine ora (clock h) (clock h') -> r0 = inl x)
    | inr _ => exists k, r0 = inr k /\ (pair_of ns = Some k \/ ns = [] /\ ~ fine ora (clock h) (clock h'))
    end.
Proof.
  intros key W h Hb Hz G. destruct (parse_public_key_total (fun _ => true) key Hb Hz) as (r0 & T & _). exists r0. split; [exact T|].
  destruct (parse_public_key_ok ora key W h r0 Hb Hz T G) as (h1 & c & r & P & G1 & C1 & N & _ & Q).
  apply (into_context_ok pair_of _ W h h1 c r r0); try assumption. intros a b E. unfold pair_of. rewrite E. reflexivity.
Qed.
Lemma rsa_parse_key_ok : forall key W h, is_bytes key -> zlen key < 2 ^ 63 -> good W h -> exists r0, pk_parse_key (fun _ => true) key (zlen key) = Ok r0 /\
  exists h' ns r', rsa_parse_key ora h key = Ok (h', ns, r') /\ good (map lh ns ++ W) h' /\ (clock h <= clock h')%nat /\
    match r' with
    | inl x => ns = [] /\ (fine ora (clock h) (clock h') -> r0 = inl x)
    | inr _ => exists k, r0 = inr k /\ (private_of ns = Some k \/ ns = [] /\ ~ fine ora (clock h) (clock h'))
    end.
Proof.
  intros key W h Hb Hz G. destruct (parse_key_total (fun _ => true) key Hb Hz) as (r0 & T & _). exists r0. split; [exact T|].
  destruct (parse_key_ok ora key W h r0 Hb Hz T G) as (h1 & c & r & P & G1 & C1 & N & Q).
  apply (into_context_ok private_of _ W h h1 c r r0); try assumption. intros a b E. unfold private_of. rewrite E. reflexivity.
Qed.
Lemma pair_numbers : forall ns k, pair_of ns = Some k -> map snd ns = public_numbers k.
Proof. intros ns k H. unfold pair_of, public_values in H. destruct (map snd ns) as [|a [|b [|]]]; try discriminate. injection H as <-. reflexivity. Qed.
Lemma private_of_numbers : forall ns k, private_of ns = Some k -> map snd ns = private_numbers k.
Proof. intros ns k H. unfold private_of in H. destruct (map snd ns) as [|a [|b [|c [|d [|e [|f [|g [|x [|]]]]]]]]]; try discriminate. injection H as <-. reflexivity. Qed.

Lemma is_bytes_0 : forall s, is_bytes s -> is_bytes (s ++ [0]).
Proof. intros s H. apply Forall_app. split; [exact H|]. constructor; [unfold is_byte; lia|constructor]. Qed.
Lemma zlen_0 : forall s, zlen (s ++ [0]) = zlen s + 1.
Proof. intro s. unfold zlen. rewrite app_length. cbn. lia. Qed.

Lemma public_checked : forall k, public_ok k -> rsa_check_pubkey k = ret tt.
Proof. intros k Hk. apply check_pubkey_ok; [| |exact Hk]; pose proof (public_N k Hk); destruct Hk as (_ & _ & _ & H3); lia. Qed.
(** The constructors *)
Lemma public_constructor_ok : forall h pk, is_bytes pk -> zlen pk < 2 ^ 62 -> exists h' ns thrown,
  public_constructor ora h pk = Ok (h', ns, thrown) /\ only_adds h h' (map fst ns) /\
  (thrown = false -> exists k, tdp_from_public (fun _ => true) pk = Ok k /\ map snd ns = public_numbers k) /\
  (thrown = true -> ns = [] /\ (no_failure ora h h' -> tdp_from_public (fun _ => true) pk = Throw RuntimeError)).
Proof.
  intros h pk Hb Hz. destruct (good_exists h) as (W & G). pose proof (is_bytes_0 _ Hb) as Hb'.
  assert (Hz' : zlen (pk ++ [0]) < 2 ^ 63) by (rewrite zlen_0; lia).
  destruct (rsa_parse_public_key_ok (pk ++ [0]) W h Hb' Hz' G) as (r0 & T & h' & ns & r & P & G' & C & Q).
  unfold public_constructor. rewrite P. cbn [bind]. unfold tdp_from_public.
  destruct (parse_public_key_total (fun _ => true) (pk ++ [0]) Hb' Hz') as (r1 & T' & OK). rewrite T in T'. injection T' as <-. rewrite zlen_0 in T. rewrite T. destruct r as [x|[]].
  { destruct Q as [-> Q]. exists h', [], true. split; [reflexivity|]. split; [exact (good_adds _ _ _ _ G G')|]. split; [discriminate|]. intros _. split; [reflexivity|]. intro Y. rewrite (Q Y). reflexivity. }
  destruct Q as (k & -> & Q). unfold throw_if_err. cbn [bind].
  specialize (OK k eq_refl). pose proof (public_checked k OK) as CK. rewrite CK. destruct Q as [Q|[-> X]].
  - pose proof (pair_numbers _ _ Q) as M. unfold check_pubkey, public_of. rewrite M. unfold public_numbers. destruct k as [kn ke]. cbn [pub_N pub_E] in *. rewrite CK. cbn [bind ret].
    exists h', ns, false. split; [reflexivity|]. split; [exact (good_adds _ _ _ _ G G')|]. split; [intros _; eexists; split; [reflexivity|exact M]|discriminate].
  - cbn. exists h', [], true. split; [reflexivity|]. split; [exact (good_adds _ _ _ _ G G')|]. split; [discriminate|]. intros _. split; [reflexivity|]. intro Y. contradiction.
Qed.
Lemma private_constructor_ok : forall h sk, is_bytes sk -> zlen sk < 2 ^ 62 -> exists h' ns thrown,
  private_constructor ora h sk = Ok (h', ns, thrown) /\ only_adds h h' (map fst ns) /\
  (thrown = false -> exists k, tdp_from_private (fun _ => true) sk = Ok k /\ map snd ns = private_numbers k) /\
  (thrown = true -> ns = [] /\ (no_failure ora h h' -> tdp_from_private (fun _ => true) sk = Throw RuntimeError)).
Proof.
  intros h sk Hb Hz. destruct (good_exists h) as (W & G). pose proof (is_bytes_0 _ Hb) as Hb'.
  assert (Hz' : zlen (sk ++ [0]) < 2 ^ 63) by (rewrite zlen_0; lia).
  destruct (rsa_parse_key_ok (sk ++ [0]) W h Hb' Hz' G) as (r0 & T & h' & ns & r & P & G' & C & Q).
  unfold private_constructor. rewrite P. cbn [bind]. unfold tdp_from_private.
  destruct (parse_key_total (fun _ => true) (sk ++ [0]) Hb' Hz') as (r1 & T' & OK). rewrite T in T'. injection T' as <-. rewrite zlen_0 in T. rewrite T. destruct r as [x|[]].
  { destruct Q as [-> Q]. cbn [rsa_free bind]. exists h', [], true. split; [reflexivity|]. split; [exact (good_adds _ _ _ _ G G')|]. split; [discriminate|]. intros _. split; [reflexivity|]. intro Y. rewrite (Q Y). reflexivity. }
  destruct Q as (k & -> & Q). unfold throw_if_err. cbn [bind].
  specialize (OK k eq_refl). pose proof (public_checked _ (proj1 OK)) as CK. rewrite CK. destruct Q as [Q|[-> X]].
  - pose proof (private_of_numbers _ _ Q) as M. unfold check_pubkey, public_of. rewrite M. unfold private_numbers, key_pub in *. rewrite CK. cbn [bind ret].
    exists h', ns, false. split; [reflexivity|]. split; [exact (good_adds _ _ _ _ G G')|]. split; [intros _; eexists; split; [reflexivity|exact M]|discriminate].
  - cbn. exists h', [], true. split; [reflexivity|]. split; [exact (good_adds _ _ _ _ G G')|]. split; [discriminate|]. intros _. split; [reflexivity|]. intro Y. contradiction.
Qed.
(** The functions of rsa_io.c *)
Lemma rsa_parse_ok : forall h key, is_bytes key -> zlen key < 2 ^ 63 -> exists h' ns r,
  rsa_parse_key ora h key = Ok (h', ns, r) /\ only_adds h h' (map fst ns) /\
  (forall x, r = inl x -> ns = [] /\ (no_failure ora h h' -> pk_parse_key (fun _ => true) key (zlen key) = err x)) /\
  (forall u, r = inr u -> exists k, pk_parse_key (fun _ => true) key (zlen key) = ret k /\ (map snd ns = private_numbers k \/ ns = [] /\ ~ no_failure ora h h')).
Proof.
  intros h key Hb Hz. destruct (good_exists h) as (W & G). destruct (rsa_parse_key_ok key W h Hb Hz G) as (r0 & T & h' & ns & r & P & G' & C & Q).
  exists h', ns, r. split; [exact P|]. split; [exact (good_adds _ _ _ _ G G')|]. rewrite T. destruct r as [x|u]; (split; [|]); intros ? [= <-].
  - destruct Q as [-> Q]. split; [reflexivity|]. intro Y. rewrite (Q Y). reflexivity.
  - destruct Q as (k & -> & Q). exists k. split; [reflexivity|]. destruct Q as [Q|Q]; [left; apply private_of_numbers; exact Q|right; exact Q].
Qed.
Lemma rsa_parse_public_ok : forall h key, is_bytes key -> zlen key < 2 ^ 63 -> exists h' ns r,
  rsa_parse_public_key ora h key = Ok (h', ns, r) /\ only_adds h h' (map fst ns) /\
  (forall x, r = inl x -> ns = [] /\ (no_failure ora h h' -> pk_parse_public_key (fun _ => true) key (zlen key) = err x)) /\
  (forall u, r = inr u -> exists k, pk_parse_public_key (fun _ => true) key (zlen key) = ret k /\ (map snd ns = public_numbers k \/ ns = [] /\ ~ no_failure ora h h')).
Proof.
  intros h key Hb Hz. destruct (good_exists h) as (W & G). destruct (rsa_parse_public_key_ok key W h Hb Hz G) as (r0 & T & h' & ns & r & P & G' & C & Q).
  exists h', ns, r. split; [exact P|]. split; [exact (good_adds _ _ _ _ G G')|]. rewrite T. destruct r as [x|u]; (split; [|]); intros ? [= <-].
  - destruct Q as [-> Q]. split; [reflexivity|]. intro Y. rewrite (Q Y). reflexivity.
  - destruct Q as (k & -> & Q). exists k. split; [reflexivity|]. destruct Q as [Q|Q]; [left; apply pair_numbers; exact Q|right; exact Q].
Qed.
End Allocations.
