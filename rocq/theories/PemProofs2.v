(** Reading PEM text. *)
From Coq Require Import Lia ZifyBool.
From Verif Require Import Base BaseFacts MpiModel Base64Model Base64Spec Base64Proofs Base64Proofs2 Base64Proofs3 Base64Proofs4 Base64Proofs5 PemModel PemSpec PemProofs.

Definition nonzero (s : bytes) : Prop := Forall (fun c => c <> 0) s.

Lemma c_string_ok : forall s r, nonzero s -> c_string (s ++ 0 :: r) = Ok s.
Proof.
  induction s as [|c s IH]; intros r H; cbn [app c_string]; [reflexivity|].
  pose proof (Forall_inv H) as Hc. cbn in Hc. replace (c =? 0) with false by lia. rewrite IH by (apply Forall_inv_tail in H; assumption). reflexivity.
Qed.
Lemma split_zero : forall b, In 0 b -> exists s r, b = s ++ 0 :: r /\ nonzero s.
Proof.
  induction b as [|c b IH]; intros H; [destruct H|]. destruct (Z.eq_dec c 0) as [->|Hc].
  - exists [], b. split; [reflexivity|constructor].
  - destruct H as [->|H]; [congruence|]. destruct (IH H) as (s & r & -> & Hs). exists (c :: s), r. split; [reflexivity|constructor; assumption].
Qed.

Lemma is_prefix_app : forall p s, is_prefixb p (p ++ s) = true.
Proof. induction p as [|c p IH]; intros s; cbn [app is_prefixb]; [reflexivity|]. rewrite Z.eqb_refl, IH. reflexivity. Qed.
Lemma is_prefix_inv : forall p s, is_prefixb p s = true -> exists r, s = p ++ r.
Proof.
  induction p as [|c p IH]; intros s H; [exists s; reflexivity|]. destruct s as [|d s]; [discriminate|]. cbn [is_prefixb] in H.
  apply andb_prop in H. destruct H as [H1 H2]. apply Z.eqb_eq in H1. subst d. destruct (IH _ H2) as [r ->]. exists r. reflexivity.
Qed.
Lemma find_sub_some : forall p s i j, find_sub p s i = Some j -> exists a b, s = a ++ p ++ b /\ j = i + zlen a.
Proof.
  intros p s. induction s as [|c s IH]; intros i j H; cbn [find_sub] in H.
  - destruct (is_prefixb p []) eqn:E; [|discriminate]. injection H as <-. apply is_prefix_inv in E. destruct E as [r E].
    exists [], r. split; [assumption|]. change (zlen (@nil Z)) with 0. lia.
  - destruct (is_prefixb p (c :: s)) eqn:E.
    + injection H as <-. apply is_prefix_inv in E. destruct E as [r E]. exists [], r. split; [assumption|]. change (zlen (@nil Z)) with 0. lia.
    + apply IH in H. destruct H as (a & b & -> & ->). exists (c :: a), b. split; [reflexivity|]. rewrite zlen_cons. lia.
Qed.
Lemma find_sub_here p s i : is_prefixb p s = true -> find_sub p s i = Some i.
Proof. intros H. destruct s; cbn [find_sub]; rewrite H; reflexivity. Qed.
Lemma find_sub_skip x p : forall s t i, ~ In x s -> find_sub (x :: p) (s ++ t) i = find_sub (x :: p) t (i + zlen s).
Proof.
  induction s as [|c s IH]; intros t i H; [cbn [app]; change (zlen (@nil Z)) with 0; rewrite Z.add_0_r; reflexivity|].
  cbn [app find_sub is_prefixb]. replace (x =? c) with false by (symmetry; apply Z.eqb_neq; intros ->; apply H; left; reflexivity).
  cbn [andb]. rewrite IH by (intros X; apply H; right; assumption). rewrite zlen_cons. f_equal. lia.
Qed.

(** * Totality *)
Lemma rd1_at a c l i : i = zlen a -> rd1 (a ++ c :: l) i = Ok c.
Proof.
  intros ->. unfold rd1. rewrite zlen_app, zlen_cons. pose proof (zlen_nonneg a). pose proof (zlen_nonneg l).
  replace ((0 <=? zlen a) && (zlen a <? zlen a + (1 + zlen l))) with true by lia. unfold zlen. rewrite Nat2Z.id, nth_error_app2, Nat.sub_diag by lia. reflexivity.
Qed.
Lemma rd1_in s r i : 0 <= i <= zlen s -> exists c, rd1 (s ++ 0 :: r) i = Ok c /\ (i = zlen s -> c = 0) .
Proof.
  intros H. destruct (Z.eq_dec i (zlen s)) as [->|N].
  - exists 0. split; [apply rd1_at; reflexivity|reflexivity].
  - destruct (rd1_ok (s ++ 0 :: r) i) as (c & E & _); [rewrite zlen_app, zlen_cons; pose proof (zlen_nonneg r); lia|].
    exists c. split; [assumption|]. intros ->; lia.
Qed.
Lemma skip_in s r p c : c <> 0 -> 0 <= p <= zlen s -> exists q, skip_if (s ++ 0 :: r) p c = Ok q /\ p <= q <= zlen s.
Proof.
  intros Hc Hp. unfold skip_if. destruct (rd1_in s r p Hp) as (x & -> & Hx). cbn [bind].
  destruct (x =? c) eqn:E; [|exists p; split; [reflexivity|lia]]. exists (p + 1). split; [reflexivity|].
  assert (p <> zlen s) by (intros Y; apply Hx in Y; lia). lia.
Qed.
Lemma rd1_in_nz s r i c : rd1 (s ++ 0 :: r) i = Ok c -> 0 <= i <= zlen s -> c <> 0 -> i < zlen s.
Proof. intros H Hi Hc. destruct (rd1_in s r i Hi) as (d & E & Hd). rewrite E in H. injection H as ->. destruct (Z.eq_dec i (zlen s)) as [Y|Y]; [apply Hd in Y; congruence|lia]. Qed.

Lemma regroup_bytes : forall n vs, (length vs <= n)%nat -> Forall is_val vs -> is_bytes (regroup vs).
Proof.
  induction n as [|n IH]; intros vs Hn Hv; destruct vs as [|v0 [|v1 [|v2 [|v3 vs]]]]; try (constructor; fail); try (cbn [length] in Hn; lia).
  pose proof (Forall_inv Hv) as H0. apply Forall_inv_tail in Hv. pose proof (Forall_inv Hv) as H1. apply Forall_inv_tail in Hv.
  pose proof (Forall_inv Hv) as H2. apply Forall_inv_tail in Hv. pose proof (Forall_inv Hv) as H3. apply Forall_inv_tail in Hv.
  unfold is_val in *. cbn [regroup]. cbv zeta. apply is_bytes_app. split; [|apply IH; [cbn [length] in Hn; lia|assumption]].
  unfold group. repeat constructor; unfold is_byte; Z.div_mod_to_equations; lia.
Qed.
Lemma dec_out_bytes vs p : Forall is_val vs -> is_bytes (dec_out vs p).
Proof.
  intros H. unfold dec_out. apply is_bytes_firstn. apply (regroup_bytes _ _ (Nat.le_refl _)). apply Forall_app. split; [assumption|].
  apply Forall_forall. intros x Hx. apply repeat_spec in Hx. subst x. unfold is_val. lia.
Qed.

Section Alloc.
Context (alloc : Z -> bool).
Lemma pem_read_total header footer data : is_bytes data -> In 0 data -> zlen data < 2 ^ 63 ->
  exists r, pem_read_buffer alloc header footer data = Ok r /\
    forall b u, r = inr (b, u) -> is_bytes b /\ zlen b <= zlen data /\ 0 < u < zlen data.
Proof.
  intros Hb H0 Hl. destruct (split_zero data H0) as (s & r & E & Hs). subst data. rewrite zlen_app, zlen_cons in Hl.
  pose proof (zlen_nonneg r) as Lr. pose proof (zlen_nonneg s) as Ls. pose proof (zlen_nonneg header). pose proof (zlen_nonneg footer).
  unfold pem_read_buffer, c_strstr. rewrite (c_string_ok s r Hs). cbn [bind].
  destruct (find_sub header s 0) as [s1|] eqn:F1; [|eexists; split; [reflexivity|discriminate]]. 
  destruct (find_sub footer s 0) as [s2|] eqn:F2; [|eexists; split; [reflexivity|discriminate]].
  apply find_sub_some in F1. destruct F1 as (a1 & b1 & E1 & J1). apply find_sub_some in F2. destruct F2 as (a2 & b2 & E2 & J2).
  assert (zlen s = zlen a1 + (zlen header + zlen b1)) as L1 by (rewrite E1, !zlen_app; reflexivity).
  assert (zlen s = zlen a2 + (zlen footer + zlen b2)) as L2 by (rewrite E2, !zlen_app; reflexivity).
  pose proof (zlen_nonneg a1). pose proof (zlen_nonneg a2). pose proof (zlen_nonneg b1). pose proof (zlen_nonneg b2).
  destruct (s2 <=? s1) eqn:C1; [eexists; split; [reflexivity|discriminate]|].
  destruct (skip_in s r (s1 + zlen header) chSP ltac:(discriminate) ltac:(lia)) as (p1 & -> & P1). cbn [bind].
  destruct (skip_in s r p1 chCR ltac:(discriminate) ltac:(lia)) as (p2 & -> & P2). cbn [bind].
  destruct (rd1_in s r p2 ltac:(lia)) as (x & R1 & X). rewrite R1. cbn [bind].
  destruct (x =? chLF) eqn:C2; cbn [negb]; [|eexists; split; [reflexivity|discriminate]].
  assert (p2 < zlen s) by (apply (rd1_in_nz s r p2 x R1); [lia|unfold chLF in C2; lia]).
  destruct (skip_in s r (s2 + zlen footer) chSP ltac:(discriminate) ltac:(lia)) as (e1 & -> & Q1). cbn [bind].
  destruct (skip_in s r e1 chCR ltac:(discriminate) ltac:(lia)) as (e2 & -> & Q2). cbn [bind].
  destruct (skip_in s r e2 chLF ltac:(discriminate) ltac:(lia)) as (e3 & -> & Q3). cbn [bind].
  assert (exists f, (if 22 <=? s2 - (p2 + 1) then w <- rd (s ++ 0 :: r) (p2 + 1) 22;; Ok (bytes_eqb w proc_type) else Ok false) = Ok f) as [f ->].
  { destruct (22 <=? s2 - (p2 + 1)) eqn:C; [|eexists; reflexivity]. rewrite rd_ok by (rewrite ?zlen_app, ?zlen_cons; lia). cbn [bind]. eexists; reflexivity. }
  cbn [bind]. destruct f; [eexists; split; [reflexivity|discriminate]|].
  destruct (s2 <=? p2 + 1) eqn:C3; [eexists; split; [reflexivity|discriminate]|].
  rewrite rd_ok by (rewrite ?zlen_app, ?zlen_cons; lia). cbn [bind].
  set (txt := window (s ++ 0 :: r) (Z.to_nat (p2 + 1)) (Z.to_nat (s2 - (p2 + 1)))).
  assert (zlen txt = s2 - (p2 + 1)) as Lt.
  { unfold txt, zlen. rewrite window_length, app_length. cbn [length]. unfold zlen in *. lia. }
  assert (is_bytes txt) as Bt. { apply is_bytes_firstn, is_bytes_skipn. assumption. }
  rewrite <- Lt.
  destruct (decode_cases txt None 0 Bt ltac:(lia)) as [[D _]|(vs & p & V & Hp & St & _ & Ck & D)]; [discriminate| |].
  { rewrite D. cbn [bind]. rewrite Z.eqb_refl. eexists; split; [reflexivity|discriminate]. }
  rewrite D. cbn [bind].
  assert (zlen vs + Z.of_nat p <= zlen txt) as Lv. { pose proof (strip_len txt) as Sl. rewrite St, chars_len in Sl. exact Sl. }
  pose proof (zlen_nonneg vs). pose proof (finish_out_le vs p Hp) as Fo.
  assert (0 <= dec_size (zlen vs) (Z.of_nat p) <= zlen txt) as Ds. { split; [lia|]. unfold dec_size. Z.div_mod_to_equations; lia. }
  unfold finish. destruct (zlen vs + Z.of_nat p =? 0) eqn:Z0.
  - change (0 =? ERR_BASE64_INVALID_CHARACTER) with false. cbn [bind]. destruct (alloc 0); cbn [negb]; [|eexists; split; [reflexivity|discriminate]].
    rewrite (decode_after_check txt (Some (zeros (Z.to_nat 0))) 0 vs p ltac:(lia) Ck V Hp St) by (intros ? [= <-]; rewrite zlen_zeros; lia).
    unfold finish. rewrite Z0. cbn [bind Z.eqb negb]. eexists; split; [reflexivity|]. intros b u [= <- <-].
    split; [constructor|]. rewrite zlen_app, zlen_cons. change (zlen (@nil Z)) with 0. lia.
  - change (ERR_BASE64_BUFFER_TOO_SMALL =? ERR_BASE64_INVALID_CHARACTER) with false. cbn [bind].
    set (n := dec_size (zlen vs) (Z.of_nat p)) in *.
    destruct (alloc n); cbn [negb]; [|eexists; split; [reflexivity|discriminate]].
    rewrite (decode_after_check txt (Some (zeros (Z.to_nat n))) n vs p ltac:(lia) Ck V Hp St) by (intros ? [= <-]; rewrite zlen_zeros; lia).
    unfold finish. rewrite Z0. fold n. replace (n <? n) with false by lia. cbn [bind Z.eqb negb]. eexists; split; [reflexivity|].
    intros b u [= <- <-]. rewrite firstn_zlen_app by reflexivity. split; [apply dec_out_bytes; assumption|].
    rewrite zlen_app, zlen_cons. lia.
Qed.
End Alloc.

(** Reading a text with a header and a footer line, followed by anything *)
Lemma wrap_wrapped : forall s col, wrapped s (wrap64 col s).
Proof.
  induction s as [|c s IH]; intros col; cbn [wrap64].
  - destruct (Nat.eqb col 0); [apply (wr_end 0)|]. apply (wr_lf 0 [] []). apply (wr_end 0).
  - apply wr_char. destruct (Nat.eqb col 63); [|apply IH]. apply (wr_lf 0 s (wrap64 0 s)). apply IH.
Qed.
Lemma wrap_in : forall s col c, In c (wrap64 col s) -> c = 10 \/ In c s.
Proof.
  induction s as [|d s IH]; intros col c H; cbn [wrap64] in H.
  - destruct (Nat.eqb col 0); [destruct H|]. destruct H as [<-|[]]. left; reflexivity.
  - destruct H as [<-|H]; [right; left; reflexivity|]. destruct (Nat.eqb col 63); [destruct H as [<-|H]; [left; reflexivity|]|]; apply IH in H; destruct H; auto; right; right; assumption.
Qed.
Definition b64_sym (c : Z) : Prop := 48 <= c <= 57 \/ 65 <= c <= 90 \/ 97 <= c <= 122 \/ c = 43 \/ c = 47 \/ c = 61.
Lemma b64_char_sym v : is_val v -> b64_sym (b64_char v).
Proof. unfold is_val, b64_sym, b64_char. intros H. destruct (v <? 26) eqn:?, (v <? 52) eqn:?, (v <? 62) eqn:?, (v =? 62) eqn:?; lia. Qed.
Lemma b64_syms l : is_bytes l -> Forall b64_sym (b64 l).
Proof.
  intros H. destruct (b64_chars _ l (Nat.le_refl _) H) as (vs & p & -> & V & _). unfold chars. apply Forall_app. split.
  - clear - V. induction V as [|v vs Hv _ IH]; [constructor|]. cbn [map]. constructor; [apply b64_char_sym; assumption|assumption].
  - apply Forall_forall. intros x Hx. apply repeat_spec in Hx. subst x. unfold b64_sym. lia.
Qed.
Lemma wrap_len_le s col : zlen (wrap64 col s) <= 2 * zlen s + 1.
Proof.
  revert col. induction s as [|c s IH]; intros col; cbn [wrap64].
  - destruct (Nat.eqb col 0); [change (zlen (@nil Z)) with 0|change (zlen [10]) with 1; change (zlen (@nil Z)) with 0]; lia.
  - rewrite !zlen_cons. destruct (Nat.eqb col 63); [rewrite zlen_cons; specialize (IH 0%nat)|specialize (IH (S col))]; lia.
Qed.

Lemma skip_none (a : bytes) x l c p : p = zlen a -> x <> c -> skip_if (a ++ x :: l) p c = Ok p.
Proof. intros -> H. unfold skip_if. rewrite rd1_at by reflexivity. cbn [bind]. replace (x =? c) with false by lia. reflexivity. Qed.

Section Alloc2.
Context (alloc : Z -> bool).
Lemma pem_read_text header footer der tail r fr : is_bytes der -> der <> [] -> zlen der < 2 ^ 60 ->
  footer = 45 :: fr -> nonzero (header ++ footer ++ tail) ->
  (forall t, find_sub footer (header ++ 10 :: t) 0 = find_sub footer t (zlen header + 1)) ->
  exists u, pem_read_buffer alloc header footer (header ++ 10 :: wrap64 0 (b64 der) ++ footer ++ tail ++ 0 :: r) =
    if alloc (zlen der) then ret (der, u) else err ERR_PEM_ALLOC_FAILED.
Proof.
  intros Hb Hn Hl Hf Nz Ff. set (body := wrap64 0 (b64 der)).
  assert (forall c, In c body -> c = 10 \/ b64_sym c) as Bs.
  { intros c Hc. apply wrap_in in Hc. destruct Hc as [->|Hc]; [left; reflexivity|right]. pose proof (b64_syms der Hb) as S. rewrite Forall_forall in S. auto. }
  unfold nonzero in Nz. rewrite !Forall_app in Nz. destruct Nz as (Nh & Nf & Nt).
  set (s := header ++ 10 :: body ++ footer ++ tail).
  assert (nonzero s) as Ns.
  { unfold s, nonzero. apply Forall_app. split; [assumption|]. constructor; [discriminate|]. rewrite !Forall_app. split; [|split; assumption].
    apply Forall_forall. intros c Hc. apply Bs in Hc. unfold b64_sym in Hc. lia. }
  assert (header ++ 10 :: body ++ footer ++ tail ++ 0 :: r = s ++ 0 :: r) as Ed by (unfold s; rewrite <- !app_assoc; cbn [app]; rewrite <- !app_assoc; reflexivity).
  unfold pem_read_buffer, c_strstr. rewrite Ed. rewrite (c_string_ok s r Ns). cbn [bind].
  rewrite (find_sub_here header s 0) by apply is_prefix_app.
  assert (find_sub footer s 0 = Some (zlen header + 1 + zlen body)) as F2.
  { unfold s. rewrite Ff, Hf, find_sub_skip; [apply find_sub_here; rewrite <- Hf; apply is_prefix_app|].
    intros Hc. apply Bs in Hc. unfold b64_sym in Hc. lia. }
  rewrite F2. pose proof (zlen_nonneg header). pose proof (zlen_nonneg body). pose proof (zlen_nonneg tail). pose proof (zlen_nonneg r). pose proof (zlen_nonneg footer).
  replace (zlen header + 1 + zlen body <=? 0) with false by lia. rewrite Z.add_0_l.
  rewrite <- Ed. rewrite (skip_none header) by (try reflexivity; discriminate). cbn [bind].
  rewrite (skip_none header) by (try reflexivity; discriminate). cbn [bind].
  rewrite rd1_at by reflexivity. cbn [bind Z.eqb negb]. change (10 =? chLF) with true. cbn [negb].
  assert (zlen s = zlen header + 1 + zlen body + zlen footer + zlen tail) as Ls.
  { unfold s. rewrite zlen_app, zlen_cons, !zlen_app. lia. }
  rewrite Ed.
  destruct (skip_in s r (zlen header + 1 + zlen body + zlen footer) chSP ltac:(discriminate) ltac:(lia)) as (e1 & -> & Q1). cbn [bind].
  destruct (skip_in s r e1 chCR ltac:(discriminate) ltac:(lia)) as (e2 & -> & Q2). cbn [bind].
  destruct (skip_in s r e2 chLF ltac:(discriminate) ltac:(lia)) as (e3 & -> & Q3). cbn [bind].
  exists e3. rewrite <- Ed. replace (zlen header + 1 + zlen body - (zlen header + 1)) with (zlen body) by lia.
  assert ((if 22 <=? zlen body then w <- rd (header ++ 10 :: body ++ footer ++ tail ++ 0 :: r) (zlen header + 1) 22;; Ok (bytes_eqb w proc_type) else Ok false) = Ok false) as ->.
  { destruct (22 <=? zlen body) eqn:C; [|reflexivity]. destruct (zsplit body 22 ltac:(lia)) as (w & b' & Eb & Lw & _).
    rewrite Eb. replace (header ++ 10 :: (w ++ b') ++ footer ++ tail ++ 0 :: r) with ((header ++ [10]) ++ w ++ (b' ++ footer ++ tail ++ 0 :: r)) by (rewrite <- !app_assoc; reflexivity).
    rewrite rd_mid by (rewrite ?zlen_app; try reflexivity; lia). cbn [bind].
    assert (bytes_eqb w proc_type = false) as ->; [|reflexivity]. apply bytes_eqb_neq. intros ->.
    assert (In 45 body) as I by (rewrite Eb; apply in_or_app; left; cbn; tauto). apply Bs in I. unfold b64_sym in I. lia. }
  cbn [bind].
  assert (0 < zlen body). { unfold body. rewrite wrap_len by lia. pose proof (b64_pos der Hn). change (Z.of_nat 0) with 0. Z.div_mod_to_equations; lia. }
  replace (zlen header + 1 + zlen body <=? zlen header + 1) with false by lia.
  replace (header ++ 10 :: body ++ footer ++ tail ++ 0 :: r) with ((header ++ [10]) ++ body ++ (footer ++ tail ++ 0 :: r)) by (rewrite <- !app_assoc; reflexivity).
  rewrite rd_mid by (rewrite ?zlen_app; try reflexivity; lia). cbn [bind].
  pose proof (zlen_nonneg der).
  assert (zlen body < 2 ^ 64).
  { unfold body. pose proof (wrap_len_le (b64 der) 0). rewrite b64_len in *. unfold enc_blocks in *. destruct (_ =? 0); Z.div_mod_to_equations; lia. }
  rewrite (decode_b64_query der body 0 Hb Hn (wrap_wrapped _ _)) by assumption. cbn [bind].
  change (ERR_BASE64_BUFFER_TOO_SMALL =? ERR_BASE64_INVALID_CHARACTER) with false. cbn [bind].
  destruct (alloc (zlen der)); cbn [negb]; [|reflexivity].
  rewrite (decode_b64 der body (zeros (Z.to_nat (zlen der))) (zlen der) Hb Hn (wrap_wrapped _ _)) by (rewrite ?zlen_zeros; lia).
  cbn [bind Z.eqb negb]. rewrite firstn_zlen_app by reflexivity. reflexivity.
Qed.
End Alloc2.
