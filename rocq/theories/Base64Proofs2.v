(** Proofs about base64.c: decoding. *)
From Coq Require Import Lia.
From Verif Require Import Base BaseFacts Base64Model Base64Spec Base64Proofs.
Local Arguments rd1 : simpl never.
Local Arguments wr : simpl never.

Definition sp (k : nat) : bytes := repeat 32 k.
Lemma sp_len k : zlen (sp k) = Z.of_nat k.
Proof. unfold zlen, sp. rewrite repeat_length. reflexivity. Qed.

Lemma spaces_split (t : bytes) : exists k, t = sp k \/ exists c t', t = sp k ++ c :: t' /\ c <> 32.
Proof.
  induction t as [|c t (k & IH)].
  - exists O. left. reflexivity.
  - destruct (Z.eq_dec c 32) as [->|Hc].
    + exists (S k). destruct IH as [->|(c' & t' & -> & H)]; [left; reflexivity|]. right. exists c', t'. split; [reflexivity|assumption].
    + exists O. right. exists c, t. split; [reflexivity|assumption].
Qed.

Lemma skip_spaces_ok k : forall fuel src a l slen x, src = a ++ sp k ++ l -> slen = zlen src ->
  (forall c l', l = c :: l' -> c <> 32) -> (k < fuel)%nat -> 0 <= x < 2 ^ 32 ->
  skip_spaces fuel src slen (zlen a) x = Ok (zlen a + Z.of_nat k, u32 (x + Z.of_nat k)).
Proof.
  induction k as [|k IH]; intros fuel src a l slen x E -> Hl Hf Hx; (destruct fuel as [|fuel]; [lia|]).
  - cbn [skip_spaces]. change (sp 0) with (@nil Z) in E. cbn [app] in E. subst src. rewrite zlen_app.
    replace (u32 (x + Z.of_nat 0)) with x by (unfold u32; rewrite Z.mod_small by lia; lia).
    replace (zlen a + Z.of_nat 0) with (zlen a) by lia.
    destruct l as [|c l].
    + rewrite zlen_nil. replace (zlen a <? zlen a + 0) with false by lia. reflexivity.
    + rewrite zlen_cons. pose proof (zlen_nonneg l). replace (zlen a <? zlen a + (1 + zlen l)) with true by lia.
      rewrite rd1_mid by reflexivity. cbn [bind]. specialize (Hl c l eq_refl). replace (c =? chSP) with false by (unfold chSP; lia).
      reflexivity.
  - cbn [skip_spaces]. assert (E1 : src = (a ++ [32]) ++ sp k ++ l) by (rewrite E, <- app_assoc; reflexivity).
    change (sp (S k)) with (32 :: sp k) in E. cbn [app] in E.
    assert (Ls : zlen src = zlen a + (1 + zlen (sp k ++ l))) by (rewrite E, zlen_app, zlen_cons; reflexivity).
    pose proof (zlen_nonneg (sp k ++ l)). replace (zlen a <? zlen src) with true by lia.
    replace (rd1 src (zlen a)) with (Ok 32) by (rewrite E, rd1_mid by reflexivity; reflexivity). cbn [bind]. change (32 =? chSP) with true. cbn match.
    replace (zlen a + 1) with (zlen (a ++ [32])) by (rewrite zlen_snoc; reflexivity).
    rewrite (IH fuel src (a ++ [32]) l) ; try assumption; try reflexivity; try lia.
    + rewrite zlen_snoc. f_equal. f_equal; [lia|]. unfold u32. rewrite Zplus_mod_idemp_l. f_equal. lia.
    + unfold u32. apply Z.mod_pos_bound. lia.
Qed.

(** What the first pass does with the spaces, line breaks and characters at the front of the rest of the input *)
Lemma check_end k fuel src a slen n j : src = a ++ sp k -> slen = zlen src ->
  dec_check (S fuel) src slen (zlen a) n j = Ok (inr (slen, n, j)).
Proof.
  intros E ->. cbn [dec_check]. destruct k as [|k].
  - change (sp 0) with (@nil Z) in E. rewrite app_nil_r in E. rewrite E, Z.ltb_irrefl. reflexivity.
  - assert (L : zlen src = zlen a + Z.of_nat (S k)) by (rewrite E, zlen_app, sp_len; reflexivity).
    replace (zlen a <? zlen src) with true by lia.
    rewrite (skip_spaces_ok (S k) _ src a []); try rewrite app_nil_r; try assumption; try reflexivity; try (pose proof (zlen_nonneg a); lia); try discriminate.
    cbn [bind]. rewrite L, Z.eqb_refl. reflexivity.
Qed.

Lemma check_front k fuel src a c t slen n j : src = a ++ sp k ++ c :: t -> slen = zlen src -> c <> 32 ->
  dec_check (S fuel) src slen (zlen a) n j =
  (let a' := a ++ sp k in
   if (c =? 10) || ((c =? 13) && match t with d :: _ => d =? 10 | [] => false end)
   then dec_check fuel src slen (zlen (a' ++ [c])) n j
   else if negb (u32 (Z.of_nat k) =? 0) then Ok (inl ERR_BASE64_INVALID_CHARACTER)
   else
     let j := if c =? chEQ then u32 (j + 1) else j in
     if (c =? chEQ) && (2 <? j) then Ok (inl ERR_BASE64_INVALID_CHARACTER)
     else if 127 <? c then Ok (inl ERR_BASE64_INVALID_CHARACTER)
     else
       m <- rd1 base64_dec_map c ;;
       if m =? 127 then Ok (inl ERR_BASE64_INVALID_CHARACTER)
       else if (m <? 64) && negb (j =? 0) then Ok (inl ERR_BASE64_INVALID_CHARACTER)
       else dec_check fuel src slen (zlen (a' ++ [c])) (u64 (n + 1)) j).
Proof.
  intros E -> Hc. cbn [dec_check]. cbv zeta.
  assert (L : zlen src = zlen a + Z.of_nat k + 1 + zlen t) by (rewrite E, !zlen_app, sp_len, zlen_cons; lia).
  pose proof (zlen_nonneg a). pose proof (zlen_nonneg t).
  replace (zlen a <? zlen src) with true by lia.
  rewrite (skip_spaces_ok k _ src a (c :: t)); try assumption; try reflexivity; try lia.
  2:{ intros c' l' [= <- <-]. assumption. }
  cbn [bind]. rewrite Z.add_0_l.
  replace (zlen a + Z.of_nat k =? zlen src) with false by lia.
  assert (E1 : src = (a ++ sp k) ++ c :: t) by (rewrite E, app_assoc; reflexivity).
  replace (rd1 src (zlen a + Z.of_nat k)) with (Ok c)
    by (rewrite E1, rd1_mid by (rewrite zlen_app, sp_len; reflexivity); reflexivity).
  cbn [bind].
  assert (P : zlen (((a ++ sp k)) ++ [c]) = zlen a + Z.of_nat k + 1) by (rewrite zlen_snoc, zlen_app, sp_len; reflexivity).
  rewrite P.
  replace (if (2 <=? zlen src - (zlen a + Z.of_nat k)) && (c =? chCR)
    then c1 <- rd1 src (zlen a + Z.of_nat k + 1);; Ok (c1 =? chLF) else Ok false)
    with (Ok ((c =? 13) && match t with d :: _ => d =? 10 | [] => false end)).
  2:{ unfold chCR. destruct (c =? 13) eqn:C13; [|rewrite andb_false_r; reflexivity]. rewrite andb_true_r.
      destruct t as [|d t].
      - rewrite zlen_nil in *. replace (2 <=? zlen src - (zlen a + Z.of_nat k)) with false by lia. reflexivity.
      - rewrite zlen_cons in *. pose proof (zlen_nonneg t). replace (2 <=? zlen src - (zlen a + Z.of_nat k)) with true by lia.
        replace src with (((a ++ sp k) ++ [c]) ++ d :: t) by (rewrite E1, <- !app_assoc; reflexivity).
        rewrite rd1_mid by (rewrite P; reflexivity). reflexivity. }
  cbn [bind]. unfold chLF.
  destruct (c =? 10) eqn:C10.
  - replace (c =? 13) with false by lia. reflexivity.
  - cbn [orb]. destruct ((c =? 13) && _); reflexivity.
Qed.

(** * Characters *)
Definition white (c : Z) : bool := (c =? 13) || (c =? 10) || (c =? 32).
Definition strip (t : bytes) : bytes := filter (fun c => negb (white c)) t.

Lemma strip_sp k : strip (sp k) = [].
Proof. induction k; [reflexivity|]. cbn [sp repeat strip filter]. exact IHk. Qed.
Lemma strip_app a b : strip (a ++ b) = strip a ++ strip b.
Proof. apply filter_app. Qed.

Lemma digit_not_white c : is_digit c -> white c = false /\ 0 <= c < 128 /\ c <> 61 /\ c <> 32.
Proof. intros (v & Hv & ->). destruct (dec_map_char v Hv) as (_ & B & N). unfold white. lia. Qed.

Definition plain (s : bytes) : Prop := Forall (fun c => is_digit c \/ c = 61) s.

Lemma plain_strip s : plain s -> strip s = s.
Proof.
  induction 1 as [|c s Hc _ IH]; [reflexivity|]. unfold strip in *. cbn [filter].
  replace (white c) with false; [cbn [negb]; rewrite IH; reflexivity|].
  destruct Hc as [Hc| ->]; [destruct (digit_not_white c Hc) as [-> _]; reflexivity|reflexivity].
Qed.

Lemma wrapped_strip s t : wrapped s t -> plain s -> strip t = s.
Proof.
  induction 1 as [k|c s t H IH|k s t H IH|k s t H IH]; intros P.
  - apply (strip_sp k).
  - inversion P as [|? ? Pc Ps]; subst. change (c :: t) with ([c] ++ t). rewrite strip_app, IH by assumption.
    rewrite (plain_strip [c]); [reflexivity|]. constructor; [assumption|constructor].
  - change (repeat 32 k) with (sp k). rewrite !strip_app, strip_sp, IH by assumption. reflexivity.
  - change (repeat 32 k) with (sp k). rewrite !strip_app, strip_sp, IH by assumption. reflexivity.
Qed.

Lemma accepted_plain ds p : Forall is_digit ds -> plain (ds ++ repeat 61 p).
Proof.
  intros H. apply Forall_app. split.
  - eapply Forall_impl; [|exact H]. intros; left; assumption.
  - clear. induction p; constructor; [right; reflexivity|assumption].
Qed.

(** * The first pass *)
(** Whatever the input, the pass ends, and what it lets through consists of digits and then padding. *)
Lemma check_sound : forall m t a src fuel n j, (length t <= m)%nat -> src = a ++ t -> is_bytes t -> (length t < fuel)%nat ->
  0 <= n -> n + zlen t < 2 ^ 64 -> 0 <= j <= 2 ->
  (dec_check fuel src (zlen src) (zlen a) n j = Ok (inl ERR_BASE64_INVALID_CHARACTER)) \/
  exists ds p, dec_check fuel src (zlen src) (zlen a) n j = Ok (inr (zlen src, n + zlen ds + Z.of_nat p, j + Z.of_nat p)) /\
    Forall is_digit ds /\ (0 < j -> ds = []) /\ j + Z.of_nat p <= 2 /\ strip t = ds ++ repeat 61 p /\
    (zlen t < 2 ^ 32 -> wrapped (ds ++ repeat 61 p) t).
Proof.
  induction m as [|m IH]; intros t a src fuel n j Hm E Hb Hf Hn Hnt Hj; (destruct fuel as [|fuel]; [lia|]).
  - destruct t; [|cbn [length] in Hm; lia]. right. exists [], O. rewrite (check_end 0 fuel src a) by (assumption || reflexivity).
    rewrite zlen_nil. replace (n + 0 + Z.of_nat 0) with n by lia. replace (j + Z.of_nat 0) with j by lia.
    repeat split; try constructor; try lia. intros _. apply (wr_end 0).
  - destruct (spaces_split t) as (k & [Et|(c & t' & Et & Hc)]).
    { right. exists [], O. rewrite (check_end k fuel src a) by (congruence || reflexivity).
      rewrite zlen_nil. replace (n + 0 + Z.of_nat 0) with n by lia. replace (j + Z.of_nat 0) with j by lia.
      repeat split; try constructor; try lia; [rewrite Et; apply strip_sp|]. intros _. rewrite Et. apply (wr_end k). }
    assert (E' : src = a ++ sp k ++ c :: t') by (rewrite E, Et; reflexivity).
    assert (Hb' : is_bytes (c :: t')) by (rewrite Et in Hb; apply is_bytes_app in Hb; tauto).
    pose proof (Forall_inv Hb') as Bc. pose proof (Forall_inv_tail Hb') as Bt. unfold is_byte in Bc.
    assert (Lt : length t = (k + S (length t'))%nat) by (rewrite Et, app_length; cbn [length]; unfold sp; rewrite repeat_length; reflexivity).
    assert (Zt : zlen t = Z.of_nat k + 1 + zlen t') by (unfold zlen; lia).
    rewrite (check_front k fuel src a c t' (zlen src) n j E' eq_refl Hc). cbv zeta.
    assert (En : src = ((a ++ sp k) ++ [c]) ++ t') by (rewrite E', <- !app_assoc; reflexivity).
    assert (St : strip t = strip [c] ++ strip t')
      by (rewrite Et; change (c :: t') with ([c] ++ t'); rewrite !strip_app, strip_sp; reflexivity).
    destruct ((c =? 10) || _) eqn:W.
    + assert (Wc : strip [c] = []).
      { unfold strip. cbn [filter]. unfold white. destruct (c =? 10) eqn:C10; [rewrite orb_true_r; reflexivity|].
        cbn [orb] in W. apply andb_true_iff in W. destruct W as [-> _]. reflexivity. }
      rewrite Wc in St. cbn [app] in St.
      destruct (IH t' ((a ++ sp k) ++ [c]) src fuel n j) as [R|(ds & p & R & D1 & D2 & D3 & D4 & D5)]; try assumption; try lia.
      { left. exact R. }
      right. exists ds, p. rewrite St. repeat split; try assumption. intros H32.
      specialize (D5 ltac:(lia)). rewrite Et.
      destruct (c =? 10) eqn:C10.
      * apply Z.eqb_eq in C10. subst c. apply (wr_lf k _ _ D5).
      * cbn [orb] in W. apply andb_true_iff in W. destruct W as [W1 W2]. apply Z.eqb_eq in W1. subst c.
        destruct t' as [|d t']; [discriminate|]. apply Z.eqb_eq in W2. subst d.
        (* the rest starts with the line feed of this CR LF *)
        assert (P : plain (ds ++ repeat 61 p)) by (apply accepted_plain; assumption).
        remember (10 :: t') as u eqn:Eu. remember (ds ++ repeat 61 p) as s eqn:Es. destruct D5 as [k'|c' s' u' H|k' s' u' H|k' s' u' H].
        -- destruct k'; discriminate.
        -- injection Eu as -> ->. inversion P as [|? ? [Pc|Pc] _]; subst; [|discriminate].
           destruct (digit_not_white 10 Pc) as [X _]. discriminate.
        -- destruct k'; [|discriminate]. apply (wr_crlf k). assumption.
        -- destruct k'; discriminate.
    + apply orb_false_iff in W. destruct W as [W10 W13].
      destruct (u32 (Z.of_nat k) =? 0) eqn:Hk; cbn [negb]; [|left; reflexivity].
      unfold chEQ. destruct (c =? 61) eqn:C61.
      * apply Z.eqb_eq in C61. subst c. replace (u32 (j + 1)) with (j + 1) by (unfold u32; rewrite Z.mod_small by lia; lia). cbn [andb].
        destruct (2 <? j + 1) eqn:J2; [left; reflexivity|]. change (127 <? 61) with false. cbn match.
        rewrite dec_map_pad. cbn [bind]. change (64 =? 127) with false. change (64 <? 64) with false. cbn [andb].
        unfold u64. rewrite (Z.mod_small (n + 1)) by (pose proof (zlen_nonneg t'); lia).
        destruct (IH t' ((a ++ sp k) ++ [61]) src fuel (n + 1) (j + 1)) as [R|(ds & p & R & D1 & D2 & D3 & D4 & D5)]; try assumption; try lia.
        { left. exact R. }
        right. rewrite (D2 ltac:(lia)) in *. exists [], (S p). rewrite R, zlen_nil.
        repeat split; try assumption; try lia.
        -- apply (f_equal Ok), (f_equal inr). apply f_equal2; [apply f_equal2; [reflexivity|lia]|lia].
        -- rewrite St, D4. reflexivity.
        -- intros H32. rewrite Et. unfold u32 in Hk. rewrite Z.mod_small in Hk by (pose proof (zlen_nonneg t'); lia).
           replace k with O by lia. cbn [sp repeat app]. apply wr_char. apply D5. lia.
      * cbn [andb]. destruct (127 <? c) eqn:C127; [left; reflexivity|].
        destruct (dec_map_inv c ltac:(lia)) as (v & -> & [->|[[-> ->]|[Hv Ec]]]); cbn [bind].
        -- left. reflexivity.
        -- discriminate.
        -- replace (v =? 127) with false by lia. replace (v <? 64) with true by lia. cbn [andb].
           destruct (j =? 0) eqn:J0; cbn [negb]; [|left; reflexivity]. apply Z.eqb_eq in J0. subst j.
           unfold u64. rewrite (Z.mod_small (n + 1)) by (pose proof (zlen_nonneg t'); lia).
           destruct (IH t' ((a ++ sp k) ++ [c]) src fuel (n + 1) 0) as [R|(ds & p & R & D1 & D2 & D3 & D4 & D5)]; try assumption; try lia.
           { left. exact R. }
           assert (Dc : is_digit c) by (exists v; split; assumption).
           right. exists (c :: ds), p. rewrite R, zlen_cons.
           repeat split; try lia.
           ++ apply (f_equal Ok), (f_equal inr). apply f_equal2; [apply f_equal2; [reflexivity|lia]|lia].
           ++ constructor; assumption.
           ++ rewrite St, D4, (plain_strip [c]) by (constructor; [left; assumption|constructor]). reflexivity.
           ++ intros H32. rewrite Et. unfold u32 in Hk. rewrite Z.mod_small in Hk by (pose proof (zlen_nonneg t'); lia).
              replace k with O by lia. cbn [sp repeat app]. apply wr_char. apply D5. lia.
Qed.

(** The pass lets all line-wrapped sequences of digits and padding through. *)
Lemma check_complete s t : wrapped s t -> forall ds p a src fuel n j, s = ds ++ repeat 61 p -> Forall is_digit ds ->
  src = a ++ t -> (length t < fuel)%nat ->
  0 <= n -> n + zlen t < 2 ^ 64 -> 0 <= j -> j + Z.of_nat p <= 2 -> (0 < j -> ds = []) ->
  dec_check fuel src (zlen src) (zlen a) n j = Ok (inr (zlen src, n + zlen s, j + Z.of_nat p)).
Proof.
  induction 1 as [k|c s t H IH|k s t H IH|k s t H IH]; intros ds p a src fuel n j Es Hd E Hf Hn Hnt Hj Hjp Hjd; (destruct fuel as [|fuel]; [lia|]).
  - destruct ds; [|discriminate]. destruct p; [|discriminate]. rewrite (check_end k fuel src a) by (assumption || reflexivity).
    rewrite zlen_nil. replace (n + 0) with n by lia. replace (j + Z.of_nat 0) with j by lia. reflexivity.
  - assert (E' : src = a ++ sp 0 ++ c :: t) by exact E. assert (En : src = ((a ++ sp 0) ++ [c]) ++ t) by (rewrite E', <- !app_assoc; reflexivity).
    cbn [length] in Hf. rewrite zlen_cons in *. pose proof (zlen_nonneg t).
    destruct ds as [|d ds].
    + destruct p as [|p]; [discriminate|]. injection Es as -> Es.
      rewrite (check_front 0 fuel src a 61 t (zlen src) n j E' eq_refl) by lia. cbv zeta.
      change ((61 =? 10) || _) with false. change (negb (u32 (Z.of_nat 0) =? 0)) with false. cbn match.
      change (61 =? chEQ) with true. cbn match. cbn [andb]. unfold u32. rewrite !(Z.mod_small (j + 1)) by lia.
      replace (2 <? j + 1) with false by lia. change (127 <? 61) with false. cbn match.
      rewrite dec_map_pad. cbn [bind]. change (64 =? 127) with false. change (64 <? 64) with false. cbn [andb].
      unfold u64. rewrite (Z.mod_small (n + 1)) by lia.
      rewrite (IH [] p ((a ++ sp 0) ++ [61]) src fuel (n + 1) (j + 1)); try assumption; try lia; try constructor.
      apply (f_equal Ok), (f_equal inr). apply f_equal2; [apply f_equal2; [reflexivity|lia]|lia].
    + injection Es as -> Es. pose proof (Forall_inv Hd) as Dd. pose proof (Forall_inv_tail Hd) as Hd'.
      destruct (digit_not_white d Dd) as (W & B & N61 & N32). destruct Dd as (v & Hv & Ev).
      destruct (dec_map_char v Hv) as (M & _ & _). rewrite <- Ev in M. unfold white in W.
      rewrite (check_front 0 fuel src a d t (zlen src) n j E' eq_refl) by lia. cbv zeta.
      replace (d =? 10) with false by lia. replace (d =? 13) with false by lia. cbn [orb andb].
      change (negb (u32 (Z.of_nat 0) =? 0)) with false. cbn match. unfold chEQ. replace (d =? 61) with false by lia. cbn [andb].
      replace (127 <? d) with false by lia. rewrite M. cbn [bind]. replace (v =? 127) with false by lia.
      assert (j = 0) as -> by (destruct (Z.eq_dec j 0); [assumption|]; specialize (Hjd ltac:(lia)); discriminate).
      change (negb (0 =? 0)) with false. rewrite andb_false_r.
      unfold u64. rewrite (Z.mod_small (n + 1)) by lia.
      rewrite (IH ds p ((a ++ sp 0) ++ [d]) src fuel (n + 1) 0); try assumption; try lia.
      apply (f_equal Ok), (f_equal inr). apply f_equal2; [apply f_equal2; [reflexivity|lia]|lia].
  - assert (E' : src = a ++ sp k ++ 10 :: t) by exact E. assert (En : src = ((a ++ sp k) ++ [10]) ++ t) by (rewrite E', <- !app_assoc; reflexivity).
    rewrite !app_length in Hf. cbn [length] in Hf. rewrite !zlen_app, zlen_cons, zlen_nil in Hnt.
    rewrite (check_front k fuel src a 10 t (zlen src) n j E' eq_refl) by lia. cbv zeta.
    change (10 =? 10) with true. cbn [orb].
    apply (IH ds p ((a ++ sp k) ++ [10]) src fuel n j); try assumption; try lia.
    pose proof (zlen_nonneg (repeat 32 k)). lia.
  - assert (E' : src = a ++ sp k ++ 13 :: 10 :: t) by exact E.
    assert (En : src = ((a ++ sp k) ++ [13]) ++ sp 0 ++ 10 :: t) by (rewrite E', <- !app_assoc; reflexivity).
    assert (Em : src = ((((a ++ sp k) ++ [13]) ++ sp 0) ++ [10]) ++ t) by (rewrite E', <- !app_assoc; reflexivity).
    rewrite !app_length in Hf. cbn [length] in Hf. rewrite !zlen_app, !zlen_cons, zlen_nil in Hnt.
    rewrite (check_front k fuel src a 13 (10 :: t) (zlen src) n j E' eq_refl) by lia. cbv zeta.
    change (13 =? 10) with false. change (13 =? 13) with true. change (10 =? 10) with true. cbn [orb andb].
    destruct fuel as [|fuel]; [lia|].
    rewrite (check_front 0 fuel src ((a ++ sp k) ++ [13]) 10 t (zlen src) n j En eq_refl) by lia. cbv zeta.
    change (10 =? 10) with true. cbn [orb].
    apply (IH ds p ((((a ++ sp k) ++ [13]) ++ sp 0) ++ [10]) src fuel n j); try assumption; try lia.
    pose proof (zlen_nonneg (repeat 32 k)). lia.
Qed.
