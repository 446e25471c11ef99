(** Proofs about base64.c: decoding as a whole. *)
From Coq Require Import Lia.
From Verif Require Import Base BaseFacts Base64Model Base64Spec Base64Proofs Base64Proofs2 Base64Proofs3.
Local Arguments rd1 : simpl never.
Local Arguments wr : simpl never.

Lemma digits_vals ds : Forall is_digit ds -> exists vs, ds = map b64_char vs /\ Forall is_val vs.
Proof.
  induction 1 as [|d ds (v & Hv & ->) _ (vs & -> & IH)]; [exists []; split; [reflexivity|constructor]|].
  exists (v :: vs). split; [reflexivity|constructor; assumption].
Qed.
Lemma vals_digits vs : Forall is_val vs -> Forall is_digit (map b64_char vs).
Proof. induction 1 as [|v vs Hv _ IH]; constructor; [exists v; split; [assumption|reflexivity]|assumption]. Qed.
Lemma zlen_map {A B} (f : A -> B) l : zlen (map f l) = zlen l.
Proof. unfold zlen. rewrite map_length. reflexivity. Qed.
Lemma zlen_repeat {A} (x : A) k : zlen (repeat x k) = Z.of_nat k.
Proof. unfold zlen. rewrite repeat_length. reflexivity. Qed.
Lemma chars_len vs p : zlen (chars vs p) = zlen vs + Z.of_nat p.
Proof. unfold chars. rewrite zlen_app, zlen_map, zlen_repeat. reflexivity. Qed.
Lemma chars_plain vs p : Forall is_val vs -> plain (chars vs p).
Proof. intros. apply accepted_plain, vals_digits. assumption. Qed.
Lemma strip_len t : zlen (strip t) <= zlen t.
Proof.
  unfold strip. induction t as [|c t IH]; [cbn; lia|]. cbn [filter].
  destruct (negb (white c)); rewrite ?zlen_cons; lia.
Qed.

(** The number of bytes announced for [nd] digits and [p] padding characters *)
Definition dec_size (nd p : Z) : Z := 3 * ((nd + p) / 4) + (nd + p) mod 4 - p.
Definition dec_out (vs : list Z) (p : nat) : bytes := firstn (Z.to_nat (dec_len (zlen vs) (Z.of_nat p))) (regroup (vs ++ repeat 0 p)).

Lemma regroup_len : forall n vs, (length vs <= n)%nat -> zlen (regroup vs) = 3 * (zlen vs / 4).
Proof.
  induction n as [|n IH]; intros vs Hn; destruct vs as [|v0 [|v1 [|v2 [|v3 vs]]]]; try reflexivity; try (cbn [length] in Hn; lia).
  rewrite regroup_group, zlen_app, (IH vs) by (cbn [length] in Hn; lia). change (zlen (regroup [v0; v1; v2; v3])) with 3.
  rewrite !zlen_cons. replace (1 + (1 + (1 + (1 + zlen vs)))) with (zlen vs + 1 * 4) by lia. rewrite Z.div_add by lia. lia.
Qed.

Lemma dec_len_bounds nd p : 0 <= nd -> 0 <= p <= 2 -> 0 <= dec_len nd p <= dec_size nd p /\ dec_len nd p <= 3 * ((nd + p) / 4).
Proof. intros. unfold dec_len, dec_size. Z.div_mod_to_equations; lia. Qed.

Lemma dec_out_len vs p : (p <= 2)%nat -> zlen (dec_out vs p) = dec_len (zlen vs) (Z.of_nat p).
Proof.
  intros Hp. unfold dec_out. pose proof (zlen_nonneg vs).
  destruct (dec_len_bounds (zlen vs) (Z.of_nat p) ltac:(lia) ltac:(lia)) as [B C].
  pose proof (regroup_len _ (vs ++ repeat 0 p) (Nat.le_refl _)) as L. rewrite zlen_app, zlen_repeat in L.
  unfold zlen in *. rewrite firstn_length. lia.
Qed.

Definition finish (src : bytes) (dst : option bytes) (dlen : Z) (vs : list Z) (p : nat) : Z * Z * option bytes :=
  if zlen vs + Z.of_nat p =? 0 then (0, 0, dst)
  else match dst with
    | None => (ERR_BASE64_BUFFER_TOO_SMALL, dec_size (zlen vs) (Z.of_nat p), None)
    | Some d =>
      if dlen <? dec_size (zlen vs) (Z.of_nat p) then (ERR_BASE64_BUFFER_TOO_SMALL, dec_size (zlen vs) (Z.of_nat p), Some d)
      else (0, zlen (dec_out vs p), Some (dec_out vs p ++ skipn (length (dec_out vs p)) d))
    end.

Lemma decode_after_check src dst dlen vs p : zlen src < 2 ^ 64 ->
  dec_check (S (Z.to_nat (zlen src))) src (zlen src) 0 0 0 = Ok (inr (zlen src, zlen vs + Z.of_nat p, Z.of_nat p)) ->
  Forall is_val vs -> (p <= 2)%nat -> strip src = chars vs p ->
  (forall d, dst = Some d -> dlen <= zlen d) ->
  base64_decode dst dlen src (zlen src) = Ok (finish src dst dlen vs p).
Proof.
  intros Hs Hc Hv Hp St Hd. unfold base64_decode, finish. rewrite Hc. cbn [bind].
  destruct (zlen vs + Z.of_nat p =? 0); [reflexivity|]. cbv zeta.
  pose proof (strip_len src) as SL. rewrite St, chars_len in SL. pose proof (zlen_nonneg vs).
  set (N := zlen vs + Z.of_nat p) in *.
  assert (Sz : u64 (u64 (6 * Z.shiftr N 3 + Z.shiftr (6 * Z.land N 7 + 7) 3) - Z.of_nat p) = dec_size (zlen vs) (Z.of_nat p)).
  { rewrite land7, !shr by lia. change (2 ^ 3) with 8. unfold dec_size. fold N.
    assert (E : 6 * (N / 8) + (6 * (N mod 8) + 7) / 8 = 3 * (N / 4) + N mod 4) by (Z.div_mod_to_equations; lia).
    rewrite E. unfold u64. rewrite (Z.mod_small (3 * (N / 4) + N mod 4)) by (Z.div_mod_to_equations; lia).
    apply Z.mod_small. destruct (dec_len_bounds (zlen vs) (Z.of_nat p) ltac:(lia) ltac:(lia)) as [B _]. unfold dec_size in B. fold N in B.
    split; [lia|]. Z.div_mod_to_equations; lia. }
  rewrite Sz. destruct dst as [d|]; [|reflexivity]. destruct (dlen <? _) eqn:Dl; [reflexivity|].
  replace (Z.to_nat (zlen src)) with (length src) by (unfold zlen; lia).
  pose proof (decL_out _ vs p 0 (Nat.le_refl _) Hv Hp ltac:(lia)) as O. fold (dec_out vs p) in O.
  pose proof (dec_out_len vs p Hp) as OL. specialize (Hd d eq_refl).
  destruct (dec_len_bounds (zlen vs) (Z.of_nat p) ltac:(lia) ltac:(lia)) as [B _].
  pose proof (dec_loop_ok src src [] 3 0 0 [] d eq_refl) as DL. rewrite St, O in DL.
  change (zlen []) with 0 in DL. cbn [app] in DL. rewrite DL; [|apply chars_plain; assumption|lia].
  cbn [bind]. rewrite Z.add_0_l. reflexivity.
Qed.

(** Every input is either refused or consists of digits and padding and is decoded accordingly. *)
Lemma decode_cases src dst dlen : is_bytes src -> zlen src < 2 ^ 64 -> (forall d, dst = Some d -> dlen <= zlen d) ->
  base64_decode dst dlen src (zlen src) = Ok (ERR_BASE64_INVALID_CHARACTER, 0, dst) /\
    dec_check (S (Z.to_nat (zlen src))) src (zlen src) 0 0 0 = Ok (inl ERR_BASE64_INVALID_CHARACTER) \/
  exists vs p, Forall is_val vs /\ (p <= 2)%nat /\ strip src = chars vs p /\ (zlen src < 2 ^ 32 -> wrapped (chars vs p) src) /\
    dec_check (S (Z.to_nat (zlen src))) src (zlen src) 0 0 0 = Ok (inr (zlen src, zlen vs + Z.of_nat p, Z.of_nat p)) /\
    base64_decode dst dlen src (zlen src) = Ok (finish src dst dlen vs p).
Proof.
  intros Hb Hs Hd.
  destruct (check_sound (length src) src [] src (S (Z.to_nat (zlen src))) 0 0) as [R|(ds & p & R & D1 & D2 & D3 & D4 & D5)];
    try assumption; try reflexivity; try lia; try (unfold zlen; lia).
  - left. change (zlen []) with 0 in R. unfold base64_decode. rewrite R. split; reflexivity.
  - right. change (zlen []) with 0 in R. destruct (digits_vals ds D1) as (vs & -> & Hv). exists vs, p. rewrite zlen_map in R.
    rewrite !Z.add_0_l in *. assert (p <= 2)%nat by lia. repeat split; try assumption.
    apply decode_after_check; assumption.
Qed.

Lemma decode_accepted src dst dlen vs p : zlen src < 2 ^ 64 -> Forall is_val vs -> (p <= 2)%nat -> wrapped (chars vs p) src ->
  (forall d, dst = Some d -> dlen <= zlen d) ->
  base64_decode dst dlen src (zlen src) = Ok (finish src dst dlen vs p).
Proof.
  intros Hs Hv Hp W Hd.
  pose proof (check_complete _ _ W (map b64_char vs) p [] src (S (Z.to_nat (zlen src))) 0 0 eq_refl (vals_digits vs Hv) eq_refl
    ltac:(unfold zlen; lia) ltac:(lia) ltac:(lia) ltac:(lia) ltac:(lia) ltac:(lia)) as C.
  change (zlen []) with 0 in C. rewrite chars_len, !Z.add_0_l in C.
  apply decode_after_check; try assumption. apply wrapped_strip; [assumption|apply chars_plain; assumption].
Qed.

(** * Decoding an encoding *)
Lemma sextet_val x k : is_val (sextet x k).
Proof. apply Z.mod_pos_bound. lia. Qed.

Lemma group_sextets x : 0 <= x < 16777216 -> group (sextet x 0) (sextet x 1) (sextet x 2) (sextet x 3) = x.
Proof.
  intros H. unfold group, sextet.
  change (64 ^ (3 - 0)) with 262144. change (64 ^ (3 - 1)) with 4096. change (64 ^ (3 - 2)) with 64. change (64 ^ (3 - 3)) with 1.
  Z.div_mod_to_equations; lia.
Qed.

Lemma b64_chars : forall n l, (length l <= n)%nat -> is_bytes l ->
  exists vs p, b64 l = chars vs p /\ Forall is_val vs /\ (p <= 2)%nat /\ dec_out vs p = l /\
    (zlen vs + Z.of_nat p) mod 4 = 0 /\ dec_size (zlen vs) (Z.of_nat p) = zlen l.
Proof.
  induction n as [|n IH]; intros l Hn Hb.
  { destruct l; [|cbn [length] in Hn; lia]. exists [], O. repeat split; try constructor. lia. }
  destruct l as [|a [|b [|c r]]].
  - exists [], O. repeat split; try constructor. lia.
  - pose proof (Forall_inv Hb) as Ba. unfold is_byte in Ba.
    exists [sextet (65536 * a) 0; sextet (65536 * a) 1], 2%nat. repeat split; try reflexivity; try lia.
    + repeat constructor; apply sextet_val.
    + unfold dec_out. change (Z.to_nat _) with 1%nat. cbn [app repeat regroup firstn]. f_equal.
      pose proof (group_sextets (65536 * a) ltac:(lia)) as G.
      replace (sextet (65536 * a) 2) with 0 in G
        by (unfold sextet; change (64 ^ (3 - 2)) with 64; Z.div_mod_to_equations; lia).
      replace (sextet (65536 * a) 3) with 0 in G
        by (unfold sextet; change (64 ^ (3 - 3)) with 1; Z.div_mod_to_equations; lia).
      rewrite G. Z.div_mod_to_equations; lia.
  - pose proof (Forall_inv Hb) as Ba. pose proof (Forall_inv (Forall_inv_tail Hb)) as Bb. unfold is_byte in Ba, Bb.
    set (x := 65536 * a + 256 * b).
    exists [sextet x 0; sextet x 1; sextet x 2], 1%nat. repeat split; try reflexivity; try lia.
    + repeat constructor; apply sextet_val.
    + unfold dec_out. change (Z.to_nat _) with 2%nat. cbn [app repeat regroup firstn].
      pose proof (group_sextets x ltac:(lia)) as G.
      replace (sextet x 3) with 0 in G
        by (unfold sextet; change (64 ^ (3 - 3)) with 1; Z.div_mod_to_equations; lia).
      rewrite G. apply f_equal2; [|apply f_equal2; [|reflexivity]]; Z.div_mod_to_equations; lia.
  - pose proof (Forall_inv Hb) as Ba. pose proof (Forall_inv (Forall_inv_tail Hb)) as Bb.
    pose proof (Forall_inv (Forall_inv_tail (Forall_inv_tail Hb))) as Bc. unfold is_byte in Ba, Bb, Bc.
    pose proof (Forall_inv_tail (Forall_inv_tail (Forall_inv_tail Hb))) as Br.
    destruct (IH r ltac:(cbn [length] in Hn; lia) Br) as (vs & p & E & V & Hp & O & M & Sz).
    set (x := 65536 * a + 256 * b + c).
    exists (sextet x 0 :: sextet x 1 :: sextet x 2 :: sextet x 3 :: vs), p. rewrite !zlen_cons.
    pose proof (zlen_nonneg vs) as Nv.
    assert (Q : 1 + (1 + (1 + (1 + zlen vs))) + Z.of_nat p = zlen vs + Z.of_nat p + 1 * 4) by lia.
    repeat split.
    + cbn [b64]. fold x. rewrite E. reflexivity.
    + repeat (constructor; [apply sextet_val|]). assumption.
    + assumption.
    + unfold dec_out in *. cbn [app]. rewrite regroup_group, !zlen_cons.
      assert (D : dec_len (1 + (1 + (1 + (1 + zlen vs)))) (Z.of_nat p) = 3 + dec_len (zlen vs) (Z.of_nat p))
        by (unfold dec_len; rewrite Q, Z.div_add, Z_mod_plus_full by lia; lia).
      destruct (dec_len_bounds (zlen vs) (Z.of_nat p) ltac:(lia) ltac:(lia)) as [B _].
      rewrite D. replace (Z.to_nat (3 + dec_len (zlen vs) (Z.of_nat p))) with (length (regroup [sextet x 0; sextet x 1; sextet x 2; sextet x 3]) + Z.to_nat (dec_len (zlen vs) (Z.of_nat p)))%nat
        by (change (length (regroup [sextet x 0; sextet x 1; sextet x 2; sextet x 3])) with 3%nat; lia).
      rewrite firstn_app_2, O. cbn [regroup]. rewrite group_sextets by lia. cbn [app].
      apply f_equal2; [|apply f_equal2; [|apply f_equal2; [|reflexivity]]]; unfold x; Z.div_mod_to_equations; lia.
    + rewrite Q, Z_mod_plus_full. assumption.
    + unfold dec_size in *. rewrite Q, Z.div_add, Z_mod_plus_full by lia. lia.
Qed.

Lemma b64_pos l : l <> [] -> 0 < zlen (b64 l).
Proof.
  destruct l as [|a [|b [|c r]]]; intros H; [congruence|reflexivity|reflexivity|]. cbn [b64]. rewrite zlen_app.
  change (zlen [_; _; _; _]) with 4. pose proof (zlen_nonneg (b64 r)). lia.
Qed.

Lemma decode_b64 l t d dlen : is_bytes l -> l <> [] -> wrapped (b64 l) t -> zlen t < 2 ^ 64 -> zlen l <= dlen <= zlen d ->
  base64_decode (Some d) dlen t (zlen t) = Ok (0, zlen l, Some (l ++ skipn (length l) d)).
Proof.
  intros Hb Hne W Ht Hd. destruct (b64_chars _ l (Nat.le_refl _) Hb) as (vs & p & E & V & Hp & O & M & Sz). rewrite E in W.
  rewrite (decode_accepted t (Some d) dlen vs p) by (try assumption; intros ? [= <-]; lia).
  unfold finish. rewrite O, Sz.
  replace (dlen <? zlen l) with false by lia.
  destruct (zlen vs + Z.of_nat p =? 0) eqn:Z0; [|reflexivity]. exfalso.
  assert (zlen (b64 l) = 0) by (rewrite E, chars_len; lia). pose proof (b64_pos l Hne). lia.
Qed.

Lemma decode_b64_query l t dlen : is_bytes l -> l <> [] -> wrapped (b64 l) t -> zlen t < 2 ^ 64 ->
  base64_decode None dlen t (zlen t) = Ok (ERR_BASE64_BUFFER_TOO_SMALL, zlen l, None).
Proof.
  intros Hb Hne W Ht. destruct (b64_chars _ l (Nat.le_refl _) Hb) as (vs & p & E & V & Hp & O & M & Sz). rewrite E in W.
  rewrite (decode_accepted t None dlen vs p) by (try assumption; discriminate).
  unfold finish. rewrite Sz.
  destruct (zlen vs + Z.of_nat p =? 0) eqn:Z0; [|reflexivity]. exfalso.
  assert (zlen (b64 l) = 0) by (rewrite E, chars_len; lia). pose proof (b64_pos l Hne). lia.
Qed.

Lemma decode_b64_small l t d dlen : is_bytes l -> l <> [] -> wrapped (b64 l) t -> zlen t < 2 ^ 64 -> dlen < zlen l -> dlen <= zlen d ->
  base64_decode (Some d) dlen t (zlen t) = Ok (ERR_BASE64_BUFFER_TOO_SMALL, zlen l, Some d).
Proof.
  intros Hb Hne W Ht Hd Hd2. destruct (b64_chars _ l (Nat.le_refl _) Hb) as (vs & p & E & V & Hp & O & M & Sz). rewrite E in W.
  rewrite (decode_accepted t (Some d) dlen vs p) by (try assumption; intros ? [= <-]; lia).
  unfold finish. rewrite Sz. replace (dlen <? zlen l) with true by lia.
  destruct (zlen vs + Z.of_nat p =? 0) eqn:Z0; [|reflexivity]. exfalso.
  assert (zlen (b64 l) = 0) by (rewrite E, chars_len; lia). pose proof (b64_pos l Hne). lia.
Qed.

(** The same at the level of encode's and decode's buffers *)
Lemma encode_query src dlen : 0 < zlen src -> 4 * enc_blocks (zlen src) + 1 < 2 ^ 64 ->
  base64_encode None dlen src (zlen src) = Ok (ERR_BASE64_BUFFER_TOO_SMALL, zlen (b64 src) + 1, None).
Proof.
  intros Hs Hl. unfold base64_encode. replace (zlen src =? 0) with false by lia. fold (enc_blocks (zlen src)).
  assert (0 <= enc_blocks (zlen src)) by (unfold enc_blocks; destruct (_ =? 0); Z.div_mod_to_equations; lia).
  replace ((SIZE_MAX - 1) / 4 <? enc_blocks (zlen src)) with false
    by (symmetry; apply Z.ltb_ge; unfold SIZE_MAX; Z.div_mod_to_equations; lia).
  unfold u64. rewrite (Z.mod_small (enc_blocks (zlen src) * 4)) by lia. rewrite Z.mod_small by lia.
  rewrite b64_len. fold (enc_blocks (zlen src)). do 3 f_equal. lia.
Qed.

Lemma encode_small src d dlen : 0 < zlen src -> 4 * enc_blocks (zlen src) + 1 < 2 ^ 64 -> dlen < zlen (b64 src) + 1 ->
  base64_encode (Some d) dlen src (zlen src) = Ok (ERR_BASE64_BUFFER_TOO_SMALL, zlen (b64 src) + 1, Some d).
Proof.
  intros Hs Hl Hd. unfold base64_encode. replace (zlen src =? 0) with false by lia. fold (enc_blocks (zlen src)).
  assert (0 <= enc_blocks (zlen src)) by (unfold enc_blocks; destruct (_ =? 0); Z.div_mod_to_equations; lia).
  replace ((SIZE_MAX - 1) / 4 <? enc_blocks (zlen src)) with false
    by (symmetry; apply Z.ltb_ge; unfold SIZE_MAX; Z.div_mod_to_equations; lia).
  unfold u64. rewrite (Z.mod_small (enc_blocks (zlen src) * 4)) by lia. rewrite Z.mod_small by lia.
  rewrite b64_len in *. fold (enc_blocks (zlen src)) in *. replace (dlen <? enc_blocks (zlen src) * 4 + 1) with true by lia. do 3 f_equal. lia.
Qed.

Lemma wrapped_refl s : wrapped s s.
Proof. induction s; [apply (wr_end 0)|apply wr_char; assumption]. Qed.

Lemma blocks_len src : 4 * enc_blocks (zlen src) = zlen (b64 src).
Proof. rewrite b64_len. reflexivity. Qed.
