(** Proofs about base64.c: the statements of the properties. *)
From Coq Require Import Lia.
From Verif Require Import Base BaseFacts Base64Model Base64Spec Base64Proofs Base64Proofs2 Base64Proofs3 Base64Proofs4.
Local Arguments rd1 : simpl never.
Local Arguments wr : simpl never.

Lemma nonempty_pos (l : bytes) : l <> [] -> 0 < zlen l.
Proof. destruct l; [congruence|]. rewrite zlen_cons. pose proof (zlen_nonneg l). lia. Qed.

Lemma encode_is_b64 (src buf : bytes) dlen : is_bytes src -> src <> [] ->
  zlen (b64 src) + 1 <= dlen <= zlen buf -> dlen < 2 ^ 64 ->
  base64_encode (Some buf) dlen src (zlen src) =
  Ok (0, zlen (b64 src), Some (b64 src ++ [0] ++ skipn (S (length (b64 src))) buf)).
Proof. intros. apply encode_ok; try assumption; try rewrite blocks_len; lia. Qed.

Lemma encode_announces (src : bytes) dst dlen : src <> [] -> zlen (b64 src) + 1 < 2 ^ 64 ->
  dst = None \/ dlen < zlen (b64 src) + 1 ->
  base64_encode dst dlen src (zlen src) = Ok (ERR_BASE64_BUFFER_TOO_SMALL, zlen (b64 src) + 1, dst).
Proof.
  intros Hn Hl H. pose proof (nonempty_pos src Hn). destruct dst as [d|].
  - destruct H as [H|H]; [discriminate|]. apply encode_small; try assumption. rewrite blocks_len. lia.
  - apply encode_query; [assumption|]. rewrite blocks_len. lia.
Qed.

Lemma decode_wrapped (l t d : bytes) dlen : is_bytes l -> wrapped (b64 l) t -> zlen t < 2 ^ 64 -> zlen l <= dlen <= zlen d ->
  base64_decode (Some d) dlen t (zlen t) = Ok (0, zlen l, Some (l ++ skipn (length l) d)).
Proof.
  intros Hb W Ht Hd. destruct l as [|a l]; [|apply decode_b64; (assumption || discriminate)].
  rewrite (decode_accepted t (Some d) dlen [] 0); try assumption; try (constructor; fail); try lia; try (intros ? [= <-]; lia). 
Qed.

Lemma decode_announces (l t : bytes) dst dlen : is_bytes l -> l <> [] -> wrapped (b64 l) t -> zlen t < 2 ^ 64 ->
  (forall d, dst = Some d -> dlen < zlen l /\ dlen <= zlen d) ->
  base64_decode dst dlen t (zlen t) = Ok (ERR_BASE64_BUFFER_TOO_SMALL, zlen l, dst).
Proof.
  intros Hb Hn W Ht Hd. destruct dst as [d|].
  - destruct (Hd d eq_refl). apply decode_b64_small; assumption.
  - apply decode_b64_query; assumption.
Qed.

Lemma encode_decode (src buf out : bytes) : is_bytes src -> src <> [] ->
  zlen (b64 src) + 1 <= zlen buf < 2 ^ 64 -> zlen src <= zlen out ->
  exists n buf', base64_encode (Some buf) (zlen buf) src (zlen src) = Ok (0, n, Some buf') /\
    base64_decode (Some out) (zlen out) (firstn (Z.to_nat n) buf') n = Ok (0, zlen src, Some (src ++ skipn (length src) out)).
Proof.
  intros Hb Hn Hl Ho. eexists _, _. rewrite encode_is_b64 by (try assumption; lia). split; [reflexivity|].
  rewrite firstn_zlen_app by reflexivity. apply decode_wrapped; try assumption; try lia. apply wrapped_refl.
Qed.

Lemma finish_out_le vs p : (p <= 2)%nat -> 0 <= zlen (dec_out vs p) <= dec_size (zlen vs) (Z.of_nat p).
Proof.
  intros Hp. rewrite dec_out_len by assumption. pose proof (zlen_nonneg vs).
  apply (dec_len_bounds (zlen vs) (Z.of_nat p)); lia.
Qed.

Lemma decode_bounded (src d : bytes) dlen : is_bytes src -> zlen src < 2 ^ 64 -> 0 <= dlen <= zlen d ->
  exists r0 n r o d',
    base64_decode None 0 src (zlen src) = Ok (r0, n, None) /\
    base64_decode (Some d) dlen src (zlen src) = Ok (r, o, Some d') /\
    length d' = length d /\ skipn (Z.to_nat n) d' = skipn (Z.to_nat n) d /\
    (r = 0 -> 0 <= o <= n /\ n <= dlen) /\ (r <> 0 -> d' = d) /\ (r0 = ERR_BASE64_INVALID_CHARACTER <-> r = ERR_BASE64_INVALID_CHARACTER) /\
    (r = 0 \/ r = ERR_BASE64_INVALID_CHARACTER \/ (r = ERR_BASE64_BUFFER_TOO_SMALL /\ dlen < n /\ o = n)).
Proof.
  intros Hb Hs Hd.
  destruct (decode_cases src (Some d) dlen Hb Hs) as [[E C]|(vs & p & V & Hp & St & W & C & E)]; [intros ? [= <-]; lia| |].
  - exists ERR_BASE64_INVALID_CHARACTER, 0, ERR_BASE64_INVALID_CHARACTER, 0, d.
    split; [unfold base64_decode; rewrite C; reflexivity|]. split; [exact E|]. repeat split; try (intros; discriminate); try lia.
  - pose proof (decode_after_check src None 0 vs p Hs C V Hp St ltac:(discriminate)) as E0. rewrite E, E0. unfold finish.
    pose proof (finish_out_le vs p Hp) as Ho. pose proof (zlen_nonneg vs).
    destruct (zlen vs + Z.of_nat p =? 0).
    + exists 0, 0, 0, 0, d. repeat split; try (intros; discriminate); try lia. 
    + destruct (dlen <? dec_size (zlen vs) (Z.of_nat p)) eqn:Dl.
      * eexists _, _, _, _, _. split; [reflexivity|]. split; [reflexivity|].
        repeat split; try (intros; discriminate). right. right. repeat split. lia.
      * eexists _, _, _, _, _. split; [reflexivity|]. split; [reflexivity|].
        assert (Lo : (length (dec_out vs p) <= length d)%nat) by (unfold zlen in *; lia).
        repeat split; try (intros; discriminate); try lia.
        -- rewrite app_length, skipn_length. lia.
        -- rewrite skipn_app. rewrite skipn_all2 by (unfold zlen in *; lia). cbn [app]. rewrite skipn_skipn_add. f_equal.
           unfold zlen in *. lia.
Qed.

Lemma decoded_bytes (vs : list Z) (p : nat) (t d : bytes) dlen : Forall (fun v => 0 <= v < 64) vs -> (p <= 2)%nat ->
  wrapped (map b64_char vs ++ repeat b64_pad p) t -> zlen t < 2 ^ 64 -> 3 * zlen vs / 4 + 3 <= dlen <= zlen d ->
  exists o, base64_decode (Some d) dlen t (zlen t) =
      Ok (0, o, Some (firstn (Z.to_nat o) (regroup (vs ++ repeat 0 p)) ++ skipn (Z.to_nat o) d)) /\
    o = 3 * ((zlen vs + Z.of_nat p) / 4) - Z.max 0 (Z.of_nat p - (zlen vs + Z.of_nat p) mod 4).
Proof.
  intros V Hp W Ht Hd. exists (dec_len (zlen vs) (Z.of_nat p)). split; [|reflexivity].
  rewrite (decode_accepted t (Some d) dlen vs p Ht V Hp W) by (intros ? [= <-]; lia). unfold finish.
  pose proof (dec_out_len vs p Hp) as L. fold (dec_out vs p). pose proof (zlen_nonneg vs).
  destruct (zlen vs + Z.of_nat p =? 0) eqn:Z0.
  - destruct vs; [|rewrite zlen_cons in *; pose proof (zlen_nonneg vs); lia]. destruct p; [reflexivity|rewrite zlen_nil in Z0; lia].
  - replace (dlen <? dec_size (zlen vs) (Z.of_nat p)) with false.
    2:{ symmetry. apply Z.ltb_ge. unfold dec_size. Z.div_mod_to_equations; lia. }
    rewrite L. rewrite <- L. unfold zlen at 3. rewrite Nat2Z.id. reflexivity.
Qed.

Lemma accepts_iff (t : bytes) : is_bytes t -> zlen t < 2 ^ 32 ->
  ((exists r o, base64_decode None 0 t (zlen t) = Ok (r, o, None) /\ r <> ERR_BASE64_INVALID_CHARACTER) <->
   (exists ds p, accepted t ds p)).
Proof.
  intros Hb Ht. split.
  - intros (r & o & E & Hr). destruct (decode_cases t None 0 Hb ltac:(lia) ltac:(discriminate)) as [[E' _]|(vs & p & V & Hp & St & W & _ & _)].
    + rewrite E' in E. injection E as <- <-. congruence.
    + exists (map b64_char vs), p. split; [apply vals_digits; assumption|]. split; [assumption|]. apply W. assumption.
  - intros (ds & p & D & Hp & W). destruct (digits_vals ds D) as (vs & -> & V).
    rewrite (decode_accepted t None 0 vs p) by (try assumption; (lia || discriminate)). unfold finish.
    destruct (_ =? 0); eexists _, _; split; reflexivity || discriminate.
Qed.

Lemma truncated_accepted : exists (t : bytes), is_bytes t /\
  (exists o d', base64_decode (Some (zeros 4)) 4 t (zlen t) = Ok (0, o, Some d')) /\
  (forall l, is_bytes l -> ~ wrapped (b64 l) t).
Proof.
  exists [81; 81; 81]. split; [repeat constructor; lia|]. split.
  - exists 0, (zeros 4). vm_compute. reflexivity.
  - intros l Hl W. destruct (b64_chars _ l (Nat.le_refl _) Hl) as (vs & p & E & V & Hp & _ & M & _).
    assert (P : plain (b64 l)) by (rewrite E; apply chars_plain; assumption).
    pose proof (wrapped_strip _ _ W P) as S. change (strip [81; 81; 81]) with [81; 81; 81] in S.
    rewrite <- chars_len, <- E, <- S in M. discriminate.
Qed.
