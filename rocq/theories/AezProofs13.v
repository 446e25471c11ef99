(** aez.c with authentication bytes: the functions without buffers' last bytes (hash, short messages). *)
From Verif Require Import Base BaseFacts AezModel AezProofs AezProofs2 AezProofs3 AezProofs4 AezProofs5 AezProofs6 AezProofs7 AezAuthModel.
From Coq Require Import Lia.

Lemma rd_under a b pos n r : rd a pos n = Ok r -> rd (a ++ b) pos n = Ok r.
Proof.
  unfold rd. destruct (_ && _) eqn:E; [|discriminate]. intros H. assert (0 <= pos /\ 0 <= n /\ pos + n <= zlen a) as (H1 & H2 & H3) by lia.
  rewrite zlen_app. pose proof (zlen_nonneg b). replace ((0 <=? pos) && (0 <=? n) && (pos + n <=? zlen a + zlen b)) with true by lia.
  rewrite <- H. f_equal. unfold window. rewrite skipn_app, firstn_app. unfold zlen in H3. rewrite skipn_length.
  replace (Z.to_nat n - (length a - Z.to_nat pos))%nat with 0%nat by lia. cbn [firstn]. apply app_nil_r.
Qed.
Lemma load_under a b pos r : load a pos = Ok r -> load (a ++ b) pos = Ok r.
Proof. apply rd_under. Qed.
Lemma load_partial_under a b pos n r : load_partial a pos n = Ok r -> load_partial (a ++ b) pos n = Ok r.
Proof.
  unfold load_partial. destruct (rd a pos n) as [x| | | |] eqn:E; try discriminate. rewrite (rd_under _ _ _ _ _ E). auto.
Qed.
(** the buffer of cipher_aez_tiny *)
Lemma buf_under o g : is_bytes o -> (1 <= length o <= 31)%nat ->
  (if 16 <=? zlen o then
     b0 <- load (o ++ g) 0 ;; b1 <- load_partial (o ++ g) 16 (zlen o - 16) ;; b1 <- zero_pad b1 (32 - zlen o) ;; Ok (b0 ++ b1)
   else b0 <- load_partial (o ++ g) 0 (zlen o) ;; b0 <- zero_pad b0 (16 - zlen o) ;; Ok (b0 ++ zero)) = Ok (o ++ zeros (32 - length o)).
Proof.
  intros Hb Hl. rewrite <- (buf_ok o Hb Hl). pose proof (buf_ok o Hb Hl) as E. destruct (16 <=? zlen o).
  - destruct (load o 0) as [b0| | | |] eqn:E0; try discriminate. rewrite (load_under _ g _ _ E0). cbn [bind] in E |- *.
    destruct (load_partial o 16 (zlen o - 16)) as [b1| | | |] eqn:E1; try discriminate. rewrite (load_partial_under _ g _ _ _ E1). reflexivity.
  - destruct (load_partial o 0 (zlen o)) as [b1| | | |] eqn:E1; try discriminate. rewrite (load_partial_under _ g _ _ _ E1). reflexivity.
Qed.

Section Tiny.
  Variable R : bytes -> bytes.

  (** encryption of a short message is enciphering of the message with zero bytes *)
  Lemma tiny_a_enc c t P g (a : nat) dst : is_bytes P -> (1 <= length P)%nat -> (length P + a <= 31)%nat ->
    tiny_a R c t 0 (P ++ g) (zlen P) (Z.of_nat a) dst = cipher_aez_tiny R c t 0 (P ++ zeros a) (zlen (P ++ zeros a)) dst.
  Proof.
    intros BP LP LT. unfold tiny_a, cipher_aez_tiny. cbv zeta. rewrite buf_under by (assumption || lia).
    rewrite buf_ok; [|apply is_bytes_app; split; [assumption|apply is_bytes_zeros]|rewrite app_length, zeros_length; lia].
    change (0 =? 0) with true. cbv iota. change (negb true) with false. rewrite !andb_false_l.
    assert (u32 (zlen P + Z.of_nat a) = zlen (P ++ zeros a)) as E.
    { rewrite zlen_app, zlen_zeros. unfold u32, zlen. apply Z.mod_small. lia. }
    rewrite E.
    assert ((P ++ zeros a) ++ zeros (32 - length (P ++ zeros a)) = P ++ zeros (32 - length P)) as ->.
    { rewrite <- app_assoc, <- zeros_app, app_length, zeros_length. do 2 f_equal. lia. }
    reflexivity.
  Qed.

  (** decryption of a short message: deciphering, then the last bytes are compared with zero *)
  Lemma tiny_a_dec c t C (a : nat) dst X dst' : is_bytes C -> (a <= 16)%nat -> (a < length C <= 31)%nat -> zlen dst = zlen C - Z.of_nat a ->
    cipher_aez_tiny R c t 1 C (zlen C) dst' = Ok (0, X) -> zlen dst' = zlen C ->
    tiny_a R c t 1 C (zlen C) (Z.of_nat a) dst
    = if is_zero (skipn (length C - a) X) then Ok (0, firstn (length C - a) X) else Ok (-1, dst).
  Proof.
    intros BC Ha LC Hd. assert (zlen C = Z.of_nat (length C)) as ZC by reflexivity.
    unfold tiny_a, cipher_aez_tiny. cbv zeta. change (1 =? 0) with false. cbv iota. change (negb false) with true.
    set (B := if 16 <=? zlen C then _ else _). destruct B as [buf| | | |]; try discriminate. cbn [bind].
    destruct (load buf 0) as [l| | | |]; try discriminate. cbn [bind].
    destruct (load buf (zlen C / 2)) as [r| | | |]; try discriminate. cbn [bind].
    destruct (load pad (16 - zlen C / 2)) as [mf| | | |]; try discriminate. cbn [bind].
    destruct (load pad (32 - zlen C / 2)) as [m1| | | |]; try discriminate. cbn [bind].
    match goal with |- bind ?e _ = _ -> _ => destruct e as [[[m2 m3] r2]| | | |]; try discriminate end. cbn [bind].
    match goal with |- context [let '(t, rnds) := ?e in _] => destruct e as [t2 rnds] end.
    match goal with |- bind ?e _ = _ -> _ => destruct e as [[one rcon]| | | |]; try discriminate end. cbn [bind].
    destruct (load pad 32) as [p80| | | |]; try discriminate. cbn [bind].
    match goal with |- context [feistel R ?n ?c ?t ?f ?g ?o ?l ?r ?k] => destruct (feistel R n c t f g o l r k) as [l2 r3] end.
    destruct (wr buf 0 r3) as [buf2| | | |]; try discriminate. cbn [bind].
    match goal with |- bind ?e _ = _ -> _ => destruct e as [l3| | | |]; try discriminate end. cbn [bind].
    destruct (wr buf2 (zlen C / 2) l3) as [buf3| | | |]; try discriminate. cbn [bind andb].
    destruct (rd buf3 0 (zlen C)) as [b| | | |] eqn:Er; try discriminate. cbn [bind].
    intros E Hd'.
    assert (zlen b = zlen C) as Lb.
    { revert Er. unfold rd. destruct (_ && _) eqn:Q; [|discriminate]. intros H; injection H as <-. unfold window, zlen in *. rewrite firstn_length, skipn_length. lia. }
    rewrite wr_all in E by lia. cbn [bind] in E. injection E as <-.
    assert (exists z, buf3 = b ++ z) as [z ->].
    { revert Er. unfold rd. destruct (_ && _); [|discriminate]. intros H; injection H as <-. unfold window. cbn [Z.to_nat skipn].
      exists (skipn (Z.to_nat (zlen C)) buf3). symmetry. apply firstn_skipn. }
    assert (length b = length C) as Lb' by (unfold zlen in Lb; lia).
    assert (u32 (zlen C - Z.of_nat a) = zlen C - Z.of_nat a) as -> by (unfold u32; apply Z.mod_small; lia).
    destruct (zsplit b (zlen C - Z.of_nat a)) as (X1 & X2 & -> & L1 & _); [lia|].
    rewrite app_length in Lb'. assert (length X1 = (length C - a)%nat) as L1' by (unfold zlen in L1; lia). assert (length X2 = a) as L2 by lia.
    rewrite firstn_app, skipn_app, L1', Nat.sub_diag, firstn_all2, skipn_all2 by lia. cbn [firstn skipn app]. rewrite app_nil_r, <- app_assoc.
    assert (load_partial (X1 ++ X2 ++ z) (zlen C - Z.of_nat a) (Z.of_nat a) = Ok (X2 ++ zeros (16 - a))) as ->.
    { rewrite app_assoc, <- L2. apply load_partial_under. apply load_partial_ok; [lia|unfold zlen; lia|lia]. }
    cbn [bind].
    assert (is_zero (X2 ++ zeros (16 - a)) = is_zero X2) as ->.
    { unfold is_zero. rewrite forallb_app. replace (forallb (fun b => b =? 0) (zeros (16 - a))) with true; [apply andb_true_r|].
      symmetry. apply forallb_forall. intros x Hx. apply repeat_spec in Hx. subst; reflexivity. }
    destruct (is_zero X2); [|reflexivity]. cbn [negb].
    rewrite (rd_prefix X1 (X2 ++ z)) by lia.
    cbn [bind]. rewrite wr_all by (unfold zlen in *; lia). reflexivity.
  Qed.
End Tiny.
