From Verif Require Import Base BaseFacts ShPrintModel ShPrintSpec.
From Coq Require Import Lia.

Lemma digit_table u d : 0 <= d < 16 -> o_digit u d = nth (Z.to_nat d) (if u then upper_digits else lower_digits) 0.
Proof.
  intros L. assert (forall n, (n < 16)%nat -> o_digit u (Z.of_nat n) = nth n (if u then upper_digits else lower_digits) 0) as A.
  { intros n Hn. do 16 (destruct n as [|n]; [destruct u; reflexivity|]). lia. }
  rewrite <- A by lia. rewrite Z2Nat.id by lia. reflexivity.
Qed.
Lemma digit_inj u d d' : 0 <= d < 16 -> 0 <= d' < 16 -> o_digit u d = o_digit u d' -> d = d'.
Proof. unfold o_digit. intros. destruct (Z.ltb_spec d 10), (Z.ltb_spec d' 10), u; lia. Qed.

Lemma put_hex_text b s : 0 <= b < 256 -> o_base s = 16 -> o_showbase s = false -> o_left s = false -> o_width s = 2 -> o_fill s = 48 ->
  o_put b s = mkO 16 false (o_upper s) false 48 0 (o_text s ++ hex_of (o_upper s) [b]).
Proof.
  intros B S0 S1 S2 S3 S4. unfold o_put. rewrite S0, S1, S2, S3, S4. cbn [app hex_of flat_map].
  assert (0 <= b / 16 < 16 /\ 0 <= b mod 16 < 16) as (R1 & R2).
  { repeat split; (apply Z.div_pos || apply Z.div_lt_upper_bound || apply Z.mod_pos_bound); lia. }
  rewrite <- !digit_table by assumption. unfold o_digits. change (16 * 16) with 256.
  replace (b <? 256) with true by (symmetry; apply Z.ltb_lt; lia). rewrite (Z.mod_small (b / 16)) by lia.
  destruct (Z.ltb_spec b 16) as [L|L]; cbn [app zlen length].
  - rewrite (Z.div_small b 16) by lia. reflexivity.
  - reflexivity.
Qed.
Lemma loop_text l : forall s, Forall (fun b => 0 <= b < 256) l -> o_showbase s = false -> o_left s = false -> l <> [] ->
  sh_print_loop l s = mkO 16 false (o_upper s) false 48 0 (o_text s ++ hex_of (o_upper s) l).
Proof.
  induction l as [|b l IH]; intros s B S1 S2 N; [contradiction|]. apply Forall_cons_iff in B. destruct B as (B & Bs). cbn [sh_print_loop].
  rewrite put_hex_text; try assumption; try reflexivity. cbn [o_hex o_setw o_setfill o_base o_upper o_text].
  destruct l as [|c l]; [reflexivity|]. rewrite IH; try assumption; try reflexivity; [|discriminate].
  cbn [o_upper o_text]. f_equal. rewrite <- app_assoc. reflexivity.
Qed.
Lemma bytes_range l : is_bytes l -> Forall (fun b => 0 <= b < 256) l.
Proof. unfold is_bytes. apply Forall_impl. intros a Ha. unfold is_byte in Ha. lia. Qed.
Lemma print_text l s : is_bytes l -> zlen l = 32 -> o_showbase s = false -> o_left s = false ->
  o_text (sh_print l s) = o_text s ++ hex_of (o_upper s) l.
Proof.
  intros B L S1 S2. unfold sh_print. rewrite loop_text; try assumption; [reflexivity|].
  intros ->. discriminate L.
Qed.
Lemma hex_inj u l : forall l', is_bytes l -> is_bytes l' -> hex_of u l = hex_of u l' -> l = l'.
Proof.
  induction l as [|b l IH]; intros [|b' l'] B B' E; try reflexivity; try discriminate E.
  apply bytes_range in B, B'. apply Forall_cons_iff in B. apply Forall_cons_iff in B'. destruct B as (B & Bs), B' as (B' & Bs').
  cbn [hex_of flat_map app] in E. injection E as E1 E2 E3.
  assert (0 <= b / 16 < 16 /\ 0 <= b' / 16 < 16 /\ 0 <= b mod 16 < 16 /\ 0 <= b' mod 16 < 16) as (R1 & R2 & R3 & R4).
  { repeat split; (apply Z.div_pos || apply Z.div_lt_upper_bound || apply Z.mod_pos_bound); lia. }
  rewrite <- !digit_table in E1 by assumption. rewrite <- !digit_table in E2 by assumption.
  apply digit_inj in E1; [|assumption..]. apply digit_inj in E2; [|assumption..].
  f_equal.
  - rewrite (Z.div_mod b 16), (Z.div_mod b' 16) by lia. congruence.
  - apply IH; [unfold is_bytes; revert Bs; apply Forall_impl; intros; unfold is_byte; lia|unfold is_bytes; revert Bs'; apply Forall_impl; intros; unfold is_byte; lia|exact E3].
Qed.
Lemma print_determines l l' s : is_bytes l -> is_bytes l' -> zlen l = 32 -> zlen l' = 32 -> o_showbase s = false -> o_left s = false ->
  o_text (sh_print l s) = o_text (sh_print l' s) -> l = l'.
Proof. intros B B' L L' S1 S2. rewrite !print_text by assumption. intros E. apply app_inv_head in E. exact (hex_inj _ _ _ B B' E). Qed.
Lemma print_flags l s : same_flags s (sh_print l s).
Proof. repeat split. Qed.
Lemma loop_fill l : forall s, l <> [] -> o_fill (sh_print_loop l s) = 48.
Proof. induction l as [|b l IH]; intros s N; [contradiction|]. cbn [sh_print_loop]. destruct l as [|c l]; [reflexivity|]. apply IH. discriminate. Qed.
Lemma print_fill l s : zlen l = 32 -> o_fill (sh_print l s) = 48.
Proof. intros L. unfold sh_print. cbn [o_restore o_fill]. apply loop_fill. intros ->. discriminate L. Qed.
Lemma repeat_bytes v n : is_byte v -> is_bytes (repeat v n).
Proof. intros B. unfold is_bytes. apply Forall_forall. intros x I. apply repeat_spec in I. subst x. exact B. Qed.
