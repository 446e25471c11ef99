(** Lemmas for C144. *)
From Coq Require Import Lia.
From Verif Require Import Base BaseFacts KeyVal HmacModel HmacSpec HmacProofs2 WrapperModel WrapperSpec WrapperProofs WrapperProofs2 WrapAllocModel.

Lemma wa_u64 x : 0 <= x < 2 ^ 64 -> u64 x = x.
Proof. intros. unfold u64. apply Z.mod_small. assumption. Qed.
Lemma wa_max : STREAM_MAX = 2 ^ 38. Proof. reflexivity. Qed.

Lemma wrap_a_ok H stream ml g alloc : (forall y, zlen (H y) = 64) -> sized g -> (forall k n l, length (stream k n l) = l) ->
  forall C tk ek l l' l2 l2' c s iv, zlen tk = 32 -> zlen iv = 16 -> zlen (w_ctx C) < 2 ^ 32 -> serializes C c s ->
  alloc (17 + zlen (w_ctx C) + zlen s) = true ->
  exists c' c'',
    let w' := mk_wrapper (VKey tk ml) (VKey ek ml) in
    wrap_a H stream ml g alloc C (mk_wrapper (VKey tk l) (VKey ek l')) c iv = (c', (w', None, Ok (representation H stream tk ek C iv s))) /\
    unwrap_a H stream ml g alloc C (mk_wrapper (VKey tk l2) (VKey ek l2')) (representation H stream tk ek C iv s) =
      (zeros (Z.to_nat (zlen s + 28)), (w', None, Ok c'')) /\
    snd (w_ser C c'') = Ok s.
Proof.
  intros LH Sg Ls C tk ek l l' l2 l2' c s iv Ltk Liv Lc Sr A.
  destruct (unwrap_wrap H stream ml g LH Sg Ls C tk ek l l' l2 l2' c s iv Ltk Liv Lc Sr) as (c' & c'' & E1 & E2 & E3 & E4 & _).
  exists c', c''. cbv zeta in *. destruct Sr as (Sz & Rg & _).
  assert (P : 0 <= zlen (w_ctx C)) by (unfold zlen; lia).
  assert (U : u64 (kRandomIVSize + zlen s + zlen (w_ctx C) + 1) = 17 + zlen (w_ctx C) + zlen s).
  { rewrite wa_u64; unfold kRandomIVSize; [lia|]. rewrite wa_max in Rg. lia. }
  repeat split; [| |exact E4].
  - unfold wrap_a. rewrite Sz. cbv zeta. rewrite U, A. exact E1.
  - unfold unwrap_a. cbv zeta. rewrite E2. replace (zlen s + 28 <=? w_kCiphertextExpansion) with false
      by (symmetry; apply Z.leb_gt; unfold w_kCiphertextExpansion, kTagSize, kRandomIVSize; lia).
    replace (zlen s + 28 - w_kCiphertextExpansion) with (zlen s) by (unfold w_kCiphertextExpansion, kTagSize, kRandomIVSize; lia).
    rewrite U, A. exact E3.
Qed.

Lemma wrap_a_null H stream ml g alloc C w c iv n : w_size C c = Ok n -> 0 <= n < 2 ^ 63 -> zlen (w_ctx C) < 2 ^ 32 ->
  alloc (17 + zlen (w_ctx C) + n) = false -> wrap_a H stream ml g alloc C w c iv = (c, (w, None, UB)).
Proof.
  intros Sz Rn Lc A. assert (P : 0 <= zlen (w_ctx C)) by (unfold zlen; lia).
  unfold wrap_a. rewrite Sz. cbv zeta. rewrite wa_u64 by (unfold kRandomIVSize; lia).
  replace (kRandomIVSize + n + zlen (w_ctx C) + 1) with (17 + zlen (w_ctx C) + n) by (unfold kRandomIVSize; lia). rewrite A. reflexivity.
Qed.
Lemma unwrap_a_eq H stream ml g alloc C w r : 28 < zlen r < 2 ^ 63 -> zlen (w_ctx C) < 2 ^ 32 ->
  unwrap_a H stream ml g alloc C w r = if alloc (zlen (w_ctx C) + zlen r - 11) then unwrap H stream ml g C w r else (r, (w, None, UB)).
Proof.
  intros Lr Lc. assert (P : 0 <= zlen (w_ctx C)) by (unfold zlen; lia).
  unfold unwrap_a. cbv zeta. unfold w_kCiphertextExpansion, kTagSize, kRandomIVSize.
  replace (zlen r <=? 12 + 16) with false by (symmetry; apply Z.leb_gt; lia).
  rewrite wa_u64 by lia. replace (16 + (zlen r - (12 + 16)) + zlen (w_ctx C) + 1) with (zlen (w_ctx C) + zlen r - 11) by lia. reflexivity.
Qed.
Lemma unwrap_a_short H stream ml g alloc C w r : zlen r <= 28 -> unwrap_a H stream ml g alloc C w r = (r, (w, None, Throw InvalidArgument)).
Proof. intros L. unfold unwrap_a, w_kCiphertextExpansion, kTagSize, kRandomIVSize. replace (zlen r <=? 12 + 16) with true by (symmetry; apply Z.leb_le; lia). reflexivity. Qed.

(** Only good representations *)
Lemma unwraps_good H stream ml g cap : (forall y, zlen (H y) = 64) -> sized g -> (forall k n l, length (stream k n l) = l) ->
  forall C tk ek used, zlen tk = 32 -> zlen (w_ctx C) < 2 ^ 32 -> forall l a b,
  Forall (fun p => zlen (fst p) = 16 /\ (exists c, serializes C c (snd p)) /\ used + (17 + zlen (w_ctx C) + zlen (snd p)) <= cap) l ->
  Forall2 (fun p o => exists c, o = Ok c /\ snd (w_ser C c) = Ok (snd p)) l
    (unwraps H stream ml g cap C (mk_wrapper (VKey tk a) (VKey ek b)) used (map (fun p => representation H stream tk ek C (fst p) (snd p)) l)).
Proof.
  intros LH Sg Ls C tk ek used Ltk Lc. induction l as [|p l IH]; intros a b F; cbn [map unwraps]; [constructor|].
  inversion F as [|? ? (Liv & (c & Sr) & Room) F' ]; subst.
  destruct (wrap_a_ok H stream ml g (fun n => used + n <=? cap) LH Sg Ls C tk ek a b a b c (snd p) (fst p) Ltk Liv Lc Sr) as (c' & c'' & _ & E & Es).
  { apply Z.leb_le. exact Room. }
  cbv zeta in E. rewrite E. constructor; [exists c''; split; [reflexivity|exact Es]|]. apply IH. exact F'.
Qed.

(** Forged ones *)
Lemma unwraps_forged H stream ml g cap C w r b v :
  zlen (w_ctx C) < 2 ^ 32 -> 28 < zlen r < 2 ^ 63 -> zlen r <= zlen v < 2 ^ 63 ->
  unwrap H stream ml g C w r = (r, (w, Some b, Throw RuntimeError)) -> zlen b = zlen (w_ctx C) + zlen r - 11 ->
  forall n used, cap - used < (Z.of_nat n + 1) * zlen b -> used + Z.of_nat n * zlen b <= cap ->
  unwraps H stream ml g cap C w used (repeat r n ++ [v]) = repeat (Throw RuntimeError) n ++ [UB].
Proof.
  intros Lc Lr Lv E Lb. induction n as [|n IH]; intros used Hi Lo; cbn [repeat app unwraps].
  - rewrite unwrap_a_eq by lia. replace (used + (zlen (w_ctx C) + zlen v - 11) <=? cap) with false by (symmetry; apply Z.leb_gt; lia). reflexivity.
  - rewrite unwrap_a_eq by lia.
    assert (P : 0 <= zlen (w_ctx C)) by (unfold zlen; lia).
    replace (used + (zlen (w_ctx C) + zlen r - 11) <=? cap) with true by (symmetry; apply Z.leb_le; nia).
    rewrite E. f_equal. apply IH; nia.
Qed.
Lemma forged_exists H stream ml g cap C w r b v used :
  zlen (w_ctx C) < 2 ^ 32 -> 28 < zlen r < 2 ^ 63 -> zlen r <= zlen v < 2 ^ 63 -> used <= cap ->
  unwrap H stream ml g C w r = (r, (w, Some b, Throw RuntimeError)) -> zlen b = zlen (w_ctx C) + zlen r - 11 ->
  unwraps H stream ml g cap C w used (repeat r (Z.to_nat ((cap - used) / zlen b)) ++ [v]) = repeat (Throw RuntimeError) (Z.to_nat ((cap - used) / zlen b)) ++ [UB].
Proof.
  intros Lc Lr Lv U E Lb. assert (P : 0 <= zlen (w_ctx C)) by (unfold zlen; lia).
  assert (Q : 0 < zlen b) by lia.
  apply (unwraps_forged H stream ml g cap C w r b v Lc Lr Lv E Lb); rewrite Z2Nat.id by (apply Z.div_pos; lia).
  - pose proof (Z.mul_succ_div_gt (cap - used) (zlen b) Q). lia.
  - pose proof (Z.mul_div_le (cap - used) (zlen b) Q). lia.
Qed.

(** The same, for every representation with a wrong tag *)
Lemma wrong_tag_exhausts H stream ml g cap : (forall y, zlen (H y) = 64) -> sized g -> (forall k n l, length (stream k n l) = l) ->
  forall C tk ek iv x t v used, zlen tk = 32 -> zlen iv = 16 -> zlen t = 12 -> 0 < zlen x <= STREAM_MAX -> zlen (w_ctx C) < 2 ^ 32 ->
  t <> auth_tag H tk (auth_input C iv (xorb_list x (stream ek t (length x)))) -> zlen x + 28 <= zlen v < 2 ^ 63 -> used <= cap ->
  let n := Z.to_nat ((cap - used) / (17 + zlen (w_ctx C) + zlen x)) in
  unwraps H stream ml g cap C (mk_wrapper (VKey tk ml) (VKey ek ml)) used (repeat (iv ++ x ++ t) n ++ [v]) = repeat (Throw RuntimeError) n ++ [UB].
Proof.
  intros LH Sg Ls C tk ek iv x t v used Ltk Liv Lt Lx Lc Nt Lv U n.
  pose proof (unwrap_ok H stream ml g LH Sg Ls C tk ek ml ml iv x t Ltk Liv Lt Lx Lc) as E. cbv zeta in E.
  assert (B : bytes_eqb t (auth_tag H tk (auth_input C iv (xorb_list x (stream ek t (length x))))) = false).
  { apply bytes_eqb_neq. exact Nt. }
  rewrite B in E. cbn [negb] in E.
  assert (Lr : zlen (iv ++ x ++ t) = zlen x + 28) by (rewrite !zlen_app; lia).
  assert (Lb : zlen (auth_input C iv (xorb_list x (stream ek t (length x)))) = 17 + zlen (w_ctx C) + zlen x).
  { rewrite (input_zlen H stream LH Ls) by assumption. f_equal. unfold zlen. rewrite xorb_list_length, Ls. lia. }
  unfold n. rewrite <- Lb. rewrite wa_max in Lx.
  eapply forged_exists; [exact Lc|lia|lia|exact U|exact E|lia].
Qed.
