(** Writing PEM text. *)
From Coq Require Import Lia ZifyBool.
From Verif Require Import Base BaseFacts MpiModel Base64Model Base64Spec Base64Proofs Base64Proofs4 Base64Proofs5 PemModel PemSpec.

Lemma wrap_chunk : forall a s col, (col + length a = 64)%nat -> a <> [] -> wrap64 col (a ++ s) = a ++ [10] ++ wrap64 0 s.
Proof.
  induction a as [|c a IH]; intros s col H Hn; [congruence|]. cbn [app wrap64 length] in *.
  destruct (Nat.eqb col 63) eqn:E.
  - apply Nat.eqb_eq in E. destruct a; [reflexivity|cbn [length] in H; lia].
  - apply Nat.eqb_neq in E. destruct a as [|d a]; [cbn [length] in H; lia|]. rewrite IH; [reflexivity|lia|discriminate].
Qed.
Lemma wrap_last : forall a col, (0 < col + length a < 64)%nat -> wrap64 col a = a ++ [10].
Proof.
  induction a as [|c a IH]; intros col H; cbn [app wrap64 length] in *.
  - replace (Nat.eqb col 0) with false by lia. reflexivity.
  - replace (Nat.eqb col 63) with false by lia. rewrite IH by lia. reflexivity.
Qed.

Lemma wrap_len : forall s col, (col < 64)%nat -> zlen (wrap64 col s) = zlen s + (Z.of_nat col + zlen s + 63) / 64.
Proof.
  induction s as [|c s IH]; intros col H; cbn [wrap64].
  - destruct (Nat.eqb col 0) eqn:E; change (zlen (@nil Z)) with 0.
    + apply Nat.eqb_eq in E. subst col. reflexivity.
    + apply Nat.eqb_neq in E. change (zlen [10]) with 1. Z.div_mod_to_equations; lia.
  - rewrite !zlen_cons. destruct (Nat.eqb col 63) eqn:E.
    + apply Nat.eqb_eq in E. rewrite zlen_cons, IH by lia. Z.div_mod_to_equations; lia.
    + apply Nat.eqb_neq in E. rewrite IH by lia. Z.div_mod_to_equations; lia.
Qed.

Lemma pem_lines_ok : forall fuel a s z pre mid post, (length s < fuel)%nat -> zlen mid = zlen (wrap64 0 s) ->
  pem_lines fuel (a ++ s ++ z) (zlen a) (zlen s) (pre ++ mid ++ post) (zlen pre) =
  Ok (pre ++ wrap64 0 s ++ post, zlen pre + zlen (wrap64 0 s)).
Proof.
  induction fuel as [|fuel IH]; intros a s z pre mid post Hf Hm; [lia|]. cbn [pem_lines].
  destruct (zlen s =? 0) eqn:E0.
  { destruct s as [|c s]; [|rewrite zlen_cons in E0; pose proof (zlen_nonneg s); lia].
    cbn [wrap64 Nat.eqb] in *. destruct mid; [|rewrite zlen_cons in Hm; pose proof (zlen_nonneg mid); cbn in Hm; lia].
    cbn [app]. change (zlen (@nil Z)) with 0. rewrite Z.add_0_r. reflexivity. }
  assert (exists c r, s = c ++ r /\ zlen c = (if 64 <? zlen s then 64 else zlen s) /\
    wrap64 0 s = c ++ [10] ++ wrap64 0 r) as (c & r & Es & Hc & W).
  { destruct (64 <? zlen s) eqn:E.
    - destruct (zsplit s 64 ltac:(lia)) as (c & r & -> & Hc & _). exists c, r. split; [reflexivity|]. split; [assumption|].
      apply wrap_chunk; [unfold zlen in Hc; lia|]. intros ->; discriminate Hc.
    - exists s, []. rewrite app_nil_r. split; [reflexivity|]. split; [reflexivity|]. pose proof (zlen_nonneg s). unfold zlen in *.
      destruct (Nat.eq_dec (length s) 64) as [L|L].
      + rewrite <- (app_nil_r s) at 1. apply wrap_chunk; [lia|]. intros ->; discriminate E0.
      + cbn [wrap64 Nat.eqb]. apply wrap_last. lia. }
  assert (0 < zlen c) by (rewrite Hc; destruct (64 <? zlen s); pose proof (zlen_nonneg s); lia).
  rewrite <- Hc. cbv zeta. rewrite W in Hm |- *. rewrite !zlen_app in Hm. change (zlen [10]) with 1 in Hm.
  destruct (zsplit mid (zlen c)) as (m1 & m2 & -> & L1 & L2). { pose proof (zlen_nonneg (wrap64 0 r)). lia. }
  destruct (zsplit m2 1) as (m3 & m4 & -> & L3 & L4). { pose proof (zlen_nonneg (wrap64 0 r)). lia. }
  rewrite Es. rewrite <- !app_assoc. rewrite (rd_mid a c) by reflexivity. cbn [bind].
  rewrite wr_mid by lia. cbn [bind].
  replace (pre ++ c ++ m3 ++ m4 ++ post) with ((pre ++ c) ++ m3 ++ m4 ++ post) by (rewrite <- !app_assoc; reflexivity).
  rewrite wr_mid; [|rewrite zlen_app; lia|change (zlen [chLF]) with 1; lia]. cbn [bind].
  replace (a ++ c ++ r ++ z) with ((a ++ c) ++ r ++ z) by (rewrite <- !app_assoc; reflexivity).
  replace ((pre ++ c) ++ [chLF] ++ m4 ++ post) with ((pre ++ c ++ [chLF]) ++ m4 ++ post) by (rewrite <- !app_assoc; reflexivity).
  assert (length s = length c + length r)%nat by (rewrite Es, app_length; reflexivity).
  assert (0 < length c)%nat by (unfold zlen in *; lia).
  pose proof (IH (a ++ c) r z (pre ++ c ++ [chLF]) m4 post ltac:(lia)) as IH'. rewrite !zlen_app in IH'. change (zlen [chLF]) with 1 in IH'.
  replace (zlen pre + zlen c + 1) with (zlen pre + (zlen c + 1)) by lia.
  replace (zlen (c ++ r) - zlen c) with (zlen r) by (rewrite zlen_app; lia). rewrite ?zlen_app in Hm, L2, L4.
  rewrite IH' by (rewrite !zlen_app in Hm; lia). rewrite <- !app_assoc. rewrite !zlen_app. change (zlen [10]) with 1. change chLF with 10. f_equal. f_equal. lia.
Qed.

(** The size the C code requires of the caller's buffer *)
Definition pem_size (header footer der : bytes) : Z :=
  let u := if zlen der =? 0 then 0 else zlen (b64 der) + 1 in zlen header + zlen footer + u + u / 64 + 1.

Lemma b64_bound der : zlen der < 2 ^ 63 -> zlen (b64 der) < 2 ^ 63 + 2 ^ 62.
Proof. intros H. pose proof (zlen_nonneg der). rewrite b64_len. unfold enc_blocks. destruct (_ =? 0); Z.div_mod_to_equations; lia. Qed.
Lemma text_fits header footer der : zlen (pem_text header footer der ++ [0]) <= pem_size header footer der.
Proof.
  unfold pem_text, pem_size. rewrite !zlen_app, wrap_len by lia. change (zlen [0]) with 1.
  destruct der as [|a d]; [change (zlen (b64 [])) with 0; change (zlen (@nil Z)) with 0; cbn; lia|].
  replace (zlen (a :: d) =? 0) with false by (rewrite zlen_cons; pose proof (zlen_nonneg d); lia).
  pose proof (zlen_nonneg (b64 (a :: d))). change (Z.of_nat 0) with 0. cbv zeta. Z.div_mod_to_equations; lia.
Qed.

Section Alloc.
Context (alloc : Z -> bool).
Lemma pem_write_ok header footer der buf : is_bytes der -> zlen der < 2 ^ 63 -> zlen header + zlen footer < 2 ^ 32 ->
  zlen buf < 2 ^ 64 ->
  (zlen buf < pem_size header footer der /\
    pem_write_buffer alloc header footer der buf (zlen buf) = Ok (ERR_BASE64_BUFFER_TOO_SMALL, pem_size header footer der, buf)) \/
  (exists n, alloc n = false /\ pem_write_buffer alloc header footer der buf (zlen buf) = Ok (ERR_PEM_ALLOC_FAILED, 0, buf)) \/
  (let t := pem_text header footer der ++ [0] in pem_size header footer der <= zlen buf /\
    pem_write_buffer alloc header footer der buf (zlen buf) = Ok (0, zlen t, t ++ skipn (length t) buf)).
Proof.
  intros Hb Hd Hh Hbuf. pose proof (text_fits header footer der) as Fit. pose proof (b64_bound der Hd) as Bd.
  pose proof (zlen_nonneg header). pose proof (zlen_nonneg footer). pose proof (zlen_nonneg der). pose proof (zlen_nonneg (b64 der)).
  unfold pem_write_buffer. set (u := if zlen der =? 0 then 0 else zlen (b64 der) + 1).
  assert (0 <= u <= zlen (b64 der) + 1) as Hu by (unfold u; destruct (_ =? 0); lia).
  assert (exists r, base64_encode None 0 der (zlen der) = Ok (r, u, None)) as [r0 ->].
  { destruct der as [|a d]; [exists 0; reflexivity|]. exists ERR_BASE64_BUFFER_TOO_SMALL. unfold u.
    replace (zlen (a :: d) =? 0) with false by (rewrite zlen_cons; pose proof (zlen_nonneg d); lia).
    apply encode_announces; [discriminate|lia|left; reflexivity]. }
  cbn [bind]. cbv zeta.
  assert (u64 (u + u64 (zlen header + zlen footer + u / 64 + 1)) = pem_size header footer der) as Sz.
  { unfold pem_size. fold u. cbv zeta. unfold u64. rewrite (Z.mod_small (zlen header + zlen footer + u / 64 + 1)) by (Z.div_mod_to_equations; lia).
    rewrite Z.mod_small by (Z.div_mod_to_equations; lia). lia. }
  rewrite Sz. destruct (zlen buf <? pem_size header footer der) eqn:E1; [left; split; [lia|reflexivity]|]. right.
  destruct (alloc u) eqn:E2; cbn [negb]; [|left; exists u; split; [assumption|reflexivity]]. right. split; [lia|].
  assert (exists z, base64_encode (Some (zeros (Z.to_nat u))) u der (zlen der) = Ok (0, zlen (b64 der), Some (b64 der ++ z))) as [z ->].
  { destruct der as [|a d]; [exists []; reflexivity|]. 
    assert (u = zlen (b64 (a :: d)) + 1) as Eu by (unfold u; replace (zlen (a :: d) =? 0) with false by (rewrite zlen_cons; pose proof (zlen_nonneg d); lia); reflexivity).
    eexists. apply encode_is_b64; [assumption|discriminate|rewrite zlen_zeros; lia|lia]. }
  cbn [bind Z.eqb negb].
  set (t := pem_text header footer der ++ [0]) in *.
  destruct (zsplit buf (zlen t)) as (bt & post & -> & Lt & _). { pose proof (zlen_nonneg t). lia. }
  rewrite skipn_app. replace (length t) with (length bt) by (unfold zlen in Lt; lia). rewrite skipn_all, Nat.sub_diag, skipn_O. cbn [app].
  assert (zlen t = zlen header + zlen (wrap64 0 (b64 der)) + zlen footer + 1) as Lt2.
  { unfold t, pem_text. rewrite !zlen_app. change (zlen [0]) with 1. lia. }
  pose proof (zlen_nonneg (wrap64 0 (b64 der))).
  destruct (zsplit bt (zlen header) ltac:(lia)) as (b1 & b2 & -> & L1 & L1'). rewrite zlen_app in *.
  destruct (zsplit b2 (zlen (wrap64 0 (b64 der))) ltac:(lia)) as (b3 & b4 & -> & L2 & L2'). rewrite zlen_app in *.
  destruct (zsplit b4 (zlen footer) ltac:(lia)) as (b5 & b6 & -> & L3 & L3'). rewrite zlen_app in *.
  rewrite <- !app_assoc. rewrite wr_prefix by lia. cbn [bind].
  pose proof (pem_lines_ok (S (Z.to_nat (zlen (b64 der)))) [] (b64 der) z header b3 (b5 ++ b6 ++ post)) as L. cbn [app] in L.
  change (zlen (@nil Z)) with 0 in L. rewrite L; [|unfold zlen; lia|lia]. cbn [bind].
  replace (header ++ wrap64 0 (b64 der) ++ b5 ++ b6 ++ post) with ((header ++ wrap64 0 (b64 der)) ++ b5 ++ b6 ++ post) by (rewrite <- !app_assoc; reflexivity).
  rewrite wr_mid by (rewrite ?zlen_app; lia). cbn [bind].
  replace ((header ++ wrap64 0 (b64 der)) ++ footer ++ b6 ++ post) with ((header ++ wrap64 0 (b64 der) ++ footer) ++ b6 ++ post) by (rewrite <- !app_assoc; reflexivity).
  rewrite wr_mid by (rewrite ?zlen_app; change (zlen [0]) with 1; lia). cbn [bind].
  f_equal. f_equal; [f_equal; lia|]. unfold t, pem_text. rewrite <- !app_assoc. reflexivity.
Qed.
End Alloc.
Lemma pem_write_bounds alloc header footer der buf : is_bytes der -> zlen der < 2 ^ 63 -> zlen header + zlen footer < 2 ^ 32 -> zlen buf < 2 ^ 64 ->
  let t := pem_text header footer der ++ [0] in
  (exists need, zlen buf < need /\ zlen t <= need /\
    pem_write_buffer alloc header footer der buf (zlen buf) = Ok (ERR_BASE64_BUFFER_TOO_SMALL, need, buf)) \/
  (exists n, alloc n = false /\ pem_write_buffer alloc header footer der buf (zlen buf) = Ok (ERR_PEM_ALLOC_FAILED, 0, buf)) \/
  (zlen t <= zlen buf /\
    pem_write_buffer alloc header footer der buf (zlen buf) = Ok (0, zlen t, t ++ skipn (length t) buf)).
Proof.
  intros Hb Hd Hh Hbuf t. pose proof (text_fits header footer der) as F. fold t in F.
  destruct (pem_write_ok alloc header footer der buf Hb Hd Hh Hbuf) as [[L W]|[W|[L W]]].
  - left. exists (pem_size header footer der). split; [assumption|]. split; assumption.
  - right. left. assumption.
  - right. right. split; [lia|assumption].
Qed.
