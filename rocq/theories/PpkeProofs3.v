(** Masks, decryption, encodings and the byte-level interface. *)
From Coq Require Import Znumtheory Zdiv Setoid Morphisms.
From Verif Require Import BaseFacts PpkeModel PpkeSpec PpkeProofs PpkeProofs2 HmacSpec HmacModel HmacProofs2 PrgSpec KeyVal.
Local Ltac Zify.zify_post_hook ::= idtac.

Lemma lxor_range a b k : 0 <= k -> 0 <= a < 2 ^ k -> 0 <= b < 2 ^ k -> 0 <= Z.lxor a b < 2 ^ k.
Proof.
  intros Hk Ha Hb. split; [apply Z.lxor_nonneg; lia|].
  destruct (Z.eq_dec (Z.lxor a b) 0) as [->|Hne]; [lia|].
  assert (0 <= Z.lxor a b) by (apply Z.lxor_nonneg; lia).
  apply Z.log2_lt_cancel. rewrite Z.log2_pow2 by lia.
  pose proof (Z.log2_lxor a b ltac:(lia) ltac:(lia)) as L.
  assert (La : a = 0 \/ Z.log2 a < k) by (destruct (Z.eq_dec a 0); [left; assumption|right; apply Z.log2_lt_pow2; lia]).
  assert (Lb : b = 0 \/ Z.log2 b < k) by (destruct (Z.eq_dec b 0); [left; assumption|right; apply Z.log2_lt_pow2; lia]).
  destruct La as [->|La], Lb as [->|Lb].
  - rewrite Z.lxor_0_l in Hne. contradiction.
  - rewrite Z.lxor_0_l. exact Lb.
  - rewrite Z.lxor_0_r. exact La.
  - lia.
Qed.

Section Dec.
  Context (R : relic) (RO : relic_ok R) (H : bytes -> bytes) (ml dbg : bool) (u1 u2 : bytes) (EO : env_ok H u1 u2).
  Local Notation n := (order R).
  Local Notation "a == b" := (cong n a b) (at level 70).
  Local Notation e1 := (pow (G1 R) (gen1 R)).
  Local Notation e2 := (pow (G2 R) (gen2 R)).
  Local Notation eT := (pow (GT R) (genT R)).
  Local Notation mask := (compute_mask H ml u1 u2).

  Lemma compute_mask_ok tag g : zlen tag = 16 -> mask tag (wbin (GT R) g) = Ok (expected_mask H tag (wbin (GT R) g)).
  Proof.
    intros Ht. unfold compute_mask, v_make. pose proof (ok_encT R RO g) as Lg.
    pose proof (hmac_rfc H 128 64 ml tag ml (wbin (GT R) g) [] (zeros 8) (ok_digest H u1 u2 EO) ltac:(lia) ltac:(lia)
      ltac:(rewrite Lg; reflexivity) 8 u1 u2) as E.
    rewrite app_nil_r in E. change TAG_SIZE with 16. rewrite <- Ht at 1. rewrite E.
    - cbn [snd bind]. f_equal. unfold expected_mask, prefix_replaced. change (Z.to_nat 8) with 8%nat. f_equal.
      rewrite skipn_all2; [apply app_nil_r|]. rewrite zeros_length, firstn_length.
      assert (Lh : zlen (rfc_hmac H (Z.to_nat 128) tag (wbin (GT R) g)) = 64) by apply (ok_digest H u1 u2 EO). unfold zlen in Lh. lia.
    - rewrite (ok_u1 H u1 u2 EO), Lg. reflexivity.
    - rewrite (ok_u2 H u1 u2 EO). reflexivity.
    - lia.
    - rewrite zlen_zeros. lia.
  Qed.
  Lemma rfc_hmac_length k m : zlen (rfc_hmac H 128 k m) = 64.
  Proof. apply (ok_digest H u1 u2 EO). Qed.
  Lemma expected_mask_range tag gtb : 0 <= expected_mask H tag gtb < 2 ^ 64.
  Proof.
    unfold expected_mask. pose proof (rfc_hmac_length tag gtb) as L.
    assert (B : is_bytes (rfc_hmac H 128 tag gtb)) by apply (ok_digest_bytes H u1 u2 EO).
    pose proof (le_decode_range _ (is_bytes_firstn 8 _ B)) as Rg.
    assert (E : zlen (firstn 8 (rfc_hmac H 128 tag gtb)) = 8) by (unfold zlen in *; rewrite firstn_length; lia).
    rewrite E in Rg. exact Rg.
  Qed.
  Lemma gt_bytes_n g : gt_get_bytes_n R g GT_SIZE = wbin (GT R) g.
  Proof.
    unfold gt_get_bytes_n. cbv zeta. pose proof (ok_encT R RO g) as Lg. rewrite Lg. change (GT_SIZE - 384) with 0. cbn [zeros Z.to_nat repeat].
    change (zeros (Z.to_nat 0)) with (@nil Z). rewrite app_nil_r. apply firstn_all2. unfold zlen in Lg. change (Z.to_nat GT_SIZE) with 384%nat. lia.
  Qed.

  (** Encryption: blinding, and the mask of g_T^(alpha beta s) *)
  Lemma encrypt_sp_ok sp m tag t : sp_range R sp -> is_tag tag -> tag <> NULLTAG ->
    exists c x, encrypt_sp R H ml u1 u2 sp m tag t = Ok c /\ ct_rep R (sp_beta sp) (sp_ry sp) (ct_partial R c) (t mod n) /\
      ct_tag R (ct_partial R c) = tag /\ ct1 R c = Z.lxor (expected_mask H tag (wbin (GT R) (eT x))) m /\
      0 <= x /\ x == t mod n * sp_beta sp * sp_alpha sp.
  Proof.
    intros Hsp Ht Hn. pose proof (n_pos R RO) as Np. pose proof (mod_range R RO t) as Hs.
    destruct (blind_sp_ok R RO sp (t mod n) tag Hsp Hs Hn) as (c & Ec & Cr & Et).
    unfold encrypt_sp, random_zr. cbv zeta. rewrite Ec. cbn [bind]. rewrite gt_bytes_n, compute_mask_ok by (apply Ht). cbn [bind].
    destruct Hsp as [Sa Sb Sr]. pose proof (mod_range R RO (sp_alpha sp * sp_beta sp)) as M1.
    rewrite (zr_mul_mod n (sp_alpha sp)), zr_mul_mod by lia.
    eexists. eexists. split; [reflexivity|]. cbn [ct_partial ct1]. split; [exact Cr|]. split; [exact Et|]. split; [reflexivity|].
    split; [apply (mod_range R RO)|]. rewrite !eqm_mod. cring.
  Qed.
  Lemma encrypt_pk_sp sp m tag t : sp_range R sp ->
    encrypt_pk R H ml u1 u2 (make_pk R (sp_alpha sp) (sp_beta sp) (sp_ry sp)) m tag t = encrypt_sp R H ml u1 u2 sp m tag t.
  Proof.
    intros Hsp. pose proof (mod_range R RO t) as Hs. unfold encrypt_pk, encrypt_sp, random_zr. cbv zeta.
    rewrite (blind_pk_sp R RO) by assumption. change (pk_g2G1 R (make_pk R (sp_alpha sp) (sp_beta sp) (sp_ry sp))) with (e1 (sp_beta sp)).
    change (pk_ppkeg1 R (make_pk R (sp_alpha sp) (sp_beta sp) (sp_ry sp))) with (e2 (sp_alpha sp)).
    rewrite (blinding_pk_sp R RO) by assumption. reflexivity.
  Qed.

  Lemma is_punctured_false sk tag : (forall s, In s sk -> sk4 R s <> tag) <-> is_punctured_on_tag R sk tag = false.
  Proof.
    unfold is_punctured_on_tag. split.
    - intros Hf. induction sk as [|x sk IH]; [reflexivity|]. cbn [existsb].
      assert (bytes_eqb (sk4 R x) tag = false) as -> by (apply bytes_eqb_neq; apply Hf; left; reflexivity).
      cbn [orb]. apply IH. intros s Hs. apply Hf. right. exact Hs.
    - intros E s Hs Es. assert (X : existsb (fun s => bytes_eqb (sk4 R s) tag) sk = true).
      { apply existsb_exists. exists s. split; [exact Hs|]. apply bytes_eqb_spec. exact Es. } congruence.
  Qed.
  Lemma is_punctured_true sk tag : is_punctured_on_tag R sk tag = true <-> In tag (map (sk4 R) sk).
  Proof.
    unfold is_punctured_on_tag. rewrite existsb_exists, in_map_iff. split; intros (x & A & B); exists x.
    - split; [apply bytes_eqb_spec; exact B|exact A].
    - split; [exact B|apply bytes_eqb_spec; exact A].
  Qed.

  Lemma decrypt_objects sp sk c s m x : sp_range R sp -> ct_rep R (sp_beta sp) (sp_ry sp) (ct_partial R c) s ->
    shares_sum R (sp_beta sp) (sp_ry sp) sk (sp_alpha sp) -> zlen sk < 2 ^ 32 ->
    zlen (ct_tag R (ct_partial R c)) = 16 ->
    (forall y, In y sk -> tag_scalar R (ct_tag R (ct_partial R c)) <> tag_scalar R (sk4 R y)) ->
    ct1 R c = Z.lxor (expected_mask H (ct_tag R (ct_partial R c)) (wbin (GT R) (eT x))) m ->
    0 <= x -> x == s * sp_beta sp * sp_alpha sp ->
    decrypt R H ml u1 u2 sk c = Ok (Some m) /\ decrypt_throwing R H ml u1 u2 sk c = Ok m.
  Proof.
    intros Hsp Hc Hs Hl Ht Hne E1 Px Cx.
    assert (Ed : decrypt_unchecked R H ml u1 u2 sk c = Ok m).
    { unfold decrypt_unchecked. rewrite (recover_blind_ok R RO (sp_beta sp) (sp_ry sp) _ s sk (sp_alpha sp) Hc Hs Hl Hne x Px Cx). cbn [bind].
      unfold gt_get_bytes. rewrite compute_mask_ok by assumption. cbn [bind]. f_equal. rewrite E1.
      rewrite <- Z.lxor_assoc, Z.lxor_nilpotent, Z.lxor_0_l. reflexivity. }
    assert (Ep : is_punctured_on_tag R sk (ct_tag R (ct_partial R c)) = false).
    { apply is_punctured_false. intros s' Hs' Es'. apply (Hne s' Hs'). rewrite Es'. reflexivity. }
    unfold decrypt, decrypt_throwing. rewrite Ep, Ed. split; reflexivity.
  Qed.

  (** What decryption does with any key and ciphertext *)
  Lemma decrypt_cases sk c : zlen (ct_tag R (ct_partial R c)) = 16 -> zlen sk < 2 ^ 32 ->
    (decrypt R H ml u1 u2 sk c = Ok None <-> In (ct_tag R (ct_partial R c)) (map (sk4 R) sk)) /\
    (decrypt R H ml u1 u2 sk c = Throw LogicError <-> ~ In (ct_tag R (ct_partial R c)) (map (sk4 R) sk) /\
       exists t, In t (map (sk4 R) sk) /\ tag_scalar R t = tag_scalar R (ct_tag R (ct_partial R c))) /\
    ((exists m, decrypt R H ml u1 u2 sk c = Ok (Some m)) <->
       forall t, In t (map (sk4 R) sk) -> tag_scalar R t <> tag_scalar R (ct_tag R (ct_partial R c))).
  Proof.
    intros Ht Hl. unfold decrypt. set (tag := ct_tag R (ct_partial R c)) in *.
    destruct (is_punctured_on_tag R sk tag) eqn:Ep.
    - apply is_punctured_true in Ep. split; [split; [intros _; exact Ep|reflexivity]|].
      split; [split; [discriminate|intros [X _]; contradiction]|].
      split; [intros [m X]; discriminate|]. intros X. exfalso. apply (X tag Ep). reflexivity.
    - assert (Hni : ~ In tag (map (sk4 R) sk)) by (intros X; apply is_punctured_true in X; congruence).
      assert (Hcol : forall y, In y (map (sk4 R) sk) <-> exists x, In x sk /\ y = sk4 R x).
      { intros y. rewrite in_map_iff. split; intros (x & A & B); exists x; split; auto. }
      unfold decrypt_unchecked, recover_blind. cbv zeta.
      assert (u32 (zlen sk) = zlen sk) as -> by (apply Z.mod_small; pose proof (zlen_nonneg sk); lia).
      replace (firstn (Z.to_nat (zlen sk)) sk) with sk by (unfold zlen; rewrite Nat2Z.id, firstn_all; reflexivity).
      assert (Dec : (exists x, In x sk /\ tag_scalar R tag = tag_scalar R (sk4 R x)) \/
                    (forall x, In x sk -> tag_scalar R tag <> tag_scalar R (sk4 R x))).
      { clear. induction sk as [|x sk IH]; [right; intros x []|].
        destruct (Z.eq_dec (tag_scalar R tag) (tag_scalar R (sk4 R x))) as [E|E].
        - left. exists x. split; [left; reflexivity|exact E].
        - destruct IH as [(y & Hy & Ey)|IH]; [left; exists y; split; [right; exact Hy|exact Ey]|].
          right. intros y [<-|Hy]; [exact E|apply IH; exact Hy]. }
      destruct Dec as [Col|NoCol].
      + rewrite (recover_all_collision R RO _ _ Col). cbn [bind].
        split; [split; [discriminate|contradiction]|].
        split; [split; [intros _|reflexivity]|].
        { split; [exact Hni|]. destruct Col as (x & Hx & Ex). exists (sk4 R x). split; [apply in_map; exact Hx|symmetry; exact Ex]. }
        split; [intros [m X]; discriminate|]. intros X. exfalso. destruct Col as (x & Hx & Ex).
        apply (X (sk4 R x)); [apply in_map; exact Hx|symmetry; exact Ex].
      + destruct (recover_all_total R RO _ _ NoCol) as [zs Ez]. rewrite Ez. cbn [bind]. unfold gt_get_bytes.
        fold tag. rewrite compute_mask_ok by assumption. cbn [bind].
        split; [split; [discriminate|contradiction]|].
        split; [split; [discriminate|]|].
        { intros [_ (t & Hin & Et)]. apply Hcol in Hin. destruct Hin as (x & Hx & ->). exfalso. apply (NoCol x Hx). symmetry. exact Et. }
        split; [|intros _; eexists; reflexivity]. intros _ t Hin Et. apply Hcol in Hin. destruct Hin as (x & Hx & ->).
        apply (NoCol x Hx). symmetry. exact Et.
  Qed.

  (** Encodings *)
  Lemma wr_point G size buf pos g : 0 <= pos -> zlen (wbin G g) = size -> pos + size <= zlen buf ->
    write_point dbg G size buf pos g = wr buf pos (wbin G g).
  Proof. intros Hp E Hl. unfold write_point. cbv zeta. rewrite E, Z.eqb_refl. reflexivity. Qed.

  Lemma share_rep_in_g2 beta ry s a rho : share_rep R beta ry s a rho -> in_g2 s.
  Proof. intros (x1 & x2 & x3 & P1 & P2 & P3 & E1 & E2 & E3 & _). split; [exists x1|split; [exists x2|exists x3]]; split; assumption. Qed.

  Lemma enc2 p : (exists a, 0 <= a /\ p = e2 a) -> p <> gunit (G2 R) -> zlen (wbin (G2 R) p) = 65 /\ rbin (G2 R) (wbin (G2 R) p) = Some p.
  Proof.
    intros (a & Ha & ->) Hi. apply (ok_enc2 R RO); [assumption|]. intros E. apply Hi.
    rewrite (gen_unit _ _ _ (ok_G2 R RO)), <- (gen_mod _ _ _ (ok_G2 R RO) a Ha), E. reflexivity.
  Qed.
  Lemma enc1 p : (exists a, 0 <= a /\ p = e1 a) -> p <> gunit (G1 R) -> zlen (wbin (G1 R) p) = 33 /\ rbin (G1 R) (wbin (G1 R) p) = Some p.
  Proof.
    intros (a & Ha & ->) Hi. apply (ok_enc1 R RO); [assumption|]. intros E. apply Hi.
    rewrite (gen_unit _ _ _ (ok_G1 R RO)), <- (gen_mod _ _ _ (ok_G1 R RO) a Ha), E. reflexivity.
  Qed.

  Lemma write_share_ok s buf : in_g2 s -> finite_share s -> zlen (sk4 R s) = 16 -> zlen buf = 211 ->
    write_share R dbg s buf = Ok (wbin (G2 R) (sk1 R s) ++ wbin (G2 R) (sk2 R s) ++ wbin (G2 R) (sk3 R s) ++ sk4 R s).
  Proof.
    intros (I1 & I2 & I3) (F1 & F2 & F3) Ht Hb.
    destruct (enc2 _ I1 F1) as [L1 _]. destruct (enc2 _ I2 F2) as [L2 _]. destruct (enc2 _ I3 F3) as [L3 _].
    destruct (zsplit buf 65) as (b1 & r1 & -> & Hb1 & Hr1); [lia|].
    destruct (zsplit r1 65) as (b2 & r2 & -> & Hb2 & Hr2); [lia|].
    destruct (zsplit r2 65) as (b3 & b4 & -> & Hb3 & Hb4); [lia|].
    unfold write_share. change G2_SIZE with 65 in *. change (2 * 65) with 130. change (3 * 65) with 195.
    rewrite wr_point by (rewrite ?zlen_app; lia). rewrite wr_prefix by lia. cbn [bind].
    rewrite wr_point by (rewrite ?zlen_app; lia). rewrite wr_mid by lia. cbn [bind].
    rewrite wr_point by (rewrite ?zlen_app; lia). rewrite (app_assoc (wbin _ (sk1 R s))). rewrite wr_mid by (rewrite ?zlen_app; lia). cbn [bind].
    rewrite (app_assoc (_ ++ _) (wbin _ (sk3 R s))). rewrite wr_suffix by (rewrite ?zlen_app; lia). rewrite !app_assoc. reflexivity.
  Qed.
  Lemma read_share_ok s : in_g2 s -> finite_share s -> zlen (sk4 R s) = 16 ->
    read_share R (wbin (G2 R) (sk1 R s) ++ wbin (G2 R) (sk2 R s) ++ wbin (G2 R) (sk3 R s) ++ sk4 R s) = Ok s.
  Proof.
    intros (I1 & I2 & I3) (F1 & F2 & F3) Ht.
    destruct (enc2 _ I1 F1) as [L1 D1]. destruct (enc2 _ I2 F2) as [L2 D2]. destruct (enc2 _ I3 F3) as [L3 D3].
    unfold read_share, read_point. change G2_SIZE with 65. change TAG_SIZE with 16. change (2 * 65) with 130. change (3 * 65) with 195.
    rewrite rd_prefix by lia. cbn [bind]. rewrite D1. cbn [bind].
    rewrite rd_mid by lia. cbn [bind]. rewrite D2. cbn [bind].
    rewrite (app_assoc (wbin _ (sk1 R s))). rewrite rd_mid by (rewrite ?zlen_app; lia). cbn [bind]. rewrite D3. cbn [bind].
    rewrite (app_assoc (_ ++ _) (wbin _ (sk3 R s))). rewrite rd_suffix by (rewrite ?zlen_app; lia). cbn [bind].
    destruct s; reflexivity.
  Qed.

  Lemma ct_rep_in_g1 beta ry c s : ct_rep R beta ry (ct_partial R c) s -> in_g1 c.
  Proof. intros (y2 & y3 & P2 & P3 & E2 & E3 & _). split; [exists y2|exists y3]; split; assumption. Qed.

  Lemma write_ct_ok c buf : in_g1 c -> finite_ct c -> zlen (ct_tag R (ct_partial R c)) = 16 -> zlen buf = 90 ->
    write_ct R dbg c buf = Ok (le_encode 8 (ct1 R c) ++ wbin (G1 R) (ct2 R (ct_partial R c)) ++ wbin (G1 R) (ct3 R (ct_partial R c)) ++ ct_tag R (ct_partial R c)).
  Proof.
    intros (I1 & I2) (F1 & F2) Ht Hb.
    destruct (enc1 _ I1 F1) as [L1 _]. destruct (enc1 _ I2 F2) as [L2 _].
    assert (Ll : zlen (le_encode 8 (ct1 R c)) = 8) by (unfold zlen; rewrite le_encode_length; reflexivity).
    destruct (zsplit buf 8) as (b1 & r1 & -> & Hb1 & Hr1); [lia|].
    destruct (zsplit r1 33) as (b2 & r2 & -> & Hb2 & Hr2); [lia|].
    destruct (zsplit r2 33) as (b3 & b4 & -> & Hb3 & Hb4); [lia|].
    unfold write_ct. change G1_SIZE with 33 in *. change (8 + 33) with 41. change (8 + 2 * 33) with 74.
    rewrite wr_prefix by lia. cbn [bind].
    rewrite wr_point by (rewrite ?zlen_app; lia). rewrite wr_mid by lia. cbn [bind].
    rewrite wr_point by (rewrite ?zlen_app; lia). rewrite (app_assoc (le_encode _ _)). rewrite wr_mid by (rewrite ?zlen_app; lia). cbn [bind].
    rewrite (app_assoc (_ ++ _) (wbin _ (ct3 R _))). rewrite wr_suffix by (rewrite ?zlen_app; lia). rewrite !app_assoc. reflexivity.
  Qed.
  Lemma read_ct_ok c : in_g1 c -> finite_ct c -> zlen (ct_tag R (ct_partial R c)) = 16 -> 0 <= ct1 R c < 2 ^ 64 ->
    read_ct R (le_encode 8 (ct1 R c) ++ wbin (G1 R) (ct2 R (ct_partial R c)) ++ wbin (G1 R) (ct3 R (ct_partial R c)) ++ ct_tag R (ct_partial R c)) = Ok c.
  Proof.
    intros (I1 & I2) (F1 & F2) Ht Hb.
    destruct (enc1 _ I1 F1) as [L1 D1]. destruct (enc1 _ I2 F2) as [L2 D2].
    assert (Ll : zlen (le_encode 8 (ct1 R c)) = 8) by (unfold zlen; rewrite le_encode_length; reflexivity).
    unfold read_ct, read_point. change G1_SIZE with 33. change TAG_SIZE with 16. change (8 + 33) with 41. change (8 + 2 * 33) with 74.
    rewrite rd_mid by lia. cbn [bind]. rewrite D1. cbn [bind].
    rewrite (app_assoc (le_encode _ _)). rewrite rd_mid by (rewrite ?zlen_app; lia). cbn [bind]. rewrite D2. cbn [bind].
    rewrite (app_assoc (_ ++ _) (wbin _ (ct3 R _))). rewrite rd_suffix by (rewrite ?zlen_app; lia). cbn [bind].
    rewrite <- !app_assoc. rewrite rd_prefix by lia. cbn [bind]. rewrite le_decode_encode by exact Hb.
    destruct c as [x [y z t]]; reflexivity.
  Qed.
End Dec.
