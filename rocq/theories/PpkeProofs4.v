(** The byte-level interface of the puncturable encryption. *)
From Coq Require Import Znumtheory Zdiv Setoid Morphisms.
From Verif Require Import BaseFacts PpkeModel PpkeSpec PpkeProofs PpkeProofs2 PpkeProofs3 HmacSpec HmacModel KeyVal.
Local Ltac Zify.zify_post_hook ::= idtac.

Lemma bind_inv {A B} (x : outcome A) (f : A -> outcome B) b : bind x f = Ok b -> exists a, x = Ok a /\ f a = Ok b.
Proof. destruct x; cbn [bind]; intros E; try discriminate. eexists; split; [reflexivity|exact E]. Qed.

Lemma usable_neq t : usable_tag t -> t <> NULLTAG.
Proof. intros [_ Hne]. exact Hne. Qed.

Lemma wr_zlen buf pos d b : wr buf pos d = Ok b -> zlen b = zlen buf.
Proof. intros E. apply wr_length in E. unfold zlen. rewrite E. reflexivity. Qed.

(** Reading the last bytes after a write at the end *)
Lemma wr_last buf pos d b : wr buf pos d = Ok b -> pos + zlen d = zlen buf -> rd b pos (zlen d) = Ok d.
Proof.
  intros E Hl. unfold wr in E. destruct ((0 <=? pos) && (pos + zlen d <=? zlen buf)) eqn:C; [|discriminate].
  injection E as <-. apply andb_true_iff in C. destruct C as [C1 C2]. apply Z.leb_le in C1. apply Z.leb_le in C2.
  apply rd_mid; [|reflexivity]. unfold zlen in *. rewrite firstn_length. lia.
Qed.

Section Api.
  Context (R : relic) (RO : relic_ok R).
  Local Notation n := (order R).
  Local Notation "a == b" := (cong n a b) (at level 70).

  (** A point written by a debug build is not the point at infinity *)
  Lemma write_point_debug2 buf pos g b : write_point true (G2 R) G2_SIZE buf pos g = Ok b -> g <> gunit (G2 R) /\ zlen b = zlen buf.
  Proof.
    unfold write_point. cbv zeta. intros E. split.
    - intros ->. rewrite (ok_inf2 R RO) in E. discriminate E.
    - unfold cassert in E. destruct (zlen (wbin (G2 R) g) =? G2_SIZE); [|discriminate]. apply (wr_zlen _ _ _ _ E).
  Qed.
  Lemma write_point_debug1 buf pos g b : write_point true (G1 R) G1_SIZE buf pos g = Ok b -> g <> gunit (G1 R) /\ zlen b = zlen buf.
  Proof.
    unfold write_point. cbv zeta. intros E. split.
    - intros ->. rewrite (ok_inf1 R RO) in E. discriminate E.
    - unfold cassert in E. destruct (zlen (wbin (G1 R) g) =? G1_SIZE); [|discriminate]. apply (wr_zlen _ _ _ _ E).
  Qed.
  Lemma write_share_debug s buf b : write_share R true s buf = Ok b -> finite_share s.
  Proof.
    unfold write_share. intros E. apply bind_inv in E. destruct E as (b1 & E1 & E). apply bind_inv in E. destruct E as (b2 & E2 & E).
    apply bind_inv in E. destruct E as (b3 & E3 & _).
    apply write_point_debug2 in E1, E2, E3. split; [apply E1|split; [apply E2|apply E3]].
  Qed.
  Lemma write_ct_debug c buf b : write_ct R true c buf = Ok b -> finite_ct c.
  Proof.
    unfold write_ct. intros E. apply bind_inv in E. destruct E as (b1 & E1 & E). apply bind_inv in E. destruct E as (b2 & E2 & E).
    apply bind_inv in E. destruct E as (b3 & E3 & _).
    apply write_point_debug1 in E2, E3. split; [apply E2|apply E3].
  Qed.

  (** A share of the key that debug builds return is the same in release builds, and parses back *)
  Lemma share_api dbg s buf b : in_g2 s -> zlen (sk4 R s) = 16 -> zlen buf = 211 -> write_share R true s buf = Ok b ->
    write_share R dbg s buf = Ok b /\ read_share R b = Ok s.
  Proof.
    intros Hi Ht Hb E. pose proof (write_share_debug s buf b E) as Hf.
    rewrite (write_share_ok R RO true s buf Hi Hf Ht Hb) in E. rewrite (write_share_ok R RO dbg s buf Hi Hf Ht Hb).
    injection E as <-. split; [reflexivity|]. apply (read_share_ok R RO s Hi Hf Ht).
  Qed.

  Lemma sk_share_dbg dbg prf sp d t s : sk_share_gen R true prf sp d t = Ok s -> sk_share_gen R dbg prf sp d t = Ok s.
  Proof.
    unfold sk_share_gen. cbv zeta. unfold cassert. destruct (0 <? d); [|discriminate]. destruct (negb (bytes_eqb t NULLTAG)); [|discriminate].
    intros E; exact E.
  Qed.

  Lemma puncture_shares_api dbg prf bufs tags : (forall i, zlen (bufs i) = 211) -> Forall usable_tag tags ->
    forall i ks, 0 < i -> puncture_shares R true prf bufs i tags = Ok ks ->
    exists ss, puncture_objects R true prf (paramgen R prf) i tags = Ok ss /\ puncture_shares R dbg prf bufs i tags = Ok ks /\ pdec_make R ks = Ok ss.
  Proof.
    intros Hb Ht. induction Ht as [|t tags T Ht IH]; intros i ks Hi E.
    - injection E as <-. exists []. split; [reflexivity|]. split; reflexivity.
    - cbn [puncture_shares] in E. apply bind_inv in E. destruct E as (b & Eb & E). apply bind_inv in E. destruct E as (bs & Ebs & E).
      injection E as <-. destruct (IH (i + 1) bs ltac:(lia) Ebs) as (ss & S1 & S2 & S3).
      unfold penc_inc_puncture in Eb. apply bind_inv in Eb. destruct Eb as (s & Es & Ew).
      destruct (sk_share_rep R RO true prf i t Hi (usable_neq t T)) as (s' & Es' & E4 & a & rho & Hr & _).
      rewrite Es in Es'. injection Es' as <-.
      destruct (share_api dbg s (bufs i) b (share_rep_in_g2 R _ _ _ _ _ Hr) ltac:(rewrite E4; apply T) (Hb i) Ew) as [W1 W2].
      exists (s :: ss). split; [cbn [puncture_objects]; rewrite Es; cbn [bind]; rewrite S1; reflexivity|].
      split.
      + cbn [puncture_shares]. unfold penc_inc_puncture. rewrite (sk_share_dbg dbg _ _ _ _ _ Es). cbn [bind]. rewrite W1. cbn [bind]. rewrite S2. reflexivity.
      + cbn [pdec_make]. rewrite W2. cbn [bind]. rewrite S3. reflexivity.
  Qed.

  Lemma punctured_key_api dbg prf bufs tags key : (forall i, zlen (bufs i) = 211) -> Forall usable_tag tags ->
    punctured_key R true prf bufs tags = Ok key ->
    punctured_key R dbg prf bufs tags = Ok key /\
    exists ss, pdec_make R key = Ok ss /\ map (sk4 R) ss = NULLTAG :: tags /\
      shares_sum R (sp_beta (paramgen R prf)) (sp_ry (paramgen R prf)) ss (sp_alpha (paramgen R prf)).
  Proof.
    intros Hb Ht E. unfold punctured_key in E. apply bind_inv in E. destruct E as (b0 & E0 & E). apply bind_inv in E. destruct E as (ks & Ek & E).
    injection E as <-. destruct (puncture_shares_api dbg prf bufs tags Hb Ht 1 ks ltac:(lia) Ek) as (ss & S1 & S2 & S3).
    assert (Hn : Forall (fun t => t <> NULLTAG) tags) by (eapply Forall_impl; [|exact Ht]; intros a; apply usable_neq).
    destruct (key_objects_ok R RO true prf tags Hn) as (ss' & S1' & Sm & Ssum). rewrite S1 in S1'. injection S1' as <-.
    unfold penc_initial_keyshare in E0. destruct (sk0_rep R RO prf (zlen tags) (zlen_nonneg tags)) as (a & rho & Hr & _).
    destruct (share_api dbg _ (bufs 0) b0 (share_rep_in_g2 R _ _ _ _ _ Hr) ltac:(rewrite sk0_tag; reflexivity) (Hb 0) E0) as [W1 W2].
    split.
    - unfold punctured_key, penc_initial_keyshare. rewrite W1. cbn [bind]. rewrite S2. reflexivity.
    - exists (sk0_gen R prf (paramgen R prf) (zlen tags) :: ss). split; [cbn [pdec_make]; rewrite W2; cbn [bind]; rewrite S3; reflexivity|].
      split; [cbn [map]; rewrite sk0_tag, Sm; reflexivity|exact Ssum].
  Qed.

  Lemma make_length key : forall ss, pdec_make R key = Ok ss -> zlen ss = zlen key.
  Proof.
    induction key as [|b key IH]; intros ss E; cbn [pdec_make] in E.
    - injection E as <-. reflexivity.
    - apply bind_inv in E. destruct E as (s & _ & E). apply bind_inv in E. destruct E as (ss' & E' & E). injection E as <-.
      rewrite !zlen_cons, (IH _ E'). reflexivity.
  Qed.

  Context (H : bytes -> bytes) (ml : bool) (u1 u2 : bytes) (EO : env_ok H u1 u2).

  (** C53 *)
  Lemma unpunctured_decrypts dbg prf bufs cbuf tags key tag m t ct :
    (forall i, zlen (bufs i) = 211) -> zlen cbuf = 90 -> Forall usable_tag tags -> zlen tags < 2 ^ 32 - 1 -> usable_tag tag ->
    (forall t', In t' (reserved_tag :: tags) -> tag_scalar R t' <> tag_scalar R tag) -> 0 <= m < 2 ^ 64 ->
    punctured_key R true prf bufs tags = Ok key -> penc_encrypt R H ml true u1 u2 prf m tag t cbuf = Ok ct ->
    punctured_key R dbg prf bufs tags = Ok key /\ penc_encrypt R H ml dbg u1 u2 prf m tag t cbuf = Ok ct /\
    exists sk, pdec_make R key = Ok sk /\ pdec_decrypt R H ml u1 u2 sk ct = Ok (Some m).
  Proof.
    intros Hb Hcb Ht Hl Hu Hcol Hm Ek Ee. destruct (punctured_key_api dbg prf bufs tags key Hb Ht Ek) as [K1 (ss & K2 & K3 & K4)].
    split; [exact K1|]. unfold penc_encrypt in *. apply bind_inv in Ee. destruct Ee as (c & Ec & Ew).
    destruct (encrypt_sp_ok R RO H ml u1 u2 EO (paramgen R prf) m tag t (paramgen_range R RO prf) (proj1 Hu) (usable_neq tag Hu))
      as (c' & x & Ec' & Cr & Ct & C1 & Px & Cx).
    rewrite Ec in Ec'. injection Ec' as <-. rewrite Ec. cbn [bind].
    pose proof (write_ct_debug c cbuf ct Ew) as Hf. pose proof (ct_rep_in_g1 R _ _ _ _ Cr) as Hi.
    assert (Ltag : zlen (ct_tag R (ct_partial R c)) = 16) by (rewrite Ct; apply Hu).
    rewrite (write_ct_ok R RO true c cbuf Hi Hf Ltag Hcb) in Ew. assert (Ect := f_equal (fun o => match o with Ok v => v | _ => [] end) Ew). cbv beta iota in Ect. subst ct.
    split; [apply (write_ct_ok R RO dbg c cbuf Hi Hf Ltag Hcb)|].
    exists ss. split; [exact K2|]. unfold pdec_decrypt.
    assert (R1 : 0 <= ct1 R c < 2 ^ 64).
    { rewrite C1. apply lxor_range; [lia|apply (expected_mask_range H u1 u2 EO)|exact Hm]. }
    rewrite (read_ct_ok R RO c Hi Hf Ltag R1). cbn [bind].
    refine (proj1 (decrypt_objects R RO H ml u1 u2 EO (paramgen R prf) ss c (t mod n) m x (paramgen_range R RO prf) Cr K4 _ Ltag _ _ Px Cx)).
    - apply (f_equal (@length bytes)) in K3. rewrite map_length in K3. cbn [length] in K3. unfold zlen in *. lia.
    - intros y Hy Ey. apply (Hcol (sk4 R y)); [|rewrite Ct in Ey; symmetry; exact Ey].
      change reserved_tag with NULLTAG. rewrite <- K3. apply in_map. exact Hy.
    - rewrite Ct. exact C1.
  Qed.

  (** C54 *)
  Lemma read_share_tag b s : zlen b = 211 -> read_share R b = Ok s -> extract_tag_share b = Ok (sk4 R s) /\ zlen (sk4 R s) = 16.
  Proof.
    intros Hb E. unfold read_share in E. apply bind_inv in E. destruct E as (p1 & _ & E). apply bind_inv in E. destruct E as (p2 & _ & E).
    apply bind_inv in E. destruct E as (p3 & _ & E). apply bind_inv in E. destruct E as (tg & Et & E). injection E as <-. cbn [sk4].
    split; [exact Et|]. unfold rd in Et. change (3 * G2_SIZE) with 195 in Et. change TAG_SIZE with 16 in Et.
    destruct (_ && _); [|discriminate]. injection Et as <-. unfold zlen in *. rewrite window_length. lia.
  Qed.
  Lemma read_ct_tag b c : zlen b = 90 -> read_ct R b = Ok c ->
    extract_tag_ct b = Ok (ct_tag R (ct_partial R c)) /\ zlen (ct_tag R (ct_partial R c)) = 16.
  Proof.
    intros Hb E. unfold read_ct in E. apply bind_inv in E. destruct E as (p1 & _ & E). apply bind_inv in E. destruct E as (p2 & _ & E).
    apply bind_inv in E. destruct E as (tg & Et & E). apply bind_inv in E. destruct E as (c1 & _ & E). injection E as <-. cbn [ct_partial ct_tag].
    split; [exact Et|]. unfold rd in Et. change (8 + 2 * G1_SIZE) with 74 in Et. change TAG_SIZE with 16 in Et.
    destruct (_ && _); [|discriminate]. injection Et as <-. unfold zlen in *. rewrite window_length. lia.
  Qed.
  Lemma make_tags key : Forall (fun b => zlen b = 211) key -> forall ss, pdec_make R key = Ok ss ->
    forall tg, In tg (map (sk4 R) ss) <-> exists ks, In ks key /\ extract_tag_share ks = Ok tg.
  Proof.
    induction 1 as [|b key Hb Hk IH]; intros ss E tg; cbn [pdec_make] in E.
    - injection E as <-. cbn. split; [intros []|intros (ks & [] & _)].
    - apply bind_inv in E. destruct E as (s & Es & E). apply bind_inv in E. destruct E as (ss' & E' & E). injection E as <-.
      destruct (read_share_tag b s Hb Es) as [T _]. cbn [map]. split.
      + intros [<-|Hin]; [exists b; split; [left; reflexivity|exact T]|]. apply (IH ss' E') in Hin. destruct Hin as (ks & A & B).
        exists ks. split; [right; exact A|exact B].
      + intros (ks & [<-|A] & B); [left; rewrite T in B; injection B as B; exact B|]. right. apply (IH ss' E'). exists ks. split; assumption.
  Qed.

  Lemma false_iff_punctured key sk ct c : Forall (fun b => zlen b = 211) key -> zlen key < 2 ^ 32 -> zlen ct = 90 ->
    pdec_make R key = Ok sk -> read_ct R ct = Ok c ->
    (pdec_decrypt R H ml u1 u2 sk ct = Ok None <-> exists ks, In ks key /\ extract_tag_share ks = extract_tag_ct ct) /\
    (pdec_decrypt R H ml u1 u2 sk ct = Throw LogicError <->
       (~ exists ks, In ks key /\ extract_tag_share ks = extract_tag_ct ct) /\
       exists ks t t', In ks key /\ extract_tag_share ks = Ok t /\ extract_tag_ct ct = Ok t' /\ tag_scalar R t = tag_scalar R t') /\
    (pdec_decrypt R H ml u1 u2 sk ct = Ok None \/ pdec_decrypt R H ml u1 u2 sk ct = Throw LogicError \/
     exists m, pdec_decrypt R H ml u1 u2 sk ct = Ok (Some m)).
  Proof.
    intros Hk Hl Hc Em Ec. unfold pdec_decrypt. rewrite Ec. cbn [bind].
    destruct (read_ct_tag ct c Hc Ec) as [T T16]. rewrite T.
    pose proof (make_length key sk Em) as Lk.
    destruct (decrypt_cases R RO H ml u1 u2 EO sk c T16 ltac:(lia)) as (D1 & D2 & D3).
    pose proof (make_tags key Hk sk Em) as MT.
    split; [rewrite D1; apply MT|].
    split.
    - rewrite D2. rewrite (MT (ct_tag R (ct_partial R c))). split; intros [A B]; (split; [exact A|]).
      + destruct B as (tg & Hin & Eq). apply MT in Hin. destruct Hin as (ks & K1 & K2). exists ks, tg, (ct_tag R (ct_partial R c)).
        split; [exact K1|]. split; [exact K2|]. split; [reflexivity|exact Eq].
      + destruct B as (ks & tg & t' & K1 & K2 & K3 & K4). injection K3 as <-. exists tg. split; [apply MT; exists ks; split; assumption|exact K4].
    - destruct (in_dec (list_eq_dec Z.eq_dec) (ct_tag R (ct_partial R c)) (map (sk4 R) sk)) as [Hin|Hni]; [left; apply D1; exact Hin|right].
      assert (Dec : (exists x, In x (map (sk4 R) sk) /\ tag_scalar R x = tag_scalar R (ct_tag R (ct_partial R c))) \/
                    (forall x, In x (map (sk4 R) sk) -> tag_scalar R x <> tag_scalar R (ct_tag R (ct_partial R c)))).
      { generalize (map (sk4 R) sk) as l. clear. induction l as [|x l IH]; [right; intros x []|].
        destruct (Z.eq_dec (tag_scalar R x) (tag_scalar R (ct_tag R (ct_partial R c)))) as [E|E].
        - left. exists x. split; [left; reflexivity|exact E].
        - destruct IH as [(y & Hy & Ey)|IH]; [left; exists y; split; [right; exact Hy|exact Ey]|].
          right. intros y [<-|Hy]; [exact E|apply IH; exact Hy]. }
      destruct Dec as [Col|NoCol]; [left; apply D2; split; assumption|right; apply D3; exact NoCol].
  Qed.

  (** With the keys the interface makes: the punctured tags (and the reserved one) *)
  Lemma api_punctured dbg prf bufs tags key ct c tag :
    (forall i, zlen (bufs i) = 211) -> Forall usable_tag tags -> zlen tags < 2 ^ 32 - 1 ->
    punctured_key R true prf bufs tags = Ok key ->
    zlen ct = 90 -> read_ct R ct = Ok c -> extract_tag_ct ct = Ok tag ->
    punctured_key R dbg prf bufs tags = Ok key /\
    exists sk, pdec_make R key = Ok sk /\
      (pdec_decrypt R H ml u1 u2 sk ct = Ok None <-> tag = reserved_tag \/ In tag tags).
  Proof.
    intros Hb Ht Hl Ek Hc Ec Et. destruct (punctured_key_api dbg prf bufs tags key Hb Ht Ek) as [K1 (ss & K2 & K3 & K4)].
    split; [exact K1|]. exists ss. split; [exact K2|]. unfold pdec_decrypt. rewrite Ec. cbn [bind].
    destruct (read_ct_tag ct c Hc Ec) as [T T16]. rewrite T in Et. injection Et as <-.
    assert (Ls : zlen ss < 2 ^ 32).
    { apply (f_equal (@length bytes)) in K3. rewrite map_length in K3. cbn [length] in K3. unfold zlen in *. lia. }
    destruct (decrypt_cases R RO H ml u1 u2 EO ss c T16 Ls) as (D1 & _). rewrite D1, K3. cbn [In].
    change NULLTAG with reserved_tag. split; (intros [A|A]; [left; symmetry; exact A|right; exact A]).
  Qed.

  (** C55 *)
  Lemma encrypt_reserved dbg prf m t cbuf : penc_encrypt R H ml dbg u1 u2 prf m reserved_tag t cbuf = Throw InvalidArgument.
  Proof. reflexivity. Qed.
  Lemma encrypt_pk_reserved pk m t : encrypt_pk R H ml u1 u2 pk m reserved_tag t = Throw InvalidArgument.
  Proof. reflexivity. Qed.
  Lemma puncture_reserved dbg pk sk t0 t1 tl : puncture R dbg pk sk reserved_tag t0 t1 tl = Throw InvalidArgument.
  Proof. reflexivity. Qed.
  (** Release builds: a share or ciphertext of group elements is always written, and only the encodings and the tag are *)
  Lemma wpt_release G size buf pos g : 0 <= pos -> pos + size <= zlen buf -> zlen (wbin G g) <= size ->
    exists b, write_point false G size buf pos g = Ok b /\ zlen b = zlen buf.
  Proof.
    intros Hp Hl Hs. unfold write_point, cassert. cbv zeta.
    assert (E : exists b, wr buf pos (wbin G g) = Ok b) by (eexists; apply wr_ok; lia).
    destruct E as [b E]. exists b. split; [destruct (_ =? _); exact E|]. apply (wr_zlen _ _ _ _ E).
  Qed.
  Lemma len2 p : (exists a, 0 <= a /\ p = pow (G2 R) (gen2 R) a) -> zlen (wbin (G2 R) p) = 65 \/ (p = gunit (G2 R) /\ zlen (wbin (G2 R) p) = 1).
  Proof.
    intros (a & Ha & ->). destruct (Z.eq_dec (a mod n) 0) as [E|E].
    - right. assert (X : pow (G2 R) (gen2 R) a = gunit (G2 R)).
      { rewrite (gen_unit _ _ _ (ok_G2 R RO)), <- (gen_mod _ _ _ (ok_G2 R RO) a Ha), E. reflexivity. }
      rewrite X. split; [reflexivity|apply (ok_inf2 R RO)].
    - left. apply (ok_enc2 R RO a Ha E).
  Qed.
  Lemma len1 p : (exists a, 0 <= a /\ p = pow (G1 R) (gen1 R) a) -> zlen (wbin (G1 R) p) = 33 \/ (p = gunit (G1 R) /\ zlen (wbin (G1 R) p) = 1).
  Proof.
    intros (a & Ha & ->). destruct (Z.eq_dec (a mod n) 0) as [E|E].
    - right. assert (X : pow (G1 R) (gen1 R) a = gunit (G1 R)).
      { rewrite (gen_unit _ _ _ (ok_G1 R RO)), <- (gen_mod _ _ _ (ok_G1 R RO) a Ha), E. reflexivity. }
      rewrite X. split; [reflexivity|apply (ok_inf1 R RO)].
    - left. apply (ok_enc1 R RO a Ha E).
  Qed.
  Lemma write_share_release s buf : in_g2 s -> zlen (sk4 R s) = 16 -> zlen buf = 211 -> exists b, write_share R false s buf = Ok b.
  Proof.
    intros (I1 & I2 & I3) Ht Hb. apply len2 in I1, I2, I3. unfold write_share. change G2_SIZE with 65. change (2 * 65) with 130. change (3 * 65) with 195.
    destruct (wpt_release (G2 R) 65 buf 0 (sk1 R s) ltac:(lia) ltac:(lia) ltac:(lia)) as (b1 & E1 & L1). rewrite E1. cbn [bind].
    destruct (wpt_release (G2 R) 65 b1 65 (sk2 R s) ltac:(lia) ltac:(lia) ltac:(lia)) as (b2 & E2 & L2). rewrite E2. cbn [bind].
    destruct (wpt_release (G2 R) 65 b2 130 (sk3 R s) ltac:(lia) ltac:(lia) ltac:(lia)) as (b3 & E3 & L3). rewrite E3. cbn [bind].
    eexists. apply wr_ok; lia.
  Qed.
  Lemma write_ct_release c buf : in_g1 c -> zlen (ct_tag R (ct_partial R c)) = 16 -> zlen buf = 90 -> exists b, write_ct R false c buf = Ok b.
  Proof.
    intros (I1 & I2) Ht Hb. apply len1 in I1, I2. unfold write_ct. change G1_SIZE with 33. change (8 + 33) with 41. change (8 + 2 * 33) with 74.
    assert (Ll : zlen (le_encode 8 (ct1 R c)) = 8) by (unfold zlen; rewrite le_encode_length; reflexivity).
    assert (E0 : exists b0, wr buf 0 (le_encode 8 (ct1 R c)) = Ok b0) by (eexists; apply wr_ok; lia). destruct E0 as [b0 E0].
    pose proof (wr_zlen _ _ _ _ E0) as L0. rewrite E0. cbn [bind].
    destruct (wpt_release (G1 R) 33 b0 8 (ct2 R (ct_partial R c)) ltac:(lia) ltac:(lia) ltac:(lia)) as (b1 & E1 & L1). rewrite E1. cbn [bind].
    destruct (wpt_release (G1 R) 33 b1 41 (ct3 R (ct_partial R c)) ltac:(lia) ltac:(lia) ltac:(lia)) as (b2 & E2 & L2). rewrite E2. cbn [bind].
    eexists. apply wr_ok; lia.
  Qed.

  (** Usable tags are never refused *)
  Lemma encrypt_usable prf m tag t cbuf : usable_tag tag -> zlen cbuf = 90 -> exists ct, penc_encrypt R H ml false u1 u2 prf m tag t cbuf = Ok ct.
  Proof.
    intros Hu Hb. unfold penc_encrypt.
    destruct (encrypt_sp_ok R RO H ml u1 u2 EO (paramgen R prf) m tag t (paramgen_range R RO prf) (proj1 Hu) (usable_neq tag Hu))
      as (c & x & Ec & Cr & Ct & _). rewrite Ec. cbn [bind].
    apply write_ct_release; [exact (ct_rep_in_g1 R _ _ _ _ Cr)|rewrite Ct; apply Hu|exact Hb].
  Qed.

  (** inc_puncture with the reserved tag or a zero count *)
  Lemma share_in_g2 dbg prf d tag s : sk_share_gen R dbg prf (paramgen R prf) d tag = Ok s -> in_g2 s /\ sk4 R s = tag.
  Proof.
    unfold sk_share_gen. cbv zeta. intros E. pose proof (n_pos R RO) as Hn.
    assert (E' : exists a r, 0 <= a /\ 0 <= r /\ s = {| sk1 := pow (G2 R) (gen2 R) (zr_mul n (sp_beta (paramgen R prf)) a);
      sk2 := pow (G2 R) (pow (G2 R) (gen2 R) r) (v_exponent R (paramgen R prf) (hash_to_zr R tag)); sk3 := pow (G2 R) (gen2 R) r; sk4 := tag |}).
    { unfold cassert in E. destruct (0 <? d), (negb (bytes_eqb tag NULLTAG)), dbg; try discriminate E; injection E as <-;
        eexists; eexists; (split; [|split; [|reflexivity]]); apply (mod_range R RO). }
    destruct E' as (a & r & Ha & Hr & ->). split; [|reflexivity].
    eapply (share_rep_in_g2 R). eapply (share_made R RO); [apply (paramgen_range R RO)|exact Ha|exact Hr|reflexivity].
  Qed.
  Lemma inc_puncture_bad prf d tag buf : is_tag tag -> zlen buf = 211 -> tag = reserved_tag \/ d = 0 ->
    penc_inc_puncture R true prf d tag buf = Abort /\
    exists b, penc_inc_puncture R false prf d tag buf = Ok b /\ extract_tag_share b = Ok tag.
  Proof.
    intros Ht Hb Hc. split.
    - unfold penc_inc_puncture, sk_share_gen, cassert. cbv zeta. destruct Hc as [-> | ->].
      + destruct (0 <? d); reflexivity.
      + reflexivity.
    - unfold penc_inc_puncture.
      assert (Es : exists s, sk_share_gen R false prf (paramgen R prf) d tag = Ok s).
      { unfold sk_share_gen, cassert. cbv zeta. destruct (0 <? d), (negb (bytes_eqb tag NULLTAG)); eexists; reflexivity. }
      destruct Es as [s Es]. rewrite Es. cbn [bind]. destruct (share_in_g2 false prf d tag s Es) as [Hi E4].
      destruct (write_share_release s buf Hi ltac:(rewrite E4; apply Ht) Hb) as [b Eb]. exists b. split; [exact Eb|].
      unfold write_share in Eb. apply bind_inv in Eb. destruct Eb as (b1 & E1 & Eb). apply bind_inv in Eb. destruct Eb as (b2 & E2 & Eb).
      apply bind_inv in Eb. destruct Eb as (b3 & E3 & Eb).
      assert (L : forall buf pos g b, write_point false (G2 R) G2_SIZE buf pos g = Ok b -> zlen b = zlen buf).
      { intros ? ? ? ? E. unfold write_point, cassert in E. cbv zeta in E. destruct (_ =? _); apply (wr_zlen _ _ _ _ E). }
      apply L in E1, E2, E3. rewrite E4 in Eb. unfold extract_tag_share. change (SHARE_SIZE - TAG_SIZE) with 195. change TAG_SIZE with 16.
      change (3 * G2_SIZE) with 195 in Eb. destruct Ht as [Ht _]. rewrite <- Ht. apply (wr_last _ _ _ _ Eb). lia.
  Qed.

  (** C56: the tag field, in every build *)
  Lemma write_point_zlen dbg G size buf pos g b : write_point dbg G size buf pos g = Ok b -> zlen b = zlen buf.
  Proof. unfold write_point, cassert. cbv zeta. destruct (_ =? _), dbg; intros E; try discriminate; apply (wr_zlen _ _ _ _ E). Qed.
  Lemma write_share_tag dbg s buf b : zlen (sk4 R s) = 16 -> zlen buf = 211 -> write_share R dbg s buf = Ok b ->
    zlen b = 211 /\ extract_tag_share b = Ok (sk4 R s).
  Proof.
    intros Ht Hb E. unfold write_share in E. apply bind_inv in E. destruct E as (b1 & E1 & E). apply bind_inv in E. destruct E as (b2 & E2 & E).
    apply bind_inv in E. destruct E as (b3 & E3 & E). apply write_point_zlen in E1, E2, E3.
    split; [rewrite (wr_zlen _ _ _ _ E); lia|]. unfold extract_tag_share. change (SHARE_SIZE - TAG_SIZE) with 195. change TAG_SIZE with 16.
    rewrite <- Ht. apply (wr_last _ _ _ _ E). change (3 * G2_SIZE) with 195. lia.
  Qed.
  Lemma write_ct_tag dbg c buf b : zlen (ct_tag R (ct_partial R c)) = 16 -> zlen buf = 90 -> write_ct R dbg c buf = Ok b ->
    zlen b = 90 /\ extract_tag_ct b = Ok (ct_tag R (ct_partial R c)).
  Proof.
    intros Ht Hb E. unfold write_ct in E. apply bind_inv in E. destruct E as (b1 & E1 & E). apply bind_inv in E. destruct E as (b2 & E2 & E).
    apply bind_inv in E. destruct E as (b3 & E3 & E). apply wr_zlen in E1. apply write_point_zlen in E2, E3.
    split; [rewrite (wr_zlen _ _ _ _ E); lia|]. unfold extract_tag_ct. change (CT_SIZE - TAG_SIZE) with 74. change TAG_SIZE with 16.
    rewrite <- Ht. apply (wr_last _ _ _ _ E). change (8 + 2 * G1_SIZE) with 74. lia.
  Qed.
  Lemma api_tags dbg prf d tag m t buf cbuf b c : zlen tag = 16 -> zlen buf = 211 -> zlen cbuf = 90 ->
    (penc_initial_keyshare R dbg prf d buf = Ok b -> zlen b = 211 /\ extract_tag_share b = Ok reserved_tag) /\
    (penc_inc_puncture R dbg prf d tag buf = Ok b -> zlen b = 211 /\ extract_tag_share b = Ok tag) /\
    (penc_encrypt R H ml dbg u1 u2 prf m tag t cbuf = Ok c -> zlen c = 90 /\ extract_tag_ct c = Ok tag).
  Proof.
    intros Ht Hb Hc. split; [|split]; intros E.
    - unfold penc_initial_keyshare in E. change reserved_tag with NULLTAG. rewrite <- (sk0_tag R prf (paramgen R prf) d).
      apply (write_share_tag dbg _ buf); [rewrite sk0_tag; reflexivity|exact Hb|exact E].
    - unfold penc_inc_puncture in E. apply bind_inv in E. destruct E as (s & Es & E). destruct (share_in_g2 dbg prf d tag s Es) as [_ E4].
      rewrite <- E4. apply (write_share_tag dbg _ buf); [rewrite E4; exact Ht|exact Hb|exact E].
    - unfold penc_encrypt in E. apply bind_inv in E. destruct E as (c' & Ec & E).
      assert (Tg : ct_tag R (ct_partial R c') = tag).
      { unfold encrypt_sp in Ec. cbv zeta in Ec. apply bind_inv in Ec. destruct Ec as (bl & Eb & Ec). apply bind_inv in Ec. destruct Ec as (mk & _ & Ec).
        injection Ec as <-. cbn [ct_partial]. unfold blind_sp in Eb. destruct (bytes_eqb tag NULLTAG); [discriminate|]. injection Eb as <-. reflexivity. }
      rewrite <- Tg. apply (write_ct_tag dbg _ cbuf); [rewrite Tg; exact Ht|exact Hc|exact E].
  Qed.
  Lemma share_roundtrip dbg s buf : in_g2 s -> finite_share s -> zlen (sk4 R s) = 16 -> zlen buf = 211 ->
    exists b, write_share R dbg s buf = Ok b /\ read_share R b = Ok s.
  Proof. intros. eexists. split; [apply (write_share_ok R RO); assumption|apply (read_share_ok R RO); assumption]. Qed.
  Lemma ct_roundtrip dbg c buf : in_g1 c -> finite_ct c -> zlen (ct_tag R (ct_partial R c)) = 16 -> 0 <= ct1 R c < 2 ^ 64 -> zlen buf = 90 ->
    exists b, write_ct R dbg c buf = Ok b /\ read_ct R b = Ok c.
  Proof. intros. eexists. split; [apply (write_ct_ok R RO); assumption|apply (read_ct_ok R RO); assumption]. Qed.

  (** At the point at infinity (a null blinding exponent) release builds return uninitialised bytes *)
  Lemma infinity_leak prf m tag t cbuf : usable_tag tag -> zlen cbuf = 90 -> t mod n = 0 ->
    penc_encrypt R H ml true u1 u2 prf m tag t cbuf = Abort /\
    exists ct, penc_encrypt R H ml false u1 u2 prf m tag t cbuf = Ok ct /\ window ct 9 32 = window cbuf 9 32 /\ window ct 42 32 = window cbuf 42 32.
  Proof.
    intros Hu Hb Ht0. unfold penc_encrypt.
    destruct (encrypt_sp_ok R RO H ml u1 u2 EO (paramgen R prf) m tag t (paramgen_range R RO prf) (proj1 Hu) (usable_neq tag Hu))
      as (c & x & Ec & (y2 & y3 & P2 & P3 & E2 & E3 & C2 & C3) & Ct & _). rewrite Ec. cbn [bind].
    assert (U2 : ct2 R (ct_partial R c) = gunit (G1 R)).
    { rewrite E2, (gen_unit _ _ _ (ok_G1 R RO)). apply (pow_eq R); [exact (ok_G1 R RO)|lia|lia|]. rewrite C2, Ht0. reflexivity. }
    assert (U3 : ct3 R (ct_partial R c) = gunit (G1 R)).
    { rewrite E3, (gen_unit _ _ _ (ok_G1 R RO)). apply (pow_eq R); [exact (ok_G1 R RO)|lia|lia|]. rewrite C3, Ht0. cring. }
    pose proof (ok_inf1 R RO) as L. assert (Lt : zlen (ct_tag R (ct_partial R c)) = 16) by (rewrite Ct; apply Hu).
    unfold write_ct. rewrite U2, U3.
    assert (Ll : zlen (le_encode 8 (ct1 R c)) = 8) by (unfold zlen; rewrite le_encode_length; reflexivity).
    change G1_SIZE with 33. change (8 + 33) with 41. change (8 + 2 * 33) with 74.
    destruct (zsplit cbuf 8) as (b1 & r1 & -> & Hb1 & Hr1); [lia|].
    destruct (zsplit r1 1) as (b2 & r2 & -> & Hb2 & Hr2); [lia|].
    destruct (zsplit r2 32) as (b3 & r3 & -> & Hb3 & Hr3); [lia|].
    destruct (zsplit r3 1) as (b4 & r4 & -> & Hb4 & Hr4); [lia|].
    destruct (zsplit r4 32) as (b5 & b6 & -> & Hb5 & Hb6); [lia|].
    rewrite wr_prefix by lia. cbn [bind].
    set (w := wbin (G1 R) (gunit (G1 R))) in *. set (le := le_encode 8 (ct1 R c)) in *. set (tg := ct_tag R (ct_partial R c)) in *. clearbody le tg.
    assert (WF : forall buf pos, write_point false (G1 R) 33 buf pos (gunit (G1 R)) = wr buf pos w).
    { intros. unfold write_point, cassert. cbv zeta. fold w. destruct (_ =? _); reflexivity. }
    split.
    - unfold write_point. cbv zeta. fold w. rewrite L. reflexivity.
    - rewrite WF. rewrite wr_mid by lia. cbn [bind]. rewrite WF.
      replace (le ++ w ++ b3 ++ b4 ++ b5 ++ b6) with ((le ++ w ++ b3) ++ b4 ++ b5 ++ b6) by (rewrite <- !app_assoc; reflexivity).
      rewrite wr_mid by (rewrite ?zlen_app; lia). cbn [bind].
      replace ((le ++ w ++ b3) ++ w ++ b5 ++ b6) with ((le ++ w ++ b3 ++ w ++ b5) ++ b6) by (rewrite <- !app_assoc; reflexivity).
      rewrite wr_suffix by (rewrite ?zlen_app; lia). eexists. split; [reflexivity|].
      assert (N : forall (l : bytes) k, zlen l = k -> length l = Z.to_nat k) by (intros l k <-; unfold zlen; rewrite Nat2Z.id; reflexivity).
      pose proof (N le 8 Ll) as N1. pose proof (N w 1 L) as N2. pose proof (N b3 32 Hb3) as N3. pose proof (N b1 8 Hb1) as N4.
      pose proof (N b2 1 Hb2) as N5. pose proof (N b4 1 Hb4) as N6. pose proof (N b5 32 Hb5) as N7.
      change (Z.to_nat 8) with 8%nat in *. change (Z.to_nat 1) with 1%nat in *. change (Z.to_nat 32) with 32%nat in *.
      assert (WM : forall (a b c : bytes) o k, length a = o -> length b = k -> window (a ++ b ++ c) o k = b) by (intros a b c0 o k <- <-; apply window_app_mid).
      split.
      + rewrite <- !app_assoc. transitivity b3.
        * rewrite (app_assoc le). apply WM; [rewrite app_length; lia|assumption].
        * rewrite (app_assoc b1). symmetry. apply WM; [rewrite app_length; lia|assumption].
      + transitivity b5.
        * rewrite <- !app_assoc. replace (le ++ w ++ b3 ++ w ++ b5 ++ tg) with ((le ++ w ++ b3 ++ w) ++ b5 ++ tg) by (rewrite <- !app_assoc; reflexivity).
          apply WM; [rewrite !app_length; lia|assumption].
        * replace (b1 ++ b2 ++ b3 ++ b4 ++ b5 ++ b6) with ((b1 ++ b2 ++ b3 ++ b4) ++ b5 ++ b6) by (rewrite <- !app_assoc; reflexivity).
          symmetry. apply WM; [rewrite !app_length; lia|assumption].
  Qed.

  (** The public-key variant *)
  Lemma pk_correct dbg pk sk sp ps tag m t : 
    (exists ta tb ty tr, keygen_random R ta tb ty tr = (pk, sk, sp)) \/ (exists prf, keygen_prf R prf = (pk, sk, sp)) ->
    Forall (fun p => usable_tag (fst p)) ps -> zlen ps < 2 ^ 32 - 1 -> usable_tag tag ->
    exists sk' c, punctures R dbg pk sk ps = Ok sk' /\ encrypt_pk R H ml u1 u2 pk m tag t = Ok c /\ encrypt_sp R H ml u1 u2 sp m tag t = Ok c /\
      (In tag (map fst ps) -> decrypt R H ml u1 u2 sk' c = Ok None /\ decrypt_throwing R H ml u1 u2 sk' c = Throw InvalidArgument) /\
      ((forall t', In t' (reserved_tag :: map fst ps) -> tag_scalar R t' <> tag_scalar R tag) ->
        decrypt R H ml u1 u2 sk' c = Ok (Some m) /\ decrypt_throwing R H ml u1 u2 sk' c = Ok m).
  Proof.
    intros Hk Hps Hl Hu.
    assert (K : pk = make_pk R (sp_alpha sp) (sp_beta sp) (sp_ry sp) /\ sp_range R sp /\ exists r, 0 <= r < n /\ sk = [skgen R sp r]).
    { destruct Hk as [(ta & tb & ty & tr & E)|(prf & E)].
      - unfold keygen_random in E. cbv zeta in E. injection E as <- <- <-. cbn [sp_alpha sp_beta sp_ry].
        split; [reflexivity|]. split; [split; apply (mod_range R RO)|]. eexists. split; [apply (mod_range R RO)|reflexivity].
      - unfold keygen_prf in E. cbv zeta in E. injection E as <- <- <-.
        split; [reflexivity|]. split; [apply (paramgen_range R RO)|]. eexists. split; [apply (mod_range R RO)|reflexivity]. }
    destruct K as (-> & Hsp & r & Hr & ->). clear Hk.
    destruct (skgen_rep R RO sp r Hsp Hr) as (a & rho & Rep & Ed).
    assert (S0 : shares_sum R (sp_beta sp) (sp_ry sp) [skgen R sp r] (sp_alpha sp)).
    { eapply ss_cons; [exact Rep|apply ss_nil; reflexivity|]. rewrite Ed. cring. }
    assert (Hne : Forall (fun p : bytes * (Z * Z * Z) => fst p <> NULLTAG) ps) by (eapply Forall_impl; [|exact Hps]; intros p; apply usable_neq).
    destruct (punctures_keep R RO dbg sp (sp_alpha sp) ps [skgen R sp r] Hsp Hne eq_refl S0) as (sk' & E & Em & Ss).
    destruct (encrypt_sp_ok R RO H ml u1 u2 EO sp m tag t Hsp (proj1 Hu) (usable_neq tag Hu)) as (c & x & Ec & Cr & Ct & C1 & Px & Cx).
    exists sk', c. split; [exact E|]. split; [rewrite (encrypt_pk_sp R RO); assumption|]. split; [exact Ec|].
    change (map (sk4 R) [skgen R sp r]) with [reserved_tag] in Em.
    assert (Ltag : zlen (ct_tag R (ct_partial R c)) = 16) by (rewrite Ct; apply Hu).
    split.
    - intros Hin. assert (P : is_punctured_on_tag R sk' tag = true).
      { apply (is_punctured_true R). rewrite Em. apply in_or_app. right. exact Hin. }
      unfold decrypt, decrypt_throwing. rewrite Ct, P. split; reflexivity.
    - intros Hcol. refine (decrypt_objects R RO H ml u1 u2 EO sp sk' c (t mod n) m x Hsp Cr Ss _ Ltag _ _ Px Cx).
      + apply (f_equal (@length bytes)) in Em. rewrite app_length, !map_length in Em. cbn [length] in Em. unfold zlen in *. lia.
      + intros y Hy Ey. apply (Hcol (sk4 R y)); [|rewrite Ct in Ey; symmetry; exact Ey].
        change (reserved_tag :: map fst ps) with ([reserved_tag] ++ map fst ps). rewrite <- Em. apply in_map. exact Hy.
      + rewrite Ct. exact C1.
  Qed.

  (** When the size assertions of the debug build hold *)
  Lemma pow_unit1 a : 0 <= a -> a mod n = 0 -> pow (G1 R) (gen1 R) a = gunit (G1 R).
  Proof. intros Ha E. rewrite (gen_unit _ _ _ (ok_G1 R RO)), <- (gen_mod _ _ _ (ok_G1 R RO) a Ha), E. reflexivity. Qed.
  Lemma encrypt_debug_iff prf m tag t cbuf : usable_tag tag -> zlen cbuf = 90 ->
    (exists ct, penc_encrypt R H ml true u1 u2 prf m tag t cbuf = Ok ct) <->
    t mod n <> 0 /\ (sp_beta (paramgen R prf) + tag_scalar R tag * sp_ry (paramgen R prf)) mod n <> 0.
  Proof.
    intros Hu Hb. unfold penc_encrypt. pose proof (n_pos R RO) as Hn.
    destruct (encrypt_sp_ok R RO H ml u1 u2 EO (paramgen R prf) m tag t (paramgen_range R RO prf) (proj1 Hu) (usable_neq tag Hu))
      as (c & x & Ec & Cr & Ct & _). rewrite Ec. cbn [bind].
    pose proof (ct_rep_in_g1 R _ _ _ _ Cr) as Hi. assert (Lt : zlen (ct_tag R (ct_partial R c)) = 16) by (rewrite Ct; apply Hu).
    destruct Cr as (y2 & y3 & P2 & P3 & E2 & E3 & C2 & C3). rewrite Ct in C3.
    apply cong_iff in C2. rewrite Zmod_mod in C2.
    set (v := sp_beta (paramgen R prf) + tag_scalar R tag * sp_ry (paramgen R prf)) in *. clearbody v.
    split.
    - intros [ct E]. apply write_ct_debug in E. destruct E as [F2 F3]. split; intros Z0.
      + apply F2. rewrite E2. apply pow_unit1; [exact P2|]. rewrite C2. exact Z0.
      + apply F3. rewrite E3. apply pow_unit1; [exact P3|]. apply cong_iff in C3. rewrite C3, Zmult_mod, Z0, Z.mul_0_r. apply Z.mod_0_l. lia.
    - intros [Z2 Z3].
      assert (Y3 : y3 mod n <> 0).
      { intros Z0. apply cong_iff in C3. rewrite C3, Zmult_mod_idemp_l in Z0. apply Z.mod_divide in Z0; [|lia].
        apply prime_mult in Z0; [|exact (ok_prime R RO)]. destruct Z0 as [D|D]; apply Z.mod_divide in D; try lia; contradiction. }
      assert (F : finite_ct c).
      { split; intros U.
        - pose proof (proj1 (ok_enc1 R RO y2 P2 ltac:(rewrite C2; exact Z2))) as L1. rewrite <- E2, U, (ok_inf1 R RO) in L1. discriminate L1.
        - pose proof (proj1 (ok_enc1 R RO y3 P3 Y3)) as L1. rewrite <- E3, U, (ok_inf1 R RO) in L1. discriminate L1. }
      eexists. apply (write_ct_ok R RO); assumption.
  Qed.
End Api.

(** C75: distinct seeds *)
Definition dec_value (l : bytes) : Z := fold_left (fun a b => 10 * a + (b - 48)) l 0.
Lemma dec_digits_value f : forall d, 0 <= d < 10 ^ Z.of_nat f -> dec_value (dec_digits f d) = d.
Proof.
  induction f as [|f IH]; intros d Hd.
  - cbn in Hd. cbn. lia.
  - cbn [dec_digits]. unfold dec_value. rewrite fold_left_app. cbn [fold_left].
    pose proof (Z.div_mod d 10 ltac:(lia)) as DM. pose proof (Z.mod_pos_bound d 10 ltac:(lia)) as MB.
    destruct (d <? 10) eqn:E.
    + apply Z.ltb_lt in E. cbn [fold_left]. rewrite (Z.mod_small d 10) by lia. lia.
    + apply Z.ltb_ge in E. fold (dec_value (dec_digits f (d / 10))). rewrite IH; [lia|].
      rewrite Nat2Z.inj_succ, Z.pow_succ_r in Hd by lia. split; [apply Z.div_pos; lia|]. apply Z.div_lt_upper_bound; lia.
Qed.
Lemma to_dec_inj a b : 0 <= a < 2 ^ 64 -> 0 <= b < 2 ^ 64 -> to_dec a = to_dec b -> a = b.
Proof.
  intros Ha Hb E. assert (B : 2 ^ 64 < 10 ^ Z.of_nat 20) by reflexivity.
  rewrite <- (dec_digits_value 20 a), <- (dec_digits_value 20 b) by lia. f_equal. exact E.
Qed.
Lemma seeds_distinct u v : index_ok u -> index_ok v -> seed_of u = seed_of v -> u = v.
Proof.
  intros Hu Hv. destruct u, v; cbn [index_ok] in *; cbn [seed_of];
    unfold S_alpha, S_beta, S_ry, S_r, S_rho, S_l, S_r1, S_param; cbn [app]; intros E; try reflexivity; try discriminate E;
    injection E as E; f_equal; apply to_dec_inj; assumption.
Qed.
