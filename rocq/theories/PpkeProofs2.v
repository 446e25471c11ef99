(** The shares and ciphertexts the functions produce, and decryption. *)
From Coq Require Import Znumtheory Zdiv Setoid Morphisms.
From Verif Require Import BaseFacts PpkeModel PpkeSpec PpkeProofs HmacSpec HmacModel HmacProofs KeyVal.
Local Ltac Zify.zify_post_hook ::= idtac.

Section Shares.
  Context (R : relic) (RO : relic_ok R).
  Local Notation n := (order R).
  Local Notation "a == b" := (cong n a b) (at level 70).
  Local Notation e1 := (pow (G1 R) (gen1 R)).
  Local Notation e2 := (pow (G2 R) (gen2 R)).
  Local Notation eT := (pow (GT R) (genT R)).

  Record sp_range (sp : secret_params) : Prop := {
    r_alpha : 0 <= sp_alpha sp < n; r_beta : 0 <= sp_beta sp < n; r_ry : 0 <= sp_ry sp < n }.

  Lemma v_exponent_ok sp tag : sp_range sp -> 0 <= v_exponent R sp (hash_to_zr R tag) /\
    v_exponent R sp (hash_to_zr R tag) == sp_beta sp + tag_scalar R tag * sp_ry sp.
  Proof.
    intros [Ha Hb Hr]. pose proof (n_pos R RO) as Hn. pose proof (hash_range R RO tag) as Hh.
    unfold v_exponent, zr_add. split; [apply Z.mod_pos_bound; lia|]. rewrite eqm_mod, zr_mul_mod by lia.
    rewrite eqm_mod, (hash_eqm R tag). reflexivity.
  Qed.

  Lemma mod_range a : 0 <= a mod n < n.
  Proof. apply Z.mod_pos_bound. pose proof (n_pos R RO). lia. Qed.

  (** A share with sk3 = g^r, sk1 = g^(beta * a) *)
  Lemma share_made sp (a r : Z) tag s : sp_range sp -> 0 <= a -> 0 <= r ->
    s = {| sk1 := e2 (zr_mul n (sp_beta sp) a); sk2 := pow (G2 R) (e2 r) (v_exponent R sp (hash_to_zr R tag)); sk3 := e2 r; sk4 := tag |} ->
    share_rep R (sp_beta sp) (sp_ry sp) s a r.
  Proof.
    intros Hsp Ha Hr ->. pose proof (n_pos R RO) as Hn. destruct (v_exponent_ok sp tag Hsp) as [V1 V2].
    destruct Hsp as [Sa Sb Sr].
    exists (zr_mul n (sp_beta sp) a), (r * v_exponent R sp (hash_to_zr R tag)), r. cbn [sk1 sk2 sk3 sk4].
    rewrite zr_mul_mod by lia. pose proof (mod_range (sp_beta sp * a)).
    split; [lia|]. split; [apply Z.mul_nonneg_nonneg; lia|]. split; [lia|]. split; [reflexivity|].
    split; [apply (gen_pow _ _ _ (ok_G2 R RO)); lia|]. split; [reflexivity|].
    split; [apply eqm_mod|]. split; [rewrite V2; reflexivity|reflexivity].
  Qed.

  Lemma skgen_rep sp r : sp_range sp -> 0 <= r < n ->
    exists a rho, share_rep R (sp_beta sp) (sp_ry sp) (skgen R sp r) a rho /\ a - rho == sp_alpha sp.
  Proof.
    intros Hsp Hr. exists (zr_add n r (sp_alpha sp)), r. split.
    - eapply share_made; [exact Hsp| |lia|reflexivity]. apply mod_range.
    - unfold zr_add. rewrite eqm_mod. cring.
  Qed.

  Lemma paramgen_range prf : sp_range (paramgen R prf).
  Proof. split; apply mod_range. Qed.

  (** l_d, with l_0 = - alpha *)
  Definition ell (prf : bytes -> bytes) (d : Z) : Z :=
    if d =? 0 then - sp_alpha (paramgen R prf) else pseudo_random_zr R prf (S_l d).

  Lemma sk0_rep prf d : 0 <= d ->
    exists a rho, share_rep R (sp_beta (paramgen R prf)) (sp_ry (paramgen R prf)) (sk0_gen R prf (paramgen R prf) d) a rho /\
      a - rho == - ell prf d.
  Proof.
    intros Hd. pose proof (paramgen_range prf) as Hsp. pose proof (n_pos R RO) as Hn. unfold sk0_gen, ell. cbv zeta.
    destruct (d =? 0) eqn:E.
    - exists (zr_add n (pseudo_random_zr R prf (S_rho 0)) (sp_alpha (paramgen R prf))), (pseudo_random_zr R prf (S_rho 0)). split.
      + eapply share_made; [exact Hsp| | |reflexivity]; apply mod_range.
      + unfold zr_add. rewrite eqm_mod. cring.
    - pose proof (mod_range (be_decode (prf (S_rho d)))) as B1. pose proof (mod_range (be_decode (prf (S_l d)))) as B2.
      fold (pseudo_random_zr R prf (S_rho d)) in B1. fold (pseudo_random_zr R prf (S_l d)) in B2.
      exists (zr_sub n (pseudo_random_zr R prf (S_rho d)) (pseudo_random_zr R prf (S_l d))), (pseudo_random_zr R prf (S_rho d)).
      assert (X : zr_sub n (pseudo_random_zr R prf (S_rho d)) (pseudo_random_zr R prf (S_l d))
        = (pseudo_random_zr R prf (S_rho d) - pseudo_random_zr R prf (S_l d)) mod n) by (apply zr_sub_mod; lia).
      split.
      + eapply share_made; [exact Hsp| | |reflexivity]; [rewrite X|]; apply mod_range.
      + rewrite X, eqm_mod. cring.
  Qed.

  Lemma sk_share_rep dbg prf d tag : 0 < d -> tag <> NULLTAG ->
    exists s, sk_share_gen R dbg prf (paramgen R prf) d tag = Ok s /\ sk4 R s = tag /\
    exists a rho, share_rep R (sp_beta (paramgen R prf)) (sp_ry (paramgen R prf)) s a rho /\ a - rho == ell prf d - ell prf (d - 1).
  Proof.
    intros Hd Ht. pose proof (paramgen_range prf) as Hsp. pose proof (n_pos R RO) as Hn. unfold sk_share_gen, ell. cbv zeta.
    assert ((0 <? d) = true) as -> by (apply Z.ltb_lt; lia).
    assert (bytes_eqb tag NULLTAG = false) as -> by (apply bytes_eqb_neq; exact Ht). cbn [negb cassert].
    eexists. split; [reflexivity|]. split; [reflexivity|].
    assert ((d =? 0) = false) as -> by (apply Z.eqb_neq; lia).
    pose proof (mod_range (be_decode (prf (S_l d)))) as B1. fold (pseudo_random_zr R prf (S_l d)) in B1.
    set (l1 := if 1 <? d then pseudo_random_zr R prf (S_l (d - 1)) else zr_neg n (sp_alpha (paramgen R prf))).
    assert (L : 0 <= l1 <= n /\ l1 == (if d - 1 =? 0 then - sp_alpha (paramgen R prf) else pseudo_random_zr R prf (S_l (d - 1)))).
    { unfold l1. destruct (1 <? d) eqn:E.
      - apply Z.ltb_lt in E. assert ((d - 1 =? 0) = false) as -> by (apply Z.eqb_neq; lia). split; [|reflexivity].
        pose proof (mod_range (be_decode (prf (S_l (d - 1))))). unfold pseudo_random_zr. lia.
      - apply Z.ltb_ge in E. assert ((d - 1 =? 0) = true) as -> by (apply Z.eqb_eq; lia).
        destruct (zr_neg_nonneg n (sp_alpha (paramgen R prf)) ltac:(lia) ltac:(destruct Hsp; lia)) as [N1 N2].
        split; [|exact N2]. split; [exact N1|]. unfold zr_neg. cbv zeta. destruct Hsp as [Sa _ _].
        destruct (- sp_alpha (paramgen R prf) <? 0); lia. }
    clearbody l1. destruct L as [L1 L2].
    exists (zr_add n (zr_sub n (pseudo_random_zr R prf (S_l d)) l1) (pseudo_random_zr R prf (S_r1 d))), (pseudo_random_zr R prf (S_r1 d)).
    split.
    - eapply share_made; [exact Hsp| | |reflexivity]; apply mod_range.
    - unfold zr_add. rewrite eqm_mod, zr_sub_mod, eqm_mod, L2 by lia. cring.
  Qed.

  (** The telescoping sum of the puncture shares *)
  Lemma puncture_objects_ok dbg prf tags : forall i, 0 < i -> Forall (fun t => t <> NULLTAG) tags ->
    exists ss, puncture_objects R dbg prf (paramgen R prf) i tags = Ok ss /\ map (sk4 R) ss = tags /\
      shares_sum R (sp_beta (paramgen R prf)) (sp_ry (paramgen R prf)) ss (ell prf (i - 1 + zlen tags) - ell prf (i - 1)).
  Proof.
    induction tags as [|t tags IH]; intros i Hi Ht.
    - exists []. split; [reflexivity|]. split; [reflexivity|]. apply ss_nil. rewrite zlen_nil, Z.add_0_r. cring.
    - inversion Ht as [|? ? T1 T2]; subst. destruct (sk_share_rep dbg prf i t Hi T1) as (s & Es & E4 & a & rho & Hr & Hd).
      destruct (IH (i + 1) ltac:(lia) T2) as (ss & Ess & Em & Hs). exists (s :: ss). cbn [puncture_objects]. rewrite Es. cbn [bind].
      rewrite Ess. split; [reflexivity|]. split; [cbn [map]; rewrite E4, Em; reflexivity|].
      eapply ss_cons; [exact Hr|exact Hs|]. rewrite Hd. rewrite zlen_cons.
      replace (i + 1 - 1 + zlen tags) with (i - 1 + (1 + zlen tags)) by lia. replace (i + 1 - 1) with i by lia. cring.
  Qed.

  Lemma key_objects_ok dbg prf tags : Forall (fun t => t <> NULLTAG) tags ->
    exists ss, puncture_objects R dbg prf (paramgen R prf) 1 tags = Ok ss /\ map (sk4 R) ss = tags /\
      shares_sum R (sp_beta (paramgen R prf)) (sp_ry (paramgen R prf)) (sk0_gen R prf (paramgen R prf) (zlen tags) :: ss) (sp_alpha (paramgen R prf)).
  Proof.
    intros Ht. destruct (puncture_objects_ok dbg prf tags 1 ltac:(lia) Ht) as (ss & Es & Em & Hs). exists ss.
    split; [exact Es|]. split; [exact Em|]. destruct (sk0_rep prf (zlen tags) (zlen_nonneg tags)) as (a & rho & Hr & Hd).
    eapply ss_cons; [exact Hr|exact Hs|]. rewrite Hd. replace (1 - 1 + zlen tags) with (zlen tags) by lia.
    change (ell prf (1 - 1)) with (- sp_alpha (paramgen R prf)). cring.
  Qed.
  Lemma sk0_tag prf sp d : sk4 R (sk0_gen R prf sp d) = NULLTAG.
  Proof. unfold sk0_gen. cbv zeta. destruct (d =? 0); reflexivity. Qed.

  (** Public keys *)
  Lemma puncture_keeps dbg sp sk tag t0 t1 tl d : sp_range sp -> tag <> NULLTAG ->
    match sk with [] => False | s0 :: _ => sk4 R s0 = NULLTAG end ->
    shares_sum R (sp_beta sp) (sp_ry sp) sk d ->
    exists sk', puncture R dbg (make_pk R (sp_alpha sp) (sp_beta sp) (sp_ry sp)) sk tag t0 t1 tl = Ok sk' /\
      map (sk4 R) sk' = map (sk4 R) sk ++ [tag] /\
      shares_sum R (sp_beta sp) (sp_ry sp) sk' d.
  Proof.
    intros Hsp Ht H0 Hs. pose proof (n_pos R RO) as Hn. pose proof (ok_G2 R RO) as O2. destruct sk as [|s0 rest]; [destruct H0|].
    unfold puncture. assert (bytes_eqb tag NULLTAG = false) as -> by (apply bytes_eqb_neq; exact Ht).
    cbv zeta. assert (bytes_eqb (sk4 R s0) NULLTAG = true) as -> by (apply bytes_eqb_spec; exact H0). cbn [cassert].
    unfold make_pk. cbv zeta. cbn [pk_gqofxG2 pk_g2G2 pk_gG2].
    assert (Pr : 0 <= sp_ry sp /\ 0 <= sp_beta sp) by (destruct Hsp; lia).
    rewrite (gen_op _ _ _ O2) by lia.
    destruct (vx_ok R RO (G2 R) (gen2 R) (sp_beta sp) (sp_ry sp + sp_beta sp) (sp_beta sp) (sp_ry sp) NULLTAG O2
      ltac:(lia) ltac:(lia) (reflexivity _) (reflexivity _)) as (v0 & E0 & P0 & C0).
    destruct (vx_ok R RO (G2 R) (gen2 R) (sp_beta sp) (sp_ry sp + sp_beta sp) (sp_beta sp) (sp_ry sp) tag O2
      ltac:(lia) ltac:(lia) (reflexivity _) (reflexivity _)) as (v1 & E1 & P1 & C1).
    rewrite E0. cbn [bind]. rewrite E1. cbn [bind]. eexists. split; [reflexivity|].
    split. { rewrite <- app_comm_cons. cbn [map sk4]. rewrite map_app. reflexivity. }
    inversion Hs as [|? ? a rho dr ? Hr Hrest Hd]; subst.
    destruct Hr as (x1 & x2 & x3 & Px1 & Px2 & Px3 & Ex1 & Ex2 & Ex3 & Cx1 & Cx2 & Cx3).
    pose proof (mod_range t0) as R0. pose proof (mod_range t1) as R1. pose proof (mod_range tl) as Rl. unfold random_zr.
    set (r0 := t0 mod n) in *. set (r1 := t1 mod n) in *. set (lam := tl mod n) in *. clearbody r0 r1 lam.
    assert (S1 : zr_sub n r0 lam = (r0 - lam) mod n) by (apply zr_sub_mod; lia).
    pose proof (mod_range (r0 - lam)) as B1. pose proof (mod_range (r1 + lam)) as B2.
    assert (M1 : 0 <= sp_beta sp * ((r0 - lam) mod n)) by (apply Z.mul_nonneg_nonneg; lia).
    assert (M2 : 0 <= v0 * r0) by (apply Z.mul_nonneg_nonneg; lia).
    assert (M3 : 0 <= v1 * r1) by (apply Z.mul_nonneg_nonneg; lia).
    assert (M4 : 0 <= sp_beta sp * ((r1 + lam) mod n)) by (apply Z.mul_nonneg_nonneg; lia).
    assert (G2p : forall x, 0 <= x -> pow (G2 R) (gen2 R) x = e2 x) by reflexivity.
    eapply ss_cons with (a := a + (r0 - lam)) (rho := rho + r0).
    - exists (x1 + sp_beta sp * ((r0 - lam) mod n)), (x2 + v0 * r0), (x3 + r0). cbn [sk1 sk2 sk3 sk4].
      split; [lia|]. split; [lia|]. split; [lia|]. rewrite S1, Ex1, Ex2, Ex3.
      split; [rewrite (gen_pow _ _ _ O2), (gen_op _ _ _ O2) by lia; reflexivity|].
      split; [rewrite (gen_pow _ _ _ O2), (gen_op _ _ _ O2) by lia; reflexivity|].
      split; [rewrite (gen_op _ _ _ O2) by lia; reflexivity|].
      split; [rewrite eqm_mod, Cx1; cring|]. split; [rewrite Cx2, C0, H0; cring|]. rewrite Cx3. reflexivity.
    - assert (Hsn : forall l d0, shares_sum R (sp_beta sp) (sp_ry sp) l d0 ->
        shares_sum R (sp_beta sp) (sp_ry sp) (l ++ [{| sk1 := pow (G2 R) (e2 (sp_beta sp)) (zr_add n r1 lam); sk2 := pow (G2 R) (e2 v1) r1;
            sk3 := e2 r1; sk4 := tag |}]) (d0 + lam)).
      { induction 1 as [d0 E|s ss a' rho' d0 d0' Hr' Hss IH E].
        - cbn [app]. eapply ss_cons with (a := r1 + lam) (rho := r1); [|apply ss_nil; reflexivity|rewrite E; cring].
          exists (sp_beta sp * ((r1 + lam) mod n)), (v1 * r1), r1. cbn [sk1 sk2 sk3 sk4]. unfold zr_add.
          split; [lia|]. split; [lia|]. split; [lia|].
          split; [apply (gen_pow _ _ _ O2); lia|]. split; [apply (gen_pow _ _ _ O2); lia|]. split; [reflexivity|].
          split; [rewrite eqm_mod; reflexivity|]. split; [rewrite C1; cring|reflexivity].
        - cbn [app]. eapply ss_cons; [exact Hr'|exact IH|]. rewrite E. cring. }
      apply Hsn. exact Hrest.
    - rewrite Hd. cring.
  Qed.

  Lemma punctures_keep dbg sp d ps : forall sk, sp_range sp -> Forall (fun p => fst p <> NULLTAG) ps ->
    match sk with [] => False | s0 :: _ => sk4 R s0 = NULLTAG end ->
    shares_sum R (sp_beta sp) (sp_ry sp) sk d ->
    exists sk', punctures R dbg (make_pk R (sp_alpha sp) (sp_beta sp) (sp_ry sp)) sk ps = Ok sk' /\
      map (sk4 R) sk' = map (sk4 R) sk ++ map fst ps /\
      shares_sum R (sp_beta sp) (sp_ry sp) sk' d.
  Proof.
    induction ps as [|[t [[t0 t1] tl]] ps IH]; intros sk Hsp Hf H0 Hs.
    - exists sk. split; [reflexivity|]. split; [cbn [map]; rewrite app_nil_r; reflexivity|exact Hs].
    - inversion Hf as [|? ? F1 F2]; subst. cbn [fst] in F1.
      destruct (puncture_keeps dbg sp sk t t0 t1 tl d Hsp F1 H0 Hs) as (sk' & E & Em & Hs'). cbn [punctures]. rewrite E. cbn [bind].
      destruct (IH sk' Hsp F2) as (sk2' & E2 & Em2 & Hs2).
      { destruct sk as [|s0 rest]; [destruct H0|]. destruct sk' as [|s0' rest']; [destruct (map (sk4 R) rest); discriminate Em|].
        cbn [map app] in Em. injection Em as Em0 _. congruence. }
      { exact Hs'. }
      exists sk2'. split; [exact E2|]. split; [|exact Hs2]. rewrite Em2, Em, <- app_assoc. reflexivity.
  Qed.

  (** Ciphertexts *)
  Lemma blind_sp_ok sp s tag : sp_range sp -> 0 <= s < n -> tag <> NULLTAG ->
    exists c, blind_sp R sp s tag = Ok c /\ ct_rep R (sp_beta sp) (sp_ry sp) c s /\ ct_tag R c = tag.
  Proof.
    intros Hsp Hs Ht. unfold blind_sp. assert (bytes_eqb tag NULLTAG = false) as -> by (apply bytes_eqb_neq; exact Ht).
    eexists. split; [reflexivity|]. split; [|reflexivity]. destruct (v_exponent_ok sp tag Hsp) as [V1 V2].
    exists s, (s * v_exponent R sp (hash_to_zr R tag)). cbn [ct2 ct3 ct_tag]. split; [lia|]. split; [apply Z.mul_nonneg_nonneg; lia|].
    split; [reflexivity|]. split; [apply (gen_pow _ _ _ (ok_G1 R RO)); lia|]. split; [reflexivity|]. rewrite V2. reflexivity.
  Qed.

  (** Both encryptions hide the message with the same group element *)
  Lemma blind_pk_sp sp s tag : sp_range sp -> 0 <= s < n ->
    blind_pk R (make_pk R (sp_alpha sp) (sp_beta sp) (sp_ry sp)) s tag = blind_sp R sp s tag.
  Proof.
    intros Hsp Hs. unfold blind_pk, blind_sp. destruct (bytes_eqb tag NULLTAG); [reflexivity|].
    unfold make_pk. cbv zeta. cbn [pk_gqofxG1 pk_gG1]. pose proof (ok_G1 R RO) as O1.
    assert (Pr : 0 <= sp_ry sp /\ 0 <= sp_beta sp) by (destruct Hsp; lia).
    rewrite (gen_op _ _ _ O1) by lia.
    destruct (vx_ok R RO (G1 R) (gen1 R) (sp_beta sp) (sp_ry sp + sp_beta sp) (sp_beta sp) (sp_ry sp) tag O1
      ltac:(lia) ltac:(lia) (reflexivity _) (reflexivity _)) as (v1 & E1 & P1 & C1).
    rewrite E1. cbn [bind]. f_equal. f_equal. destruct (v_exponent_ok sp tag Hsp) as [V1 V2].
    rewrite !(gen_pow _ _ _ O1) by lia. apply (pow_eq R); [exact O1| | |]; try (apply Z.mul_nonneg_nonneg; lia).
    rewrite C1, V2. cring.
  Qed.
  Lemma blinding_pk_sp sp s : sp_range sp -> 0 <= s < n ->
    pow (GT R) (pairing R (e1 (sp_beta sp)) (e2 (sp_alpha sp))) s = eT (zr_mul n (zr_mul n (sp_alpha sp) (sp_beta sp)) s).
  Proof.
    intros [Sa Sb Sr] Hs. pose proof (n_pos R RO) as Hn. rewrite (ok_pairing R RO) by lia.
    assert (0 <= sp_beta sp * sp_alpha sp) by (apply Z.mul_nonneg_nonneg; lia).
    rewrite (gen_pow _ _ _ (ok_GT R RO)) by lia. pose proof (mod_range (sp_alpha sp * sp_beta sp)).
    rewrite (zr_mul_mod n (sp_alpha sp)), zr_mul_mod by lia.
    apply (pow_eq R); [exact (ok_GT R RO)|apply Z.mul_nonneg_nonneg; lia|apply mod_range|].
    rewrite !eqm_mod. cring.
  Qed.
End Shares.
