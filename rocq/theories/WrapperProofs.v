From Verif Require Import BaseFacts KeyVal HmacModel HmacSpec HmacProofs HmacProofs2 WrapperModel WrapperSpec.

Lemma u64_id x : 0 <= x < 2 ^ 64 -> u64 x = x.
Proof. intros. unfold u64. apply Z.mod_small. lia. Qed.

Section Proofs.
  Context (H : bytes -> bytes) (stream : bytes -> bytes -> nat -> bytes) (ml : bool) (g : Z -> bytes).
  Context (HH : forall y, zlen (H y) = 64) (Hg : sized g) (HS : forall k n l, length (stream k n l) = l).
  Notation tagF := (auth_tag H).
  Notation rep := (representation H stream).

  Lemma tag_length tk x : zlen (tagF tk x) = 12.
  Proof.
    unfold auth_tag. pose proof (hm_length H HH tk x) as L. unfold zlen. rewrite firstn_length, L. reflexivity.
  Qed.

  Lemma w_tag_ok tk l x : zlen tk = 32 -> zlen x < 2 ^ 63 ->
    w_tag H ml g (VKey tk l) x (zlen x) = (VKey tk ml, Ok (tagF tk x)).
  Proof.
    intros Hk Hx. unfold w_tag, kTagSize. rewrite <- (app_nil_r x) at 1. pose proof (zlen_nonneg x).
    rewrite prf_ctr; try assumption; try lia.
    - reflexivity.
    - apply Hg. lia.
    - apply Hg. lia.
  Qed.

  Lemma header_ok C n iv : zlen iv = 16 -> 17 + zlen (w_ctx C) + n < 2 ^ 63 -> 0 <= n ->
    exists r, zlen r = n /\
      header C (g (17 + zlen (w_ctx C) + n)) iv = Ok (iv ++ [w_type C] ++ w_ctx C ++ r).
  Proof.
    intros Hiv Hn Hn0. unfold header. pose proof (zlen_nonneg (w_ctx C)).
    assert (G : zlen (g (17 + zlen (w_ctx C) + n)) = 17 + zlen (w_ctx C) + n) by (apply Hg; lia).
    destruct (zsplit (g (17 + zlen (w_ctx C) + n)) 16) as (a & b & Eg & Ha & Hb); [lia|]. rewrite Eg, G in *. clear Eg G.
    destruct (zsplit b 1) as (b1 & b2 & Eb & Hb1 & Hb2); [lia|]. rewrite Hb in Hb2. subst b.
    destruct (zsplit b2 (zlen (w_ctx C))) as (b3 & b4 & Eb & Hb3 & Hb4); [lia|]. rewrite Hb2 in Hb4. subst b2.
    exists b4. split; [lia|]. unfold kRandomIVSize.
    rewrite wr_prefix by lia. rewrite bind_Ok.
    rewrite wr_mid; [rewrite bind_Ok|lia|rewrite Hb1; reflexivity].
    change (16 + 1) with 17.
    replace (iv ++ [w_type C] ++ b3 ++ b4) with ((iv ++ [w_type C]) ++ b3 ++ b4) by (rewrite <- app_assoc; reflexivity).
    rewrite wr_mid; [rewrite <- app_assoc; reflexivity| |lia]. rewrite zlen_app, Hiv. reflexivity.
  Qed.

  Lemma input_zlen C iv s : zlen iv = 16 -> zlen (auth_input C iv s) = 17 + zlen (w_ctx C) + zlen s.
  Proof. intros Hiv. unfold auth_input. rewrite zlen_app, zlen_cons, zlen_app. lia. Qed.

  (** wrap *)
  Lemma wrap_ok C tk ek l l' c c' s iv : zlen tk = 32 -> zlen iv = 16 -> zlen (w_ctx C) < 2 ^ 32 ->
    w_size C c = Ok (zlen s) -> zlen s <= STREAM_MAX -> w_ser C c = (c', Ok s) ->
    wrap H stream ml g C (mk_wrapper (VKey tk l) (VKey ek l')) c iv =
      (c', (mk_wrapper (VKey tk ml) (VKey ek ml), None, Ok (rep tk ek C iv s))).
  Proof.
    intros Hk Hiv Hctx Hsz Hmax Hser. unfold wrap. rewrite Hsz, Hser. pose proof (zlen_nonneg (w_ctx C)). pose proof (zlen_nonneg s).
    unfold STREAM_MAX in Hmax. unfold w_kCiphertextExpansion, kTagSize, kRandomIVSize.
    replace (u64 (16 + zlen s + zlen (w_ctx C) + 1)) with (17 + zlen (w_ctx C) + zlen s) by (rewrite u64_id by lia; lia).
    destruct (header_ok C (zlen s) iv Hiv ltac:(lia) ltac:(lia)) as (r & Hr & ->).
    replace (iv ++ [w_type C] ++ w_ctx C ++ r) with ((iv ++ [w_type C] ++ w_ctx C) ++ r) by (rewrite <- !app_assoc; reflexivity).
    rewrite (wr_suffix _ r s); [|rewrite !zlen_app, Hiv, zlen_cons, zlen_nil; lia|lia].
    rewrite u64_id by lia.
    replace (rd ((iv ++ [w_type C] ++ w_ctx C) ++ s) 0 16) with (Ok iv)
      by (rewrite <- app_assoc; symmetry; apply rd_prefix; lia).
    rewrite bind_Ok.
    replace (Z.to_nat (12 + 16 + zlen s)) with (16 + (length s + 12))%nat by (unfold zlen in *; lia).
    rewrite !zeros_app. rewrite wr_prefix by (rewrite zlen_zeros; lia).
    assert (IN : (iv ++ [w_type C] ++ w_ctx C) ++ s = auth_input C iv s) by (unfold auth_input; rewrite <- !app_assoc; reflexivity).
    rewrite IN. rewrite <- (input_zlen C iv s Hiv). cbn [tagk]. rewrite w_tag_ok by (try assumption; rewrite input_zlen by assumption; lia).
    set (t := tagF tk (auth_input C iv s)).
    assert (Lt : zlen t = 12) by apply tag_length.
    replace (iv ++ zeros (length s) ++ zeros 12) with ((iv ++ zeros (length s)) ++ zeros 12) by (rewrite <- app_assoc; reflexivity).
    rewrite (wr_suffix _ (zeros 12) t); [|rewrite !zlen_app, !zlen_zeros; lia|rewrite zlen_zeros; lia].
    cbn [enck v_unlock_get]. rewrite <- IN.
    rewrite (rd_suffix _ s); [|rewrite !zlen_app, Hiv, zlen_cons, zlen_nil; lia|reflexivity]. rewrite bind_Ok.
    unfold ietf_xor, STREAM_MAX. replace (64 * 2 ^ 32 <? zlen s) with false by lia. rewrite bind_Ok.
    rewrite <- app_assoc. rewrite wr_mid; [|lia|].
    - reflexivity.
    - rewrite zlen_zeros. unfold zlen. rewrite xorb_list_length, HS. lia.
  Qed.

  (** unwrap, on every input that is long enough: [c_rep] is cut in IV, ciphertext and tag. *)
  Lemma unwrap_ok C tk ek l l' iv x t : zlen tk = 32 -> zlen iv = 16 -> zlen t = 12 -> 0 < zlen x <= STREAM_MAX -> zlen (w_ctx C) < 2 ^ 32 ->
    let s := xorb_list x (stream ek t (length x)) in
    let w' := mk_wrapper (VKey tk ml) (VKey ek ml) in
    unwrap H stream ml g C (mk_wrapper (VKey tk l) (VKey ek l')) (iv ++ x ++ t) =
      if negb (bytes_eqb t (tagF tk (auth_input C iv s))) then (iv ++ x ++ t, (w', Some (auth_input C iv s), Throw RuntimeError))
      else match w_deser C s (zlen s) with
           | Ok (c, tl, n) =>
             if negb (n =? zlen s) then (iv ++ x ++ t, (w', Some (auth_input C iv tl), Throw RuntimeError))
             else (zeros (length (iv ++ x ++ t)), (w', None, Ok c))
           | o => (iv ++ x ++ t, fail w' (auth_input C iv s) o)
           end.
  Proof.
    intros Hk Hiv Ht Hx Hctx s w'. unfold unwrap. rewrite !zlen_app, Hiv, Ht. pose proof (zlen_nonneg (w_ctx C)).
    unfold STREAM_MAX in Hx. unfold w_kCiphertextExpansion, kTagSize, kRandomIVSize.
    replace (16 + (zlen x + 12) <=? 12 + 16) with false by lia.
    replace (16 + (zlen x + 12) - (12 + 16)) with (zlen x) by lia.
    assert (Ls : zlen s = zlen x) by (unfold s, zlen; rewrite xorb_list_length, HS; lia).
    replace (u64 (16 + zlen x + zlen (w_ctx C) + 1)) with (17 + zlen (w_ctx C) + zlen s) by (rewrite u64_id by lia; lia).
    rewrite rd_prefix by lia. rewrite bind_Ok.
    destruct (header_ok C (zlen s) iv Hiv ltac:(lia) ltac:(lia)) as (r & Hr & ->).
    replace (iv ++ x ++ t) with ((iv ++ x) ++ t) by (rewrite <- app_assoc; reflexivity).
    rewrite (rd_suffix (iv ++ x) t); [|rewrite zlen_app; lia|lia].
    cbn [v_unlock_get enck]. rewrite <- (app_assoc iv x t).
    rewrite rd_mid by lia. rewrite bind_Ok.
    unfold ietf_xor, STREAM_MAX. replace (64 * 2 ^ 32 <? zlen x) with false by lia. rewrite bind_Ok. fold s.
    replace (iv ++ [w_type C] ++ w_ctx C ++ r) with ((iv ++ [w_type C] ++ w_ctx C) ++ r) by (rewrite <- !app_assoc; reflexivity).
    rewrite (wr_suffix _ r s); [|rewrite !zlen_app, Hiv, zlen_cons, zlen_nil; lia|lia].
    assert (IN : forall y, (iv ++ [w_type C] ++ w_ctx C) ++ y = auth_input C iv y) by (intros; unfold auth_input; rewrite <- !app_assoc; reflexivity).
    rewrite IN. rewrite <- (input_zlen C iv s Hiv). cbn [tagk].
    rewrite w_tag_ok by (try assumption; rewrite input_zlen by assumption; lia).
    cbn [enck v_lock]. fold w'.
    destruct (negb _); [reflexivity|].
    replace (16 + 1 + zlen (w_ctx C)) with (zlen (iv ++ [w_type C] ++ w_ctx C)) by (rewrite !zlen_app, Hiv, zlen_cons, zlen_nil; lia).
    rewrite <- IN.
    assert (SK : skipn (Z.to_nat (zlen (iv ++ [w_type C] ++ w_ctx C))) ((iv ++ [w_type C] ++ w_ctx C) ++ s) = s).
    { unfold zlen. rewrite Nat2Z.id. rewrite skipn_app, skipn_all, Nat.sub_diag. reflexivity. }
    rewrite SK. rewrite <- Ls. destruct (w_deser C s (zlen s)) as [[[c tl] n]|e| | |]; try reflexivity.
    rewrite firstn_zlen_app by reflexivity. rewrite IN. reflexivity.
  Qed.

  Lemma representation_length C tk ek iv s : zlen iv = 16 -> zlen (rep tk ek C iv s) = zlen s + 28.
  Proof.
    intros Hiv. unfold representation. rewrite !zlen_app, tag_length, Hiv.
    replace (zlen (xorb_list s _)) with (zlen s); [lia|]. unfold zlen. rewrite xorb_list_length, HS. lia.
  Qed.

  (** C34 *)
  Lemma unwrap_wrap C tk ek l l' l2 l2' c s iv : zlen tk = 32 -> zlen iv = 16 -> zlen (w_ctx C) < 2 ^ 32 -> serializes C c s ->
    exists c' c'', 
      let w' := mk_wrapper (VKey tk ml) (VKey ek ml) in
      wrap H stream ml g C (mk_wrapper (VKey tk l) (VKey ek l')) c iv = (c', (w', None, Ok (rep tk ek C iv s))) /\
      zlen (rep tk ek C iv s) = zlen s + 28 /\
      unwrap H stream ml g C (mk_wrapper (VKey tk l2) (VKey ek l2')) (rep tk ek C iv s) =
        (zeros (Z.to_nat (zlen s + 28)), (w', None, Ok c'')) /\
      snd (w_ser C c'') = Ok s /\ exists tl, w_deser C s (zlen s) = Ok (c'', tl, zlen s).
  Proof.
    intros Hk Hiv Hctx (Hsz & Hs & (c' & Hser) & c'' & tl & Hd & Hser'').
    exists c', c''. cbn zeta. split; [apply wrap_ok; (assumption || lia)|].
    pose proof (representation_length C tk ek iv s Hiv) as L. split; [exact L|].
    split; [|split; [assumption|eauto]].
    unfold representation in *. set (t := tagF tk (auth_input C iv s)) in *.
    assert (Lx : length (xorb_list s (stream ek t (length s))) = length s) by (rewrite xorb_list_length, HS; lia).
    rewrite unwrap_ok; try assumption; [|apply tag_length|unfold zlen in *; lia].
    rewrite Lx. rewrite xorb_list_cancel by (rewrite HS; lia). fold t. rewrite bytes_eqb_refl. cbn [negb].
    rewrite Hd, Z.eqb_refl. cbn [negb]. do 2 f_equal. unfold zlen in *. rewrite <- L. rewrite Nat2Z.id. reflexivity.
  Qed.

  (** C35 *)
  Lemma unwrap_authentic C tk ek l l' c_rep c_rep' w' lk c : zlen tk = 32 -> zlen c_rep <= STREAM_MAX -> zlen (w_ctx C) < 2 ^ 32 ->
    unwrap H stream ml g C (mk_wrapper (VKey tk l) (VKey ek l')) c_rep = (c_rep', (w', lk, Ok c)) ->
    exists iv s tl, zlen iv = 16 /\ 0 < zlen s /\ c_rep = rep tk ek C iv s /\ w_deser C s (zlen s) = Ok (c, tl, zlen s).
  Proof.
    intros Hk Hmax Hctx E. destruct (Z.leb_spec (zlen c_rep) 28) as [Hle|Hgt].
    { unfold unwrap in E. replace (zlen c_rep <=? w_kCiphertextExpansion) with true in E by (symmetry; apply Z.leb_le; exact Hle). discriminate. }
    destruct (zsplit c_rep 16) as (iv & y & -> & Hiv & Hy); [lia|].
    destruct (zsplit y (zlen y - 12)) as (x & t & -> & Hx & Ht); [rewrite zlen_app in *; lia|]. rewrite !zlen_app in *.
    rewrite unwrap_ok in E; try assumption; try lia. 
    set (s := xorb_list x (stream ek t (length x))) in *.
    destruct (bytes_eqb t _) eqn:Et; [|discriminate]. apply bytes_eqb_spec in Et. cbn [negb] in E.
    destruct (w_deser C s (zlen s)) as [[[c0 tl] n]|e| | |] eqn:Ed; try discriminate.
    destruct (Z.eqb_spec n (zlen s)) as [->|]; [|discriminate]. cbn [negb] in E. injection E as _ _ _ <-.
    exists iv, s, tl. assert (Ls : length s = length x) by (unfold s; rewrite xorb_list_length, HS; lia).
    split; [assumption|]. split; [unfold zlen in *; lia|]. split; [|assumption].
    unfold representation. rewrite <- Et. rewrite Ls. unfold s. rewrite xorb_list_cancel by (rewrite HS; lia). reflexivity.
  Qed.

  (** Any other representation is refused. *)
  Lemma unwrap_rejects C tk ek l l' c_rep : zlen tk = 32 -> zlen c_rep <= STREAM_MAX -> zlen (w_ctx C) < 2 ^ 32 ->
    (forall iv s, zlen iv = 16 -> 0 < zlen s -> c_rep <> rep tk ek C iv s) ->
    exists w' lk, unwrap H stream ml g C (mk_wrapper (VKey tk l) (VKey ek l')) c_rep =
      (c_rep, (w', lk, Throw (if zlen c_rep <=? 28 then InvalidArgument else RuntimeError))).
  Proof.
    intros Hk Hmax Hctx Hno. destruct (Z.leb_spec (zlen c_rep) 28) as [Hle|Hgt].
    { unfold unwrap. replace (zlen c_rep <=? w_kCiphertextExpansion) with true by (symmetry; apply Z.leb_le; exact Hle). eauto. }
    destruct (zsplit c_rep 16) as (iv & y & -> & Hiv & Hy); [lia|].
    destruct (zsplit y (zlen y - 12)) as (x & t & -> & Hx & Ht); [rewrite zlen_app in *; lia|]. rewrite !zlen_app in *.
    rewrite unwrap_ok; try assumption; try lia. 
    set (s := xorb_list x (stream ek t (length x))) in *.
    destruct (bytes_eqb t _) eqn:Et; [exfalso|cbn [negb]; eauto]. apply bytes_eqb_spec in Et.
    assert (Ls : length s = length x) by (unfold s; rewrite xorb_list_length, HS; lia).
    apply (Hno iv s); [assumption|unfold zlen in *; lia|].
    unfold representation. rewrite <- Et. rewrite Ls. unfold s. rewrite xorb_list_cancel by (rewrite HS; lia). reflexivity.
  Qed.

  (** C37: nothing is assumed about the keys or the size. *)
  Lemma unwrap_erases C w c_rep c_rep' w' lk o : unwrap H stream ml g C w c_rep = (c_rep', (w', lk, o)) ->
    match o with Ok _ => c_rep' = zeros (length c_rep) | _ => c_rep' = c_rep end.
  Proof.
    clear. unfold unwrap. set (B := g _). clearbody B. intros E.
    repeat match type of E with
      | (if ?b then _ else _) = _ => destruct b
      | (match ?x with _ => _ end) = _ => destruct x
      | (let (_, _) := ?x in _) = _ => destruct x
      end; unfold fail in E; injection E as <- _ _ <-; reflexivity.
  Qed.

  (** Secure allocation: freed on success only. *)
  Lemma unwrap_leaks C w c_rep c_rep' w' lk o : unwrap H stream ml g C w c_rep = (c_rep', (w', lk, o)) ->
    28 < zlen c_rep ->
    match o with Ok _ => lk = None | _ => lk <> None end.
  Proof.
    clear. unfold unwrap. set (B := g _). clearbody B. intros E Hz.
    replace (zlen c_rep <=? w_kCiphertextExpansion) with false in E by (symmetry; apply Z.leb_gt; exact Hz).
    repeat match type of E with
      | (if ?b then _ else _) = _ => destruct b
      | (match ?x with _ => _ end) = _ => destruct x
      | (let (_, _) := ?x in _) = _ => destruct x
      end; unfold fail in E; injection E as _ _ <- <-; try reflexivity; discriminate.
  Qed.

  Lemma w_derive_ok kdf l b : zlen kdf = 32 ->
    w_derive H ml g (VKey kdf l) b = (VKey kdf ml, Ok (VKey (firstn 32 (rfc_hmac H 128 kdf [b])) ml)).
  Proof using HH Hg.
    clear HS stream. intros Hk. unfold w_derive, kEncryptionKeySize.
    destruct (prf_overloads H ml g kdf l [b] (g 32) (g 2) 32) as (o & Ho & A1 & A2 & A3);
      [exact HH|exact Hg|exact Hk|lia|vm_compute; reflexivity|apply Hg; lia|change (zlen [b] + 1) with 2; apply Hg; lia|].
    pose proof (A3 []) as E3. pose proof (A1 []) as E1. simpl app in *. change (zlen [b]) with 1 in *. rewrite E3.
    pose proof (prf_ctr H ml g kdf l [b] [] (g 32) (g 2) 32 HH Hg Hk ltac:(lia) ltac:(vm_compute; reflexivity) ltac:(apply Hg; lia) ltac:(change (zlen [b] + 1) with 2; apply Hg; lia)) as P.
    simpl app in P. change (zlen [b]) with 1 in P. rewrite P in E1. injection E1 as <-. reflexivity.
  Qed.

  Lemma w_ctor_ok kb l : zlen kb = 32 ->
    w_ctor H ml g (VKey kb l) = (VEmpty, Ok (mk_wrapper (VKey (tag_key H kb) ml) (VKey (enc_key H kb) ml))) /\
    zlen (tag_key H kb) = 32 /\ zlen (enc_key H kb) = 32.
  Proof using HH Hg.
    clear HS stream. intros Hk. split.
    - unfold w_ctor, prf_ctor. cbn [v_is_empty]. rewrite w_derive_ok by assumption. rewrite bind_Ok. cbn [v_is_empty snd].
      rewrite bind_Ok. rewrite w_derive_ok by assumption. reflexivity.
    - unfold tag_key, enc_key, zlen. rewrite !firstn_length.
      pose proof (hm_length H HH kb [1]) as L1. pose proof (hm_length H HH kb [2]) as L2. rewrite L1, L2. split; reflexivity.
  Qed.
End Proofs.
