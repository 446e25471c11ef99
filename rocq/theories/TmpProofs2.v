(** Lemmas on temporary memory: the functions of Prg and Cipher. *)
From Coq Require Import Lia.
From Verif Require Import Base BaseFacts KeyVal PrgModel CipherModel HmacModel TmpModel TmpSpec TmpProofs.

Lemma st_eta (s : tst) : s = mkT (t_mem s) (t_key s).
Proof. destruct s; reflexivity. Qed.
Lemma wiped_under m c l' : Forall gone l' -> forall m', m' = (m ++ [c]) ++ l' -> m' = m ++ c :: l'.
Proof. intros _ m' ->. now rewrite <- app_assoc. Qed.

(** The end of the functions on strings: a copy, then the array is wiped and deleted *)
Lemma finish m gd l key o len s r : zlen gd = len -> Forall gone l ->
  (t_wr (length m) 0 o ;;; d <== t_get (length m) ;; x <== tlift (rd d 0 len) ;; t_wipe (length m) len ;;; t_delete (length m) ;;; tret x)
    (mkT (m ++ mkB New true gd :: l) key) = (s, Ok r) ->
  wiped m (t_mem s) /\ t_key s = key /\ exists d, wr gd 0 o = Ok d /\ rd d 0 len = Ok r.
Proof.
  intros Lg F E. destruct (wr_cases gd 0 o) as [[d Ed]|Ed].
  2:{ rewrite (tbind_ub _ _ _ _ (wr_0_ub _ _ _ _ _ _ _ Ed)) in E. discriminate. }
  rewrite (tbind_ok _ _ _ _ _ (wr_0 _ _ _ _ _ _ _ _ Ed)), (tbind_ok _ _ _ _ _ (get_0 _ _ _ _ _)) in E. apply tlift_inv in E as (x & Ex & E).
  pose proof (wr_zlen _ _ _ _ Ed) as Ld. unfold t_wipe in E. rewrite (tbind_ok _ _ _ _ _ (wr_0 _ _ _ _ _ _ _ _ (wipe_all d len ltac:(lia)))) in E.
  rewrite (tbind_ok _ _ _ _ _ (del_0 _ _ _ _)) in E. injection E as <- <-. cbn [t_mem t_key]. split; [|split; [reflexivity|eauto]].
  eexists. split; [reflexivity|]. constructor; [|exact F]. split; [reflexivity|apply zeros_zero].
Qed.

Section Prg.
  Context (ml : bool) (blk : bytes -> Z -> bytes).
  Lemma derive_buf_inv g fu fl offset len out m k s o : zlen g = 64 ->
    t_derive_buf ml blk g fu fl offset len out (mkT m k) = (s, Ok o) ->
    wiped m (t_mem s) /\ derive_buf blk ml k offset len out = (t_key s, Ok o).
  Proof.
    intros Lg. unfold t_derive_buf, derive_buf. destruct (len =? 0).
    { injection 1 as <- <-. split; [apply wiped_refl|reflexivity]. }
    intros E. apply tbind_inv in E as (s1 & kb & E1 & E). destruct (unlock_get_inv _ _ _ _ _ _ E1) as (l & -> & ->). cbn [v_unlock_get].
    apply tbind_inv in E as (s2 & o2 & E2 & E). destruct (prg_derivation_exec blk g kb offset len out m (VKey kb false) Lg) as (m' & X & W).
    rewrite X in E2. injection E2 as <- E2. rewrite E2. specialize (W _ E2).
    apply tbind_inv in E as (s3 & [] & E3 & E). apply lock_inv in E3 as ->. injection E as <- <-. split; [exact W|reflexivity].
  Qed.
  Lemma sderive_buf_inv g fu fl offset len out m k s o : zlen g = 64 ->
    t_sderive_buf ml blk g fu fl offset len out (mkT m k) = (s, Ok o) ->
    wiped m (t_mem s) /\ sderive_buf blk k offset len out = (t_key s, Ok (Some o)).
  Proof.
    intros Lg. unfold t_sderive_buf, sderive_buf. cbn [t_key]. destruct (v_is_empty k) eqn:Ek; [discriminate|].
    match goal with |- context [?f (mkT m k)] => destruct (f (mkT m k)) as [s' r] eqn:E end. injection 1 as <- ->. cbn [t_mem t_key].
    apply tbind_inv in E as (s1 & kb & E1 & E). destruct (unlock_get_inv _ _ _ _ _ _ E1) as (l & -> & ->). cbn [v_unlock_get].
    apply tbind_inv in E as (s2 & o2 & E2 & E). destruct (prg_derivation_exec blk g kb offset len out m (VKey kb false) Lg) as (m' & X & W).
    rewrite X in E2. injection E2 as <- E2. rewrite E2. specialize (W _ E2).
    apply tbind_inv in E as (s3 & [] & E3 & E). apply lock_inv in E3 as ->. injection E as <- <-. split; [exact W|reflexivity].
  Qed.
  Lemma prg_out_len key offset len out o : prg_derivation blk key offset len (Some out) = Ok o -> zlen o = zlen out.
  Proof.
    unfold prg_derivation. destruct (len =? 0); [now injection 1 as ->|]. cbv zeta.
    assert (X : forall ic x p n y, xor_ic_at blk key ic x p n = Ok y -> zlen y = zlen x).
    { intros ic x p n y. unfold xor_ic_at. destruct (rd x p n); try discriminate. apply wr_zlen. }
    destruct (wr out 0 _) as [o1| | | |] eqn:E1; try discriminate. cbn [bind]. apply wr_zlen in E1.
    destruct (_ =? 0); [intros E; apply X in E; congruence|].
    destruct (1 <? _).
    - destruct (xor_ic_at _ _ _ _ _ _) as [o2| | | |] eqn:E2; try discriminate. cbn [bind]. apply X in E2.
      destruct (rd _ _ _); try discriminate. cbn [bind]. intros E. apply wr_zlen in E. congruence.
    - cbn [bind]. destruct (rd _ _ _); try discriminate. cbn [bind]. intros E. apply wr_zlen in E. congruence.
  Qed.
  Lemma derive_str_inv g gd fu fl offset len m k s r : zlen g = 64 -> zlen gd = len ->
    t_derive_str ml blk g gd fu fl offset len (mkT m k) = (s, Ok r) ->
    wiped m (t_mem s) /\ derive_str blk ml gd k offset len = (t_key s, Ok r).
  Proof.
    intros Lg Ld E. unfold t_derive_str in E. rewrite (tbind_ok _ _ _ _ _ (new_0 _ _ _ _)), (tbind_ok _ _ _ _ _ (get_0 _ _ _ _ _)) in E.
    apply tbind_inv in E as (s1 & o & E1 & E). destruct (derive_buf_inv _ _ _ _ _ _ _ _ _ _ Lg E1) as ((l & W & F) & X).
    destruct o as [o|]; [|discriminate E]. rewrite (st_eta s1), W, <- app_assoc in E. cbn [app] in E.
    destruct (finish _ _ _ _ _ _ _ _ Ld F E) as (W2 & K & d & Ed & Er). split; [exact W2|]. rewrite K. unfold derive_str. rewrite X. cbn [to_string].
    assert (d = o) as ->; [|rewrite Er; reflexivity]. assert (zlen o = zlen gd) as Lo; [|rewrite wr_all in Ed by exact Lo; congruence].
    unfold derive_buf in X. destruct (len =? 0); [injection X as _ ->; reflexivity|]. destruct k as [|kb lk]; [discriminate|]. cbn [v_unlock_get] in X.
    destruct (prg_derivation blk kb offset len (Some gd)) eqn:P; try discriminate. injection X as _ ->. exact (prg_out_len _ _ _ _ _ P).
  Qed.
  Lemma sderive_str_inv g gd fu fl offset len m k s r : zlen g = 64 -> zlen gd = len ->
    t_sderive_str ml blk g gd fu fl offset len (mkT m k) = (s, Ok r) ->
    wiped m (t_mem s) /\ sderive_str blk gd k offset len = (t_key s, Ok r).
  Proof.
    intros Lg Ld E. unfold t_sderive_str in E. rewrite (tbind_ok _ _ _ _ _ (new_0 _ _ _ _)), (tbind_ok _ _ _ _ _ (get_0 _ _ _ _ _)) in E.
    apply tbind_inv in E as (s1 & o & E1 & E). destruct (sderive_buf_inv _ _ _ _ _ _ _ _ _ _ Lg E1) as ((l & W & F) & X).
    rewrite (st_eta s1), W, <- app_assoc in E. cbn [app] in E.
    destruct (finish _ _ _ _ _ _ _ _ Ld F E) as (W2 & K & d & Ed & Er). split; [exact W2|]. rewrite K. unfold sderive_str. rewrite X. cbn [to_string].
    assert (d = o) as ->; [|rewrite Er; reflexivity]. assert (zlen o = zlen gd) as Lo; [|rewrite wr_all in Ed by exact Lo; congruence].
    unfold sderive_buf in X. destruct (v_is_empty k); [discriminate|]. destruct k as [|kb lk]; [discriminate|]. cbn [v_unlock_get] in X.
    destruct (prg_derivation blk kb offset len (Some gd)) eqn:P; try discriminate. injection X as _ ->. exact (prg_out_len _ _ _ _ _ P).
  Qed.
  (** Functions that throw before they delete the array *)
  Lemma sderive_str_lost g gd fu fl offset len m :
    t_sderive_str ml blk g gd fu fl offset len (mkT m VEmpty) = (mkT (m ++ [mkB New true gd]) VEmpty, Throw InvalidArgument).
  Proof.
    unfold t_sderive_str. rewrite (tbind_ok _ _ _ _ _ (new_0 _ _ _ _)), (tbind_ok _ _ _ _ _ (get_0 _ _ _ _ _)). reflexivity.
  Qed.
End Prg.

Section Cipher.
  Context (ml : bool) (kdf : bytes -> bytes -> bytes) (aead_enc : bytes -> bytes -> bytes -> bytes) (aead_dec : bytes -> bytes -> bytes -> option bytes)
    (kdf_len : forall k n, zlen (kdf k n) = 32).
  Lemma no_ok_abort : forall c : bytes, @Abort bytes <> Ok c. Proof. discriminate. Qed.
  Lemma encrypt_inv g fu fl inp len out r m k s o : zlen g = 32 ->
    t_encrypt ml kdf aead_enc g fu fl inp len out r (mkT m k) = (s, Ok o) ->
    wiped m (t_mem s) /\ encrypt kdf aead_enc ml k inp len out r = (t_key s, Ok o).
  Proof.
    intros Lg. unfold t_encrypt. match goal with |- scope ?f _ = _ -> _ => set (F := f) end.
    destruct (F (mkT m k)) as [s0 r0] eqn:E. unfold scope. rewrite E. injection 1 as <- ->. cbn [t_mem t_key] in *. unfold F in E.
    rewrite (tbind_ok _ _ _ _ _ (new_0 _ _ _ _)) in E. apply tlift_inv in E as (o1 & E1 & E).
    apply tbind_inv in E as (s1 & [] & E2 & E). apply unlock_inv in E2 as ->. apply tlift_inv in E as (nonce & E3 & E).
    apply tbind_inv in E as (s2 & kb & E4 & E). destruct (data_inv _ _ _ _ _ _ no_ok_abort E4) as (l & -> & ->).
    rewrite (tbind_ok _ _ _ _ _ (wr_0 _ _ _ _ _ _ _ _ (wr_all g (kdf kb nonce) ltac:(rewrite kdf_len; lia)))) in E.
    apply tbind_inv in E as (s3 & [] & E5 & E). apply lock_inv in E5 as ->. apply tlift_inv in E as (msg & E6 & E).
    unfold encrypt, derive_subkey. rewrite E1, E3. cbn [v_unlock v_lock]. rewrite E6. cbn [bind]. destruct (MESSAGEBYTES_MAX <? len); [discriminate|].
    apply tlift_inv in E as (n & E7 & E). rewrite E7. cbn [bind]. rewrite (tbind_ok _ _ _ _ _ (get_0 _ _ _ _ _)) in E. apply tlift_inv in E as (o2 & E8 & E). rewrite E8.
    unfold t_wipe in E. rewrite (tbind_ok _ _ _ _ _ (wr_0 _ _ _ _ _ _ _ _ (wipe_all (kdf kb nonce) 32 ltac:(rewrite kdf_len; lia)))) in E. injection E as <- <-.
    cbn [t_mem t_key]. split; [|reflexivity]. rewrite firstn_app, Nat.sub_diag, firstn_all, firstn_O, app_nil_r, skipn_app, Nat.sub_diag, skipn_all. apply wiped_one.
  Qed.
  Lemma encrypt_str_inv g gd fu fl inp r m k s o : zlen g = 32 -> zlen gd = ciphertext_length (zlen inp) ->
    t_encrypt_str ml kdf aead_enc g gd fu fl inp r (mkT m k) = (s, Ok o) ->
    wiped m (t_mem s) /\ encrypt_str kdf aead_enc ml k inp gd r = (t_key s, Ok o).
  Proof.
    intros Lg Ld. unfold t_encrypt_str, encrypt_str. destruct (zlen inp =? 0); [discriminate|]. intros E.
    rewrite (tbind_ok _ _ _ _ _ (new_0 _ _ _ _)), (tbind_ok _ _ _ _ _ (get_0 _ _ _ _ _)) in E.
    apply tbind_inv in E as (s1 & o1 & E1 & E). destruct (encrypt_inv _ _ _ _ _ _ _ _ _ _ _ Lg E1) as ((l & W & F) & X). rewrite X.
    rewrite (st_eta s1), W, <- app_assoc in E. cbn [app] in E.
    destruct (finish _ _ _ _ _ _ _ _ Ld F E) as (W2 & K & d & Ed & Er). split; [exact W2|]. rewrite K.
    assert (zlen o1 = zlen gd) as Lo.
    { unfold encrypt in X. destruct (wr gd 0 r) eqn:Y1; try discriminate. destruct (rd _ 0 NONCE_SIZE); try discriminate. destruct (derive_subkey _ _ _ _) as [k1 [ck| | | |]]; try discriminate.
      injection X as _ X. destruct (rd inp 0 (zlen inp)); try discriminate. cbn [bind] in X. destruct (_ <? _); try discriminate. destruct (rd _ 0 12); try discriminate. cbn [bind] in X.
      apply wr_zlen in X, Y1. congruence. }
    rewrite wr_all in Ed by exact Lo. injection Ed as <-. rewrite rd_all in Er by lia. congruence.
  Qed.
  (** decrypt on a block of the caller: the derived key is wiped whether the ciphertext is accepted or not *)
  Lemma decrypt_inv g fu fl inp len kd out m k s r : zlen g = 32 ->
    t_decrypt ml kdf aead_dec g fu fl inp len (length m) (mkT (m ++ [mkB kd true out]) k) = (s, r) ->
    (forall k' out', decrypt kdf aead_dec ml k inp len out = (k', out', Ok tt) -> r = Ok tt -> s = mkT (m ++ [mkB kd true out'; mkB Auto false (zeros 32)]) k') /\
    (r = Ok tt -> exists k' out', decrypt kdf aead_dec ml k inp len out = (k', out', Ok tt)).
  Proof.
    intros Lg. unfold t_decrypt. match goal with |- scope ?f _ = _ -> _ => set (F := f) end.
    destruct (F (mkT (m ++ [mkB kd true out]) k)) as [s0 r0] eqn:E. unfold scope. rewrite E. injection 1 as <- <-. cbn [t_mem t_key] in *.
    enough (Q : r0 = Ok tt -> exists k' out', decrypt kdf aead_dec ml k inp len out = (k', out', Ok tt) /\ s0 = mkT (m ++ [mkB kd true out'; mkB Auto true (zeros 32)]) k').
    { split.
      - intros k' out' D ->. destruct (Q eq_refl) as (k2 & o2 & D2 & ->). rewrite D in D2. injection D2 as <- <-. cbn [t_mem t_key].
        f_equal. change ([mkB kd true out'; mkB Auto true (zeros 32)]) with ([mkB kd true out'] ++ [mkB Auto true (zeros 32)]). rewrite !app_assoc.
        replace (length (m ++ [mkB kd true out])) with (length (m ++ [mkB kd true out'])) by (rewrite !app_length; reflexivity).
        rewrite firstn_app, Nat.sub_diag, firstn_all, firstn_O, app_nil_r, skipn_app, Nat.sub_diag, skipn_all. cbn [app map skipn leave b_kind b_bytes]. rewrite <- app_assoc. reflexivity.
      - intros ->. destruct (Q eq_refl) as (k2 & o2 & D2 & _). eauto. }
    intros ->. unfold F in E. unfold decrypt. destruct (len <? ciphertext_length 0); [discriminate|].
    rewrite (tbind_ok _ _ _ _ _ (new_1 _ _ _ _ _)) in E.
    apply tbind_inv in E as (s1 & [] & E2 & E). apply unlock_inv in E2 as ->. apply tlift_inv in E as (nonce & E3 & E).
    apply tbind_inv in E as (s2 & kb & E4 & E). destruct (data_inv _ _ _ _ _ _ no_ok_abort E4) as (l & -> & ->).
    rewrite (tbind_ok _ _ _ _ _ (wr_1 _ _ _ _ _ _ _ _ _ (wr_all g (kdf kb nonce) ltac:(rewrite kdf_len; lia)))) in E.
    apply tbind_inv in E as (s3 & [] & E5 & E). apply lock_inv in E5 as ->. apply tlift_inv in E as (c & E6 & E). apply tlift_inv in E as (n & E7 & E).
    rewrite (tbind_ok _ _ _ _ _ (get_1 _ _ _ _ _ _)) in E. rewrite E3. unfold derive_subkey. cbn [v_unlock v_lock]. rewrite E6, E7.
    destruct (aead_dec (kdf kb nonce) n c) as [msg|].
    - destruct (wr_cases out 0 msg) as [[o1 E8]|E8]; [|rewrite (tbind_ub _ _ _ _ (wr_0_ub _ _ _ _ _ _ _ E8)) in E; discriminate].
      rewrite (tbind_ok _ _ _ _ _ (wr_0 _ _ _ _ _ _ _ _ E8)) in E. unfold t_wipe in E.
      rewrite (wr_1 _ _ _ _ _ _ _ _ _ (wipe_all (kdf kb nonce) 32 ltac:(rewrite kdf_len; lia))) in E. injection E as <-. rewrite E8. eauto.
    - apply tbind_inv in E as (s4 & [] & _ & E). apply tbind_inv in E as (s5 & [] & _ & E). discriminate E.
  Qed.
  (** decrypt on strings: the plaintext stays in the memory of the vector *)
  Lemma decrypt_str_left g fu fl inp m k s o : zlen g = 32 ->
    t_decrypt_str ml kdf aead_dec g fu fl inp (mkT m k) = (s, Ok o) ->
    t_mem s = m ++ [mkB Auto false o; mkB Auto false (zeros 32)] /\ decrypt_str kdf aead_dec ml k inp = (t_key s, Ok o).
  Proof.
    intros Lg. unfold t_decrypt_str. match goal with |- scope ?f _ = _ -> _ => set (F := f) end.
    destruct (F (mkT m k)) as [s0 r0] eqn:E. unfold scope. rewrite E. injection 1 as <- ->. cbn [t_mem t_key] in *. unfold F in E.
    unfold decrypt_str. destruct (zlen inp <=? NONCE_SIZE + ABYTES); [discriminate|]. cbv zeta in E. set (z := zeros (Z.to_nat (plaintext_length (zlen inp)))) in *.
    rewrite (tbind_ok _ _ _ _ _ (new_0 _ _ _ _)) in E. apply tbind_inv in E as (s1 & [] & E1 & E).
    destruct (decrypt_inv _ _ _ _ _ _ _ _ _ _ _ Lg E1) as [A B]. destruct (B eq_refl) as (k' & out' & D). specialize (A _ _ D eq_refl). subst s1. rewrite D.
    rewrite (tbind_ok _ _ _ _ _ (get_0 _ _ _ _ _)) in E. unfold tlift in E. injection E as <- E.
    assert (out' = o) as ->.
    { assert (zlen out' = zlen z) as L.
      { clear - D. unfold decrypt in D. destruct (_ <? _); [discriminate|]. destruct (rd _ _ _); try discriminate. destruct (derive_subkey _ _ _ _) as [k1 [ck| | | |]]; try discriminate.
        destruct (rd _ _ _); try discriminate. destruct (rd _ _ _); try discriminate. destruct (aead_dec _ _ _); [|destruct (wr _ _ _); discriminate].
        destruct (wr z 0 _) eqn:W; try discriminate. injection D as _ <-. exact (wr_zlen _ _ _ _ W). }
      rewrite rd_all in E; [congruence|]. rewrite L. unfold z. rewrite zlen_zeros. unfold plaintext_length. destruct (Z.ltb_spec kCiphertextExpansion (zlen inp)); [|lia].
      unfold kCiphertextExpansion in *. lia. }
    cbn [t_mem t_key]. split; [|reflexivity]. rewrite firstn_app, Nat.sub_diag, firstn_all, firstn_O, app_nil_r, skipn_app, Nat.sub_diag, skipn_all. reflexivity.
  Qed.
  (** encrypt when the key cannot be locked again: the derived key stays in memory *)
  Lemma encrypt_lock_left g inp len out r kb l m out' nonce : ml = true -> zlen g = 32 -> wr out 0 r = Ok out' -> rd out' 0 NONCE_SIZE = Ok nonce ->
    t_encrypt ml kdf aead_enc g false true inp len out r (mkT m (VKey kb l)) = (mkT (m ++ [mkB Auto false (kdf kb nonce)]) (VKey kb false), Throw RuntimeError).
  Proof.
    intros -> Lg E1 E3. unfold t_encrypt. erewrite scope_app with (l := [mkB Auto true (kdf kb nonce)]); [reflexivity|].
    rewrite (tbind_ok _ _ _ _ _ (new_0 _ _ _ _)), (tlift_ok _ _ _ _ E1).
    assert (U : t_unlock true false (mkT (m ++ [mkB Auto true g]) (VKey kb l)) = (mkT (m ++ [mkB Auto true g]) (VKey kb false), Ok tt)) by (destruct l; reflexivity).
    rewrite (tbind_ok _ _ _ _ _ U), (tlift_ok _ _ _ _ E3). rewrite (tbind_ok (t_data true Abort) _ _ (mkT (m ++ [mkB Auto true g]) (VKey kb false)) kb) by reflexivity.
    rewrite (tbind_ok _ _ _ _ _ (wr_0 _ _ _ _ _ _ _ _ (wr_all g (kdf kb nonce) ltac:(rewrite kdf_len; lia)))). reflexivity.
  Qed.
End Cipher.
