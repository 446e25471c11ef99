(** Lemmas on temporary memory: HMac and Prf, continued. *)
From Coq Require Import Lia.
From Verif Require Import Base BaseFacts KeyVal PrgModel CipherModel HmacModel TmpModel TmpSpec TmpProofs TmpProofs2 TmpProofs3.

Lemma rest_wiped B D inp len m : wiped m (hmac_rest B D inp len m).
Proof. eexists. split; [reflexivity|]. repeat constructor; apply zeros_zero. Qed.

Section Hmac.
  Context (ml : bool) (H : bytes -> bytes) (B D : Z).
  Lemma hmac_inv fu fl N inp len out opos out_len g1 g2 m k s o : zlen g1 = buffer_len B D len -> zlen g2 = tmp_len B D ->
    t_hmac ml H B D fu fl N inp len out opos out_len g1 g2 (mkT m k) = (s, Ok o) ->
    wiped m (t_mem s) /\ hmac H B D ml N k inp len out opos out_len g1 g2 = (t_key s, Ok o).
  Proof.
    intros L1 L2 E. pose proof (f_equal snd E) as Es. cbn [snd] in Es. unfold hmac. destruct (D <? out_len) eqn:Hd.
    { unfold t_hmac in Es. rewrite Hd, snd_scope in Es. discriminate. }
    destruct inp as [inp|]; [|unfold t_hmac in Es; rewrite Hd, snd_scope in Es; discriminate].
    destruct out as [out|]; [|unfold t_hmac in Es; rewrite Hd, snd_scope in Es; discriminate].
    destruct k as [|kb l].
    { unfold t_hmac in Es. rewrite Hd, snd_scope in Es. cbv zeta in Es. rewrite (tbind_ok _ _ _ _ _ (new_0 _ _ _ _)), (tbind_ok _ _ _ _ _ (new_1 _ _ _ _ _)) in Es.
      unfold tbind at 1 in Es. unfold t_unlock in Es. cbn [t_key] in Es. unfold tbind at 1 in Es. unfold t_data in Es. cbn [t_key] in Es. destruct ml; discriminate. }
    cbn [v_unlock v_lock]. destruct (l && (ml && fu)) eqn:Hu.
    { apply andb_prop in Hu as [-> Hu]. unfold t_hmac in Es. rewrite Hd, snd_scope in Es. cbv zeta in Es.
      rewrite (tbind_ok _ _ _ _ _ (new_0 _ _ _ _)), (tbind_ok _ _ _ _ _ (new_1 _ _ _ _ _)) in Es. unfold tbind at 1 in Es. unfold t_unlock in Es. cbn [t_key] in Es.
      rewrite Hu in Es. discriminate. }
    pose proof (hmac_exec ml H B D fu fl N inp len out opos out_len g1 g2 m kb l Hd L1 L2 Hu) as X.
    destruct (hmac_core _ _ _ _ _ _ _ _ _ _ _ _) as [o'| | | |]; try (destruct (X _ Es)).
    rewrite X in E. destruct (ml && fl); [discriminate|]. injection E as <- <-. split; [apply rest_wiped|reflexivity].
  Qed.
  (** The buffers are wiped even if the key cannot be locked again *)
  Lemma hmac_lock N inp len out opos out_len g1 g2 m k k' o : ml = true -> zlen g1 = buffer_len B D len -> zlen g2 = tmp_len B D ->
    hmac H B D ml N k inp len out opos out_len g1 g2 = (k', Ok o) ->
    exists s, t_hmac ml H B D false true N inp len out opos out_len g1 g2 (mkT m k) = (s, Throw RuntimeError) /\ wiped m (t_mem s).
  Proof.
    intros Eml L1 L2. unfold hmac. destruct (D <? out_len) eqn:Hd; [discriminate|]. destruct inp as [inp|]; [|discriminate]. destruct out as [out|]; [|discriminate].
    destruct k as [|kb l]; cbn [v_unlock]; [destruct ml; discriminate|].
    pose proof (hmac_exec ml H B D false true N inp len out opos out_len g1 g2 m kb l Hd L1 L2) as X. rewrite !andb_false_r in X. specialize (X eq_refl).
    destruct (hmac_core _ _ _ _ _ _ _ _ _ _ _ _) as [o'| | | |]; try discriminate. intros _. rewrite Eml in X. cbn [andb] in X. rewrite Eml, X. eexists. split; [reflexivity|]. apply rest_wiped.
  Qed.
  (** Without a failing protection the function does what [HmacModel.hmac] does *)
  Lemma hmac_returns N inp len out opos out_len g1 g2 m k k' o : zlen g1 = buffer_len B D len -> zlen g2 = tmp_len B D ->
    hmac H B D ml N k inp len out opos out_len g1 g2 = (k', Ok o) ->
    exists m', t_hmac ml H B D false false N inp len out opos out_len g1 g2 (mkT m k) = (mkT m' k', Ok o).
  Proof.
    intros L1 L2. unfold hmac. destruct (D <? out_len) eqn:Hd; [discriminate|]. destruct inp as [inp|]; [|discriminate]. destruct out as [out|]; [|discriminate].
    destruct k as [|kb l]; cbn [v_unlock]; [destruct ml; discriminate|].
    pose proof (hmac_exec ml H B D false false N inp len out opos out_len g1 g2 m kb l Hd L1 L2) as X. rewrite !andb_false_r in X. specialize (X eq_refl).
    destruct (hmac_core _ _ _ _ _ _ _ _ _ _ _ _) as [o'| | | |]; try discriminate. cbn [v_lock]. injection 1 as <- <-. eexists. exact X.
  Qed.
  (** With an empty key, or one that cannot be unlocked, the array is never deleted *)
  Lemma hmac_lost fu fl N inp len out opos out_len g1 g2 m k : ml = true -> (D <? out_len) = false ->
    (k = VEmpty \/ fu = true /\ exists b, k = VKey b true) ->
    t_hmac ml H B D fu fl N (Some inp) len (Some out) opos out_len g1 g2 (mkT m k) = (mkT (m ++ [mkB New true g1; mkB Auto false g2]) k, Throw RuntimeError).
  Proof.
    intros -> Hd Hk. unfold t_hmac. rewrite Hd. cbv zeta. erewrite scope_app with (l := [mkB New true g1; mkB Auto true g2]); [reflexivity|].
    rewrite (tbind_ok _ _ _ _ _ (new_0 _ _ _ _)), (tbind_ok _ _ _ _ _ (new_1 _ _ _ _ _)). destruct Hk as [-> | [-> [b ->]]]; reflexivity.
  Qed.
End Hmac.

Section Prf.
  Context (ml : bool) (H : bytes -> bytes) (g : Z -> bytes) (g_len : forall n, 0 <= n -> zlen (g n) = n).
  Context (fu fl : Z -> bool).
  Lemma buffer_nonneg n : 0 <= buffer_len 128 64 n.
  Proof. unfold buffer_len, u64. pose proof (Z.mod_pos_bound (128 + n) (2 ^ 64) ltac:(lia)). destruct (64 <? _); lia. Qed.
  Lemma base_inv i inp len out opos out_len m k s o : t_base_hmac ml H g fu fl i inp len out opos out_len (mkT m k) = (s, Ok o) ->
    wiped m (t_mem s) /\ base_hmac H ml g k inp len out opos out_len = (t_key s, Ok o).
  Proof.
    unfold t_base_hmac, base_hmac. apply hmac_inv; apply g_len; [apply buffer_nonneg|unfold tmp_len; lia].
  Qed.
  Lemma prf_loop_inv m fuel NB len : forall pos i result t l k s o, Forall gone l ->
    t_prf_loop ml H g fu fl fuel NB (length m) len pos i result (mkT (m ++ mkB New true t :: l) k) = (s, Ok o) ->
    exists t' l', t_mem s = m ++ mkB New true t' :: l' /\ Forall gone l' /\ zlen t' = zlen t /\ prf_loop H ml g fuel NB k t len pos i result = (t_key s, Ok o).
  Proof.
    induction fuel as [|fuel IH]; intros pos i result t l k s o F; cbn [t_prf_loop prf_loop]; [discriminate|]. destruct (pos <? NB).
    2:{ injection 1 as <- <-. exists t, l. auto. }
    intros E. destruct (wr_cases t len [i]) as [[t1 Et]|Et]; [|rewrite (tbind_ub _ _ _ _ (wr_0_ub _ _ _ _ _ _ _ Et)) in E; discriminate].
    rewrite (tbind_ok _ _ _ _ _ (wr_0 _ _ _ _ _ _ _ _ Et)), (tbind_ok _ _ _ _ _ (get_0 _ _ _ _ _)) in E. rewrite Et. cbv zeta in *.
    apply tbind_inv in E as (s1 & r1 & E1 & E). destruct (base_inv _ _ _ _ _ _ _ _ _ _ E1) as ((l1 & W & F1) & X). rewrite X.
    rewrite (st_eta s1), W, <- app_assoc in E. cbn [app] in E. destruct (IH _ _ _ _ _ _ _ _ (proj2 (Forall_app _ _ _) (conj F F1)) E) as (t' & l' & A & A2 & A3 & A4).
    exists t', l'. rewrite A3, (wr_zlen _ _ _ _ Et). auto.
  Qed.
  Lemma scope_wiped {A} (f : T A) m k s r : f (mkT m k) = (s, r) -> wiped m (t_mem s) -> scope f (mkT m k) = (s, r).
  Proof.
    intros E (l & W & F). rewrite (st_eta s), W in E |- *. rewrite (scope_app _ _ _ _ _ _ E). do 3 f_equal.
    induction F as [|c l0 [Lc _] F IH]; cbn [map]; [reflexivity|]. f_equal; [|clear - F; induction F as [|c0 l1 [Lc0 _] F0 IH0]; cbn [map]; [reflexivity|rewrite IH0; f_equal; destruct c0 as [[|] ? ?]; cbn in *; congruence]].
    destruct c as [[|] ? ?]; cbn in *; congruence.
  Qed.
  Lemma prf_inv NB inp len r t m k s o : zlen t = len + 1 ->
    t_prf ml H g fu fl NB inp len r t (mkT m k) = (s, Ok o) ->
    wiped m (t_mem s) /\ prf H ml g NB k inp len r t = (t_key s, Ok o).
  Proof.
    intros Lt. unfold t_prf. match goal with |- scope ?f _ = _ -> _ => set (FF := f) end.
    destruct (FF (mkT m k)) as [s0 r0] eqn:E.
    enough (Q : r0 = Ok o -> wiped m (t_mem s0) /\ prf H ml g NB k inp len r t = (t_key s0, Ok o)).
    { intros E2. assert (r0 = Ok o) as -> by (pose proof (f_equal snd E2) as Z2; rewrite snd_scope, E in Z2; exact Z2). destruct (Q eq_refl) as [W X].
      rewrite (scope_wiped _ _ _ _ _ E W) in E2. injection E2 as <-. auto. }
    intros ->. unfold FF in E. unfold prf. destruct inp as [x|]; [|discriminate]. destruct (64 <? NB); [|exact (base_inv _ _ _ _ _ _ _ _ _ _ E)].
    rewrite (tbind_ok _ _ _ _ _ (new_0 _ _ _ _)) in E. apply tlift_inv in E as (msg & E1 & E). rewrite E1. cbn [bind].
    destruct (wr_cases t 0 msg) as [[t1 Et]|Et]; [|rewrite (tbind_ub _ _ _ _ (wr_0_ub _ _ _ _ _ _ _ Et)) in E; discriminate].
    rewrite (tbind_ok _ _ _ _ _ (wr_0 _ _ _ _ _ _ _ _ Et)) in E. rewrite Et. apply tbind_inv in E as (s1 & o1 & E2 & E).
    destruct (prf_loop_inv _ _ _ _ _ _ _ _ _ _ _ _ (Forall_nil _) E2) as (t' & l' & A & F & L & X). rewrite X.
    rewrite (st_eta s1), A in E. unfold t_wipe in E. rewrite (tbind_ok _ _ _ _ _ (wr_0 _ _ _ _ _ _ _ _ (wipe_all t' (len + 1) ltac:(rewrite L, (wr_zlen _ _ _ _ Et); lia)))) in E.
    rewrite (tbind_ok _ _ _ _ _ (del_0 _ _ _ _)) in E. injection E as <- <-. cbn [t_mem t_key]. split; [|reflexivity].
    eexists. split; [reflexivity|]. constructor; [|exact F]. split; [reflexivity|apply zeros_zero].
  Qed.
End Prf.

Section Reject.
  Context (ml : bool) (kdf : bytes -> bytes -> bytes) (aead_dec : bytes -> bytes -> bytes -> option bytes) (kdf_len : forall k n, zlen (kdf k n) = 32).
  (** A refused ciphertext: the key is wiped, and the vector holds zeros *)
  Lemma decrypt_rejected g inp m kb l nonce n c : zlen g = 32 -> NONCE_SIZE + ABYTES < zlen inp ->
    rd inp 0 NONCE_SIZE = Ok nonce -> rd inp 0 12 = Ok n -> rd inp NONCE_SIZE (zlen inp - NONCE_SIZE) = Ok c ->
    aead_dec (kdf kb nonce) n c = None ->
    exists s, t_decrypt_str ml kdf aead_dec g false false inp (mkT m (VKey kb l)) = (s, Throw RuntimeError) /\ wiped m (t_mem s).
  Proof.
    intros Lg Li E1 E2 E3 E4. unfold t_decrypt_str. unfold NONCE_SIZE, ABYTES in Li. replace (zlen inp <=? NONCE_SIZE + ABYTES) with false by (unfold NONCE_SIZE, ABYTES; symmetry; apply Z.leb_gt; lia).
    cbv zeta. set (p := plaintext_length (zlen inp)). set (z := zeros (Z.to_nat p)).
    assert (P : p = zlen inp - NONCE_SIZE - ABYTES) by (unfold p, plaintext_length, kCiphertextExpansion, NONCE_SIZE, ABYTES; destruct (Z.ltb_spec 32 (zlen inp)); lia).
    assert (W : wr z 0 (zeros (Z.to_nat (zlen inp - NONCE_SIZE - ABYTES))) = Ok z) by (rewrite <- P; apply wr_all; reflexivity).
    assert (X : t_decrypt ml kdf aead_dec g false false inp (zlen inp) (length m) (mkT (m ++ [mkB Auto true z]) (VKey kb l)) =
      (mkT (m ++ [mkB Auto true z; mkB Auto false (zeros 32)]) (VKey kb ml), Throw RuntimeError)).
    { unfold t_decrypt. replace (zlen inp <? ciphertext_length 0) with false by (unfold ciphertext_length, kCiphertextExpansion; change (u64 (0 + 32)) with 32; symmetry; apply Z.ltb_ge; lia).
      erewrite scope_app with (l := [mkB Auto true (zeros 32)]) (key' := VKey kb ml) (r := Throw RuntimeError); [cbn [map leave b_kind b_bytes]; now rewrite <- app_assoc|].
      rewrite <- app_assoc. cbn [app]. rewrite (tbind_ok _ _ _ _ _ (new_1 _ _ _ _ _)).
      assert (U : forall m0, t_unlock ml false (mkT m0 (VKey kb l)) = (mkT m0 (VKey kb false), Ok tt)) by (intros m0; unfold t_unlock; cbn; rewrite andb_false_r; destruct l; reflexivity).
      rewrite (tbind_ok _ _ _ _ _ (U _)), (tlift_ok _ _ _ _ E1).
      assert (V : forall m0, t_data ml Abort (mkT m0 (VKey kb false)) = (mkT m0 (VKey kb false), Ok kb)) by (intros m0; unfold t_data; cbn; now rewrite andb_false_r).
      rewrite (tbind_ok _ _ _ _ _ (V _)), (tbind_ok _ _ _ _ _ (wr_1 _ _ _ _ _ _ _ _ _ (wr_all g (kdf kb nonce) ltac:(rewrite kdf_len; lia)))).
      assert (K : forall m0, t_lock ml false (mkT m0 (VKey kb false)) = (mkT m0 (VKey kb ml), Ok tt)) by (intros m0; unfold t_lock; cbn; now rewrite andb_false_r).
      rewrite (tbind_ok _ _ _ _ _ (K _)), (tlift_ok _ _ _ _ E3), (tlift_ok _ _ _ _ E2), (tbind_ok _ _ _ _ _ (get_1 _ _ _ _ _ _)), E4.
      rewrite (tbind_ok _ _ _ _ _ (wr_0 _ _ _ _ _ _ _ _ W)). unfold t_wipe.
      rewrite (tbind_ok _ _ _ _ _ (wr_1 _ _ _ _ _ _ _ _ _ (wipe_all (kdf kb nonce) 32 ltac:(rewrite kdf_len; lia)))). reflexivity. }
    eexists. split.
    - erewrite scope_app with (l := [mkB Auto true z; mkB Auto false (zeros 32)]); [reflexivity|]. rewrite (tbind_ok _ _ _ _ _ (new_0 _ _ _ _)). unfold tbind at 1. rewrite X. reflexivity.
    - eexists. split; [reflexivity|]. repeat constructor; apply zeros_zero.
  Qed.
End Reject.
