(** Lemmas on temporary memory. *)
From Coq Require Import Lia.
From Verif Require Import Base BaseFacts KeyVal PrgModel CipherModel HmacModel TmpModel TmpSpec.

Lemma wr_cases b p d : (exists b', wr b p d = Ok b') \/ wr b p d = UB.
Proof. unfold wr. destruct (_ && _); eauto. Qed.
Lemma rd_cases b p n : (exists b', rd b p n = Ok b') \/ rd b p n = UB.
Proof. unfold rd. destruct (_ && _); eauto. Qed.
Lemma wr_zlen b p d b' : wr b p d = Ok b' -> zlen b' = zlen b.
Proof. intros E. unfold zlen. now rewrite (wr_length _ _ _ _ E). Qed.
Lemma zeros_zero n : Forall (fun x => x = 0) (zeros n).
Proof. unfold zeros. induction n; cbn; constructor; auto. Qed.
Lemma wipe_all b n : n = zlen b -> wr b 0 (zeros (Z.to_nat n)) = Ok (zeros (Z.to_nat n)).
Proof. intros ->. apply wr_all. rewrite zlen_zeros. unfold zlen. lia. Qed.

Lemma nth_0 (m : list block) c r : nth_error (m ++ c :: r) (length m) = Some c.
Proof. rewrite nth_error_app2, Nat.sub_diag by lia. reflexivity. Qed.
Lemma nth_1 (m : list block) c d r : nth_error (m ++ c :: d :: r) (S (length m)) = Some d.
Proof. rewrite nth_error_app2 by lia. replace (S (length m) - length m)%nat with 1%nat by lia. reflexivity. Qed.
Lemma put_0 m c r c' : put_block (m ++ c :: r) (length m) c' = m ++ c' :: r.
Proof. induction m as [|x m IH]; cbn; [reflexivity|]. now rewrite IH. Qed.
Lemma put_1 m c d r d' : put_block (m ++ c :: d :: r) (S (length m)) d' = m ++ c :: d' :: r.
Proof. induction m as [|x m IH]; cbn in *; [reflexivity|]. now rewrite IH. Qed.

Lemma get_0 m k b r key : t_get (length m) (mkT (m ++ mkB k true b :: r) key) = (mkT (m ++ mkB k true b :: r) key, Ok b).
Proof. unfold t_get. cbn [t_mem]. now rewrite nth_0. Qed.
Lemma get_1 m c k b r key : t_get (S (length m)) (mkT (m ++ c :: mkB k true b :: r) key) = (mkT (m ++ c :: mkB k true b :: r) key, Ok b).
Proof. unfold t_get. cbn [t_mem]. now rewrite nth_1. Qed.
Lemma wr_0 m k b r key p d b' : wr b p d = Ok b' -> t_wr (length m) p d (mkT (m ++ mkB k true b :: r) key) = (mkT (m ++ mkB k true b' :: r) key, Ok tt).
Proof. intros E. unfold t_wr. cbn [t_mem t_key]. now rewrite nth_0, E, put_0. Qed.
Lemma wr_0_ub m k b r key p d : wr b p d = UB -> t_wr (length m) p d (mkT (m ++ mkB k true b :: r) key) = (mkT (m ++ mkB k true b :: r) key, UB).
Proof. intros E. unfold t_wr. cbn [t_mem t_key]. now rewrite nth_0, E. Qed.
Lemma wr_1 m c k b r key p d b' : wr b p d = Ok b' -> t_wr (S (length m)) p d (mkT (m ++ c :: mkB k true b :: r) key) = (mkT (m ++ c :: mkB k true b' :: r) key, Ok tt).
Proof. intros E. unfold t_wr. cbn [t_mem t_key]. now rewrite nth_1, E, put_1. Qed.
Lemma wr_1_ub m c k b r key p d : wr b p d = UB -> t_wr (S (length m)) p d (mkT (m ++ c :: mkB k true b :: r) key) = (mkT (m ++ c :: mkB k true b :: r) key, UB).
Proof. intros E. unfold t_wr. cbn [t_mem t_key]. now rewrite nth_1, E. Qed.
Lemma del_0 m b r key : t_delete (length m) (mkT (m ++ mkB New true b :: r) key) = (mkT (m ++ mkB New false b :: r) key, Ok tt).
Proof. unfold t_delete. cbn [t_mem t_key]. now rewrite nth_0, put_0. Qed.
Lemma new_0 m k g key : t_new k g (mkT m key) = (mkT (m ++ [mkB k true g]) key, Ok (length m)).
Proof. reflexivity. Qed.
Lemma new_1 m c k g key : t_new k g (mkT (m ++ [c]) key) = (mkT (m ++ [c; mkB k true g]) key, Ok (S (length m))).
Proof. unfold t_new. cbn [t_mem t_key]. rewrite app_length, Nat.add_1_r, <- app_assoc. reflexivity. Qed.
Lemma scope_app {A} (f : T A) m key l key' r : f (mkT m key) = (mkT (m ++ l) key', r) -> scope f (mkT m key) = (mkT (m ++ map leave l) key', r).
Proof.
  intros E. unfold scope. rewrite E. cbn [t_mem t_key]. rewrite firstn_app, Nat.sub_diag, firstn_all, firstn_O, app_nil_r.
  rewrite skipn_app, Nat.sub_diag, skipn_all. reflexivity.
Qed.
Lemma tbind_ok {A B} (x : T A) (f : A -> T B) s s' a : x s = (s', Ok a) -> tbind x f s = f a s'.
Proof. intros E. unfold tbind. now rewrite E. Qed.
Lemma tbind_ub {A B} (x : T A) (f : A -> T B) s s' : x s = (s', UB) -> tbind x f s = (s', UB).
Proof. intros E. unfold tbind. now rewrite E. Qed.
Lemma tbind_inv {A B} (x : T A) (f : A -> T B) s s' b : tbind x f s = (s', Ok b) -> exists s1 a, x s = (s1, Ok a) /\ f a s1 = (s', Ok b).
Proof. unfold tbind. destruct (x s) as [s1 [a| | | |]]; try discriminate. eauto. Qed.
Lemma tlift_ok {A B} (o : outcome A) (f : A -> T B) s a : o = Ok a -> tbind (tlift o) f s = f a s.
Proof. now intros ->. Qed.
Lemma tlift_ub {A B} (o : outcome A) (f : A -> T B) s : o = UB -> tbind (tlift o) f s = (s, UB).
Proof. now intros ->. Qed.
Lemma tlift_inv {A B} (o : outcome A) (f : A -> T B) s s' b : tbind (tlift o) f s = (s', Ok b) -> exists a, o = Ok a /\ f a s = (s', Ok b).
Proof. unfold tbind, tlift. destruct o; try discriminate. eauto. Qed.
Lemma wiped_refl m : wiped m m.
Proof. exists []. rewrite app_nil_r. auto. Qed.
Lemma wiped_one m k n : wiped m (m ++ [mkB k false (zeros n)]).
Proof. exists [mkB k false (zeros n)]. split; [reflexivity|]. repeat constructor. apply zeros_zero. Qed.
Lemma wiped_trans m1 m2 m3 : wiped m1 m2 -> wiped m2 m3 -> wiped m1 m3.
Proof. intros (l & -> & F) (l' & -> & F'). exists (l ++ l'). rewrite app_assoc. split; [reflexivity|]. apply Forall_app; auto. Qed.

Section Tmp.
  Context (ml : bool).
  Lemma unlock_get_inv f m k s b : t_unlock_get ml f (mkT m k) = (s, Ok b) -> exists l, k = VKey b l /\ s = mkT m (VKey b false).
  Proof.
    unfold t_unlock_get, t_unlock. cbn [t_key t_mem]. destruct k as [|kb [|]]; [discriminate| |].
    - destruct (ml && f); [discriminate|]. injection 1 as <- <-. eauto.
    - injection 1 as <- <-. eauto.
  Qed.
  Lemma lock_inv f m b s : t_lock ml f (mkT m (VKey b false)) = (s, Ok tt) -> s = mkT m (VKey b ml).
  Proof. unfold t_lock. cbn [t_key t_mem]. destruct (ml && f); [discriminate|]. now injection 1 as <-. Qed.
  Lemma unlock_inv f m k s : t_unlock ml f (mkT m k) = (s, Ok tt) -> s = mkT m (v_unlock k).
  Proof.
    unfold t_unlock. cbn [t_key t_mem]. destruct k as [|kb [|]]; cbn [v_unlock].
    - now injection 1 as <-.
    - destruct (ml && f); [discriminate|]. now injection 1 as <-.
    - now injection 1 as <-.
  Qed.
  Lemma data_inv x m k s b : (forall c, x <> Ok c) -> t_data ml x (mkT m (v_unlock k)) = (s, Ok b) -> exists l, k = VKey b l /\ s = mkT m (VKey b false).
  Proof.
    intros N. unfold t_data. cbn [t_key t_mem]. destruct k as [|kb l]; cbn [v_unlock].
    - destruct ml; [discriminate|]. intros E. injection E as _ E. destruct (N _ E).
    - rewrite andb_false_r. injection 1 as <- <-. eauto.
  Qed.

  (** prg.cpp *)
  Lemma prg_derivation_exec blk g key offset len out m k : zlen g = 64 ->
    exists m', t_prg_derivation blk g key offset len out (mkT m k) = (mkT m' k, prg_derivation blk key offset len out) /\
      (forall o, prg_derivation blk key offset len out = Ok o -> wiped m m').
  Proof.
    intros Lg. unfold t_prg_derivation, prg_derivation. destruct out as [out|].
    2:{ exists m. split; [|intros o; discriminate]. erewrite scope_app with (l := []); [cbn [map]; now rewrite app_nil_r|]. rewrite app_nil_r. reflexivity. }
    destruct (len =? 0).
    { exists m. split; [|intros; apply wiped_refl]. erewrite scope_app with (l := []); [cbn [map]; now rewrite app_nil_r|]. rewrite app_nil_r. reflexivity. }
    cbv zeta. destruct (wr_cases out 0 (zeros (Z.to_nat len))) as [[o1 E1]|E1]; rewrite E1; cbn [bind].
    2:{ exists m. split; [|intros o; discriminate]. erewrite scope_app with (l := []); [cbn [map]; now rewrite app_nil_r|]. rewrite app_nil_r. reflexivity. }
    destruct (offset mod CHACHA20_BLOCK_SIZE =? 0).
    { exists m. split; [|intros; apply wiped_refl]. erewrite scope_app with (l := []); [cbn [map]; now rewrite app_nil_r|]. rewrite app_nil_r. reflexivity. }
    assert (Wz : wr g 0 (zeros 64) = Ok (zeros 64)) by (apply wr_all; rewrite Lg; reflexivity).
    set (ch := chacha20_xor_ic blk key (offset / CHACHA20_BLOCK_SIZE) (zeros 64)).
    assert (Lc : zlen ch = 64).
    { unfold ch, chacha20_xor_ic. assert (X : forall d ic j, zlen (xor_ic_from blk key ic j d) = zlen d).
      { induction d as [|x d IH]; intros ic j; cbn [xor_ic_from]; [reflexivity|]. now rewrite !zlen_cons, IH. }
      now rewrite X. }
    assert (Wc : wr (zeros 64) 0 ch = Ok ch) by (apply wr_all; rewrite Lc; reflexivity).
    match goal with |- context [bind (if ?c then _ else _) _] => set (cnd := c) in * end.
    match goal with |- context [bind (if cnd then ?x else ?y) _] => set (X := if cnd then x else y) end.
    destruct X as [[o2 pl]|e| | |] eqn:EX; unfold X in EX; cbn [bind].
    1:{
      assert (HP : forall s, (if cnd then (out <== tlift (xor_ic_at blk key (u64 (offset / CHACHA20_BLOCK_SIZE + 1)) o1 (CHACHA20_BLOCK_SIZE - offset mod CHACHA20_BLOCK_SIZE)
                (u64 (len - (CHACHA20_BLOCK_SIZE - offset mod CHACHA20_BLOCK_SIZE)))) ;; tret (out, CHACHA20_BLOCK_SIZE - offset mod CHACHA20_BLOCK_SIZE)) else tret (o1, len)) s = (s, Ok (o2, pl))).
      { intros s. destruct cnd; [|injection EX as <- <-; reflexivity]. destruct (xor_ic_at _ _ _ _ _ _); try discriminate EX. injection EX as -> <-. reflexivity. }
      destruct (rd_cases ch (offset mod CHACHA20_BLOCK_SIZE) pl) as [[pre E2]|E2]; rewrite E2; cbn [bind].
      - destruct (wr_cases o2 0 pre) as [[o3 E3]|E3]; rewrite E3.
        + exists (m ++ [mkB Auto false (zeros 64)]). split; [|intros; apply wiped_one].
          erewrite scope_app with (l := [mkB Auto true (zeros 64)]); [reflexivity|].
          rewrite (tlift_ok _ _ _ _ eq_refl), (tbind_ok _ _ _ _ _ (new_0 _ _ _ _)), (tbind_ok _ _ _ _ _ (wr_0 _ _ _ _ _ _ _ _ Wz)).
          rewrite (tbind_ok _ _ _ _ _ (HP _)).
          rewrite (tbind_ok _ _ _ _ _ (get_0 _ _ _ _ _)). fold ch. rewrite (tbind_ok _ _ _ _ _ (wr_0 _ _ _ _ _ _ _ _ Wc)), (tbind_ok _ _ _ _ _ (get_0 _ _ _ _ _)).
          cbn [fst snd]. rewrite (tlift_ok _ _ _ _ E2), (tlift_ok _ _ _ _ E3). unfold t_wipe.
          rewrite (tbind_ok _ _ _ _ _ (wr_0 _ _ _ _ _ _ _ _ (wipe_all ch CHACHA20_BLOCK_SIZE (eq_sym Lc)))). reflexivity.
        + eexists. split; [|intros o; discriminate]. erewrite scope_app with (l := [mkB Auto true ch]); [reflexivity|].
          rewrite (tlift_ok _ _ _ _ eq_refl), (tbind_ok _ _ _ _ _ (new_0 _ _ _ _)), (tbind_ok _ _ _ _ _ (wr_0 _ _ _ _ _ _ _ _ Wz)).
          rewrite (tbind_ok _ _ _ _ _ (HP _)).
          rewrite (tbind_ok _ _ _ _ _ (get_0 _ _ _ _ _)). fold ch. rewrite (tbind_ok _ _ _ _ _ (wr_0 _ _ _ _ _ _ _ _ Wc)), (tbind_ok _ _ _ _ _ (get_0 _ _ _ _ _)).
          cbn [fst snd]. rewrite (tlift_ok _ _ _ _ E2), (tlift_ub _ _ _ E3). reflexivity.
      - eexists. split; [|intros o; discriminate]. erewrite scope_app with (l := [mkB Auto true ch]); [reflexivity|].
        rewrite (tlift_ok _ _ _ _ eq_refl), (tbind_ok _ _ _ _ _ (new_0 _ _ _ _)), (tbind_ok _ _ _ _ _ (wr_0 _ _ _ _ _ _ _ _ Wz)).
        rewrite (tbind_ok _ _ _ _ _ (HP _)).
        rewrite (tbind_ok _ _ _ _ _ (get_0 _ _ _ _ _)). fold ch. rewrite (tbind_ok _ _ _ _ _ (wr_0 _ _ _ _ _ _ _ _ Wc)), (tbind_ok _ _ _ _ _ (get_0 _ _ _ _ _)).
        cbn [fst snd]. rewrite (tlift_ub _ _ _ E2). reflexivity. }
    all: eexists; split; [|intros o; discriminate]; erewrite scope_app with (l := [mkB Auto true (zeros 64)]); [reflexivity|];
      rewrite (tlift_ok _ _ _ _ eq_refl), (tbind_ok _ _ _ _ _ (new_0 _ _ _ _)), (tbind_ok _ _ _ _ _ (wr_0 _ _ _ _ _ _ _ _ Wz));
      destruct cnd; [|discriminate EX]; unfold tbind at 1; unfold tbind at 1; unfold tlift at 1;
      destruct (xor_ic_at _ _ _ _ _ _) eqn:Y; try discriminate EX; try (injection EX as ->); reflexivity.
  Qed.
End Tmp.
