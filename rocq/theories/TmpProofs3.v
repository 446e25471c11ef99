(** Lemmas on temporary memory: the functions of HMac and Prf. *)
From Coq Require Import Lia.
From Verif Require Import Base BaseFacts KeyVal PrgModel CipherModel HmacModel TmpModel TmpSpec TmpProofs TmpProofs2.

Ltac head t := lazymatch t with bind ?x _ => head x | _ => t end.
Ltac core_step :=
  match goal with |- match ?t with _ => _ end =>
    let h := head t in
    lazymatch h with
    | rd ?b ?p ?n => let E := fresh "E" in destruct (rd_cases b p n) as [[? E]|E]; rewrite E; cbn [bind]
    | wr ?b ?p ?d => let E := fresh "E" in destruct (wr_cases b p d) as [[? E]|E]; rewrite E; cbn [bind]
    end
  end.
Ltac fwd :=
  repeat first
    [ erewrite tlift_ok by (first [eassumption|reflexivity]) | erewrite tlift_ub by (first [eassumption|reflexivity])
    | rewrite (tbind_ok _ _ _ _ _ (get_0 _ _ _ _ _)) | rewrite (tbind_ok _ _ _ _ _ (get_1 _ _ _ _ _ _))
    | erewrite tbind_ok by (apply wr_0; eassumption) | erewrite tbind_ok by (apply wr_1; eassumption)
    | erewrite tbind_ub by (apply wr_0_ub; eassumption) | erewrite tbind_ub by (apply wr_1_ub; eassumption)
    | rewrite (tbind_ok (tret tt) _ _ _ tt eq_refl) | rewrite (tbind_ok (t_data _ UB) _ _ _ _ eq_refl) ].

Lemma snd_scope {A} (f : T A) s : snd (scope f s) = snd (f s).
Proof. unfold scope. now destruct (f s). Qed.

Section Hmac.
  Context (ml : bool) (H : bytes -> bytes) (B D : Z).
  Definition hmac_rest (inp : bytes) (len : Z) (m : list block) : list block :=
    m ++ [mkB New false (zeros (Z.to_nat (buffer_len B D len))); mkB Auto false (zeros (Z.to_nat (tmp_len B D)))].
  Lemma data_open m kb : t_data ml UB (mkT m (VKey kb false)) = (mkT m (VKey kb false), Ok kb).
  Proof. unfold t_data. cbn. now rewrite andb_false_r. Qed.
  Lemma hmac_exec fu fl N inp len out opos out_len g1 g2 m kb l : (D <? out_len) = false -> zlen g1 = buffer_len B D len -> zlen g2 = tmp_len B D ->
    l && (ml && fu) = false ->
    match hmac_core H B D N kb inp len out opos out_len g1 g2 with
    | Ok o => t_hmac ml H B D fu fl N (Some inp) len (Some out) opos out_len g1 g2 (mkT m (VKey kb l)) =
                (if ml && fl then (mkT (hmac_rest inp len m) (VKey kb false), Throw RuntimeError) else (mkT (hmac_rest inp len m) (VKey kb ml), Ok o))
    | _ => forall o, snd (t_hmac ml H B D fu fl N (Some inp) len (Some out) opos out_len g1 g2 (mkT m (VKey kb l))) <> Ok o
    end.
  Proof.
    intros Hd L1 L2 Hu. unfold t_hmac, hmac_core, xor_const. rewrite Hd.
    assert (U : forall m0, t_unlock ml fu (mkT m0 (VKey kb l)) = (mkT m0 (VKey kb false), Ok tt)).
    { intros m0. unfold t_unlock. cbn [t_key t_mem]. destruct l; [|reflexivity]. cbn [andb] in Hu. now rewrite Hu. }
    cbv zeta.
    Ltac start U := rewrite (tbind_ok _ _ _ _ _ (new_0 _ _ _ _)), (tbind_ok _ _ _ _ _ (new_1 _ _ _ _ _)), (tbind_ok _ _ _ _ _ (U _)), (tbind_ok _ _ _ _ _ (data_open _ _)).
    Ltac bad U := intros o; rewrite snd_scope; start U; fwd; try (rewrite (tbind_ok _ _ _ _ _ (data_open _ _)); fwd); discriminate.
    assert (F : forall (f : T bytes) o, f (mkT m (VKey kb l)) = (if ml && fl then (mkT (m ++ [mkB New false (zeros (Z.to_nat (buffer_len B D len))); mkB Auto true (zeros (Z.to_nat (tmp_len B D)))]) (VKey kb false), Throw RuntimeError)
        else (mkT (m ++ [mkB New false (zeros (Z.to_nat (buffer_len B D len))); mkB Auto true (zeros (Z.to_nat (tmp_len B D)))]) (VKey kb ml), Ok o)) ->
        scope f (mkT m (VKey kb l)) = (if ml && fl then (mkT (hmac_rest inp len m) (VKey kb false), Throw RuntimeError) else (mkT (hmac_rest inp len m) (VKey kb ml), Ok o)))
      by (intros f o Ef; destruct (ml && fl); now rewrite (scope_app _ _ _ _ _ _ Ef)).
    destruct (N <? B); repeat (core_step; [|solve [bad U]]).
    all: repeat match goal with E : wr ?b ?p ?d = Ok ?b' |- _ => lazymatch goal with X : zlen b' = zlen b |- _ => fail | _ => pose proof (wr_zlen _ _ _ _ E) end end.
    all: apply F; start U; fwd; rewrite (tbind_ok _ _ _ _ _ (data_open _ _)); fwd; unfold t_wipe.
    all: erewrite tbind_ok by (apply wr_0, wipe_all; congruence); rewrite (tbind_ok _ _ _ _ _ (del_0 _ _ _ _)); erewrite tbind_ok by (apply wr_1, wipe_all; congruence).
    all: unfold tbind, t_lock; cbn [t_key t_mem]; destruct (ml && fl); reflexivity.
  Qed.
End Hmac.
