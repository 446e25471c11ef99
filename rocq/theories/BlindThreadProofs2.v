(** A call of mbedtls_rsa_private in steps that no other thread interrupts is that of TdpModel.v. *)
From Coq Require Import Lia List.
From Verif Require Import Base BaseFacts MpiModel MpiProofs RsaKeyModel RsaKeySpec TdpModel TdpSpec BlindThreadModel BlindThreadSpec BlindThreadProofs.

Section Alone.
  Context (k : rsa_key) (c : call).
  Inductive goes : shared -> place -> shared -> Z + Z -> Prop :=
  | g_done s r : goes s (Done r) s r
  | g_step s p s1 p1 s' r : (forall r, p <> Done r) -> place_step k c s p = Ok (s1, p1) -> goes s1 p1 s' r -> goes s p s' r.
  Lemma goes_run m s p s' r : goes s p s' r -> forall h cs rs, exists n,
    run_threads m k (s, h, [{| todo := cs; current := Some (c, p); results := rs |}]) (repeat 0%nat n) = Ok (s', None, [{| todo := cs; current := None; results := (c, r) :: rs |}]).
  Proof using.
    induction 1 as [s r|s p s1 p1 s' r ND E _ IH]; intros h cs rs.
    - exists 1%nat. reflexivity.
    - destruct (IH h cs rs) as (n & En). exists (S n). cbn [repeat]. eapply run_cons; [eapply call_step; [reflexivity|reflexivity|exact ND|exact E]|]. exact En.
  Qed.
  Lemma mod_cases a n : (exists e, mpi_mod a n = Ok (inl e)) \/ exists v, mpi_mod a n = Ok (inr v).
  Proof using. unfold mpi_mod, err, ret. repeat match goal with |- context [if ?b then _ else _] => destruct b end; eauto. Qed.
  Lemma exp_cases a e n : (exists x, mpi_exp_mod a e n = Ok (inl x)) \/ exists v, mpi_exp_mod a e n = Ok (inr v).
  Proof using. unfold mpi_exp_mod, err, ret. repeat match goal with |- context [if ?b then _ else _] => destruct b end; eauto. Qed.
  Lemma inv_cases a n : (exists x, mpi_inv_mod a n = Ok (inl x)) \/ exists v, mpi_inv_mod a n = Ok (inr v).
  Proof using. destruct (inv_mod_total a n) as (r & E & _). destruct r as [e|v]; eauto. Qed.
  (** The end: the same number or error *)
  Definition tail_of (vi vf : Z) (i : nat) (r : Z + Z) : Prop := err_add ERR_RSA_PRIVATE_FAILED (rsa_private_core k vi vf (fst c) i (snd c)) = Ok r.
  Lemma blind_goes vi vf i : exists r, goes {| Vi := vi; Vf := Some vf |} (Blind i) {| Vi := vi; Vf := Some vf |} r /\ tail_of vi vf i r.
  Proof using.
    assert (forall e, blind_and_power k c vi i = Ok (inl e) -> goes {| Vi := vi; Vf := Some vf |} (Blind i) {| Vi := vi; Vf := Some vf |} (inl (ERR_RSA_PRIVATE_FAILED + e))) as GE.
    { intros e E. eapply g_step; [discriminate| |apply g_done]. cbn [place_step Vi]. rewrite E. reflexivity. }
    assert (forall y r, blind_and_power k c vi i = Ok (inr y) -> err_add ERR_RSA_PRIVATE_FAILED (mpi_mod (y * vf) (key_N k)) = Ok r -> goes {| Vi := vi; Vf := Some vf |} (Blind i) {| Vi := vi; Vf := Some vf |} r) as GO.
    { intros y r E Er. eapply g_step; [discriminate|cbn [place_step Vi]; rewrite E; reflexivity|]. eapply g_step; [discriminate| |apply g_done]. cbn [place_step Vf value].
      destruct (mod_cases (y * vf) (key_N k)) as [[e Em]|[v Em]]; rewrite Em in *; cbn in Er |- *; injection Er as <-; reflexivity. }
    unfold tail_of, rsa_private_core, blind_and_power in *.
    destruct (mod_cases (snd c * vi) (key_N k)) as [[e1 E1]|[v1 E1]]; rewrite E1 in *; cbn [bindr bind] in *; [eexists; split; [apply GE; reflexivity|reflexivity]|]. cbn zeta in *.
    match goal with |- context [bindr (mpi_exp_mod v1 ?d (key_P k))] => destruct (exp_cases v1 d (key_P k)) as [[e2 E2]|[v2 E2]] end; rewrite E2 in *; cbn [bindr bind] in *; [eexists; split; [apply GE; reflexivity|reflexivity]|].
    match goal with |- context [bindr (mpi_exp_mod v1 ?d (key_Q k))] => destruct (exp_cases v1 d (key_Q k)) as [[e3 E3]|[v3 E3]] end; rewrite E3 in *; cbn [bindr bind] in *; [eexists; split; [apply GE; reflexivity|reflexivity]|].
    destruct (mod_cases ((v2 - v3) * key_QP k) (key_P k)) as [[e4 E4]|[v4 E4]]; rewrite E4 in *; cbn [bindr bind] in *; [eexists; split; [apply GE; reflexivity|reflexivity]|].
    destruct (mod_cases ((v3 + v4 * key_Q k) * vf) (key_N k)) as [[e5 E5]|[v5 E5]].
    - eexists. split; [eapply GO; [reflexivity|rewrite E5; reflexivity]|rewrite E5; reflexivity].
    - eexists. split; [eapply GO; [reflexivity|rewrite E5; reflexivity]|rewrite E5; reflexivity].
  Qed.
  (** What follows the preparation *)
  Definition after (x : outcome (blinding * (Z + nat))) (s' : shared) (r : Z + Z) : Prop :=
    exists bl x', x = Ok (bl, x') /\ s' = shared_of bl /\ bl <> None /\
    match x', bl with inl e, _ => r = inl (ERR_RSA_PRIVATE_FAILED + e) | inr i, Some (vi, vf) => tail_of vi vf i r | inr _, None => False end.
  Lemma loop_goes n : forall i vi vf,
    let '(vi', vf', i', found) := blinding_loop n (key_N k) (rsa_len (key_pub k)) (fst c) i vi vf in
    if found then forall s' r, goes {| Vi := vi'; Vf := Some vf' |} (Invert i') s' r -> goes {| Vi := vi; Vf := Some vf |} (Fill n i) s' r
    else goes {| Vi := vi; Vf := Some vf |} (Fill n i) {| Vi := vi'; Vf := Some vf' |} (inl (ERR_RSA_PRIVATE_FAILED + ERR_RSA_RNG_FAILED)).
  Proof using.
    induction n as [|n IH]; intros i vi vf; cbn [blinding_loop].
    - eapply g_step; [discriminate|reflexivity|apply g_done].
    - destruct (Z.eqb_spec (mpi_gcd (fst c i (rsa_len (key_pub k) - 1)) (key_N k)) 1) as [E|E].
      + intros s' r G. eapply g_step; [discriminate|reflexivity|]. eapply g_step; [discriminate|reflexivity|]. cbn [Vi Vf value]. eapply g_step; [discriminate|cbn [place_step Vi]; rewrite (proj2 (Z.eqb_eq _ _) E); reflexivity|]. exact G.
      + specialize (IH (S i) (mpi_gcd (fst c i (rsa_len (key_pub k) - 1)) (key_N k)) (fst c i (rsa_len (key_pub k) - 1))).
        destruct (blinding_loop n _ _ _ _ _ _) as [[[vi' vf'] i'] found]. destruct found.
        * intros s' r G. eapply g_step; [discriminate|reflexivity|]. eapply g_step; [discriminate|reflexivity|]. cbn [Vi Vf value]. eapply g_step; [discriminate|cbn [place_step Vi]; rewrite (proj2 (Z.eqb_neq _ _) E); reflexivity|].
          apply IH, G.
        * eapply g_step; [discriminate|reflexivity|]. eapply g_step; [discriminate|reflexivity|]. cbn [Vi Vf value]. eapply g_step; [discriminate|cbn [place_step Vi]; rewrite (proj2 (Z.eqb_neq _ _) E); reflexivity|]. exact IH.
  Qed.
  Lemma start_goes bl : snd c < key_N k -> exists s' r, goes (shared_of bl) Start s' r /\ after (rsa_prepare_blinding k bl (fst c)) s' r.
  Proof using.
    intros L. assert (forall s, place_step k c s Start = Ok (s, match Vf s with Some _ => SquareVi | None => Fill 11 0 end)) as St by (intros s; cbn [place_step]; rewrite (proj2 (Z.leb_gt _ _)) by lia; reflexivity).
    destruct bl as [[vi vf]|]; cbn [rsa_prepare_blinding shared_of].
    - assert (forall s' r, goes {| Vi := vi * vi; Vf := Some vf |} ReduceVi s' r -> goes {| Vi := vi; Vf := Some vf |} Start s' r) as G.
      { intros s' r H. eapply g_step; [discriminate|apply St|]. cbn [Vf]. eapply g_step; [discriminate|reflexivity|]. exact H. }
      destruct (mod_cases (vi * vi) (key_N k)) as [[e E]|[v E]]; rewrite E; cbn [bind].
      + eexists _, _. split; [apply G; eapply g_step; [discriminate|cbn [place_step Vi]; unfold chk; rewrite E; reflexivity|apply g_done]|].
        eexists (Some (vi * vi, vf)), _. split; [reflexivity|]. split; [reflexivity|]. split; [discriminate|reflexivity].
      + assert (forall s' r, goes {| Vi := v; Vf := Some (vf * vf) |} ReduceVf s' r -> goes {| Vi := vi; Vf := Some vf |} Start s' r) as G2.
        { intros s' r H. apply G. eapply g_step; [discriminate|cbn [place_step Vi]; unfold chk; rewrite E; reflexivity|]. cbn [Vf]. eapply g_step; [discriminate|reflexivity|]. exact H. }
        destruct (mod_cases (vf * vf) (key_N k)) as [[e2 E2]|[v2 E2]]; rewrite E2; cbn [bind].
        * eexists _, _. split; [apply G2; eapply g_step; [discriminate|cbn [place_step Vf value]; unfold chk; rewrite E2; reflexivity|apply g_done]|].
          eexists (Some (v, vf * vf)), _. split; [reflexivity|]. split; [reflexivity|]. split; [discriminate|reflexivity].
        * destruct (blind_goes v v2 0) as (r & Gr & Tr). exists {| Vi := v; Vf := Some v2 |}, r. split; [apply G2; eapply g_step; [discriminate|cbn [place_step Vf value]; unfold chk; rewrite E2; reflexivity|]; exact Gr|].
          eexists (Some (v, v2)), _. split; [reflexivity|]. split; [reflexivity|]. split; [discriminate|exact Tr].
    - assert (forall s' r, goes {| Vi := 0; Vf := Some 0 |} (Fill 11 0) s' r -> goes fresh_object Start s' r) as G.
      { intros s' r H. eapply g_step; [discriminate|apply St|]. cbn [Vf fresh_object]. inversion H as [|? ? s1 p1 ? ? _ E1 H1]; subst. cbn [place_step Vi] in E1. injection E1 as <- <-.
        eapply g_step; [discriminate|reflexivity|]. exact H1. }
      pose proof (loop_goes 11 0 0 0) as Lo. destruct (blinding_loop 11 _ _ _ _ _ _) as [[[vi vf] i] found]. destruct found; cbn [negb].
      + destruct (inv_cases vf (key_N k)) as [[e E]|[v E]]; rewrite E; cbn [bind].
        * eexists _, _. split; [apply G, Lo; eapply g_step; [discriminate|cbn [place_step Vf value]; unfold chk; rewrite E; reflexivity|apply g_done]|].
          eexists (Some (vi, vf)), _. split; [reflexivity|]. split; [reflexivity|]. split; [discriminate|reflexivity].
        * destruct (exp_cases v (key_E k) (key_N k)) as [[e2 E2]|[v2 E2]]; rewrite E2; cbn [bind].
          -- eexists _, _. split; [apply G, Lo; eapply g_step; [discriminate|cbn [place_step Vf value]; unfold chk; rewrite E; reflexivity|]; eapply g_step; [discriminate|cbn [place_step Vi]; unfold chk; rewrite E2; reflexivity|apply g_done]|].
             eexists (Some (v, vf)), _. split; [reflexivity|]. split; [reflexivity|]. split; [discriminate|reflexivity].
          -- destruct (blind_goes v2 vf i) as (r & Gr & Tr). exists {| Vi := v2; Vf := Some vf |}, r.
             split; [apply G, Lo; eapply g_step; [discriminate|cbn [place_step Vf value]; unfold chk; rewrite E; reflexivity|]; eapply g_step; [discriminate|cbn [place_step Vi]; unfold chk; rewrite E2; reflexivity|]; exact Gr|].
             eexists (Some (v2, vf)), _. split; [reflexivity|]. split; [reflexivity|]. split; [discriminate|exact Tr].
      + eexists _, _. split; [apply G, Lo|]. eexists (Some (vi, vf)), _. split; [reflexivity|]. split; [reflexivity|]. split; [discriminate|reflexivity].
  Qed.
End Alone.

Lemma invert_alone m k bl rnd inp out bs T : rd inp 0 (rsa_len (key_pub k)) = Ok bs -> mpi_read_binary bs = ret T -> exists n bl' r,
  run_threads m k (shared_of bl, None, [starting [(rnd, T)]]) (repeat 0%nat n) = Ok (shared_of bl', None, [{| todo := []; current := None; results := [((rnd, T), r)] |}]) /\
  rsa_private k bl rnd inp out = (x <- written k out r ;; Ok (bl', x)).
Proof.
  intros Rd Re. unfold rsa_private. cbn zeta. rewrite Rd. cbn [bind]. rewrite Re. cbn [bind ret].
  assert (forall s' r, goes k (rnd, T) (shared_of bl) Start s' r -> exists n,
    run_threads m k (shared_of bl, None, [starting [(rnd, T)]]) (repeat 0%nat n) = Ok (s', None, [{| todo := []; current := None; results := [((rnd, T), r)] |}])) as G.
  { intros s' r H. destruct (goes_run k (rnd, T) m _ _ _ _ H (Some 0%nat) [] []) as (n & En). exists (S n). cbn [repeat]. eapply run_cons; [|exact En]. destruct m; reflexivity. }
  destruct (Z.leb_spec (key_N k) T) as [L|L].
  - destruct (G (shared_of bl) (inl (ERR_RSA_PRIVATE_FAILED + ERR_MPI_BAD_INPUT_DATA))) as (n & En).
    { eapply g_step; [discriminate| |apply g_done]. cbn [place_step snd]. rewrite (proj2 (Z.leb_le _ _)) by lia. reflexivity. }
    exists n, bl, (inl (ERR_RSA_PRIVATE_FAILED + ERR_MPI_BAD_INPUT_DATA)). split; [exact En|reflexivity].
  - destruct (start_goes k (rnd, T) bl L) as (s' & r & Gs & bl' & x' & Ex & -> & NB & Q). destruct (G _ _ Gs) as (n & En). exists n, bl', r. split; [exact En|].
    cbn [fst] in Ex. rewrite Ex. cbn [bind]. destruct x' as [e|i]; destruct bl' as [[vi vf]|]; try contradiction.
    + subst r. reflexivity.
    + unfold tail_of in Q. cbn [fst snd] in Q. destruct (rsa_private_core k vi vf rnd i T) as [[e|y]| | | |]; cbn in Q; try discriminate; injection Q as <-; [reflexivity|]. cbn [bindr bind written]. reflexivity.
Qed.
