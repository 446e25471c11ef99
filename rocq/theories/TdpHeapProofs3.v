(** Programs *)
From Coq Require Import Lia ZifyBool Permutation.
From Verif Require Import Base BaseFacts MpiModel LimbModel HeapModel HeapSpec HeapProofs HeapProofs2 HeapProofs3 TdpHeapModel TdpHeapSpec TdpHeapProofs TdpHeapProofs2.

Definition slot_ok (V : list mpi) (i : nat) (x : kind) : Prop :=
  match x with
  | Dead => clear V i 0 15
  | Public => clear V i 13 15 /\ (keyok V i = true \/ clear V i 0 12)
  | Private => keyok V i = true
  end.
Definition tinv (k : nat) (s : tstate) : Prop := exists V, st (theap s) (tobjs s) V /\ length V = size k /\ length (tlive s) = k /\ clear V k 0 15 /\ forall i, (i < k)%nat -> slot_ok V i (kind_of s i).
Lemma slot_ok_same V V' i x : slot_same V V' i -> slot_ok V i x -> slot_ok V' i x.
Proof.
  intros R H. destruct x; cbn [slot_ok] in *; [eapply clear_same; [exact R|lia|exact H]| |rewrite (keyok_same _ _ _ R); exact H].
  destruct H as [A B]. split; [eapply clear_same; [exact R|lia|exact A]|]. rewrite (keyok_same _ _ _ R). destruct B as [B|B]; [left; exact B|right; eapply clear_same; [exact R|lia|exact B]].
Qed.
Lemma set_kind_nth l i x t : (i < length l)%nat -> nth t (set_kind l i x) Dead = if (t =? i)%nat then x else nth t l Dead.
Proof.
  intros Hi. unfold set_kind. destruct (Nat.eqb_spec t i) as [->|N].
  - rewrite app_nth2 by (rewrite firstn_length; lia). rewrite firstn_length, Nat.min_l by lia. rewrite Nat.sub_diag. reflexivity.
  - destruct (Nat.lt_ge_cases t i) as [L|L].
    + rewrite app_nth1 by (rewrite firstn_length; lia). rewrite <- (firstn_skipn i l) at 2. rewrite app_nth1 by (rewrite firstn_length; lia). reflexivity.
    + rewrite app_nth2 by (rewrite firstn_length; lia). rewrite firstn_length, Nat.min_l by lia. destruct (t - i)%nat as [|q] eqn:Eq; [lia|]. cbn [nth]. rewrite <- (firstn_skipn (S i) l) at 2. rewrite app_nth2 by (rewrite firstn_length; lia). rewrite firstn_length, Nat.min_l by lia. f_equal. lia.
Qed.
Lemma set_kind_length l i x : (i < length l)%nat -> length (set_kind l i x) = length l.
Proof. intros Hi. unfold set_kind. rewrite app_length. cbn [length]. rewrite firstn_length, skipn_length. lia. Qed.
Section Prog.
Variable ora : nat -> bool.
Variable k : nat.
(** A state in which variable [i] has become an [x] *)
Lemma tinv_set s V h' o' V' i x : length (tlive s) = k -> (i < k)%nat -> (forall i, (i < k)%nat -> slot_ok V i (kind_of s i)) -> clear V k 0 15 -> rest_same V V' i -> st h' o' V' -> length V' = size k -> slot_ok V' i x ->
  tinv k (MkT h' o' (set_kind (tlive s) i x)).
Proof.
  intros LL Hi A C R S' L' X. exists V'. cbn [theap tobjs tlive]. split; [exact S'|]. split; [exact L'|]. split; [rewrite set_kind_length; lia|]. split; [eapply clear_same; [apply R; lia|lia|exact C]|].
  intros t Ht. unfold kind_of. cbn [tlive]. rewrite set_kind_nth by lia. destruct (Nat.eqb_spec t i) as [->|N]; [exact X|]. eapply slot_ok_same; [apply R; exact N|]. apply A. exact Ht.
Qed.
Lemma tinv_keep s V h' o' V' i : length (tlive s) = k -> (i < k)%nat -> (forall i, (i < k)%nat -> slot_ok V i (kind_of s i)) -> clear V k 0 15 -> rest_same V V' i -> st h' o' V' -> length V' = size k -> slot_ok V' i (kind_of s i) ->
  tinv k (MkT h' o' (tlive s)).
Proof.
  intros LL Hi A C R S' L' X. exists V'. cbn [theap tobjs tlive]. split; [exact S'|]. split; [exact L'|]. split; [exact LL|]. split; [eapply clear_same; [apply R; lia|lia|exact C]|].
  intros t Ht. unfold kind_of. cbn [tlive]. destruct (Nat.eq_dec t i) as [->|N]; [exact X|]. eapply slot_ok_same; [apply R; exact N|]. apply (A t Ht).
Qed.
Lemma construct_st s V i x r (Q : list mpi -> bool -> Prop) : length (tlive s) = k -> (i < k)%nat -> kind_of s i = Dead -> (forall i, (i < k)%nat -> slot_ok V i (kind_of s i)) -> clear V k 0 15 -> ok4 k r V Q ->
  (forall V' b, Q V' b -> rest_same V V' i /\ slot_ok V' i (if b then Dead else x)) -> exists s', construct s i x r = Ok s' /\ tinv k s'.
Proof.
  intros LL Hi KD A C [h' [o' [V' [b [-> [S' [L' HQ]]]]]]] HR. destruct (HR _ _ HQ) as [R X]. unfold construct. cbn [bind]. eexists. split; [reflexivity|]. destruct b.
  - eapply tinv_keep; try eassumption. rewrite KD. exact X.
  - eapply tinv_set; eassumption.
Qed.
Lemma tstep_ok s c : tinv k s -> statement_ok k c -> no_late_failure c -> exists s', tstep ora k s c = Ok s' /\ tinv k s'.
Proof.
  intros T HC HN. pose proof T as [V [SV [LV [LL [CK A]]]]]. assert (exists s', Ok s = Ok s' /\ tinv k s') as STAY by (exists s; split; [reflexivity|exact T]).
  destruct c as [i fill ok|i fill ok subs|i fill ok subs|i j|i j|i cs|i]; cbn [statement_ok no_late_failure] in *; cbn [tstep]; cbv zeta.
  - destruct HC as [Hi F]. pose proof (A i Hi) as Ai. destruct (kind_of s i) eqn:KI; try exact STAY. eapply construct_st; try eassumption; [apply public_st; eassumption|].
    cbn beta. intros V' b [R [C1 [C2 C3]]]. split; [exact R|]. destruct b; cbn [slot_ok]; [apply (clear_app V' i 12 15); [apply C2; reflexivity|exact C1]|]. split; [exact C1|left; apply C3; reflexivity].
  - destruct HC as [Hi [F SO]]. pose proof (A i Hi) as Ai. destruct (kind_of s i) eqn:KI; try exact STAY. eapply construct_st; try eassumption; [apply private_st; eassumption|].
    cbn beta. intros V' b [R [C1 C2]]. split; [exact R|]. destruct b; cbn [slot_ok]; [apply C1; reflexivity|apply C2; reflexivity].
  - destruct HC as [Hi [F SO]]. pose proof (A i Hi) as Ai. destruct (kind_of s i) eqn:KI; try exact STAY. eapply construct_st; try eassumption; [apply generate_st; eassumption|].
    cbn beta. intros V' b [R [C1 C2]]. split; [exact R|]. destruct b; cbn [slot_ok]; [apply C1; reflexivity|apply C2; reflexivity].
  - destruct HC as [Hi Hj]. pose proof (A i Hi) as Ai. pose proof (A j Hj) as Aj. destruct (kind_of s i) eqn:KI; try (destruct (kind_of s j); exact STAY).
    assert (kind_of s j <> Dead -> exists s', construct s i Public (ctor_copy ora (theap s) (tobjs s) i j) = Ok s' /\ tinv k s') as G.
    { intros ND. assert (i <> j) as N by (intros ->; congruence). assert (keyok V j = true \/ clear V j 0 12) as KJ by (destruct (kind_of s j); [congruence|apply Aj|left; exact Aj]).
      eapply construct_st; try eassumption; [apply (copy_ctor_st ora k (theap s) (tobjs s) V i j); eassumption|].
      cbn beta. intros V' b [R [C1 [C2 C3]]]. split; [exact R|]. destruct b; cbn [slot_ok]; [apply (clear_app V' i 12 15); [apply C2; reflexivity|exact C1]|]. split; [exact C1|left; apply C3; reflexivity]. }
    destruct (kind_of s j); [exact STAY|apply G; discriminate|apply G; discriminate].
  - destruct HC as [Hi Hj]. pose proof (A i Hi) as Ai. pose proof (A j Hj) as Aj. destruct (kind_of s i) eqn:KI; try (destruct (kind_of s j); exact STAY).
    assert (kind_of s j <> Dead -> exists s', (if (i =? j)%nat then Ok s else '(h, o, _) <- rsa_copy ora (theap s) (tobjs s) i j ;; Ok (MkT h o (tlive s))) = Ok s' /\ tinv k s') as G.
    { intros ND. destruct (Nat.eqb_spec i j) as [E|N]; [exact STAY|]. assert (keyok V j = true \/ clear V j 0 12) as KJ by (destruct (kind_of s j); [congruence|apply Aj|left; exact Aj]).
      destruct (rsa_copy_st ora k (theap s) (tobjs s) V i j SV LV ltac:(lia) ltac:(lia) N) as [h' [o' [V' [r [E' [S' [L' [O' D']]]]]]]]. rewrite E'. cbn [bind]. eexists. split; [reflexivity|]. apply (tinv_keep s V h' o' V' i LL Hi A CK); [eapply only_rest; [exact O'|lia]|exact S'|exact L'|].
      rewrite KI. cbn [slot_ok] in *. destruct Ai as [Ai _]. split; [intros q Hq; rewrite (only_self _ _ _ _ _ q O') by lia; apply Ai; exact Hq|].
      destruct D' as [[_ D]|[_ [D D2]]]; [right; exact D|]. destruct KJ as [KJ|KJ]; [left; rewrite D; exact KJ|right; apply D2; exact KJ]. }
    destruct (kind_of s j); [exact STAY|apply G; discriminate|apply G; discriminate].
  - destruct HC as [Hi F]. pose proof (A i Hi) as Ai.
    assert (kind_of s i <> Dead -> exists s', ('(h, o) <- use ora (theap s) (tobjs s) i cs ;; Ok (MkT h o (tlive s))) = Ok s' /\ tinv k s') as G.
    { intros ND. unfold use. rewrite (check_st ora (theap s) (tobjs s) V i SV) by (rewrite LV; apply (at_lt ora k); lia). cbn [bind]. destruct (keyok V i) eqn:EK; cbn [bind].
      - destruct (calls_st ora k (theap s) (tobjs s) V i 8 12 cs SV LV F) as [h' [o' [V' [E' [S' [L' O']]]]]]. rewrite E'. cbn [bind]. eexists. split; [reflexivity|]. eapply tinv_keep; try eassumption; [eapply only_rest; [exact O'|lia]|].
        assert (keyok V' i = true) as K' by (unfold keyok; rewrite !(only_self _ _ _ _ _ _ O') by lia; exact EK).
        destruct (kind_of s i); cbn [slot_ok] in *; [congruence| |exact K']. destruct Ai as [Ai _]. split; [intros q Hq; rewrite (only_self _ _ _ _ _ q O') by lia; apply Ai; exact Hq|left; exact K'].
      - eexists. split; [reflexivity|]. destruct s; exact T. }
    destruct (kind_of s i); [exact STAY|apply G; discriminate|apply G; discriminate].
  - pose proof (A i HC) as Ai. destruct (kind_of s i) eqn:KI; cbn [slot_ok] in Ai; [exact STAY| |].
    + destruct (destroy_base_st ora k (theap s) (tobjs s) V i SV LV ltac:(lia)) as [h' [o' [V' [E' [S' [L' [C' O']]]]]]]. rewrite E'. cbn [bind]. eexists. split; [reflexivity|]. eapply tinv_set; try eassumption; [eapply only_rest; [exact O'|lia]|]. cbn [slot_ok]. apply (clear_app V' i 12 15 C'). intros q Hq. rewrite (only_self _ _ _ _ _ q O') by lia. apply Ai. exact Hq.
    + destruct (destroy_private_st ora k (theap s) (tobjs s) V i SV LV ltac:(lia)) as [h' [o' [V' [E' [S' [L' [C' O']]]]]]]. rewrite E'. cbn [bind]. eexists. split; [reflexivity|]. eapply tinv_set; try eassumption; eapply only_rest; [exact O'|lia].
Qed.
Lemma trun_ok : forall cs s, tinv k s -> Forall (statement_ok k) cs -> Forall no_late_failure cs -> exists s', trun ora k s cs = Ok s' /\ tinv k s'.
Proof.
  induction cs as [|c cs IH]; intros s T F N; [exists s; split; [reflexivity|exact T]|]. inversion F as [|? ? F1 F2]; subst. inversion N as [|? ? N1 N2]; subst. cbn [trun]. destruct (tstep_ok s c T F1 N1) as [s1 [E1 T1]]. rewrite E1. cbn [bind]. apply IH; assumption.
Qed.
Lemma trun_app : forall a b s, trun ora k s (a ++ b) = (s <- trun ora k s a ;; trun ora k s b).
Proof. induction a as [|c a IH]; intros b s; [reflexivity|]. cbn [app trun]. destruct (tstep ora k s c); cbn [bind]; [apply IH|reflexivity..]. Qed.
Lemma tinv_start : tinv k (start k).
Proof.
  exists (repeat l_init (size k)). cbn [start theap tobjs tlive]. split; [apply (st_start ora)|]. split; [apply repeat_length|]. split; [apply repeat_length|].
  assert (forall i, clear (repeat l_init (size k)) i 0 15) as C. { intros i j _. unfold val. destruct (nth_in_or_default (at_ i j) (repeat l_init (size k)) l_init) as [H|H]; [apply repeat_spec in H; exact H|exact H]. }
  split; [apply C|]. intros i Hi. unfold kind_of. cbn [start tlive]. destruct (nth_in_or_default i (repeat Dead k) Dead) as [H|H]; [apply repeat_spec in H|]; rewrite H; apply C.
Qed.
(** Destroying makes a variable dead and leaves the others *)
Lemma destroy_kind s i s' : length (tlive s) = k -> (i < k)%nat -> tstep ora k s (SDestroy i) = Ok s' -> kind_of s' i = Dead /\ (forall t, kind_of s t = Dead -> kind_of s' t = Dead) /\ length (tlive s') = k.
Proof.
  intros LL Hi E. cbn [tstep] in E. cbv zeta in E. destruct (kind_of s i) eqn:KI.
  - injection E as <-. split; [exact KI|]. split; [intros t Ht; exact Ht|exact LL].
  - destruct (destroy_base ora (theap s) (tobjs s) i) as [[h o]| | | |]; cbn [bind] in E; try discriminate E. injection E as <-. unfold kind_of. cbn [tlive]. split; [rewrite set_kind_nth by lia; rewrite Nat.eqb_refl; reflexivity|]. split; [|rewrite set_kind_length; lia]. intros t Ht. rewrite set_kind_nth by lia. destruct (t =? i)%nat; [reflexivity|exact Ht].
  - destruct (destroy_private ora (theap s) (tobjs s) i) as [[h o]| | | |]; cbn [bind] in E; try discriminate E. injection E as <-. unfold kind_of. cbn [tlive]. split; [rewrite set_kind_nth by lia; rewrite Nat.eqb_refl; reflexivity|]. split; [|rewrite set_kind_length; lia]. intros t Ht. rewrite set_kind_nth by lia. destruct (t =? i)%nat; [reflexivity|exact Ht].
Qed.
Lemma destroy_all_ok : forall m j s, tinv k s -> (j + m = k)%nat -> (forall t, (t < j)%nat -> kind_of s t = Dead) -> exists s', trun ora k s (map SDestroy (seq j m)) = Ok s' /\ tinv k s' /\ forall t, (t < k)%nat -> kind_of s' t = Dead.
Proof.
  induction m as [|m IH]; intros j s T L D; [exists s; split; [reflexivity|]; split; [exact T|]; intros t Ht; apply D; lia|]. cbn [seq map trun].
  destruct (tstep_ok s (SDestroy j) T ltac:(cbn; lia) I) as [s1 [E1 T1]]. rewrite E1. cbn [bind]. pose proof T as [V [_ [_ [LL _]]]]. destruct (destroy_kind s j s1 LL ltac:(lia) E1) as [K1 [K2 _]].
  apply (IH (S j) s1 T1 ltac:(lia)). intros t Ht. destruct (Nat.eq_dec t j) as [->|N]; [exact K1|]. apply K2, D. lia.
Qed.
Theorem program_memory cs : Forall (statement_ok k) cs -> Forall no_late_failure cs -> exists s, trun ora k (start k) cs = Ok s /\ owned (theap s) (tobjs s) /\ wiped (theap s).
Proof.
  intros F N. destruct (trun_ok cs (start k) tinv_start F N) as [s [E [V [S' _]]]]. exists s. split; [exact E|]. destruct (st_end _ _ _ S') as [A [B _]]. split; assumption.
Qed.
Theorem program_dead cs s i j : Forall (statement_ok k) cs -> Forall no_late_failure cs -> trun ora k (start k) cs = Ok s -> (i < k)%nat -> (j < 16)%nat -> kind_of s i = Dead -> nth (at_ i j) (tobjs s) h_init = h_init.
Proof.
  intros F N E Hi Hj KD. destruct (trun_ok cs (start k) tinv_start F N) as [s' [E' [V [S' [L' [LL [CK A]]]]]]]. rewrite E in E'. injection E' as <-. specialize (A i Hi). rewrite KD in A. cbn [slot_ok] in A. specialize (A j ltac:(lia)).
  destruct S' as [v [-> [I ->]]]. rewrite nth_fst. rewrite nth_num in A. assert (at_ i j < length v)%nat as Hv by (rewrite map_length in L'; rewrite L'; apply (at_lt ora k); lia). destruct I as [_ [_ FF]]. rewrite Forall_forall in FF. destruct (FF _ (nth_In v d0 Hv)) as [G1 G2].
  destruct (nth (at_ i j) v d0) as [[sg n p] l]. unfold num, l_init in A. cbn [fst snd hs hn hp] in *. injection A as -> ->. rewrite (proj2 G2 eq_refl). cbn in G1. subst n. reflexivity.
Qed.
Theorem program_end cs : Forall (statement_ok k) cs -> Forall no_late_failure cs -> exists s, trun ora k (start k) (cs ++ destroy_all k) = Ok s /\ cells (theap s) = [] /\ wiped (theap s).
Proof.
  intros F N. destruct (trun_ok cs (start k) tinv_start F N) as [s [E T]]. destruct (destroy_all_ok k 0 s T ltac:(lia) ltac:(lia)) as [s1 [E1 [T1 D1]]]. exists s1. rewrite trun_app, E. cbn [bind]. split; [exact E1|].
  destruct T1 as [V [S' [L' [LL [CK A]]]]]. destruct (st_end _ _ _ S') as [_ [W C]]. split; [|exact W]. apply C. apply Forall_forall. intros x Hx. destruct (In_nth V x l_init Hx) as [t [Ht Et]]. subst x. symmetry. rewrite L' in Ht. unfold size in Ht.
  pose proof (Nat.div_mod t 16 ltac:(lia)) as DM. pose proof (Nat.mod_upper_bound t 16 ltac:(lia)) as MB. assert (t = at_ (t / 16) (t mod 16)) as -> by (unfold at_; exact DM). change (nth ?a V l_init) with (val V a).
  set (q := (t / 16)%nat) in *. set (r := (t mod 16)%nat) in *. destruct (Nat.eq_dec q k) as [->|NQ]; [apply CK; lia|]. assert (q < k)%nat as HQ by lia. specialize (A q HQ). rewrite (D1 q HQ) in A. apply A. lia.
Qed.
End Prog.
