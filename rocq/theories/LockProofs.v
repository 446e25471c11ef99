(** The locks and the threads. *)
From Coq Require Import Lia.
From Verif Require Import Base LockModel LockSpec.

Definition mok (m : mutex) (l : lock) (past : list (nat * event)) : Prop :=
  match m with
  | Raw => False
  | Free => forall t, inside t l past = false
  | Held t => forall u, inside u l past = (u =? t)%nat
  end.
Lemma lock_eqb_refl l : lock_eqb l l = true.
Proof. destruct l; apply Nat.eqb_refl. Qed.
Lemma lock_eqb_eq a b : lock_eqb a b = true -> a = b.
Proof. destruct a, b; cbn; try discriminate; intros H; apply Nat.eqb_eq in H; congruence. Qed.
Lemma set_nth_length {A} (l : list A) i x : (i < length l)%nat -> length (set_nth l i x) = length l.
Proof. intros H. unfold set_nth. rewrite app_length. cbn [length]. rewrite firstn_length, skipn_length. lia. Qed.
Lemma set_nth_same {A} (l : list A) i x : (i < length l)%nat -> nth_error (set_nth l i x) i = Some x.
Proof. intros H. unfold set_nth. rewrite nth_error_app2 by (rewrite firstn_length; lia). rewrite firstn_length. replace (i - Nat.min i (length l))%nat with 0%nat by lia. reflexivity. Qed.
Lemma set_nth_other {A} : forall (l : list A) i j x, (i < length l)%nat -> i <> j -> nth_error (set_nth l i x) j = nth_error l j.
Proof.
  induction l as [|y l IH]; intros i j x H N; cbn [length] in H; [lia|]. destruct i as [|i], j as [|j]; try lia; try reflexivity. change (set_nth (y :: l) (S i) x) with (y :: set_nth l i x). cbn [nth_error]. apply IH; lia.
Qed.
Lemma nth_error_lt {A} (l : list A) i x : nth_error l i = Some x -> (i < length l)%nat.
Proof. intros H. apply nth_error_Some. congruence. Qed.
(** Locking or unlocking a mutex *)
Lemma mode_land mode : locks mode = true \/ unlocks mode = true -> negb (Z.land mode CRYPTO_LOCK =? 0) = locks mode.
Proof. unfold locks, unlocks. intros H. assert (mode = 5 \/ mode = 9 \/ mode = 6 \/ mode = 10) as [-> | [-> | [-> | ->]]] by lia; reflexivity. Qed.
Lemma mode_excl mode : unlocks mode = true -> locks mode = false.
Proof. unfold locks, unlocks. lia. Qed.
Lemma lock_mutex past t l mode m : mok m l past -> (locks mode = true /\ inside t l past = false \/ unlocks mode = true /\ inside t l past = true) ->
  (lock_or_unlock t mode m = Ok None /\ locks mode = true /\ exists u, inside u l past = true) \/
  (exists m', lock_or_unlock t mode m = Ok (Some m') /\ mok m' l ((t, ELock l mode) :: past) /\ (locks mode = true -> forall u, inside u l past = false)).
Proof.
  intros M H. unfold lock_or_unlock. rewrite mode_land by tauto.
  assert (forall u, inside u l ((t, ELock l mode) :: past) = if (u =? t)%nat then locks mode else inside u l past) as IN by (intros u; cbn [inside]; rewrite lock_eqb_refl, Bool.andb_true_r, Nat.eqb_sym; reflexivity).
  destruct H as [[H1 H2]|[H1 H2]].
  - rewrite H1. destruct m as [| |v]; cbn [mok pthread_lock] in *; [contradiction| |].
    + right. exists (Held t). split; [reflexivity|]. split; [|intros _; exact M]. cbn [mok]. intros u. rewrite IN, H1. destruct (u =? t)%nat; [reflexivity|apply M].
    + left. split; [reflexivity|]. split; [reflexivity|]. exists v. rewrite M. apply Nat.eqb_refl.
  - rewrite (mode_excl _ H1). destruct m as [| |v]; cbn [mok pthread_unlock] in *; [contradiction|rewrite M in H2; discriminate|]. rewrite M in H2. apply Nat.eqb_eq in H2. subst v. rewrite Nat.eqb_refl. cbn [bind]. right. exists Free. split; [reflexivity|].
    split; [|discriminate]. cbn [mok]. intros u. rewrite IN, (mode_excl _ H1). destruct (u =? t)%nat eqn:E; [reflexivity|]. rewrite M. exact E.
Qed.
Lemma mok_other past t l l' mode m : l <> l' -> mok m l past -> mok m l ((t, ELock l' mode) :: past).
Proof.
  intros N M. assert (forall u, inside u l ((t, ELock l' mode) :: past) = inside u l past) as IN by (intros u; cbn [inside]; destruct (lock_eqb l l') eqn:E; [apply lock_eqb_eq in E; contradiction|]; rewrite Bool.andb_false_r; reflexivity).
  destruct m; cbn [mok] in *; [contradiction| |]; intros u; rewrite IN; apply M.
Qed.
Lemma mok_none past t l e m : (forall l' mode, e <> ELock l' mode) -> mok m l past -> mok m l ((t, e) :: past).
Proof. intros N M. destruct e as [l' mode| | | |]; [destruct (N l' mode eq_refl)| | | |]; exact M. Qed.
Lemma init_all n : for_all pthread_init (repeat Raw n) = Ok (repeat Free n).
Proof. induction n as [|n IH]; [reflexivity|]. cbn [repeat for_all pthread_init bind]. rewrite IH. reflexivity. Qed.
Lemma destroy_all ms : Forall (eq Free) ms -> for_all pthread_destroy ms = Ok (repeat Raw (length ms)).
Proof. induction 1 as [|m ms <- _ IH]; [reflexivity|]. cbn [for_all pthread_destroy bind]. rewrite IH. reflexivity. Qed.
Lemma destroyed_cons i t e past : destroyed i ((t, e) :: past) <-> e = EDestroy i \/ destroyed i past.
Proof. unfold destroyed. split; [intros [u [H|H]]; [injection H as _ ->; left; reflexivity|right; exists u; exact H]|intros [->|[u H]]; [exists t; left; reflexivity|exists u; right; exact H]]. Qed.
Lemma destroyed_other i t e past : (forall j, e <> EDestroy j) -> destroyed i ((t, e) :: past) <-> destroyed i past.
Proof. intros N. rewrite destroyed_cons. split; [intros [H|H]; [destruct (N i H)|exact H]|tauto]. Qed.

Section Inv.
Variable num : nat.
Definition statics (buf : option (list mutex)) (past : list (nat * event)) : Prop :=
  if up past then exists ms, buf = Some ms /\ length ms = num /\ forall n m, nth_error ms n = Some m -> mok m (Static n) past
  else buf = None /\ forall u n, (n < num)%nat -> inside u (Static n) past = false.
Definition dynamics (dyn : list (option mutex)) (past : list (nat * event)) : Prop :=
  length dyn = created past /\ (forall i, destroyed i past -> nth_error dyn i = Some None) /\
  forall i x, nth_error dyn i = Some x -> ~ destroyed i past -> exists m, x = Some m /\ mok m (Dynamic i) past.
Definition later (past : list (nat * event)) : Prop := (forall i u, (created past <= i)%nat -> inside u (Dynamic i) past = false) /\ (forall n u, (num <= n)%nat -> inside u (Static n) past = false) /\
  (forall i u, destroyed i past -> inside u (Dynamic i) past = false).
Definition inv (s : state) (past : list (nat * event)) : Prop := callbacks s = up past /\ abandoned s = 0%nat /\ statics (mutex_buf s) past /\ dynamics (dynamic s) past /\ later past.
Lemma inv_fresh : inv fresh [].
Proof.
  split; [reflexivity|]. split; [reflexivity|]. split; [split; reflexivity|]. split; [|split; [intros i u _; reflexivity|split; intros i u _; reflexivity]]. split; [reflexivity|]. split; [intros i [u []]|]. intros i x H. destruct i; discriminate H.
Qed.
Lemma later_step past t e : later past -> allowed num past t e -> later ((t, e) :: past).
Proof.
  intros [H1 [H2 H3]] A.
  assert (forall l u, (forall mode, e = ELock l mode -> False) -> inside u l ((t, e) :: past) = inside u l past) as IN.
  { intros l u N. destruct e as [l' mode| | | |]; try reflexivity. cbn [inside]. destruct (lock_eqb l l') eqn:E; [apply lock_eqb_eq in E; subst l'; destruct (N mode eq_refl)|]. rewrite Bool.andb_false_r. reflexivity. }
  split; [|split].
  - intros i u Hi. rewrite IN; [apply H1; destruct e as [l mode|[|]|j|m|]; cbn [created] in Hi; lia|]. intros mode ->. cbn [allowed created] in *. lia.
  - intros n u Hn. rewrite IN; [apply H2; exact Hn|]. intros mode ->. cbn [allowed] in A. lia.
  - intros i u Hd. apply destroyed_cons in Hd. destruct Hd as [->|Hd]; [apply A|]. rewrite IN; [apply H3; exact Hd|]. intros mode ->. cbn [allowed] in A. tauto.
Qed.
Lemma dynamics_frame dyn past t e : dynamics dyn past -> (forall j, e <> EDestroy j) -> e <> ECreate true -> (forall l mode, e = ELock l mode -> exists n, l = Static n) -> dynamics dyn ((t, e) :: past).
Proof.
  intros [L [D M]] N1 N2 N3. split; [|split].
  - rewrite L. destruct e as [| [|] | | |]; try reflexivity. congruence.
  - intros i H. apply D. apply destroyed_other in H; assumption.
  - intros i x H1 H2. destruct (M i x H1) as [m [-> Hm]]; [intros X; apply H2; apply destroyed_other; assumption|]. exists m. split; [reflexivity|].
    destruct e as [l mode| | | |]; try (apply mok_none; [discriminate|exact Hm]). destruct (N3 l mode eq_refl) as [n ->]. apply mok_other; [discriminate|exact Hm].
Qed.
Lemma statics_frame buf past t e : statics buf past -> up ((t, e) :: past) = up past -> (forall l mode, e = ELock l mode -> exists i, l = Dynamic i) -> statics buf ((t, e) :: past).
Proof.
  intros H U N. unfold statics in *. rewrite U. assert (forall u n, inside u (Static n) ((t, e) :: past) = inside u (Static n) past) as IN.
  { intros u n. destruct e as [l mode| | | |]; try reflexivity. destruct (N l mode eq_refl) as [i ->]. cbn [inside lock_eqb]. rewrite Bool.andb_false_r. reflexivity. }
  destruct (up past).
  - destruct H as [ms [E [L M]]]. exists ms. split; [exact E|]. split; [exact L|]. intros n m Hm. specialize (M n m Hm). destruct m; cbn [mok] in *; [contradiction| |]; intros u; rewrite IN; apply M.
  - destruct H as [E M]. split; [exact E|]. intros u n Hn. rewrite IN. apply M. exact Hn.
Qed.
Lemma step_inv' s past t e : callbacks s = up past /\ abandoned s = 0%nat /\ statics (mutex_buf s) past /\ dynamics (dynamic s) past -> later past -> allowed num past t e ->
  (step num s t e = Ok None /\ exists l mode, e = ELock l mode /\ locks mode = true /\ exists u, inside u l past = true) \/
  (exists s', step num s t e = Ok (Some s') /\ (callbacks s' = up ((t, e) :: past) /\ abandoned s' = 0%nat /\ statics (mutex_buf s') ((t, e) :: past) /\ dynamics (dynamic s') ((t, e) :: past)) /\ forall l mode, e = ELock l mode -> locks mode = true -> forall u, inside u l past = false).
Proof.
  intros [C [A [HS HD]]] LT AL. unfold step. destruct e as [[n|i] mode|memory|i|memory|]; cbn [allowed] in AL; cbv zeta.
  - destruct AL as [U [Hn Hm]]. rewrite C, U. unfold locking_function. unfold statics in HS. rewrite U in HS. destruct HS as [ms [E [L M]]]. rewrite E. destruct (nth_error ms n) as [m|] eqn:En; [|apply nth_error_None in En; lia].
    destruct (lock_mutex past t (Static n) mode m (M n m En) Hm) as [[Q1 [Q2 Q3]]|[m' [Q1 [Q2 Q3]]]]; rewrite Q1; cbn [bind].
    + left. split; [reflexivity|]. exists (Static n), mode. split; [reflexivity|]. split; assumption.
    + right. eexists. split; [reflexivity|]. split; [|intros l mode' [= <- <-]; exact Q3]. split; [cbn [callbacks up]; congruence|]. split; [exact A|]. split.
      * unfold statics. cbn [up]. rewrite U. cbn [mutex_buf]. eexists. split; [reflexivity|]. split; [rewrite set_nth_length; [exact L|lia]|]. intros k q Hq. destruct (Nat.eq_dec n k) as [<-|Nk].
        -- rewrite set_nth_same in Hq by lia. injection Hq as <-. exact Q2.
        -- rewrite set_nth_other in Hq by lia. apply mok_other; [congruence|]. apply M. exact Hq.
      * apply dynamics_frame; [exact HD|discriminate|discriminate|]. intros l md [= <- <-]. exists n. reflexivity.
  - destruct AL as [U [[Hi Nd] Hm]]. rewrite C, U. unfold dyn_lock_function. destruct HD as [L [D M]]. destruct (nth_error (dynamic s) i) as [x|] eqn:En; [|apply nth_error_None in En; lia]. destruct (M i x En Nd) as [m [-> Mm]].
    destruct (lock_mutex past t (Dynamic i) mode m Mm Hm) as [[Q1 [Q2 Q3]]|[m' [Q1 [Q2 Q3]]]]; rewrite Q1; cbn [bind].
    + left. split; [reflexivity|]. exists (Dynamic i), mode. split; [reflexivity|]. split; assumption.
    + right. eexists. split; [reflexivity|]. split; [|intros l mode' [= <- <-]; exact Q3]. split; [cbn [callbacks up]; congruence|]. split; [exact A|]. split.
      * apply statics_frame; [exact HS|reflexivity|]. intros l md [= <- <-]. exists i. reflexivity.
      * cbn [dynamic]. split; [rewrite set_nth_length by lia; exact L|]. split.
        -- intros k Hk. apply destroyed_other in Hk; [|discriminate]. rewrite set_nth_other; [apply D; exact Hk|lia|]. intros ->. contradiction.
        -- intros k x Hx Nk. rewrite destroyed_other in Nk by discriminate. destruct (Nat.eq_dec i k) as [<-|N].
           ++ rewrite set_nth_same in Hx by lia. injection Hx as <-. exists m'. split; [reflexivity|exact Q2].
           ++ rewrite set_nth_other in Hx by lia. destruct (M k x Hx Nk) as [q [-> Hq]]. exists q. split; [reflexivity|]. apply mok_other; [congruence|exact Hq].
  - right. rewrite C, AL. unfold dyn_create_function. destruct memory; cbn [pthread_init bind]; (eexists; split; [reflexivity|]; split; [|discriminate]).
    + split; [exact C|]. split; [exact A|]. split; [apply statics_frame; [exact HS|reflexivity|discriminate]|]. destruct HD as [L [D M]]. cbn [dynamic]. split; [rewrite app_length; cbn [length created]; lia|]. split.
      * intros i H. apply destroyed_other in H; [|discriminate]. pose proof (nth_error_lt _ _ _ (D i H)) as Hl. rewrite nth_error_app1 by exact Hl. apply D. exact H.
      * intros i x H N. rewrite destroyed_other in N by discriminate. destruct (Nat.lt_ge_cases i (length (dynamic s))) as [Q|Q].
        -- rewrite nth_error_app1 in H by exact Q. destruct (M i x H N) as [m [-> Hm]]. exists m. split; [reflexivity|]. apply mok_none; [discriminate|exact Hm].
        -- rewrite nth_error_app2 in H by exact Q. destruct (i - length (dynamic s))%nat as [|k] eqn:Ek; [|destruct k; discriminate H]. injection H as <-. exists Free. split; [reflexivity|]. assert (i = length (dynamic s)) as -> by lia.
           cbn [mok inside]. intros u. apply (proj1 LT). lia.
    + split; [exact C|]. split; [exact A|]. split; [apply statics_frame; [exact HS|reflexivity|discriminate]|]. apply dynamics_frame; [exact HD|discriminate|discriminate|discriminate].
  - right. destruct AL as [U [Hi [Nd Hm]]]. rewrite C, U. unfold dyn_destroy_function. destruct HD as [L [D M]]. destruct (nth_error (dynamic s) i) as [x|] eqn:En; [|apply nth_error_None in En; lia]. destruct (M i x En Nd) as [m [-> Mm]].
    destruct m as [| |v]; cbn [mok] in Mm; [contradiction| |exfalso; specialize (Mm v); rewrite Hm, Nat.eqb_refl in Mm; discriminate Mm]. cbn [pthread_destroy bind]. eexists. split; [reflexivity|]. split; [|discriminate].
    split; [exact C|]. split; [exact A|]. split; [apply statics_frame; [exact HS|reflexivity|discriminate]|]. cbn [dynamic]. split; [rewrite set_nth_length by lia; exact L|]. split.
    + intros k Hk. apply destroyed_cons in Hk. destruct (Nat.eq_dec i k) as [<-|N]; [apply set_nth_same; lia|]. rewrite set_nth_other by lia. apply D. destruct Hk as [Hk|Hk]; [congruence|exact Hk].
    + intros k x Hx Nk. rewrite destroyed_cons in Nk. assert (i <> k) as N by (intros ->; apply Nk; left; reflexivity). rewrite set_nth_other in Hx by lia. destruct (M k x Hx ltac:(tauto)) as [q [-> Hq]]. exists q. split; [reflexivity|]. apply mok_none; [discriminate|exact Hq].
  - right. destruct AL as [-> U]. unfold init_locks. unfold statics in HS. rewrite U in HS. destruct HS as [E M]. rewrite E, init_all. cbn [bind]. eexists. split; [reflexivity|]. split; [|discriminate]. split; [reflexivity|]. split; [exact A|]. split.
    + unfold statics. cbn [up mutex_buf]. eexists. split; [reflexivity|]. split; [apply repeat_length|]. intros n m Hm. pose proof (nth_error_lt _ _ _ Hm) as Hl. rewrite repeat_length in Hl. apply nth_error_In, repeat_spec in Hm. subst m. cbn [mok inside]. intros u. apply M. exact Hl.
    + apply dynamics_frame; [exact HD|discriminate|discriminate|discriminate].
  - right. unfold kill_locks. unfold statics in HS. destruct (up past) eqn:U.
    + destruct HS as [ms [E [L M]]]. rewrite E. rewrite destroy_all.
      2: { apply Forall_forall. intros m Hm. apply In_nth_error in Hm. destruct Hm as [n Hn]. pose proof (nth_error_lt _ _ _ Hn) as Hl. specialize (M n m Hn). destruct m as [| |v]; cbn [mok] in M; [contradiction|reflexivity|]. specialize (M v). rewrite AL, Nat.eqb_refl in M by lia. discriminate M. }
      cbn [bind]. eexists. split; [reflexivity|]. split; [|discriminate]. split; [reflexivity|]. split; [exact A|]. split; [split; [reflexivity|exact AL]|]. apply dynamics_frame; [exact HD|discriminate|discriminate|discriminate].
    + destruct HS as [E M]. rewrite E. cbn [bind]. eexists. split; [reflexivity|]. split; [|discriminate]. split; [exact C|]. split; [exact A|]. split; [split; [exact E|exact AL]|]. apply dynamics_frame; [exact HD|discriminate|discriminate|discriminate].
Qed.
Lemma step_inv s past t e : inv s past -> allowed num past t e ->
  (step num s t e = Ok None /\ exists l mode, e = ELock l mode /\ locks mode = true /\ exists u, inside u l past = true) \/
  (exists s', step num s t e = Ok (Some s') /\ inv s' ((t, e) :: past) /\ forall l mode, e = ELock l mode -> locks mode = true -> forall u, inside u l past = false).
Proof.
  intros [C [A [HS [HD LT]]]] AL. destruct (step_inv' s past t e (conj C (conj A (conj HS HD))) LT AL) as [H|[s' [E [[C' [A' [S' D']]] X]]]]; [left; exact H|]. right. exists s'. split; [exact E|]. split; [|exact X]. split; [exact C'|]. split; [exact A'|]. split; [exact S'|]. split; [exact D'|]. apply later_step; assumption.
Qed.
Lemma run_inv : forall es s past, inv s past -> disciplined num past es ->
  exists s' past' w, run_events num s past es = Ok (s', past', w) /\ inv s' past' /\ exists done rest, es = done ++ rest /\ past' = rev done ++ past /\ (w = false -> rest = []) /\
    (w = true -> exists t l mode rest', rest = (t, ELock l mode) :: rest' /\ locks mode = true /\ exists u, inside u l past' = true).
Proof.
  induction es as [|[t e] es IH]; intros s past I D.
  - exists s, past, false. split; [reflexivity|]. split; [exact I|]. exists [], []. repeat split. discriminate.
  - destruct D as [D1 D2]. cbn [run_events]. destruct (step_inv s past t e I D1) as [[E [l [mode [-> [Hl [u Hu]]]]]]|[s1 [E [I1 X]]]]; rewrite E; cbn [bind].
    + exists s, past, true. split; [reflexivity|]. split; [exact I|]. exists [], ((t, ELock l mode) :: es). split; [reflexivity|]. split; [reflexivity|]. split; [discriminate|]. intros _. exists t, l, mode, es. split; [reflexivity|]. split; [exact Hl|]. exists u. exact Hu.
    + destruct (IH s1 ((t, e) :: past) I1 D2) as [s2 [p2 [w [E2 [I2 [done [rest [-> [-> [W1 W2]]]]]]]]]]. exists s2. eexists. exists w. split; [exact E2|]. split; [exact I2|]. exists ((t, e) :: done), rest. split; [reflexivity|]. cbn [rev]. rewrite <- app_assoc. split; [reflexivity|]. split; assumption.
Qed.
(** No two threads are inside the same lock. *)
Lemma inv_exclusive s past l t u : inv s past -> inside t l past = true -> inside u l past = true -> t = u.
Proof.
  intros [C [A [HS [[L [D M]] [L1 [L2 L3]]]]]] Ht Hu.
  assert (exists m, mok m l past) as [m Hm].
  { destruct l as [n|i].
    - destruct (Nat.lt_ge_cases n num) as [Hn|Hn]; [|rewrite (L2 n t Hn) in Ht; discriminate]. unfold statics in HS. destruct (up past).
      + destruct HS as [ms [E [Lm Mm]]]. destruct (nth_error ms n) as [m|] eqn:En; [|apply nth_error_None in En; lia]. exists m. apply Mm. exact En.
      + destruct HS as [_ HS]. rewrite HS in Ht by exact Hn. discriminate.
    - destruct (Nat.lt_ge_cases i (created past)) as [Q|Q]; [|rewrite (L1 i t Q) in Ht; discriminate]. destruct (nth_error (dynamic s) i) as [x|] eqn:En; [|apply nth_error_None in En; lia].
      assert (~ destroyed i past) as N by (intros X; rewrite (L3 i t X) in Ht; discriminate). destruct (M i x En N) as [m [_ Hm]]. exists m. exact Hm. }
  destruct m as [| |v]; cbn [mok] in Hm; [contradiction|rewrite Hm in Ht; discriminate|]. rewrite Hm in Ht, Hu. apply Nat.eqb_eq in Ht, Hu. congruence.
Qed.
End Inv.

Section Top.
Variable num : nat.
Theorem locks_run es : disciplined num [] es -> exists s past w, run_events num fresh [] es = Ok (s, past, w) /\ exists rest, es = rev past ++ rest /\ (w = false -> rest = []) /\
  (w = true -> exists t l mode rest', rest = (t, ELock l mode) :: rest' /\ locks mode = true /\ exists u, inside u l past = true).
Proof.
  intros D. destruct (run_inv num es fresh [] (inv_fresh num) D) as [s [past [w [E [I [done [rest [-> [-> [W1 W2]]]]]]]]]]. exists s. eexists. exists w. split; [exact E|]. exists rest. rewrite app_nil_r, rev_involutive in *. split; [reflexivity|]. split; [exact W1|]. exact W2.
Qed.
Theorem locks_exclusive es s past w l t u : disciplined num [] es -> run_events num fresh [] es = Ok (s, past, w) -> inside t l past = true -> inside u l past = true -> t = u.
Proof.
  intros D E. destruct (run_inv num es fresh [] (inv_fresh num) D) as [s' [past' [w' [E' [I _]]]]]. rewrite E in E'. injection E' as <- <- <-. eapply inv_exclusive; exact I.
Qed.
Theorem locks_memory es s past w : disciplined num [] es -> run_events num fresh [] es = Ok (s, past, w) ->
  (if up past then exists ms, mutex_buf s = Some ms /\ length ms = num else mutex_buf s = None) /\ abandoned s = 0%nat /\ callbacks s = up past /\
  forall i, (exists m, nth_error (dynamic s) i = Some (Some m)) <-> (i < created past)%nat /\ ~ destroyed i past.
Proof.
  intros D E. destruct (run_inv num es fresh [] (inv_fresh num) D) as [s' [past' [w' [E' [I _]]]]]. rewrite E in E'. injection E' as <- <- <-. destruct I as [C [A [HS [[L [DD M]] _]]]]. unfold statics in HS.
  split; [destruct (up past); [destruct HS as [ms [H1 [H2 _]]]; exists ms; split; assumption|apply HS]|]. split; [exact A|]. split; [exact C|]. intros i. split.
  - intros [m H]. split; [rewrite <- L; eapply nth_error_lt; exact H|]. intros X. rewrite (DD i X) in H. discriminate H.
  - intros [H N]. destruct (nth_error (dynamic s) i) as [x|] eqn:En; [|apply nth_error_None in En; lia]. destruct (M i x En N) as [m [-> _]]. exists m. reflexivity.
Qed.
End Top.

Lemma destroyed_free num s t i s' : callbacks s = true -> step num s t (EDestroy i) = Ok s' -> nth_error (dynamic s) i = Some (Some Free).
Proof.
  intros C. cbn [step]. rewrite C. unfold dyn_destroy_function. destruct (nth_error (dynamic s) i) as [[[| |u]|]|]; cbn [pthread_destroy bind]; try discriminate. reflexivity.
Qed.
