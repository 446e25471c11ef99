(** Threads that share the cached constant of an object. *)
From Coq Require Import Lia List.
From Verif Require Import Base BaseFacts CacheThreadModel CacheThreadSpec.

Lemma put_split {A} (l1 l2 : list A) y x : put (l1 ++ y :: l2) (length l1) x = l1 ++ x :: l2.
Proof. unfold put. rewrite firstn_app, firstn_all, Nat.sub_diag. cbn [firstn]. rewrite app_nil_r. f_equal. f_equal. replace (S (length l1)) with (length (l1 ++ [y])) by (rewrite app_length; cbn; lia). replace (l1 ++ y :: l2) with ((l1 ++ [y]) ++ l2) by now rewrite <- app_assoc. rewrite skipn_app, skipn_all, Nat.sub_diag. reflexivity. Qed.
Lemma nth_split' {A} (l1 l2 : list A) y : nth_error (l1 ++ y :: l2) (length l1) = Some y.
Proof. rewrite nth_error_app2 by lia. now rewrite Nat.sub_diag. Qed.
Lemma split_unique {A} : forall (l1 l1' : list A) y y' l2 l2', l1 ++ y :: l2 = l1' ++ y' :: l2' -> length l1 = length l1' -> l1 = l1' /\ y = y' /\ l2 = l2'.
Proof.
  induction l1 as [|a l1 IH]; intros [|a' l1'] y y' l2 l2' E L; try discriminate L.
  - injection E as -> ->. auto.
  - injection E as -> E. injection L as L. destruct (IH _ _ _ _ _ E L) as (-> & -> & ->). auto.
Qed.

Section Facts.
  Context (N limbs : Z) (up mutex : bool) (ns : list nat).
  Local Notation K := (constant N limbs).
  Definition good (x : Z * Z) : Prop := x = (limbs, K).
  Definition place_weight (p : place) : nat :=
    match p with Begin => 7 | Compute => 6 | Store1 _ => 5 | Store2 _ => 4 | Load1 => 5 | Load2 _ _ => 4 | Use _ _ => 3 | Finish _ _ _ => 2 | Return _ _ => 1 end%nat.
  Definition thread_weight (th : thread) : nat := (8 * todo th + match current th with None => 0 | Some p => place_weight p end)%nat.
  Definition weight (ths : list thread) : nat := list_sum (map thread_weight ths).
  Lemma weight_at l1 th l2 : weight (l1 ++ th :: l2) = (weight l1 + thread_weight th + weight l2)%nat.
  Proof using. clear ns. unfold weight. rewrite map_app, list_sum_app. cbn [map]. assert (forall a l, list_sum (a :: l) = a + list_sum l)%nat as R by reflexivity. rewrite R. lia. Qed.
  (** How many calls a thread makes in all *)
  Definition counts (n : nat) (th : thread) : Prop := (length (used th) + match current th with None => 0 | Some _ => 1 end + todo th = n)%nat.
  Definition common (ths : list thread) : Prop := Forall2 counts ns ths /\ Forall (fun th => Forall good (used th)) ths.
  Lemma common_put l1 th th' l2 : common (l1 ++ th :: l2) -> (forall n, counts n th -> counts n th') -> (Forall good (used th) -> Forall good (used th')) -> common (l1 ++ th' :: l2).
  Proof using.
    intros [C G] H1 H2. apply Forall2_app_inv_r in C. destruct C as (n1 & n2' & C1 & C2 & E). inversion C2 as [|n ? n2 ? Cn Cr]; subst.
    apply Forall_app in G. destruct G as [G1 G2]. inversion G2 as [|? ? Gh Gt]; subst. split.
    - rewrite E. apply Forall2_app; [exact C1|]. constructor; [exact (H1 _ Cn)|exact Cr].
    - apply Forall_app. split; [exact G1|]. constructor; [exact (H2 Gh)|exact Gt].
  Qed.
  Definition able (x : config) (t : nat) : Prop := exists th, nth_error (threads x) t = Some th /\ ~ ended th /\ (mutex = true -> match holder x with None => True | Some u => u = t end).

  (** * In the order of the fields *)
  Definition place_a (c : cache) (m : memory) (p : place) : Prop :=
    match p with
    | Begin | Compute => True
    | Store1 b => (b < length m)%nat
    | Store2 b => (b < length m)%nat /\ cn c = limbs
    | Load1 => cp c <> None
    | Load2 n _ => n = limbs /\ cp c <> None
    | Use n b => n = limbs /\ (b < length m)%nat /\ cp c <> None
    | Finish n v _ => n = limbs /\ v = K /\ cp c <> None
    | Return n v => n = limbs /\ v = K
    end.
  Definition cur_a (c : cache) (m : memory) (th : thread) : Prop := match current th with None => True | Some p => place_a c m p end.
  Definition cache_a (c : cache) (m : memory) : Prop := Forall (eq (Some K)) m /\ match cp c with None => True | Some b => (b < length m)%nat /\ cn c = limbs end.
  Definition grows (c : cache) (m : memory) (c' : cache) (m' : memory) : Prop := (cn c = limbs -> cn c' = limbs) /\ (cp c <> None -> cp c' <> None) /\ (length m <= length m')%nat.
  Lemma place_a_grows c m c' m' p : grows c m c' m' -> place_a c m p -> place_a c' m' p.
  Proof using. intros (G1 & G2 & G3) H. destruct p; cbn [place_a] in *; intuition lia. Qed.
  Lemma at_K (m : memory) b : Forall (eq (Some K)) m -> (b < length m)%nat -> nth_error m b = Some (Some K).
  Proof using. intros F L. destruct (nth_error m b) as [y|] eqn:E; [|apply nth_error_None in E; lia]. rewrite Forall_forall in F. now rewrite <- (F _ (nth_error_In _ _ E)). Qed.
  Lemma step_a c m p : up = true -> (forall n v, p <> Return n v) -> cache_a c m -> place_a c m p -> exists c' m' p',
    call_step N limbs up c m p = Ok (c', m', p') /\ cache_a c' m' /\ place_a c' m' p' /\ grows c m c' m' /\ (place_weight p' < place_weight p)%nat.
  Proof using.
    intros -> NR [F C] P. destruct p as [| |b|b| |n b|n b|n v b|n v]; cbn [call_step place_a place_weight] in *.
    - destruct (cp c) as [b|] eqn:E; eexists _, _, _; (split; [reflexivity|]); unfold cache_a, grows, place_a; rewrite E; cbn; (split; [auto|]); (split; [try discriminate; exact I|]); split; auto; lia.
    - eexists _, _, _. split; [reflexivity|]. unfold cache_a, grows. cbn [place_a place_weight]. rewrite !app_length. cbn [length]. split; [split; [apply Forall_app; split; [exact F|repeat constructor]|]|].
      { destruct (cp c); [|exact I]. split; [lia|apply C]. } split; [lia|]. split; [|lia]. split; [auto|]. split; [auto|lia].
    - eexists _, _, _. split; [reflexivity|]. unfold cache_a, grows. cbn [place_a place_weight cn cp]. split; [split; [exact F|destruct (cp c); [split; [apply C|reflexivity]|exact I]]|]. split; [auto|]. split; [|lia]. auto.
    - destruct P as [P1 P2]. eexists _, _, _. split; [reflexivity|]. unfold cache_a, grows. cbn [place_a place_weight cn cp]. split; [split; [exact F|split; [exact P1|exact P2]]|]. split; [split; [reflexivity|split; [exact P1|discriminate]]|]. split; [|lia]. split; [auto|]. split; [discriminate|lia].
    - destruct (cp c) as [b|] eqn:E; [|contradiction (P eq_refl)]. eexists _, _, _. split; [reflexivity|]. unfold cache_a, grows. cbn [place_a place_weight]. rewrite E. split; [auto|]. split; [split; [apply C|discriminate]|]. split; [|lia]. auto.
    - destruct P as [-> P]. destruct (cp c) as [b'|] eqn:E; [|contradiction (P eq_refl)]. eexists _, _, _. split; [reflexivity|]. unfold cache_a, grows. cbn [place_a place_weight]. rewrite E. split; [auto|]. split; [split; [reflexivity|split; [apply C|discriminate]]|]. split; [|lia]. auto.
    - destruct P as (-> & P1 & P2). rewrite (at_K m b F P1). eexists _, _, _. split; [reflexivity|]. unfold cache_a, grows. cbn [place_a place_weight]. split; [auto|]. split; [auto|]. split; [|lia]. auto.
    - destruct P as (-> & -> & P). destruct (cp c) as [b'|] eqn:E; [|contradiction (P eq_refl)]. eexists _, _, _. split; [reflexivity|]. unfold cache_a, grows. cbn [place_a place_weight]. rewrite E. split; [auto|]. split; [auto|]. split; [|lia]. auto.
    - exfalso. exact (NR _ _ eq_refl).
  Qed.
  Definition inv_a (x : config) : Prop := common (threads x) /\ cache_a (rn x) (mem x) /\ Forall (cur_a (rn x) (mem x)) (threads x).
  Lemma cur_a_put c m c' m' l1 th th' l2 : grows c m c' m' -> Forall (cur_a c m) (l1 ++ th :: l2) -> cur_a c' m' th' -> Forall (cur_a c' m') (l1 ++ th' :: l2).
  Proof using.
    intros G F H. apply Forall_app in F. destruct F as [F1 F2]. inversion F2 as [|? ? _ F3]; subst.
    assert (forall y, cur_a c m y -> cur_a c' m' y) as M by (intros y; unfold cur_a; destruct (current y); [apply place_a_grows, G|trivial]).
    apply Forall_app. split; [exact (Forall_impl _ M F1)|]. constructor; [exact H|exact (Forall_impl _ M F3)].
  Qed.
  Lemma grows_refl c m : grows c m c m.
  Proof using. unfold grows. auto. Qed.
  Lemma inv_a_step x t : up = true -> mutex = false -> inv_a x -> exists x', thread_step N limbs up mutex x t = Ok x' /\ inv_a x' /\ (able x t -> (weight (threads x') < weight (threads x))%nat).
  Proof using.
    intros U M (Co & Ca & Cu). unfold thread_step, able. destruct (nth_error (threads x) t) as [th|] eqn:E.
    2: { exists x. split; [reflexivity|]. split; [split; auto|]. intros (? & A & _). discriminate A. }
    destruct (nth_error_split _ _ E) as (l1 & l2 & El & Ll). subst t.
    destruct (current th) as [p|] eqn:Cth.
    - assert (place_a (rn x) (mem x) p) as Pp by (pose proof (proj1 (Forall_forall _ _) Cu th (nth_error_In _ _ E)) as H; unfold cur_a in H; now rewrite Cth in H).
      assert ((exists n v, p = Return n v) \/ forall n v, p <> Return n v) as [(n & v & ->)|NR] by (destruct p; try (right; discriminate); left; eauto).
      + eexists. split; [reflexivity|]. rewrite El, put_split in *. cbn [threads rn mem]. cbn [place_a] in Pp. destruct Pp as [-> ->]. split; [split|].
        * cbn [threads]. eapply common_put; [exact Co| |]; [intros k; unfold counts; cbn [used current todo length]; rewrite Cth; lia|]. cbn [used]. intros G. constructor; [reflexivity|exact G].
        * split; [exact Ca|]. eapply cur_a_put; [apply grows_refl|exact Cu|exact I].
        * intros _. rewrite !weight_at. unfold thread_weight. cbn [todo current]. rewrite Cth. cbn. lia.
      + destruct (step_a _ _ p U NR Ca Pp) as (c' & m' & p' & S1 & S2 & S3 & S4 & S5).
        exists {| rn := c'; mem := m'; holder := holder x; threads := put (threads x) (length l1) {| todo := todo th; current := Some p'; used := used th |} |}. split.
        { destruct p; try (rewrite S1; reflexivity). exfalso. exact (NR _ _ eq_refl). }
        rewrite El, put_split in *. unfold inv_a. cbn [threads rn mem]. split; [split|].
        * eapply common_put; [exact Co| |]; [intros k; unfold counts; cbn [used current todo]; rewrite Cth; lia|auto].
        * split; [exact S2|]. eapply cur_a_put; [exact S4|exact Cu|exact S3].
        * intros _. rewrite !weight_at. unfold thread_weight. cbn [todo current]. rewrite Cth. lia.
    - destruct (todo th) as [|n] eqn:Tth.
      + exists x. split; [reflexivity|]. split; [split; auto|]. intros (th' & A & B & _). injection A as <-. contradiction (B (conj Tth Cth)).
      + rewrite M. eexists. split; [reflexivity|]. rewrite El, put_split in *. unfold inv_a. cbn [threads rn mem]. split; [split|].
        * eapply common_put; [exact Co| |]; [intros k; unfold counts; cbn [used current todo]; rewrite Cth, Tth; lia|auto].
        * split; [exact Ca|]. eapply cur_a_put; [apply grows_refl|exact Cu|exact I].
        * intros _. rewrite !weight_at. unfold thread_weight. cbn [todo current]. rewrite Cth, Tth. cbn. lia.
  Qed.

  (** * With a mutex *)
  Definition full (c : cache) (m : memory) : Prop := c = {| cn := limbs; cp := Some O |} /\ m = [Some K].
  Definition unused (c : cache) (m : memory) : Prop := c = empty_cache /\ m = [].
  Definition place_b (c : cache) (m : memory) (p : place) : Prop :=
    match p with
    | Begin => unused c m \/ full c m
    | Compute => unused c m
    | Store1 b => c = empty_cache /\ m = [Some K] /\ b = O
    | Store2 b => c = (if up then {| cn := limbs; cp := None |} else {| cn := 0; cp := Some O |}) /\ m = [Some K] /\ b = O
    | Load1 => full c m
    | Load2 n b => full c m /\ if up then n = limbs else b = O
    | Use n b => full c m /\ n = limbs /\ b = O
    | Finish n v _ => full c m /\ n = limbs /\ v = K
    | Return n v => full c m /\ n = limbs /\ v = K
    end.
  Definition idle (th : thread) : Prop := current th = None.
  Definition inv_b (x : config) : Prop := common (threads x) /\
    match holder x with
    | None => Forall idle (threads x) /\ (unused (rn x) (mem x) \/ full (rn x) (mem x))
    | Some t => exists l1 th l2 p, threads x = l1 ++ th :: l2 /\ length l1 = t /\ Forall idle l1 /\ Forall idle l2 /\ current th = Some p /\ place_b (rn x) (mem x) p
    end.
  Lemma step_b c m p : (forall n v, p <> Return n v) -> place_b c m p -> exists c' m' p', call_step N limbs up c m p = Ok (c', m', p') /\ place_b c' m' p' /\ (place_weight p' < place_weight p)%nat.
  Proof using.
    intros NR P. destruct p as [| |b|b| |n b|n b|n v b|n v]; cbn [place_b] in P.
    - destruct P as [[-> ->]|[-> ->]]; eexists _, _, _; (split; [reflexivity|]); cbn; split; try lia; split; reflexivity.
    - destruct P as [-> ->]. eexists _, _, _. split; [reflexivity|]. cbn. split; [auto|lia].
    - destruct P as (-> & -> & ->). eexists _, _, _. split; [reflexivity|]. cbn. split; [auto|lia].
    - destruct P as (-> & -> & ->). eexists _, _, _. split; [reflexivity|]. cbn [place_b place_weight]. unfold full. split; [|lia]. destruct up; auto.
    - destruct P as [-> ->]. unfold call_step. destruct up eqn:U; eexists _, _, _; (split; [reflexivity|]); cbn [place_b place_weight]; rewrite U; unfold full; split; try lia; auto.
    - destruct P as ([-> ->] & P). unfold call_step. destruct up eqn:U; eexists _, _, _; (split; [reflexivity|]); cbn [place_b place_weight]; unfold full; split; try lia; subst; auto.
    - destruct P as ([-> ->] & -> & ->). eexists _, _, _. split; [reflexivity|]. cbn [place_b place_weight]. unfold full. split; [auto|lia].
    - destruct P as ([-> ->] & -> & ->). eexists _, _, _. split; [reflexivity|]. cbn [place_b place_weight]. unfold full. split; [auto|lia].
    - exfalso. exact (NR _ _ eq_refl).
  Qed.
  Lemma inv_b_step x t : mutex = true -> inv_b x -> exists x', thread_step N limbs up mutex x t = Ok x' /\ inv_b x' /\ (able x t -> (weight (threads x') < weight (threads x))%nat).
  Proof using.
    intros M (Co & H). unfold thread_step, able. destruct (nth_error (threads x) t) as [th|] eqn:E.
    2: { exists x. split; [reflexivity|]. split; [split; auto|]. intros (? & A & _). discriminate A. }
    destruct (nth_error_split _ _ E) as (l1 & l2 & El & Ll). subst t.
    destruct (current th) as [p|] eqn:Cth.
    - destruct (holder x) as [u|] eqn:Ho.
      2: { destruct H as [H _]. pose proof (proj1 (Forall_forall _ _) H th (nth_error_In _ _ E)) as Q. unfold idle in Q. congruence. }
      destruct H as (k1 & th' & k2 & p' & Ek & Lk & I1 & I2 & Cp & Pp).
      assert (u = length l1) as ->.
      { destruct (Nat.eq_dec u (length l1)) as [|Ne]; [assumption|exfalso]. subst u. rewrite Ek in E.
        assert (In th k1 \/ In th k2) as [Q|Q].
        { destruct (Nat.lt_ge_cases (length l1) (length k1)) as [L|L]; [left; rewrite nth_error_app1 in E by exact L; exact (nth_error_In _ _ E)|].
          right. rewrite nth_error_app2 in E by exact L. destruct (length l1 - length k1)%nat as [|d] eqn:D; [lia|]. cbn [nth_error] in E. exact (nth_error_In _ _ E). }
        - pose proof (proj1 (Forall_forall _ _) I1 th Q) as W. unfold idle in W. congruence.
        - pose proof (proj1 (Forall_forall _ _) I2 th Q) as W. unfold idle in W. congruence. }
      rewrite El in Ek. destruct (split_unique _ _ _ _ _ _ Ek (eq_sym Lk)) as (<- & <- & <-). rewrite Cth in Cp. injection Cp as <-.
      assert ((exists n v, p = Return n v) \/ forall n v, p <> Return n v) as [(n & v & ->)|NR] by (destruct p; try (right; discriminate); left; eauto).
      + eexists. split; [reflexivity|]. rewrite El, put_split in *. cbn [place_b] in Pp. destruct Pp as (Fu & -> & ->). unfold inv_b. cbn [threads rn mem holder]. split; [split|].
        * eapply common_put; [exact Co| |]; [intros k; unfold counts; cbn [used current todo length]; rewrite Cth; lia|]. cbn [used]. intros G. constructor; [reflexivity|exact G].
        * split; [|right; exact Fu]. apply Forall_app. split; [exact I1|]. constructor; [reflexivity|exact I2].
        * intros _. rewrite !weight_at. unfold thread_weight. cbn [todo current]. rewrite Cth. cbn. lia.
      + destruct (step_b _ _ p NR Pp) as (c' & m' & p' & S1 & S2 & S3).
        exists {| rn := c'; mem := m'; holder := Some (length l1); threads := put (threads x) (length l1) {| todo := todo th; current := Some p'; used := used th |} |}. split.
        { destruct p; try (rewrite S1; reflexivity). exfalso. exact (NR _ _ eq_refl). }
        rewrite El, put_split in *. unfold inv_b. cbn [threads rn mem holder]. split; [split|].
        * eapply common_put; [exact Co| |]; [intros k; unfold counts; cbn [used current todo]; rewrite Cth; lia|auto].
        * eexists l1, _, l2, p'. split; [reflexivity|]. cbn [current]. auto.
        * intros _. rewrite !weight_at. unfold thread_weight. cbn [todo current]. rewrite Cth. lia.
    - destruct (todo th) as [|n] eqn:Tth.
      + exists x. split; [reflexivity|]. split; [split; auto|]. intros (th' & A & B & _). injection A as <-. contradiction (B (conj Tth Cth)).
      + rewrite M. destruct (holder x) as [u|] eqn:Ho.
        * exists x. split; [reflexivity|]. split; [split; [exact Co|rewrite Ho; exact H]|]. intros (th' & A & B & D). injection A as <-. specialize (D eq_refl). subst u.
          exfalso. destruct H as (k1 & th' & k2 & p' & Ek & Lk & _ & _ & Cp & _). rewrite El in Ek. destruct (split_unique _ _ _ _ _ _ Ek (eq_sym Lk)) as (_ & <- & _). congruence.
        * destruct H as [Hi Hc]. eexists. split; [reflexivity|]. rewrite El, put_split in *. unfold inv_b. cbn [threads rn mem holder]. split; [split|].
          -- eapply common_put; [exact Co| |]; [intros k; unfold counts; cbn [used current todo]; rewrite Cth, Tth; lia|auto].
          -- apply Forall_app in Hi. destruct Hi as [I1 I2]. inversion I2; subst. eexists l1, _, l2, Begin. split; [reflexivity|]. cbn [current place_b]. auto 10.
          -- intros _. rewrite !weight_at. unfold thread_weight. cbn [todo current]. rewrite Cth, Tth. cbn. lia.
  Qed.

  (** * Runs *)
  Section Runs.
    Context (I : config -> Prop) (I_step : forall x t, I x -> exists x', thread_step N limbs up mutex x t = Ok x' /\ I x' /\ (able x t -> (weight (threads x') < weight (threads x))%nat)).
    Context (I_able : forall x, I x -> ~ Forall ended (threads x) -> exists t, able x t).
    Lemma run_inv ts : forall x, I x -> exists x', run_threads N limbs up mutex x ts = Ok x' /\ I x'.
    Proof using I_step. induction ts as [|t ts IH]; intros x H; [exists x; auto|]. destruct (I_step x t H) as (x1 & E & H1 & _). destruct (IH _ H1) as (x2 & E2 & H2). exists x2. cbn [run_threads]. rewrite E. auto. Qed.
    Lemma ended_dec ths : Forall ended ths \/ ~ Forall ended ths.
    Proof using.
      induction ths as [|th ths [IH|IH]]; [left; constructor| |right; intros H; inversion H; contradiction].
      destruct (todo th) as [|] eqn:T; [destruct (current th) as [|] eqn:C|]; [right|left; constructor; [split; assumption|exact IH]|right]; intros H; inversion H as [|? ? [A B] _]; congruence.
    Qed.
    Lemma run_ends n : forall x, I x -> (weight (threads x) <= n)%nat -> exists us x', run_threads N limbs up mutex x us = Ok x' /\ I x' /\ Forall ended (threads x').
    Proof using I_step I_able.
      induction n as [|n IH]; intros x H L; (destruct (ended_dec (threads x)) as [D|D]; [exists [], x; auto|]); destruct (I_able x H D) as (t & A); destruct (I_step x t H) as (x1 & E & H1 & W); specialize (W A); [lia|].
      destruct (IH x1 H1 ltac:(lia)) as (us & x2 & E2 & H2 & D2). exists (t :: us), x2. cbn [run_threads]. rewrite E. auto.
    Qed.
  End Runs.
  Lemma run_app x ts us : run_threads N limbs up mutex x (ts ++ us) = (x <- run_threads N limbs up mutex x ts ;; run_threads N limbs up mutex x us).
  Proof using. revert x. induction ts as [|t ts IH]; intros x; [reflexivity|]. cbn [app run_threads]. destruct (thread_step N limbs up mutex x t) as [y| | | |]; cbn [bind]; [apply IH|reflexivity..]. Qed.
  Lemma not_ended ths : ~ Forall ended ths -> exists t th, nth_error ths t = Some th /\ ~ ended th.
  Proof using.
    induction ths as [|th ths IH]; intros H; [contradiction H; constructor|].
    destruct (ended_dec [th]) as [D|D].
    - destruct IH as (t & y & A & B); [intros F; apply H; constructor; [inversion D; assumption|exact F]|]. exists (S t), y. auto.
    - exists O, th. split; [reflexivity|]. intros F. apply D. repeat constructor; apply F.
  Qed.
  Lemma able_a x : mutex = false -> inv_a x -> ~ Forall ended (threads x) -> exists t, able x t.
  Proof using. intros M _ H. destruct (not_ended _ H) as (t & th & A & B). exists t, th. split; [exact A|]. split; [exact B|]. congruence. Qed.
  Lemma able_b x : inv_b x -> ~ Forall ended (threads x) -> exists t, able x t.
  Proof using.
    intros (_ & H) D. destruct (holder x) as [u|] eqn:Ho.
    - destruct H as (l1 & th & l2 & p & E & <- & _ & _ & C & _). exists (length l1), th. rewrite E. split; [apply nth_split'|]. split; [intros [_ F]; congruence|]. rewrite Ho. reflexivity.
    - destruct (not_ended _ D) as (t & th & A & B). exists t, th. split; [exact A|]. split; [exact B|]. now rewrite Ho.
  Qed.
  Lemma common_begin : common (map starting ns).
  Proof using. split; [|clear; induction ns; constructor; [constructor|assumption]]. clear. induction ns as [|n l IH]; [constructor|]. constructor; [reflexivity|exact IH]. Qed.
  Lemma begin_a : inv_a (begin ns).
  Proof using. split; [apply common_begin|]. split; [split; [constructor|exact I]|]. cbn [begin threads]. clear. induction ns; constructor; [exact I|assumption]. Qed.
  Lemma begin_b : inv_b (begin ns).
  Proof using. split; [apply common_begin|]. cbn [begin holder threads rn mem]. split; [|left; split; reflexivity]. clear. induction ns; constructor; [reflexivity|assumption]. Qed.
  Lemma good_right x : 0 < N -> 0 <= limbs -> good x -> right N limbs x.
  Proof using.
    intros HN HL ->. split; [reflexivity|]. cbn [snd]. unfold constant. split; [apply Z.mod_pos_bound; exact HN|]. rewrite <- Z.pow_mul_r by lia. replace (64 * limbs * 2) with (2 * limbs * 64) by ring.
    set (r := 2 ^ (2 * limbs * 64)). exists (- (r / N)). pose proof (Z.div_mod r N ltac:(lia)). rewrite Z.mul_opp_l, (Z.mul_comm (r / N)). lia.
  Qed.
  Lemma common_right ths : 0 < N -> 0 <= limbs -> common ths -> Forall (fun th => Forall (right N limbs) (used th)) ths.
  Proof using. intros HN HL [_ G]. eapply Forall_impl; [|exact G]. intros th F. eapply Forall_impl; [|exact F]. intros z. apply good_right; assumption. Qed.
  Lemma common_ended ths : 0 < N -> 0 <= limbs -> common ths -> Forall ended ths -> Forall2 (fun n th => length (used th) = n /\ Forall (right N limbs) (used th)) ns ths.
  Proof using.
    intros HN HL C D. pose proof (common_right _ HN HL C) as R. destruct C as [C _]. clear -C D R. induction C as [|n th l ths H C IH]; [constructor|]. inversion D as [|? ? [D1 D2] D3]; inversion R; subst. constructor; [|apply IH; assumption].
    split; [|assumption]. unfold counts in H. rewrite D1, D2 in H. lia.
  Qed.
  Lemma destroy_a x : inv_a x -> exists m', destroy (rn x) (mem x) = Ok m'.
  Proof using. intros (_ & (F & C) & _). unfold destroy. destruct (cp (rn x)) as [b|]; [|eauto]. rewrite (at_K _ _ F (proj1 C)). eauto. Qed.
  Lemma destroy_b x : inv_b x -> Forall ended (threads x) -> exists m', destroy (rn x) (mem x) = Ok m' /\ all_released m'.
  Proof using.
    intros (_ & H) D. destruct (holder x) as [u|].
    - exfalso. destruct H as (l1 & th & l2 & p & E & _ & _ & _ & C & _). rewrite E in D. apply Forall_app in D. destruct D as [_ D]. inversion D as [|? ? [_ Q] _]. congruence.
    - destruct H as [_ [[-> ->]|[-> ->]]]; eexists; (split; [reflexivity|]); repeat constructor.
  Qed.
End Facts.

Lemma cache_fields N limbs ns ts : 0 < N -> 0 <= limbs -> exists x, run_threads N limbs true false (begin ns) ts = Ok x /\ Forall (fun th => Forall (right N limbs) (used th)) (threads x) /\
  exists us y m, run_threads N limbs true false (begin ns) (ts ++ us) = Ok y /\ Forall ended (threads y) /\ Forall2 (fun n th => length (used th) = n /\ Forall (right N limbs) (used th)) ns (threads y) /\
  destroy (rn y) (mem y) = Ok m.
Proof.
  intros HN HL. destruct (run_inv N limbs true false (inv_a N limbs ns) (fun x t => inv_a_step N limbs true false ns x t eq_refl eq_refl) ts (begin ns) (begin_a N limbs ns)) as (x & E & H).
  exists x. split; [exact E|]. split; [exact (common_right N limbs ns _ HN HL (proj1 H))|].
  destruct (run_ends N limbs true false (inv_a N limbs ns) (fun x t => inv_a_step N limbs true false ns x t eq_refl eq_refl) (fun x => able_a N limbs false ns x eq_refl) _ x H (le_n _)) as (us & y & E2 & H2 & D).
  destruct (destroy_a N limbs ns y H2) as (m & Em). exists us, y, m. rewrite run_app, E. split; [exact E2|]. split; [exact D|]. split; [exact (common_ended N limbs ns _ HN HL (proj1 H2) D)|exact Em].
Qed.
Lemma cache_mutex N limbs up ns ts : 0 < N -> 0 <= limbs -> exists x, run_threads N limbs up true (begin ns) ts = Ok x /\ Forall (fun th => Forall (right N limbs) (used th)) (threads x) /\
  exists us y m, run_threads N limbs up true (begin ns) (ts ++ us) = Ok y /\ Forall ended (threads y) /\ Forall2 (fun n th => length (used th) = n /\ Forall (right N limbs) (used th)) ns (threads y) /\
  destroy (rn y) (mem y) = Ok m /\ all_released m.
Proof.
  intros HN HL. destruct (run_inv N limbs up true (inv_b N limbs up ns) (fun x t => inv_b_step N limbs up true ns x t eq_refl) ts (begin ns) (begin_b N limbs up ns)) as (x & E & H).
  exists x. split; [exact E|]. split; [exact (common_right N limbs ns _ HN HL (proj1 H))|].
  destruct (run_ends N limbs up true (inv_b N limbs up ns) (fun x t => inv_b_step N limbs up true ns x t eq_refl) (able_b N limbs up true ns) _ x H (le_n _)) as (us & y & E2 & H2 & D).
  destruct (destroy_b N limbs up ns y H2 D) as (m & Em & R). exists us, y, m. rewrite run_app, E. split; [exact E2|]. split; [exact D|]. split; [exact (common_ended N limbs ns _ HN HL (proj1 H2) D)|]. split; assumption.
Qed.
(** And the memory is released whatever the schedule was, once all calls have returned. *)
Lemma cache_mutex_memory N limbs up ns ts x : run_threads N limbs up true (begin ns) ts = Ok x -> Forall ended (threads x) -> exists m, destroy (rn x) (mem x) = Ok m /\ all_released m.
Proof.
  intros E D. destruct (run_inv N limbs up true (inv_b N limbs up ns) (fun x t => inv_b_step N limbs up true ns x t eq_refl) ts (begin ns) (begin_b N limbs up ns)) as (y & E2 & H).
  rewrite E in E2. injection E2 as <-. exact (destroy_b N limbs up ns x H D).
Qed.
(** Two threads find the cache empty. *)
Lemma cache_leak N limbs up : exists ts x m, run_threads N limbs up false (begin [1; 1]%nat) ts = Ok x /\ Forall ended (threads x) /\ destroy (rn x) (mem x) = Ok m /\ ~ all_released m.
Proof.
  exists [0; 0; 1; 1; 0; 0; 0; 0; 0; 0; 1; 1; 1; 1; 1; 1]%nat. destruct up; eexists _, _; (split; [lazy -[constant]; reflexivity|]); (split; [repeat constructor|]); (split; [lazy -[constant]; reflexivity|]); intros F; inversion F; discriminate.
Qed.
(** The pointer is copied first, and another thread reads the number of limbs before it is stored. *)
Lemma cache_order N limbs : 0 < limbs -> exists ts x th, run_threads N limbs false false (begin [1; 1]%nat) ts = Ok x /\ nth_error (threads x) 1 = Some th /\ ended th /\ ~ Forall (right N limbs) (used th).
Proof.
  intros HL. exists [0; 0; 0; 0; 1; 1; 1; 1; 1; 1; 1]%nat. eexists _, _. split; [lazy -[constant]; reflexivity|]. split; [reflexivity|]. split; [split; reflexivity|]. intros F. inversion F as [|? ? [A _] _]. cbn in A. lia.
Qed.
