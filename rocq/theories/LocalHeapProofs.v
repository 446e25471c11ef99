(** Functions with local big numbers: what they change and release. *)
From Coq Require Import Lia ZifyBool Permutation.
From Verif Require Import Base BaseFacts MpiModel LimbModel HeapModel HeapSpec HeapProofs HeapProofs2 HeapProofs3 TdpHeapModel TdpHeapSpec TdpHeapProofs LocalHeapModel LocalHeapSpec.

Definition chg (T : list nat) (V V' : list mpi) : Prop := forall t, ~ In t T -> val V' t = val V t.
Definition temps (V : list mpi) : Prop := forall t, (32 <= t < 48)%nat -> val V t = l_init.
Lemma chg_trans T1 T2 V V1 V2 : chg T1 V V1 -> chg T2 V1 V2 -> chg (T1 ++ T2) V V2.
Proof. intros A B t Ht. rewrite in_app_iff in Ht. rewrite B by tauto. apply A. tauto. Qed.
Lemma chg_incl T1 T2 V V1 : (forall t, In t T1 -> In t T2) -> chg T1 V V1 -> chg T2 V V1.
Proof. intros H A t Ht. apply A. intros X. apply Ht, H, X. Qed.
Lemma call_ok_mono n m c : (n <= m)%nat -> call_ok n c -> call_ok m c.
Proof. intros H. destruct c; cbn [call_ok]; lia. Qed.
Definition cleared (V : list mpi) (a b : nat) : Prop := forall t, (a <= t < b)%nat -> val V t = l_init.
(** The numbers of the key other than RN, RP and RQ, and what has been lost before *)
Definition kept (V V' : list mpi) : Prop := forall t, (t < 8 \/ 11 <= t < 16 \/ 48 <= t)%nat -> val V' t = val V t.
Lemma chg_kept T V V' : Forall (fun t => 8 <= t < 11 \/ 16 <= t < 32)%nat T -> chg T V V' -> kept V V'.
Proof. intros F C t Ht. apply C. intros X. rewrite Forall_forall in F. specialize (F t X). cbn beta in F. lia. Qed.
Lemma kept_trans V V1 V2 : kept V V1 -> kept V1 V2 -> kept V V2.
Proof. intros A B t Ht. rewrite B by exact Ht. apply A. exact Ht. Qed.
Section Ops.
Variable ora : nat -> bool.
Definition ok6 {A} (r : outcome (heap * objs * A)) (V : list mpi) (Q : list mpi -> A -> Prop) : Prop :=
  exists h' o' V' a, r = Ok (h', o', a) /\ st h' o' V' /\ length V' = length V /\ temps V' /\ Q V' a.
Definition ok5 (r : outcome (heap * objs)) (V : list mpi) (Q : list mpi -> Prop) : Prop :=
  exists h' o' V', r = Ok (h', o') /\ st h' o' V' /\ length V' = length V /\ temps V' /\ Q V'.
Lemma call1_ok ts c h o V : st h o V -> (48 <= length V)%nat -> temps V -> changes ts (c, true) -> ok5 (call1 ora c h o) V (chg ts V).
Proof.
  intros H L T F. unfold call1. destruct (run_st ora (fun t => In t ts \/ (32 <= t < 48)%nat) (length V) c h o V H eq_refl) as [h1 [o1 [V1 [E1 [S1 [L1 X1]]]]]].
  { apply Forall_forall. intros x Hx. unfold changes in F. cbn [fst] in F. rewrite Forall_forall in F. destruct (F x Hx) as [A B]. split; [eapply call_ok_mono; [exact L|exact A]|exact B]. }
  rewrite E1. cbn [bind]. destruct (free_st ora (seq 32 16) h1 o1 V1 S1) as [h2 [o2 [V2 [E2 [S2 [L2 [A2 B2]]]]]]]; [apply Forall_forall; intros t Ht; apply in_seq in Ht; lia|].
  exists h2, o2, V2. split; [exact E2|]. split; [exact S2|]. split; [congruence|]. assert (temps V2) as T2 by (intros t Ht; apply A2, in_seq; lia). split; [exact T2|].
  intros t Ht. destruct (Nat.le_gt_cases 32 t) as [Q1|Q1]; [destruct (Nat.lt_ge_cases t 48) as [Q2|Q2]|].
  - rewrite T2, T by lia. reflexivity.
  - rewrite B2 by (rewrite in_seq; lia). apply X1. intros [X|X]; [contradiction|lia].
  - rewrite B2 by (rewrite in_seq; lia). apply X1. intros [X|X]; [contradiction|lia].
Qed.
Lemma checked_ok : forall tss cs, Forall2 changes tss cs -> forall h o V, st h o V -> (48 <= length V)%nat -> temps V -> ok6 (checked ora cs h o) V (fun V' _ => chg (concat tss) V V').
Proof.
  induction 1 as [|ts [c b] tss cs C F IH]; intros h o V H L T.
  - exists h, o, V, true. split; [reflexivity|]. split; [exact H|]. split; [reflexivity|]. split; [exact T|]. intros t _. reflexivity.
  - cbn [checked]. destruct (call1_ok ts c h o V H L T C) as [h1 [o1 [V1 [E1 [S1 [L1 [T1 X1]]]]]]]. rewrite E1. cbn [bind concat]. destruct b; cbn [negb].
    + destruct (IH h1 o1 V1 S1 ltac:(lia) T1) as [h2 [o2 [V2 [a [E2 [S2 [L2 [T2 X2]]]]]]]]. exists h2, o2, V2, a. split; [exact E2|]. split; [exact S2|]. split; [congruence|]. split; [exact T2|]. apply (chg_trans _ _ _ V1); assumption.
    + exists h1, o1, V1, false. split; [reflexivity|]. split; [exact S1|]. split; [exact L1|]. split; [exact T1|]. eapply chg_incl; [|exact X1]. intros t Ht. apply in_or_app. left. exact Ht.
Qed.
Lemma chg_temps T V V' : (forall t, In t T -> ~ (32 <= t < 48)%nat) -> temps V -> chg T V V' -> temps V'.
Proof. intros A B C t Ht. rewrite C by (intros X; exact (A t X Ht)). apply B. exact Ht. Qed.
Lemma run_chg T cs h o V : st h o V -> temps V -> (forall t, In t T -> ~ (32 <= t < 48)%nat) -> Forall (fun c => call_ok (length V) c /\ forall t, touches c t -> In t T) cs -> ok5 (run ora cs h o) V (chg T V).
Proof.
  intros H T0 A F. destruct (run_st ora (fun t => In t T) (length V) cs h o V H eq_refl F) as [h1 [o1 [V1 [E1 [S1 [L1 X1]]]]]]. exists h1, o1, V1. split; [exact E1|]. split; [exact S1|]. split; [exact L1|]. split; [|exact X1].
  eapply chg_temps; [exact A|exact T0|exact X1].
Qed.
Lemma lset_ok d z h o V : st h o V -> temps V -> (d < length V)%nat -> ~ (32 <= d < 48)%nat -> - 2 ^ 63 < z < 2 ^ 63 -> ok6 (lset_code ora d z h o) V (fun V' _ => chg [d] V V').
Proof.
  intros H T D N Hz. destruct (run_chg [d] [CLset d z] h o V H T) as [h1 [o1 [V1 [E1 [S1 [L1 [T1 X1]]]]]]]; [intros t [<-|[]]; exact N|constructor; [|constructor]; split; [cbn; lia|intros t ->; left; reflexivity]|].
  cbn [run run1] in E1. unfold lset_code. destruct (h_lset ora h (nth d o h_init) z) as [[[h2 X2] r2]| | | |]; cbn [bind] in E1; try discriminate E1. injection E1 as E1 E2. subst. do 4 eexists. split; [reflexivity|]. split; [exact S1|]. split; [exact L1|]. split; [exact T1|exact X1].
Qed.
Lemma copyc_ok d a h o V : st h o V -> temps V -> (d < length V)%nat -> (a < length V)%nat -> d <> a -> ~ (32 <= d < 48)%nat -> ok6 (copy_code ora h o d a) V (fun V' _ => chg [d] V V').
Proof.
  intros H T D A N Nd. destruct (copy_st ora h o V d a H D A N) as [h1 [o1 [V1 [r [E1 [S1 [L1 [X1 _]]]]]]]]. assert (chg [d] V V1) as C by (intros t Ht; apply X1; intros ->; apply Ht; left; reflexivity).
  exists h1, o1, V1, r. split; [exact E1|]. split; [exact S1|]. split; [exact L1|]. split; [|exact C]. eapply chg_temps; [|exact T|exact C]. intros t [<-|[]]. exact Nd.
Qed.
Lemma erase_ok vs h o V : st h o V -> temps V -> Forall (fun v => v < 32)%nat vs -> (48 <= length V)%nat -> ok5 (erase ora vs h o) V (fun V' => chg vs V V' /\ forall v, In v vs -> val V' v = l_init).
Proof.
  intros H T F L. unfold erase. rewrite run_app. rewrite Forall_forall in F.
  destruct (run_chg vs (map (fun v => CLset v 0) vs) h o V H T) as [h1 [o1 [V1 [E1 [S1 [L1 [T1 X1]]]]]]].
  { intros t Ht. specialize (F t Ht). cbn beta in F. lia. }
  { apply Forall_forall. intros c Hc. apply in_map_iff in Hc. destruct Hc as [v [<- Hv]]. specialize (F v Hv). cbn beta in F. split; [cbn; lia|]. intros t ->. exact Hv. }
  rewrite E1. cbn [bind]. destruct (free_st ora vs h1 o1 V1 S1) as [h2 [o2 [V2 [E2 [S2 [L2 [A2 B2]]]]]]]; [apply Forall_forall; intros t Ht; specialize (F t Ht); cbn beta in F; lia|].
  exists h2, o2, V2. split; [exact E2|]. split; [exact S2|]. split; [congruence|]. assert (chg vs V V2) as C by (intros t Ht; rewrite B2 by exact Ht; apply X1; exact Ht).
  split; [|split; [exact C|exact A2]]. eapply chg_temps; [|exact T|exact C]. intros t Ht. specialize (F t Ht). cbn beta in F. lia.
Qed.
Lemma with_x_ok tss cs h o V : Forall2 changes tss cs -> Forall (fun t => t = 16 \/ t = 8)%nat (concat tss) -> st h o V -> (48 <= length V)%nat -> cleared V 16 48 ->
  ok6 (with_x ora cs h o) V (fun V' t => kept V V' /\ cleared V' (if t : bool then 17 else 16) 48).
Proof.
  intros F T H L C. unfold with_x. assert (temps V) as TV by (intros t Ht; apply C; lia). destruct (checked_ok tss cs F h o V H L TV) as [h1 [o1 [V1 [ok [E1 [S1 [L1 [T1 X1]]]]]]]]. rewrite E1. cbn [bind].
  assert (kept V V1) as K1. { eapply chg_kept; [|exact X1]. eapply Forall_impl; [|exact T]. cbn beta. intros t Ht. lia. }
  rewrite Forall_forall in T. assert (cleared V1 17 48) as C1 by (intros t Ht; rewrite X1 by (intros X; specialize (T t X); cbn beta in T; lia); apply C; lia). destruct ok; cbn [negb].
  - destruct (erase_ok [v_x] h1 o1 V1 S1 T1) as [h2 [o2 [V2 [E2 [S2 [L2 [T2 [X2 Y2]]]]]]]]; [repeat constructor|lia|]. rewrite E2. cbn [bind]. exists h2, o2, V2, false. split; [reflexivity|]. split; [exact S2|]. split; [congruence|]. split; [exact T2|].
    split; [eapply kept_trans; [exact K1|]; eapply chg_kept; [|exact X2]; constructor; [unfold v_x; lia|constructor]|]. intros t Ht. destruct (Nat.eq_dec t 16) as [->|N]; [apply Y2; left; reflexivity|]. rewrite X2 by (intros [X|[]]; unfold v_x in X; lia). apply C1. lia.
  - exists h1, o1, V1, true. split; [reflexivity|]. split; [exact S1|]. split; [exact L1|]. split; [exact T1|]. split; [exact K1|exact C1].
Qed.
(** insecure_mod_exp *)
Lemma loop_ok d eff : (forall n, changes [if (n mod 4 <? 2)%nat then d else 23%nat] (eff n)) -> forall fuel e n h o V, st h o V -> (48 <= length V)%nat -> temps V ->
  ok6 (modexp_loop ora fuel e n eff h o) V (fun V' _ => chg [d; 23%nat] V V').
Proof.
  intros F. induction fuel as [|fuel IH]; intros e n h o V H L T; cbn [modexp_loop].
  - exists h, o, V, true. split; [reflexivity|]. split; [exact H|]. split; [reflexivity|]. split; [exact T|]. intros t _. reflexivity.
  - destruct (e =? 0); [exists h, o, V, true; split; [reflexivity|]; split; [exact H|]; split; [reflexivity|]; split; [exact T|]; intros t _; reflexivity|].
    assert (forall q, (q < 4)%nat -> changes [if (q <? 2)%nat then d else 23%nat] (eff (4 * n + q)%nat)) as FQ by (intros q Hq; specialize (F (4 * n + q)%nat); replace ((4 * n + q) mod 4)%nat with q in F; [exact F|]; rewrite Nat.mul_comm, Nat.add_comm, Nat.mod_add by lia; symmetry; apply Nat.mod_small; exact Hq).
    assert (Forall2 changes [[d]; [d]] [eff (4 * n)%nat; eff (4 * n + 1)%nat]) as FA by (constructor; [pose proof (FQ 0%nat ltac:(lia)) as Q; rewrite Nat.add_0_r in Q; exact Q|constructor; [exact (FQ 1%nat ltac:(lia))|constructor]]).
    assert (Forall2 changes [[23%nat]; [23%nat]] [eff (4 * n + 2)%nat; eff (4 * n + 3)%nat]) as FB by (constructor; [exact (FQ 2%nat ltac:(lia))|constructor; [exact (FQ 3%nat ltac:(lia))|constructor]]).
    assert (ok6 (if e mod 2 =? 1 then checked ora [eff (4 * n)%nat; eff (4 * n + 1)%nat] h o else Ok (h, o, true)) V (fun V' _ => chg [d; 23%nat] V V')) as Q1.
    { destruct (e mod 2 =? 1).
      - destruct (checked_ok _ _ FA h o V H L T) as [h1 [o1 [V1 [a [E1 [S1 [L1 [T1 X1]]]]]]]]. exists h1, o1, V1, a. split; [exact E1|]. split; [exact S1|]. split; [exact L1|]. split; [exact T1|]. eapply chg_incl; [|exact X1]. cbn. tauto.
      - exists h, o, V, true. split; [reflexivity|]. split; [exact H|]. split; [reflexivity|]. split; [exact T|]. intros t _. reflexivity. }
    destruct Q1 as [h1 [o1 [V1 [a [E1 [S1 [L1 [T1 X1]]]]]]]]. rewrite E1. cbn [bind]. destruct a; cbn [negb]; [|exists h1, o1, V1, false; repeat split; try assumption; apply T1].
    destruct (checked_ok _ _ FB h1 o1 V1 S1 ltac:(lia) T1) as [h2 [o2 [V2 [a [E2 [S2 [L2 [T2 X2]]]]]]]]. rewrite E2. cbn [bind].
    assert (chg [d; 23%nat] V V2) as X12 by (eapply chg_incl; [|exact (chg_trans _ _ _ _ _ X1 X2)]; cbn; tauto).
    destruct a; cbn [negb]; [|exists h2, o2, V2, false; split; [reflexivity|]; split; [exact S2|]; split; [congruence|]; split; [exact T2|exact X12]].
    destruct (IH (e / 2) (S n) h2 o2 V2 S2 ltac:(lia) T2) as [h3 [o3 [V3 [a [E3 [S3 [L3 [T3 X3]]]]]]]]. exists h3, o3, V3, a. split; [exact E3|]. split; [exact S3|]. split; [congruence|]. split; [exact T3|]. eapply chg_incl; [|exact (chg_trans _ _ _ _ _ X12 X3)]. cbn. tauto.
Qed.
Lemma modexp_ok d a e md eff h o V : modexp_changes d md eff -> (a < 16)%nat -> (16 <= d < 32)%nat -> st h o V -> (48 <= length V)%nat -> temps V -> val V 23%nat = l_init ->
  ok6 (modexp ora d a e md eff h o) V (fun V' _ => chg [d; 23%nat] V V' /\ val V' 23%nat = l_init).
Proof.
  intros [Fm Fe] Ha Hd H L T B. unfold modexp. destruct (lset_ok d 1 h o V H T ltac:(lia) ltac:(lia) ltac:(lia)) as [h1 [o1 [V1 [r1 [E1 [S1 [L1 [T1 X1]]]]]]]]. rewrite E1. cbn [bind].
  match goal with |- ok6 (bind ?m _) _ _ => assert (ok6 m V1 (fun V' _ => chg [d; 23%nat] V1 V')) as Q1 end.
  { assert (forall b : bool, ok6 (Ok (h1, o1, b)) V1 (fun V' _ => chg [d; 23%nat] V1 V')) as Triv by (intros b; exists h1, o1, V1, b; split; [reflexivity|]; split; [exact S1|]; split; [reflexivity|]; split; [exact T1|]; intros t _; reflexivity).
    destruct (r1 =? 0); cbn [negb]; [|apply Triv].
    destruct (copyc_ok v_base a h1 o1 V1 S1 T1) as [h2 [o2 [V2 [r2 [E2 [S2 [L2 [T2 X2]]]]]]]]; try (unfold v_base; lia). rewrite E2. cbn [bind].
    assert (chg [d; 23%nat] V1 V2) as X2' by (eapply chg_incl; [|exact X2]; cbn; unfold v_base; tauto).
    destruct (r2 =? 0); cbn [negb]; [|exists h2, o2, V2, false; repeat split; try assumption; apply T2].
    assert (Forall2 changes [[23%nat]] [md]) as FM by (constructor; [exact Fm|constructor]). destruct (checked_ok _ _ FM h2 o2 V2 S2 ltac:(lia) T2) as [h3 [o3 [V3 [b [E3 [S3 [L3 [T3 X3]]]]]]]]. rewrite E3. cbn [bind].
    assert (chg [d; 23%nat] V1 V3) as X3' by (eapply chg_incl; [|exact (chg_trans _ _ _ _ _ X2' X3)]; cbn; tauto).
    destruct b; cbn [negb]; [|exists h3, o3, V3, false; split; [reflexivity|]; split; [exact S3|]; split; [congruence|]; split; [exact T3|exact X3']].
    destruct (loop_ok d eff Fe 64 e 0 h3 o3 V3 S3 ltac:(lia) T3) as [h4 [o4 [V4 [b [E4 [S4 [L4 [T4 X4]]]]]]]]. exists h4, o4, V4, b. split; [exact E4|]. split; [exact S4|]. split; [congruence|]. split; [exact T4|]. eapply chg_incl; [|exact (chg_trans _ _ _ _ _ X3' X4)]. cbn. tauto. }
  destruct Q1 as [h2 [o2 [V2 [ok [E2 [S2 [L2 [T2 X2]]]]]]]]. rewrite E2. cbn [bind].
  destruct (free_st ora [v_base] h2 o2 V2 S2) as [h3 [o3 [V3 [E3 [S3 [L3 [A3 B3]]]]]]]; [constructor; [unfold v_base; lia|constructor]|]. cbn [map] in E3. rewrite E3. cbn [bind].
  assert (chg [23%nat] V2 V3) as X3 by (intros t Ht; apply B3; exact Ht). exists h3, o3, V3, ok. split; [reflexivity|]. split; [exact S3|]. split; [congruence|]. split; [eapply chg_temps; [|exact T2|exact X3]; intros t [<-|[]]; lia|].
  split; [eapply chg_incl; [|exact (chg_trans _ _ _ _ _ (chg_trans _ _ _ _ _ X1 X2) X3)]; cbn; tauto|apply A3; left; reflexivity].
Qed.
End Ops.
