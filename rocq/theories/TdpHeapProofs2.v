(** The functions on RSA contexts and the constructors and destructors. *)
From Coq Require Import Lia ZifyBool Permutation.
From Verif Require Import Base BaseFacts MpiModel LimbModel HeapModel HeapSpec HeapProofs HeapProofs2 HeapProofs3 TdpHeapModel TdpHeapSpec TdpHeapProofs.

Definition clear (V : list mpi) (i a b : nat) : Prop := forall j, (a <= j <= b)%nat -> val V (at_ i j) = l_init.
(** Only the objects [a] to [b] of [i] change *)
Definition only (V V' : list mpi) (i a b : nat) : Prop := forall t, (forall j, (a <= j <= b)%nat -> t <> at_ i j) -> val V' t = val V t.
Definition slot_same (V V' : list mpi) (i : nat) : Prop := forall j, (j < 16)%nat -> val V' (at_ i j) = val V (at_ i j).
Lemma at_inj i j i' j' : (j < 16)%nat -> (j' < 16)%nat -> at_ i j = at_ i' j' -> i = i' /\ j = j'.
Proof. unfold at_. lia. Qed.
Lemma only_slot V V' i a b i' : only V V' i a b -> (b < 16)%nat -> i' <> i -> slot_same V V' i'.
Proof. intros H Hb N j Hj. apply H. intros j' Hj' E. apply at_inj in E; lia. Qed.
Lemma only_self V V' i a b j : only V V' i a b -> (b < 16)%nat -> (j < 16)%nat -> (j < a \/ b < j)%nat -> val V' (at_ i j) = val V (at_ i j).
Proof. intros H Hb Hj N. apply H. intros j' Hj' E. apply at_inj in E; lia. Qed.
Lemma only_trans V V' V'' i a b a' b' : only V V' i a b -> only V' V'' i a' b' -> only V V'' i (Nat.min a a') (Nat.max b b').
Proof. intros H H' t Ht. rewrite H' by (intros j Hj; apply Ht; lia). apply H. intros j Hj. apply Ht. lia. Qed.
Lemma slot_trans V V' V'' i : slot_same V V' i -> slot_same V' V'' i -> slot_same V V'' i.
Proof. intros H H' j Hj. rewrite H' by exact Hj. apply H. exact Hj. Qed.
Lemma clear_same V V' i a b : slot_same V V' i -> (b < 16)%nat -> clear V i a b -> clear V' i a b.
Proof. intros H Hb C j Hj. rewrite H by lia. apply C. exact Hj. Qed.
Lemma keyok_same V V' i : slot_same V V' i -> keyok V' i = keyok V i.
Proof. intros H. unfold keyok. rewrite !H by lia. reflexivity. Qed.
Lemma keyok_clear V i b : (1 <= b)%nat -> clear V i 0 b -> keyok V i = false.
Proof. intros Hb C. unfold keyok. rewrite C by lia. reflexivity. Qed.
Lemma clear_app V i b c : clear V i 0 b -> clear V i (S b) c -> clear V i 0 c.
Proof. intros A B j Hj. destruct (Nat.le_gt_cases j b); [apply A|apply B]; lia. Qed.
Section Ops.
Variable ora : nat -> bool.
Variable k : nat.
Definition ok3 (r : outcome (heap * objs)) (V : list mpi) (Q : list mpi -> Prop) : Prop := exists h' o' V', r = Ok (h', o') /\ st h' o' V' /\ length V' = size k /\ Q V'.
Definition ok4 {A} (r : outcome (heap * objs * A)) (V : list mpi) (Q : list mpi -> A -> Prop) : Prop := exists h' o' V' a, r = Ok (h', o', a) /\ st h' o' V' /\ length V' = size k /\ Q V' a.
Lemma at_lt i j : (i <= k)%nat -> (j < 16)%nat -> (at_ i j < size k)%nat.
Proof. unfold at_, size. lia. Qed.
Lemma rsa_free_st h o V i : st h o V -> length V = size k -> (i <= k)%nat -> ok3 (rsa_free ora h o i) V (fun V' => clear V' i 0 12 /\ only V V' i 0 12).
Proof.
  intros H L Hi. unfold rsa_free. rewrite <- (map_map (at_ i) CFree). set (js := [11; 12; 10; 9; 8; 7; 6; 5; 4; 3; 2; 1; 0]%nat).
  assert (forall j, In j js <-> (j <= 12)%nat) as HJ by (intros j; unfold js; cbn [In]; lia).
  destruct (free_st ora (map (at_ i) js) h o V H) as [h' [o' [V' [E [S' [L' [A B]]]]]]].
  { rewrite L. apply Forall_forall. intros t Ht. apply in_map_iff in Ht. destruct Ht as [j [<- Hj]]. apply at_lt; [exact Hi|]. apply HJ in Hj. lia. }
  exists h', o', V'. split; [exact E|]. split; [exact S'|]. split; [congruence|]. split.
  - intros j Hj. apply A. apply in_map. apply HJ. lia.
  - intros t Ht. apply B. intros T. apply in_map_iff in T. destruct T as [j [<- Hj]]. apply HJ in Hj. apply (Ht j); [lia|reflexivity].
Qed.
Lemma calls_st h o V i a b cs : st h o V -> length V = size k -> Forall (within k i a b) cs -> ok3 (run ora cs h o) V (fun V' => only V V' i a b).
Proof.
  intros H L F. destruct (run_st ora (fun t => exists j, (a <= j <= b)%nat /\ t = at_ i j) (size k) cs h o V H L) as [h' [o' [V' [E [S' [L' X]]]]]].
  { apply Forall_forall. intros c Hc. rewrite Forall_forall in F. exact (F c Hc). }
  exists h', o', V'. split; [exact E|]. split; [exact S'|]. split; [exact L'|]. intros t Ht. apply X. intros [j [Hj ->]]. apply (Ht j Hj). reflexivity.
Qed.
Lemma copies_st d s : (d <= k)%nat -> (s <= k)%nat -> d <> s -> forall js, NoDup js -> Forall (fun j => (j <= 12)%nat) js -> forall h o V, st h o V -> length V = size k ->
  ok4 (rsa_copies ora js h o d s) V (fun V' r => (forall t, (forall j, In j js -> t <> at_ d j) -> val V' t = val V t) /\
    (r = 0 -> forall j, In j js -> same_value (val V' (at_ d j)) (val V (at_ s j)) /\ (mp (val V (at_ s j)) = [] -> val V' (at_ d j) = l_init))).
Proof.
  intros Hd Hs N. induction js as [|j js IH]; intros ND F h o V H L.
  - exists h, o, V, 0. split; [reflexivity|]. split; [exact H|]. split; [exact L|]. split; [reflexivity|]. intros _ j [].
  - inversion ND as [|? ? Nj ND2]; subst. inversion F as [|? ? F1 F2]; subst. cbn [rsa_copies].
    destruct (copy_st ora h o V (at_ d j) (at_ s j) H ltac:(rewrite L; apply at_lt; lia) ltac:(rewrite L; apply at_lt; lia) ltac:(intros E; apply at_inj in E; lia)) as [h1 [o1 [V1 [r [E1 [S1 [L1 [X1 Y1]]]]]]]].
    rewrite E1. cbn [bind]. destruct (Z.eqb_spec r 0) as [->|R]; cbn [negb].
    + destruct (IH ND2 F2 h1 o1 V1 S1 ltac:(congruence)) as [h2 [o2 [V2 [r2 [E2 [S2 [L2 [X2 Y2]]]]]]]]. exists h2, o2, V2, r2. split; [exact E2|]. split; [exact S2|]. split; [exact L2|].
      rewrite Forall_forall in F2. assert (forall j', In j' js -> at_ d j <> at_ d j') as D1 by (intros j' Hj' E; apply at_inj in E; [destruct E as [_ ->]; contradiction|lia|specialize (F2 j' Hj'); lia]).
      split.
      * intros t Ht. rewrite X2 by (intros j' Hj'; apply Ht; right; exact Hj'). apply X1. apply Ht. left. reflexivity.
      * intros R j' [<-|Hj'].
        -- rewrite X2 by exact D1. apply Y1. reflexivity.
        -- specialize (Y2 R j' Hj'). rewrite X1 in Y2 by (intros E; apply at_inj in E; [lia|specialize (F2 j' Hj'); lia|lia]). exact Y2.
    + exists h1, o1, V1, r. split; [reflexivity|]. split; [exact S1|]. split; [congruence|]. split; [intros t Ht; apply X1, Ht; left; reflexivity|]. intros Q. contradiction.
Qed.
Lemma rsa_copy_st h o V d s : st h o V -> length V = size k -> (d <= k)%nat -> (s <= k)%nat -> d <> s ->
  ok4 (rsa_copy ora h o d s) V (fun V' r => only V V' d 0 12 /\ ((r <> 0 /\ clear V' d 0 12) \/ (r = 0 /\ keyok V' d = keyok V s /\ (clear V s 0 12 -> clear V' d 0 12)))).
Proof.
  intros H L Hd Hs N. unfold rsa_copy. assert (forall j, In j (seq 0 13) <-> (j <= 12)%nat) as HJ by (intros j; rewrite in_seq; lia).
  destruct (copies_st d s Hd Hs N (seq 0 13) (seq_NoDup _ _)) with (h := h) (o := o) (V := V) as [h1 [o1 [V1 [r [E1 [S1 [L1 [X1 Y1]]]]]]]]; [apply Forall_forall; intros j Hj; apply HJ; exact Hj|exact H|exact L|]. rewrite E1. cbn [bind].
  assert (only V V1 d 0 12) as O1 by (intros t Ht; apply X1; intros j Hj; apply HJ in Hj; apply Ht; lia).
  destruct (Z.eqb_spec r 0) as [->|R]; cbn [negb].
  - exists h1, o1, V1, 0. split; [reflexivity|]. split; [exact S1|]. split; [exact L1|]. split; [exact O1|]. right. split; [reflexivity|]. specialize (Y1 eq_refl). split.
    + unfold keyok. destruct (Y1 0%nat ltac:(apply HJ; lia)) as [[V0 B0] _]. destruct (Y1 1%nat ltac:(apply HJ; lia)) as [[V1' B1] _]. rewrite V0, V1'.
      destruct (mp (val V1 (at_ d 0))), (mp (val V (at_ s 0))), (mp (val V1 (at_ d 1))), (mp (val V (at_ s 1))); try reflexivity; exfalso; try (destruct B0 as [B0 B0']; (discriminate (B0 eq_refl) || discriminate (B0' eq_refl))); destruct B1 as [B1 B1']; (discriminate (B1 eq_refl) || discriminate (B1' eq_refl)).
    + intros C j Hj. apply Y1; [apply HJ; lia|]. rewrite C by lia. reflexivity.
  - destruct (rsa_free_st h1 o1 V1 d S1 L1 Hd) as [h2 [o2 [V2 [E2 [S2 [L2 [C2 O2]]]]]]]. rewrite E2. cbn [bind]. exists h2, o2, V2, r. split; [reflexivity|]. split; [exact S2|]. split; [exact L2|].
    split; [exact (only_trans _ _ _ _ _ _ _ _ O1 O2)|]. left. split; assumption.
Qed.
Lemma lset_within i j : (i <= k)%nat -> (j < 16)%nat -> forall a b, (a <= j <= b)%nat -> within k i a b (CLset (at_ i j) 0).
Proof. intros Hi Hj a b Hab. split; [split; [apply at_lt; assumption|lia]|]. intros t ->. exists j. split; [exact Hab|reflexivity]. Qed.
Lemma free_within i j : (i <= k)%nat -> (j < 16)%nat -> forall a b, (a <= j <= b)%nat -> within k i a b (CFree (at_ i j)).
Proof. intros Hi Hj a b Hab. split; [apply at_lt; assumption|]. intros t ->. exists j. split; [exact Hab|reflexivity]. Qed.
Lemma destroy_base_st h o V i : st h o V -> length V = size k -> (i <= k)%nat -> ok3 (destroy_base ora h o i) V (fun V' => clear V' i 0 12 /\ only V V' i 0 12).
Proof.
  intros H L Hi. unfold destroy_base, zeroize_rsa. destruct (calls_st h o V i 0 12 (map (fun j => CLset (at_ i j) 0) [0; 1; 2; 3; 4; 5; 6; 7; 8; 10; 11; 12]%nat) H L) as [h1 [o1 [V1 [E1 [S1 [L1 O1]]]]]].
  { apply Forall_forall. intros c Hc. apply in_map_iff in Hc. destruct Hc as [j [<- Hj]]. cbn [In] in Hj. apply lset_within; lia. }
  rewrite E1. cbn [bind]. destruct (rsa_free_st h1 o1 V1 i S1 L1 Hi) as [h2 [o2 [V2 [E2 [S2 [L2 [C2 O2]]]]]]]. exists h2, o2, V2. split; [exact E2|]. split; [exact S2|]. split; [exact L2|]. split; [exact C2|]. exact (only_trans _ _ _ _ _ _ _ _ O1 O2).
Qed.
Lemma destroy_private_st h o V i : st h o V -> length V = size k -> (i <= k)%nat -> ok3 (destroy_private ora h o i) V (fun V' => clear V' i 0 15 /\ only V V' i 0 15).
Proof.
  intros H L Hi. unfold destroy_private. change [CLset (at_ i 14) 0; CLset (at_ i 15) 0; CLset (at_ i 13) 0; CFree (at_ i 14); CFree (at_ i 15); CFree (at_ i 13)] with ([CLset (at_ i 14) 0; CLset (at_ i 15) 0; CLset (at_ i 13) 0] ++ map CFree [at_ i 14; at_ i 15; at_ i 13]).
  rewrite run_app. destruct (calls_st h o V i 13 15 [CLset (at_ i 14) 0; CLset (at_ i 15) 0; CLset (at_ i 13) 0] H L) as [h1 [o1 [V1 [E1 [S1 [L1 O1]]]]]].
  { constructor; [apply lset_within; lia|]. constructor; [apply lset_within; lia|]. constructor; [apply lset_within; lia|]. constructor. }
  rewrite E1. cbn [bind]. destruct (free_st ora [at_ i 14; at_ i 15; at_ i 13] h1 o1 V1 S1) as [h2 [o2 [V2 [E2 [S2 [L2 [A B]]]]]]].
  { rewrite L1. constructor; [apply at_lt; lia|]. constructor; [apply at_lt; lia|]. constructor; [apply at_lt; lia|]. constructor. }
  rewrite E2. cbn [bind]. destruct (destroy_base_st h2 o2 V2 i S2 ltac:(congruence) Hi) as [h3 [o3 [V3 [E3 [S3 [L3 [C3 O3]]]]]]]. exists h3, o3, V3. split; [exact E3|]. split; [exact S3|]. split; [exact L3|].
  assert (only V1 V2 i 13 15) as O2 by (intros t Ht; apply B; cbn [In]; intros [T|[T|[T|[]]]]; [apply (Ht 14%nat)|apply (Ht 15%nat)|apply (Ht 13%nat)]; try lia; congruence).
  split.
  - apply (clear_app V3 i 12 15 C3). intros j Hj. rewrite (only_self _ _ _ _ _ j O3) by lia. apply A. cbn [In]. unfold at_. lia.
  - exact (only_trans _ _ _ _ _ _ _ _ (only_trans _ _ _ _ _ _ _ _ O1 O2) O3).
Qed.
Lemma pk_setup_st h o V t : st h o V -> length V = size k -> (t <= k)%nat -> ok4 (pk_setup ora h o t) V (fun V' r => only V V' t 13 13 /\ (r = false -> V' = V)).
Proof.
  intros [v [-> [I ->]]] L Ht. rewrite map_length in L. pose proof (at_lt t 13 Ht ltac:(lia)) as Hi. rewrite <- L in Hi. destruct (inv_own h v _ I Hi) as [O F]. unfold pk_setup. rewrite nth_fst.
  destruct (grow_ok ora h _ _ _ 1 O) as [h' [X' [r [E [[M [-> [-> ->]]]|[[M [T [Ho [O' [-> [-> C]]]]]]|[M [O' [HS [-> [C Ho]]]]]]]]]]]; rewrite E; cbn [bind].
  - vm_compute in M. discriminate M.
  - exists h', (map fst v), (map num v), false. split; [f_equal; f_equal; rewrite <- nth_fst; f_equal; apply (put_at_nth h_init); rewrite map_length; exact Hi|]. split; [exists v; split; [reflexivity|]; split; [|reflexivity]; pose proof (own_inv _ v _ _ _ Hi O' F) as I2; destruct (nth (at_ t 13) v d0) eqn:En; cbn [fst snd] in I2; rewrite <- En in I2; rewrite put_at_nth in I2 by exact Hi; exact I2|].
    split; [rewrite map_length; exact L|]. split; [intros q _; reflexivity|reflexivity].
  - eexists h', (map fst (put_at v (at_ t 13) (X', _))), (map num (put_at v (at_ t 13) (X', _))), true. split; [rewrite put_at_map; reflexivity|]. split; [eexists; split; [reflexivity|]; split; [|reflexivity]; apply own_inv; [exact Hi|exact O'|exact F]|].
    split; [rewrite map_length, put_at_length by exact Hi; exact L|]. split; [|discriminate]. intros q Hq. rewrite put_at_map. apply upd_other; [rewrite map_length; exact Hi|]. apply (Hq 13%nat). lia.
Qed.
Lemma pk_free_st h o V t : st h o V -> length V = size k -> (t <= k)%nat -> ok3 (pk_free ora h o t) V (fun V' => clear V' t 0 13 /\ only V V' t 0 13).
Proof.
  intros H L Ht. unfold pk_free. destruct (rsa_free_st h o V t H L Ht) as [h1 [o1 [V1 [E1 [S1 [L1 [C1 O1]]]]]]]. rewrite E1. cbn [bind].
  destruct (free_st ora [at_ t 13] h1 o1 V1 S1) as [h2 [o2 [V2 [E2 [S2 [L2 [A B]]]]]]]; [rewrite L1; constructor; [apply at_lt; lia|constructor]|]. exists h2, o2, V2. split; [exact E2|]. split; [exact S2|]. split; [congruence|].
  assert (only V1 V2 t 13 13) as O2 by (intros q Hq; apply B; cbn [In]; intros [T|[]]; apply (Hq 13%nat); [lia|congruence]).
  split; [|exact (only_trans _ _ _ _ _ _ _ _ O1 O2)]. apply (clear_app V2 t 12 13); [intros j Hj; rewrite (only_self _ _ _ _ _ j O2) by lia; apply C1; exact Hj|]. intros j Hj. apply A. cbn [In]. left. f_equal. lia.
Qed.
(** The effect on everything but variable [i]; [k] is the temporary context *)
Definition rest_same (V V' : list mpi) (i : nat) : Prop := forall i', i' <> i -> slot_same V V' i'.
Lemma only_rest V V' i a b : only V V' i a b -> (b < 16)%nat -> rest_same V V' i.
Proof. intros H Hb i' N. eapply only_slot; eassumption. Qed.
Lemma rest_trans V V' V'' i : rest_same V V' i -> rest_same V' V'' i -> rest_same V V'' i.
Proof. intros A B i' N. eapply slot_trans; [apply A; exact N|apply B; exact N]. Qed.
Definition inner_same (V V' : list mpi) (i : nat) : Prop := forall j, (13 <= j <= 15)%nat -> val V' (at_ i j) = val V (at_ i j).
Lemma parse_st h o V i fill ok : st h o V -> length V = size k -> (i < k)%nat -> clear V k 0 15 -> clear V i 0 12 -> Forall (within k k 0 12) fill ->
  ok4 (rsa_parse ora h o i k fill ok) V (fun V' r => rest_same V V' i /\ inner_same V V' i /\ (r = false -> clear V' i 0 12) /\ (r = true -> keyok V' i = true \/ clear V' i 0 12)).
Proof.
  intros H L Hi CK CI F. unfold rsa_parse. destruct (pk_setup_st h o V k H L (le_n k)) as [h1 [o1 [V1 [r [E1 [S1 [L1 [O1 Q1]]]]]]]]. rewrite E1. cbn [bind]. destruct r; cbn [negb].
  2:{ rewrite (Q1 eq_refl) in *. exists h1, o1, V, false. split; [reflexivity|]. split; [exact S1|]. split; [exact L|]. repeat split; try (intros ? ? ? ?; reflexivity); try (intros ? ?; reflexivity); [intros _; exact CI|discriminate]. }
  destruct (calls_st h1 o1 V1 k 0 12 fill S1 L1 F) as [h2 [o2 [V2 [E2 [S2 [L2 O2]]]]]]. rewrite E2. cbn [bind]. rewrite (check_st ora h2 o2 V2 k S2) by (rewrite L2; apply at_lt; lia). cbn [bind].
  pose proof (only_trans _ _ _ _ _ _ _ _ O1 O2) as O12. cbn [Nat.min Nat.max] in O12.
  assert (forall h' o' V', st h' o' V' -> length V' = size k -> (forall i', i' <> i -> i' <> k -> slot_same V V' i') -> inner_same V V' i -> clear V' k 14 15 ->
    ok3 (pk_free ora h' o' k) V' (fun W => rest_same V W i /\ inner_same V W i /\ slot_same V' W i)) as FIN.
  { intros h' o' V' S' L' R' N' C'. destruct (pk_free_st h' o' V' k S' L' (le_n k)) as [h3 [o3 [V3 [E3 [S3 [L3 [C3 O3]]]]]]]. exists h3, o3, V3. split; [exact E3|]. split; [exact S3|]. split; [exact L3|].
    assert (slot_same V' V3 i) as SI by (eapply only_slot; [exact O3|lia|lia]). split; [|split; [intros j Hj; rewrite (SI j) by lia; apply N'; exact Hj|exact SI]].
    intros i' Hn. destruct (Nat.eq_dec i' k) as [->|NK].
    - intros j Hj. rewrite CK by lia. destruct (Nat.le_gt_cases j 13) as [J|J]; [apply C3; lia|]. rewrite (only_self _ _ _ _ _ j O3) by lia. apply C'. lia.
    - eapply slot_trans; [apply R'; assumption|]. eapply only_slot; [exact O3|lia|exact NK]. }
  assert (forall i', i' <> k -> slot_same V V2 i') as R2 by (intros i' N; eapply only_slot; [exact O12|cbn; lia|exact N]).
  assert (clear V2 k 14 15) as C2 by (intros j Hj; rewrite (only_self _ _ _ _ _ j O12) by (cbn; lia); apply CK; lia).
  destruct (ok && keyok V2 k) eqn:EK; cbn [negb].
  - destruct (rsa_copy_st h2 o2 V2 i k S2 L2 ltac:(lia) (le_n k) ltac:(lia)) as [h3 [o3 [V3 [r [E3 [S3 [L3 [O3 D3]]]]]]]]. rewrite E3. cbn [bind].
    destruct (FIN h3 o3 V3 S3 L3) as [h4 [o4 [V4 [E4 [S4 [L4 [A4 [B4 C4]]]]]]]].
    + intros i' N1 N2. eapply slot_trans; [apply R2; exact N2|]. eapply only_slot; [exact O3|lia|exact N1].
    + intros j Hj. rewrite (only_self _ _ _ _ _ j O3) by lia. apply R2; lia.
    + intros j Hj. rewrite (only_slot _ _ _ _ _ k O3) by lia. apply C2. exact Hj.
    + rewrite E4. cbn [bind]. exists h4, o4, V4, true. split; [reflexivity|]. split; [exact S4|]. split; [exact L4|]. split; [exact A4|]. split; [exact B4|]. split; [discriminate|]. intros _. apply Bool.andb_true_iff in EK. destruct EK as [_ EK].
      destruct D3 as [[_ D]|[_ [D _]]]; [right; eapply clear_same; [exact C4|lia|exact D]|left; rewrite (keyok_same _ _ _ C4), D; exact EK].
  - destruct (FIN h2 o2 V2 S2 L2) as [h4 [o4 [V4 [E4 [S4 [L4 [A4 [B4 C4]]]]]]]].
    + intros i' _ N. apply R2. exact N. + intros j Hj. apply R2; lia. + exact C2.
    + rewrite E4. cbn [bind]. exists h4, o4, V4, false. split; [reflexivity|]. split; [exact S4|]. split; [exact L4|]. split; [exact A4|]. split; [exact B4|]. split; [|discriminate]. intros _. eapply clear_same; [exact C4|lia|]. eapply clear_same; [apply R2; lia|lia|exact CI].
Qed.
(** Constructors *)
Lemma public_st h o V i fill ok : st h o V -> length V = size k -> (i < k)%nat -> clear V k 0 15 -> clear V i 0 15 -> Forall (within k k 0 12) fill ->
  ok4 (ctor_public ora h o i k fill ok) V (fun V' x => rest_same V V' i /\ clear V' i 13 15 /\ (x = true -> clear V' i 0 12) /\ (x = false -> keyok V' i = true)).
Proof.
  intros H L Hi CK CI F. unfold ctor_public. destruct (parse_st h o V i fill ok H L Hi CK) as [h1 [o1 [V1 [r [E1 [S1 [L1 [A1 [B1 [C1 D1]]]]]]]]]]; [intros j Hj; apply CI; lia|exact F|]. rewrite E1. cbn [bind].
  assert (clear V1 i 13 15) as K1 by (intros j Hj; rewrite B1 by exact Hj; apply CI; lia). destruct r; cbn [negb].
  - rewrite (check_st ora h1 o1 V1 i S1) by (rewrite L1; apply at_lt; lia). cbn [bind]. exists h1, o1, V1, (negb (keyok V1 i)). split; [reflexivity|]. split; [exact S1|]. split; [exact L1|]. split; [exact A1|]. split; [exact K1|].
    destruct (D1 eq_refl) as [D|D]; [rewrite D; split; [discriminate|reflexivity]|]. rewrite (keyok_clear V1 i 12) by (lia || exact D). split; [intros _; exact D|discriminate].
  - exists h1, o1, V1, true. split; [reflexivity|]. split; [exact S1|]. split; [exact L1|]. split; [exact A1|]. split; [exact K1|]. split; [intros _; exact (C1 eq_refl)|discriminate].
Qed.
Lemma copy_ctor_st h o V i s : st h o V -> length V = size k -> (i < k)%nat -> (s < k)%nat -> i <> s -> clear V i 0 15 -> (keyok V s = true \/ clear V s 0 12) ->
  ok4 (ctor_copy ora h o i s) V (fun V' x => rest_same V V' i /\ clear V' i 13 15 /\ (x = true -> clear V' i 0 12) /\ (x = false -> keyok V' i = true)).
Proof.
  intros H L Hi Hs N CI KS. unfold ctor_copy. destruct (rsa_copy_st h o V i s H L ltac:(lia) ltac:(lia) N) as [h1 [o1 [V1 [r [E1 [S1 [L1 [O1 D1]]]]]]]]. rewrite E1. cbn [bind].
  pose proof (only_rest _ _ _ _ _ O1 ltac:(lia)) as A1. assert (clear V1 i 13 15) as K1 by (intros j Hj; rewrite (only_self _ _ _ _ _ j O1) by lia; apply CI; lia).
  destruct D1 as [[R D]|[-> [D D2]]].
  - destruct (Z.eqb_spec r 0) as [->|_]; [contradiction|]. cbn [negb]. exists h1, o1, V1, true. split; [reflexivity|]. split; [exact S1|]. split; [exact L1|]. split; [exact A1|]. split; [exact K1|]. split; [intros _; exact D|discriminate].
  - cbn [Z.eqb negb]. rewrite (check_st ora h1 o1 V1 i S1) by (rewrite L1; apply at_lt; lia). cbn [bind]. exists h1, o1, V1, (negb (keyok V1 i)). split; [reflexivity|]. split; [exact S1|]. split; [exact L1|]. split; [exact A1|]. split; [exact K1|].
    destruct KS as [KS|KS]; [rewrite D, KS; split; [discriminate|reflexivity]|]. rewrite (keyok_clear V1 i 12) by (lia || exact (D2 KS)). split; [intros _; exact (D2 KS)|discriminate].
Qed.
Lemma subs_st i subs h o V : st h o V -> length V = size k -> (i < k)%nat -> subs_ok k i subs -> Forall (fun x => snd x = true) subs ->
  ok4 (ctor_subs ora h o i subs) V (fun V' x => rest_same V V' i /\ x = false /\ keyok V' i = keyok V i).
Proof.
  intros H L Hi [c14 [c15 [c13 [r14 [r15 [r13 [-> [F14 [F15 F13]]]]]]]]] FT. inversion FT as [|? ? T1 FT2]; subst. inversion FT2 as [|? ? T2 FT3]; subst. inversion FT3 as [|? ? T3 _]; subst. cbn [snd] in *. subst r14 r15 r13. cbn [ctor_subs negb].
  destruct (calls_st h o V i 14 14 c14 H L F14) as [h1 [o1 [V1 [E1 [S1 [L1 O1]]]]]]. rewrite E1. cbn [bind].
  destruct (calls_st h1 o1 V1 i 15 15 c15 S1 L1 F15) as [h2 [o2 [V2 [E2 [S2 [L2 O2]]]]]]. rewrite E2. cbn [bind].
  destruct (calls_st h2 o2 V2 i 13 13 c13 S2 L2 F13) as [h3 [o3 [V3 [E3 [S3 [L3 O3]]]]]]. rewrite E3. cbn [bind].
  exists h3, o3, V3, false. split; [reflexivity|]. split; [exact S3|]. split; [exact L3|]. split; [|split; [reflexivity|]].
  - eapply rest_trans; [eapply only_rest; [exact O1|lia]|]. eapply rest_trans; [eapply only_rest; [exact O2|lia]|]. eapply only_rest; [exact O3|lia].
  - unfold keyok. rewrite !(only_self _ _ _ _ _ _ O3), !(only_self _ _ _ _ _ _ O2), !(only_self _ _ _ _ _ _ O1) by lia. reflexivity.
Qed.
Definition ctor_post (V V' : list mpi) (i : nat) (x : bool) : Prop := rest_same V V' i /\ (x = true -> clear V' i 0 15) /\ (x = false -> keyok V' i = true).
Lemma destroyed_st h o V0 V i : st h o V -> length V = size k -> (i < k)%nat -> rest_same V0 V i -> clear V i 13 15 -> ok4 ('(h, o) <- destroy_base ora h o i ;; Ok (h, o, true)) V0 (fun V' x => ctor_post V0 V' i x).
Proof.
  intros H L Hi R C. destruct (destroy_base_st h o V i H L ltac:(lia)) as [h1 [o1 [V1 [E1 [S1 [L1 [C1 O1]]]]]]]. rewrite E1. cbn [bind]. exists h1, o1, V1, true. split; [reflexivity|]. split; [exact S1|]. split; [exact L1|].
  split; [eapply rest_trans; [exact R|]; eapply only_rest; [exact O1|lia]|]. split; [|discriminate]. intros _. apply (clear_app V1 i 12 15 C1). intros j Hj. rewrite (only_self _ _ _ _ _ j O1) by lia. apply C. exact Hj.
Qed.
Lemma end_st h o V0 V i subs : st h o V -> length V = size k -> (i < k)%nat -> rest_same V0 V i -> clear V i 13 15 -> subs_ok k i subs -> Forall (fun x => snd x = true) subs ->
  ok4 (ctor_end ora h o i subs) V0 (fun V' x => ctor_post V0 V' i x).
Proof.
  intros H L Hi R C SO FT. unfold ctor_end. rewrite (check_st ora h o V i H) by (rewrite L; apply at_lt; lia). cbn [bind]. destruct (keyok V i) eqn:EK; cbn [negb].
  - destruct (subs_st i subs h o V H L Hi SO FT) as [h1 [o1 [V1 [x [E1 [S1 [L1 [A1 [-> K1]]]]]]]]]. exists h1, o1, V1, false. split; [exact E1|]. split; [exact S1|]. split; [exact L1|]. split; [eapply rest_trans; eassumption|]. split; [discriminate|]. intros _. rewrite K1. exact EK.
  - eapply destroyed_st; eassumption.
Qed.
Lemma generate_st h o V i fill ok subs : st h o V -> length V = size k -> (i < k)%nat -> clear V i 0 15 -> Forall (within k i 0 12) fill -> subs_ok k i subs -> Forall (fun x => snd x = true) subs ->
  ok4 (ctor_generate ora h o i fill ok subs) V (fun V' x => ctor_post V V' i x).
Proof.
  intros H L Hi CI F SO FT. unfold ctor_generate. destruct (calls_st h o V i 0 12 fill H L F) as [h1 [o1 [V1 [E1 [S1 [L1 O1]]]]]]. rewrite E1. cbn [bind].
  pose proof (only_rest _ _ _ _ _ O1 ltac:(lia)) as A1. assert (clear V1 i 13 15) as K1 by (intros j Hj; rewrite (only_self _ _ _ _ _ j O1) by lia; apply CI; lia).
  destruct ok; cbn [negb]; [eapply end_st|eapply destroyed_st]; eassumption.
Qed.
Lemma private_st h o V i fill ok subs : st h o V -> length V = size k -> (i < k)%nat -> clear V k 0 15 -> clear V i 0 15 -> Forall (within k k 0 12) fill -> subs_ok k i subs -> Forall (fun x => snd x = true) subs ->
  ok4 (ctor_private ora h o i k fill ok subs) V (fun V' x => ctor_post V V' i x).
Proof.
  intros H L Hi CK CI F SO FT. unfold ctor_private. destruct (parse_st h o V i fill ok H L Hi CK) as [h1 [o1 [V1 [r [E1 [S1 [L1 [A1 [B1 _]]]]]]]]]; [intros j Hj; apply CI; lia|exact F|]. rewrite E1. cbn [bind].
  assert (clear V1 i 13 15) as K1 by (intros j Hj; rewrite B1 by exact Hj; apply CI; lia). destruct r; cbn [negb]; [eapply end_st|eapply destroyed_st]; eassumption.
Qed.
End Ops.
