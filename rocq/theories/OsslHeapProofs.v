From Coq Require Import Lia Permutation PeanoNat.
From Verif Require Import Base OsslHeapModel OsslHeapSpec.

Definition handle : Type := nat * kind.
Definition heq (a b : handle) : {a = b} + {a <> b}. Proof. destruct a as [i k], b as [j l]. destruct (Nat.eq_dec i j) as [->|n]; [|right; congruence]. destruct (same k l) as [->|n]; [left; reflexivity|right; congruence]. Defined.
Definition refs_at (h : heap) (i : nat) (k : kind) : nat :=
  match nth_error h i with Some c => if same (kind_of c) k then refs c else 0%nat | None => 0%nat end.
Definition owns (W : list handle) (h : heap) : Prop := forall i k, refs_at h i k = count_occ heq W (i, k).
Definition good (W : list handle) (h : heap) : Prop := owns W h /\ NoDup W.
Definition rs (j : nat) : handle := (j, KRsa).

Lemma kind_eqb_refl : forall k, kind_eqb k k = true.
Proof. destruct k; reflexivity. Qed.
Lemma nth_set : forall {A} (l : list A) i x j, (i < length l)%nat -> nth_error (set_nth l i x) j = if Nat.eq_dec i j then Some x else nth_error l j.
Proof.
  intros A l i x j L. unfold set_nth. destruct (Nat.eq_dec i j) as [<-|n].
  - rewrite nth_error_app2; rewrite firstn_length_le by lia; [|lia]. rewrite Nat.sub_diag. reflexivity.
  - destruct (Nat.lt_ge_cases j i) as [J|J].
    + rewrite nth_error_app1 by (rewrite firstn_length_le; lia). revert i j L n J; induction l as [|a l IH]; intros i j L n J; [cbn in L; lia|].
      destruct i as [|i]; [lia|]. destruct j as [|j]; [reflexivity|]. cbn. apply IH; cbn in L; lia.
    + rewrite nth_error_app2; rewrite firstn_length_le by lia; [|lia]. destruct (j - i)%nat as [|d] eqn:D; [lia|]. cbn [nth_error].
      assert (E : j = (S i + d)%nat) by lia. rewrite E. clear. generalize (S i) as n; intro n; revert n; induction l as [|a l IH]; intro n; [rewrite skipn_nil; destruct d, n; reflexivity|].
      destruct n as [|n]; [reflexivity|]. cbn [skipn]. rewrite IH. reflexivity.
Qed.
Lemma owns_perm : forall W W' h, Permutation W W' -> owns W h -> owns W' h.
Proof. intros W W' h P O i k. rewrite O. apply (Permutation_count_occ heq). exact P. Qed.
Lemma good_perm : forall W W' h, Permutation W W' -> good W h -> good W' h.
Proof. intros W W' h P [O N]. split; [exact (owns_perm _ _ _ P O)|]. exact (Permutation_NoDup P N). Qed.
Lemma count_cons : forall (x y : handle) W, count_occ heq (x :: W) y = ((if heq x y then 1 else 0) + count_occ heq W y)%nat.
Proof. intros. cbn. destruct (heq x y); reflexivity. Qed.
Lemma new_ok : forall W h k ns, good W h -> exists h' i, new k ns h = (h', i) /\ good ((i, k) :: W) h' /\ nth_error h' i = Some (MkCell k 1 ns) /\
  (forall j, j <> i -> nth_error h' j = nth_error h j).
Proof.
  intros W h k ns [O N]. exists (h ++ [MkCell k 1 ns]), (length h). split; [reflexivity|].
  assert (F : forall k', count_occ heq W (length h, k') = 0%nat).
  { intro k'. rewrite <- O. unfold refs_at. rewrite (proj2 (nth_error_None h (length h))) by lia. reflexivity. }
  split; [split|].
  - intros i k'. rewrite count_cons. unfold refs_at. destruct (Nat.lt_trichotomy i (length h)) as [L|[->|L]].
    + rewrite nth_error_app1 by exact L. destruct (heq (length h, k) (i, k')) as [E|_]; [injection E; lia|]. exact (O i k').
    + rewrite nth_error_app2, Nat.sub_diag by lia. cbn [nth_error kind_of refs]. rewrite F. destruct (same k k') as [<-|n].
      * destruct (heq (length h, k) (length h, k)) as [_|n]; [reflexivity|contradiction].
      * destruct (heq (length h, k) (length h, k')) as [E|_]; [injection E; contradiction|reflexivity].
    + rewrite nth_error_app2 by lia. destruct (i - length h)%nat as [|d] eqn:D; [lia|]. replace (nth_error [MkCell k 1 ns] (S d)) with (@None cell) by (destruct d; reflexivity).
      destruct (heq (length h, k) (i, k')) as [E|_]; [injection E; lia|]. rewrite <- O. unfold refs_at. rewrite (proj2 (nth_error_None h i)) by lia. reflexivity.
  - constructor; [|exact N]. rewrite (count_occ_not_In heq). apply F.
  - split; [rewrite nth_error_app2, Nat.sub_diag by lia; reflexivity|]. intros j J.
    destruct (Nat.lt_trichotomy j (length h)) as [L|[->|L]]; [apply nth_error_app1; exact L|contradiction|].
    rewrite nth_error_app2 by lia. rewrite (proj2 (nth_error_None h j)) by lia. destruct (j - length h)%nat as [|d] eqn:D; [lia|]. destruct d; reflexivity.
Qed.
Lemma use_ok : forall W h i k, owns W h -> In (i, k) W -> exists c, use k h i = Ok c /\ nth_error h i = Some c /\ kind_of c = k /\ refs c = count_occ heq W (i, k) /\ (0 < refs c)%nat.
Proof.
  intros W h i k O I. apply (count_occ_In heq) in I. pose proof (O i k) as E. unfold refs_at in E. unfold use.
  destruct (nth_error h i) as [c|]; [|lia]. destruct (same (kind_of c) k) as [<-|n]; [|lia]. exists c. rewrite kind_eqb_refl.
  destruct (refs c) as [|r] eqn:R; [lia|]. cbn. repeat split; lia.
Qed.
Lemma set_owns : forall W W' h i k c ns r, owns W h -> nth_error h i = Some c -> kind_of c = k ->
  (forall j k', (j, k') <> (i, k) -> count_occ heq W' (j, k') = count_occ heq W (j, k')) -> count_occ heq W' (i, k) = r ->
  owns W' (set_nth h i (MkCell k r ns)).
Proof.
  intros W W' h i k c ns r O E K D C j k'. unfold refs_at. assert (L : (i < length h)%nat) by (apply nth_error_Some; rewrite E; discriminate).
  rewrite nth_set by exact L. destruct (Nat.eq_dec i j) as [<-|n].
  - cbn. destruct (same k k') as [<-|n']; [symmetry; exact C|]. rewrite D by congruence. rewrite <- O. unfold refs_at. rewrite E, K. destruct (same k k'); [contradiction|reflexivity].
  - rewrite D by congruence. rewrite <- O. reflexivity.
Qed.
Lemma free_owns : forall W h i k, owns ((i, k) :: W) h -> exists h', free k h i = Ok h' /\ owns W h'.
Proof.
  intros W h i k O. destruct (use_ok _ _ _ _ O (or_introl eq_refl)) as (c & U & E & K & R & P).
  unfold free. rewrite U. cbn [bind]. eexists. split; [reflexivity|]. rewrite count_cons in R. destruct (heq (i, k) (i, k)) as [_|n]; [|contradiction].
  eapply set_owns; [exact O|exact E|exact K| |lia]. intros j k' N. rewrite count_cons. destruct (heq (i, k) (j, k')) as [X|_]; [symmetry in X; contradiction|reflexivity].
Qed.
Lemma free_ok : forall W h i k, good ((i, k) :: W) h -> exists h', free k h i = Ok h' /\ good W h'.
Proof. intros W h i k [O N]. destruct (free_owns _ _ _ _ O) as (h' & F & O'). exists h'. split; [exact F|]. split; [exact O'|]. inversion N; assumption. Qed.
Lemma free_at : forall W W' h i k, good W h -> Permutation W ((i, k) :: W') -> exists h', free k h i = Ok h' /\ good W' h'.
Proof. intros W W' h i k G P. apply free_ok. exact (good_perm _ _ _ P G). Qed.
Lemma share_ok : forall W h i, owns W h -> In (i, KRsa) W -> exists h', share h i = Ok h' /\ owns ((i, KRsa) :: W) h'.
Proof.
  intros W h i O I. destruct (use_ok _ _ _ _ O I) as (c & U & E & K & R & P). unfold share. rewrite U. cbn [bind]. eexists. split; [reflexivity|].
  eapply set_owns; [exact O|exact E|exact K| |].
  - intros j k' N. rewrite count_cons. destruct (heq (i, KRsa) (j, k')) as [X|_]; [symmetry in X; contradiction|reflexivity].
  - rewrite count_cons. destruct (heq (i, KRsa) (i, KRsa)) as [_|n]; [lia|contradiction].
Qed.
Lemma set_same : forall W h i c ns, owns W h -> use KRsa h i = Ok c -> owns W (set_nth h i (MkCell KRsa (refs c) ns)).
Proof.
  intros W h i c ns O U. unfold use in U. destruct (nth_error h i) as [c'|] eqn:E; [|discriminate].
  destruct (kind_eqb (kind_of c') KRsa) eqn:K; [|discriminate]. destruct (refs c' =? 0)%nat; [discriminate|]. cbn in U. injection U as <-.
  assert (K' : kind_of c' = KRsa) by (destruct (kind_of c'); cbn in K; congruence).
  eapply set_owns; [exact O|exact E|exact K'|reflexivity|]. rewrite <- O. unfold refs_at. rewrite E, K'. reflexivity.
Qed.
Lemma dup_ok : forall W h i, good W h -> In (i, KRsa) W -> exists h' j, dup h i = Ok (h', j) /\ good ((j, KRsa) :: W) h'.
Proof.
  intros W h i G I. destruct (use_ok _ _ _ _ (proj1 G) I) as (c & U & _). unfold dup. rewrite U. cbn [bind].
  destruct (new_ok _ _ KRsa (firstn 2 (nums c)) G) as (h' & j & E & G' & _). exists h', j. rewrite E. split; [reflexivity|exact G'].
Qed.
Lemma free_all_ok : forall k l W h, good (map (fun i => (i, k)) l ++ W) h -> exists h', free_all k h l = Ok h' /\ good W h'.
Proof.
  intros k l; induction l as [|i l IH]; intros W h G; [exists h; split; [reflexivity|exact G]|].
  cbn in G. destruct (free_ok _ _ _ _ G) as (h1 & F & G1). destruct (IH _ _ G1) as (h2 & F2 & G2). exists h2. cbn. rewrite F. cbn. rewrite F2. split; [reflexivity|exact G2].
Qed.
Lemma dup_all_ok : forall l W h, good W h -> (forall i, In i l -> In (i, KRsa) W) ->
  exists h' js, dup_all h l = Ok (h', js) /\ good (map rs js ++ W) h' /\ length js = length l.
Proof.
  intros l; induction l as [|i l IH]; intros W h G I; [exists h, []; repeat split; apply G|].
  destruct (dup_ok _ _ _ G (I i (or_introl eq_refl))) as (h1 & j & D & G1).
  destruct (IH _ _ G1 (fun x H => or_intror (I x (or_intror H)))) as (h2 & js & D2 & G2 & L). exists h2, (j :: js). cbn. rewrite D. cbn. rewrite D2. cbn.
  split; [reflexivity|]. split; [|rewrite L; reflexivity]. eapply good_perm; [|exact G2]. symmetry. apply Permutation_cons_app. apply Permutation_refl.
Qed.
Lemma pool_keys_ok : forall n W h k, good W h -> In (k, KRsa) W ->
  exists h' js, pool_keys n h k = Ok (h', js) /\ good (map rs js ++ W) h' /\ length js = n.
Proof.
  intros n; induction n as [|n IH]; intros W h k G I; [exists h, []; repeat split; apply G|].
  destruct (dup_ok _ _ _ G I) as (h1 & j & D & G1).
  destruct (IH _ _ j G1 (or_introl eq_refl)) as (h2 & js & D2 & G2 & L). exists h2, (j :: js). cbn. rewrite D. cbn. rewrite D2. cbn.
  split; [reflexivity|]. split; [|rewrite L; reflexivity]. eapply good_perm; [|exact G2]. symmetry. apply Permutation_cons_app. apply Permutation_refl.
Qed.

(** * Constructors and functions *)
Ltac pick := first [ apply Permutation_refl | eapply perm_trans; [ | apply perm_swap ]; apply perm_skip; pick ].
Ltac inlist := first [ assumption | left; reflexivity | right; inlist ].
Ltac go :=
  match goal with
  | G : good ?W ?h |- context [new ?k ?ns ?h] => let E := fresh "E" in destruct (new_ok W h k ns G) as (? & ? & E & ? & _); rewrite E; clear E G; cbn [bind free_opt free_all]
  | G : good ?W ?h |- context [free ?k ?h ?i] => let E := fresh "E" in
      let W2 := open_constr:(_ : list handle) in let P := fresh "P" in
      assert (P : Permutation W ((i, k) :: W2)) by pick; destruct (free_at W W2 h i k G P) as (? & E & ?); rewrite E; clear E G P; cbn [bind free_opt free_all]
  | G : good ?W ?h |- context [use ?k ?h ?i] => let E := fresh "E" in
      destruct (use_ok W h i k (proj1 G) ltac:(inlist)) as (? & E & _); rewrite E; clear E; cbn [bind free_opt]
  end.
Lemma from_public_ok : forall W h text, good W h -> exists h' o, from_public text h = Ok (h', o) /\
  match text, o with None, None => good W h' | Some _, Some k => good ((k, KRsa) :: W) h' | _, _ => False end.
Proof. intros W h text G. unfold from_public. destruct text as [ns|]; repeat go; eexists _, _; (split; [reflexivity|]); assumption. Qed.
Lemma copy_ok : forall W h k, good W h -> In (k, KRsa) W -> exists h' j, copy h k = Ok (h', Some j, false) /\ good ((j, KRsa) :: W) h'.
Proof.
  intros W h k G I. unfold copy. destruct (dup_ok _ _ _ G I) as (h1 & j & D & G1). rewrite D. unfold set_rsa_key. cbn [bind free_opt]. go. eexists _, _. split; [reflexivity|]. exact G1.
Qed.
Lemma members_ok : forall W h k, good W h -> In (k, KRsa) W -> exists h' a b c, members h k = Ok (h', Inv k a b c) /\ good ((a, KBn) :: (b, KBn) :: (c, KBn) :: W) h'.
Proof.
  intros W h k G I. unfold members. go.
  destruct (use_ok _ _ k KRsa (proj1 H) (or_intror I)) as (c & E & _). rewrite E. cbn [bind]. clear E. repeat go. eexists _, _, _, _. split; [reflexivity|].
  eapply good_perm; [|eassumption]. eapply perm_trans; [apply perm_swap|]. eapply perm_trans; [apply perm_skip, perm_swap|]. apply perm_swap.
Qed.
Definition handles (o : obj) : list handle :=
  match o with
  | Dead => []
  | Tdp k => [(k, KRsa)]
  | Inv k a b c => [(k, KRsa); (a, KBn); (b, KBn); (c, KBn)]
  | Pool k arr js => (k, KRsa) :: (arr, KArr) :: map rs js
  end.
Definition matches (o : obj) (t : thing) : Prop :=
  match o, t with Dead, Nothing | Tdp _, APermutation | Inv _ _ _ _, AnInverse => True | Pool _ _ js, APool n => length js = n | _, _ => False end.
Lemma generated_ok : forall W h word key, good W h -> exists h' o, generated word key h = Ok (h', o) /\ good (handles o ++ W) h' /\
  matches o (match word, key with true, Some _ => AnInverse | _, _ => Nothing end).
Proof.
  intros W h word key G. unfold generated. go. unfold set_rsa_key. cbn [bind free_opt]. go. go.
  destruct word; cbn [negb].
  - destruct key as [ns|].
    + match goal with G : good ((?b, KBn) :: (?k, KRsa) :: W) ?h |- context [use KRsa ?h ?k] =>
        destruct (use_ok _ _ k KRsa (proj1 G) ltac:(inlist)) as (c & E & _); rewrite E; cbn [bind];
        assert (G2 : good ((b, KBn) :: (k, KRsa) :: W) (set_nth h k (MkCell KRsa (refs c) ns))) by (split; [apply set_same; [apply G|exact E]|apply G]);
        destruct (members_ok _ _ k G2 ltac:(inlist)) as (h2 & p & q & r & M & G3); rewrite M; cbn [bind]; clear E M G G2 end.
      go. eexists _, _. split; [reflexivity|]. split; [|exact I]. eapply good_perm; [|eassumption]. cbn. symmetry. apply (Permutation_cons_app [_; _; _]). apply Permutation_refl.
    + repeat go. eexists _, _. split; [reflexivity|]. split; [assumption|exact I].
  - repeat go. eexists _, _. split; [reflexivity|]. split; [assumption|exact I].
Qed.
Lemma good_free : forall W W' h i k, owns W h -> NoDup W' -> Permutation W ((i, k) :: W') -> exists h', free k h i = Ok h' /\ good W' h'.
Proof. intros W W' h i k O N P. destruct (free_owns _ _ _ _ (owns_perm _ _ _ P O)) as (h' & F & O'). exists h'. split; [exact F|split; assumption]. Qed.
Lemma from_private_ok : forall W h text, good W h -> text <> Some None -> exists h' o, from_private text h = Ok (h', o) /\ good (handles o ++ W) h' /\
  matches o (match text with Some (Some _) => AnInverse | _ => Nothing end).
Proof.
  intros W h text G T. unfold from_private. destruct text as [[ns|]|]; [|contradiction|].
  - go. go. go.
    match goal with G : good ((?e, KEvp) :: (?k, KRsa) :: (?m, KBio) :: W) ?h |- _ =>
      destruct (share_ok _ _ k (proj1 G) ltac:(inlist)) as (h1 & Sh & O1); rewrite Sh; cbn [bind]; unfold set_rsa_key; cbn [bind free_opt];
      destruct (use_ok _ _ k KRsa O1 (or_introl eq_refl)) as (c & U & _); rewrite U; cbn [bind];
      unfold EVP_PKEY_free;
      destruct (free_owns ((k, KRsa) :: (k, KRsa) :: (m, KBio) :: W) h1 e KEvp (owns_perm _ _ _ (perm_swap _ _ _) O1)) as (h2 & F & O2); rewrite F; cbn [bind free_opt];
      pose proof (NoDup_cons_iff (e, KEvp) ((k, KRsa) :: (m, KBio) :: W)) as ND;
      destruct (good_free _ _ _ k KRsa O2 (proj2 (proj1 ND (proj2 G))) (Permutation_refl _)) as (h3 & F3 & G3); rewrite F3; cbn [bind];
      clear Sh U F F3 O1 O2 ND G end.
    go. match goal with G : good ((?k, KRsa) :: W) ?h |- _ => destruct (members_ok _ _ k G ltac:(inlist)) as (h4 & p & q & r & M & G4); rewrite M end.
    eexists _, _. split; [reflexivity|]. split; [|exact I]. eapply good_perm; [|exact G4]. cbn. symmetry. apply (Permutation_cons_app [_; _; _]). apply Permutation_refl.
  - repeat go. eexists _, _. split; [reflexivity|]. split; [assumption|exact I].
Qed.
Lemma pool_new_ok : forall W h text size, good W h -> 0 <= size -> size <> 1 -> exists h' o, pool_new text size h = Ok (h', o) /\ good (handles o ++ W) h' /\
  matches o (match text with Some _ => if size =? 0 then Nothing else APool (Z.to_nat (size - 1)) | None => Nothing end).
Proof.
  intros W h text size G Z0 Z1. unfold pool_new. destruct (from_public_ok W h text G) as (h1 & o & F & C). rewrite F. cbn [bind].
  destruct text as [ns|], o as [k|]; try contradiction.
  - destruct (size =? 0) eqn:E0.
    + go. eexists _, _. split; [reflexivity|]. split; [assumption|exact I].
    + rewrite (proj2 (Z.eqb_neq size 1)) by exact Z1. go.
      match goal with G : good ((?a, KArr) :: (k, KRsa) :: W) ?h |- _ => destruct (pool_keys_ok (Z.to_nat (size - 1)) _ _ k G ltac:(inlist)) as (h3 & js & P & G3 & L); rewrite P end.
      cbn [bind]. eexists _, _. split; [reflexivity|]. split; [|exact L]. eapply good_perm; [|exact G3]. cbn. eapply perm_trans; [apply Permutation_sym, Permutation_middle|].
      eapply perm_trans; [apply perm_skip, Permutation_sym, Permutation_middle|]. apply perm_swap.
  - eexists _, _. split; [reflexivity|]. split; [assumption|exact I].
Qed.
Lemma destroy_ok : forall W h o t, good (handles o ++ W) h -> matches o t -> alive t = true -> exists h', destroy o h = Ok h' /\ good W h'.
Proof.
  intros W h o t G M A. destruct o as [|k|k a b c|k arr js]; [destruct t; cbn in M, A; (discriminate || contradiction)| | |]; unfold destroy; cbn [handles app] in G.
  - repeat go. eexists. split; [reflexivity|assumption].
  - assert (G' : good (map (fun i => (i, KBn)) [a; b; c] ++ (k, KRsa) :: W) h).
    { eapply good_perm; [|exact G]. cbn. apply (Permutation_cons_app [_; _; _]). apply Permutation_refl. }
    destruct (free_all_ok _ _ _ _ G') as (h1 & F & G1). rewrite F. cbn [bind]. clear G G'. go. eexists. split; [reflexivity|assumption].
  - assert (G' : good (map (fun i => (i, KRsa)) js ++ (arr, KArr) :: (k, KRsa) :: W) h).
    { eapply good_perm; [|exact G]. eapply perm_trans; [apply perm_swap|]. apply Permutation_cons_app. apply Permutation_middle. }
    destruct (free_all_ok _ _ _ _ G') as (h1 & F & G1). rewrite F. cbn [bind]. clear G G'. repeat go. eexists. split; [reflexivity|assumption].
Qed.

Lemma bio_text_public : forall W h k bio read, good ((bio, KBio) :: W) h -> exists h', bio_text h None k bio read true = Ok (h', negb read) /\ good W h'.
Proof. intros W h k bio read G. unfold bio_text. go. destruct read; cbn [negb]; repeat go; eexists; (split; [reflexivity|assumption]). Qed.
Lemma evp_free_ok : forall W h e k, owns ((k, KRsa) :: (e, KEvp) :: W) h -> NoDup W -> exists h', EVP_PKEY_free h e (Some k) = Ok h' /\ good W h'.
Proof.
  intros W h e k O1 N. unfold EVP_PKEY_free. destruct (free_owns _ _ _ _ (owns_perm _ _ _ (perm_swap _ _ _) O1)) as (h1 & F & O2). rewrite F. cbn [bind free_opt].
  destruct (free_owns _ _ _ _ O2) as (h2 & F2 & O3). exists h2. split; [exact F2|split; assumption].
Qed.
Lemma owns_new : forall W h k ns, owns W h -> exists h' i, new k ns h = (h', i) /\ owns ((i, k) :: W) h' /\ (forall W', incl W' W -> NoDup W' -> NoDup ((i, k) :: W')).
Proof.
  intros W h k ns O1.
  exists (h ++ [MkCell k 1 ns]), (length h). split; [reflexivity|].
  assert (F : forall k', count_occ heq W (length h, k') = 0%nat).
  { intro k'. rewrite <- O1. unfold refs_at. rewrite (proj2 (nth_error_None h (length h))) by lia. reflexivity. }
  split.
  - intros i k'. rewrite count_cons. unfold refs_at. destruct (Nat.lt_trichotomy i (length h)) as [L|[->|L]].
    + rewrite nth_error_app1 by exact L. destruct (heq (length h, k) (i, k')) as [E|_]; [injection E; lia|]. exact (O1 i k').
    + rewrite nth_error_app2, Nat.sub_diag by lia. cbn [nth_error kind_of refs]. rewrite F. destruct (same k k') as [<-|n].
      * destruct (heq (length h, k) (length h, k)) as [_|n]; [reflexivity|contradiction].
      * destruct (heq (length h, k) (length h, k')) as [E|_]; [injection E; contradiction|reflexivity].
    + rewrite nth_error_app2 by lia. destruct (i - length h)%nat as [|d] eqn:D; [lia|]. replace (nth_error [MkCell k 1 ns] (S d)) with (@None cell) by (destruct d; reflexivity).
      destruct (heq (length h, k) (i, k')) as [E|_]; [injection E; lia|]. rewrite <- O1. unfold refs_at. rewrite (proj2 (nth_error_None h i)) by lia. reflexivity.
  - intros W' S' N. constructor; [|exact N]. intro I. apply S' in I. apply (count_occ_In heq) in I. rewrite F in I. lia.
Qed.
Lemma bio_text_private : forall W h e k bio read, owns ((bio, KBio) :: (k, KRsa) :: (e, KEvp) :: W) h -> NoDup ((bio, KBio) :: W) ->
  exists h', bio_text h (Some e) k bio read true = Ok (h', negb read) /\ good W h'.
Proof.
  intros W h e k bio read O1 N. unfold bio_text. destruct (owns_new _ _ KBuf [] O1) as (h1 & buf & E & O2 & N2). rewrite E.
  assert (N3 : NoDup ((buf, KBuf) :: (bio, KBio) :: W)) by (apply N2; [intros x [<-|X]; [left; reflexivity|do 3 right; exact X]|exact N]).
  assert (O3 : owns ((k, KRsa) :: (e, KEvp) :: (buf, KBuf) :: (bio, KBio) :: W) h1).
  { eapply owns_perm; [|exact O2].
    change (Permutation ([(buf, KBuf); (bio, KBio)] ++ [(k, KRsa); (e, KEvp)] ++ W) ([(k, KRsa); (e, KEvp)] ++ [(buf, KBuf); (bio, KBio)] ++ W)).
    rewrite !app_assoc. apply Permutation_app_tail. apply Permutation_app_comm. }
  destruct (evp_free_ok _ _ _ _ O3 N3) as (h2 & F & G). clear O1 O2 O3. destruct read; cbn [negb]; rewrite F; cbn [bind]; repeat go; eexists; (split; [reflexivity|assumption]).
Qed.
Lemma key_handle : forall o k, key_of o = Some k -> In (k, KRsa) (handles o).
Proof. intros [|j|j a b c|j a l] k E; cbn in E; try discriminate; injection E as ->; left; reflexivity. Qed.
Lemma call_ok : forall W h o t f b, good W h -> incl (handles o) W -> matches o t -> call_throws t f = Some b -> exists h', call_function o f h = Ok (h', b) /\ good W h'.
Proof.
  intros W h o t f b G S' M C. unfold call_function.
  destruct (key_of o) as [k|] eqn:K; [|destruct o; try discriminate; destruct t; try contradiction; destruct f; discriminate].
  pose proof (S' _ (key_handle _ _ K)) as IK. destruct (use_ok _ _ k KRsa (proj1 G) IK) as (c & E & _). rewrite E. cbn [bind]. clear E.
  destruct f as [write read string|size|ok| |set write read string|ok|order size|order].
  - assert (C' : string = true /\ b = negb (write && read)) by (destruct t; cbn in C; try discriminate; destruct string; [|discriminate| |discriminate| |discriminate]; injection C as <-; split; reflexivity).
    destruct C' as [-> ->]. go. destruct write; cbn [negb andb].
    + match goal with G : good _ _ |- _ => destruct (bio_text_public _ _ k _ read G) as (h2 & B & G2) end. rewrite B. eexists. split; [reflexivity|exact G2].
    + go. eexists. split; [reflexivity|assumption].
  - assert (C' : b = negb size) by (destruct t; cbn in C; try discriminate; injection C as <-; reflexivity). subst b.
    destruct size; cbn [negb]; repeat go; eexists; (split; [reflexivity|assumption]).
  - assert (C' : b = negb ok) by (destruct t; cbn in C; try discriminate; injection C as <-; reflexivity). subst b.
    go. destruct ok; cbn [negb]; repeat go; eexists; (split; [reflexivity|assumption]).
  - assert (C' : b = false) by (destruct t; cbn in C; try discriminate; injection C as <-; reflexivity). subst b.
    repeat go; eexists; (split; [reflexivity|assumption]).
  - destruct t; try discriminate. destruct o as [| |k' p q r|]; try contradiction. cbn in K. injection K as ->. cbn in C. destruct string; [|discriminate]. injection C as <-.
    destruct (new_ok _ _ KEvp [] G) as (h1 & e & E & G1 & _). rewrite E. clear E. destruct set; cbn [negb andb].
    + destruct (share_ok _ _ k (proj1 G1) (or_intror IK)) as (h2 & E & O2). rewrite E. cbn [bind]. clear E.
      destruct (owns_new _ _ KBio [] O2) as (h3 & bio & E & O3 & N3). rewrite E. clear E.
      assert (N4 : NoDup ((bio, KBio) :: W)) by (apply N3; [intros x X; do 2 right; exact X|apply G]).
      destruct write; cbn [negb andb].
      * destruct (bio_text_private _ _ _ _ _ read O3 N4) as (h4 & B & G4). rewrite B. eexists. split; [reflexivity|exact G4].
      * assert (O4 : owns ((k, KRsa) :: (e, KEvp) :: (bio, KBio) :: W) h3).
        { eapply owns_perm; [|exact O3]. eapply perm_trans; [apply perm_swap|]. apply perm_skip. apply perm_swap. }
        destruct (evp_free_ok _ _ _ _ O4 N4) as (h4 & F & G4). rewrite F. cbn [bind]. clear G1 O2 O3 O4 G. go. eexists. split; [reflexivity|assumption].
    + unfold EVP_PKEY_free. clear G. go. eexists. split; [reflexivity|assumption].
  - destruct t; try discriminate. destruct o as [| |k' p q r|]; try contradiction. cbn in C. injection C as <-. eexists. split; [reflexivity|exact G].
  - destruct t; try discriminate. destruct o as [| |k' p q r|]; try contradiction. cbn in C. injection C as <-.
    destruct (order =? 0) eqn:Z0; cbn [negb andb]; [eexists; split; [reflexivity|exact G]|]. destruct size; cbn [negb]; [|eexists; split; [reflexivity|exact G]].
    assert (Iq : In (q, KBn) W) by (apply S'; cbn; tauto). assert (Ir : In (r, KBn) W) by (apply S'; cbn; tauto).
    go. go.
    match goal with G : good (?a :: ?b :: W) ?h |- _ =>
      destruct (use_ok _ _ q KBn (proj1 G) (or_intror (or_intror Iq))) as (c1 & E1 & _); rewrite E1; cbn [bind]; clear E1;
      destruct (use_ok _ _ r KBn (proj1 G) (or_intror (or_intror Ir))) as (c2 & E2 & _); rewrite E2; cbn [bind]; clear E2 end.
    repeat go. eexists. split; [reflexivity|assumption].
  - destruct t as [| | |n]; try discriminate. destruct o as [| | |k' arr js]; try contradiction. cbn in M. subst n. cbn in C.
    destruct (1 <=? order) eqn:O1; [|discriminate]. injection C as <-. apply Z.leb_le in O1.
    destruct (order =? 1) eqn:E1.
    + apply Z.eqb_eq in E1. subst order. rewrite (proj2 (Z.ltb_ge (Z.of_nat (length js) + 1) 1)) by lia. eexists. split; [reflexivity|exact G].
    + apply Z.eqb_neq in E1. destruct (Z.leb_spec order (Z.of_nat (length js) + 1)) as [L|L].
      * rewrite (proj2 (Z.ltb_ge (Z.of_nat (length js) + 1) order)) by lia.
        assert (Ia : In (arr, KArr) W) by (apply S'; cbn; tauto). destruct (use_ok _ _ arr KArr (proj1 G) Ia) as (c1 & E & _). rewrite E. cbn [bind]. clear E.
        rewrite (proj2 (Z.ltb_ge order 2)) by lia. destruct (nth_error js (Z.to_nat (order - 2))) as [j|] eqn:NE; [|apply nth_error_None in NE; lia].
        apply nth_error_In in NE. assert (Ij : In (j, KRsa) W) by (apply S'; cbn; right; right; apply (in_map rs); exact NE).
        destruct (use_ok _ _ j KRsa (proj1 G) Ij) as (c2 & E & _). rewrite E. eexists. split; [reflexivity|exact G].
      * rewrite (proj2 (Z.ltb_lt (Z.of_nat (length js) + 1) order)) by lia. eexists. split; [reflexivity|exact G].
Qed.
