(** Threads on keys. *)
From Verif Require Import Base BaseFacts ThreadModel ThreadSpec.
From Coq Require Import Lia List.

Lemma nth_update_eq {A} (l : list A) i x : (i < length l)%nat -> nth_error (update l i x) i = Some x.
Proof. intros H. unfold update. rewrite nth_error_app2; rewrite firstn_length; [|lia]. replace (i - Nat.min i (length l))%nat with 0%nat by lia. reflexivity. Qed.
Lemma nth_update_ne {A} (l : list A) i j x : (i < length l)%nat -> i <> j -> nth_error (update l i x) j = nth_error l j.
Proof.
  intros H N. unfold update. destruct (Nat.lt_ge_cases j i) as [L|L].
  - rewrite nth_error_app1 by (rewrite firstn_length; lia). rewrite <- (firstn_skipn i l) at 2. rewrite nth_error_app1 by (rewrite firstn_length; lia). reflexivity.
  - rewrite nth_error_app2 by (rewrite firstn_length; lia). rewrite firstn_length. replace (j - Nat.min i (length l))%nat with (S (j - S i)) by lia. cbn [nth_error].
    rewrite <- (firstn_skipn (S i) l) at 2. rewrite nth_error_app2 by (rewrite firstn_length; lia). rewrite firstn_length. f_equal. lia.
Qed.
Lemma update_length {A} (l : list A) i x : (i < length l)%nat -> length (update l i x) = length l.
Proof. intros H. unfold update. rewrite app_length, firstn_length. cbn [length]. rewrite skipn_length. lia. Qed.
Lemma nth_lt {A} (l : list A) i x : nth_error l i = Some x -> (i < length l)%nat.
Proof. intros H. apply nth_error_Some. congruence. Qed.

Section Safe.
  Variable ml : bool.
  Definition good (o : object) : Prop := flag o = negb (readable o) /\ (ml = false -> flag o = false).
  Definition plain (is : list instr) : Prop := Forall (fun i => i = Data \/ i = Read) is.
  Definition last_part (is : list instr) : Prop := is = [] \/ is = [Lock].
  Inductive busy (o : object) : list instr -> Prop :=
  | b_start body tl : good o -> plain body -> last_part tl -> busy o (Unlock :: body ++ tl)
  | b_up body tl : ml = true -> plain body -> last_part tl -> busy o (UProtect :: USet :: body ++ tl)
  | b_us body tl : ml = true -> readable o = true -> plain body -> last_part tl -> busy o (USet :: body ++ tl)
  | b_body body tl : flag o = false -> readable o = true -> plain body -> last_part tl -> busy o (body ++ tl)
  | b_lp : ml = true -> busy o [LProtect; LSet]
  | b_ls : ml = true -> readable o = false -> busy o [LSet]
  | b_end : good o -> busy o [].
  Lemma busy_nil o : busy o [] -> good o.
  Proof using.
    intros H. inversion H as [| | |body tl F Rd _ _ E| | |G]; subst; [|exact G]. split; [rewrite F, Rd; reflexivity|intros _; exact F].
  Qed.
  Lemma busy_step t o i rest : busy o (i :: rest) -> exists o' is, access ml t o i = Ok (Some (o', is)) /\ busy o' (is ++ rest) /\ holder o' = holder o.
  Proof using.
    intros H. remember (i :: rest) as q eqn:Eq. destruct H as [body tl [G1 G2] P T|body tl M P T|body tl M Rd P T|body tl F Rd P T|M|M Rd|G]; try discriminate Eq.
    - injection Eq as <- <-. cbn [access]. eexists _, _. split; [reflexivity|]. split; [|reflexivity]. destruct ml eqn:M; cbn [andb].
      + destruct (flag o) eqn:F; cbn [app]; [apply b_up; auto|]. apply b_body; auto. rewrite <- (Bool.negb_involutive (readable o)), <- G1. reflexivity.
      + cbn [app]. apply b_body; auto. rewrite <- (Bool.negb_involutive (readable o)), <- G1, G2 by reflexivity. reflexivity.
    - injection Eq as <- <-. cbn [access]. eexists _, _. split; [reflexivity|]. split; [|reflexivity]. cbn [app]. apply b_us; auto.
    - injection Eq as <- <-. cbn [access]. eexists _, _. split; [reflexivity|]. split; [|reflexivity]. cbn [app]. apply b_body; auto.
    - destruct body as [|j body]; cbn [app] in Eq.
      + destruct T as [-> | ->]; [discriminate Eq|]. injection Eq as <- <-. cbn [access]. rewrite F. eexists _, _. split; [reflexivity|]. split; [|reflexivity]. destruct ml eqn:M; cbn [andb negb app].
        * apply b_lp. exact M.
        * apply b_end. split; [rewrite F, Rd; reflexivity|intros _; exact F].
      + injection Eq as <- <-. inversion P as [|? ? [-> | ->] P']; subst; cbn [access].
        * rewrite F, Bool.andb_false_r. eexists _, _. split; [reflexivity|]. split; [|reflexivity]. cbn [app]. apply b_body; auto.
        * rewrite Rd. eexists _, _. split; [reflexivity|]. split; [|reflexivity]. cbn [app]. apply b_body; auto.
    - injection Eq as <- <-. cbn [access]. eexists _, _. split; [reflexivity|]. split; [|reflexivity]. cbn [app]. apply b_ls; auto.
    - injection Eq as <- <-. cbn [access]. eexists _, _. split; [reflexivity|]. split; [|reflexivity]. cbn [app]. apply b_end. split; [cbn [flag readable]; rewrite Rd; reflexivity|congruence].
  Qed.
  Lemma busy_no_mutex o i rest : busy o (i :: rest) -> i <> Acquire /\ i <> Release.
  Proof using.
    intros H. remember (i :: rest) as q eqn:Eq. destruct H as [body tl G P T|body tl M P T|body tl M Rd P T|body tl F Rd P T|M|M Rd|G]; try discriminate Eq;
      try (injection Eq as <- <-; split; discriminate).
    destruct body as [|j body]; cbn [app] in Eq.
    - destruct T as [-> | ->]; [discriminate Eq|]. injection Eq as <- <-. split; discriminate.
    - injection Eq as <- <-. inversion P as [|? ? [-> | ->] P']; subst; split; discriminate.
  Qed.
  Lemma plain_reads n : plain (repeat Read n).
  Proof using. apply Forall_forall. intros x H. apply repeat_spec in H. auto. Qed.
  Lemma const_busy o c : good o -> const_call c -> busy o c.
  Proof using.
    intros G [n|n|n m|n].
    - apply (b_start o (repeat Read n) [Lock] G); [apply plain_reads|right; reflexivity].
    - apply (b_start o (Data :: repeat Read n) [Lock] G); [apply Forall_cons; [auto|apply plain_reads]|right; reflexivity].
    - unfold hmac_call. replace (Data :: repeat Read n ++ Data :: repeat Read m ++ [Lock]) with ((Data :: repeat Read n ++ Data :: repeat Read m) ++ [Lock]) by (cbn [app]; rewrite <- app_assoc; reflexivity).
      apply (b_start o _ [Lock] G); [|right; reflexivity]. apply Forall_cons; [auto|]. apply Forall_app. split; [apply plain_reads|]. apply Forall_cons; [auto|apply plain_reads].
    - unfold prp_encrypt_call. rewrite <- (app_nil_r (repeat Read n)). apply (b_start o _ [] G); [apply plain_reads|left; reflexivity].
  Qed.
  Lemma good_locked : good (locked_object ml).
  Proof using. unfold locked_object, good. cbn [flag readable]. rewrite Bool.negb_involutive. auto. Qed.

  (** With the mutexes *)
  Definition gflat (cs : list (nat * list instr)) : program := concat (map guarded cs).
  Definition outside (k : nat) (os : list object) (t : nat) (p : program) : Prop :=
    exists cs, calls k cs /\ p = gflat cs /\ forall n o, nth_error os n = Some o -> holder o <> Some t.
  Definition inside (k : nat) (os : list object) (t : nat) (p : program) (n : nat) : Prop :=
    exists rest cs o, calls k cs /\ p = map (pair n) rest ++ (n, Release) :: gflat cs /\ nth_error os n = Some o /\ holder o = Some t /\ busy o rest /\
      forall n' o', n' <> n -> nth_error os n' = Some o' -> holder o' <> Some t.
  Record inv (k : nat) (os : list object) (ps : list program) : Prop := {
    i_len : length os = k;
    i_thr : forall t p, nth_error ps t = Some p -> outside k os t p \/ exists n, inside k os t p n;
    i_free : forall n o, nth_error os n = Some o -> holder o = None -> good o;
    i_hold : forall n o t, nth_error os n = Some o -> holder o = Some t -> (t < length ps)%nat }.
  (** Changing an object that thread [t] holds, or that is free, does not change the others. *)
  Lemma others k os t u p n o o' : t <> u -> nth_error os n = Some o -> holder o <> Some u -> holder o' <> Some u ->
    (outside k os u p \/ exists m, inside k os u p m) -> outside k (update os n o') u p \/ exists m, inside k (update os n o') u p m.
  Proof using.
    intros N E H H' [(cs & C & -> & F)|(m & rest & cs & x & C & -> & Ex & Hx & B & F)].
    - left. exists cs. split; [exact C|]. split; [reflexivity|]. intros j y Ey. destruct (Nat.eq_dec n j) as [->|Nj].
      + rewrite nth_update_eq in Ey by (eapply nth_lt; exact E). injection Ey as <-. exact H'.
      + rewrite nth_update_ne in Ey by (try assumption; eapply nth_lt; exact E). exact (F j y Ey).
    - right. exists m, rest, cs, x. split; [exact C|]. split; [reflexivity|]. assert (n <> m) as Nm by (intros ->; congruence).
      split; [rewrite nth_update_ne; [exact Ex|eapply nth_lt; exact E|exact Nm]|]. split; [exact Hx|]. split; [exact B|].
      intros j y Nj Ey. destruct (Nat.eq_dec n j) as [->|Nj'].
      + rewrite nth_update_eq in Ey by (eapply nth_lt; exact E). injection Ey as <-. exact H'.
      + rewrite nth_update_ne in Ey by (try assumption; eapply nth_lt; exact E). exact (F j y Nj Ey).
  Qed.
  Lemma step_inv k os ps t : inv k os ps -> exists os' ps', step ml (os, ps) t = Ok (os', ps') /\ inv k os' ps' /\ length ps' = length ps.
  Proof using.
    intros I. pose proof I as [IL IT IF IH]. unfold step. destruct (nth_error ps t) as [p|] eqn:Ep; [|exists os, ps; auto]. pose proof (nth_lt _ _ _ Ep) as Lt.
    destruct (IT t p Ep) as [(cs & C & E & F)|(n & rest & cs & o & C & E & Eo & Ho & B & F)].
    - destruct cs as [|[n c] cs]; [subst p; exists os, ps; auto|]. inversion C as [|? ? [Hn Hc] C']; subst. cbn [fst snd] in *. unfold gflat. cbn [map concat guarded fst snd app].
      destruct (nth_error os n) as [o|] eqn:Eo; [|exfalso; apply nth_error_None in Eo; lia]. cbn [access bind].
      destruct (holder o) as [u|] eqn:Ho; [exists os, ps; auto|]. pose proof (nth_lt _ _ _ Eo) as Ln. eexists _, _. split; [reflexivity|]. split; [|apply update_length, Lt]. cbn [map app].
      set (o' := {| flag := flag o; readable := readable o; holder := Some t |}). constructor.
      + rewrite update_length by exact Ln. reflexivity.
      + intros u q Eq. destruct (Nat.eq_dec t u) as [<-|N].
        * rewrite nth_update_eq in Eq by exact Lt. injection Eq as <-. right. exists n, c, cs, o'. split; [exact C'|]. split; [unfold on; cbn [fst snd]; rewrite <- app_assoc; reflexivity|].
          split; [apply nth_update_eq, Ln|]. split; [reflexivity|]. split; [apply const_busy; [|exact Hc]; exact (IF n o Eo Ho)|]. intros j y Nj Ey. rewrite nth_update_ne in Ey by auto. exact (F j y Ey).
        * rewrite nth_update_ne in Eq by assumption. apply (others (length os) os t u q n o o'); auto; [congruence|]. cbn. congruence.
      + intros j y Ey Hy. destruct (Nat.eq_dec n j) as [<-|N].
        * rewrite nth_update_eq in Ey by exact Ln. injection Ey as <-. discriminate Hy.
        * rewrite nth_update_ne in Ey by assumption. exact (IF j y Ey Hy).
      + rewrite update_length by exact Lt. intros j y u Ey Hy. destruct (Nat.eq_dec n j) as [<-|N].
        * rewrite nth_update_eq in Ey by exact Ln. injection Ey as <-. cbn in Hy. congruence.
        * rewrite nth_update_ne in Ey by assumption. exact (IH j y u Ey Hy).
    - pose proof (nth_lt _ _ _ Eo) as Ln. subst p. destruct rest as [|i rest].
      + cbn [map app]. rewrite Eo. cbn [access bind map app]. eexists _, _. split; [reflexivity|]. split; [|apply update_length, Lt]. apply busy_nil in B.
        set (o' := {| flag := flag o; readable := readable o; holder := None |}). constructor.
        * rewrite update_length by exact Ln. exact IL.
        * intros u q Eq. destruct (Nat.eq_dec t u) as [<-|N].
          -- rewrite nth_update_eq in Eq by exact Lt. injection Eq as <-. left. exists cs. split; [exact C|]. split; [reflexivity|]. intros j y Ey. destruct (Nat.eq_dec n j) as [<-|Nj].
             ++ rewrite nth_update_eq in Ey by exact Ln. injection Ey as <-. discriminate.
             ++ rewrite nth_update_ne in Ey by assumption. exact (F j y (fun e => Nj (eq_sym e)) Ey).
          -- rewrite nth_update_ne in Eq by assumption. apply (others k os t u q n o o'); auto; [congruence|]. cbn. congruence.
        * intros j y Ey Hy. destruct (Nat.eq_dec n j) as [<-|N].
          -- rewrite nth_update_eq in Ey by exact Ln. injection Ey as <-. exact B.
          -- rewrite nth_update_ne in Ey by assumption. exact (IF j y Ey Hy).
        * rewrite update_length by exact Lt. intros j y u Ey Hy. destruct (Nat.eq_dec n j) as [<-|N].
          -- rewrite nth_update_eq in Ey by exact Ln. injection Ey as <-. discriminate Hy.
          -- rewrite nth_update_ne in Ey by assumption. exact (IH j y u Ey Hy).
      + cbn [map app]. rewrite Eo. destruct (busy_step t o i rest B) as (o' & is & A & B' & H'). rewrite A. cbn [bind]. eexists _, _. split; [reflexivity|]. split; [|apply update_length, Lt]. constructor.
        * rewrite update_length by exact Ln. exact IL.
        * intros u q Eq. destruct (Nat.eq_dec t u) as [<-|N].
          -- rewrite nth_update_eq in Eq by exact Lt. injection Eq as <-. right. exists n, (is ++ rest), cs, o'. split; [exact C|]. split; [rewrite map_app, <- app_assoc; reflexivity|].
             split; [apply nth_update_eq, Ln|]. split; [congruence|]. split; [exact B'|]. intros j y Nj Ey. rewrite nth_update_ne in Ey by auto. exact (F j y Nj Ey).
          -- rewrite nth_update_ne in Eq by assumption. apply (others k os t u q n o o'); auto; congruence.
        * intros j y Ey Hy. destruct (Nat.eq_dec n j) as [<-|N].
          -- rewrite nth_update_eq in Ey by exact Ln. injection Ey as <-. congruence.
          -- rewrite nth_update_ne in Ey by assumption. exact (IF j y Ey Hy).
        * rewrite update_length by exact Lt. intros j y u Ey Hy. destruct (Nat.eq_dec n j) as [<-|N].
          -- rewrite nth_update_eq in Ey by exact Ln. injection Ey as <-. apply (IH n o u Eo). congruence.
          -- rewrite nth_update_ne in Ey by assumption. exact (IH j y u Ey Hy).
  Qed.
  Lemma inv_no_race k os ps : inv k os ps -> ~ race ps.
  Proof using.
    intros [_ IT _ _] (t & u & n & i & j & p & q & N & Et & Eu & Si & Sj).
    assert (forall v x r, nth_error ps v = Some ((n, x) :: r) -> stores x || tests x = true -> exists o, nth_error os n = Some o /\ holder o = Some v) as G.
    { intros v x r Ev Sx. destruct (IT v _ Ev) as [(cs & C & E & F)|(m & rest & cs & o & C & E & Eo & Ho & B & F)].
      - destruct cs as [|[m c] cs]; [discriminate E|]. unfold gflat in E. cbn [map concat guarded fst app] in E. injection E as _ -> _. discriminate Sx.
      - destruct rest as [|y rest]; cbn [map app] in E; injection E as -> -> _; [discriminate Sx|]. exists o. auto. }
    destruct (G t i p Et ltac:(rewrite Si; reflexivity)) as (o & Eo & Ho). destruct (G u j q Eu Sj) as (o' & Eo' & Ho'). congruence.
  Qed.
  Lemma inv_finished k os ps : inv k os ps -> finished ps -> Forall good os.
  Proof using.
    intros [_ IT IF IH] Fi. apply Forall_forall. intros o Ho. apply In_nth_error in Ho as (n & En). destruct (holder o) as [t|] eqn:Eh; [|exact (IF n o En Eh)].
    exfalso. pose proof (IH n o t En Eh) as Lt. destruct (nth_error ps t) as [p|] eqn:Ep; [|apply nth_error_None in Ep; lia].
    unfold finished in Fi. rewrite Forall_forall in Fi. pose proof (Fi p (nth_error_In _ _ Ep)) as ->.
    destruct (IT t [] Ep) as [(cs & C & E & F)|(m & rest & cs & y & C & E & _)]; [exact (F n o En Eh)|]. destruct rest; discriminate E.
  Qed.
  Lemma run_inv k ts : forall os ps, inv k os ps -> exists os' ps', run ml (os, ps) ts = Ok (os', ps') /\ inv k os' ps'.
  Proof using.
    induction ts as [|t ts IH]; intros os ps I; [exists os, ps; auto|]. cbn [run]. destruct (step_inv k os ps t I) as (os1 & ps1 & E & I1 & _). rewrite E. cbn [bind]. apply IH, I1.
  Qed.
  Lemma start_inv k css : Forall (calls k) css -> inv k (repeat (locked_object ml) k) (map gflat css).
  Proof using.
    intros H. constructor.
    - apply repeat_length.
    - intros t p E. left. apply nth_error_In, in_map_iff in E as (cs & <- & Hc). rewrite Forall_forall in H. exists cs. split; [apply H, Hc|]. split; [reflexivity|].
      intros n o En. apply nth_error_In, repeat_spec in En. subst o. discriminate.
    - intros n o En _. apply nth_error_In, repeat_spec in En. subst o. apply good_locked.
    - intros n o t En Hh. apply nth_error_In, repeat_spec in En. subst o. discriminate.
  Qed.
End Safe.

Theorem mutex_safe ml k css ts : Forall (calls k) css -> exists os ps,
  run ml (repeat (locked_object ml) k, map (fun cs => concat (map guarded cs)) css) ts = Ok (os, ps) /\ ~ race ps /\ (finished ps -> Forall consistent os).
Proof.
  intros H. destruct (run_inv ml k ts _ _ (start_inv ml k css H)) as (os & ps & E & I). exists os, ps. split; [exact E|]. split; [exact (inv_no_race ml k os ps I)|].
  intros F. apply (inv_finished ml k os ps I) in F. eapply Forall_impl; [|exact F]. intros o [G _]. exact G.
Qed.

(** Some continuation of every schedule finishes: nobody waits for ever. *)
Definition weight (i : instr) : nat := match i with Unlock | Lock => 3 | _ => 1 end.
Definition pweight (p : program) : nat := list_sum (map (fun x => weight (snd x)) p).
Definition total (ps : list program) : nat := list_sum (map pweight ps).
Lemma list_sum_app2 a b : list_sum (a ++ b) = (list_sum a + list_sum b)%nat.
Proof. induction a as [|x a IH]; [reflexivity|]. cbn [app list_sum fold_right] in *. unfold list_sum in *. cbn [fold_right app]. rewrite IH. lia. Qed.
Lemma list_sum_cons x l : list_sum (x :: l) = (x + list_sum l)%nat.
Proof. reflexivity. Qed.
Lemma total_update ps t p q : nth_error ps t = Some p -> (pweight q < pweight p)%nat -> (total (update ps t q) < total ps)%nat.
Proof.
  intros E L. unfold total, update. rewrite map_app, list_sum_app2. cbn [map]. rewrite list_sum_cons.
  apply nth_error_split in E as (l1 & l2 & -> & Hl). subst t. rewrite firstn_app, firstn_all, Nat.sub_diag. cbn [firstn]. rewrite app_nil_r.
  replace (skipn (S (length l1)) (l1 ++ p :: l2)) with l2.
  - rewrite map_app, list_sum_app2. cbn [map]. rewrite list_sum_cons. lia.
  - replace (S (length l1)) with (length (l1 ++ [p])) by (rewrite app_length; cbn; lia). replace (l1 ++ p :: l2) with ((l1 ++ [p]) ++ l2) by (rewrite <- app_assoc; reflexivity).
    rewrite skipn_app, skipn_all, Nat.sub_diag. reflexivity.
Qed.
Lemma access_weight ml t o i o' is : access ml t o i = Ok (Some (o', is)) -> (list_sum (map weight is) < weight i)%nat.
Proof.
  destruct i; cbn [access]; intros H; try (injection H as <- <-; cbn; lia).
  - injection H as <- <-. destruct (ml && flag o); cbn; lia.
  - destruct (ml && flag o); [discriminate H|]. injection H as <- <-. cbn. lia.
  - destruct (readable o); [|discriminate H]. injection H as <- <-. cbn. lia.
  - injection H as <- <-. destruct (ml && negb (flag o)); cbn; lia.
  - destruct (holder o); [discriminate H|]. injection H as <- <-. cbn. lia.
Qed.
Lemma step_weight ml os (ps : list program) t n i p o o' is os' ps' : nth_error ps t = Some ((n, i) :: p) -> nth_error os n = Some o -> access ml t o i = Ok (Some (o', is)) ->
  step ml (os, ps) t = Ok (os', ps') -> (total ps' < total ps)%nat.
Proof.
  intros Et Eo A H. unfold step in H. cbv beta iota zeta in H. rewrite Et, Eo, A in H. cbn [bind] in H. injection H as _ <-. apply (total_update ps t _ _ Et). unfold pweight.
  rewrite map_app, list_sum_app2. cbn [map snd]. rewrite list_sum_cons, map_map. cbn [snd]. change (map (fun x => weight x) is) with (map weight is). pose proof (access_weight ml t o i o' is A) as W. lia.
Qed.
Lemma unfinished ps : finished ps \/ exists t x p, nth_error ps t = Some (x :: p).
Proof.
  induction ps as [|p ps IH]; [left; apply Forall_nil|]. destruct p as [|x p]; [|right; exists 0%nat, x, p; reflexivity].
  destruct IH as [F|(t & x & p & E)]; [left; apply Forall_cons; [reflexivity|exact F]|right; exists (S t), x, p; exact E].
Qed.
Lemma held_or_free os : (forall n o, nth_error os n = Some o -> holder o = None) \/ exists n o t, nth_error os n = Some o /\ holder o = Some t.
Proof.
  induction os as [|a os IH]; [left; intros [|n] o H; discriminate H|]. destruct (holder a) as [t|] eqn:Ea; [right; exists 0%nat, a, t; auto|].
  destruct IH as [F|(n & o & t & E & H)]; [left; intros [|n] o H; [injection H as <-; exact Ea|exact (F n o H)]|right; exists (S n), o, t; auto].
Qed.
Lemma progress ml k os ps : inv ml k os ps -> ~ finished ps -> exists t os' ps', step ml (os, ps) t = Ok (os', ps') /\ inv ml k os' ps' /\ (total ps' < total ps)%nat.
Proof.
  intros I NF. assert (exists t n i p o o' is, nth_error ps t = Some ((n, i) :: p) /\ nth_error os n = Some o /\ access ml t o i = Ok (Some (o', is))) as (t & n & i & p & o & o' & is & Et & Eo & A).
  { destruct I as [IL IT IF IH]. destruct (held_or_free os) as [F|(n & o & t & En & Hh)].
    - destruct (unfinished ps) as [Fi|(t & x & p & Et)]; [contradiction|]. destruct (IT t _ Et) as [(cs & C & E & _)|(n & rest & cs & o & C & E & Eo & Ho & _)]; [|rewrite (F n o Eo) in Ho; discriminate Ho].
      destruct cs as [|[n c] cs]; [discriminate E|]. inversion C as [|? ? [Hn Hc] C']; subst. cbn [fst] in Hn. destruct (nth_error os n) as [o|] eqn:Eo; [|apply nth_error_None in Eo; lia].
      unfold gflat in E. cbn [map concat guarded fst app] in E. injection E as -> ->. exists t, n, Acquire. eexists _, o, _, _. split; [exact Et|]. split; [exact Eo|]. cbn [access]. rewrite (F n o Eo). reflexivity.
    - pose proof (IH n o t En Hh) as Lt. destruct (nth_error ps t) as [p|] eqn:Et; [|apply nth_error_None in Et; lia]. destruct (IT t p Et) as [(cs & C & E & F)|(m & rest & cs & y & C & E & Ey & Hy & B & F)].
      + destruct (F n o En Hh).
      + assert (n = m) as <- by (destruct (Nat.eq_dec n m) as [e|e]; [exact e|destruct (F n o e En Hh)]). rewrite En in Ey. injection Ey as <-. subst p. destruct rest as [|i rest].
        * exists t, n, Release. eexists _, o, _, _. split; [exact Et|]. split; [exact En|]. reflexivity.
        * destruct (busy_step ml t o i rest B) as (o' & is & A & _). exists t, n, i. eexists _, o, o', is. split; [exact Et|]. split; [exact En|exact A]. }
  destruct (step_inv ml k os ps t I) as (os' & ps' & E & I' & _). exists t, os', ps'. split; [exact E|]. split; [exact I'|]. exact (step_weight ml os ps t n i p o o' is os' ps' Et Eo A E).
Qed.
Lemma can_finish ml k w : forall os ps, inv ml k os ps -> (total ps < w)%nat -> exists ts os' ps', run ml (os, ps) ts = Ok (os', ps') /\ finished ps' /\ inv ml k os' ps'.
Proof.
  induction w as [|w IH]; intros os ps I L; [lia|]. destruct (unfinished ps) as [F|(t & x & p & Et)]; [exists [], os, ps; auto|].
  destruct (progress ml k os ps I) as (t1 & os1 & ps1 & E & I1 & W).
  { intros F. unfold finished in F. rewrite Forall_forall in F. discriminate (F _ (nth_error_In _ _ Et)). }
  destruct (IH os1 ps1 I1 ltac:(lia)) as (ts & os2 & ps2 & E2 & F2 & I2). exists (t1 :: ts), os2, ps2. cbn [run]. rewrite E. auto.
Qed.
Lemma run_app ml ts us : forall s, run ml s (ts ++ us) = (s' <- run ml s ts ;; run ml s' us).
Proof. induction ts as [|t ts IH]; intros s; [reflexivity|]. cbn [run app]. destruct (step ml s t); cbn [bind]; [apply IH|reflexivity..]. Qed.
Theorem mutex_finishes ml k css ts : Forall (calls k) css -> exists us os ps,
  run ml (repeat (locked_object ml) k, map (fun cs => concat (map guarded cs)) css) (ts ++ us) = Ok (os, ps) /\ finished ps /\ Forall consistent os.
Proof.
  intros H. destruct (run_inv ml k ts _ _ (start_inv ml k css H)) as (os & ps & E & I). destruct (can_finish ml k _ os ps I (Nat.lt_succ_diag_r _)) as (us & os' & ps' & E' & F' & I').
  exists us, os', ps'. split; [rewrite run_app; match goal with |- bind ?x _ = _ => replace x with (Ok (os, ps)) by (symmetry; exact E) end; exact E'|]. split; [exact F'|].
  apply (inv_finished ml k os' ps' I') in F'. eapply Forall_impl; [|exact F']. intros o [G _]. exact G.
Qed.

(** Without mutexes, when every object is used by one thread only *)
Section Own.
  Variable ml : bool.
  Variable owner : nat -> nat.
  Definition flat (cs : list (nat * list instr)) : program := concat (map on cs).
  Definition own (t : nat) (cs : list (nat * list instr)) : Prop := Forall (fun c => owner (fst c) = t) cs.
  Definition between (k : nat) (os : list object) (t : nat) (p : program) : Prop :=
    exists cs, calls k cs /\ own t cs /\ p = flat cs /\ forall n o, owner n = t -> nth_error os n = Some o -> good ml o.
  Definition within (k : nat) (os : list object) (t : nat) (p : program) : Prop :=
    exists n rest cs o, calls k cs /\ own t cs /\ owner n = t /\ p = map (pair n) rest ++ flat cs /\ nth_error os n = Some o /\ busy ml o rest /\
      forall n' o', n' <> n -> owner n' = t -> nth_error os n' = Some o' -> good ml o'.
  Record inv2 (k : nat) (os : list object) (ps : list program) : Prop := {
    j_len : length os = k;
    j_thr : forall t p, nth_error ps t = Some p -> between k os t p \/ within k os t p;
    j_rest : forall n o, nth_error os n = Some o -> (length ps <= owner n)%nat -> good ml o }.
  Lemma view k os t x p : length os = k -> between k os t (x :: p) \/ within k os t (x :: p) ->
    exists n i rest cs o, x = (n, i) /\ calls k cs /\ own t cs /\ owner n = t /\ p = map (pair n) rest ++ flat cs /\ nth_error os n = Some o /\ busy ml o (i :: rest) /\
      forall n' o', n' <> n -> owner n' = t -> nth_error os n' = Some o' -> good ml o'.
  Proof using.
    intros IL H. assert (forall cs, calls k cs -> own t cs -> x :: p = flat cs -> (forall n o, owner n = t -> nth_error os n = Some o -> good ml o) ->
      exists n i rest cs o, x = (n, i) /\ calls k cs /\ own t cs /\ owner n = t /\ p = map (pair n) rest ++ flat cs /\ nth_error os n = Some o /\ busy ml o (i :: rest) /\
      forall n' o', n' <> n -> owner n' = t -> nth_error os n' = Some o' -> good ml o') as B.
    { intros cs C O E F. destruct cs as [|[n c] cs]; [discriminate E|]. inversion C as [|? ? [Hn Hc] C']; subst. inversion O as [|? ? On O']; subst. cbn [fst snd] in *.
      destruct (nth_error os n) as [o|] eqn:Eo; [|apply nth_error_None in Eo; lia]. pose proof (const_busy ml o c (F n o eq_refl Eo) Hc) as B. destruct c as [|i c]; [inversion Hc|].
      unfold flat in E. cbn [map concat on fst snd app] in E. injection E as -> ->. exists n, i, c, cs, o. repeat (split; [first [reflexivity | assumption]|]). intros n' o' _ On' En'. exact (F n' o' On' En'). }
    destruct H as [(cs & C & O & E & F)|(n & rest & cs & o & C & O & On & E & Eo & Bu & F)]; [exact (B cs C O E F)|]. destruct rest as [|i rest].
    - cbn [map app] in E. apply (B cs C O E). intros m y Om Ey. destruct (Nat.eq_dec m n) as [->|N]; [|exact (F m y N Om Ey)]. rewrite Eo in Ey. injection Ey as <-. apply busy_nil, Bu.
    - cbn [map app] in E. injection E as -> ->. exists n, i, rest, cs, o. repeat (split; [first [reflexivity | assumption]|]). exact F.
  Qed.
  Lemma step_inv2 k os ps t : inv2 k os ps -> exists os' ps', step ml (os, ps) t = Ok (os', ps') /\ inv2 k os' ps'.
  Proof using.
    intros I. pose proof I as [IL IT IR]. unfold step. destruct (nth_error ps t) as [p|] eqn:Ep; [|exists os, ps; auto]. pose proof (nth_lt _ _ _ Ep) as Lt.
    destruct p as [|x p]; [exists os, ps; auto|]. destruct (view k os t x p IL (IT t _ Ep)) as (n & i & rest & cs & o & -> & C & O & On & -> & Eo & B & F).
    pose proof (nth_lt _ _ _ Eo) as Ln. rewrite Eo. destruct (busy_step ml t o i rest B) as (o' & is & A & B' & _). rewrite A. cbn [bind]. eexists _, _. split; [reflexivity|]. constructor.
    - rewrite update_length by exact Ln. exact IL.
    - intros u q Eq. destruct (Nat.eq_dec t u) as [<-|N].
      + rewrite nth_update_eq in Eq by exact Lt. injection Eq as <-. right. exists n, (is ++ rest), cs, o'. split; [exact C|]. split; [exact O|]. split; [exact On|]. split; [rewrite map_app, <- app_assoc; reflexivity|].
        split; [apply nth_update_eq, Ln|]. split; [exact B'|]. intros j y Nj Oj Ey. rewrite nth_update_ne in Ey by auto. exact (F j y Nj Oj Ey).
      + rewrite nth_update_ne in Eq by assumption. destruct (IT u q Eq) as [(cs' & C' & O' & -> & F')|(m & rest' & cs' & y & C' & O' & Om & -> & Ey & By & F')].
        * left. exists cs'. split; [exact C'|]. split; [exact O'|]. split; [reflexivity|]. intros j y Oj Ey. rewrite nth_update_ne in Ey by (try exact Ln; congruence). exact (F' j y Oj Ey).
        * right. exists m, rest', cs', y. repeat (split; [first [reflexivity | assumption]|]). split; [rewrite nth_update_ne; [exact Ey|exact Ln|congruence]|]. split; [exact By|].
          intros j z Nj Oj Ez. rewrite nth_update_ne in Ez by (try exact Ln; congruence). exact (F' j z Nj Oj Ez).
    - rewrite update_length by exact Lt. intros j y Ey L. rewrite nth_update_ne in Ey by (try exact Ln; intros ->; lia). exact (IR j y Ey L).
  Qed.
  Lemma run_inv2 k ts : forall os ps, inv2 k os ps -> exists os' ps', run ml (os, ps) ts = Ok (os', ps') /\ inv2 k os' ps'.
  Proof using.
    induction ts as [|t ts IH]; intros os ps I; [exists os, ps; auto|]. cbn [run]. destruct (step_inv2 k os ps t I) as (os1 & ps1 & E & I1). rewrite E. cbn [bind]. apply IH, I1.
  Qed.
  Lemma inv2_no_race k os ps : inv2 k os ps -> ~ race ps.
  Proof using.
    intros [IL IT _] (t & u & n & i & j & p & q & N & Et & Eu & _ & _). destruct (view k os t _ _ IL (IT t _ Et)) as (n1 & i1 & r1 & c1 & o1 & E1 & _ & _ & O1 & _).
    destruct (view k os u _ _ IL (IT u _ Eu)) as (n2 & i2 & r2 & c2 & o2 & E2 & _ & _ & O2 & _). congruence.
  Qed.
  Lemma inv2_finished k os ps : inv2 k os ps -> finished ps -> Forall consistent os.
  Proof using.
    intros [IL IT IR] Fi. apply Forall_forall. intros o Ho. apply In_nth_error in Ho as (n & En). enough (good ml o) as [G _] by exact G.
    destruct (nth_error ps (owner n)) as [p|] eqn:Ep; [|apply nth_error_None in Ep; exact (IR n o En Ep)].
    unfold finished in Fi. rewrite Forall_forall in Fi. pose proof (Fi p (nth_error_In _ _ Ep)) as ->.
    destruct (IT _ [] Ep) as [(cs & C & O & E & F)|(m & rest & cs & y & C & O & Om & E & Ey & By & F)]; [exact (F n o eq_refl En)|].
    destruct (Nat.eq_dec n m) as [->|N]; [|exact (F n o N eq_refl En)]. rewrite En in Ey. injection Ey as <-. destruct rest; [apply busy_nil, By|discriminate E].
  Qed.
End Own.
Theorem own_safe ml owner k css ts : Forall (calls k) css -> (forall t cs, nth_error css t = Some cs -> Forall (fun c => owner (fst c) = t) cs) -> exists os ps,
  run ml (repeat (locked_object ml) k, map (fun cs => concat (map on cs)) css) ts = Ok (os, ps) /\ ~ race ps /\ (finished ps -> Forall consistent os).
Proof.
  intros H O. assert (inv2 ml owner k (repeat (locked_object ml) k) (map flat css)) as I.
  { assert (forall n o, nth_error (repeat (locked_object ml) k) n = Some o -> good ml o) as G by (intros n o En; apply nth_error_In, repeat_spec in En; subst o; apply good_locked). constructor.
    - apply repeat_length.
    - intros t p E. left. rewrite nth_error_map in E. destruct (nth_error css t) as [cs|] eqn:Ec; [|discriminate E]. injection E as <-. rewrite Forall_forall in H. exists cs.
      split; [apply H, (nth_error_In _ _ Ec)|]. split; [exact (O t cs Ec)|]. split; [reflexivity|]. intros n o _ En. exact (G n o En).
    - intros n o En _. exact (G n o En). }
  destruct (run_inv2 ml owner k ts _ _ I) as (os & ps & E & I'). exists os, ps. split; [exact E|]. split; [exact (inv2_no_race ml owner k os ps I')|exact (inv2_finished ml owner k os ps I')].
Qed.

(** Without memory locking *)
Definition simple (k : nat) (p : program) : Prop := Forall (fun x => (fst x < k)%nat /\ (snd x = Unlock \/ snd x = Data \/ snd x = Read \/ snd x = Lock)) p.
Lemma simple_reads k n m : (n < k)%nat -> simple k (map (pair n) (repeat Read m)).
Proof. intros H. apply Forall_forall. intros x Hx. apply in_map_iff in Hx as (y & <- & Hy). apply repeat_spec in Hy. subst y. cbn. auto. Qed.
Lemma simple_call k c : (fst c < k)%nat -> const_call (snd c) -> simple k (on c).
Proof.
  destruct c as [n c]. cbn [fst snd]. intros H [m|m|m m'|m]; unfold on, prg_call, cipher_call, hmac_call, prp_encrypt_call; cbn [fst snd map]; rewrite ?map_app; cbn [map]; rewrite ?map_app; cbn [map];
    unfold simple; repeat first [apply simple_reads; exact H | apply Forall_nil | apply Forall_cons; [cbn; auto|] | apply Forall_app; split].
Qed.
Record inv3 (k : nat) (os : list object) (ps : list program) : Prop := {
  k_len : length os = k;
  k_thr : Forall (simple k) ps;
  k_obj : Forall (fun o => flag o = false /\ readable o = true) os }.
Lemma Forall_update {A} (P : A -> Prop) l i x : Forall P l -> P x -> Forall P (update l i x).
Proof.
  intros H Hx. unfold update. apply Forall_app. split; [|apply Forall_cons; [exact Hx|]]; apply Forall_forall; intros y Hy; rewrite Forall_forall in H; apply H.
  - rewrite <- (firstn_skipn i l). apply in_or_app. left. exact Hy.
  - rewrite <- (firstn_skipn (S i) l). apply in_or_app. right. exact Hy.
Qed.
Lemma step_inv3 k os ps t : inv3 k os ps -> exists os' ps', step false (os, ps) t = Ok (os', ps') /\ inv3 k os' ps'.
Proof.
  intros I. pose proof I as [IL IT IO]. unfold step. destruct (nth_error ps t) as [p|] eqn:Ep; [|exists os, ps; auto]. destruct p as [|[n i] p]; [exists os, ps; auto|].
  rewrite Forall_forall in IT. pose proof (IT _ (nth_error_In _ _ Ep)) as S1. inversion S1 as [|? ? [Hn Hi] S2]; subst. cbn [fst snd] in *.
  destruct (nth_error os n) as [o|] eqn:Eo; [|apply nth_error_None in Eo; lia]. pose proof IO as IO'. rewrite Forall_forall in IO'. destruct (IO' _ (nth_error_In _ _ Eo)) as [F Rd].
  assert (access false t o i = Ok (Some (o, []))) as A by (destruct Hi as [-> | [-> | [-> | ->]]]; cbn [access andb]; rewrite ?Rd; reflexivity). rewrite A. cbn [bind map app].
  eexists _, _. split; [reflexivity|]. constructor.
  - apply update_length, (nth_lt _ _ _ Eo).
  - apply Forall_update; [apply Forall_forall; exact IT|exact S2].
  - apply Forall_update; auto.
Qed.
Theorem no_lock_safe k css ts : Forall (calls k) css -> exists os ps,
  run false (repeat (locked_object false) k, map (fun cs => concat (map on cs)) css) ts = Ok (os, ps) /\ ~ race ps /\ Forall (fun o => readable o = true) os.
Proof.
  intros H. assert (inv3 k (repeat (locked_object false) k) (map (fun cs => concat (map on cs)) css)) as I.
  { constructor.
    - apply repeat_length.
    - apply Forall_forall. intros p Hp. apply in_map_iff in Hp as (cs & <- & Hc). rewrite Forall_forall in H. specialize (H cs Hc). clear Hc. induction H as [|c cs [H1 H2] _ IH]; [apply Forall_nil|].
      cbn [map concat]. apply Forall_app. split; [apply simple_call; assumption|]. exact IH.
    - apply Forall_forall. intros o Ho. apply repeat_spec in Ho. subst o. auto. }
  assert (forall ts os ps, inv3 k os ps -> exists os' ps', run false (os, ps) ts = Ok (os', ps') /\ inv3 k os' ps') as R.
  { clear. induction ts as [|t ts IH]; intros os ps I; [exists os, ps; auto|]. cbn [run]. destruct (step_inv3 k os ps t I) as (os1 & ps1 & E & I1). rewrite E. cbn [bind]. apply IH, I1. }
  destruct (R ts _ _ I) as (os & ps & E & [_ IT IO]). exists os, ps. split; [exact E|]. split.
  - intros (t & u & n & i & j & p & q & _ & Et & _ & Si & _). rewrite Forall_forall in IT. pose proof (IT _ (nth_error_In _ _ Et)) as S1. inversion S1 as [|? ? [_ Hi] _]; subst. cbn [snd] in Hi.
    destruct Hi as [-> | [-> | [-> | ->]]]; discriminate Si.
  - eapply Forall_impl; [|exact IO]. intros o [_ G]. exact G.
Qed.
