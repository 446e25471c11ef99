(** Proofs about the block operations and the two passes of aez.c. *)
From Verif Require Import Base BaseFacts AezModel.
From Coq Require Import Lia.

(** 16-byte blocks *)
Definition blk (x : bytes) : Prop := length x = 16%nat /\ is_bytes x.

Lemma blk_len x : blk x -> length x = 16%nat. Proof. intros [H _]; exact H. Qed.
Lemma blk_zlen x : blk x -> zlen x = 16. Proof. intros [H _]; unfold zlen; rewrite H; reflexivity. Qed.
Lemma blk_xor x y : blk x -> blk y -> blk (vxor x y).
Proof.
  intros [Hx Bx] [Hy By]. split; [unfold vxor; rewrite xorb_list_length; lia|].
  apply xorb_list_bytes; assumption.
Qed.
Lemma blk_zero : blk zero. Proof. split; [reflexivity|apply is_bytes_zeros]. Qed.
Lemma blk_rev x : blk x -> blk (bswap16 x).
Proof. intros [H B]. split; [unfold bswap16; rewrite rev_length; exact H|apply is_bytes_rev, B]. Qed.
Lemma blk_double x : blk (double_block x).
Proof.
  unfold double_block. split.
  - rewrite !app_length, !le_encode_length. reflexivity.
  - rewrite !is_bytes_app. repeat split; apply le_encode_bytes.
Qed.
Lemma vxor_cancel_r a b : blk a -> blk b -> vxor (vxor a b) b = a.
Proof. intros [H _] [H' _]. apply xorb_list_cancel. lia. Qed.
Lemma vxor_cancel_l a b : blk a -> blk b -> vxor a (vxor a b) = b.
Proof. intros [H _] [H' _]. unfold vxor. rewrite (xorb_list_comm a b), xorb_list_comm. apply xorb_list_cancel. lia. Qed.
Lemma vxor_comm a b : vxor a b = vxor b a. Proof. apply xorb_list_comm. Qed.
Lemma vxor_assoc a b c : vxor (vxor a b) c = vxor a (vxor b c). Proof. apply xorb_list_assoc. Qed.
Lemma vxor_zero_r a : blk a -> vxor a zero = a.
Proof. intros [H _]. apply xorb_list_zeros_r. lia. Qed.
Lemma vxor_zero_l a : blk a -> vxor zero a = a.
Proof. intros [H _]. apply xorb_list_zeros_l. lia. Qed.

Record ctx_ok (c : ctx) : Prop := {
  okI0 : blk (cI0 c); okI1 : blk (cI1 c); okI2 : blk (cI2 c);
  okJ0 : blk (cJ0 c); okJ1 : blk (cJ1 c); okJ2 : blk (cJ2 c); okL : blk (cL c) }.

Section Aez.
  Variable R : bytes -> bytes.
  Hypothesis R_blk : forall x, blk x -> blk (R x).

  (** aes4 with the last round key taken out *)
  Definition G (x a b c : bytes) : bytes := R (aesenc R (aesenc R (aesenc R x a) b) c).
  Lemma aes4_G x a b c d : aes4 R x a b c d = vxor (G x a b c) d.
  Proof. reflexivity. Qed.
  Lemma blk_aesenc x k : blk x -> blk k -> blk (aesenc R x k).
  Proof using R_blk. intros; apply blk_xor; [apply R_blk|]; assumption. Qed.
  Lemma blk_G x a b c : blk x -> blk a -> blk b -> blk c -> blk (G x a b c).
  Proof using R_blk. intros; apply R_blk. repeat apply blk_aesenc; assumption. Qed.
  Lemma blk_aes4 x a b c d : blk x -> blk a -> blk b -> blk c -> blk d -> blk (aes4 R x a b c d).
  Proof using R_blk. intros; repeat apply blk_aesenc; assumption. Qed.
  Lemma blk_aes c x k : ctx_ok c -> blk x -> blk k -> blk (aes R c x k).
  Proof using R_blk. intros [] Hx Hk. unfold aes. cbv zeta. repeat apply blk_aesenc; try assumption. apply blk_xor; assumption. Qed.

  Variable c : ctx.
  Hypothesis Hc : ctx_ok c.

  Definition A (x : bytes) : bytes := G x (cJ0 c) (cI0 c) (cL c).
  Definition F (x : bytes) : bytes := aes4 R x (cL c) (cI0 c) (cJ0 c) (cL c).
  Lemma blk_A x : blk x -> blk (A x).
  Proof using R_blk Hc. intros; destruct Hc; apply blk_G; assumption. Qed.
  Lemma blk_F x : blk x -> blk (F x).
  Proof using R_blk Hc. intros; destruct Hc; apply blk_aes4; assumption. Qed.

  (** pairs of blocks *)
  Definition pblk (p : bytes * bytes) : Prop := blk (fst p) /\ blk (snd p).
  Definition flat (ps : list (bytes * bytes)) : bytes := flat_map (fun p => fst p ++ snd p) ps.
  Lemma flat_zlen ps : Forall pblk ps -> zlen (flat ps) = 32 * zlen ps.
  Proof.
    induction 1 as [|p ps [H1 H2] _ IH]; [reflexivity|]. simpl. rewrite !zlen_app, zlen_cons, (blk_zlen _ H1), (blk_zlen _ H2), IH. lia.
  Qed.
  Lemma flat_app a b : flat (a ++ b) = flat a ++ flat b.
  Proof. apply flat_map_app. Qed.
  Lemma flat_bytes ps : Forall pblk ps -> is_bytes (flat ps).
  Proof.
    induction 1 as [|p ps [[_ H1] [_ H2]] _ IH]; [constructor|]. simpl. rewrite !is_bytes_app. auto.
  Qed.
  Lemma flat_split l (n : nat) : is_bytes l -> zlen l = 32 * Z.of_nat n -> exists ps, l = flat ps /\ Forall pblk ps /\ length ps = n.
  Proof.
    revert l; induction n as [|n IH]; intros l Hb Hl.
    - exists []. destruct l; [repeat split; constructor|]. rewrite zlen_cons in Hl. pose proof (zlen_nonneg l). lia.
    - destruct (zsplit l 16) as (a & l1 & El & Ha & Hl1); [lia|].
      destruct (zsplit l1 16) as (b & l2 & El1 & Hb' & Hl2); [lia|].
      subst l1 l. rewrite !is_bytes_app in Hb. destruct Hb as (B1 & B2 & B3).
      destruct (IH l2 B3) as (ps & -> & Hps & Hn); [lia|].
      exists ((a, b) :: ps). split; [simpl; rewrite app_assoc; reflexivity|]. split; [|simpl; lia].
      constructor; [|assumption]. unfold zlen in *. split; (split; [simpl; lia|assumption]).
  Qed.

  (** values computed by pass_one and pass_two on a list of pairs *)
  Definition one1 (o : bytes) (p : bytes * bytes) : bytes * bytes :=
    let w := vxor (A (vxor (snd p) o)) (fst p) in (w, vxor (A w) (snd p)).
  Definition one2 (s o : bytes) (p : bytes * bytes) : bytes * bytes :=
    let f := F (vxor s o) in
    let d0 := vxor (snd p) f in
    let d1 := vxor (A d0) (vxor (fst p) f) in
    (vxor (A (vxor d1 o)) d0, d1).
  Fixpoint map2 {X Y W} (f : X -> Y -> W) (a : list X) (b : list Y) : list W :=
    match a, b with x :: a', y :: b' => f x y :: map2 f a' b' | _, _ => [] end.
  Definition sumx (l : list bytes) (s : bytes) : bytes := fold_left vxor l s.
  Definition tmps (s : bytes) (os : list bytes) (ps : list (bytes * bytes)) : list bytes :=
    map2 (fun o p => vxor (fst p) (F (vxor s o))) os ps.

  Lemma map2_length {X Y W} (f : X -> Y -> W) a b : length a = length b -> length (map2 f a b) = length a.
  Proof. revert b; induction a as [|x a IH]; intros [|y b] H; simpl in *; try discriminate; [reflexivity|]. rewrite IH by lia. reflexivity. Qed.
  Lemma map2_app {X Y W} (f : X -> Y -> W) a a' b b' : length a = length b -> map2 f (a ++ a') (b ++ b') = map2 f a b ++ map2 f a' b'.
  Proof. revert b; induction a as [|x a IH]; intros [|y b] H; simpl in *; try discriminate; [reflexivity|]. rewrite IH by lia. reflexivity. Qed.
  Lemma pblk_one1 o p : blk o -> pblk p -> pblk (one1 o p).
  Proof using R_blk Hc.
    intros Ho [H1 H2]. unfold one1; cbv zeta.
    assert (blk (vxor (A (vxor (snd p) o)) (fst p))) by (apply blk_xor; [apply blk_A, blk_xor; assumption|assumption]).
    split; [assumption|]. apply blk_xor; [apply blk_A|]; assumption.
  Qed.
  Lemma pblk_one2 s o p : blk s -> blk o -> pblk p -> pblk (one2 s o p).
  Proof using R_blk Hc.
    intros Hs Ho [H1 H2]. unfold one2; cbv zeta.
    assert (blk (F (vxor s o))) as HF by (apply blk_F, blk_xor; assumption).
    assert (blk (vxor (snd p) (F (vxor s o)))) as Hd by (apply blk_xor; assumption).
    assert (blk (vxor (A (vxor (snd p) (F (vxor s o)))) (vxor (fst p) (F (vxor s o))))) as Hd1.
    { apply blk_xor; [apply blk_A, Hd|apply blk_xor; assumption]. }
    split; [|assumption]. apply blk_xor; [apply blk_A, blk_xor; assumption|assumption].
  Qed.
  Lemma Forall_map2 {X Y W} (P : X -> Prop) (Q : Y -> Prop) (S : W -> Prop) f a b :
    (forall x y, P x -> Q y -> S (f x y)) -> Forall P a -> Forall Q b -> Forall S (map2 f a b).
  Proof.
    intros Hf Ha; revert b; induction Ha as [|x a Hx Ha IH]; intros b Hb; simpl; [constructor|].
    destruct Hb; constructor; auto.
  Qed.
  Lemma pblk_p1 os ps : Forall blk os -> Forall pblk ps -> Forall pblk (map2 one1 os ps).
  Proof using R_blk Hc. apply Forall_map2. intros; apply pblk_one1; assumption. Qed.
  Lemma pblk_p2 s os ps : blk s -> Forall blk os -> Forall pblk ps -> Forall pblk (map2 (one2 s) os ps).
  Proof using R_blk Hc. intros Hs. apply Forall_map2. intros; apply pblk_one2; assumption. Qed.
  Lemma blk_tmps s os ps : blk s -> Forall blk os -> Forall pblk ps -> Forall blk (tmps s os ps).
  Proof using R_blk Hc. intros Hs. apply Forall_map2. intros x y Hx [Hy _]. apply blk_xor; [assumption|apply blk_F, blk_xor; assumption]. Qed.
  Lemma blk_sumx l s : Forall blk l -> blk s -> blk (sumx l s).
  Proof. unfold sumx. intros H; revert s; induction H; intros s Hs; simpl; [assumption|]. apply IHForall, blk_xor; assumption. Qed.

  (** memory lemmas for a pair in the middle of a buffer *)
  Lemma load_fst pre a b rest pos : zlen pre = pos -> blk a -> load (pre ++ (a ++ b) ++ rest) pos = Ok a.
  Proof. intros <- Ha. unfold load. rewrite <- app_assoc. apply rd_mid; [reflexivity|rewrite (blk_zlen _ Ha); reflexivity]. Qed.
  Lemma load_snd pre a b rest pos : zlen pre = pos -> blk a -> blk b -> load (pre ++ (a ++ b) ++ rest) (pos + 16) = Ok b.
  Proof.
    intros <- Ha Hb. unfold load. replace (pre ++ (a ++ b) ++ rest) with ((pre ++ a) ++ b ++ rest) by (rewrite <- !app_assoc; reflexivity).
    apply rd_mid; [rewrite zlen_app, (blk_zlen _ Ha)|rewrite (blk_zlen _ Hb)]; reflexivity.
  Qed.
  Lemma wr_fst pre a b rest pos x : zlen pre = pos -> blk a -> blk x -> wr (pre ++ (a ++ b) ++ rest) pos x = Ok (pre ++ (x ++ b) ++ rest).
  Proof. intros <- Ha Hx. rewrite <- !app_assoc. apply wr_mid; [reflexivity|rewrite (blk_zlen _ Ha), (blk_zlen _ Hx); reflexivity]. Qed.
  Lemma wr_snd pre a b rest pos x : zlen pre = pos -> blk a -> blk b -> blk x ->
    wr (pre ++ (a ++ b) ++ rest) (pos + 16) x = Ok (pre ++ (a ++ x) ++ rest).
  Proof.
    intros <- Ha Hb Hx. replace (pre ++ (a ++ b) ++ rest) with ((pre ++ a) ++ b ++ rest) by (rewrite <- !app_assoc; reflexivity).
    rewrite (wr_mid _ _ _ x); [|rewrite zlen_app, (blk_zlen _ Ha); reflexivity|rewrite (blk_zlen _ Hb), (blk_zlen _ Hx); reflexivity].
    rewrite <- !app_assoc. reflexivity.
  Qed.
  Lemma zlen_pair pre a b pos : zlen pre = pos -> blk a -> blk b -> zlen (pre ++ (a ++ b)) = pos + 32.
  Proof. intros <- Ha Hb. rewrite !zlen_app, (blk_zlen _ Ha), (blk_zlen _ Hb). lia. Qed.

  (** pass_one *)
  Definition half1 (o : bytes) (p q : bytes * bytes) : bytes * bytes := (fst (one1 o p), snd q).
  Fixpoint evens (os : list bytes) (ps qs : list (bytes * bytes)) : list (bytes * bytes) :=
    match os, ps, qs with o :: os', p :: ps', q :: qs' => half1 o p q :: evens os' ps' qs' | _, _, _ => [] end.
  Lemma p1_even_ok os ps qs pre post dpre dpost pos :
    Forall blk os -> Forall pblk ps -> Forall pblk qs -> length os = length ps -> length os = length qs ->
    zlen pre = pos -> zlen dpre = pos ->
    p1_even R c os (pre ++ flat ps ++ post) pos (dpre ++ flat qs ++ dpost) = Ok (dpre ++ flat (evens os ps qs) ++ dpost).
  Proof using R_blk Hc.
    intros Ho; revert ps qs pre dpre pos; induction Ho as [|o os Ho Hos IH]; intros [|p ps] [|q qs] pre dpre pos Hp Hq L1 L2 Z1 Z2;
      simpl in L1, L2; try discriminate; [reflexivity|].
    inversion Hp as [|? ? Hp1 Hps]; subst. inversion Hq as [|? ? Hq1 Hqs]; subst.
    destruct (pblk_one1 o p Ho Hp1) as [W1 _]. destruct Hp1 as [P1 P2], Hq1 as [Q1 Q2].
    cbn [p1_even flat flat_map]. change (flat_map (fun p => fst p ++ snd p)) with flat. rewrite <- !(app_assoc (fst _ ++ snd _)).
    rewrite load_snd by (reflexivity || assumption). cbn [bind]. rewrite load_fst by (reflexivity || assumption). cbn [bind].
    rewrite aes4_G. change (vxor (G (vxor (snd p) o) (cJ0 c) (cI0 c) (cL c)) (fst p)) with (fst (one1 o p)).
    rewrite wr_fst by (reflexivity || assumption). cbn [bind].
    rewrite (app_assoc pre (fst p ++ snd p)), (app_assoc dpre (fst (one1 o p) ++ snd q)).
    rewrite IH; try assumption; try lia; [|apply zlen_pair; assumption || reflexivity|apply zlen_pair; assumption || reflexivity].
    cbn [evens flat flat_map half1 fst snd]. change (flat_map (fun p => fst p ++ snd p)) with flat.
    rewrite <- !(app_assoc dpre), <- !(app_assoc (_ ++ _)). reflexivity.
  Qed.
  Lemma p1_odd_ok os ps qs pre post dpre dpost pos sum :
    Forall blk os -> Forall pblk ps -> Forall pblk qs -> length os = length ps -> length os = length qs ->
    zlen pre = pos -> zlen dpre = pos ->
    p1_odd R c os (pre ++ flat ps ++ post) pos (dpre ++ flat (evens os ps qs) ++ dpost) sum
    = Ok (dpre ++ flat (map2 one1 os ps) ++ dpost, sumx (map snd (map2 one1 os ps)) sum).
  Proof using R_blk Hc.
    intros Ho; revert ps qs pre dpre pos sum; induction Ho as [|o os Ho Hos IH]; intros [|p ps] [|q qs] pre dpre pos sum Hp Hq L1 L2 Z1 Z2;
      simpl in L1, L2; try discriminate; [reflexivity|].
    inversion Hp as [|? ? Hp1 Hps]; subst. inversion Hq as [|? ? Hq1 Hqs]; subst.
    destruct (pblk_one1 o p Ho Hp1) as [W1 W2]. destruct Hp1 as [P1 P2], Hq1 as [Q1 Q2].
    cbn [p1_odd flat flat_map evens half1 fst snd]. change (flat_map (fun p => fst p ++ snd p)) with flat.
    rewrite <- !(app_assoc (_ ++ snd _)).
    rewrite load_fst by (reflexivity || assumption). cbn [bind]. rewrite load_snd by (reflexivity || assumption). cbn [bind].
    rewrite aes4_G. change (vxor (G (fst (one1 o p)) (cJ0 c) (cI0 c) (cL c)) (snd p)) with (snd (one1 o p)).
    rewrite wr_snd by (reflexivity || assumption). cbn [bind].
    rewrite (app_assoc pre (fst p ++ snd p)), (app_assoc dpre (fst (one1 o p) ++ snd (one1 o p))).
    rewrite IH; try assumption; try lia; [|apply zlen_pair; assumption || reflexivity|apply zlen_pair; assumption || reflexivity].
    cbn [map2 flat flat_map map]. change (flat_map (fun p => fst p ++ snd p)) with flat.
    rewrite <- !(app_assoc dpre), <- !(app_assoc (_ ++ _)). reflexivity.
  Qed.
  Lemma p1_group_ok os ps qs pre post dpre dpost pos sum :
    Forall blk os -> Forall pblk ps -> Forall pblk qs -> length os = length ps -> length os = length qs ->
    zlen pre = pos -> zlen dpre = pos ->
    p1_group R c os (pre ++ flat ps ++ post) pos (dpre ++ flat qs ++ dpost) sum
    = Ok (dpre ++ flat (map2 one1 os ps) ++ dpost, sumx (map snd (map2 one1 os ps)) sum).
  Proof using R_blk Hc.
    intros. unfold p1_group. rewrite p1_even_ok by assumption. cbn [bind]. apply p1_odd_ok; assumption.
  Qed.

  (** pass_two *)
  Definition mix (s o : bytes) (q : bytes * bytes) : bytes * bytes := (vxor (snd q) (F (vxor s o)), snd q).
  Lemma pblk_mix s o q : blk s -> blk o -> pblk q -> pblk (mix s o q).
  Proof using R_blk Hc. intros Hs Ho [H1 H2]. split; [|assumption]. apply blk_xor; [assumption|apply blk_F, blk_xor; assumption]. Qed.
  Lemma p2_mix_ok s os qs dpre dpost pos sum :
    blk s -> Forall blk os -> Forall pblk qs -> length os = length qs -> zlen dpre = pos ->
    p2_mix R c s os pos (dpre ++ flat qs ++ dpost) sum
    = Ok (dpre ++ flat (map2 (mix s) os qs) ++ dpost, tmps s os qs, sumx (tmps s os qs) sum).
  Proof using R_blk Hc.
    intros Hs Ho; revert qs dpre pos sum; induction Ho as [|o os Ho Hos IH]; intros [|q qs] dpre pos sum Hq L2 Z2;
      simpl in L2; try discriminate; [reflexivity|].
    inversion Hq as [|? ? Hq1 Hqs]; subst. destruct (pblk_mix s o q Hs Ho Hq1) as [M1 _]. destruct Hq1 as [Q1 Q2]. simpl in M1.
    cbn [p2_mix flat flat_map tmps map2 mix fst snd]. cbv zeta. change (flat_map (fun p => fst p ++ snd p)) with flat.
    rewrite <- !(app_assoc (_ ++ snd _)).
    rewrite load_fst by (reflexivity || assumption). cbn [bind]. rewrite load_snd by (reflexivity || assumption). cbn [bind].
    change (aes4 R (vxor s o) (cL c) (cI0 c) (cJ0 c) (cL c)) with (F (vxor s o)).
    rewrite wr_fst by (reflexivity || assumption). cbn [bind].
    rewrite (app_assoc dpre (vxor (snd q) (F (vxor s o)) ++ snd q)).
    rewrite IH; try assumption; try lia; [|apply zlen_pair; assumption || reflexivity]. cbn [bind].
    rewrite <- !(app_assoc dpre). reflexivity.
  Qed.
  Definition odd2 (s o : bytes) (q : bytes * bytes) : bytes * bytes := (vxor (snd q) (F (vxor s o)), snd (one2 s o q)).
  Lemma p2_odd_ok s os qs dpre dpost pos :
    blk s -> Forall blk os -> Forall pblk qs -> length os = length qs -> zlen dpre = pos ->
    p2_odd R c (tmps s os qs) pos (dpre ++ flat (map2 (mix s) os qs) ++ dpost) = Ok (dpre ++ flat (map2 (odd2 s) os qs) ++ dpost).
  Proof using R_blk Hc.
    intros Hs Ho; revert qs dpre pos; induction Ho as [|o os Ho Hos IH]; intros [|q qs] dpre pos Hq L2 Z2;
      simpl in L2; try discriminate; [reflexivity|].
    inversion Hq as [|? ? Hq1 Hqs]; subst. destruct (pblk_mix s o q Hs Ho Hq1) as [M1 _].
    destruct (pblk_one2 s o q Hs Ho Hq1) as [N1 N2]. destruct Hq1 as [Q1 Q2]. simpl in M1.
    cbn [p2_odd flat flat_map tmps map2 mix odd2 fst snd]. change (flat_map (fun p => fst p ++ snd p)) with flat.
    rewrite <- !(app_assoc (_ ++ snd _)).
    rewrite load_fst by (reflexivity || assumption). cbn [bind].
    rewrite aes4_G.
    change (vxor (G (vxor (snd q) (F (vxor s o))) (cJ0 c) (cI0 c) (cL c)) (vxor (fst q) (F (vxor s o)))) with (snd (one2 s o q)).
    rewrite wr_snd by (reflexivity || assumption). cbn [bind].
    rewrite (app_assoc dpre). fold (tmps s os qs).
    rewrite IH; try assumption; try lia; [|apply zlen_pair; assumption || reflexivity].
    rewrite <- !(app_assoc dpre). reflexivity.
  Qed.
  Lemma p2_even_ok s os qs dpre dpost pos :
    blk s -> Forall blk os -> Forall pblk qs -> length os = length qs -> zlen dpre = pos ->
    p2_even R c os pos (dpre ++ flat (map2 (odd2 s) os qs) ++ dpost) = Ok (dpre ++ flat (map2 (one2 s) os qs) ++ dpost).
  Proof using R_blk Hc.
    intros Hs Ho; revert qs dpre pos; induction Ho as [|o os Ho Hos IH]; intros [|q qs] dpre pos Hq L2 Z2;
      simpl in L2; try discriminate; [reflexivity|].
    inversion Hq as [|? ? Hq1 Hqs]; subst. destruct (pblk_mix s o q Hs Ho Hq1) as [M1 _].
    destruct (pblk_one2 s o q Hs Ho Hq1) as [N1 N2]. destruct Hq1 as [Q1 Q2]. simpl in M1.
    cbn [p2_even flat flat_map map2 odd2 fst snd]. change (flat_map (fun p => fst p ++ snd p)) with flat.
    rewrite <- !(app_assoc (_ ++ snd _)).
    rewrite load_snd by (reflexivity || assumption). cbn [bind]. rewrite load_fst by (reflexivity || assumption). cbn [bind].
    rewrite aes4_G.
    change (vxor (G (vxor (snd (one2 s o q)) o) (cJ0 c) (cI0 c) (cL c)) (vxor (snd q) (F (vxor s o)))) with (fst (one2 s o q)).
    rewrite wr_fst by (reflexivity || assumption). cbn [bind].
    rewrite (app_assoc dpre).
    rewrite IH; try assumption; try lia; [|apply zlen_pair; assumption || reflexivity].
    rewrite <- !(app_assoc dpre). reflexivity.
  Qed.
  Lemma p2_group_ok s os qs dpre dpost pos sum :
    blk s -> Forall blk os -> Forall pblk qs -> length os = length qs -> zlen dpre = pos ->
    p2_group R c s os pos (dpre ++ flat qs ++ dpost) sum
    = Ok (dpre ++ flat (map2 (one2 s) os qs) ++ dpost, sumx (tmps s os qs) sum).
  Proof using R_blk Hc.
    intros. unfold p2_group. rewrite p2_mix_ok by assumption. cbn [bind].
    rewrite p2_odd_ok by assumption. cbn [bind]. rewrite p2_even_ok by assumption. reflexivity.
  Qed.

  (** the schedule of offsets *)
  Fixpoint run (g : list bytes -> Z -> bytes * bytes -> outcome (bytes * bytes)) (gs : list (list bytes)) (pos : Z) (st : bytes * bytes)
      : outcome (bytes * bytes) :=
    match gs with [] => Ok st | os :: gs' => st <- g os pos st ;; run g gs' (pos + 32 * zlen os) st end.
  Definition groups_tail (m : nat) (o : bytes) : list (list bytes) :=
    let '(g4, m, o) := if Nat.leb 4 m then ([offs4 c o], m - 4, vxor o (cI2 c))%nat else ([], m, o) in
    let '(g2, m, o) := if Nat.leb 2 m then ([offs2 c o], m - 2, vxor o (cI1 c))%nat else ([], m, o) in
    g4 ++ g2 ++ (if Nat.eqb m 0 then [] else [[o]]).
  Fixpoint groups (k m : nat) (dbl : bytes) : list (list bytes) :=
    match k with O => groups_tail m (bswap16 dbl) | S k' => offs8 c (bswap16 dbl) :: groups k' m (double_block dbl) end.

  Lemma iter_succ_r {X} k (f : X -> X) x : Nat.iter (S k) f x = Nat.iter k f (f x).
  Proof. induction k as [|k IH]; [reflexivity|]. cbn [Nat.iter nat_rect] in *. rewrite IH. reflexivity. Qed.
  Lemma p1_loop_run fuel k m src pos dbl dst sum : (k < fuel)%nat -> (m < 8)%nat ->
    p1_loop R fuel c src pos (256 * Z.of_nat k + 32 * Z.of_nat m) dbl dst sum =
    ('(dst, sum) <- run (fun os pos st => p1_group R c os src pos (fst st) (snd st)) (firstn k (groups k m dbl)) pos (dst, sum) ;;
     Ok (pos + 256 * Z.of_nat k, 32 * Z.of_nat m, bswap16 (Nat.iter k double_block dbl), dst, sum)).
  Proof.
    revert fuel pos dbl dst sum; induction k as [|k IH]; intros [|fuel] pos dbl dst sum Hf Hm; try lia; cbn [p1_loop].
    - replace (256 <=? 256 * Z.of_nat 0 + 32 * Z.of_nat m) with false by lia. cbn [firstn run bind].
      f_equal. f_equal. f_equal. f_equal. f_equal; lia.
    - replace (256 <=? 256 * Z.of_nat (S k) + 32 * Z.of_nat m) with true by lia.
      cbn [groups firstn run fst snd].
      destruct (p1_group R c (offs8 c (bswap16 dbl)) src pos dst sum) as [[d' s']| | | |]; try reflexivity.
      cbn [bind]. replace (256 * Z.of_nat (S k) + 32 * Z.of_nat m - 256) with (256 * Z.of_nat k + 32 * Z.of_nat m) by lia.
      rewrite IH by lia. replace (zlen (offs8 c (bswap16 dbl))) with 8 by reflexivity. change (32 * 8) with 256.
      rewrite <- iter_succ_r. destruct (run _ _ _ _) as [[d2 s2]| | | |]; try reflexivity. cbn [bind].
      f_equal. f_equal. f_equal. f_equal. f_equal. lia.
  Qed.
  Lemma p2_loop_run fuel k m s pos dbl dst sum : (k < fuel)%nat -> (m < 8)%nat ->
    p2_loop R fuel c s pos (256 * Z.of_nat k + 32 * Z.of_nat m) dbl dst sum =
    ('(dst, sum) <- run (fun os pos st => p2_group R c s os pos (fst st) (snd st)) (firstn k (groups k m dbl)) pos (dst, sum) ;;
     Ok (pos + 256 * Z.of_nat k, 32 * Z.of_nat m, bswap16 (Nat.iter k double_block dbl), dst, sum)).
  Proof.
    revert fuel pos dbl dst sum; induction k as [|k IH]; intros [|fuel] pos dbl dst sum Hf Hm; try lia; cbn [p2_loop].
    - replace (256 <=? 256 * Z.of_nat 0 + 32 * Z.of_nat m) with false by lia. cbn [firstn run bind].
      f_equal. f_equal. f_equal. f_equal. f_equal; lia.
    - replace (256 <=? 256 * Z.of_nat (S k) + 32 * Z.of_nat m) with true by lia.
      cbn [groups firstn run fst snd].
      destruct (p2_group R c s (offs8 c (bswap16 dbl)) pos dst sum) as [[d' s']| | | |]; try reflexivity.
      cbn [bind]. replace (256 * Z.of_nat (S k) + 32 * Z.of_nat m - 256) with (256 * Z.of_nat k + 32 * Z.of_nat m) by lia.
      rewrite IH by lia. replace (zlen (offs8 c (bswap16 dbl))) with 8 by reflexivity. change (32 * 8) with 256.
      rewrite <- iter_succ_r. destruct (run _ _ _ _) as [[d2 s2]| | | |]; try reflexivity. cbn [bind].
      f_equal. f_equal. f_equal. f_equal. f_equal. lia.
  Qed.
  Lemma run_app g a b pos st : run g (a ++ b) pos st = (st <- run g a pos st ;; run g b (pos + 32 * zlen (concat a)) st).
  Proof.
    revert pos st; induction a as [|os a IH]; intros pos st.
    - cbn [app run concat bind]. f_equal. unfold zlen; simpl. lia.
    - cbn [app run concat]. destruct (g os pos st); try reflexivity. cbn [bind]. rewrite IH, zlen_app.
      destruct (run g a _ _); try reflexivity. cbn [bind]. f_equal. lia.
  Qed.
  Lemma groups_split k m dbl : groups k m dbl = firstn k (groups k m dbl) ++ groups_tail m (bswap16 (Nat.iter k double_block dbl))
    /\ zlen (concat (firstn k (groups k m dbl))) = 8 * Z.of_nat k.
  Proof.
    revert dbl; induction k as [|k IH]; intros dbl; [split; reflexivity|].
    rewrite iter_succ_r. cbn [groups firstn]. destruct (IH (double_block dbl)) as [E1 E2]. split.
    - cbn [app]. rewrite <- E1. reflexivity.
    - cbn [concat]. rewrite zlen_app, E2. replace (zlen (offs8 c (bswap16 dbl))) with 8 by reflexivity. lia.
  Qed.
  Definition sched (n : nat) : list (list bytes) := groups (n / 8) (n mod 8) (double_block (bswap16 (cI2 c))).
  Definition offsets (n : nat) : list bytes := concat (sched n).

  Lemma split8 (n : nat) : exists k m, (n = 8 * k + m)%nat /\ (m < 8)%nat /\ (n / 8 = k)%nat /\ (n mod 8 = m)%nat.
  Proof.
    exists (n / 8)%nat, (n mod 8)%nat. split; [apply Nat.div_mod_eq|]. split; [apply Nat.mod_upper_bound; discriminate|]. auto.
  Qed.
  Ltac cst a b op := match isZcst a with true => match isZcst b with true => let v := eval vm_compute in (op a b) in change (op a b) with v end end.
  Lemma tail_run (g : list bytes -> Z -> bytes -> bytes -> outcome (bytes * bytes)) (m : nat) pos o dst sum : (m < 8)%nat ->
    ('(pos, bytes_, offset, dst, sum) <-
      (if 128 <=? 32 * Z.of_nat m then
         '(dst, sum) <- g (offs4 c o) pos dst sum ;;
         Ok (pos + 128, 32 * Z.of_nat m - 128, vxor o (cI2 c), dst, sum)
       else Ok (pos, 32 * Z.of_nat m, o, dst, sum)) ;;
    '(pos, bytes_, offset, dst, sum) <-
      (if 64 <=? bytes_ then
         '(dst, sum) <- g (offs2 c offset) pos dst sum ;;
         Ok (pos + 64, bytes_ - 64, vxor offset (cI1 c), dst, sum)
       else Ok (pos, bytes_, offset, dst, sum)) ;;
    if negb (bytes_ =? 0) then g [offset] pos dst sum else Ok (dst, sum))
    = run (fun os pos st => g os pos (fst st) (snd st)) (groups_tail m o) pos (dst, sum).
  Proof.
    intros Hm.
    destruct m as [|[|[|[|[|[|[|[|m]]]]]]]]; [..|lia];
    match goal with |- context [32 * Z.of_nat ?n] => let v := eval vm_compute in (32 * Z.of_nat n) in change (32 * Z.of_nat n) with v end;
    unfold groups_tail; cbn [Nat.leb Nat.sub Nat.eqb app run];
    repeat match goal with |- context [32 * zlen (offs4 ?a ?b)] => change (32 * zlen (offs4 a b)) with 128
      | |- context [32 * zlen (offs2 ?a ?b)] => change (32 * zlen (offs2 a b)) with 64 end;
    repeat first
      [ progress cbn [bind fst snd negb]
      | match goal with
        | |- context [?a - ?b] => cst a b Z.sub
        | |- context [?a <=? ?b] => cst a b Z.leb
        | |- context [?a =? ?b] => cst a b Z.eqb
        end
      | match goal with |- context [g ?os ?pos ?d ?s] => destruct (g os pos d s) as [[? ?]| | | |]; try reflexivity end ];
    try reflexivity.
  Qed.
  Lemma pass_one_run (n : nat) src dst :
    pass_one R c src (32 * Z.of_nat n) dst = run (fun os pos st => p1_group R c os src pos (fst st) (snd st)) (sched n) 0 (dst, zero).
  Proof.
    destruct (split8 n) as (k & m & Hn & Hm & Ek & Em). unfold pass_one, sched. rewrite Ek, Em.
    replace (32 * Z.of_nat n) with (256 * Z.of_nat k + 32 * Z.of_nat m) by lia.
    replace (Z.to_nat ((256 * Z.of_nat k + 32 * Z.of_nat m) / 256)) with k by lia.
    set (dbl := double_block (bswap16 (cI2 c))). cbv zeta.
    rewrite p1_loop_run by lia.
    destruct (groups_split k m dbl) as [E1 E2]. rewrite E1 at 2. rewrite run_app, E2.
    destruct (run _ (firstn k (groups k m dbl)) 0 (dst, zero)) as [[d1 s1]| | | |]; try reflexivity.
    cbn [bind]. replace (0 + 256 * Z.of_nat k) with (32 * (8 * Z.of_nat k)) by lia.
    replace (0 + 32 * (8 * Z.of_nat k)) with (32 * (8 * Z.of_nat k)) by lia.
    apply (tail_run (fun os pos d s => p1_group R c os src pos d s)). exact Hm.
  Qed.
  Lemma pass_two_run (n : nat) s dst :
    pass_two R c s (32 * Z.of_nat n) dst = run (fun os pos st => p2_group R c s os pos (fst st) (snd st)) (sched n) 0 (dst, zero).
  Proof.
    destruct (split8 n) as (k & m & Hn & Hm & Ek & Em). unfold pass_two, sched. rewrite Ek, Em.
    replace (32 * Z.of_nat n) with (256 * Z.of_nat k + 32 * Z.of_nat m) by lia.
    replace (Z.to_nat ((256 * Z.of_nat k + 32 * Z.of_nat m) / 256)) with k by lia.
    set (dbl := double_block (bswap16 (cI2 c))). cbv zeta.
    rewrite p2_loop_run by lia.
    destruct (groups_split k m dbl) as [E1 E2]. rewrite E1 at 2. rewrite run_app, E2.
    destruct (run _ (firstn k (groups k m dbl)) 0 (dst, zero)) as [[d1 s1]| | | |]; try reflexivity.
    cbn [bind]. replace (0 + 256 * Z.of_nat k) with (32 * (8 * Z.of_nat k)) by lia.
    replace (0 + 32 * (8 * Z.of_nat k)) with (32 * (8 * Z.of_nat k)) by lia.
    apply (tail_run (fun os pos d s0 => p2_group R c s os pos d s0)). exact Hm.
  Qed.
  Lemma offsets_ok n : Forall blk (offsets n) /\ length (offsets n) = n.
  Proof using R_blk Hc.
    unfold offsets, sched. destruct (split8 n) as (k & m & Hn & Hm & -> & ->).
    assert (blk (double_block (bswap16 (cI2 c)))) as Hd by apply blk_double.
    revert Hd. generalize (double_block (bswap16 (cI2 c))) as dbl. subst n.
    induction k as [|k IH]; intros dbl Hd.
    - cbn [groups]. assert (blk (bswap16 dbl)) as Ho by (apply blk_rev, Hd). revert Ho. generalize (bswap16 dbl) as o. intros o Ho.
      destruct Hc. destruct m as [|[|[|[|[|[|[|[|m]]]]]]]]; [..|lia]; unfold groups_tail, offs4, offs2; cbn -[vxor]; (split; [|reflexivity]);
        repeat first [apply Forall_nil|apply Forall_cons; [repeat apply blk_xor; assumption|]].
    - cbn [groups concat]. destruct (IH (double_block dbl)) as [I1 I2]; [apply blk_double|]. split.
      + apply Forall_app. split; [|exact I1]. assert (blk (bswap16 dbl)) as Ho by (apply blk_rev, Hd).
        destruct Hc. unfold offs8. cbv zeta. repeat (apply Forall_cons; [repeat apply blk_xor; assumption|]). apply Forall_nil.
      + rewrite app_length, I2. change (length (offs8 c (bswap16 dbl))) with 8%nat. lia.
  Qed.

  Lemma run1_ok gs src post pre dpre dpost ps qs pos sum :
    Forall blk (concat gs) -> Forall pblk ps -> Forall pblk qs -> length (concat gs) = length ps -> length (concat gs) = length qs ->
    zlen pre = pos -> zlen dpre = pos -> src = pre ++ flat ps ++ post ->
    run (fun os pos st => p1_group R c os src pos (fst st) (snd st)) gs pos (dpre ++ flat qs ++ dpost, sum)
    = Ok (dpre ++ flat (map2 one1 (concat gs) ps) ++ dpost, sumx (map snd (map2 one1 (concat gs) ps)) sum).
  Proof using R_blk Hc.
    intros Ho Hp Hq L1 L2 Z1 Z2 ->. revert ps qs pre dpre pos sum Ho Hp Hq L1 L2 Z1 Z2.
    induction gs as [|os gs IH]; intros ps qs pre dpre pos sum Ho Hp Hq L1 L2 Z1 Z2; cbn [concat run] in *.
    - destruct ps, qs; try discriminate. reflexivity.
    - apply Forall_app in Ho as [Ho1 Ho2]. rewrite app_length in L1, L2.
      rewrite <- (firstn_skipn (length os) ps) in Hp |- *. rewrite <- (firstn_skipn (length os) qs) in Hq |- *.
      apply Forall_app in Hp as [Hp1 Hp2], Hq as [Hq1 Hq2].
      assert (length (firstn (length os) ps) = length os) as LP by (rewrite firstn_length; lia).
      assert (length (firstn (length os) qs) = length os) as LQ by (rewrite firstn_length; lia).
      assert (length (skipn (length os) ps) = length (concat gs)) as LP' by (rewrite skipn_length; lia).
      assert (length (skipn (length os) qs) = length (concat gs)) as LQ' by (rewrite skipn_length; lia).
      revert Hp1 Hp2 Hq1 Hq2 LP LQ LP' LQ'.
      generalize (firstn (length os) ps) as ps1, (skipn (length os) ps) as ps2, (firstn (length os) qs) as qs1, (skipn (length os) qs) as qs2.
      clear L1 L2 ps qs. intros ps1 ps2 qs1 qs2 Hp1 Hp2 Hq1 Hq2 LP LQ LP' LQ'.
      rewrite !flat_app, <- !(app_assoc (flat _)). cbn [fst snd].
      rewrite p1_group_ok by (assumption || lia). cbn [bind].
      rewrite (app_assoc pre (flat ps1)), (app_assoc dpre (flat (map2 _ os ps1))).
      assert (Forall pblk (map2 one1 os ps1)) as HM by (apply pblk_p1; assumption).
      rewrite IH; try assumption; try lia.
      + rewrite !map2_app by lia. rewrite flat_app, map_app. unfold sumx. rewrite fold_left_app, <- !app_assoc. reflexivity.
      + rewrite zlen_app, (flat_zlen ps1 Hp1). unfold zlen in *. lia.
      + rewrite zlen_app, (flat_zlen _ HM). unfold zlen in *. rewrite map2_length; lia.
  Qed.
  Lemma run2_ok gs s dpre dpost qs pos sum :
    blk s -> Forall blk (concat gs) -> Forall pblk qs -> length (concat gs) = length qs -> zlen dpre = pos ->
    run (fun os pos st => p2_group R c s os pos (fst st) (snd st)) gs pos (dpre ++ flat qs ++ dpost, sum)
    = Ok (dpre ++ flat (map2 (one2 s) (concat gs) qs) ++ dpost, sumx (tmps s (concat gs) qs) sum).
  Proof using R_blk Hc.
    intros Hs. revert qs dpre pos sum.
    induction gs as [|os gs IH]; intros qs dpre pos sum Ho Hq L2 Z2; cbn [concat run] in *.
    - destruct qs; try discriminate. reflexivity.
    - apply Forall_app in Ho as [Ho1 Ho2]. rewrite app_length in L2.
      rewrite <- (firstn_skipn (length os) qs) in Hq |- *.
      apply Forall_app in Hq as [Hq1 Hq2].
      assert (length (firstn (length os) qs) = length os) as LQ by (rewrite firstn_length; lia).
      assert (length (skipn (length os) qs) = length (concat gs)) as LQ' by (rewrite skipn_length; lia).
      revert Hq1 Hq2 LQ LQ'.
      generalize (firstn (length os) qs) as qs1, (skipn (length os) qs) as qs2.
      clear L2 qs. intros qs1 qs2 Hq1 Hq2 LQ LQ'.
      rewrite !flat_app, <- !(app_assoc (flat _)). cbn [fst snd].
      rewrite p2_group_ok by (assumption || lia). cbn [bind].
      rewrite (app_assoc dpre (flat (map2 _ os qs1))).
      assert (Forall pblk (map2 (one2 s) os qs1)) as HM by (apply pblk_p2; assumption).
      rewrite IH; try assumption; try lia.
      + unfold tmps. rewrite !map2_app by lia. rewrite flat_app. unfold sumx. rewrite fold_left_app, <- !app_assoc. reflexivity.
      + rewrite zlen_app, (flat_zlen _ HM). unfold zlen in *. rewrite map2_length; lia.
  Qed.

  Lemma pass_one_ok ps qs post dpost (n : nat) : Forall pblk ps -> Forall pblk qs -> length ps = n -> length qs = n ->
    pass_one R c (flat ps ++ post) (32 * Z.of_nat n) (flat qs ++ dpost)
    = Ok (flat (map2 one1 (offsets n) ps) ++ dpost, sumx (map snd (map2 one1 (offsets n) ps)) zero).
  Proof using R_blk Hc.
    intros Hp Hq L1 L2. rewrite pass_one_run. destruct (offsets_ok n) as [O1 O2]. unfold offsets in *.
    apply (run1_ok (sched n) (flat ps ++ post) post [] [] dpost ps qs 0 zero); try assumption; try reflexivity; lia.
  Qed.
  Lemma pass_two_ok s qs dpost (n : nat) : blk s -> Forall pblk qs -> length qs = n ->
    pass_two R c s (32 * Z.of_nat n) (flat qs ++ dpost)
    = Ok (flat (map2 (one2 s) (offsets n) qs) ++ dpost, sumx (tmps s (offsets n) qs) zero).
  Proof using R_blk Hc.
    intros Hs Hq L2. rewrite pass_two_run. destruct (offsets_ok n) as [O1 O2]. unfold offsets in *.
    apply (run2_ok (sched n) s [] dpost qs 0 zero); try assumption; try reflexivity; lia.
  Qed.

  (** the passes of the opposite direction undo each other *)
  Lemma one_inverse s o p : blk s -> blk o -> pblk p ->
    let q := one1 o p in let q' := one1 o (one2 s o q) in
    one2 s o q' = p /\ snd q' = vxor (fst q) (F (vxor s o)) /\ vxor (fst q') (F (vxor s o)) = snd q.
  Proof using R_blk Hc.
    intros Hs Ho [P1 P2] q q'. assert (pblk q) as [Q1 Q2] by (apply pblk_one1; [|split]; assumption).
    set (f := F (vxor s o)). assert (blk f) as Hf by (apply blk_F, blk_xor; assumption).
    assert (q' = (vxor (snd q) f, vxor (fst q) f)) as E.
    { subst q'. unfold one1 at 1, one2. cbv zeta. cbn [fst snd]. fold f.
      assert (blk (vxor (snd q) f)) as B0 by (apply blk_xor; assumption).
      assert (blk (vxor (fst q) f)) as B1 by (apply blk_xor; assumption).
      assert (blk (vxor (A (vxor (snd q) f)) (vxor (fst q) f))) as B2 by (apply blk_xor; [apply blk_A|]; assumption).
      set (d1 := vxor (A (vxor (snd q) f)) (vxor (fst q) f)) in *.
      rewrite vxor_cancel_l by (try assumption; apply blk_A, blk_xor; assumption).
      f_equal. subst d1. rewrite vxor_cancel_l by (try assumption; apply blk_A; assumption). reflexivity. }
    rewrite E. cbn [fst snd]. split; [|split; [reflexivity|apply vxor_cancel_r; assumption]].
    unfold one2. cbv zeta. cbn [fst snd]. fold f. rewrite !vxor_cancel_r by assumption.
    assert (vxor (A (fst q)) (snd q) = snd p) as E2.
    { subst q. unfold one1. cbv zeta. cbn [fst snd]. rewrite vxor_cancel_l; [reflexivity| |assumption]. apply blk_A. exact Q1. }
    rewrite E2. assert (vxor (A (vxor (snd p) o)) (fst q) = fst p) as E3.
    { subst q. unfold one1. cbv zeta. cbn [fst snd]. apply vxor_cancel_l; [|assumption]. apply blk_A, blk_xor; assumption. }
    rewrite E3. destruct p; reflexivity.
  Qed.
  Lemma passes_inverse s os ps : blk s -> Forall blk os -> Forall pblk ps -> length os = length ps ->
    let qs := map2 one1 os ps in let qs' := map2 one1 os (map2 (one2 s) os qs) in
    map2 (one2 s) os qs' = ps /\ map snd qs' = tmps s os qs /\ tmps s os qs' = map snd qs.
  Proof using R_blk Hc.
    intros Hs Ho; revert ps; induction Ho as [|o os Ho Hos IH]; intros [|p ps] Hp Hl; simpl in Hl; try discriminate.
    - repeat split.
    - inversion Hp as [|? ? Hp1 Hps]; subst. destruct (one_inverse s o p Hs Ho Hp1) as (E1 & E2 & E3).
      destruct (IH ps Hps) as (I1 & I2 & I3); [lia|]. cbv zeta in *. cbn [map2 map tmps]. fold (tmps s os).
      rewrite E1, E2, I1, I2. split; [reflexivity|split; [reflexivity|]]. unfold tmps in I3 |- *. rewrite I3. f_equal. exact E3.
  Qed.
End Aez.
