(** In-place operation of aez.c: the passes over one memory and over two buffers. *)
From Verif Require Import Base BaseFacts KeyVal AezModel PrpModel AezMemModel.
From Coq Require Import Lia.

Lemma rd_app a d b q n x : rd d q n = Ok x -> rd (a ++ d ++ b) (zlen a + q) n = Ok x.
Proof.
  unfold rd. destruct ((0 <=? q) && (0 <=? n) && (q + n <=? zlen d)) eqn:E; [|discriminate].
  apply andb_prop in E as [E E3]. apply andb_prop in E as [E1 E2]. apply Z.leb_le in E1, E2, E3.
  assert (0 <= zlen a) by (unfold zlen; lia). assert (0 <= zlen b) by (unfold zlen; lia).
  intros E. rewrite !zlen_app.
  rewrite (proj2 (Z.leb_le 0 (zlen a + q))), (proj2 (Z.leb_le 0 n)), (proj2 (Z.leb_le (zlen a + q + n) _)) by lia. cbn [andb].
  rewrite <- E. f_equal. unfold window, zlen in *.
  rewrite Z2Nat.inj_add, Nat2Z.id by lia.
  rewrite skipn_app, (skipn_all2 a) by lia. cbn [app].
  replace (length a + Z.to_nat q - length a)%nat with (Z.to_nat q) by lia.
  rewrite skipn_app, firstn_app, (proj2 (Nat.sub_0_le (Z.to_nat n) (length (skipn (Z.to_nat q) d)))).
  2: rewrite skipn_length; lia.
  rewrite firstn_O, app_nil_r. reflexivity.
Qed.
Lemma wr_app a d b q x d' : wr d q x = Ok d' -> wr (a ++ d ++ b) (zlen a + q) x = Ok (a ++ d' ++ b).
Proof.
  unfold wr. destruct ((0 <=? q) && (q + zlen x <=? zlen d)) eqn:E; [|discriminate].
  apply andb_prop in E as [E1 E2]. apply Z.leb_le in E1, E2.
  assert (0 <= zlen a) by (unfold zlen; lia). assert (0 <= zlen b) by (unfold zlen; lia). assert (0 <= zlen x) by (unfold zlen; lia).
  intros E. rewrite !zlen_app.
  rewrite (proj2 (Z.leb_le 0 (zlen a + q))), (proj2 (Z.leb_le (zlen a + q + zlen x) _)) by lia. cbn [andb].
  injection E as <-. f_equal. unfold zlen in *.
  rewrite Z2Nat.inj_add, Nat2Z.id by lia.
  rewrite firstn_app_2. rewrite <- !app_assoc. f_equal. rewrite firstn_app.
  rewrite (proj2 (Nat.sub_0_le (Z.to_nat q) (length d))), firstn_O, app_nil_r by lia. f_equal. f_equal.
  replace (length a + Z.to_nat q + length x)%nat with (length a + (Z.to_nat q + length x))%nat by lia.
  rewrite skipn_app, (skipn_all2 a) by lia. cbn [app].
  replace (length a + (Z.to_nat q + length x) - length a)%nat with (Z.to_nat q + length x)%nat by lia.
  rewrite skipn_app. f_equal. rewrite (proj2 (Nat.sub_0_le (Z.to_nat q + length x) (length d))) by lia. reflexivity.
Qed.
Lemma wr_inv d q x d' : wr d q x = Ok d' -> 0 <= q /\ q + zlen x <= zlen d /\ zlen d' = zlen d /\
  forall i, ~ (q <= Z.of_nat i < q + zlen x) -> nth_error d' i = nth_error d i.
Proof.
  intros E. pose proof (wr_length _ _ _ _ E) as HL. revert E.
  unfold wr. destruct ((0 <=? q) && (q + zlen x <=? zlen d)) eqn:E; [|discriminate].
  apply andb_prop in E as [E1 E2]. apply Z.leb_le in E1, E2. intros E. injection E as <-.
  split; [assumption|]. split; [assumption|]. split; [unfold zlen; rewrite HL; reflexivity|].
  intros i Hi. unfold zlen in *.
  destruct (Nat.lt_ge_cases i (Z.to_nat q)) as [H|H].
  - rewrite nth_error_app1 by (rewrite firstn_length; lia). rewrite <- (firstn_skipn (Z.to_nat q) d) at 2. rewrite nth_error_app1 by (rewrite firstn_length; lia). reflexivity.
  - assert (Z.to_nat q + length x <= i)%nat by lia.
    rewrite nth_error_app2 by (rewrite firstn_length; lia). rewrite nth_error_app2 by (rewrite firstn_length; lia).
    rewrite firstn_length. rewrite Nat.min_l by lia.
    rewrite <- (firstn_skipn (Z.to_nat q + length x) d) at 2. rewrite nth_error_app2 by (rewrite firstn_length; lia).
    f_equal. rewrite firstn_length. lia.
Qed.
Lemma rd_inv d q n x : rd d q n = Ok x -> 0 <= q /\ 0 <= n /\ q + n <= zlen d /\ zlen x = n.
Proof.
  unfold rd. destruct ((0 <=? q) && (0 <=? n) && (q + n <=? zlen d)) eqn:E; [|discriminate].
  apply andb_prop in E as [E E3]. apply andb_prop in E as [E1 E2]. apply Z.leb_le in E1, E2, E3. intros E. injection E as <-.
  repeat split; try assumption. unfold zlen, window in *. rewrite firstn_length, skipn_length. lia.
Qed.
Lemma nth_error_ext (a b : bytes) : length a = length b -> (forall i, (i < length a)%nat -> nth_error a i = nth_error b i) -> a = b.
Proof.
  revert b; induction a as [|x a IH]; intros [|y b] HL H; try discriminate; [reflexivity|].
  pose proof (H 0%nat ltac:(cbn; lia)) as H0. injection H0 as ->. f_equal. apply IH; [cbn in HL; lia|]. intros i Hi. apply (H (S i)). cbn. lia.
Qed.
Lemma nth_error_skipn n (a : bytes) i : nth_error (skipn n a) i = nth_error a (n + i).
Proof. revert a; induction n; intros [|x a]; cbn; try reflexivity; [destruct i; reflexivity|apply IHn]. Qed.
Lemma nth_error_firstn n (a : bytes) i : (i < n)%nat -> nth_error (firstn n a) i = nth_error a i.
Proof. revert a i; induction n; intros [|x a] [|i] H; cbn; try reflexivity; try lia. apply IHn. lia. Qed.
Lemma rd_same u v p q n x : rd u p n = Ok x -> 0 <= q -> q + n <= zlen v ->
  (forall i, 0 <= i < n -> nth_error v (Z.to_nat (q + i)) = nth_error u (Z.to_nat (p + i))) -> rd v q n = Ok x.
Proof.
  intros E Hq Hv H. pose proof (rd_inv _ _ _ _ E) as (I1 & I2 & I3 & I4).
  revert E. unfold rd. rewrite (proj2 (Z.leb_le 0 q)), (proj2 (Z.leb_le 0 n)), (proj2 (Z.leb_le (q + n) _)) by lia.
  rewrite (proj2 (Z.leb_le 0 p)), (proj2 (Z.leb_le (p + n) _)) by lia. cbn [andb].
  intros E. injection E as <-. f_equal. unfold window, zlen in *. apply nth_error_ext.
  - rewrite !firstn_length, !skipn_length. lia.
  - intros i Hi. rewrite firstn_length, skipn_length in Hi. rewrite !nth_error_firstn, !nth_error_skipn by lia.
    specialize (H (Z.of_nat i) ltac:(lia)). rewrite !Z2Nat.inj_add, Nat2Z.id in H by lia. exact H.
Qed.

Lemma vxor_len a b : zlen (vxor a b) <= zlen b.
Proof.
  unfold vxor, zlen. revert b; induction a as [|x a IH]; intros [|y b]; cbn [xorb_list length]; try lia; specialize (IH b); lia.
Qed.

Section Sim.
  Variable R : bytes -> bytes.
  Variable sp : Z.
  Variables pre post src : bytes.
  Variable len : Z.
  Hypothesis Hsp : 0 <= sp.
  Hypothesis Hsrc : zlen src = len.
  Hypothesis Hend : sp + len <= zlen pre + len + zlen post.
  Hypothesis Hov : sp = zlen pre \/ sp + len <= zlen pre \/ zlen pre + len <= sp.
  Notation dp := (zlen pre).
  Notation M d := (pre ++ d ++ post).

  (** The bytes of the source at the positions in [V] are still in the memory. *)
  Definition sim (d : bytes) (V : Z -> Prop) : Prop :=
    zlen d = len /\ forall i, 0 <= i < len -> V i -> nth_error (M d) (Z.to_nat (sp + i)) = nth_error src (Z.to_nat i).

  Lemma sim_weak d (V V' : Z -> Prop) : (forall i, V' i -> V i) -> sim d V -> sim d V'.
  Proof. intros H [H1 H2]. split; [assumption|]. intros i Hi Hv. apply H2; [assumption|apply H; assumption]. Qed.
  Lemma sim_ld d V q n x : sim d V -> (forall i, q <= i < q + n -> V i) -> rd src q n = Ok x -> rd (M d) (sp + q) n = Ok x.
  Proof.
    intros [H1 H2] HV E. pose proof (rd_inv _ _ _ _ E) as (I1 & I2 & I3 & I4). apply (rd_same _ _ _ _ _ _ E); [lia|rewrite !zlen_app; lia|].
    intros i Hi. rewrite <- H2 by (try apply HV; lia). f_equal. lia.
  Qed.
  Lemma sim_wr d V q x d' : sim d V -> wr d q x = Ok d' -> zlen x <= 16 -> sim d' (fun i => V i /\ ~ (q <= i < q + 16)).
  Proof.
    intros [H1 H2] E Hx. pose proof (wr_inv _ _ _ _ E) as (I1 & I2 & I3 & I4). split; [lia|]. intros i Hi [Hv Hn].
    rewrite <- H2 by assumption. pose proof (wr_app pre d post q x d' E) as E'. pose proof (wr_inv _ _ _ _ E') as (_ & _ & _ & J).
    apply J. rewrite Z2Nat.id by lia. lia.
  Qed.

  Lemma even_sim c os : forall pos d V d', sim d V -> (forall i, pos <= i < pos + 32 * Z.of_nat (length os) -> V i) -> p1_even R c os src pos d = Ok d' ->
    m_p1_even R c os sp dp pos (M d) = Ok (M d') /\
    sim d' (fun i => V i /\ forall k, 0 <= k < Z.of_nat (length os) -> ~ (pos + 32 * k <= i < pos + 32 * k + 16)).
  Proof using Hsp Hsrc Hend Hov.
    clear - Hsp Hsrc Hend Hov.
    induction os as [|o os IH]; intros pos d V d' HS HV E.
    - cbn in *. injection E as <-. split; [reflexivity|]. apply (sim_weak d V); [tauto|assumption].
    - cbn [p1_even] in E. cbn [m_p1_even]. cbn [length] in HV. rewrite Nat2Z.inj_succ in HV.
      destruct (load src (pos + 16)) as [s1| | | |] eqn:E1; try discriminate. cbn [bind] in E.
      destruct (load src pos) as [s0| | | |] eqn:E0; try discriminate. cbn [bind] in E.
      unfold load in E0, E1 |- *. rewrite (sim_ld d V _ _ s1 HS) by (try assumption; intros; apply HV; lia). cbn [bind].
      rewrite (sim_ld d V _ _ s0 HS) by (try assumption; intros; apply HV; lia). cbn [bind].
      destruct (wr d pos _) as [d1| | | |] eqn:EW in E; try discriminate. cbn [bind] in E.
      rewrite (wr_app pre d post _ _ _ EW). cbn [bind].
      assert (sim d1 (fun i => V i /\ ~ (pos <= i < pos + 16))) as HS1.
      { apply (sim_wr d V pos _ d1 HS EW). pose proof (rd_inv _ _ _ _ E0). etransitivity; [apply vxor_len|]. lia. }
      destruct (IH (pos + 32) _ _ _ HS1 ltac:(intros i Hi; split; [apply HV; lia|lia]) E) as [IH1 IH2].
      split; [exact IH1|]. revert IH2. apply sim_weak. intros i [Hi Hk]. split; [split; [assumption|]|].
      + specialize (Hk 0 ltac:(cbn [length]; lia)). lia.
      + intros k Hk2. specialize (Hk (k + 1) ltac:(cbn [length]; lia)). lia.
  Qed.
  Lemma odd_sim c os : forall pos d V d' sum sum', sim d V -> (forall i k, 0 <= k < Z.of_nat (length os) -> pos + 32 * k + 16 <= i < pos + 32 * k + 32 -> V i) ->
    p1_odd R c os src pos d sum = Ok (d', sum') ->
    m_p1_odd R c os sp dp pos (M d) sum = Ok (M d', sum') /\ sim d' (fun i => V i /\ ~ (pos <= i < pos + 32 * Z.of_nat (length os))).
  Proof using Hsp Hsrc Hend Hov.
    clear - Hsp Hsrc Hend Hov.
    induction os as [|o os IH]; intros pos d V d' sum sum' HS HV E.
    - cbn in *. injection E as <- <-. split; [reflexivity|]. apply (sim_weak d V); [tauto|assumption].
    - cbn [p1_odd] in E. cbn [m_p1_odd]. cbn [length] in HV |- *. rewrite Nat2Z.inj_succ in HV |- *.
      destruct (load d pos) as [d0| | | |] eqn:E0; try discriminate. cbn [bind] in E.
      destruct (load src (pos + 16)) as [s1| | | |] eqn:E1; try discriminate. cbn [bind] in E.
      unfold load in E0, E1 |- *. rewrite (rd_app pre d post _ _ _ E0). cbn [bind].
      rewrite (sim_ld d V _ _ s1 HS) by (try assumption; intros i Hi; apply (HV i 0); lia). cbn [bind].
      destruct (wr d (pos + 16) _) as [d1| | | |] eqn:EW in E; try discriminate. cbn [bind] in E.
      rewrite (wr_app pre d post _ _ _ EW). cbn [bind].
      assert (sim d1 (fun i => V i /\ ~ (pos + 16 <= i < pos + 16 + 16))) as HS1.
      { apply (sim_wr d V _ _ d1 HS EW). pose proof (rd_inv _ _ _ _ E1). etransitivity; [apply vxor_len|]. lia. }
      destruct (IH (pos + 32) _ _ _ _ _ HS1 ltac:(intros i k Hk Hi; split; [apply (HV i (k + 1)); lia|lia]) E) as [IH1 IH2].
      split; [exact IH1|]. revert IH2. apply sim_weak. intros i [Hi Hk]. split; [split; [assumption|]|]; lia.
  Qed.
  (** The memory holds the source from [pos] on. *)
  Definition from (pos : Z) : Z -> Prop := fun i => pos <= i.
  Lemma group_sim c os pos d d' sum sum' : sim d (from pos) -> p1_group R c os src pos d sum = Ok (d', sum') ->
    m_p1_group R c os sp dp pos (M d) sum = Ok (M d', sum') /\ sim d' (from (pos + 32 * Z.of_nat (length os))).
  Proof using Hsp Hsrc Hend Hov.
    clear - Hsp Hsrc Hend Hov.
    unfold p1_group, m_p1_group, from. intros HS E. destruct (p1_even R c os src pos d) as [d1| | | |] eqn:E1; try discriminate. cbn [bind] in E.
    destruct (even_sim c os pos _ _ _ HS ltac:(intros i Hi; cbv beta; lia) E1) as [A1 A2]. rewrite A1. cbn [bind].
    apply odd_sim with (1 := A2) in E.
    - destruct E as [B1 B2]. split; [exact B1|]. revert B2. apply sim_weak. intros i Hi. split; [split|]; [lia| |lia]. intros k Hk. lia.
    - intros i k Hk Hi. cbv beta. split; [lia|]. intros k' Hk'. lia.
  Qed.
  Lemma loop_sim c fuel : forall pos b dbl d sum pos' b' o' d' sum', sim d (from pos) -> p1_loop R fuel c src pos b dbl d sum = Ok (pos', b', o', d', sum') ->
    m_p1_loop R fuel c sp dp pos b dbl (M d) sum = Ok (pos', b', o', M d', sum') /\ sim d' (from pos') /\ pos' + b' = pos + b /\ 0 <= pos' - pos.
  Proof using Hsp Hsrc Hend Hov.
    clear - Hsp Hsrc Hend Hov.
    induction fuel as [|fuel IH]; intros pos b dbl d sum pos' b' o' d' sum' HS E; [discriminate|]. cbn [p1_loop] in E. cbn [m_p1_loop].
    destruct (256 <=? b).
    - destruct (p1_group R c (offs8 c (bswap16 dbl)) src pos d sum) as [[d1 sum1]| | | |] eqn:E1; try discriminate. cbn [bind] in E.
      destruct (group_sim _ _ _ _ _ _ _ HS E1) as [A1 A2]. rewrite A1. cbn [bind].
      change (pos + 32 * Z.of_nat (length (offs8 c (bswap16 dbl)))) with (pos + 256) in A2.
      destruct (IH _ _ _ _ _ _ _ _ _ _ A2 E) as (B1 & B2 & B3 & B4). split; [exact B1|]. split; [exact B2|]. lia.
    - assert (E' : (pos, b, bswap16 dbl, d, sum) = (pos', b', o', d', sum')) by congruence. clear E.
      injection E' as <- <- <- <- <-. split; [reflexivity|]. split; [assumption|]. lia.
  Qed.
End Sim.
