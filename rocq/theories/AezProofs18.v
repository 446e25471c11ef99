(** The ARM path computes the same as the AES-NI path. *)
From Verif Require Import Base BaseFacts KeyVal AezModel AezProofs AezProofs2 AezProofs3 AezProofs4 PrpModel PrpSpec AesRound PrpProofs AezSpec AezProofs7 AezProofs8 AezProofs9 AezProofs12 AezAuthModel AezArchModel AezArchSpec AezProofs13 AezProofs16 AezProofs17.
From Coq Require Import Lia.

(** blocks stay blocks *)
Lemma load_blk b pos x : is_bytes b -> load b pos = Ok x -> blk x.
Proof.
  unfold load, rd. destruct (_ && _) eqn:E; [|discriminate]. intros B H. injection H as <-. split; [|unfold window; apply is_bytes_firstn, is_bytes_skipn, B].
  unfold window. rewrite firstn_length, skipn_length. unfold zlen in E. lia.
Qed.
Lemma wr_bytes b pos x d : is_bytes b -> is_bytes x -> wr b pos x = Ok d -> is_bytes d.
Proof.
  unfold wr. destruct (_ && _); [|discriminate]. intros B X H. injection H as <-. apply is_bytes_app. split; [apply is_bytes_firstn, B|].
  apply is_bytes_app. split; [exact X|apply is_bytes_skipn, B].
Qed.
Lemma ok_inj {A} (x y : A) : Ok x = Ok y -> x = y. Proof. congruence. Qed.
Lemma wr_len b pos x d : wr b pos x = Ok d -> length d = length b.
Proof.
  unfold wr. destruct (_ && _) eqn:E; [|discriminate]. intros H. injection H as <-. rewrite !app_length, firstn_length, skipn_length. unfold zlen in E. lia.
Qed.

Section Same.
  Variable R : bytes -> bytes.
  Hypothesis HR : register_map R.
  Hypothesis R_blk : forall x, blk x -> blk (R x).
  Variable c : ctx.
  Hypothesis Hc : ctx_ok c.
  Local Notation A4 := (arm_aes4 R). Local Notation N4 := (aes4 R). Local Notation AA := (arm_aes R). Local Notation NA := (aes R).
  Lemma e4 x a b k d : A4 x a b k d = N4 x a b k d. Proof using HR. apply arm_aes4_ok, HR. Qed.
  Ltac step := match goal with |- bind ?x _ = bind ?x _ => let p := fresh "p" in destruct x as [p| | | |]; cbn [bind]; [|reflexivity..] end.
  Lemma p1_even_eq os src pos dst : p1_even_g A4 c os src pos dst = p1_even_g N4 c os src pos dst.
  Proof using HR. revert pos dst. induction os as [|o os IH]; intros pos dst; [reflexivity|]. cbn [p1_even_g]. do 2 step. rewrite e4. step. apply IH. Qed.
  Lemma p1_odd_eq os src pos dst sum : p1_odd_g A4 c os src pos dst sum = p1_odd_g N4 c os src pos dst sum.
  Proof using HR. revert pos dst sum. induction os as [|o os IH]; intros pos dst sum; [reflexivity|]. cbn [p1_odd_g]. do 2 step. cbv zeta. rewrite e4. step. apply IH. Qed.
  Lemma p1_group_eq os src pos dst sum : p1_group_g A4 c os src pos dst sum = p1_group_g N4 c os src pos dst sum.
  Proof using HR. unfold p1_group_g. rewrite p1_even_eq. step. apply p1_odd_eq. Qed.
  Lemma p1_loop_eq fuel src pos b dbl dst sum : blk dbl ->
    p1_loop_g arm_double arm_bswap16 A4 fuel c src pos b (bswap16 dbl) dst sum = p1_loop_g double_block bswap16 N4 fuel c src pos b dbl dst sum.
  Proof using HR.
    revert pos b dbl dst sum. induction fuel as [|fuel IH]; intros pos b dbl dst sum Hd; [reflexivity|]. cbn [p1_loop_g]. unfold arm_bswap16 at 1 3.
    destruct (256 <=? b); [|reflexivity]. rewrite p1_group_eq. step. destruct p as [d s].
    rewrite arm_double_ok by (apply blk_rev, Hd). rewrite bswap_bswap. apply IH, blk_double.
  Qed.
  Lemma pass_one_eq src b dst : pass_one_g arm_double arm_bswap16 A4 c src b dst = pass_one_g double_block bswap16 N4 c src b dst.
  Proof using HR Hc.
    unfold pass_one_g. cbv zeta. unfold arm_bswap16 at 2. destruct Hc. 
    rewrite arm_double_ok by assumption. rewrite p1_loop_eq by apply blk_double.
    step. destruct p as [[[[p1 b1] o1] d1] s1]. rewrite !p1_group_eq.
    step. destruct p as [[[[p2 b2] o2] d2] s2]. rewrite !p1_group_eq.
    step. destruct p as [[[[p3 b3] o3] d3] s3]. rewrite !p1_group_eq. reflexivity.
  Qed.
  Lemma p2_mix_eq s os pos dst sum : p2_mix_g A4 c s os pos dst sum = p2_mix_g N4 c s os pos dst sum.
  Proof using HR.
    revert pos dst sum. induction os as [|o os IH]; intros pos dst sum; [reflexivity|]. cbn [p2_mix_g]. cbv zeta. rewrite e4. do 3 step. rewrite IH. reflexivity.
  Qed.
  Lemma p2_odd_eq ts pos dst : p2_odd_g A4 c ts pos dst = p2_odd_g N4 c ts pos dst.
  Proof using HR. revert pos dst. induction ts as [|o os IH]; intros pos dst; [reflexivity|]. cbn [p2_odd_g]. step. rewrite e4. step. apply IH. Qed.
  Lemma p2_even_eq os pos dst : p2_even_g A4 c os pos dst = p2_even_g N4 c os pos dst.
  Proof using HR. revert pos dst. induction os as [|o os IH]; intros pos dst; [reflexivity|]. cbn [p2_even_g]. do 2 step. rewrite e4. step. apply IH. Qed.
  Lemma p2_group_eq s os pos dst sum : p2_group_g A4 c s os pos dst sum = p2_group_g N4 c s os pos dst sum.
  Proof using HR. unfold p2_group_g. rewrite p2_mix_eq. step. destruct p as [[d t] s']. rewrite p2_odd_eq. step. rewrite p2_even_eq. reflexivity. Qed.
  Lemma p2_loop_eq fuel s pos b dbl dst sum : blk dbl ->
    p2_loop_g arm_double arm_bswap16 A4 fuel c s pos b (bswap16 dbl) dst sum = p2_loop_g double_block bswap16 N4 fuel c s pos b dbl dst sum.
  Proof using HR.
    revert pos b dbl dst sum. induction fuel as [|fuel IH]; intros pos b dbl dst sum Hd; [reflexivity|]. cbn [p2_loop_g]. unfold arm_bswap16 at 1 3.
    destruct (256 <=? b); [|reflexivity]. rewrite p2_group_eq. step. destruct p as [d s'].
    rewrite arm_double_ok by (apply blk_rev, Hd). rewrite bswap_bswap. apply IH, blk_double.
  Qed.
  Lemma pass_two_eq s b dst : pass_two_g arm_double arm_bswap16 A4 c s b dst = pass_two_g double_block bswap16 N4 c s b dst.
  Proof using HR Hc.
    unfold pass_two_g. cbv zeta. unfold arm_bswap16 at 2. destruct Hc.
    rewrite arm_double_ok by assumption. rewrite p2_loop_eq by apply blk_double.
    step. destruct p as [[[[p1 b1] o1] d1] s1]. rewrite !p2_group_eq.
    step. destruct p as [[[[p2 b2] o2] d2] s2]. rewrite !p2_group_eq.
    step. destruct p as [[[[p3 b3] o3] d3] s3]. rewrite !p2_group_eq. reflexivity.
  Qed.
  Lemma hash_eq n nb a : hash_g arm_double arm_bswap16 A4 c n nb a = hash_g double_block bswap16 N4 c n nb a.
  Proof using HR Hc.
    unfold hash_g. cbv zeta. unfold arm_bswap16. destruct Hc. rewrite (arm_double_ok (arm_double (cL c))).
    2:{ rewrite arm_double_ok by assumption. apply blk_rev, blk_double. }
    rewrite !arm_double_ok, bswap_bswap by assumption. step. rewrite ?e4. step. step. rewrite ?e4. step. rewrite ?e4. reflexivity.
  Qed.

  Ltac inv H := match type of H with bind ?x _ = Ok _ => let p := fresh "p" in let E := fresh "E" in destruct x as [p| | | |] eqn:E; cbn [bind] in H; try discriminate end.
  Lemma n4_blk x d : blk x -> blk d -> blk (N4 x (cJ0 c) (cI0 c) (cL c) d).
  Proof using R_blk Hc. intros. destruct Hc. apply blk_aes4; assumption. Qed.
  Lemma p1_even_b os src pos dst d : Forall blk os -> is_bytes src -> is_bytes dst -> p1_even_g N4 c os src pos dst = Ok d -> is_bytes d.
  Proof using R_blk Hc.
    intros Ho Bs. revert pos dst. induction Ho as [|o os Hob _ IH]; intros pos dst Bd H; cbn [p1_even_g] in H; [injection H as <-; exact Bd|].
    inv H. inv H. inv H. apply IH in H; [exact H|]. eapply wr_bytes; [exact Bd| |exact E1]. apply n4_blk; [apply blk_xor; [eapply load_blk; [|eassumption]; assumption|exact Hob]|eapply load_blk; [|eassumption]; assumption].
  Qed.
  Lemma p1_odd_b os src pos dst sum d s : is_bytes src -> is_bytes dst -> blk sum -> p1_odd_g N4 c os src pos dst sum = Ok (d, s) -> is_bytes d /\ blk s.
  Proof using R_blk Hc.
    intros Bs. revert pos dst sum. induction os as [|o os IH]; intros pos dst sum Bd Bsum H; cbn [p1_odd_g] in H; [injection H as <- <-; auto|].
    inv H. inv H. cbv zeta in H. inv H. assert (blk (N4 p (cJ0 c) (cI0 c) (cL c) p0)) as Bt by (apply n4_blk; (eapply load_blk; [|eassumption]; assumption)).
    apply IH in H; [exact H| |apply blk_xor; assumption]. eapply wr_bytes; [exact Bd| |exact E1]. apply Bt.
  Qed.
  Lemma p1_group_b os src pos dst sum d s : Forall blk os -> is_bytes src -> is_bytes dst -> blk sum -> p1_group_g N4 c os src pos dst sum = Ok (d, s) -> is_bytes d /\ blk s.
  Proof using R_blk Hc.
    unfold p1_group_g. intros Ho Bs Bd Bsum H. inv H. eapply p1_odd_b; [exact Bs| |exact Bsum|exact H]. eapply (p1_even_b os src pos dst); eassumption.
  Qed.
  Lemma offs8_b o : blk o -> Forall blk (offs8 c o) /\ Forall blk (offs4 c o) /\ Forall blk (offs2 c o).
  Proof using Hc. intros Ho. destruct Hc. unfold offs8, offs4, offs2. cbv zeta. split; [|split]; repeat (apply Forall_cons; [repeat apply blk_xor; assumption|]); constructor. Qed.
  Lemma p1_loop_b fuel src pos b dbl dst sum pos' b' o' d' s' : is_bytes src -> is_bytes dst -> blk sum -> blk dbl ->
    p1_loop_g double_block bswap16 N4 fuel c src pos b dbl dst sum = Ok (pos', b', o', d', s') -> is_bytes d' /\ blk s' /\ blk o'.
  Proof using R_blk Hc.
    intros Bs. revert pos b dbl dst sum. induction fuel as [|fuel IH]; intros pos b dbl dst sum Bd Bsum Hd H; cbn [p1_loop_g] in H; [discriminate|].
    destruct (256 <=? b).
    - inv H. destruct p as [d1 s1]. pose proof (blk_rev _ Hd) as Hr. apply p1_group_b in E as [B1 B2]; try assumption; [|apply offs8_b, Hr].
      apply IH in H; [exact H|exact B1|exact B2|apply blk_double].
    - injection H as <- <- <- <- <-. split; [exact Bd|]. split; [exact Bsum|apply blk_rev, Hd].
  Qed.
  Lemma pass_one_b src b dst d s : is_bytes src -> is_bytes dst -> pass_one_g double_block bswap16 N4 c src b dst = Ok (d, s) -> is_bytes d /\ blk s.
  Proof using R_blk Hc.
    intros Bs Bd H. unfold pass_one_g in H. cbv zeta in H. pose proof Hc as Hc'. destruct Hc'.
    inv H. destruct p as [[[[p1 b1] o1] d1] s1]. apply p1_loop_b in E as (B1 & B2 & B3); try assumption; [|apply blk_zero|apply blk_double].
    assert (forall x, (128 <=? b1) = x -> forall q, (if x then '(dst0, sum) <- p1_group_g N4 c (offs4 c o1) src p1 d1 s1;; Ok (p1 + 128, b1 - 128, vxor o1 (cI2 c), dst0, sum)
      else Ok (p1, b1, o1, d1, s1)) = Ok q -> let '(_, _, o, d, s) := q in is_bytes d /\ blk s /\ blk o) as S1.
    { intros x _ [[[[? ?] ?] ?] ?] Q. destruct x; [|injection Q as <- <- <- <- <-; auto]. inv Q. destruct p as [d2 s2]. injection Q as <- <- <- <- <-.
      apply p1_group_b in E as [? ?]; try assumption; [|apply offs8_b, B3]. split; [assumption|]. split; [assumption|apply blk_xor; assumption]. }
    inv H. specialize (S1 _ eq_refl _ E). destruct p as [[[[p2 b2] o2] d2] s2]. destruct S1 as (C1 & C2 & C3).
    assert (forall x, (64 <=? b2) = x -> forall q, (if x then '(dst0, sum) <- p1_group_g N4 c (offs2 c o2) src p2 d2 s2;; Ok (p2 + 64, b2 - 64, vxor o2 (cI1 c), dst0, sum)
      else Ok (p2, b2, o2, d2, s2)) = Ok q -> let '(_, _, o, d, s) := q in is_bytes d /\ blk s /\ blk o) as S2.
    { intros x _ [[[[? ?] ?] ?] ?] Q. destruct x; [|injection Q as <- <- <- <- <-; auto]. inv Q. destruct p as [d3 s3]. injection Q as <- <- <- <- <-.
      apply p1_group_b in E0 as [? ?]; try assumption; [|apply offs8_b, C3]. split; [assumption|]. split; [assumption|apply blk_xor; assumption]. }
    inv H. specialize (S2 _ eq_refl _ E0). destruct p as [[[[p3 b3] o3] d3] s3]. destruct S2 as (D1 & D2 & D3).
    destruct (negb (b3 =? 0)); [|injection H as <- <-; auto]. eapply p1_group_b; [|exact Bs|exact D1|exact D2|exact H]. apply Forall_cons; [assumption|constructor].
  Qed.
  Lemma one_zero_b x n y : blk x -> one_zero_pad x n = Ok y -> blk y.
  Proof using.
    clear. unfold one_zero_pad. intros Hx H. inv H. inv H. injection H as <-. assert (is_bytes pad) as Bp by (apply bytesb; reflexivity).
    apply blk_vor; [apply blk_vand; [exact Hx|]|]; eapply load_blk; try eassumption.
  Qed.
  Lemma zero_pad_b x n y : blk x -> zero_pad x n = Ok y -> blk y.
  Proof using.
    clear. unfold zero_pad. intros Hx H. inv H. injection H as <-. assert (is_bytes pad) as Bp by (apply bytesb; reflexivity).
    apply blk_vand; [exact Hx|]. eapply load_blk; eassumption.
  Qed.
  Lemma core_eq t d src b a dst : blk t -> is_bytes src -> is_bytes dst ->
    core_g arm_double arm_bswap16 arm_is_zero AA A4 c t d src b a dst = core_g double_block bswap16 is_zero NA N4 c t d src b a dst.
  Proof using HR Hc R_blk.
    intros Ht Bs Bd. change AA with NA. unfold core_g. cbv zeta. rewrite pass_one_eq. set (b1 := if d =? 0 then u32 (b + a) else b). clearbody b1.
    set (ib := u32 (u32 (b1 - b1 mod 32) - 32)). clearbody ib. set (fb := b1 mod 32). clearbody fb.
    destruct (pass_one_g double_block bswap16 N4 c src ib dst) as [[d1 x1]| | | |] eqn:E1; cbn [bind]; [|reflexivity..].
    apply pass_one_b in E1 as [Bd1 Bx1]; [|assumption..]. pose proof Hc as Hc'. destruct Hc'.
    match goal with |- bind ?u _ = bind ?v _ => assert (u = v /\ forall q, v = Ok q -> let '(g0, g1, x) := q in blk x) as [-> Q] end.
    { destruct (16 <=? fb).
      - destruct (load src ib) as [p| | | |] eqn:E; cbn [bind]; [|split; [reflexivity|discriminate]..].
        destruct (load src (ib + 16)) as [p0| | | |] eqn:E0; cbn [bind]; [|split; [reflexivity|discriminate]..].
        destruct (one_zero_pad p0 (32 - fb)) as [p1| | | |] eqn:E2; cbn [bind]; [|split; [reflexivity|discriminate]..]. rewrite !e4. split; [reflexivity|].
        intros [[g0 g1] x] H. injection H as <- <- <-. apply load_blk in E, E0; [|assumption..]. apply one_zero_b in E2; [|assumption].
        apply blk_xor; apply n4_blk; repeat apply blk_xor; try assumption; apply blk_zero.
      - destruct (negb (fb =? 0)); [|split; [reflexivity|]; intros q H; injection H as <-; exact Bx1].
        destruct (load src ib) as [p| | | |] eqn:E; cbn [bind]; [|split; [reflexivity|discriminate]..].
        destruct (one_zero_pad p (16 - fb)) as [p1| | | |] eqn:E2; cbn [bind]; [|split; [reflexivity|discriminate]..]. rewrite !e4. split; [reflexivity|].
        intros [[g0 g1] x] H. injection H as <- <- <-. apply load_blk in E; [|assumption..]. apply one_zero_b in E2; [|assumption].
        apply n4_blk; repeat apply blk_xor; assumption. }
    match goal with |- bind ?u _ = bind ?u _ => destruct u as [[[g0 g1] x2]| | | |] eqn:Eq; cbn [bind]; [|reflexivity..] end.
    specialize (Q _ eq_refl). cbv beta iota in Q. clear Eq.
    destruct (load src (b1 - 32)) as [p| | | |] eqn:E; cbn [bind]; [|reflexivity..]. apply load_blk in E; [|assumption].
    destruct (load src (b1 - 32 + 16)) as [p0| | | |] eqn:E0; cbn [bind]; [|reflexivity..]. apply load_blk in E0; [|assumption].
    match goal with |- bind ?u _ = bind ?u _ => destruct u as [p1| | | |] eqn:Eq; cbn [bind]; [|reflexivity..] end.
    assert (blk p1) as B1 by (destruct (negb (d =? 0) || (a =? 0)); [injection Eq as <-; assumption|eapply zero_pad_b; [|exact Eq]; assumption]). clear Eq.
    rewrite !e4. assert (blk (cI c d) /\ blk (cJ c d) /\ blk (cI c (1 - d)) /\ blk (cJ c (1 - d))) as (BI & BJ & BI' & BJ').
    { unfold cI, cJ. destruct (d =? 0), (1 - d =? 0); auto. }
    set (F0 := N4 (vxor p1 (cI c d)) (cJ0 c) (cI0 c) (cL c) (vxor (vxor p x2) t)).
    assert (blk F0) as BF0 by (apply n4_blk; repeat apply blk_xor; assumption). set (F1 := vxor p1 (NA c F0 (cJ c d))).
    assert (blk F1) as BF1 by (apply blk_xor; [assumption|apply blk_aes; assumption]). set (G0 := vxor F0 (NA c F1 (cJ c (1 - d)))).
    assert (blk G0) as BG0 by (apply blk_xor; [assumption|apply blk_aes; assumption]).
    destruct (load pad a) as [pd| | | |] eqn:Ep; cbn [bind]; [|reflexivity..]. apply load_blk in Ep; [|apply bytesb; reflexivity].
    rewrite arm_is_zero_ok.
    2:{ split; [unfold vandnot; rewrite zipw_length, (blk_len _ Ep), (blk_len _ BG0); reflexivity|].
        apply zipw_bytes; [|apply Ep|apply BG0]. intros u v Hu Hv. apply is_byte_land; [apply is_byte_lxor; [exact Hu|unfold is_byte; lia]|exact Hv]. }
    clearbody G0. clearbody F1. clearbody F0.
    destruct (negb (d =? 0) && negb (is_zero (vandnot pd G0))); [reflexivity|]. rewrite pass_two_eq. step. destruct p2 as [d2 y2].
    match goal with |- bind ?u _ = bind ?v _ => assert (u = v) as -> end.
    { destruct (16 <=? fb).
      - step. rewrite !e4. reflexivity.
      - destruct (negb (fb =? 0)); [|reflexivity]. step. rewrite !e4. reflexivity. }
    step. destruct p2 as [d3 y3]. rewrite ?e4. reflexivity.
  Qed.
  Lemma feistel_eq n t ff m10 one l r rc : feistel_g A4 n c t ff m10 one l r rc = feistel_g N4 n c t ff m10 one l r rc.
  Proof using HR. revert l r rc. induction n as [|n IH]; intros l r rc; [reflexivity|]. cbn [feistel_g]. cbv zeta. rewrite !e4. apply IH. Qed.
  Lemma blk_vadd x y : blk x -> blk y -> blk (vadd x y).
  Proof using.
    clear. intros [L B] [L' B']. split; [unfold vadd; rewrite zipw_length; lia|]. apply zipw_bytes; [|assumption..]. intros u v _ _. unfold is_byte. lia.
  Qed.
  Lemma feistel_b n t ff m10 one l r rc l' r' : blk t -> blk ff -> blk m10 -> blk one -> blk l -> blk r -> blk rc -> feistel_g N4 n c t ff m10 one l r rc = (l', r') -> blk l' /\ blk r'.
  Proof using R_blk Hc.
    intros Ht Hf Hm Ho. revert l r rc. induction n as [|n IH]; intros l r rc Hl Hr Hrc H; cbn [feistel_g] in H; [injection H as <- <-; auto|]. cbv zeta in H.
    pose proof (blk_vadd _ _ Hrc Ho) as H1. pose proof (blk_vadd _ _ H1 Ho) as H2.
    match type of H with feistel_g _ _ _ _ _ _ _ ?u ?v _ = _ => assert (blk u) as Bu; [|assert (blk v) as Bv] end.
    - apply blk_vor; [apply blk_vand; [apply n4_blk; [repeat apply blk_xor; assumption|assumption]|assumption]|assumption].
    - apply blk_vor; [apply blk_vand; [apply n4_blk; [repeat apply blk_xor; assumption|assumption]|assumption]|assumption].
    - apply IH in H; assumption.
  Qed.
  Lemma set_byte_b v i x : zero_set_byte v i = Ok x -> blk x.
  Proof using.
    clear. unfold zero_set_byte. intros H. split; [rewrite (wr_len _ _ _ _ H); reflexivity|].
    eapply wr_bytes; [apply is_bytes_zeros| |exact H]. apply Forall_cons; [|constructor]. unfold is_byte, u8. lia.
  Qed.
  Lemma partial_b b pos n x : is_bytes b -> load_partial b pos n = Ok x -> blk x.
  Proof using.
    clear. unfold load_partial. intros B H. inv H. assert (is_bytes p) as Bp by (unfold rd in E; destruct (_ && _) in E; [|discriminate]; injection E as <-; unfold window; apply is_bytes_firstn, is_bytes_skipn, B).
    split; [rewrite (wr_len _ _ _ _ H); reflexivity|eapply wr_bytes; [apply is_bytes_zeros|exact Bp|exact H]].
  Qed.
  Lemma tiny_eq t d src b a dst : blk t -> is_bytes src -> 0 <= (if d =? 0 then u32 (b + a) else b) < 32 ->
    tiny_g arm_bswap16 arm_sll4 arm_srl4 arm_is_zero A4 c t d src b a dst = tiny_g bswap16 sll4 srl4 is_zero N4 c t d src b a dst.
  Proof using HR Hc R_blk.
    intros Ht Bs Hb. unfold tiny_g. cbv zeta. pose proof Hc as Hc'. destruct Hc'.
    match goal with |- bind ?u _ = bind ?u _ => destruct u as [buf| | | |] eqn:Eb; cbn [bind]; [|reflexivity..] end.
    assert (is_bytes buf) as Bb.
    { destruct (16 <=? b).
      - inv Eb. inv Eb. inv Eb. injection Eb as <-. apply load_blk in E; [|exact Bs]. apply partial_b in E0; [|exact Bs]. apply zero_pad_b in E1; [|exact E0].
        apply is_bytes_app. split; [apply E|apply E1].
      - inv Eb. inv Eb. injection Eb as <-. apply partial_b in E; [|exact Bs]. apply zero_pad_b in E0; [|exact E].
        apply is_bytes_app. split; [apply E0|apply is_bytes_zeros]. }
    clear Eb. set (n := if d =? 0 then u32 (b + a) else b) in *. clearbody n. assert (0 <= n / 2 <= 15) as Hh by lia. set (h := n / 2) in *. clearbody h.
    destruct (load buf 0) as [l| | | |] eqn:El; cbn [bind]; [|reflexivity..]. apply load_blk in El; [|exact Bb].
    destruct (load buf h) as [r| | | |] eqn:Er; cbn [bind]; [|reflexivity..]. apply load_blk in Er; [|exact Bb].
    assert (is_bytes pad) as Bp by (apply bytesb; reflexivity).
    destruct (load pad (16 - h)) as [ff| | | |] eqn:Ef; cbn [bind]; [|reflexivity..]. apply load_blk in Ef; [|exact Bp].
    destruct (load pad (32 - h)) as [m10| | | |] eqn:Em; cbn [bind]; [|reflexivity..]. pose proof (arm_mask h m10 Hh Em) as EM. apply load_blk in Em; [|exact Bp].
    unfold arm_bswap16. rewrite (arm_srl4_ok r Er), EM.
    match goal with |- bind ?u _ = bind ?u _ => destruct u as [[[m10' ff'] r']| | | |] eqn:Eq; cbn [bind]; [|reflexivity..] end.
    assert (blk m10' /\ blk ff' /\ blk r') as (Bm & Bf & Br).
    { destruct (negb (Z.land n 1 =? 0)).
      - inv Eq. assert (m10' = sll4 m10 /\ ff' = p /\ r' = bswap16 (srl4 (bswap16 r))) as (-> & -> & ->) by (split; [|split]; congruence). split; [|split].
        + apply sll4_ok, Em.
        + split; [rewrite (wr_len _ _ _ _ E); apply Ef|eapply wr_bytes; [apply Ef| |exact E]]. apply Forall_cons; [unfold is_byte; lia|constructor].
        + apply blk_rev. apply srl4_ok, blk_rev, Er.
      - injection Eq as <- <- <-. auto. }
    clear Eq. match goal with |- context [let '(_, _) := ?u in _] => destruct u as [t2 rnds] eqn:Et end.
    assert (blk t2) as Bt2 by (destruct (16 <=? n); injection Et as <- _; repeat apply blk_xor; assumption). clear Et.
    match goal with |- bind ?u _ = bind ?u _ => destruct u as [[one rc]| | | |] eqn:Eq; cbn [bind]; [|reflexivity..] end.
    assert (blk one /\ blk rc) as (Bo & Brc).
    { destruct (d =? 0).
      - inv Eq. injection Eq as <- <-. split; [eapply set_byte_b; exact E|apply blk_zero].
      - inv Eq. inv Eq. injection Eq as <- <-. split; eapply set_byte_b; eassumption. }
    clear Eq. destruct (load pad 32) as [p80| | | |] eqn:E8; cbn [bind]; [|reflexivity..]. apply load_blk in E8; [|exact Bp].
    rewrite !e4. rewrite feistel_eq.
    match goal with |- context [feistel_g N4 ?k c ?t ?f ?g ?o ?l ?r ?q] => destruct (feistel_g N4 k c t f g o l r q) as [l2 r2] eqn:EF; assert (blk l) as Bl end.
    { destruct (negb (d =? 0) && (n <? 16)); [|exact El]. apply blk_xor; [exact El|]. apply blk_vand; [|exact E8]. apply n4_blk; [|apply blk_zero].
      repeat apply blk_xor; try assumption. apply blk_vor; assumption. }
    apply feistel_b in EF as [B1 B2]; try assumption. 2:{ apply blk_vor; [apply blk_vand|]; assumption. }
    destruct (wr buf 0 r2) as [buf2| | | |] eqn:Ew; cbn [bind]; [|reflexivity..]. apply wr_bytes in Ew; [|exact Bb|apply B2].
    rewrite (arm_sll4_ok l2 B1).
    match goal with |- bind ?u _ = bind ?u _ => destruct u as [l3| | | |] eqn:Eq; cbn [bind]; [|reflexivity..] end.
    assert (blk l3) as B3.
    { destruct (negb (Z.land n 1 =? 0)); [|injection Eq as <-; exact B1]. inv Eq. inv Eq. assert (l3 = vor (bswap16 (sll4 (bswap16 l2))) (vand p p0)) as -> by congruence. apply load_blk in E; [|exact Ew]. apply set_byte_b in E0.
      apply blk_vor; [apply blk_rev; apply sll4_ok, blk_rev, B1|apply blk_vand; assumption]. }
    clear Eq. destruct (wr buf2 h l3) as [buf3| | | |] eqn:Ew3; cbn [bind]; [|reflexivity..]. apply wr_bytes in Ew3; [|exact Ew|apply B3].
    destruct (negb (d =? 0)).
    - destruct (load_partial buf3 (u32 (n - a)) a) as [tmp| | | |] eqn:Ep; cbn [bind]; [|reflexivity..]. apply partial_b in Ep; [|exact Ew3]. rewrite (arm_is_zero_ok tmp Ep). reflexivity.
    - match goal with |- bind ?u _ = bind ?v _ => assert (u = v) as -> end; [|reflexivity].
      destruct (n <? 16); [|reflexivity]. step. step. rewrite !e4. reflexivity.
  Qed.
  Lemma hash_b n nb a t : is_bytes n -> hash_g double_block bswap16 N4 c n nb a = Ok t -> blk t.
  Proof using R_blk Hc.
    intros Bn H. unfold hash_g in H. cbv zeta in H. pose proof Hc as Hc'. destruct Hc'. assert (is_bytes pad) as Bp by (apply bytesb; reflexivity).
    inv H. inv H. inv H. inv H. apply ok_inj in H. subst t. apply set_byte_b in E. apply partial_b in E0; [|exact Bn]. apply one_zero_b in E1; [|exact E0]. apply load_blk in E2; [|exact Bp].
    assert (forall x, blk (bswap16 (double_block x))) as D by (intros; apply blk_rev, blk_double).
    assert (blk (if nb =? 16 then vxor (bswap16 (double_block (bswap16 (cL c)))) (bswap16 (double_block (bswap16 (cJ2 c)))) else bswap16 (double_block (bswap16 (cL c))))) as Bi
      by (destruct (nb =? 16); [apply blk_xor|]; apply D).
    apply blk_xor; [apply blk_xor|]; apply n4_blk; repeat apply blk_xor; try assumption; apply D.
  Qed.
  Lemma encrypt_eq n nb a src b dst : is_bytes n -> is_bytes src -> is_bytes dst -> arm_encrypt R c n nb a src b dst = aez_encrypt_a R c n nb a src b dst.
  Proof using HR Hc R_blk.
    intros Bn Bs Bd. rewrite ni_encrypt. unfold arm_encrypt, encrypt_g. change AA with NA. rewrite hash_eq.
    destruct (hash_g double_block bswap16 N4 c n nb a) as [t| | | |] eqn:Eh; cbn [bind]; [|reflexivity..]. apply hash_b in Eh; [|exact Bn].
    destruct (b =? 0); [reflexivity|]. destruct (Z.ltb_spec (u32 (b + a)) 32) as [H|H].
    - rewrite tiny_eq; [reflexivity|assumption|assumption|]. change (0 =? 0) with true. cbv iota. split; [unfold u32; apply Z.mod_pos_bound; lia|exact H].
    - change NA with AA at 1. rewrite core_eq by assumption. reflexivity.
  Qed.
  Lemma decrypt_eq n nb a src b dst : is_bytes n -> is_bytes src -> is_bytes dst -> 0 <= b -> arm_decrypt R c n nb a src b dst = aez_decrypt_a R c n nb a src b dst.
  Proof using HR Hc R_blk.
    intros Bn Bs Bd Hb. rewrite ni_decrypt. unfold arm_decrypt, decrypt_g. destruct (b <? a); [reflexivity|]. rewrite hash_eq.
    destruct (hash_g double_block bswap16 N4 c n nb a) as [t| | | |] eqn:Eh; cbn [bind]; [|reflexivity..]. apply hash_b in Eh; [|exact Bn].
    destruct (b =? a).
    - change AA with NA. destruct (load_partial src 0 a) as [x| | | |] eqn:Ex; cbn [bind]; [|reflexivity..]. apply partial_b in Ex; [|exact Bs].
      destruct (zero_pad x (16 - a)) as [y| | | |] eqn:Ey; cbn [bind]; [|reflexivity..]. apply zero_pad_b in Ey; [|exact Ex].
      match goal with |- bind ?u _ = bind ?u _ => destruct u as [z| | | |] eqn:Ez; cbn [bind]; [|reflexivity..] end.
      apply zero_pad_b in Ez; [|destruct Hc; apply blk_aes; try assumption; apply blk_xor; assumption].
      rewrite arm_is_zero_ok; [reflexivity|]. split; [unfold vandnot; rewrite zipw_length, (blk_len _ Ez), (blk_len _ Ey); reflexivity|].
      apply zipw_bytes; [|apply Ez|apply Ey]. intros u v Hu Hv. apply is_byte_land; [apply is_byte_lxor; [exact Hu|unfold is_byte; lia]|exact Hv].
    - destruct (Z.ltb_spec b 32) as [H|H]; [|apply core_eq; assumption]. apply tiny_eq; try assumption. change (1 =? 0) with false. cbv iota. lia.
  Qed.
End Same.
Lemma setup_eq h key k old : is_bytes key -> (forall x, is_bytes (h x)) -> is_bytes (ctx_bytes old) -> zlen (ctx_bytes old) = 112 ->
  arm_setup h key k old = aez_setup_any h key k old.
Proof.
  intros Bk Bh Bo Lo. rewrite ni_setup. unfold arm_setup, setup_g.
  match goal with |- bind ?u _ = bind ?u _ => destruct u as [x| | | |] eqn:E; cbn [bind]; [|reflexivity..] end. cbv zeta. unfold arm_bswap16.
  assert (blk (cI0 x) /\ blk (cJ0 x)) as [B1 B2].
  { destruct (k =? 48).
    - destruct (load key 0) as [a| | | |] eqn:E0; try discriminate. destruct (load key 16) as [b| | | |] eqn:E1; try discriminate. destruct (load key 32) as [c| | | |] eqn:E2; try discriminate.
      injection E as <-. split; eapply load_blk; [|exact E0| |exact E1]; exact Bk.
    - destruct (rd key 0 k) as [kk| | | |]; try discriminate. cbn [bind] in E. destruct (wr (ctx_bytes old) 0 (h kk)) as [b| | | |] eqn:Ew; try discriminate. cbn [bind] in E. cbv zeta in E.
      assert (length b = 112%nat) as Lb by (rewrite (wr_len _ _ _ _ Ew); unfold zlen in Lo; lia). apply wr_bytes in Ew; [|exact Bo|apply Bh].
      assert (x = mk_ctx (cI0 (ctx_of b)) (cI1 (ctx_of b)) (cI2 (ctx_of b)) (cI1 (ctx_of b)) (cJ1 (ctx_of b)) (cJ2 (ctx_of b)) (cI2 (ctx_of b))) as -> by congruence.
      cbn [cI0 cJ0]. unfold ctx_of. cbn [cI0 cI1].
      split; (split; [rewrite firstn_length, skipn_length, Lb; reflexivity|apply is_bytes_firstn, is_bytes_skipn, Ew]). }
  assert (forall y, blk y -> blk (arm_double y)) as D by (intros y Hy; rewrite arm_double_ok by exact Hy; apply blk_rev, blk_double).
  rewrite (arm_double_ok (arm_double (cI0 x))), (arm_double_ok (arm_double (cJ0 x))) by (apply D; assumption). rewrite !arm_double_ok, !bswap_bswap by assumption. reflexivity.
Qed.
Lemma nth_first (l : bytes) (n i : nat) : (i < n)%nat -> nth i (firstn n l) 0 = nth i l 0.
Proof. revert n i. induction l as [|b l IH]; intros [|n] [|i] H; try lia; try reflexivity. cbn [firstn nth]. apply IH. lia. Qed.
Lemma aes_register : register_map aes_round.
Proof.
  intros x. unfold aes_round. f_equal. unfold shift_rows. apply map_ext_in. intros i Hi. rewrite <- firstn_map. symmetry. apply nth_first. cbn [In] in Hi.
  repeat (destruct Hi as [<-|Hi]; [lia|]). contradiction.
Qed.

Lemma arm_same R h key old I J L : block_map R -> register_map R -> is_bytes key -> (forall x, is_bytes (h x)) -> is_bytes (ctx_bytes old) -> zlen (ctx_bytes old) = 112 ->
  part I -> part J -> part L -> (zlen key = 48 -> key = I ++ J ++ L) -> (zlen key <> 48 -> h key = I ++ J ++ L) ->
  exists c, aez_setup_any h key (zlen key) old = Ok c /\ arm_setup h key (zlen key) old = Ok c /\
  forall n nb a src b dst, is_bytes n -> is_bytes src -> is_bytes dst -> 0 <= b ->
    arm_encrypt R c n nb a src b dst = aez_encrypt_a R c n nb a src b dst /\ arm_decrypt R c n nb a src b dst = aez_decrypt_a R c n nb a src b dst.
Proof.
  intros HR Hr Bk Bh Bo Lo HI HJ HL H1 H2. pose proof (block_map_blk R HR) as RB.
  pose proof (setup_any h key old I J L HI HJ HL Lo H1 H2) as Es. apply part_blk in HI, HJ, HL.
  destruct (setup_key I J L HI HJ HL) as (c & Ec & K). rewrite Ec in Es. pose proof (key_ctx_ok _ _ _ _ K) as Hc.
  exists c. split; [exact Es|]. split; [rewrite setup_eq; assumption|]. intros n nb a src b dst Bn Bs Bd Hb. split.
  - apply encrypt_eq; assumption.
  - apply decrypt_eq; assumption.
Qed.
Lemma arm_aez R h old I J L N : block_map R -> register_map R -> (forall x, is_bytes (h x)) -> is_bytes (ctx_bytes old) -> zlen (ctx_bytes old) = 112 ->
  part I -> part J -> part L -> is_bytes N -> zlen N <= 16 -> exists c, arm_setup h (I ++ J ++ L) 48 old = Ok c /\
  forall m g, is_bytes m -> zlen m <= UINT_MAX -> buffer (zlen m) g ->
    let x := encipher R I J L [zeros 16; N; []] m in
    arm_encrypt R c N (zlen N) 0 m (zlen m) g = Ok x /\ arm_decrypt R c N (zlen N) 0 x (zlen x) g = Ok (0, m).
Proof.
  intros HR Hr Bh Bo Lo HI HJ HL BN LN.
  assert (zlen (I ++ J ++ L) = 48) as L48 by (apply part_blk in HI, HJ, HL; rewrite !zlen_app, (blk_zlen _ HI), (blk_zlen _ HJ), (blk_zlen _ HL); reflexivity).
  assert (is_bytes (I ++ J ++ L)) as Bk by (destruct HI, HJ, HL; apply is_bytes_app; split; [assumption|]; apply is_bytes_app; split; assumption).
  destruct (arm_same R h (I ++ J ++ L) old I J L HR Hr Bk Bh Bo Lo HI HJ HL (fun _ => eq_refl) ltac:(intros H; contradiction (H L48))) as (c & E1 & E2 & H).
  destruct (without_authenticator R I J L N HR HI HJ HL BN LN) as (c1 & F1 & H1). destruct (aez_any_nonce R I J L N HR HI HJ HL BN LN) as (c2 & F2 & H2).
  rewrite (setup_any h _ old I J L HI HJ HL Lo (fun _ => eq_refl) ltac:(intros Q; contradiction (Q L48))) in E1.
  assert (c1 = c) as -> by congruence. assert (c2 = c) as -> by congruence. rewrite L48 in E2. exists c. split; [exact E2|].
  intros m g Bm Lm Bg x. destruct (H2 m g Bm Lm Bg) as [G1 G2]. fold x in G1, G2.
  destruct (encipher_perm R I J L N m m HR HI HJ HL BN LN Bm Bm Lm eq_refl) as (Bx & Lx & _). fold x in Bx, Lx.
  destruct (H N (zlen N) 0 m (zlen m) g BN Bm (proj1 Bg) (zlen_nonneg m)) as [K1 _]. destruct (H N (zlen N) 0 x (zlen x) g BN Bx (proj1 Bg) (zlen_nonneg x)) as [_ K2].
  rewrite K1, K2. destruct (H1 m g Bm Lm Bg) as [-> _]. destruct (H1 x g Bx ltac:(rewrite Lx; exact Lm) ltac:(rewrite Lx; exact Bg)) as [_ ->]. split; assumption.
Qed.
