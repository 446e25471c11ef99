(** The ARM path in one memory computes the same as the AES-NI path. *)
From Verif Require Import Base BaseFacts KeyVal AezModel AezProofs AezProofs2 AezProofs3 AezProofs4 PrpModel PrpSpec AesRound PrpProofs AezSpec AezProofs7 AezProofs8 AezProofs9 AezProofs12 AezAuthModel AezArchModel AezArchSpec AezProofs13 AezProofs16 AezProofs17 AezProofs18
  AezMemModel AezMemSpec AezProofs21 AezArmMemModel.
From Coq Require Import Lia.

Lemma ni_m_encrypt R c n nb sp b dp m : m_aez_encrypt R c n nb sp b dp m = m_encrypt_g double_block bswap16 sll4 srl4 is_zero (aes R) (aes4 R) c n nb sp b dp m.
Proof. reflexivity. Qed.
Lemma ni_m_decrypt R c n nb sp b dp m : m_aez_decrypt R c n nb sp b dp m = m_decrypt_g double_block bswap16 sll4 srl4 is_zero (aes R) (aes4 R) c n nb sp b dp m.
Proof. reflexivity. Qed.

Section Same.
  Variable R : bytes -> bytes.
  Hypothesis HR : register_map R.
  Hypothesis R_blk : forall x, blk x -> blk (R x).
  Variable c : ctx.
  Hypothesis Hc : ctx_ok c.
  Local Notation A4 := (arm_aes4 R). Local Notation N4 := (aes4 R). Local Notation AA := (arm_aes R). Local Notation NA := (aes R).
  Ltac step := match goal with |- bind ?x _ = bind ?x _ => let p := fresh "p" in destruct x as [p| | | |]; cbn [bind]; [|reflexivity..] end.
  Ltac inv H := match type of H with bind ?x _ = Ok _ => let p := fresh "p" in let E := fresh "E" in destruct x as [p| | | |] eqn:E; cbn [bind] in H; try discriminate end.
  Lemma m_p1_even_eq os sp dp pos m : m_p1_even_g A4 c os sp dp pos m = m_p1_even_g N4 c os sp dp pos m.
  Proof using HR. revert pos m. induction os as [|o os IH]; intros pos m; [reflexivity|]. cbn [m_p1_even_g]. do 2 step. rewrite (e4 R HR). step. apply IH. Qed.
  Lemma m_p1_odd_eq os sp dp pos m sum : m_p1_odd_g A4 c os sp dp pos m sum = m_p1_odd_g N4 c os sp dp pos m sum.
  Proof using HR. revert pos m sum. induction os as [|o os IH]; intros pos m sum; [reflexivity|]. cbn [m_p1_odd_g]. do 2 step. cbv zeta. rewrite (e4 R HR). step. apply IH. Qed.
  Lemma m_p1_group_eq os sp dp pos m sum : m_p1_group_g A4 c os sp dp pos m sum = m_p1_group_g N4 c os sp dp pos m sum.
  Proof using HR. unfold m_p1_group_g. rewrite m_p1_even_eq. step. apply m_p1_odd_eq. Qed.
  Lemma m_p1_loop_eq fuel sp dp pos b dbl m sum : blk dbl ->
    m_p1_loop_g arm_double arm_bswap16 A4 fuel c sp dp pos b (bswap16 dbl) m sum = m_p1_loop_g double_block bswap16 N4 fuel c sp dp pos b dbl m sum.
  Proof using HR.
    revert pos b dbl m sum. induction fuel as [|fuel IH]; intros pos b dbl m sum Hd; [reflexivity|]. cbn [m_p1_loop_g]. unfold arm_bswap16 at 1 3.
    destruct (256 <=? b); [|reflexivity]. rewrite m_p1_group_eq. step. destruct p as [d s].
    rewrite arm_double_ok by (apply blk_rev, Hd). rewrite bswap_bswap. apply IH, blk_double.
  Qed.
  Lemma m_pass_one_eq sp dp b m : m_pass_one_g arm_double arm_bswap16 A4 c sp dp b m = m_pass_one_g double_block bswap16 N4 c sp dp b m.
  Proof using HR Hc.
    unfold m_pass_one_g. cbv zeta. unfold arm_bswap16 at 2. destruct Hc.
    rewrite arm_double_ok by assumption. rewrite m_p1_loop_eq by apply blk_double.
    step. destruct p as [[[[p1 b1] o1] d1] s1]. rewrite !m_p1_group_eq.
    step. destruct p as [[[[p2 b2] o2] d2] s2]. rewrite !m_p1_group_eq.
    step. destruct p as [[[[p3 b3] o3] d3] s3]. rewrite !m_p1_group_eq. reflexivity.
  Qed.
  Lemma m_pass_two_eq s dp b m : m_pass_two_g arm_double arm_bswap16 A4 c s dp b m = m_pass_two_g double_block bswap16 N4 c s dp b m.
  Proof using HR Hc.
    unfold m_pass_two_g. cbv zeta. unfold arm_bswap16 at 2. destruct Hc.
    rewrite arm_double_ok by assumption. rewrite (p2_loop_eq R HR c) by apply blk_double.
    step. destruct p as [[[[p1 b1] o1] d1] s1]. rewrite !(p2_group_eq R HR c).
    step. destruct p as [[[[p2 b2] o2] d2] s2]. rewrite !(p2_group_eq R HR c).
    step. destruct p as [[[[p3 b3] o3] d3] s3]. rewrite !(p2_group_eq R HR c). reflexivity.
  Qed.
  Lemma m_p1_even_b os sp dp pos m d : Forall blk os -> is_bytes m -> m_p1_even_g N4 c os sp dp pos m = Ok d -> is_bytes d.
  Proof using R_blk Hc.
    intros Ho. revert pos m. induction Ho as [|o os Hob _ IH]; intros pos m Bd H; cbn [m_p1_even_g] in H; [injection H as <-; exact Bd|].
    inv H. inv H. inv H. apply IH in H; [exact H|]. eapply wr_bytes; [exact Bd| |exact E1]. apply (n4_blk R R_blk c Hc); [apply blk_xor; [eapply load_blk; [|eassumption]; assumption|exact Hob]|eapply load_blk; [|eassumption]; assumption].
  Qed.
  Lemma m_p1_odd_b os sp dp pos m sum d s : is_bytes m -> blk sum -> m_p1_odd_g N4 c os sp dp pos m sum = Ok (d, s) -> is_bytes d /\ blk s.
  Proof using R_blk Hc.
    revert pos m sum. induction os as [|o os IH]; intros pos m sum Bd Bsum H; cbn [m_p1_odd_g] in H; [injection H as <- <-; auto|].
    inv H. inv H. cbv zeta in H. inv H. assert (blk (N4 p (cJ0 c) (cI0 c) (cL c) p0)) as Bt by (apply (n4_blk R R_blk c Hc); (eapply load_blk; [|eassumption]; assumption)).
    apply IH in H; [exact H| |apply blk_xor; assumption]. eapply wr_bytes; [exact Bd| |exact E1]. apply Bt.
  Qed.
  Lemma m_p1_group_b os sp dp pos m sum d s : Forall blk os -> is_bytes m -> blk sum -> m_p1_group_g N4 c os sp dp pos m sum = Ok (d, s) -> is_bytes d /\ blk s.
  Proof using R_blk Hc.
    unfold m_p1_group_g. intros Ho Bd Bsum H. inv H. eapply m_p1_odd_b; [|exact Bsum|exact H]. eapply (m_p1_even_b os sp dp pos m); eassumption.
  Qed.
  Lemma m_p1_loop_b fuel sp dp pos b dbl m sum pos' b' o' d' s' : is_bytes m -> blk sum -> blk dbl ->
    m_p1_loop_g double_block bswap16 N4 fuel c sp dp pos b dbl m sum = Ok (pos', b', o', d', s') -> is_bytes d' /\ blk s' /\ blk o'.
  Proof using R_blk Hc.
    revert pos b dbl m sum. induction fuel as [|fuel IH]; intros pos b dbl m sum Bd Bsum Hd H; cbn [m_p1_loop_g] in H; [discriminate|].
    destruct (256 <=? b).
    - inv H. destruct p as [d1 s1]. pose proof (blk_rev _ Hd) as Hr. apply m_p1_group_b in E as [B1 B2]; try assumption; [|apply (offs8_b c Hc), Hr].
      apply IH in H; [exact H|exact B1|exact B2|apply blk_double].
    - injection H as <- <- <- <- <-. split; [exact Bd|]. split; [exact Bsum|apply blk_rev, Hd].
  Qed.
  Lemma m_pass_one_b sp dp b m d s : is_bytes m -> m_pass_one_g double_block bswap16 N4 c sp dp b m = Ok (d, s) -> is_bytes d /\ blk s.
  Proof using R_blk Hc.
    intros Bd H. unfold m_pass_one_g in H. cbv zeta in H. pose proof Hc as Hc'. destruct Hc'.
    inv H. destruct p as [[[[p1 b1] o1] d1] s1]. apply m_p1_loop_b in E as (B1 & B2 & B3); try assumption; [|apply blk_zero|apply blk_double].
    assert (forall x, (128 <=? b1) = x -> forall q, (if x then '(dst0, sum) <- m_p1_group_g N4 c (offs4 c o1) sp dp p1 d1 s1;; Ok (p1 + 128, b1 - 128, vxor o1 (cI2 c), dst0, sum)
      else Ok (p1, b1, o1, d1, s1)) = Ok q -> let '(_, _, o, d, s) := q in is_bytes d /\ blk s /\ blk o) as S1.
    { intros x _ [[[[? ?] ?] ?] ?] Q. destruct x; [|injection Q as <- <- <- <- <-; auto]. inv Q. destruct p as [d2 s2]. injection Q as <- <- <- <- <-.
      apply m_p1_group_b in E as [? ?]; try assumption; [|apply (offs8_b c Hc), B3]. split; [assumption|]. split; [assumption|apply blk_xor; assumption]. }
    inv H. specialize (S1 _ eq_refl _ E). destruct p as [[[[p2 b2] o2] d2] s2]. destruct S1 as (C1 & C2 & C3).
    assert (forall x, (64 <=? b2) = x -> forall q, (if x then '(dst0, sum) <- m_p1_group_g N4 c (offs2 c o2) sp dp p2 d2 s2;; Ok (p2 + 64, b2 - 64, vxor o2 (cI1 c), dst0, sum)
      else Ok (p2, b2, o2, d2, s2)) = Ok q -> let '(_, _, o, d, s) := q in is_bytes d /\ blk s /\ blk o) as S2.
    { intros x _ [[[[? ?] ?] ?] ?] Q. destruct x; [|injection Q as <- <- <- <- <-; auto]. inv Q. destruct p as [d3 s3]. injection Q as <- <- <- <- <-.
      apply m_p1_group_b in E0 as [? ?]; try assumption; [|apply (offs8_b c Hc), C3]. split; [assumption|]. split; [assumption|apply blk_xor; assumption]. }
    inv H. specialize (S2 _ eq_refl _ E0). destruct p as [[[[p3 b3] o3] d3] s3]. destruct S2 as (D1 & D2 & D3).
    destruct (negb (b3 =? 0)); [|injection H as <- <-; auto]. eapply m_p1_group_b; [|exact D1|exact D2|exact H]. apply Forall_cons; [assumption|constructor].
  Qed.
  Lemma m_core_eq t d sp dp b m : blk t -> is_bytes m ->
    m_core_g arm_double arm_bswap16 arm_is_zero AA A4 c t d sp dp b m = m_core_g double_block bswap16 is_zero NA N4 c t d sp dp b m.
  Proof using HR Hc R_blk.
    intros Ht Bd. change AA with NA. unfold m_core_g. cbv zeta. rewrite m_pass_one_eq.
    set (ib := u32 (u32 (b - b mod 32) - 32)). clearbody ib. set (fb := b mod 32). clearbody fb.
    destruct (m_pass_one_g double_block bswap16 N4 c sp dp ib m) as [[d1 x1]| | | |] eqn:E1; cbn [bind]; [|reflexivity..].
    apply m_pass_one_b in E1 as [Bd1 Bx1]; [|assumption..]. pose proof Hc as Hc'. destruct Hc'.
    match goal with |- bind ?u _ = bind ?v _ => assert (u = v /\ forall q, v = Ok q -> let '(g0, g1, x) := q in blk x) as [-> Q] end.
    { destruct (16 <=? fb).
      - destruct (load d1 (sp + ib)) as [p| | | |] eqn:E; cbn [bind]; [|split; [reflexivity|discriminate]..].
        destruct (load d1 (sp + (ib + 16))) as [p0| | | |] eqn:E0; cbn [bind]; [|split; [reflexivity|discriminate]..].
        destruct (one_zero_pad p0 (32 - fb)) as [p1| | | |] eqn:E2; cbn [bind]; [|split; [reflexivity|discriminate]..]. rewrite !(e4 R HR). split; [reflexivity|].
        intros [[g0 g1] x] H. injection H as <- <- <-. apply load_blk in E, E0; [|assumption..]. apply one_zero_b in E2; [|assumption].
        apply blk_xor; apply (n4_blk R R_blk c Hc); repeat apply blk_xor; try assumption; apply blk_zero.
      - destruct (negb (fb =? 0)); [|split; [reflexivity|]; intros q H; injection H as <-; exact Bx1].
        destruct (load d1 (sp + ib)) as [p| | | |] eqn:E; cbn [bind]; [|split; [reflexivity|discriminate]..].
        destruct (one_zero_pad p (16 - fb)) as [p1| | | |] eqn:E2; cbn [bind]; [|split; [reflexivity|discriminate]..]. rewrite !(e4 R HR). split; [reflexivity|].
        intros [[g0 g1] x] H. injection H as <- <- <-. apply load_blk in E; [|assumption..]. apply one_zero_b in E2; [|assumption].
        apply (n4_blk R R_blk c Hc); repeat apply blk_xor; assumption. }
    match goal with |- bind ?u _ = bind ?u _ => destruct u as [[[g0 g1] x2]| | | |] eqn:Eq; cbn [bind]; [|reflexivity..] end.
    specialize (Q _ eq_refl). cbv beta iota in Q. clear Eq.
    destruct (load d1 (sp + (b - 32))) as [p| | | |] eqn:E; cbn [bind]; [|reflexivity..]. apply load_blk in E; [|assumption].
    destruct (load d1 (sp + (b - 32 + 16))) as [p1| | | |] eqn:E0; cbn [bind]; [|reflexivity..]. apply load_blk in E0; [|assumption].
    rewrite !(e4 R HR). assert (blk (cI c d) /\ blk (cJ c d) /\ blk (cI c (1 - d)) /\ blk (cJ c (1 - d))) as (BI & BJ & BI' & BJ').
    { unfold cI, cJ. destruct (d =? 0), (1 - d =? 0); auto. }
    set (F0 := N4 (vxor p1 (cI c d)) (cJ0 c) (cI0 c) (cL c) (vxor (vxor p x2) t)).
    assert (blk F0) as BF0 by (apply (n4_blk R R_blk c Hc); repeat apply blk_xor; assumption). set (F1 := vxor p1 (NA c F0 (cJ c d))).
    assert (blk F1) as BF1 by (apply blk_xor; [assumption|apply blk_aes; assumption]). set (G0 := vxor F0 (NA c F1 (cJ c (1 - d)))).
    assert (blk G0) as BG0 by (apply blk_xor; [assumption|apply blk_aes; assumption]).
    destruct (load pad 0) as [pd| | | |] eqn:Ep; cbn [bind]; [|reflexivity..]. apply load_blk in Ep; [|apply bytesb; reflexivity].
    rewrite arm_is_zero_ok.
    2:{ split; [unfold vandnot; rewrite zipw_length, (blk_len _ Ep), (blk_len _ BG0); reflexivity|].
        apply zipw_bytes; [|apply Ep|apply BG0]. intros u v Hu Hv. apply is_byte_land; [apply is_byte_lxor; [exact Hu|unfold is_byte; lia]|exact Hv]. }
    clearbody G0. clearbody F1. clearbody F0.
    destruct (negb (d =? 0) && negb (is_zero (vandnot pd G0))); [reflexivity|]. rewrite m_pass_two_eq. step. destruct p0 as [d2 y2].
    match goal with |- bind ?u _ = bind ?v _ => assert (u = v) as -> end.
    { destruct (16 <=? fb).
      - step. rewrite !(e4 R HR). reflexivity.
      - destruct (negb (fb =? 0)); [|reflexivity]. step. rewrite !(e4 R HR). reflexivity. }
    step. destruct p0 as [d3 y3]. rewrite ?(e4 R HR). reflexivity.
  Qed.
  Lemma m_tiny_eq t d sp dp b m : blk t -> is_bytes m -> 0 <= b < 32 ->
    m_tiny_g arm_bswap16 arm_sll4 arm_srl4 A4 c t d sp dp b m = m_tiny_g bswap16 sll4 srl4 N4 c t d sp dp b m.
  Proof using HR Hc R_blk.
    intros Ht Bs Hb. unfold m_tiny_g. cbv zeta. pose proof Hc as Hc'. destruct Hc'.
    match goal with |- bind ?u _ = bind ?u _ => destruct u as [buf| | | |] eqn:Eb; cbn [bind]; [|reflexivity..] end.
    assert (is_bytes buf) as Bb.
    { destruct (16 <=? b).
      - inv Eb. inv Eb. inv Eb. injection Eb as <-. apply load_blk in E; [|exact Bs]. apply partial_b in E0; [|exact Bs]. apply zero_pad_b in E1; [|exact E0].
        apply is_bytes_app. split; [apply E|apply E1].
      - inv Eb. inv Eb. injection Eb as <-. apply partial_b in E; [|exact Bs]. apply zero_pad_b in E0; [|exact E].
        apply is_bytes_app. split; [apply E0|apply is_bytes_zeros]. }
    clear Eb. assert (0 <= b / 2 <= 15) as Hh by lia. set (h := b / 2) in *. clearbody h.
    destruct (load buf 0) as [l| | | |] eqn:El; cbn [bind]; [|reflexivity..]. apply load_blk in El; [|exact Bb].
    destruct (load buf h) as [r| | | |] eqn:Er; cbn [bind]; [|reflexivity..]. apply load_blk in Er; [|exact Bb].
    assert (is_bytes pad) as Bp by (apply bytesb; reflexivity).
    destruct (load pad (16 - h)) as [ff| | | |] eqn:Ef; cbn [bind]; [|reflexivity..]. apply load_blk in Ef; [|exact Bp].
    destruct (load pad (32 - h)) as [m10| | | |] eqn:Em; cbn [bind]; [|reflexivity..]. pose proof (arm_mask h m10 Hh Em) as EM. apply load_blk in Em; [|exact Bp].
    unfold arm_bswap16. rewrite (arm_srl4_ok r Er), EM.
    match goal with |- bind ?u _ = bind ?u _ => destruct u as [[[m10' ff'] r']| | | |] eqn:Eq; cbn [bind]; [|reflexivity..] end.
    assert (blk m10' /\ blk ff' /\ blk r') as (Bm & Bf & Br).
    { destruct (negb (Z.land b 1 =? 0)).
      - inv Eq. assert (m10' = sll4 m10 /\ ff' = p /\ r' = bswap16 (srl4 (bswap16 r))) as (-> & -> & ->) by (split; [|split]; congruence). split; [|split].
        + apply sll4_ok, Em.
        + split; [rewrite (wr_len _ _ _ _ E); apply Ef|eapply wr_bytes; [apply Ef| |exact E]]. apply Forall_cons; [unfold is_byte; lia|constructor].
        + apply blk_rev. apply srl4_ok, blk_rev, Er.
      - injection Eq as <- <- <-. auto. }
    clear Eq. match goal with |- context [let '(_, _) := ?u in _] => destruct u as [t2 rnds] eqn:Et end.
    assert (blk t2) as Bt2 by (destruct (16 <=? b); injection Et as <- _; repeat apply blk_xor; assumption). clear Et.
    match goal with |- bind ?u _ = bind ?u _ => destruct u as [[one rc]| | | |] eqn:Eq; cbn [bind]; [|reflexivity..] end.
    assert (blk one /\ blk rc) as (Bo & Brc).
    { destruct (d =? 0).
      - inv Eq. injection Eq as <- <-. split; [eapply set_byte_b; exact E|apply blk_zero].
      - inv Eq. inv Eq. injection Eq as <- <-. split; eapply set_byte_b; eassumption. }
    clear Eq. destruct (load pad 32) as [p80| | | |] eqn:E8; cbn [bind]; [|reflexivity..]. apply load_blk in E8; [|exact Bp].
    rewrite !(e4 R HR). rewrite (feistel_eq R HR c).
    match goal with |- context [feistel_g N4 ?k c ?t ?f ?g ?o ?l ?r ?q] => destruct (feistel_g N4 k c t f g o l r q) as [l2 r2] eqn:EF; assert (blk l) as Bl end.
    { destruct (negb (d =? 0) && (b <? 16)); [|exact El]. apply blk_xor; [exact El|]. apply blk_vand; [|exact E8]. apply (n4_blk R R_blk c Hc); [|apply blk_zero].
      repeat apply blk_xor; try assumption. apply blk_vor; assumption. }
    apply (feistel_b R R_blk c Hc) in EF as [B1 B2]; try assumption. 2:{ apply blk_vor; [apply blk_vand|]; assumption. }
    destruct (wr buf 0 r2) as [buf2| | | |] eqn:Ew; cbn [bind]; [|reflexivity..]. apply wr_bytes in Ew; [|exact Bb|apply B2].
    rewrite (arm_sll4_ok l2 B1). step. step.
    match goal with |- bind ?u _ = bind ?v _ => assert (u = v) as -> end; [|reflexivity].
    destruct ((d =? 0) && (b <? 16)); [|reflexivity]. step. step. rewrite !(e4 R HR). reflexivity.
  Qed.
  Lemma m_encrypt_eq n nb sp b dp m : is_bytes n -> is_bytes m -> 0 <= b -> arm_m_encrypt R c n nb sp b dp m = m_aez_encrypt R c n nb sp b dp m.
  Proof using HR Hc R_blk.
    intros Bn Bm Hb. rewrite ni_m_encrypt. unfold arm_m_encrypt, m_encrypt_g. rewrite (hash_eq R HR c Hc).
    destruct (hash_g double_block bswap16 N4 c n nb 0) as [t| | | |] eqn:Eh; cbn [bind]; [|reflexivity..]. apply (hash_b R R_blk c Hc) in Eh; [|exact Bn].
    destruct (b =? 0); [reflexivity|]. destruct (Z.ltb_spec b 32) as [H|H].
    - rewrite m_tiny_eq; [reflexivity|assumption|assumption|lia].
    - rewrite m_core_eq by assumption. reflexivity.
  Qed.
  Lemma m_decrypt_eq n nb sp b dp m : is_bytes n -> is_bytes m -> 0 <= b -> arm_m_decrypt R c n nb sp b dp m = m_aez_decrypt R c n nb sp b dp m.
  Proof using HR Hc R_blk.
    intros Bn Bm Hb. rewrite ni_m_decrypt. unfold arm_m_decrypt, m_decrypt_g. rewrite (hash_eq R HR c Hc).
    destruct (hash_g double_block bswap16 N4 c n nb 0) as [t| | | |] eqn:Eh; cbn [bind]; [|reflexivity..]. apply (hash_b R R_blk c Hc) in Eh; [|exact Bn].
    destruct (b =? 0); [reflexivity|]. destruct (Z.ltb_spec b 32) as [H|H].
    - apply m_tiny_eq; [assumption|assumption|lia].
    - apply m_core_eq; assumption.
  Qed.
End Same.

Lemma arm_prp_setup ml I J L l old : part I -> part J -> part L -> is_bytes (ctx_bytes old) -> zlen (ctx_bytes old) = 112 ->
  arm_prp_make ml true old (VKey (I ++ J ++ L) l) = prp_make ml true (VKey (I ++ J ++ L) l).
Proof.
  intros HI HJ HL Bo Lo. unfold arm_prp_make, prp_make. cbn [negb v_unlock_get].
  assert (zlen (I ++ J ++ L) = 48) as L48 by (apply part_blk in HI, HJ, HL; rewrite !zlen_app, (blk_zlen _ HI), (blk_zlen _ HJ), (blk_zlen _ HL); reflexivity).
  assert (is_bytes (I ++ J ++ L)) as Bk by (destruct HI, HJ, HL; apply is_bytes_app; split; [assumption|]; apply is_bytes_app; split; assumption).
  rewrite (setup_eq (fun _ => zeros 48)) by (try assumption; intros; apply is_bytes_zeros).
  replace 48 with (zlen (I ++ J ++ L)). rewrite (setup_any _ _ old I J L HI HJ HL Lo (fun _ => eq_refl)) by (intros H; contradiction (H L48)). reflexivity.
Qed.
Theorem arm_mem_same R I J L : block_map R -> register_map R -> part I -> part J -> part L -> exists c, aez_setup (I ++ J ++ L) = Ok c /\
  forall N nb m sp dp n, is_bytes N -> is_bytes m -> 0 <= n ->
    arm_m_encrypt R c N nb sp n dp m = m_aez_encrypt R c N nb sp n dp m /\ arm_m_decrypt R c N nb sp n dp m = m_aez_decrypt R c N nb sp n dp m.
Proof.
  intros HR Hr HI HJ HL. pose proof (block_map_blk R HR) as RB. apply part_blk in HI, HJ, HL.
  destruct (setup_key I J L HI HJ HL) as (c & Ec & K). pose proof (key_ctx_ok _ _ _ _ K) as Hc. exists c. split; [exact Ec|].
  intros N nb m sp dp n BN Bm Hn. split; [apply m_encrypt_eq|apply m_decrypt_eq]; assumption.
Qed.
Theorem arm_mem_prp R ml I J L l old : block_map R -> register_map R -> part I -> part J -> part L -> is_bytes (ctx_bytes old) -> zlen (ctx_bytes old) = 112 -> exists b,
  arm_prp_make ml true old (VKey (I ++ J ++ L) l) = (VEmpty, Ok (VKey b ml)) /\
  forall l' m sp dp n, is_bytes m -> 0 <= n <= UINT_MAX -> regions m sp dp n ->
    arm_m_prp_encrypt R true (VKey b l') sp n dp m = (VKey b false, Ok (overlay m dp (encipher R I J L [zeros 16; zeros 16; []] (bytes_at m sp n)))) /\
    (forall y, is_bytes y -> zlen y = n -> bytes_at m sp n = encipher R I J L [zeros 16; zeros 16; []] y ->
      arm_m_prp_decrypt R ml true (VKey b l') sp n dp m = (VKey b ml, Ok (overlay m dp y))).
Proof.
  intros HR Hr HI HJ HL Bo Lo. destruct (mem_prp R ml I J L l HR HI HJ HL) as (b & Eb & H). destruct (arm_mem_same R I J L HR Hr HI HJ HL) as (c & Ec & Hc).
  exists b. split; [rewrite arm_prp_setup; assumption|].
  assert (ctx_of b = c) as Hb.
  { unfold prp_make in Eb. cbn [negb v_unlock_get] in Eb. rewrite Ec in Eb. unfold v_make in Eb. assert (b = ctx_bytes c) as -> by congruence.
    apply part_blk in HI, HJ, HL. destruct (setup_key I J L HI HJ HL) as (c' & Ec' & K). assert (c' = c) as -> by congruence. apply ctx_of_bytes. exact (key_ctx_ok _ _ _ _ K). }
  intros l' m sp dp n Hm Hn Hreg. destruct (H l' m sp dp n Hm Hn Hreg) as [A B].
  destruct (Hc (zeros 16) 16 m sp dp n (is_bytes_zeros 16) Hm (proj1 Hn)) as [C1 C2].
  unfold m_prp_encrypt in A. unfold m_prp_decrypt in B. unfold arm_m_prp_encrypt, arm_m_prp_decrypt. cbn [negb v_unlock_get] in *. rewrite Hb in *. rewrite C1, C2. split; assumption.
Qed.
Theorem arm_mem_round_trip R ml I J L l old : block_map R -> register_map R -> part I -> part J -> part L -> is_bytes (ctx_bytes old) -> zlen (ctx_bytes old) = 112 -> exists b,
  arm_prp_make ml true old (VKey (I ++ J ++ L) l) = (VEmpty, Ok (VKey b ml)) /\
  forall l' m p n, is_bytes m -> 0 <= n <= UINT_MAX -> 0 <= p -> p + n <= zlen m -> exists m',
    arm_m_prp_encrypt R true (VKey b l') p n p m = (VKey b false, Ok m') /\ arm_m_prp_decrypt R ml true (VKey b false) p n p m' = (VKey b ml, Ok m) /\
    m_prp_encrypt R true (VKey b l') p n p m = (VKey b false, Ok m') /\ m_prp_decrypt R ml true (VKey b false) p n p m' = (VKey b ml, Ok m).
Proof.
  intros HR Hr HI HJ HL Bo Lo. destruct (mem_round_trip R ml I J L l HR HI HJ HL) as (b & Eb & H). destruct (arm_mem_prp R ml I J L l old HR Hr HI HJ HL Bo Lo) as (b' & Eb' & Hb').
  rewrite arm_prp_setup in Eb' by assumption. assert (b' = b) as -> by congruence. exists b. split; [rewrite arm_prp_setup; assumption|].
  intros l' m p n Hm Hn Hp HB. destruct (H l' m p n Hm Hn Hp HB) as (m' & A1 & A2). exists m'.
  destruct (mem_prp R ml I J L l HR HI HJ HL) as (b2 & Eb2 & H2). assert (b2 = b) as -> by congruence.
  assert (regions m p p n) as Hreg by (unfold regions; lia).
  destruct (Hb' l' m p p n Hm Hn Hreg) as [C1 _]. destruct (H2 l' m p p n Hm Hn Hreg) as [C2 _].
  assert (m' = overlay m p (encipher R I J L [zeros 16; zeros 16; []] (bytes_at m p n))) as -> by congruence.
  split; [exact C1|]. split; [|split; assumption].
  set (x := encipher R I J L [zeros 16; zeros 16; []] (bytes_at m p n)) in *.
  pose proof (at_len m p n Hp ltac:(lia) HB) as HA. pose proof (at_bytes m p n Hm) as HY.
  destruct (encipher_perm R I J L (zeros 16) (bytes_at m p n) (bytes_at m p n) HR HI HJ HL (is_bytes_zeros 16) ltac:(vm_compute; discriminate) HY HY ltac:(lia) eq_refl) as (P1 & P2 & _). fold x in P1, P2.
  assert (p + zlen x <= zlen m) as HX by (rewrite P2, HA; exact HB).
  destruct (Hb' false (overlay m p x) p p n) as [_ B].
  - apply overlay_bytes; assumption.
  - exact Hn.
  - unfold regions. rewrite overlay_len by assumption. lia.
  - rewrite (B (bytes_at m p n) HY HA).
    + rewrite overlay_back; [reflexivity|lia|lia|lia|rewrite P2; exact HA].
    + pose proof (overlay_at m p x Hp HX) as O. rewrite P2, HA in O. exact O.
Qed.
