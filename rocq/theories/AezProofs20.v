(** In-place operation of aez.c: both cases of the cipher. *)
From Verif Require Import Base BaseFacts KeyVal AezModel PrpModel AezMemModel AezProofs19.
From Coq Require Import Lia.

Lemma bind_ok {A B} (x : outcome A) (f : A -> outcome B) y : bind x f = Ok y -> exists a, x = Ok a /\ f a = Ok y.
Proof. destruct x; cbn [bind]; try discriminate. intros E. eexists. split; [reflexivity|exact E]. Qed.
Lemma ok_eq {A} (x y : A) : Ok x = Ok y -> x = y. Proof. congruence. Qed.

Section Two.
  Variable R : bytes -> bytes.
  Variables pre post : bytes.
  Notation dp := (zlen pre).
  Notation M d := (pre ++ d ++ post).

  Lemma mix_shift c s os : forall pos d sum d' ts sum', p2_mix R c s os pos d sum = Ok (d', ts, sum') -> p2_mix R c s os (dp + pos) (M d) sum = Ok (M d', ts, sum').
  Proof.
    induction os as [|o os IH]; intros pos d sum d' ts sum' E.
    - cbn in *. injection E as <- <- <-. reflexivity.
    - cbn [p2_mix] in *. apply bind_ok in E as (d0 & E0 & E). apply bind_ok in E as (d1 & E1 & E). apply bind_ok in E as (dd & EW & E).
      apply bind_ok in E as ([[d2 t2] s2] & E2 & E). unfold load in E0, E1 |- *. rewrite (rd_app pre d post _ _ _ E0). cbn [bind].
      replace (dp + pos + 16) with (dp + (pos + 16)) by lia. rewrite (rd_app pre d post _ _ _ E1). cbn [bind].
      rewrite (wr_app pre d post _ _ _ EW). cbn [bind]. replace (dp + pos + 32) with (dp + (pos + 32)) by lia. rewrite (IH _ _ _ _ _ _ E2). cbn [bind].
      apply ok_eq in E. injection E as <- <- <-. reflexivity.
  Qed.
  Lemma odd_shift c ts : forall pos d d', p2_odd R c ts pos d = Ok d' -> p2_odd R c ts (dp + pos) (M d) = Ok (M d').
  Proof.
    induction ts as [|t ts IH]; intros pos d d' E.
    - cbn in *. injection E as <-. reflexivity.
    - cbn [p2_odd] in *. apply bind_ok in E as (d0 & E0 & E). apply bind_ok in E as (d1 & E1 & E). unfold load in E0 |- *. rewrite (rd_app pre d post _ _ _ E0). cbn [bind].
      replace (dp + pos + 16) with (dp + (pos + 16)) by lia. rewrite (wr_app pre d post _ _ _ E1). cbn [bind].
      replace (dp + pos + 32) with (dp + (pos + 32)) by lia. apply IH. exact E.
  Qed.
  Lemma even_shift c os : forall pos d d', p2_even R c os pos d = Ok d' -> p2_even R c os (dp + pos) (M d) = Ok (M d').
  Proof.
    induction os as [|o os IH]; intros pos d d' E.
    - cbn in *. injection E as <-. reflexivity.
    - cbn [p2_even] in *. apply bind_ok in E as (d1 & E1 & E). apply bind_ok in E as (d0 & E0 & E). apply bind_ok in E as (d2 & E2 & E).
      unfold load in E0, E1 |- *. replace (dp + pos + 16) with (dp + (pos + 16)) by lia. rewrite (rd_app pre d post _ _ _ E1). cbn [bind].
      rewrite (rd_app pre d post _ _ _ E0). cbn [bind]. rewrite (wr_app pre d post _ _ _ E2). cbn [bind].
      replace (dp + pos + 32) with (dp + (pos + 32)) by lia. apply IH. exact E.
  Qed.
  Lemma group_shift c s os pos d sum d' sum' : p2_group R c s os pos d sum = Ok (d', sum') -> p2_group R c s os (dp + pos) (M d) sum = Ok (M d', sum').
  Proof.
    unfold p2_group. intros E. apply bind_ok in E as ([[d1 ts] s1] & E1 & E). apply bind_ok in E as (d2 & E2 & E). apply bind_ok in E as (d3 & E3 & E).
    rewrite (mix_shift _ _ _ _ _ _ _ _ _ E1). cbn [bind]. rewrite (odd_shift _ _ _ _ _ E2). cbn [bind]. rewrite (even_shift _ _ _ _ _ E3). cbn [bind].
    apply ok_eq in E. injection E as <- <-. reflexivity.
  Qed.
  Lemma p2_loop_shift c s fuel : forall pos b dbl d sum pos' b' o d' sum', p2_loop R fuel c s pos b dbl d sum = Ok (pos', b', o, d', sum') ->
    p2_loop R fuel c s (dp + pos) b dbl (M d) sum = Ok (dp + pos', b', o, M d', sum').
  Proof.
    induction fuel as [|fuel IH]; intros pos b dbl d sum pos' b' o d' sum' E; [discriminate|]. cbn [p2_loop] in *. destruct (256 <=? b).
    - apply bind_ok in E as ([d1 s1] & E1 & E). rewrite (group_shift _ _ _ _ _ _ _ _ E1). cbn [bind]. rewrite <- Z.add_assoc. apply IH. exact E.
    - apply ok_eq in E. injection E as <- <- <- <- <-. reflexivity.
  Qed.
  Lemma pass_two_shift c s b d d' sum' : pass_two R c s b d = Ok (d', sum') -> m_pass_two R c s dp b (M d) = Ok (M d', sum').
  Proof.
    unfold pass_two, m_pass_two. intros E. apply bind_ok in E as ([[[[p1 b1] o1] d1] s1] & E1 & E). apply p2_loop_shift in E1. rewrite Z.add_0_r in E1.
    rewrite E1. cbn [bind]. clear E1. apply bind_ok in E as ([[[[p2 b2] o2] d2] s2] & E2 & E). destruct (128 <=? b1).
    - apply bind_ok in E2 as ([d1' s1'] & F1 & F2). rewrite (group_shift _ _ _ _ _ _ _ _ F1). cbn [bind]. apply ok_eq in F2. injection F2 as <- <- <- <- <-.
      apply bind_ok in E as ([[[[p3 b3] o3] d3] s3] & E3 & E). destruct (64 <=? b1 - 128).
      + apply bind_ok in E3 as ([d3' s3'] & F3 & F4). rewrite <- Z.add_assoc. rewrite (group_shift _ _ _ _ _ _ _ _ F3). cbn [bind]. apply ok_eq in F4. injection F4 as <- <- <- <- <-.
        destruct (negb _); [rewrite <- Z.add_assoc; apply group_shift; exact E|]. apply ok_eq in E. injection E as <- <-. reflexivity.
      + apply ok_eq in E3. injection E3 as <- <- <- <- <-. cbn [bind].
        destruct (negb _); [rewrite <- Z.add_assoc; apply group_shift; exact E|]. apply ok_eq in E. injection E as <- <-. reflexivity.
    - apply ok_eq in E2. injection E2 as <- <- <- <- <-. cbn [bind].
      apply bind_ok in E as ([[[[p3 b3] o3] d3] s3] & E3 & E). destruct (64 <=? b1).
      + apply bind_ok in E3 as ([d3' s3'] & F3 & F4). rewrite (group_shift _ _ _ _ _ _ _ _ F3). cbn [bind]. apply ok_eq in F4. injection F4 as <- <- <- <- <-.
        destruct (negb _); [rewrite <- Z.add_assoc; apply group_shift; exact E|]. apply ok_eq in E. injection E as <- <-. reflexivity.
      + apply ok_eq in E3. injection E3 as <- <- <- <- <-. cbn [bind].
        destruct (negb _); [apply group_shift; exact E|]. apply ok_eq in E. injection E as <- <-. reflexivity.
  Qed.
End Two.

Section Both.
  Variable R : bytes -> bytes.
  Variable sp : Z.
  Variables pre post src : bytes.
  Variable len : Z.
  Hypothesis Hsp : 0 <= sp.
  Hypothesis Hsrc : zlen src = len.
  Hypothesis Hend : sp + len <= zlen pre + len + zlen post.
  Hypothesis Hov : sp = zlen pre \/ sp + len <= zlen pre \/ zlen pre + len <= sp.
  Notation dp := (zlen pre).
  Notation M d := (pre ++ d ++ post).
  Notation sim := (sim sp pre post src len).

  Lemma stage_sim c os thr (oo : bytes) (pos b : Z) (o d sum : bytes) (pos' b' : Z) (o' d' sum' : bytes) k : sim d (from pos) -> 32 * Z.of_nat (length os) = thr -> 0 <= b < 2 * thr -> b = 32 * k ->
    (if thr <=? b then '(d, sum) <- p1_group R c os src pos d sum ;; Ok (pos + thr, b - thr, oo, d, sum) else Ok (pos, b, o, d, sum)) = Ok (pos', b', o', d', sum') ->
    (if thr <=? b then '(m, sum) <- m_p1_group R c os sp dp pos (M d) sum ;; Ok (pos + thr, b - thr, oo, m, sum) else Ok (pos, b, o, M d, sum)) = Ok (pos', b', o', M d', sum') /\
    sim d' (from pos') /\ pos' + b' = pos + b /\ 0 <= b' < thr /\ exists k', b' = 32 * k'.
  Proof using Hsp Hsrc Hend Hov.
    intros HS HL Hb Hk E. destruct (Z.leb_spec thr b) as [H|H].
    - apply bind_ok in E as ([d1 s1] & E1 & E). destruct (group_sim R sp pre post src len Hsp Hsrc Hend Hov _ _ _ _ _ _ _ HS E1) as [A1 A2].
      rewrite A1. cbn [bind]. apply ok_eq in E. injection E as <- <- <- <- <-. rewrite HL in A2. split; [reflexivity|]. split; [exact A2|]. split; [lia|]. split; [lia|].
      exists (k - Z.of_nat (length os)). lia.
    - apply ok_eq in E. injection E as <- <- <- <- <-. split; [reflexivity|]. split; [exact HS|]. split; [lia|]. split; [lia|]. exists k. exact Hk.
  Qed.
  Lemma loop_rest c fuel : forall pos b dbl d sum pos' b' o d' sum' k, 0 <= b < 256 * Z.of_nat fuel -> b = 32 * k -> p1_loop R fuel c src pos b dbl d sum = Ok (pos', b', o, d', sum') ->
    0 <= b' < 256 /\ exists k', b' = 32 * k'.
  Proof using .
    clear. induction fuel as [|fuel IH]; intros pos b dbl d sum pos' b' o d' sum' k Hb Hk E; [discriminate|]. cbn [p1_loop] in E. destruct (Z.leb_spec 256 b).
    - apply bind_ok in E as ([d1 s1] & _ & E). apply (IH _ _ _ _ _ _ _ _ _ _ (k - 8)) in E; [exact E|lia|lia].
    - apply ok_eq in E. injection E as <- <- <- <- <-. split; [lia|]. exists k. exact Hk.
  Qed.
  Lemma pass_one_sim c b d d' sum' k : sim d (from 0) -> b = 32 * k -> 0 <= b -> pass_one R c src b d = Ok (d', sum') ->
    m_pass_one R c sp dp b (M d) = Ok (M d', sum') /\ sim d' (from b).
  Proof using Hsp Hsrc Hend Hov.
    unfold pass_one, m_pass_one. intros HS Hk Hb0 E. apply bind_ok in E as ([[[[p1 b1] o1] d1] s1] & E1 & E).
    destruct (loop_rest c (S (Z.to_nat (b / 256))) 0 b _ _ _ _ _ _ _ _ k ltac:(rewrite Nat2Z.inj_succ, Z2Nat.id by (apply Z.div_pos; lia); pose proof (Z.mul_succ_div_gt b 256); lia) Hk E1) as [B1 [k1 K1]].
    destruct (loop_sim R sp pre post src len Hsp Hsrc Hend Hov _ _ _ _ _ _ _ _ _ _ _ _ HS E1) as (A1 & A2 & A3 & A4).
    rewrite A1. cbn [bind]. clear A1 E1.
    apply bind_ok in E as ([[[[p2 b2] o2] d2] s2] & E2 & E).
    destruct (stage_sim c (offs4 c o1) 128 _ p1 b1 _ _ _ _ _ _ _ _ k1 A2 eq_refl ltac:(lia) K1 E2) as (C1 & C2 & C3 & C4 & k2 & K2). rewrite C1. cbn [bind]. clear C1 E2.
    apply bind_ok in E as ([[[[p3 b3] o3] d3] s3] & E3 & E).
    destruct (stage_sim c (offs2 c o2) 64 _ p2 b2 _ _ _ _ _ _ _ _ k2 C2 eq_refl ltac:(lia) K2 E3) as (D1 & D2 & D3 & D4 & k3 & K3). rewrite D1. cbn [bind]. clear D1 E3.
    destruct (Z.eqb_spec b3 0) as [H|H]; cbn [negb] in *.
    - apply ok_eq in E. injection E as <- <-. split; [reflexivity|]. replace b with p3 by lia. exact D2.
    - destruct (group_sim R sp pre post src len Hsp Hsrc Hend Hov _ _ _ _ _ _ _ D2 E) as [F1 F2]. split; [exact F1|].
      replace b with (p3 + 32 * Z.of_nat (length [o3])) by (cbn [length]; lia). exact F2.
  Qed.

  Lemma core_sim c t d0 d r d' : sim d (from 0) -> 32 <= len < 2 ^ 32 -> cipher_aez_core R c t d0 src len d = Ok (r, d') ->
    m_cipher_aez_core R c t d0 sp dp len (M d) = Ok (r, M d').
  Proof using Hsp Hsrc Hend Hov.
    intros HS Hlen E. unfold cipher_aez_core in E. unfold m_cipher_aez_core. cbv zeta in *.
    assert (u32 (u32 (len - len mod 32) - 32) = len - len mod 32 - 32) as Hi.
    { pose proof (Z.mod_pos_bound len 32 ltac:(lia)). pose proof (Z.div_mod len 32 ltac:(lia)). unfold u32. rewrite (Z.mod_small (len - len mod 32)) by lia. apply Z.mod_small. lia. }
    rewrite Hi in *. pose proof (Z.mod_pos_bound len 32 ltac:(lia)) as Hm. pose proof (Z.div_mod len 32 ltac:(lia)) as Hd.
    set (ib := len - len mod 32 - 32) in *.
    apply bind_ok in E as ([d1 x] & E1 & E).
    destruct (pass_one_sim c ib d d1 x (len / 32 - 1) HS ltac:(unfold ib; lia) ltac:(unfold ib; lia) E1) as [A1 A2]. rewrite A1. cbn [bind]. clear A1 E1.
    assert (forall q z, ib <= q -> load src q = Ok z -> load (M d1) (sp + q) = Ok z) as HLd.
    { intros q z Hq Ez. apply (sim_ld R sp pre post src len Hsp Hsrc Hend d1 (from ib)); [exact A2| |exact Ez]. intros i Hi2. unfold from. lia. }
    apply bind_ok in E as ([[f0 f1] x1] & E1 & E).
    match goal with |- bind ?X _ = _ => assert (X = Ok (f0, f1, x1)) as EX end.
    { destruct (16 <=? len mod 32).
      - apply bind_ok in E1 as (z0 & Z0 & E1). apply bind_ok in E1 as (z1 & Z1 & E1). rewrite (HLd _ _ (Z.le_refl _) Z0). cbn [bind].
        rewrite (HLd (ib + 16) _ ltac:(lia) Z1). cbn [bind]. exact E1.
      - destruct (negb (len mod 32 =? 0)); [|exact E1]. apply bind_ok in E1 as (z0 & Z0 & E1). rewrite (HLd _ _ (Z.le_refl _) Z0). cbn [bind]. exact E1. }
    rewrite EX. cbn [bind]. clear EX E1.
    apply bind_ok in E as (z0 & Z0 & E). apply bind_ok in E as (z1 & Z1 & E). rewrite (HLd (len - 32) _ ltac:(unfold ib; lia) Z0). cbn [bind].
    rewrite (HLd (len - 32 + 16) _ ltac:(unfold ib; lia) Z1). cbn [bind]. apply bind_ok in E as (pp & EP & E). rewrite EP. cbn [bind]. clear HLd Z0 Z1 EP.
    destruct (_ && _); [apply ok_eq in E; injection E as <- <-; reflexivity|].
    apply bind_ok in E as ([d2 y] & E2 & E). rewrite (pass_two_shift R pre post _ _ _ _ _ _ E2). cbn [bind]. clear E2.
    apply bind_ok in E as ([d3 y3] & E3 & E).
    match goal with |- bind ?X _ = _ => assert (X = Ok (M d3, y3)) as EX end.
    { destruct (16 <=? len mod 32).
      - apply bind_ok in E3 as (w1 & W1 & E3). rewrite W1. cbn [bind]. apply bind_ok in E3 as (e1 & V1 & E3). apply bind_ok in E3 as (e2 & V2 & E3).
        rewrite (wr_app pre d2 post _ _ _ V1). cbn [bind]. rewrite (wr_app pre e1 post _ _ _ V2). cbn [bind]. apply ok_eq in E3. congruence.
      - destruct (negb (len mod 32 =? 0)); [|apply ok_eq in E3; congruence].
        apply bind_ok in E3 as (w1 & W1 & E3). rewrite W1. cbn [bind]. apply bind_ok in E3 as (e1 & V1 & E3).
        rewrite (wr_app pre d2 post _ _ _ V1). cbn [bind]. apply ok_eq in E3. congruence. }
    rewrite EX. cbn [bind]. clear EX E3.
    apply bind_ok in E as (e1 & V1 & E). apply bind_ok in E as (e2 & V2 & E).
    rewrite (wr_app pre d3 post _ _ _ V1). cbn [bind]. rewrite (wr_app pre e1 post _ _ _ V2). cbn [bind]. apply ok_eq in E. congruence.
  Qed.

  Lemma tiny_sim c t d0 d r d' : sim d (from 0) -> cipher_aez_tiny R c t d0 src len d = Ok (r, d') ->
    m_cipher_aez_tiny R c t d0 sp dp len (M d) = Ok (r, M d').
  Proof using Hsp Hsrc Hend Hov.
    intros HS E. unfold cipher_aez_tiny in E. unfold m_cipher_aez_tiny. cbv zeta in *.
    assert (forall q n z, 0 <= q -> rd src q n = Ok z -> rd (M d) (sp + q) n = Ok z) as HLd.
    { intros q n z Hq Ez. apply (sim_ld R sp pre post src len Hsp Hsrc Hend d (from 0)); [exact HS| |exact Ez]. intros i Hi2. unfold from. lia. }
    apply bind_ok in E as (buf & E1 & E).
    match goal with |- bind ?X _ = _ => assert (X = Ok buf) as EX end.
    { destruct (16 <=? len); unfold load, load_partial in E1 |- *.
      - apply bind_ok in E1 as (b0 & B0 & E1). apply bind_ok in E1 as (b1 & B1 & E1). apply bind_ok in B1 as (b2 & B2 & B1).
        replace sp with (sp + 0) at 1 by lia. rewrite (HLd 0 _ _ ltac:(lia) B0). cbn [bind]. rewrite (HLd 16 _ _ ltac:(lia) B2). cbn [bind]. rewrite B1. exact E1.
      - apply bind_ok in E1 as (b1 & B1 & E1). apply bind_ok in B1 as (b2 & B2 & B1).
        replace sp with (sp + 0) at 1 by lia. rewrite (HLd 0 _ _ ltac:(lia) B2). cbn [bind]. rewrite B1. exact E1. }
    rewrite EX. cbn [bind]. clear EX E1 HLd.
    do 4 (let X := fresh in let EQ := fresh in apply bind_ok in E as (X & EQ & E); rewrite EQ; cbn [bind]; clear EQ).
    apply bind_ok in E as ([[a1 a2] a3] & EQ & E). rewrite EQ. cbn [bind]. clear EQ.
    destruct (if 16 <=? len then _ else _) as [t' rnds].
    apply bind_ok in E as ([one rcon] & EQ & E). rewrite EQ. cbn [bind]. clear EQ.
    apply bind_ok in E as (p80 & EQ & E). rewrite EQ. cbn [bind]. clear EQ.
    destruct (feistel _ _ _ _ _ _ _ _ _ _) as [l' r'].
    do 5 (let X := fresh in let EQ := fresh in apply bind_ok in E as (X & EQ & E); rewrite EQ; cbn [bind]; clear EQ).
    apply bind_ok in E as (d2 & V1 & E).
    replace dp with (dp + 0) by lia. rewrite (wr_app pre d post _ _ _ V1). cbn [bind]. apply ok_eq in E. congruence.
  Qed.

  Lemma enc_sim c n nb d d' : sim d (from 0) -> len < 2 ^ 32 -> aez_encrypt R c n nb src len d = Ok d' -> m_aez_encrypt R c n nb sp len dp (M d) = Ok (M d').
  Proof using Hsp Hsrc Hend Hov.
    intros HS Hlen E. unfold aez_encrypt in E. unfold m_aez_encrypt. apply bind_ok in E as (t & Et & E). rewrite Et. cbn [bind].
    destruct (len =? 0); [apply ok_eq in E; congruence|]. destruct (Z.ltb_spec len 32) as [H|H]; apply bind_ok in E as ([r d1] & E1 & E).
    - rewrite (tiny_sim _ _ _ _ _ _ HS E1). cbn [bind]. apply ok_eq in E. congruence.
    - rewrite (core_sim _ _ _ _ _ _ HS ltac:(lia) E1). cbn [bind]. apply ok_eq in E. congruence.
  Qed.
  Lemma dec_sim c n nb d r d' : sim d (from 0) -> len < 2 ^ 32 -> aez_decrypt R c n nb src len d = Ok (r, d') -> m_aez_decrypt R c n nb sp len dp (M d) = Ok (r, M d').
  Proof using Hsp Hsrc Hend Hov.
    intros HS Hlen E. unfold aez_decrypt in E. unfold m_aez_decrypt. apply bind_ok in E as (t & Et & E). rewrite Et. cbn [bind].
    destruct (len =? 0); [apply ok_eq in E; congruence|]. destruct (Z.ltb_spec len 32) as [H|H].
    - exact (tiny_sim _ _ _ _ _ _ HS E).
    - exact (core_sim _ _ _ _ _ _ HS ltac:(lia) E).
  Qed.
End Both.
