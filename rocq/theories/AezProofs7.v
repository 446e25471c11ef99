(** aez_setup, aez_hash, aez_encrypt and aez_decrypt. *)
From Verif Require Import Base BaseFacts AezModel AezProofs AezProofs2 AezProofs3 AezProofs4 AezProofs5 AezProofs6.
From Coq Require Import Lia.

Lemma setup_ok key : is_bytes key -> zlen key = 48 -> exists c, aez_setup key = Ok c /\ ctx_ok c /\ zlen (ctx_bytes c) = 112 /\ is_bytes (ctx_bytes c).
Proof.
  intros Hb Hl. assert (length key = 48%nat) as L by (unfold zlen in Hl; lia).
  destruct (load_window key 0 ltac:(lia) Hb) as [E0 B0]. destruct (load_window key 16 ltac:(lia) Hb) as [E1 B1].
  destruct (load_window key 32 ltac:(lia) Hb) as [E2 B2]. change (Z.of_nat 0) with 0 in E0. change (Z.of_nat 16) with 16 in E1. change (Z.of_nat 32) with 32 in E2.
  unfold aez_setup. rewrite E0, E1, E2. cbn [bind]. cbv zeta. eexists. split; [reflexivity|].
  split; [constructor; cbn [cI0 cI1 cI2 cJ0 cJ1 cJ2 cL]; repeat first [assumption|apply blk_double|apply blk_rev]|].
  assert (forall x, blk (bswap16 (double_block x))) as D by (intros; apply blk_rev, blk_double).
  unfold ctx_bytes. cbn [cI0 cI1 cI2 cJ0 cJ1 cJ2 cL]. split.
  - rewrite !zlen_app. rewrite !(blk_zlen _ (D _)), (blk_zlen _ B0), (blk_zlen _ B1), (blk_zlen _ B2). reflexivity.
  - rewrite !is_bytes_app. repeat split; try (apply D); first [apply B0|apply B1|apply B2].
Qed.
Lemma ctx_of_ok b : is_bytes b -> zlen b = 112 -> ctx_ok (ctx_of b).
Proof.
  intros Hb Hl. assert (length b = 112%nat) as L by (unfold zlen in Hl; lia).
  assert (forall i, (i <= 6)%nat -> blk (firstn 16 (skipn (16 * i) b))) as W.
  { intros i Hi. split; [rewrite firstn_length, skipn_length; lia|]. apply is_bytes_firstn, is_bytes_skipn, Hb. }
  constructor; unfold ctx_of; cbn [cI0 cI1 cI2 cJ0 cJ1 cJ2 cL]; apply W; lia.
Qed.
Lemma ctx_of_bytes c : ctx_ok c -> ctx_of (ctx_bytes c) = c.
Proof.
  intros []. destruct c as [a b c d e f g]. cbn [cI0 cI1 cI2 cJ0 cJ1 cJ2 cL] in *.
  unfold ctx_of, ctx_bytes. cbn [cI0 cI1 cI2 cJ0 cJ1 cJ2 cL].
  assert (forall (p x q : bytes) n, length p = n -> blk x -> firstn 16 (skipn n (p ++ x ++ q)) = x) as W.
  { intros p x q n <- Hx. rewrite skipn_app, Nat.sub_diag, skipn_all. cbn [skipn app]. apply firstn16, Hx. }
  repeat match goal with H : blk ?x |- _ => pose proof (blk_len _ H); revert H end. intros.
  f_equal.
  - apply (W [] a); [reflexivity|assumption].
  - apply (W a b); [lia|assumption].
  - rewrite (app_assoc a). apply W; [rewrite app_length; lia|assumption].
  - rewrite (app_assoc a), (app_assoc (a ++ b)). apply W; [rewrite !app_length; lia|assumption].
  - rewrite (app_assoc a), (app_assoc (a ++ b)), (app_assoc ((a ++ b) ++ c)). apply W; [rewrite !app_length; lia|assumption].
  - rewrite (app_assoc a), (app_assoc (a ++ b)), (app_assoc ((a ++ b) ++ c)), (app_assoc (((a ++ b) ++ c) ++ d)). apply W; [rewrite !app_length; lia|assumption].
  - replace (a ++ b ++ c ++ d ++ e ++ f ++ g) with ((a ++ b ++ c ++ d ++ e ++ f) ++ g ++ []) by (rewrite app_nil_r, <- !app_assoc; reflexivity).
    apply W; [rewrite !app_length; lia|assumption].
Qed.

Section Aez.
  Variable R : bytes -> bytes.
  Hypothesis R_blk : forall x, blk x -> blk (R x).
  Variable c : ctx.
  Hypothesis Hc : ctx_ok c.

  Lemma hash_ok : exists t, aez_hash R c (zeros 16) 16 = Ok t /\ blk t.
  Proof using R_blk Hc.
    unfold aez_hash. cbv zeta. change (zero_set_byte 0 15) with (Ok zero). cbn [bind].
    change (16 =? 16) with true. change (load_partial (zeros 16) 0 16) with (Ok zero). cbn [bind]. cbv iota.
    change (one_zero_pad zero (16 - 16)) with (Ok zero). cbn [bind]. change (load pad 32) with (Ok p80). cbn [bind].
    eexists. split; [reflexivity|].
    assert (blk p80) by (apply blkb_ok; vm_compute; reflexivity).
    destruct Hc.
    repeat first [assumption|apply blk_zero|apply (blk_aes4 R R_blk)|apply blk_xor|apply blk_rev|apply blk_double].
  Qed.

  (** the dispatch of aez_encrypt / aez_decrypt *)
  Definition run (t : bytes) (d : Z) (src dst : bytes) : outcome (Z * bytes) :=
    if zlen src =? 0 then Ok (0, dst)
    else if zlen src <? 32 then cipher_aez_tiny R c t d src (zlen src) dst
    else cipher_aez_core R c t d src (zlen src) dst.

  Lemma run_ok t d l : d = 0 \/ d = 1 -> blk t -> is_bytes l -> zlen l < 2 ^ 32 ->
    exists l', is_bytes l' /\ zlen l' = zlen l /\
      (forall dst, is_bytes dst -> zlen dst = zlen l -> run t d l dst = Ok (0, l')) /\
      (forall dst, is_bytes dst -> zlen dst = zlen l -> run t (1 - d) l' dst = Ok (0, l)).
  Proof using R_blk Hc.
    intros Hd Ht Hb Hl. assert (1 - d = 0 \/ 1 - d = 1) as Hd' by lia. unfold run.
    destruct (Z.eqb_spec (zlen l) 0) as [E|E].
    { exists l. split; [assumption|]. split; [reflexivity|]. assert (l = []) as -> by (destruct l; [reflexivity|rewrite zlen_cons in E; pose proof (zlen_nonneg l); lia]).
      split; intros dst _ Hz; (destruct dst as [|x dst]; [reflexivity|exfalso; rewrite zlen_cons in Hz; change (zlen (@nil Z)) with 0 in Hz; pose proof (zlen_nonneg dst); lia]). }
    assert (zlen l = Z.of_nat (length l)) as Zl by reflexivity. pose proof (zlen_nonneg l).
    destruct (Z.ltb_spec (zlen l) 32) as [E2|E2].
    - destruct (tiny_val_ok R R_blk c Hc t d l Hd Ht Hb ltac:(lia)) as [Bv Lv].
      assert (zlen (tiny_val R c t d l) = zlen l) as Zv by (unfold zlen; rewrite Lv; reflexivity).
      exists (tiny_val R c t d l). split; [exact Bv|]. split; [exact Zv|]. split; intros dst Bd Ld.
      + apply (tiny_ok R R_blk c Hc); (assumption || lia).
      + rewrite Zv. replace (zlen l =? 0) with false by lia. replace (zlen l <? 32) with true by lia.
        rewrite <- Zv. rewrite (tiny_ok R R_blk c Hc) by (assumption || lia).
        rewrite (tiny_inverse R R_blk c Hc) by (assumption || lia). reflexivity.
    - destruct (msg_split R R_blk l Hb ltac:(lia)) as (m & -> & Hm).
      destruct (core_val_ok R R_blk c Hc t d m Ht Hm) as [Hv Lv].
      assert (zlen (msg (core_val R c t d m)) = zlen (msg m)) as Zv by (unfold zlen; rewrite Lv; reflexivity).
      exists (msg (core_val R c t d m)). split; [|split; [exact Zv|]; split; intros dst Bd Ld].
      + destruct (core_val R c t d m) as [[[ps f] f0] f1]. destruct Hv as (V1 & V2 & _ & V3 & V4). unfold msg. rewrite !is_bytes_app.
        split; [apply flat_bytes; exact V1|]. split; [exact V2|]. split; [apply V3|apply V4].
      + apply (core_ok R R_blk c Hc); assumption.
      + rewrite Zv. replace (zlen (msg m) =? 0) with false by lia. replace (zlen (msg m) <? 32) with false by lia.
        rewrite <- Zv. rewrite (core_ok R R_blk c Hc) by (assumption || lia).
        rewrite (core_inverse R R_blk c Hc) by (assumption || lia). reflexivity.
  Qed.

  (** aez_encrypt and aez_decrypt with the zero nonce are inverse permutations of the strings of each length. *)
  Lemma aez_ok l : is_bytes l -> zlen l < 2 ^ 32 -> exists l', is_bytes l' /\ zlen l' = zlen l /\
    (forall dst, is_bytes dst -> zlen dst = zlen l -> aez_encrypt R c (zeros 16) 16 l (zlen l) dst = Ok l') /\
    (forall dst, is_bytes dst -> zlen dst = zlen l -> aez_decrypt R c (zeros 16) 16 l' (zlen l) dst = Ok (0, l)).
  Proof using R_blk Hc.
    intros Hb Hl. destruct hash_ok as (t & Et & Bt). destruct (run_ok t 0 l (or_introl eq_refl) Bt Hb Hl) as (l' & B' & L' & E1 & E2).
    exists l'. split; [exact B'|]. split; [exact L'|]. split; intros dst Bd Ld.
    - unfold aez_encrypt. rewrite Et. cbn [bind]. specialize (E1 dst Bd Ld). unfold run in E1.
      destruct (zlen l =? 0); [injection E1 as ->; reflexivity|]. destruct (zlen l <? 32); rewrite E1; reflexivity.
    - unfold aez_decrypt. rewrite Et. cbn [bind]. specialize (E2 dst Bd Ld). unfold run in E2. rewrite L' in E2. exact E2.
  Qed.
  Lemma aez_dec_ok l : is_bytes l -> zlen l < 2 ^ 32 -> exists l', is_bytes l' /\ zlen l' = zlen l /\
    (forall dst, is_bytes dst -> zlen dst = zlen l -> aez_decrypt R c (zeros 16) 16 l (zlen l) dst = Ok (0, l')) /\
    (forall dst, is_bytes dst -> zlen dst = zlen l -> aez_encrypt R c (zeros 16) 16 l' (zlen l) dst = Ok l).
  Proof using R_blk Hc.
    intros Hb Hl. destruct hash_ok as (t & Et & Bt). destruct (run_ok t 1 l (or_intror eq_refl) Bt Hb Hl) as (l' & B' & L' & E1 & E2).
    exists l'. split; [exact B'|]. split; [exact L'|]. split; intros dst Bd Ld.
    - unfold aez_decrypt. rewrite Et. cbn [bind]. specialize (E1 dst Bd Ld). unfold run in E1. exact E1.
    - unfold aez_encrypt. rewrite Et. cbn [bind]. specialize (E2 dst Bd Ld). unfold run in E2. rewrite L' in E2. change (1 - 1) with 0 in E2.
      destruct (zlen l =? 0); [injection E2 as ->; reflexivity|]. destruct (zlen l <? 32); rewrite E2; reflexivity.
  Qed.
End Aez.
