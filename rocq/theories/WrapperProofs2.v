From Verif Require Import BaseFacts KeyVal PrgModel PrgProofs HmacModel HmacSpec HmacProofs HmacProofs2 CipherModel CipherProofs.
From Verif Require Import RcprfModel RcprfSpec RcprfProofs5 RcprfProofs6 WrapperModel WrapperInst WrapperSpec WrapperProofs.

(** The serialization of each class. *)
Lemma cipher_serializes ml kb l : zlen kb = 32 -> serializes (CipherC ml) (VKey kb l) kb /\
  w_deser (CipherC ml) kb (zlen kb) = Ok (VKey kb ml, zeros 32, zlen kb).
Proof.
  intros Hk. destruct (cipher_roundtrip (fun _ b => b) ml kb l [] 0 Hk ltac:(lia) ltac:(lia)) as [S D]. rewrite app_nil_r in D.
  assert (D' : w_deser (CipherC ml) kb (zlen kb) = Ok (VKey kb ml, zeros 32, zlen kb)).
  { cbn [w_deser CipherC]. rewrite D, Hk. reflexivity. }
  split; [|exact D']. unfold serializes. split; [rewrite Hk; reflexivity|]. split; [unfold STREAM_MAX; lia|]. split; [eexists; exact S|].
  exists (VKey kb ml), (zeros 32). split; [exact D'|].
  destruct (cipher_roundtrip (fun _ b => b) ml kb ml [] 0 Hk ltac:(lia) ltac:(lia)) as [S' _]. cbn [w_ser CipherC]. rewrite S'. reflexivity.
Qed.
Lemma prf_serializes ml N kb l : zlen kb = 32 -> serializes (PrfC ml N) (VKey kb l) kb /\
  w_deser (PrfC ml N) kb (zlen kb) = Ok (VKey kb ml, zeros 32, zlen kb).
Proof.
  intros Hk. destruct (prf_roundtrip ml kb l [] Hk) as [S D]. rewrite app_nil_r in D.
  assert (D' : w_deser (PrfC ml N) kb (zlen kb) = Ok (VKey kb ml, zeros 32, zlen kb)).
  { cbn [w_deser PrfC]. rewrite D, Hk. reflexivity. }
  split; [|exact D']. unfold serializes. split; [rewrite Hk; reflexivity|]. split; [unfold STREAM_MAX; lia|]. split; [eexists; exact S|].
  exists (VKey kb ml), (zeros 32). split; [exact D'|].
  destruct (prf_roundtrip ml kb ml [] Hk) as [S' _]. cbn [w_ser PrfC]. rewrite S'. reflexivity.
Qed.
Lemma prg_serializes ml kb l : zlen kb = 32 -> serializes (PrgC ml) (VKey kb l) kb /\
  w_deser (PrgC ml) kb (zlen kb) = Ok (VKey kb ml, zeros 32, zlen kb).
Proof.
  intros Hk. destruct (prg_roundtrip ml kb l [] Hk) as (S & D & _). rewrite app_nil_r in D.
  assert (D' : w_deser (PrgC ml) kb (zlen kb) = Ok (VKey kb ml, zeros 32, zlen kb)).
  { cbn [w_deser PrgC]. rewrite D, Hk. reflexivity. }
  split; [|exact D']. unfold serializes. split; [rewrite Hk; reflexivity|]. split; [unfold STREAM_MAX; lia|]. split; [eexists; exact S|].
  exists (VKey kb ml), (zeros 32). split; [exact D'|].
  destruct (prg_roundtrip ml kb ml [] Hk) as [S' _]. cbn [w_ser PrgC]. rewrite S'. reflexivity.
Qed.
Lemma rc_ser ml h k l : rc_serialize ml (mk_rcprf h (VKey k l)) = (mk_rcprf h (VKey k ml), Ok (h :: k)).
Proof. reflexivity. Qed.
Lemma rcprf_serializes ml N R h l : 1 <= h <= 64 -> zlen R = 32 -> exists s tl, serializes (RCPrfC ml N) (mk_rcprf h (VKey R l)) s /\
  w_deser (RCPrfC ml N) s (zlen s) = Ok (mk_rcprf h (VKey R ml), tl, zlen s).
Proof.
  intros Hh Hk. destruct (rc_roundtrip (fun _ _ => []) ml R h l [] Hh Hk) as (s & wi & S & Lw & D & L); [rewrite zlen_nil; lia|].
  destruct (rc_roundtrip (fun _ _ => []) ml R h ml [] Hh Hk) as (s' & wi' & S' & Lw' & D' & L'); [rewrite zlen_nil; lia|].
  rewrite !app_nil_r in *. exists s, wi.
  assert (E : s' = s).
  { unfold rc_serialize, prg_serialize in S, S'. cbn in S, S'. congruence. }
  subst s'. split; [|exact D].
  unfold serializes. split; [cbn [w_size RCPrfC]; rewrite L; reflexivity|]. split; [unfold rc_serialized_size, prg_kKeySize in *; unfold STREAM_MAX; lia|].
  split; [eexists; exact S|]. exists (mk_rcprf h (VKey R ml)), wi. split; [exact D|]. cbn [w_ser RCPrfC]. rewrite S'. reflexivity.
Qed.
Lemma crcprf_serializes blk ml dbg N gN gK : 1 <= N < 2 ^ 16 -> zlen gN = N -> zlen gK = 32 ->
  forall R h l ranges lo hi c0 c, 2 <= h <= 64 -> 0 <= lo <= hi -> hi < 2 ^ (h - 1) -> ~ (lo = 0 /\ hi = 2 ^ (h - 1) - 1) ->
  nested lo hi ranges ->
  snd (rc_constrain blk ml dbg N gN gK (mk_rcprf h (VKey R l)) lo hi) = Ok c0 ->
  constrain_chain (c_constrain blk ml dbg N gN gK) c0 ranges = Ok c ->
  exists s tl, 0 < zlen s /\ (zlen s <= STREAM_MAX -> serializes (CRCPrfC ml dbg N) c s) /\
    zlen s = c_serialized_size N c /\ w_deser (CRCPrfC ml dbg N) s (zlen s) = Ok (c, tl, zlen s).
Proof.
  intros HN Hg HgK R h l ranges lo hi c0 c Hh Hlo Hhi Hf Hn E0 E1.
  destruct (constrained_roundtrip blk ml dbg N gN gK HN Hg HgK R h l ranges lo hi [] c0 c Hh Hlo Hhi Hf Hn E0 E1) as (s & wi & S & L & Lw & D).
  rewrite !app_nil_r in *. exists s, wi.
  assert (0 < zlen s).
  { unfold c_deserialize in D. destruct (_ <=? _) eqn:X in D; [discriminate|]. unfold kSerializedElementInfoSize in X. lia. }
  split; [assumption|]. split; [|split; assumption]. intros Hmax.
  unfold serializes. split; [cbn [w_size CRCPrfC]; rewrite L; reflexivity|]. split; [lia|]. split; [eexists; exact S|].
  exists c, wi. split; [exact D|]. cbn [w_ser CRCPrfC]. rewrite S. reflexivity.
Qed.

Section Two.
  Context (H : bytes -> bytes) (stream : bytes -> bytes -> nat -> bytes) (ml : bool) (g : Z -> bytes).
  Context (HH : forall y, zlen (H y) = 64) (Hg : sized g) (HS : forall k n l, length (stream k n l) = l).

  (** C36: two classes with different headers. *)
  Lemma unwrap_two_classes C1 C2 tk ek l1 l1' l2 l2' c_rep r1 r2 w1 w2 k1 k2 c1 c2 : zlen tk = 32 -> zlen c_rep <= STREAM_MAX ->
    zlen (w_ctx C1) < 2 ^ 32 -> zlen (w_ctx C2) < 2 ^ 32 ->
    w_type C1 :: w_ctx C1 <> w_type C2 :: w_ctx C2 ->
    unwrap H stream ml g C1 (mk_wrapper (VKey tk l1) (VKey ek l1')) c_rep = (r1, (w1, k1, Ok c1)) ->
    unwrap H stream ml g C2 (mk_wrapper (VKey tk l2) (VKey ek l2')) c_rep = (r2, (w2, k2, Ok c2)) ->
    exists iv s, zlen iv = 16 /\ c_rep = representation H stream tk ek C1 iv s /\ auth_input C1 iv s <> auth_input C2 iv s /\
      auth_tag H tk (auth_input C1 iv s) = auth_tag H tk (auth_input C2 iv s).
  Proof.
    intros Hk Hmax Hx1 Hx2 Hne U1 U2.
    destruct (unwrap_authentic H stream ml g HH Hg HS C1 tk ek l1 l1' c_rep r1 w1 k1 c1 Hk Hmax Hx1 U1) as (iv & s & tl & Hiv & Hs & E1 & D1).
    destruct (unwrap_authentic H stream ml g HH Hg HS C2 tk ek l2 l2' c_rep r2 w2 k2 c2 Hk Hmax Hx2 U2) as (iv' & s' & tl' & Hiv' & Hs' & E2 & D2).
    exists iv, s. split; [assumption|]. split; [assumption|].
    pose proof (representation_length H stream HH HS C1 tk ek iv s Hiv) as L1.
    pose proof (representation_length H stream HH HS C2 tk ek iv' s' Hiv') as L2.
    rewrite <- E1 in L1. rewrite <- E2 in L2. rewrite E1 in E2. unfold representation in E2.
    assert (Ls : length s = length s') by (unfold zlen in *; lia).
    apply app_inj_len in E2; [|unfold zlen in *; lia]. destruct E2 as [<- E2].
    apply app_inj_len in E2; [|rewrite !xorb_list_length, !HS; lia]. destruct E2 as [E2 E3].
    rewrite <- E3, <- Ls in E2.
    assert (s = s') as <-.
    { rewrite <- (xorb_list_cancel s (stream ek (auth_tag H tk (auth_input C1 iv s)) (length s))) by (rewrite HS; lia).
      rewrite E2. apply xorb_list_cancel. rewrite HS; lia. }
    split; [|exact E3]. intros E. unfold auth_input in E. apply app_inv_head in E.
    change (w_type C1 :: w_ctx C1 ++ s) with ((w_type C1 :: w_ctx C1) ++ s) in E.
    change (w_type C2 :: w_ctx C2 ++ s) with ((w_type C2 :: w_ctx C2) ++ s) in E.
    apply app_inv_tail in E. contradiction.
  Qed.

  (** A wrapped constrained key of one leaf of 11 bytes is unwrapped as an RCPrf. *)
  Lemma leaf_as_rcprf dbg tk ek l l' l2 l2' h lf buf iv : zlen tk = 32 -> zlen iv = 16 -> 1 <= h <= 64 -> 0 <= lf < 2 ^ 64 -> zlen buf = 11 ->
    let c := mk_crcprf h [Leaf h lf buf] in
    exists rep, wrap H stream ml g (CRCPrfC ml dbg 11) (mk_wrapper (VKey tk l) (VKey ek l')) c iv =
      (c, (mk_wrapper (VKey tk ml) (VKey ek ml), None, Ok rep)) /\
    exists r w' k', unwrap H stream ml g (RCPrfC ml 11) (mk_wrapper (VKey tk l2) (VKey ek l2')) rep = (r, (w', None, Ok (mk_rcprf h (VKey k' ml)))) /\
      k' = [1; 0; 0; 0; 1] ++ le_encode 8 lf ++ le_encode 8 lf ++ buf.
  Proof.
    intros Hk Hiv Hh Hlf Hbuf c. set (k' := [1; 0; 0; 0; 1] ++ le_encode 8 lf ++ le_encode 8 lf ++ buf).
    assert (Lk : zlen k' = 32).
    { unfold k'. rewrite !zlen_app, Hbuf. unfold zlen. rewrite !le_encode_length. reflexivity. }
    assert (S : w_ser (CRCPrfC ml dbg 11) c = (c, Ok (h :: k'))).
    { cbn [w_ser CRCPrfC]. unfold c_serialize, c. cbn [c_elts c_ser_loop e_serialize]. rewrite rd_all by lia.
      rewrite !bind_Ok, app_nil_r. unfold e_info, k'. cbn [e_st e_min e_max app].
      change (zlen [Leaf h lf buf]) with 1. rewrite <- app_assoc. destruct dbg; reflexivity. }
    assert (Z1 : zlen (h :: k') = 33) by (rewrite zlen_cons; lia).
    eexists. split.
    - apply wrap_ok with (s := h :: k'); try assumption.
      + vm_compute; reflexivity.
      + rewrite Z1. reflexivity.
      + rewrite Z1. unfold STREAM_MAX. lia.
    - change (representation H stream tk ek (CRCPrfC ml dbg 11) iv (h :: k')) with (representation H stream tk ek (RCPrfC ml 11) iv (h :: k')).
      destruct (unwrap_wrap H stream ml g HH Hg HS (RCPrfC ml 11) tk ek l2 l2' l2 l2' (mk_rcprf h (VKey k' ml)) (h :: k') iv Hk Hiv) as (c1 & c2 & W & LL & U & SS & tl & D).
      + vm_compute; reflexivity.
      + destruct (rcprf_serializes ml 11 k' h ml Hh Lk) as (s & tl & A & B).
        assert (s = h :: k') as <-; [|exact A].
        destruct A as (_ & _ & (c' & A) & _). cbn [w_ser RCPrfC] in A. rewrite rc_ser in A. injection A as _ A. symmetry; exact A.
      + do 3 eexists. split; [|reflexivity].
        assert (c2 = mk_rcprf h (VKey k' ml)) as <-; [|exact U].
        destruct (rcprf_serializes ml 11 k' h ml Hh Lk) as (s & tl' & A & B).
        assert (s = h :: k') as ->. { destruct A as (_ & _ & (c' & A) & _). cbn [w_ser RCPrfC] in A. rewrite rc_ser in A. injection A as _ A. symmetry; exact A. }
        rewrite B in D. congruence.
  Qed.
End Two.
