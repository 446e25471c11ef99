From Verif Require Import BaseFacts KeyVal PrgModel PrgSpec PrgProofs RcprfModel RcprfSpec RcprfProofs RcprfProofs2 RcprfProofs3 RcprfProofs4.

Lemma rd1_mid a x c pos : pos = zlen a -> rd1 (a ++ x :: c) pos = Ok x.
Proof.
  intros ->. unfold rd1. rewrite zlen_app, zlen_cons. pose proof (zlen_nonneg a). pose proof (zlen_nonneg c).
  replace (_ && _) with true by lia. unfold zlen. rewrite Nat2Z.id. rewrite nth_error_app2 by lia.
  rewrite Nat.sub_diag. reflexivity.
Qed.
Lemma skipn_zlen_app (a b : bytes) n : n = zlen a -> skipn (Z.to_nat n) (a ++ b) = b.
Proof. intros ->. unfold zlen. rewrite Nat2Z.id. rewrite skipn_app, skipn_all, Nat.sub_diag. reflexivity. Qed.

(** Content of an element, and what deserialization leaves in the buffer. *)
Definition e_body (e : elt) : bytes :=
  match e with Inner _ _ _ _ (VKey kb _) => kb | Inner _ _ _ _ VEmpty => [] | Leaf _ _ b => b end.
Definition e_wiped (e : elt) : bytes :=
  match e with Inner _ _ _ _ _ => zeros 32 | Leaf _ _ b => b end.

Lemma e_info_length e : zlen (e_info e) = 17.
Proof. unfold e_info. rewrite zlen_cons, zlen_app. unfold zlen. rewrite !le_encode_length. reflexivity. Qed.

Lemma prg_deser ml kb rest n : zlen kb = 32 -> 32 <= n ->
  prg_deserialize ml (kb ++ rest) n = Ok (v_make ml kb, zeros 32 ++ rest, 32).
Proof.
  intros Hk Hn. unfold prg_deserialize, prg_kKeySize. replace (n <? 32) with false by lia.
  rewrite rd_prefix by lia. rewrite bind_Ok. rewrite (wr_prefix kb rest (zeros 32)) by (rewrite Hk; reflexivity). reflexivity.
Qed.

Section Proofs.
  Context (blk : bytes -> Z -> bytes) (ml dbg : bool) (N : Z).
  Context (HN : 1 <= N < 2 ^ 16).
  Notation node := (node_key blk).
  Notation value := (leaf_value blk N).
  Notation sub_of := (subtree_of blk ml N).

  Lemma node_length R d idx : (0 < d)%nat -> zlen (node R d idx) = 32.
  Proof. intros H. destruct d as [|d]; [lia|]. simpl. unfold child_key. apply stream_window_length. lia. Qed.
  Lemma value_length R h leaf : zlen (value R h leaf) = N.
  Proof. unfold leaf_value, leaf_under. apply stream_window_length. lia. Qed.

  Lemma body_length R h e : sub_of R h e -> zlen (e_body e) = e_serialized_size N e /\ zlen (e_wiped e) = zlen (e_body e).
  Proof.
    intros Hs. destruct e as [h' st mn mx k|h' lf b]; simpl in *.
    - destruct Hs as (-> & Hst & idx & Hidx & -> & -> & ->). simpl. rewrite node_length by lia. split; reflexivity.
    - destruct Hs as (-> & Hlf & ->). rewrite value_length. auto.
  Qed.

  Lemma e_serialize_ok R h e : sub_of R h e -> e_serialize ml N e = (e, Ok (e_body e)).
  Proof.
    intros Hs. destruct e as [h' st mn mx k|h' lf b]; simpl in *.
    - destruct Hs as (-> & Hst & idx & Hidx & -> & -> & ->). reflexivity.
    - destruct Hs as (-> & Hlf & ->). rewrite rd_all by (rewrite value_length; reflexivity). reflexivity.
  Qed.

  Lemma c_ser_loop_ok R h els : Forall (sub_of R h) els ->
    c_ser_loop ml N els = (els, Ok (flat_map (fun e => e_info e ++ e_body e) els)).
  Proof.
    induction els as [|e els IH]; intros Hs; [reflexivity|]. inversion Hs; subst. cbn [c_ser_loop].
    rewrite (e_serialize_ok R h) by assumption. rewrite IH by assumption. rewrite bind_Ok.
    simpl flat_map. rewrite app_assoc. reflexivity.
  Qed.

  Lemma size_fold els t : fold_left (fun t e => u64 (t + kSerializedElementInfoSize + e_serialized_size N e)) els t = 
     t + zlen (flat_map (fun e => e_info e ++ e_body e) els) \/ 2 ^ 63 <= t + zlen (flat_map (fun e => e_info e ++ e_body e) els) \/ 
     ~ Forall (fun e => zlen (e_body e) = e_serialized_size N e) els \/ t < 0.
  Proof.
    revert t; induction els as [|e els IH]; intros t; cbn [fold_left flat_map].
    - left. change (zlen []) with 0. lia.
    - rewrite !zlen_app, e_info_length. unfold kSerializedElementInfoSize in *.
      destruct (Z.eq_dec (zlen (e_body e)) (e_serialized_size N e)) as [E|E].
      + pose proof (zlen_nonneg (e_body e)). pose proof (zlen_nonneg (flat_map (fun e => e_info e ++ e_body e) els)).
        destruct (Z.lt_ge_cases t 0); [right; right; right; assumption|].
        destruct (Z.lt_ge_cases (t + (17 + zlen (e_body e) + zlen (flat_map (fun e => e_info e ++ e_body e) els))) (2 ^ 63)); [|right; left; assumption].
        rewrite <- E. rewrite u64_id by lia.
        destruct (IH (t + 17 + zlen (e_body e))) as [I|[I|[I|I]]].
        * left. rewrite I. lia.
        * right; left. lia.
        * right; right; left. intros F. apply I. inversion F; assumption.
        * right; right; right. lia.
      + right; right; left. intros F. inversion F; subst. auto.
  Qed.

  Lemma des_elt_ok R h e pre rest : 2 <= h <= 64 -> sub_of R h e ->
    c_des_elt ml N h (pre ++ e_info e ++ e_body e ++ rest) (zlen pre) (17 + zlen (e_body e) + zlen rest) =
    Ok (e, pre ++ e_info e ++ e_wiped e ++ rest, zlen pre + 17 + zlen (e_body e)).
  Proof.
    intros Hh Hs. pose proof (body_length R h e Hs) as [Bl Bw].
    assert (Hr : 0 <= e_min e < 2 ^ 64 /\ 0 <= e_max e < 2 ^ 64 /\ ((e_min e =? e_max e) && (e_st e =? 1) = match e with Inner _ _ _ _ _ => false | Leaf _ _ _ => true end)).
    { assert (2 ^ (h - 1) <= 2 ^ 63) by (apply Z.pow_le_mono_r; lia).
      destruct e as [h' st mn mx k|h' lf b]; simpl in *.
      - destruct Hs as (-> & Hst & idx & Hidx & -> & -> & ->).
        pose proof (pow2_nodes h st idx ltac:(lia) Hidx) as (P0 & P1 & P2). lia.
      - destruct Hs as (-> & Hlf & ->). lia. }
    destruct Hr as (R1 & R2 & R3).
    unfold c_des_elt. unfold kSerializedElementInfoSize.
    pose proof (zlen_nonneg rest). pose proof (zlen_nonneg (e_body e)). pose proof (zlen_nonneg pre).
    assert (Hpos : 1 <= zlen (e_body e)).
    { rewrite Bl. destruct e; simpl; unfold prg_kKeySize; lia. }
    replace (_ <=? 17) with false by lia.
    set (m8 := le_encode 8 (e_min e)). set (M8 := le_encode 8 (e_max e)).
    assert (Lm : zlen m8 = 8) by (unfold zlen, m8; rewrite le_encode_length; reflexivity).
    assert (LM : zlen M8 = 8) by (unfold zlen, M8; rewrite le_encode_length; reflexivity).
    assert (B1 : pre ++ e_info e ++ e_body e ++ rest = pre ++ e_st e :: (m8 ++ M8 ++ e_body e ++ rest)).
    { unfold e_info. fold m8 M8. rewrite <- app_comm_cons, <- app_assoc. reflexivity. }
    rewrite B1 at 1. rewrite rd1_mid by reflexivity. rewrite bind_Ok.
    assert (B2 : pre ++ e_info e ++ e_body e ++ rest = (pre ++ [e_st e]) ++ m8 ++ (M8 ++ e_body e ++ rest)).
    { rewrite B1, <- app_assoc. reflexivity. }
    rewrite B2 at 1. rewrite rd_mid by (rewrite ?zlen_app, ?zlen_cons, ?zlen_nil; lia). rewrite bind_Ok.
    assert (B3 : pre ++ e_info e ++ e_body e ++ rest = (pre ++ e_st e :: m8) ++ M8 ++ (e_body e ++ rest)).
    { rewrite B1, <- app_assoc. reflexivity. }
    rewrite B3 at 1. rewrite rd_mid by (rewrite ?zlen_app, ?zlen_cons, ?zlen_nil; lia). rewrite bind_Ok.
    unfold m8, M8. rewrite !le_decode_encode by (change (256 ^ Z.of_nat 8) with (2 ^ 64); lia).
    rewrite R3.
    assert (Ip : zlen pre + 17 = zlen (pre ++ e_info e)) by (rewrite zlen_app, e_info_length; reflexivity).
    destruct e as [h' st mn mx k|h' lf b].
    - simpl e_st. simpl e_min. simpl e_max. 
      replace (pre ++ e_info (Inner h' st mn mx k) ++ e_body (Inner h' st mn mx k) ++ rest)
        with ((pre ++ e_info (Inner h' st mn mx k)) ++ e_body (Inner h' st mn mx k) ++ rest) by (rewrite <- app_assoc; reflexivity).
      rewrite Ip. rewrite skipn_zlen_app by reflexivity. rewrite firstn_zlen_app by reflexivity.
      destruct Hs as (-> & Hst & idx & Hidx & -> & -> & ->).
      assert (Bk : zlen (node R (Z.to_nat (h - st)) idx) = 32) by (apply node_length; lia).
      simpl e_body in *. rewrite prg_deser by lia. rewrite bind_Ok. unfold v_make.
      destruct (mk_inner_ok blk ml N R h st idx ltac:(lia) Hst Hidx) as [Hk _]. rewrite Hk, bind_Ok.
      rewrite <- app_assoc. rewrite Bk. reflexivity.
    - destruct Hs as (-> & Hlf & ->). simpl e_body in *. rewrite Bl. cbn [e_st e_min e_max e_wiped e_serialized_size].
      replace (17 + N + zlen rest - 17 <? N) with false by lia.
      rewrite Ip. replace (rd _ _ N) with (Ok (value R h lf)); [|symmetry; rewrite app_assoc; apply rd_mid; rewrite ?value_length; reflexivity].
      rewrite bind_Ok.
      rewrite mk_leaf_ok by lia. rewrite bind_Ok. reflexivity.
  Qed.

  Lemma des_loop_ok R h : 2 <= h <= 64 -> forall els pre rest, Forall (sub_of R h) els ->
    c_des_loop ml N (length els) h (pre ++ flat_map (fun e => e_info e ++ e_body e) els ++ rest) (zlen pre)
      (zlen pre + zlen (flat_map (fun e => e_info e ++ e_body e) els) + zlen rest) =
    Ok (els, pre ++ flat_map (fun e => e_info e ++ e_wiped e) els ++ rest,
        zlen pre + zlen (flat_map (fun e => e_info e ++ e_body e) els)).
  Proof.
    intros Hh. induction els as [|e els IH]; intros pre rest Hs.
    - simpl. change (zlen []) with 0. rewrite Z.add_0_r. reflexivity.
    - apply Forall_cons_iff in Hs. destruct Hs as [H1 H2]. cbn [length c_des_loop flat_map].
      pose proof (body_length R h e H1) as [Bl Bw].
      replace (pre ++ ((e_info e ++ e_body e) ++ flat_map (fun e => e_info e ++ e_body e) els) ++ rest) with
        (pre ++ e_info e ++ e_body e ++ (flat_map (fun e => e_info e ++ e_body e) els ++ rest)) by (rewrite <- !app_assoc; reflexivity).
      replace (zlen pre + zlen ((e_info e ++ e_body e) ++ flat_map (fun e => e_info e ++ e_body e) els) + zlen rest - zlen pre) with
        (17 + zlen (e_body e) + zlen (flat_map (fun e => e_info e ++ e_body e) els ++ rest)) by (rewrite !zlen_app, e_info_length; lia).
      rewrite (des_elt_ok R h) by assumption. rewrite bind_Ok.
      replace (pre ++ e_info e ++ e_wiped e ++ flat_map (fun e => e_info e ++ e_body e) els ++ rest) with
        ((pre ++ e_info e ++ e_wiped e) ++ flat_map (fun e => e_info e ++ e_body e) els ++ rest) by (rewrite <- !app_assoc; reflexivity).
      replace (zlen pre + 17 + zlen (e_body e)) with (zlen (pre ++ e_info e ++ e_wiped e)) by (rewrite !zlen_app, e_info_length; lia).
      replace (zlen pre + zlen ((e_info e ++ e_body e) ++ flat_map (fun e => e_info e ++ e_body e) els) + zlen rest) with
        (zlen (pre ++ e_info e ++ e_wiped e) + zlen (flat_map (fun e => e_info e ++ e_body e) els) + zlen rest)
        by (rewrite !zlen_app, e_info_length; lia).
      rewrite IH by assumption. rewrite bind_Ok. f_equal. f_equal; [f_equal|].
      + rewrite <- !app_assoc. reflexivity.
      + rewrite !zlen_app, e_info_length. lia.
  Qed.

  Lemma c_roundtrip R h lo hi c rest : 2 <= h <= 64 -> 0 <= lo -> hi < 2 ^ (h - 1) ->
    constrained_to blk ml N R h lo hi c -> zlen (c_elts c) < 2 ^ 32 ->
    exists s wiped, c_serialize ml dbg N c = (c, Ok s) /\ zlen wiped = zlen s /\
      c_deserialize ml N (s ++ rest) (zlen (s ++ rest)) = Ok (c, wiped ++ rest, zlen s) /\
      zlen s = c_serialized_size N c.
  Proof.
    intros Hh Hlo Hhi (Ec & Hle & Hs & T) Hn.
    assert (2 ^ (h - 1) <= 2 ^ 63) by (apply Z.pow_le_mono_r; lia).
    set (body := flat_map (fun e => e_info e ++ e_body e) (c_elts c)).
    set (hd := h :: le_encode 4 (zlen (c_elts c))).
    assert (Hhd : zlen hd = 5) by (unfold hd; rewrite zlen_cons; unfold zlen; rewrite le_encode_length; reflexivity).
    pose proof (zlen_nonneg (c_elts c)).
    assert (Hfl : Forall (fun e => zlen (e_body e) = e_serialized_size N e) (c_elts c)).
    { eapply Forall_impl; [|exact Hs]. intros e He. apply (body_length R h e He). }
    assert (Hmax : zlen body <= zlen (c_elts c) * 2 ^ 17 /\ zlen (flat_map (fun e => e_info e ++ e_wiped e) (c_elts c)) = zlen body).
    { unfold body. clear - Hs HN. induction (c_elts c) as [|e els IH]; [split; [change (@zlen elt []) with 0; change (zlen (flat_map _ [])) with 0; lia|reflexivity]|]. 
      apply Forall_cons_iff in Hs. destruct Hs as [H1 H2]. specialize (IH H2). cbn [flat_map]. rewrite !zlen_app, zlen_cons, !e_info_length.
      destruct (body_length R h e H1) as [Bl ->]. split; [|lia]. rewrite Bl. change (2 ^ 17) with 131072 in *. change (2 ^ 16) with 65536 in *. destruct e; cbn [e_serialized_size]; unfold prg_kKeySize; lia. }
    exists (hd ++ body), (hd ++ flat_map (fun e => e_info e ++ e_wiped e) (c_elts c)).
    split; [|split; [|split]].
    - unfold c_serialize, kassert. replace (_ <=? _) with true by lia.
      rewrite (c_ser_loop_ok R h) by assumption. rewrite bind_Ok. rewrite Ec.
      unfold u32. rewrite Z.mod_small by lia. f_equal. destruct c; simpl in *; subst; reflexivity.
    - rewrite !zlen_app. lia.
    - assert (Hb : 18 <= zlen body).
      { unfold body. destruct (c_elts c) as [|e els] eqn:E; [simpl in T; lia|]. cbn [flat_map]. rewrite !zlen_app, e_info_length.
        pose proof (zlen_nonneg (flat_map (fun e => e_info e ++ e_body e) els)).
        apply Forall_cons_iff in Hs. destruct Hs as [Hs1 Hs2]. destruct (body_length R h e Hs1) as [-> _].
        assert (1 <= e_serialized_size N e) by (clear - HN; destruct e; cbn [e_serialized_size]; unfold prg_kKeySize; lia). lia. }
      pose proof (zlen_nonneg rest).
      unfold c_deserialize. change (1 + 4 + kSerializedElementInfoSize) with 22.
      replace (_ <=? 22) with false by (rewrite !zlen_app; lia).
      unfold hd at 1. change (rd1 _ 0) with (rd1 ([] ++ h :: (le_encode 4 (zlen (c_elts c)) ++ body) ++ rest) 0).
      rewrite rd1_mid by reflexivity. rewrite bind_Ok.
      replace ((hd ++ body) ++ rest) with ([h] ++ le_encode 4 (zlen (c_elts c)) ++ (body ++ rest))
        by (unfold hd; rewrite <- !app_assoc; reflexivity).
      rewrite rd_mid by (reflexivity || (unfold zlen; rewrite le_encode_length; reflexivity)). rewrite bind_Ok.
      rewrite le_decode_encode by (change (256 ^ Z.of_nat 4) with (2 ^ 32); lia).
      replace (Z.to_nat (zlen (c_elts c))) with (length (c_elts c)) by (unfold zlen; lia).
      replace ([h] ++ le_encode 4 (zlen (c_elts c)) ++ body ++ rest) with (hd ++ body ++ rest) by reflexivity.
      rewrite <- Hhd. replace (zlen (hd ++ body ++ rest)) with (zlen hd + zlen body + zlen rest) by (rewrite !zlen_app; lia).
      unfold body. rewrite (des_loop_ok R h Hh) by assumption. rewrite bind_Ok.
      rewrite (mk_c_ok h _ lo hi T); [|eapply tiles_nonempty; [exact T|lia]|eapply sub_of_height; exact Hs|lia|lia].
      rewrite bind_Ok. fold body. rewrite !zlen_app, <- app_assoc. do 3 f_equal. destruct c; simpl in *; subst; reflexivity.
    - unfold c_serialized_size. destruct (size_fold (c_elts c) (1 + 4)) as [E|[E|[E|E]]]; fold body in E.
      + rewrite E, zlen_app. lia.
      + lia.
      + tauto.
      + lia.
  Qed.

  Lemma rc_roundtrip R h l rest : 1 <= h <= 64 -> zlen R = 32 -> zlen rest <= 2 ^ 63 ->
    exists s wiped, rc_serialize ml (mk_rcprf h (VKey R l)) = (mk_rcprf h (VKey R ml), Ok s) /\ zlen wiped = zlen s /\
      rc_deserialize ml (s ++ rest) (zlen (s ++ rest)) = Ok (mk_rcprf h (VKey R ml), wiped ++ rest, zlen s) /\
      zlen s = rc_serialized_size (mk_rcprf h (VKey R l)).
  Proof.
    intros Hh HR Hrest. exists (h :: R), (h :: zeros 32). split; [reflexivity|]. 
    rewrite !zlen_cons, HR. split; [rewrite zlen_zeros; lia|]. split; [|reflexivity].
    unfold rc_deserialize. pose proof (zlen_nonneg rest).
    replace (_ <? 1) with false by (rewrite zlen_app, zlen_cons; lia).
    simpl app. change (rd1 _ 0) with (rd1 ([] ++ h :: (R ++ rest)) 0). rewrite rd1_mid by reflexivity. rewrite bind_Ok.
    simpl skipn. simpl firstn.
    rewrite prg_deser; [|assumption|rewrite zlen_cons, zlen_app, u64_id; lia]. rewrite bind_Ok.
    unfold mk_rc. replace (h =? 0) with false by lia. replace (64 <? h) with false by lia. rewrite bind_Ok. reflexivity.
  Qed.
End Proofs.
