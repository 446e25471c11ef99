(** cipher_aez_core computes AEZ-core. *)
From Verif Require Import Base BaseFacts AezModel AezProofs AezProofs2 AezProofs3 AezProofs4 AezProofs5 AezProofs6 AezProofs7 PrpSpec PrpProofs AezSpec AezProofs8 AezProofs9.
From Coq Require Import Lia.

Lemma flat_pairs {X} (g h : X -> bytes) l : flat (map (fun i => (g i, h i)) l) = flat_map (fun i => g i ++ h i) l.
Proof. unfold flat. induction l as [|i l IH]; [reflexivity|]. cbn [map flat_map fst snd]. rewrite IH. reflexivity. Qed.
Section Core.
  Variables I J L : bytes.
  Variable c : ctx.
  Hypothesis K : key_ctx I J L c.
  Variable R : bytes -> bytes.
  Hypothesis R_blk : forall x, blk x -> blk (R x).
  Local Notation A := (A R c).
  Local Notation F := (F R c).
  Local Notation tbc := (tbc R I J L).

  Definition frag_sum (f : bytes) : bytes :=
    if (length f =? 0)%nat then zeros 16
    else if (length f <? 16)%nat then tbc 0 4 (pad10 f)
    else tbc 0 4 (firstn 16 f) (+) tbc 0 5 (pad10 (skipn 16 f)).
  Lemma blk_pad10 x : is_bytes x -> (length x < 16)%nat -> blk (pad10 x).
  Proof. intros B H. rewrite pad10_padn by exact H. change (blk (f0of x)). apply blk_f0of; [exact B|lia]. Qed.
  Lemma fx_frag f x : is_bytes f -> (length f < 32)%nat -> blk x -> fx R c f x = vxor x (frag_sum f).
  Proof using K R_blk.
    intros B H Hx. pose proof (tbc_0 I J L c K R R_blk) as T0. unfold fx, frag_sum.
    destruct K as [E0 E1 E2 _ _ _ _ HI _ _]. destruct (times_2_4 I HI) as (_ & M5 & _ & _).
    destruct (Nat.leb_spec 16 (length f)) as [H1|H1].
    - replace (length f =? 0)%nat with false by lia. replace (length f <? 16)%nat with false by lia.
      assert (blk (firstn 16 f)) as B1 by (apply blk_first16; assumption).
      assert (pad10 (skipn 16 f) = f1of f) as EP by (rewrite pad10_padn by (rewrite skipn_length; lia); unfold f1of; rewrite skipn_length; reflexivity).
      assert (blk (f1of f)) as B2 by (apply blk_f1of; [assumption|lia]).
      rewrite EP, !T0, M5, E2, E0 by assumption. change xorb_list with vxor.
      rewrite (vxor_assoc (f1of f)). rewrite vxor_zero_r.
      + rewrite (vxor_comm (A _) x), !vxor_assoc. reflexivity.
      + apply (blk_A R R_blk c (key_ctx_ok _ _ _ _ K)). apply blk_xor; [exact B2|apply blk_xor; [apply blk_times|]; assumption].
    - destruct (Nat.eqb_spec (length f) 0) as [H2|H2]; [symmetry; apply vxor_zero_r, Hx|].
      replace (length f <? 16)%nat with true by lia. rewrite T0 by (apply blk_pad10; assumption).
      rewrite pad10_padn by exact H1. fold (f0of f). rewrite E2. apply vxor_comm.
  Qed.
  Lemma fm_frag f s : is_bytes f -> (length f < 32)%nat -> blk s -> fm R c f s = f (+) firstn (length f) (tbc (-1) 4 s ++ tbc (-1) 5 s).
  Proof using K R_blk.
    intros B H Hs. pose proof (blk_tbcm I J L c K R R_blk 4 s Hs) as B4. pose proof (blk_tbcm I J L c K R R_blk 5 s Hs) as B5.
    rewrite (tbc_m I J L c K) in *. rewrite (tbc_m I J L c K) in *. unfold fm.
    destruct K as [_ _ _ E0 E1 E2 _ _ HJ _]. destruct (times_2_4 J HJ) as (_ & M5 & _ & _). rewrite M5 in *. change xorb_list with vxor in *. rewrite E0, E2.
    set (a := aes R c s (times 4 J)) in *. set (b := aes R c s (vxor (times 4 J) J)) in *. clearbody a b.
    pose proof (blk_len _ B4) as La. pose proof (blk_len _ B5) as Lb.
    destruct (Nat.leb_spec 16 (length f)) as [H1|H1].
    - rewrite firstn_app, La, (@firstn_all2 _ _ a) by lia.
      transitivity (vxor (firstn 16 f ++ skipn 16 f) (a ++ firstn (length f - 16) b)); [|rewrite firstn_skipn; reflexivity].
      unfold vxor. rewrite xorb_list_app by (rewrite firstn_length; lia). f_equal. rewrite xorb_list_firstn. f_equal.
      unfold f1of. rewrite firstn_app, skipn_length, Nat.sub_diag, firstn_all2 by (rewrite skipn_length; lia). cbn [firstn]. apply app_nil_r.
    - rewrite firstn_app, La. replace (length f - 16)%nat with 0%nat by lia. cbn [firstn]. rewrite app_nil_r. unfold vxor. rewrite xorb_list_firstn. f_equal.
      unfold f0of. rewrite firstn_app, Nat.sub_diag, firstn_all2 by lia. cbn [firstn]. apply app_nil_r.
  Qed.

  Lemma core_spec t m : blk t -> msg_ok m -> msg (core_val R c t 0 m) = core R I J L t (msg m).
  Proof using K R_blk.
    destruct m as [[[ps f] f0] f1]. intros Ht (Hp & Hf & Hl & H0 & H1).
    pose proof (flat_zlen ps Hp) as ZP. unfold zlen in ZP. set (n := length ps) in *.
    assert (length (flat ps) = (32 * n)%nat) as LP by lia. clear ZP.
    pose proof (blk_len _ H0) as L0. pose proof (blk_len _ H1) as L1.
    set (M := msg (ps, f, f0, f1)).
    assert (length M = (length f + (n + 1) * 32)%nat) as LM by (unfold M, msg; rewrite !app_length; lia).
    assert ((length M mod 32)%nat = length f) as Ef by (rewrite LM, Nat.mod_add, Nat.mod_small by lia; reflexivity).
    assert ((length M / 32 - 1)%nat = n) as En by (rewrite LM, Nat.div_add, Nat.div_small by lia; lia).
    set (pairs := map Z.of_nat (seq 1 n)).
    set (Ml := fun i => block M (2 * Z.to_nat i - 2)). set (Mr := fun i => block M (2 * Z.to_nat i - 1)).
    set (W := fun i => Ml i (+) tbc 1 i (Mr i)). set (X := fun i => Mr i (+) tbc 0 0 (W i)).
    set (Xs := xors (map X pairs) (+) frag_sum f).
    set (Sx := f0 (+) t (+) Xs (+) tbc 0 1 f1). set (Sy := f1 (+) tbc (-1) 1 Sx). set (U := Sx (+) Sy).
    set (Y := fun i => W i (+) tbc 2 i U). set (V := fun i => X i (+) tbc 2 i U).
    set (Cr := fun i => Y i (+) tbc 0 0 (V i)). set (Cl := fun i => V i (+) tbc 1 i (Cr i)).
    set (Cuv := f (+) firstn (length f) (tbc (-1) 4 U ++ tbc (-1) 5 U)).
    set (Ys := xors (map Y pairs) (+) frag_sum Cuv).
    set (Cy := Sx (+) tbc (-1) 2 Sy). set (Cx := Sy (+) t (+) Ys (+) tbc 0 2 Cy).
    pose proof (key_ctx_ok _ _ _ _ K) as Hc. pose proof (fx_frag) as FX. pose proof (fm_frag) as FM.
    assert (firstn (length f) (skipn (32 * n) M) = f) as EMuv.
    { unfold M, msg. rewrite skipn_app, LP, Nat.sub_diag, (skipn_all2 (flat ps)) by lia. cbn [skipn app].
      rewrite firstn_app, Nat.sub_diag, firstn_all2 by lia. cbn [firstn]. apply app_nil_r. }
    assert (firstn 16 (skipn (32 * n + length f) M) = f0) as EMx.
    { unfold M, msg. rewrite (app_assoc (flat ps)), skipn_app, app_length, LP, Nat.sub_diag, (skipn_all2 (flat ps ++ f)) by (rewrite app_length; lia). cbn [skipn app].
      apply firstn16, L0. }
    assert (skipn (32 * n + length f + 16) M = f1) as EMy.
    { unfold M, msg. rewrite (app_assoc f), (app_assoc (flat ps)), skipn_app, !app_length, LP, L0.
      replace (32 * n + length f + 16 - (32 * n + (length f + 16)))%nat with 0%nat by lia. rewrite skipn_all2 by (rewrite !app_length; lia). reflexivity. }
    (* the pairs *)
    assert (map (fun i => (Ml i, Mr i)) pairs = ps) as EP.
    { pose proof (pairs_of ps Hp 0 [] (f ++ f0 ++ f1) eq_refl) as E. exact E. }
    assert (offsets c n = map (fun i => times (mult i) I) pairs) as EO by (rewrite (offsets_values I J L c K), <- map_map; unfold pairs; rewrite !map_map; reflexivity).
    assert (forall i, In i pairs -> blk (Ml i) /\ blk (Mr i)) as Bm.
    { intros i Hi. rewrite <- EP in Hp. rewrite Forall_map, Forall_forall in Hp. exact (Hp i Hi). }
    pose proof (blk_tbc0 I J L c K R R_blk) as B0. pose proof (blk_tbc1 I J L c K R R_blk) as B1. pose proof (blk_tbc2 I J L c K R R_blk) as B2.
    pose proof (blk_tbcm I J L c K R R_blk) as Bmm.
    assert (forall i, In i pairs -> blk (W i)) as BW by (intros i Hi; destruct (Bm i Hi); apply blk_xor; [|apply B1]; assumption).
    assert (forall i, In i pairs -> blk (X i)) as BX by (intros i Hi; destruct (Bm i Hi); apply blk_xor; [|apply B0, BW]; assumption).
    assert (blk (frag_sum f)) as BF.
    { unfold frag_sum. destruct (_ =? 0)%nat; [apply blk_zero|]. destruct (Nat.ltb_spec (length f) 16); [apply B0, blk_pad10; assumption|].
      apply blk_xor; apply B0; [apply blk_first16; assumption|apply blk_pad10; [apply is_bytes_skipn, Hf|rewrite skipn_length; lia]]. }
    assert (blk (xors (map X pairs))) as BXs by (apply blk_xors_list, Forall_map, Forall_forall; exact BX).
    assert (blk Xs) as BXS by (apply blk_xor; assumption).
    assert (blk Sx) as BSx by (unfold Sx; apply blk_xor; [apply blk_xor; [apply blk_xor|]|apply B0]; assumption).
    assert (blk Sy) as BSy by (unfold Sy; apply blk_xor; [|apply Bmm]; assumption).
    assert (blk U) as BU by (apply blk_xor; assumption).
    assert (forall i, In i pairs -> blk (Y i)) as BY by (intros i Hi; apply blk_xor; [apply BW, Hi|apply B2, BU]).
    assert (forall i, In i pairs -> blk (V i)) as BV by (intros i Hi; apply blk_xor; [apply BX, Hi|apply B2, BU]).
    assert (blk Cy) as BCy by (apply blk_xor; [|apply Bmm]; assumption).
    (* the values of the model *)
    assert (map2 (one1 R c) (offsets c n) ps = map (fun i => (W i, X i)) pairs) as EQ.
    { rewrite EO. rewrite <- EP at 1. rewrite map2_map. apply map_ext_in. intros i Hi. destruct (Bm i Hi) as [b1 b2]. unfold one1. cbn [fst snd].
      assert (vxor (A (vxor (Mr i) (times (mult i) I))) (Ml i) = W i) as EW.
      { unfold W. rewrite (tbc_1 I J L c K R R_blk) by exact b2. apply vxor_comm. }
      cbv zeta. rewrite EW. f_equal. unfold X. rewrite (tbc_0 I J L c K R R_blk) by (apply BW, Hi). change (times 0 I) with zero.
      rewrite (vxor_zero_r (W i)) by (apply BW, Hi). apply vxor_comm. }
    assert (fx R c f (sumx (map snd (map (fun i => (W i, X i)) pairs)) zero) = Xs) as EXs.
    { rewrite map_map. cbn [snd]. rewrite sumx_xors; [|apply Forall_map, Forall_forall; exact BX|apply blk_zero].
      change xorb_list with vxor. rewrite vxor_zero_r by exact BXs. apply FX; assumption. }
    assert (cI c 0 = times 1 I) as EI0 by (destruct K; rewrite times_1 by assumption; assumption).
    assert (cI c (1 - 0) = times 2 I) as EI1 by (destruct K; assumption).
    assert (cJ c 0 = times 1 J) as EJ0 by (destruct K; rewrite times_1 by assumption; assumption).
    assert (cJ c (1 - 0) = times 2 J) as EJ1 by (destruct K; assumption).
    assert (vxor (A (vxor f1 (cI c 0))) (vxor (vxor f0 Xs) t) = Sx) as ESx.
    { unfold Sx. rewrite EI0, <- (tbc_0 I J L c K R R_blk) by assumption. change xorb_list with vxor.
      rewrite (vxor_comm (tbc 0 1 f1)). f_equal. rewrite !vxor_assoc. f_equal. apply vxor_comm. }
    assert (vxor f1 (aes R c Sx (cJ c 0)) = Sy) as ESy by (rewrite EJ0, <- (tbc_m I J L c K); reflexivity).
    assert (vxor Sx (aes R c Sy (cJ c (1 - 0))) = Cy) as ECy by (rewrite EJ1, <- (tbc_m I J L c K); reflexivity).
    assert (tmps R c U (offsets c n) (map (fun i => (W i, X i)) pairs) = map Y pairs) as ET.
    { unfold tmps. rewrite EO, map2_map. apply map_ext. intros i. cbn [fst]. rewrite <- (tbc_2 I J L c K). reflexivity. }
    assert (fm R c f U = Cuv) as EC by (apply FM; assumption).
    assert (is_bytes Cuv) as BCuv by (rewrite <- EC; apply (fm_bytes R R_blk c Hc); assumption).
    assert (length Cuv = length f) as LCuv by (rewrite <- EC; apply (fm_length R R_blk c Hc); assumption).
    assert (fx R c Cuv (sumx (map Y pairs) zero) = Ys) as EYs.
    { assert (blk (xors (map Y pairs))) as BYs by (apply blk_xors_list, Forall_map, Forall_forall; exact BY).
      rewrite sumx_xors; [|apply Forall_map, Forall_forall; exact BY|apply blk_zero].
      change xorb_list with vxor. rewrite vxor_zero_r by exact BYs. apply FX; [assumption|lia|assumption]. }
    assert (map2 (one2 R c U) (offsets c n) (map (fun i => (W i, X i)) pairs) = map (fun i => (Cl i, Cr i)) pairs) as E2.
    { rewrite EO, map2_map. apply map_ext_in. intros i Hi. unfold one2. cbn [fst snd]. cbv zeta. rewrite <- (tbc_2 I J L c K).
      change (vxor (X i) (tbc 2 i U)) with (V i). change (vxor (W i) (tbc 2 i U)) with (Y i).
      assert (vxor (A (V i)) (Y i) = Cr i) as ECr.
      { unfold Cr. rewrite (tbc_0 I J L c K R R_blk) by (apply BV, Hi). change (times 0 I) with zero. rewrite vxor_zero_r by (apply BV, Hi). apply vxor_comm. }
      rewrite ECr. f_equal. unfold Cl.
      assert (blk (Cr i)) as BCr by (apply blk_xor; [apply BY, Hi|apply B0, BV, Hi]).
      rewrite (tbc_1 I J L c K R R_blk) by exact BCr. apply vxor_comm. }
    assert (vxor (vxor (vxor (A (vxor Cy (cI c (1 - 0)))) Sy) Ys) t = Cx) as ECx.
    { unfold Cx. rewrite EI1, <- (tbc_0 I J L c K R R_blk) by assumption. change xorb_list with vxor.
      rewrite (vxor_comm (tbc 0 2 Cy) Sy), !vxor_assoc. f_equal. rewrite (vxor_comm (tbc 0 2 Cy)), !vxor_assoc, (vxor_comm Ys), !vxor_assoc.
      f_equal. apply vxor_comm. }
    assert (core R I J L t M = flat_map (fun i => Cl i ++ Cr i) pairs ++ Cuv ++ Cx ++ Cy) as ->.
    { unfold core. rewrite Ef, En, EMuv, EMx, EMy. fold pairs.
      assert (frag_sum Cuv = if (length f =? 0)%nat then zeros 16 else if (length f <? 16)%nat then tbc 0 4 (pad10 Cuv)
        else tbc 0 4 (firstn 16 Cuv) (+) tbc 0 5 (pad10 (skipn 16 Cuv))) as EF by (unfold frag_sum; rewrite LCuv; reflexivity).
      unfold Cx, Ys. rewrite EF. reflexivity. }
    unfold core_val. cbv zeta. fold n. rewrite EQ, EXs, ESx, ESy. fold U. change (vxor Sx Sy) with U. rewrite ET, EC, EYs, ECy, E2, ECx.
    unfold msg. f_equal. apply flat_pairs.
  Qed.
End Core.
