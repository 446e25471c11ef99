(** cipher_aez_tiny: the values computed, and that the two directions are inverse of each other. *)
From Verif Require Import Base BaseFacts AezModel AezProofs AezProofs2 AezProofs3 AezProofs4.
From Coq Require Import Lia.

Fixpoint rclist (k : nat) (rcon one : bytes) : list bytes :=
  match k with O => [] | S k' => rcon :: vadd rcon one :: rclist k' (vadd (vadd rcon one) one) one end.
Definition rounds (n : nat) : Z := if Nat.leb 16 n then 8 else if Nat.leb 3 n then 10 else if Nat.eqb n 2 then 16 else 24.
Definition onev (d : Z) : bytes := zeros 15 ++ [if d =? 0 then 1 else 255].
Definition rcon0 (d : Z) (n : nat) : bytes := zeros 15 ++ [if d =? 0 then 0 else rounds n - 1].
Definition rcs (d : Z) (n : nat) : list bytes := rclist (Z.to_nat (rounds n / 2)) (rcon0 d n) (onev d).
Lemma rounds_cases n : rounds n = 8 \/ rounds n = 10 \/ rounds n = 16 \/ rounds n = 24.
Proof. unfold rounds. repeat destruct (_ : bool); auto. Qed.
Lemma rcs_rev n : rcs 1 n = rev (rcs 0 n).
Proof. unfold rcs, rcon0. destruct (rounds_cases n) as [->|[->|[->| ->]]]; vm_compute; reflexivity. Qed.
Definition blkb (x : bytes) : bool := Nat.eqb (length x) 16 && forallb is_byteb x.
Lemma blkb_ok x : blkb x = true -> blk x.
Proof.
  unfold blkb. intros H. apply andb_prop in H as [H1 H2]. apply Nat.eqb_eq in H1. split; [exact H1|].
  apply Forall_forall. intros b Hb. rewrite forallb_forall in H2. specialize (H2 b Hb). unfold is_byteb, is_byte in *. lia.
Qed.
Lemma rcs_blk d n : d = 0 \/ d = 1 -> Forall blk (rcs d n).
Proof.
  intros Hd. apply Forall_forall. intros x Hx. apply blkb_ok. revert x Hx. rewrite <- forallb_forall. unfold rcs, rcon0.
  destruct Hd as [-> | ->]; destruct (rounds_cases n) as [->|[->|[->| ->]]]; vm_compute; reflexivity.
Qed.

Lemma xor_cancel_l a b : (length b <= length a)%nat -> xorb_list a (xorb_list a b) = b.
Proof. intros H. rewrite (xorb_list_comm a b), xorb_list_comm. apply xorb_list_cancel. exact H. Qed.

Section Tiny.
  Variable R : bytes -> bytes.
  Hypothesis R_blk : forall x, blk x -> blk (R x).
  Variable c : ctx.
  Hypothesis Hc : ctx_ok c.

  Section Feistel.
    Variable n : nat.
    Hypothesis Hn : (n <= 31)%nat.
    Variable t : bytes.
    Hypothesis Ht : blk t.
    Definition half_ok (a : list Z) : Prop := Forall is_nib a /\ length a = n.
    Definition fstep (st : list Z * list Z) (rc : bytes) : list Z * list Z :=
      (snd st, xorb_list (firstn n (nibs (A R c (vxor (vxor t (padb n (snd st))) rc)))) (fst st)).
    Definition feist (rcl : list bytes) (st : list Z * list Z) : list Z * list Z := fold_left fstep rcl st.
    Definition swap {X} (p : X * X) : X * X := (snd p, fst p).

    Lemma half_xor a b : half_ok a -> half_ok b -> half_ok (xorb_list a b).
    Proof.
      intros [N1 L1] [N2 L2]. split; [|rewrite xorb_list_length; lia]. clear Hn Ht R_blk Hc L1 L2. revert b N2. induction N1 as [|x a Hx N1 IH]; intros b N2; [constructor|].
      destruct N2 as [|y b Hy N2]; [constructor|]. cbn [xorb_list]. constructor; [|apply IH; assumption].
      unfold is_nib in *. assert (0 <= Z.lxor x y) as H0 by (apply Z.lxor_nonneg; lia). split; [exact H0|].
      rewrite <- (Z.mod_small x 16), <- (Z.mod_small y 16) by lia. rewrite !mod16_land.
      replace (Z.lxor (Z.land x (Z.ones 4)) (Z.land y (Z.ones 4))) with (Z.land (Z.lxor x y) (Z.ones 4)); [rewrite <- mod16_land; lia|].
      apply Z.bits_inj'. intros i Hi.
      rewrite Z.land_spec, !Z.lxor_spec, !Z.land_spec. destruct (Z.testbit x i), (Z.testbit y i), (Z.testbit (Z.ones 4) i); reflexivity.
    Qed.
    Lemma half_firstn x : blk x -> half_ok (firstn n (nibs x)).
    Proof using R_blk Hc Hn. intros [L B]. split; [apply Forall_firstn, nibs_nib, B|]. rewrite firstn_length, nibs_length, L. lia. Qed.
    Lemma blk_padb a : half_ok a -> blk (padb n a).
    Proof using R_blk Hc Hn. intros [N L]. apply padb_ok; assumption. Qed.
    Lemma fstep_ok st rc : blk rc -> half_ok (fst st) -> half_ok (snd st) -> half_ok (fst (fstep st rc)) /\ half_ok (snd (fstep st rc)).
    Proof using R_blk Hc Hn Ht.
      intros Hr Ha Hb. split; [exact Hb|]. apply half_xor; [|exact Ha]. apply half_firstn, (blk_A R R_blk c Hc).
      repeat first [assumption|apply blk_xor|apply blk_padb].
    Qed.
    Lemma fstep_inverse st rc : blk rc -> half_ok (fst st) -> half_ok (snd st) -> fstep (swap (fstep st rc)) rc = swap st.
    Proof using R_blk Hc Hn Ht.
      intros Hr Ha Hb. unfold fstep at 1, swap. cbn [fst snd]. f_equal.
      unfold fstep. cbn [snd].
      assert (half_ok (firstn n (nibs (A R c (vxor (vxor t (padb n (snd st))) rc))))) as [_ L].
      { apply half_firstn, (blk_A R R_blk c Hc). repeat first [assumption|apply blk_xor|apply blk_padb]. }
      destruct Ha as [_ La]. apply xor_cancel_l. lia.
    Qed.
    Lemma feist_ok rcl st : Forall blk rcl -> half_ok (fst st) -> half_ok (snd st) ->
      half_ok (fst (feist rcl st)) /\ half_ok (snd (feist rcl st)).
    Proof using R_blk Hc Hn Ht.
      intros H. revert st. induction H as [|rc rcl Hr _ IH]; intros st Ha Hb; [auto|]. cbn [feist fold_left].
      apply IH; apply fstep_ok; assumption.
    Qed.
    Lemma feist_inverse rcl st : Forall blk rcl -> half_ok (fst st) -> half_ok (snd st) ->
      feist (rev rcl) (swap (feist rcl st)) = swap st.
    Proof using R_blk Hc Hn Ht.
      intros H. revert st. induction H as [|rc rcl Hr _ IH]; intros st Ha Hb; [reflexivity|].
      cbn [rev]. unfold feist at 1. rewrite fold_left_app. cbn [fold_left]. fold (feist (rev rcl)).
      change (feist (rc :: rcl) st) with (feist rcl (fstep st rc)).
      rewrite IH by (apply fstep_ok; assumption). apply fstep_inverse; assumption.
    Qed.

    Lemma feistel_step ff m10 rc l b : nibs ff = repeat 15 n ++ zeros (32 - n) -> nibs m10 = zeros n ++ 8 :: zeros (31 - n) ->
      blk l -> half_ok b -> blk rc ->
      vor (vand (aes4 R (vxor (vxor t (padb n b)) rc) (cJ0 c) (cI0 c) (cL c) l) ff) m10 = padb n (snd (fstep (firstn n (nibs l), b) rc)).
    Proof using R_blk Hc Hn Ht.
      intros E1 E2 Hl Hb Hr. destruct (Hc).
      rewrite (mask_padb n ff m10) by (try assumption; apply blk_aes4; try assumption; repeat first [assumption|apply blk_xor|apply blk_padb]).
      rewrite aes4_G. unfold fstep. cbn [fst snd]. rewrite <- xorb_list_firstn, <- nibs_xor. reflexivity.
    Qed.
    Lemma feistel_ok k ff m10 one rcon l b :
      nibs ff = repeat 15 n ++ zeros (32 - n) -> nibs m10 = zeros n ++ 8 :: zeros (31 - n) ->
      blk l -> half_ok b -> Forall blk (rclist (S k) rcon one) ->
      feistel R (S k) c t ff m10 one l (padb n b) rcon =
      (let st := feist (rclist (S k) rcon one) (firstn n (nibs l), b) in (padb n (fst st), padb n (snd st))).
    Proof using R_blk Hc Hn Ht.
      intros E1 E2. revert rcon l b. induction k as [|k IH]; intros rcon l b Hl Hb Hr.
      - cbn [rclist] in Hr. inversion Hr as [|? ? Hr1 Hr2]; subst. inversion Hr2 as [|? ? Hr3 _]; subst.
        cbn [feistel]. cbv zeta. rewrite feistel_step by assumption.
        pose proof (fstep_ok (firstn n (nibs l), b) rcon Hr1 (half_firstn l Hl) Hb) as [S1 S2].
        set (st1 := fstep (firstn n (nibs l), b) rcon) in *.
        rewrite (feistel_step ff m10 (vadd rcon one) (padb n b) (snd st1)) by (try assumption; apply blk_padb; assumption).
        destruct Hb as [Hb1 Hb2]. rewrite (padb_firstn n b) by assumption. reflexivity.
      - change (rclist (S (S k)) rcon one) with (rcon :: vadd rcon one :: rclist (S k) (vadd (vadd rcon one) one) one) in Hr |- *.
        inversion Hr as [|? ? Hr1 Hr2]; subst. inversion Hr2 as [|? ? Hr3 Hr4]; subst.
        change (feistel R (S (S k)) c t ff m10 one l (padb n b) rcon) with
          (let l1 := vor (vand (aes4 R (vxor (vxor t (padb n b)) rcon) (cJ0 c) (cI0 c) (cL c) l) ff) m10 in
           let r1 := vor (vand (aes4 R (vxor (vxor t l1) (vadd rcon one)) (cJ0 c) (cI0 c) (cL c) (padb n b)) ff) m10 in
           feistel R (S k) c t ff m10 one l1 r1 (vadd (vadd rcon one) one)). cbv zeta.
        rewrite feistel_step by assumption.
        pose proof (fstep_ok (firstn n (nibs l), b) rcon Hr1 (half_firstn l Hl) Hb) as [S1 S2].
        set (st1 := fstep (firstn n (nibs l), b) rcon) in *.
        rewrite (feistel_step ff m10 (vadd rcon one) (padb n b) (snd st1)) by (try assumption; apply blk_padb; assumption).
        destruct Hb as [Hb1 Hb2]. rewrite (padb_firstn n b) by assumption.
        change (b, snd st1) with st1.
        pose proof (fstep_ok st1 (vadd rcon one) Hr3 S1 S2) as [T1 T2].
        rewrite IH by (try assumption; apply blk_padb; assumption). destruct S2 as [S2 S3].
        rewrite (padb_firstn n (snd st1)) by assumption. reflexivity.
    Qed.
  End Feistel.

  (** the top bit correction for less than 16 bytes *)
  Definition p80 : bytes := 128 :: zeros 15.
  Definition flipv (t o : bytes) : bytes :=
    xorb_list o (vand (aes4 R (vxor (vxor (vor (o ++ zeros (16 - length o)) p80) t) (vxor (cI0 c) (cI1 c))) (cJ0 c) (cI0 c) (cL c) zero) p80).
  Lemma blk_p80 : blk p80.
  Proof. apply blkb_ok. vm_compute. reflexivity. Qed.
  Lemma vand_p80 x : blk x -> exists b, (b = 0 \/ b = 128) /\ vand x p80 = b :: zeros 15.
  Proof.
    intros [L B]. destruct x as [|x0 x]; [discriminate|]. exists (Z.land x0 128). split.
    - assert (Z.land x0 128 = if Z.testbit x0 7 then 128 else 0) as ->; [|destruct (Z.testbit x0 7); auto].
      change 128 with (2 ^ 7). apply Z.bits_inj'. intros i Hi. rewrite Z.land_spec, Z.pow2_bits_eqb by lia.
      destruct (Z.eqb_spec 7 i) as [<-|Hne].
      + destruct (Z.testbit x0 7); reflexivity.
      + rewrite andb_false_r. destruct (Z.testbit x0 7); [|rewrite Z.bits_0; reflexivity]. rewrite Z.pow2_bits_eqb by lia.
        symmetry. apply Z.eqb_neq. assumption.
    - unfold vand, p80. cbn [zipw]. f_equal. apply vand_0. simpl in L. lia.
  Qed.
  Lemma flipv_ok t o : blk t -> is_bytes o -> (1 <= length o <= 16)%nat ->
    is_bytes (flipv t o) /\ length (flipv t o) = length o /\ skipn 1 (nibs (flipv t o)) = skipn 1 (nibs o) /\
    flipv t (flipv t o) = o /\
    forall z, zlen z = 16 - zlen o -> vxor (o ++ z) (vand (aes4 R (vxor (vxor (vor (o ++ zeros (16 - length o)) p80) t) (vxor (cI0 c) (cI1 c))) (cJ0 c) (cI0 c) (cL c) zero) p80)
       = flipv t o ++ z.
  Proof using R_blk Hc.
    intros Ht Hb Hl. destruct (Hc).
    assert (blk (o ++ zeros (16 - length o))) as Bo.
    { split; [rewrite app_length, zeros_length; lia|]. apply is_bytes_app; split; [assumption|apply is_bytes_zeros]. }
    assert (forall u, blk u -> exists b, (b = 0 \/ b = 128) /\
       vand (aes4 R (vxor (vxor u t) (vxor (cI0 c) (cI1 c))) (cJ0 c) (cI0 c) (cL c) zero) p80 = b :: zeros 15) as Hu.
    { intros u Bu. apply vand_p80. apply blk_aes4; repeat first [assumption|apply blk_zero|apply blk_xor]. }
    destruct (Hu (vor (o ++ zeros (16 - length o)) p80)) as (b & Hbb & Eb); [apply blk_vor; [assumption|apply blk_p80]|].
    destruct o as [|o0 o]; [simpl in Hl; lia|]. inversion Hb as [|? ? Hb0 Hb']; subst. cbn [length] in *.
    assert (is_byte (Z.lxor o0 b)) as Hx by (apply is_byte_lxor; [assumption|unfold is_byte; lia]).
    assert (flipv t (o0 :: o) = Z.lxor o0 b :: o) as EF.
    { unfold flipv. cbn [length]. rewrite Eb. cbn [xorb_list]. f_equal. apply xorb_list_zeros_r. lia. }
    rewrite EF. repeat split.
    - constructor; assumption.
    - rewrite !nibs_cons. cbn [skipn]. f_equal. destruct Hbb as [-> | ->].
      + rewrite Z.lxor_0_r. reflexivity.
      + rewrite !mod16_land. apply Z.bits_inj'. intros i Hi. rewrite !Z.land_spec, Z.lxor_spec.
        destruct (Z.ltb_spec i 4); [|rewrite Z.ones_spec_high by lia; rewrite !andb_false_r; reflexivity].
        change 128 with (2 ^ 7). rewrite Z.pow2_bits_false by lia. rewrite xorb_false_r. reflexivity.
    - unfold flipv. cbn [length].
      assert (vor ((Z.lxor o0 b :: o) ++ zeros (16 - S (length o))) p80 = vor ((o0 :: o) ++ zeros (16 - S (length o))) p80) as ->.
      { unfold vor, p80. cbn [app zipw]. f_equal. destruct Hbb as [-> | ->]; [rewrite Z.lxor_0_r; reflexivity|].
        apply Z.bits_inj'. intros i Hi. rewrite !Z.lor_spec, Z.lxor_spec. destruct (Z.testbit o0 i), (Z.testbit 128 i); reflexivity. }
      rewrite Eb. cbn [xorb_list]. rewrite Z.lxor_assoc, Z.lxor_nilpotent, Z.lxor_0_r. f_equal. apply xorb_list_zeros_r. lia.
    - intros z Hz. rewrite Eb. unfold vxor. cbn [app xorb_list]. f_equal. apply xorb_list_zeros_r. unfold zlen in Hz. cbn [length] in Hz.
      rewrite app_length. lia.
  Qed.

  Definition tweak (t : bytes) (n : nat) : bytes :=
    if Nat.leb 16 n then vxor (vxor t (cI1 c)) (cI2 c) else vxor (vxor t (cI0 c)) (vxor (cI1 c) (cI2 c)).
  Lemma blk_tweak t n : blk t -> blk (tweak t n).
  Proof using Hc. intros. destruct (Hc). unfold tweak. destruct (Nat.leb 16 n); repeat first [assumption|apply blk_xor]. Qed.
  Definition fe (t : bytes) (d : Z) (o : bytes) : bytes :=
    let n := length o in
    let st := feist n (tweak t n) (rcs d n) (firstn n (nibs o), skipn n (nibs o)) in unn (snd st ++ fst st).
  Definition tiny_val (t : bytes) (d : Z) (o : bytes) : bytes :=
    if Nat.leb 16 (length o) then fe t d o
    else if d =? 0 then flipv t (fe t d o) else fe t d (flipv t o).

  Lemma halves o n : is_bytes o -> length o = n -> half_ok n (firstn n (nibs o)) /\ half_ok n (skipn n (nibs o)).
  Proof.
    intros Hb L. pose proof (nibs_nib o Hb) as N. pose proof (nibs_length o) as Ln.
    split; (split; [first [apply Forall_firstn|apply Forall_skipn]; exact N|rewrite ?firstn_length, ?skipn_length; lia]).
  Qed.
  Lemma fe_ok t d o : d = 0 \/ d = 1 -> blk t -> is_bytes o -> (length o <= 31)%nat ->
    is_bytes (fe t d o) /\ length (fe t d o) = length o /\
    nibs (fe t d o) = (let n := length o in let st := feist n (tweak t n) (rcs d n) (firstn n (nibs o), skipn n (nibs o)) in snd st ++ fst st).
  Proof using R_blk Hc.
    intros Hd Ht Hb Hl. unfold fe. cbv zeta. set (n := length o) in *.
    destruct (halves o n Hb eq_refl) as [Ha Hb'].
    destruct (feist_ok n Hl (tweak t n) (blk_tweak t n Ht) (rcs d n) (firstn n (nibs o), skipn n (nibs o)) (rcs_blk d n Hd) Ha Hb') as [[N1 L1] [N2 L2]].
    destruct (nibs_unn_n n (snd (feist n (tweak t n) (rcs d n) (firstn n (nibs o), skipn n (nibs o))) ++ fst (feist n (tweak t n) (rcs d n) (firstn n (nibs o), skipn n (nibs o))))) as (E1 & E2 & E3).
    - apply Forall_app. split; assumption.
    - rewrite app_length. lia.
    - repeat split; assumption.
  Qed.
  Lemma fe_inverse t d o : d = 0 \/ d = 1 -> blk t -> is_bytes o -> (length o <= 31)%nat -> fe t (1 - d) (fe t d o) = o.
  Proof using R_blk Hc.
    intros Hd Ht Hb Hl. destruct (fe_ok t d o Hd Ht Hb Hl) as (B & L & E). cbv zeta in E.
    unfold fe at 1. cbv zeta. rewrite L, E. set (n := length o) in *.
    destruct (halves o n Hb eq_refl) as [Ha Hb'].
    set (st0 := (firstn n (nibs o), skipn n (nibs o))) in *.
    destruct (feist_ok n Hl (tweak t n) (blk_tweak t n Ht) (rcs d n) st0 (rcs_blk d n Hd) Ha Hb') as [[N1 L1] [N2 L2]].
    set (st := feist n (tweak t n) (rcs d n) st0) in *.
    rewrite firstn_app, L2, Nat.sub_diag, firstn_all2, app_nil_r by lia.
    rewrite skipn_app, L2, Nat.sub_diag, skipn_all2 by lia. cbn [app skipn].
    assert (rcs (1 - d) n = rev (rcs d n)) as ->.
    { destruct Hd as [-> | ->]; [apply rcs_rev|]. change (1 - 1) with 0. rewrite rcs_rev, rev_involutive. reflexivity. }
    change (snd st, fst st) with (swap st). subst st. rewrite (feist_inverse n Hl (tweak t n) (blk_tweak t n Ht) (rcs d n) st0 (rcs_blk d n Hd) Ha Hb').
    unfold swap, st0. cbn [fst snd]. rewrite firstn_skipn. apply unn_nibs.
  Qed.
  Lemma tiny_val_ok t d o : d = 0 \/ d = 1 -> blk t -> is_bytes o -> (1 <= length o <= 31)%nat ->
    is_bytes (tiny_val t d o) /\ length (tiny_val t d o) = length o.
  Proof using R_blk Hc.
    intros Hd Ht Hb Hl. unfold tiny_val. destruct (fe_ok t d o Hd Ht Hb ltac:(lia)) as (B & L & _).
    destruct (Nat.leb_spec 16 (length o)) as [H|H]; [auto|]. destruct (d =? 0).
    - destruct (flipv_ok t (fe t d o) Ht B) as (B' & L' & _); [lia|]. split; [assumption|lia].
    - destruct (flipv_ok t o Ht Hb) as (B' & L' & _); [lia|]. destruct (fe_ok t d (flipv t o) Hd Ht B' ltac:(lia)) as (B2 & L2 & _). split; [assumption|lia].
  Qed.
  Lemma tiny_inverse t d o : d = 0 \/ d = 1 -> blk t -> is_bytes o -> (1 <= length o <= 31)%nat ->
    tiny_val t (1 - d) (tiny_val t d o) = o.
  Proof using R_blk Hc.
    intros Hd Ht Hb Hl. destruct (tiny_val_ok t d o Hd Ht Hb Hl) as [B L]. unfold tiny_val at 1. rewrite L.
    unfold tiny_val. destruct (fe_ok t d o Hd Ht Hb ltac:(lia)) as (B1 & L1 & _).
    destruct (Nat.leb_spec 16 (length o)) as [H|H]; [apply fe_inverse; (assumption || lia)|].
    destruct Hd as [-> | ->].
    - change (1 - 0 =? 0) with false. change (0 =? 0) with true. cbv iota.
      destruct (flipv_ok t (fe t 0 o) Ht B1) as (B' & L' & _ & E & _); [lia|]. rewrite E. apply fe_inverse; auto; lia.
    - change (1 - 1 =? 0) with true. change (1 =? 0) with false. cbv iota.
      destruct (flipv_ok t o Ht Hb) as (B' & L' & _ & E & _); [lia|]. rewrite fe_inverse; auto; lia.
  Qed.
End Tiny.
