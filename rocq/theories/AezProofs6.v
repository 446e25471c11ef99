(** cipher_aez_tiny computes the values of AezProofs5, inside of the buffers; aez_encrypt and aez_decrypt. *)
From Verif Require Import Base BaseFacts AezModel AezProofs AezProofs2 AezProofs3 AezProofs4 AezProofs5.
From Coq Require Import Lia.

Lemma load_partial_ok a b k pos : pos = zlen a -> k = zlen b -> k <= 16 -> load_partial (a ++ b) pos k = Ok (b ++ zeros (16 - length b)).
Proof.
  intros -> -> Hk. unfold load_partial. rewrite rd_suffix by reflexivity. cbn [bind]. unfold zlen in Hk.
  unfold zero. replace 16%nat with (length b + (16 - length b))%nat at 1 by lia. rewrite zeros_app.
  apply wr_prefix. rewrite zlen_zeros. reflexivity.
Qed.
Lemma buf_ok o : is_bytes o -> (1 <= length o <= 31)%nat ->
  (if 16 <=? zlen o then
     b0 <- load o 0 ;; b1 <- load_partial o 16 (zlen o - 16) ;; b1 <- zero_pad b1 (32 - zlen o) ;; Ok (b0 ++ b1)
   else b0 <- load_partial o 0 (zlen o) ;; b0 <- zero_pad b0 (16 - zlen o) ;; Ok (b0 ++ zero)) = Ok (o ++ zeros (32 - length o)).
Proof.
  intros Hb Hl. destruct (Z.leb_spec 16 (zlen o)) as [H|H].
  - destruct (zsplit o 16) as (a & b & E & La & Lb); [lia|]. rewrite E in *. rewrite is_bytes_app in Hb. destruct Hb as [B1 B2].
    unfold load. rewrite rd_prefix by lia. cbn [bind]. rewrite zlen_app, La. replace (16 + zlen b - 16) with (zlen b) by lia.
    rewrite app_length in Hl. assert (length a = 16%nat) as La' by (unfold zlen in La; lia).
    rewrite load_partial_ok by (unfold zlen in *; lia). cbn [bind].
    replace (32 - (16 + zlen b)) with (16 - Z.of_nat (length b)) by (unfold zlen; lia).
    rewrite zero_pad_ok; [|lia|split; [rewrite app_length, zeros_length; lia|apply is_bytes_app; split; [assumption|apply is_bytes_zeros]]].
    cbn [bind]. rewrite firstn_app, Nat.sub_diag, firstn_all, app_nil_r. rewrite <- app_assoc. replace (32 - length (a ++ b))%nat with (16 - length b)%nat by (rewrite app_length; lia). reflexivity.
  - assert (zlen o = Z.of_nat (length o)) as Z by reflexivity. assert (load_partial o 0 (zlen o) = Ok (o ++ zeros (16 - length o))) as -> by (apply (load_partial_ok [] o (zlen o) 0); (reflexivity || lia)). cbn [bind]. rewrite Z.
    rewrite zero_pad_ok; [|lia|split; [rewrite app_length, zeros_length; lia|apply is_bytes_app; split; [assumption|apply is_bytes_zeros]]].
    cbn [bind]. rewrite firstn_app, Nat.sub_diag, firstn_all, app_nil_r, <- app_assoc. unfold zero. rewrite <- zeros_app. replace (16 - length o + 16)%nat with (32 - length o)%nat by (unfold zlen in H; lia). reflexivity.
Qed.
Lemma load_window buf (h : nat) : (h + 16 <= length buf)%nat -> is_bytes buf -> load buf (Z.of_nat h) = Ok (window buf h 16) /\ blk (window buf h 16).
Proof.
  intros Hl Hb. split.
  - unfold load. rewrite rd_ok by (unfold zlen; lia). rewrite Nat2Z.id. reflexivity.
  - split; [rewrite window_length; lia|]. apply is_bytes_firstn, is_bytes_skipn, Hb.
Qed.
Lemma odd_bit (n : nat) : negb (Z.land (Z.of_nat n) 1 =? 0) = Nat.odd n.
Proof.
  change 1 with (Z.ones 1). rewrite Z.land_ones by lia. change (2 ^ 1) with 2.
  destruct (Nat.odd n) eqn:E.
  - apply Nat.odd_spec in E as [k ->]. replace (Z.of_nat (2 * k + 1) mod 2) with 1 by lia. reflexivity.
  - assert (Nat.even n = true) as E' by (rewrite <- Nat.negb_odd, E; reflexivity). apply Nat.even_spec in E' as [k ->].
    replace (Z.of_nat (2 * k) mod 2) with 0 by lia. reflexivity.
Qed.
Lemma parity (n : nat) : exists h, (Z.of_nat n / 2 = Z.of_nat h) /\ ((Nat.odd n = false /\ n = 2 * h)%nat \/ (Nat.odd n = true /\ n = 2 * h + 1)%nat).
Proof.
  destruct (Nat.odd n) eqn:E.
  - apply Nat.odd_spec in E as [k ->]. exists k. split; [lia|auto].
  - assert (Nat.even n = true) as E' by (rewrite <- Nat.negb_odd, E; reflexivity). apply Nat.even_spec in E' as [k ->]. exists k. split; [lia|auto].
Qed.
Lemma nibs_window buf h : nibs (window buf h 16) = firstn 32 (skipn (2 * h) (nibs buf)).
Proof. unfold window. rewrite nibs_skipn. change 32%nat with (2 * 16)%nat. rewrite nibs_firstn. reflexivity. Qed.

(** loading the right half and the masks *)
Lemma right_ok (n h : nat) o : is_bytes o -> length o = n -> (1 <= n <= 31)%nat ->
  ((Nat.odd n = false /\ n = 2 * h)%nat \/ (Nat.odd n = true /\ n = 2 * h + 1)%nat) ->
  exists m10 ff r, (mask_ff <- load pad (16 - Z.of_nat h) ;; mask_10 <- load pad (32 - Z.of_nat h) ;;
     (if Nat.odd n then
         m <- wr mask_ff (Z.of_nat h) [0xf0] ;;
         Ok (sll4 mask_10, m, bswap16 (srl4 (bswap16 (window (o ++ zeros (32 - n)) h 16))))
       else Ok (mask_10, mask_ff, window (o ++ zeros (32 - n)) h 16))) = Ok (m10, ff, r) /\ blk r /\
    nibs ff = repeat 15 n ++ zeros (32 - n) /\ nibs m10 = zeros n ++ 8 :: zeros (31 - n) /\ firstn n (nibs r) = skipn n (nibs o).
Proof.
  intros Hb Hl Hn Hh.
  assert (h <= 15)%nat as Hh15 by lia. pose proof (nibs_length o) as Ln. rewrite Hl in Ln.
  assert (is_bytes (o ++ zeros (32 - n))) as Bb by (apply is_bytes_app; split; [assumption|apply is_bytes_zeros]).
  assert (length (o ++ zeros (32 - n)) = 32)%nat as Lb by (rewrite app_length, zeros_length; lia).
  destruct (load_window (o ++ zeros (32 - n)) h ltac:(lia) Bb) as [_ Bw].
  rewrite load_ff, load_10 by lia. cbn [bind].
  destruct Hh as [[Ho Hh]|[Ho Hh]]; rewrite Ho.
  - destruct (masks_even h Hh15) as [E1 E2]. eexists _, _, _. split; [reflexivity|]. split; [exact Bw|]. rewrite <- Hh in E1, E2.
    split; [exact E1|]. split; [exact E2|].
    rewrite nibs_window, <- Hh, nibs_app, skipn_app. replace (n - length (nibs o))%nat with 0%nat by lia. cbn [skipn].
    rewrite firstn_firstn. replace (Nat.min n 32) with n by lia. rewrite firstn_app, skipn_length.
    replace (n - (length (nibs o) - n))%nat with 0%nat by lia. cbn [firstn]. rewrite app_nil_r, firstn_all2; [reflexivity|]. rewrite skipn_length. lia.
  - destruct (masks_odd h Hh15) as (m & Em & Bm & E1 & E2). change 0xf0 with 240. rewrite Em. cbn [bind].
    eexists _, _, _. split; [reflexivity|]. destruct (shift_up _ Bw) as [Bs Es]. split; [exact Bs|]. rewrite <- Hh in E1, E2.
    split; [exact E1|]. split; [exact E2|].
    rewrite Es, firstn_app, skipn_length, nibs_length, (blk_len _ Bw). replace (n - (2 * 16 - 1))%nat with 0%nat by lia. cbn [firstn]. rewrite app_nil_r.
    rewrite nibs_window, nibs_app, skipn_app. replace (2 * h - length (nibs o))%nat with 0%nat by lia. rewrite skipn_O.
    rewrite skipn_firstn_comm. rewrite firstn_firstn. replace (Nat.min n (32 - 1)) with n by lia.
    rewrite skipn_app, skipn_skipn_add. replace (1 + 2 * h)%nat with n by lia.
    rewrite firstn_app, skipn_length. replace (n - (length (nibs o) - n))%nat with 0%nat by lia. cbn [firstn].
    rewrite app_nil_r, firstn_all2; [reflexivity|]. rewrite skipn_length. lia.
Qed.

(** storing the two halves *)
Lemma join_ok (n h : nat) buf a b : is_bytes buf -> length buf = 32%nat -> (1 <= n <= 31)%nat -> half_ok n a -> half_ok n b ->
  ((Nat.odd n = false /\ n = 2 * h)%nat \/ (Nat.odd n = true /\ n = 2 * h + 1)%nat) ->
  exists buf', (buf <- wr buf 0 (padb n b) ;;
    l <- (if Nat.odd n then
         let l := bswap16 (sll4 (bswap16 (padb n a))) in
         b <- load buf (Z.of_nat h) ;;
         m <- zero_set_byte 0xf0 0 ;;
         Ok (vor l (vand b m))
       else Ok (padb n a)) ;;
    wr buf (Z.of_nat h) l) = Ok buf' /\ is_bytes buf' /\ length buf' = 32%nat /\ nibs (firstn n buf') = b ++ a.
Proof.
  intros Hb Hl Hn Ha Hb' Hh.
  destruct Ha as [Na La], Hb' as [Nb Lb].
  destruct (padb_ok n a ltac:(lia) Na La) as [Ba Ea]. destruct (padb_ok n b ltac:(lia) Nb Lb) as [Bb Eb].
  destruct (zsplit buf 16) as (b0 & b1 & Ebuf & L0 & L1); [unfold zlen; lia|]. subst buf. rewrite app_length in Hl.
  assert (length b0 = 16)%nat by (unfold zlen in L0; lia). assert (length b1 = 16)%nat by lia. apply is_bytes_app in Hb as [Bb0 Bb1].
  rewrite wr_prefix by (rewrite (blk_zlen _ Bb); lia). cbn [bind].
  assert (exists l', (if Nat.odd n then
         let l := bswap16 (sll4 (bswap16 (padb n a))) in
         b <- load (padb n b ++ b1) (Z.of_nat h) ;;
         m <- zero_set_byte 0xf0 0 ;;
         Ok (vor l (vand b m))
       else Ok (padb n a)) = Ok l' /\ blk l' /\ firstn (2 * n - 2 * h) (nibs l') = skipn (2 * h) b ++ a) as (l' & El & Bl & Nl).
  { assert (firstn n (nibs (padb n a)) = a) as Fa by (apply padb_firstn; (assumption || lia)).
    destruct Hh as [[Ho Hh]|[Ho Hh]]; rewrite Ho.
    - exists (padb n a). split; [reflexivity|]. split; [exact Ba|]. replace (2 * n - 2 * h)%nat with n by lia.
      rewrite Fa, skipn_all2 by lia. reflexivity.
    - cbv zeta. destruct (shift_down _ Ba) as [Bs Es].
      assert (is_bytes (padb n b ++ b1)) as BB by (apply is_bytes_app; split; [apply Bb|assumption]).
      destruct (load_window (padb n b ++ b1) h) as [-> Bw]; [rewrite app_length, (blk_len _ Bb); lia|exact BB|]. cbn [bind].
      change (zero_set_byte 0xf0 0) with (Ok (240 :: zeros 15)). cbn [bind].
      assert (blk (240 :: zeros 15)) as Bm by (apply blkb_ok; vm_compute; reflexivity).
      eexists. split; [reflexivity|]. split; [apply blk_vor; [assumption|apply blk_vand; assumption]|].
      rewrite nibs_or, nibs_and, Es.
      assert (exists x rest, nibs (window (padb n b ++ b1) h 16) = x :: rest /\ length rest = 31%nat /\ skipn (2 * h) b = [x] /\ is_nib x) as (x & rest & Ew & Lr & Ex & Hx).
      { pose proof (nibs_length (window (padb n b ++ b1) h 16)) as Lw. rewrite (blk_len _ Bw) in Lw.
        assert (length (skipn (2 * h) b) = 1)%nat as L1b by (rewrite skipn_length; lia).
        rewrite nibs_window, nibs_app, Eb in Lw |- *. rewrite <- !app_assoc in Lw |- *. rewrite skipn_app in Lw |- *.
        assert (Forall is_nib (skipn (2 * h) b)) as Nx by (apply Forall_skipn; assumption).
        destruct (skipn (2 * h) b) as [|x [|? ?]]; try discriminate. inversion Nx; subst. cbn [app] in Lw |- *. rewrite firstn_cons in Lw |- *.
        eexists x, _. split; [reflexivity|]. split; [cbn [length] in Lw; clear -Lw; lia|]. split; [reflexivity|assumption]. }
      rewrite Ew, Ex. change (nibs (240 :: zeros 15)) with (15 :: 0 :: nibs (zeros 15)). rewrite nibs_zeros.
      change (15 :: 0 :: zeros (2 * 15)) with (15 :: zeros 31).
      unfold vand, vor. cbn [zipw]. fold vand vor. rewrite Z.lor_0_l. change 15 with (Z.ones 4). rewrite Z.land_ones by lia.
      rewrite vand_0 by exact Lr.
      assert (length (firstn 31 (nibs (padb n a))) = 31)%nat as L31 by (rewrite firstn_length, nibs_length, (blk_len _ Ba); lia).
      rewrite vor_0_r by exact L31. replace (2 * n - 2 * h)%nat with (S n) by lia. rewrite firstn_cons. cbn [app]. f_equal.
      + unfold is_nib in Hx. apply Z.mod_small. change (2 ^ 4) with 16. lia.
      + rewrite firstn_firstn. replace (Nat.min n 31) with n by lia. exact Fa. }
  cbv zeta in El |- *. rewrite El. cbn [bind].
  assert (exists p q, padb n b ++ b1 = p ++ q /\ length p = h /\ length q = (32 - h)%nat) as (p & q & Epq & Lp & Lq).
  { exists (firstn h (padb n b ++ b1)), (skipn h (padb n b ++ b1)). rewrite firstn_skipn, firstn_length, skipn_length, app_length, (blk_len _ Bb). split; [reflexivity|lia]. }
  rewrite Epq.
  rewrite wr_app_eq; [|unfold zlen; lia|rewrite (blk_zlen _ Bl); unfold zlen; lia].
  eexists. split; [reflexivity|].
  assert (is_bytes (p ++ q)) as Bpq by (rewrite <- Epq; apply is_bytes_app; split; [apply Bb|assumption]). apply is_bytes_app in Bpq as [Bp Bq].
  split; [rewrite !is_bytes_app; split; [exact Bp|]; split; [apply Bl|apply is_bytes_skipn, Bq]|].
  split; [rewrite !app_length, skipn_length, (blk_len _ Bl); lia|].
  rewrite <- nibs_firstn, !nibs_app.
  assert (nibs p = firstn (2 * h) b) as Ep.
  { transitivity (firstn (2 * h) (nibs (p ++ q))).
    - rewrite nibs_app, firstn_app, nibs_length, Lp, Nat.sub_diag, firstn_all2 by (rewrite nibs_length; lia). symmetry; apply app_nil_r.
    - rewrite <- Epq, nibs_app, Eb. rewrite <- !app_assoc, firstn_app. replace (2 * h - length b)%nat with 0%nat by lia. apply app_nil_r. }
  rewrite firstn_app, nibs_length, Lp, (firstn_all2 (nibs p)) by (rewrite nibs_length; lia).
  rewrite firstn_app, nibs_length, (blk_len _ Bl). replace (2 * n - 2 * h - 2 * 16)%nat with 0%nat by lia. cbn [firstn].
  rewrite app_nil_r, Nl, Ep, app_assoc, firstn_skipn. reflexivity.
Qed.

Section Tiny.
  Variable R : bytes -> bytes.
  Hypothesis R_blk : forall x, blk x -> blk (R x).
  Variable c : ctx.
  Hypothesis Hc : ctx_ok c.

  Lemma tiny_ok t d o dst : d = 0 \/ d = 1 -> blk t -> is_bytes o -> (1 <= length o <= 31)%nat -> zlen dst = zlen o ->
    cipher_aez_tiny R c t d o (zlen o) dst = Ok (0, tiny_val R c t d o).
  Proof using R_blk Hc.
    intros Hd Ht Hb Hl Hdst. unfold cipher_aez_tiny. cbv zeta. rewrite buf_ok by assumption. cbn [bind].
    set (n := length o) in *. set (buf := o ++ zeros (32 - n)) in *.
    assert (zlen o = Z.of_nat n) as Zn by reflexivity. rewrite Zn in *. rewrite odd_bit.
    destruct (parity n) as (h & Eh & Hpar). rewrite Eh.
    assert (is_bytes buf) as Bbuf by (apply is_bytes_app; split; [assumption|apply is_bytes_zeros]).
    assert (length buf = 32%nat) as Lbuf by (unfold buf; rewrite app_length, zeros_length; lia).
    destruct (load_window buf 0 ltac:(lia) Bbuf) as [E0 Bl]. change (Z.of_nat 0) with 0 in E0. rewrite E0. cbn [bind].
    destruct (load_window buf h ltac:(lia) Bbuf) as [Er Br]. rewrite Er. cbn [bind].
    destruct (right_ok n h o Hb eq_refl Hl Hpar) as (m10 & ff & r & EM & Br' & Eff & E10 & Ebr). fold buf in EM.
    revert EM. destruct (load pad (16 - Z.of_nat h)) as [mf| | | |]; try discriminate. cbn [bind].
    destruct (load pad (32 - Z.of_nat h)) as [m1| | | |]; try discriminate. cbn [bind]. intros ->. cbn [bind].
    rewrite (mask_padb n ff m10 r) by (assumption || lia). rewrite Ebr.
    assert ((if 16 <=? Z.of_nat n then (vxor (vxor t (cI1 c)) (cI2 c), 8)
      else (vxor (vxor t (cI0 c)) (vxor (cI1 c) (cI2 c)),
            if 3 <=? Z.of_nat n then 10 else if Z.of_nat n =? 2 then 16 else 24)) = (tweak c t n, rounds n)) as ->.
    { unfold tweak, rounds. destruct (Nat.leb_spec 16 n); [replace (16 <=? Z.of_nat n) with true by lia; reflexivity|].
      replace (16 <=? Z.of_nat n) with false by lia. f_equal. destruct (Nat.leb_spec 3 n); [replace (3 <=? Z.of_nat n) with true by lia; reflexivity|].
      replace (3 <=? Z.of_nat n) with false by lia. destruct (Nat.eqb_spec n 2); [replace (Z.of_nat n =? 2) with true by lia; reflexivity|].
      replace (Z.of_nat n =? 2) with false by lia. reflexivity. }
    assert ((if d =? 0 then one <- zero_set_byte 1 15 ;; Ok (one, zero)
       else one <- zero_set_byte (-1) 15 ;; rcon <- zero_set_byte (rounds n - 1) 15 ;; Ok (one, rcon)) = Ok (onev d, rcon0 d n)) as ->.
    { unfold onev, rcon0. destruct Hd as [-> | ->].
      - vm_compute. reflexivity.
      - destruct (rounds_cases n) as [->|[->|[->| ->]]]; vm_compute; reflexivity. }
    cbn [bind]. change (load pad 32) with (Ok p80). cbn [bind].
    set (o' := if negb (d =? 0) && (Z.of_nat n <? 16) then flipv R c t o else o).
    assert (is_bytes o' /\ length o' = n /\ skipn n (nibs o') = skipn n (nibs o)) as (Bo' & Lo' & So').
    { unfold o'. destruct (negb (d =? 0) && (Z.of_nat n <? 16)) eqn:E; [|auto].
      destruct (flipv_ok R R_blk c Hc t o Ht Hb) as (B & L & S1 & _); [lia|]. split; [exact B|]. split; [exact L|].
      replace n with ((n - 1) + 1)%nat by lia. rewrite <- !skipn_skipn_add, S1. reflexivity. }
    match goal with |- (let (_, _) := feistel _ _ _ _ _ _ _ ?e _ _ in _) = _ => assert (blk e /\ firstn n (nibs e) = firstn n (nibs o')) as [Bl' El'] end.
    { assert (forall u, is_bytes u -> length u = n -> blk (window (u ++ zeros (32 - n)) 0 16) /\ firstn n (nibs (window (u ++ zeros (32 - n)) 0 16)) = firstn n (nibs u)) as HW.
      { intros u Bu Lu. split.
        - apply load_window; [rewrite app_length, zeros_length; lia|]. apply is_bytes_app; split; [assumption|apply is_bytes_zeros].
        - rewrite nibs_window. cbn [Nat.mul Nat.add skipn]. rewrite firstn_firstn. replace (Nat.min n 32) with n by lia.
          rewrite nibs_app, firstn_app, nibs_length, Lu. replace (n - 2 * n)%nat with 0%nat by lia. apply app_nil_r. }
      unfold o'. destruct (negb (d =? 0) && (Z.of_nat n <? 16)) eqn:E; [|apply HW; assumption || reflexivity].
      destruct (flipv_ok R R_blk c Hc t o Ht Hb) as (B & L & _ & _ & EX); [lia|]. fold n in EX, L.
      assert (window buf 0 16 = o ++ zeros (16 - n)) as ->.
      { unfold buf, window. cbn [skipn]. rewrite firstn_app, (firstn_all2 o) by lia. fold n. f_equal.
        replace (32 - n)%nat with ((16 - n) + 16)%nat by lia. rewrite zeros_app, firstn_app, zeros_length, Nat.sub_diag, firstn_all2 by (rewrite zeros_length; lia). apply app_nil_r. }
      rewrite EX by (rewrite zlen_zeros; lia).
      specialize (HW (flipv R c t o) B L). assert (window (flipv R c t o ++ zeros (32 - n)) 0 16 = flipv R c t o ++ zeros (16 - n)) as EW.
      { unfold window. cbn [skipn]. rewrite firstn_app, (firstn_all2 (flipv R c t o)) by lia. rewrite L. f_equal.
        replace (32 - n)%nat with ((16 - n) + 16)%nat by lia. rewrite zeros_app, firstn_app, zeros_length, Nat.sub_diag, firstn_all2 by (rewrite zeros_length; lia). apply app_nil_r. }
      rewrite <- EW. exact HW. }
    rewrite <- So'.
    assert (exists k, Z.to_nat (rounds n / 2) = S k) as [k Ek].
    { destruct (rounds_cases n) as [->|[->|[->| ->]]]; eexists; vm_compute; reflexivity. }
    pose proof (rcs_blk d n Hd) as Hrb. unfold rcs in Hrb. rewrite Ek in Hrb.
    destruct (halves R R_blk o' n Bo' Lo') as [HA HB].
    rewrite Ek, (feistel_ok R R_blk c Hc n ltac:(lia) (tweak c t n) (blk_tweak c Hc t n Ht) k ff m10 (onev d) (rcon0 d n) _ _ Eff E10 Bl' HB Hrb).
    rewrite El'. rewrite <- Ek. fold (rcs d n). cbv zeta.
    destruct (feist_ok R R_blk c Hc n ltac:(lia) (tweak c t n) (blk_tweak c Hc t n Ht) (rcs d n) (firstn n (nibs o'), skipn n (nibs o')) (rcs_blk d n Hd) HA HB) as [H1 H2].
    destruct (fe_ok R R_blk c Hc t d o' Hd Ht Bo' ltac:(lia)) as (Bfe & Lfe & Nfe). rewrite Lo' in Lfe, Nfe. cbv zeta in Nfe.
    set (st := feist R c n (tweak c t n) (rcs d n) (firstn n (nibs o'), skipn n (nibs o'))) in *.
    destruct (join_ok n h buf (fst st) (snd st) Bbuf Lbuf Hl H1 H2 Hpar) as (buf' & EJ & BJ & LJ & NJ).
    assert (firstn n buf' = fe R c t d o') as Efe by (apply nibs_inj; rewrite NJ, Nfe; reflexivity).
    revert EJ. destruct (wr buf 0 (padb n (snd st))) as [bufa| | | |]; try discriminate. cbn [bind].
    match goal with |- bind ?e _ = _ -> bind ?e _ = _ => destruct e as [l'| | | |]; try discriminate end. cbn [bind]. intros ->. cbn [bind].
    destruct (zsplit buf' 16) as (b0 & b1 & Eb' & L0 & L1); [unfold zlen; lia|].
    assert (length b0 = 16)%nat as L0' by (unfold zlen in L0; lia).
    unfold tiny_val. fold n. destruct ((d =? 0) && (Z.of_nat n <? 16)) eqn:Efl.
    - assert (Z.of_nat n < 16) as Hn16 by lia. assert (d = 0) as Hd0 by lia. assert (o' = o) as Eo by (unfold o'; rewrite Hd0; reflexivity). rewrite Eo in Efe, Bfe, Lfe.
      replace (Nat.leb 16 n) with false by (symmetry; apply Nat.leb_gt; lia).
      assert (is_bytes b0) as Bb0 by (rewrite Eb' in BJ; apply is_bytes_app in BJ; apply BJ).
      assert (load buf' 0 = Ok b0) as -> by (rewrite Eb'; unfold load; apply rd_prefix; lia). cbn [bind].
      rewrite zero_pad_ok by (lia || (split; assumption)). cbn [bind].
      assert (firstn n b0 = fe R c t d o) as Ef0.
      { rewrite <- Efe, Eb', firstn_app. replace (n - length b0)%nat with 0%nat by lia. symmetry. apply app_nil_r. }
      rewrite Ef0. destruct (flipv_ok R R_blk c Hc t (fe R c t d o) Ht Bfe) as (B & L & _ & _ & EX); [lia|]. rewrite Lfe in EX, L.
      rewrite <- (firstn_skipn n b0) at 1. rewrite Ef0, EX by (unfold zlen; rewrite skipn_length; lia).
      rewrite Eb'. rewrite wr_prefix.
      2:{ rewrite zlen_app. unfold zlen. rewrite skipn_length. lia. }
      cbn [bind]. rewrite <- app_assoc, rd_prefix by (unfold zlen; lia). cbn [bind].
      rewrite wr_all by (unfold zlen in *; lia). rewrite Hd0; reflexivity.
    - cbn [bind]. rewrite rd_ok by (unfold zlen; lia). rewrite Nat2Z.id. unfold window. cbn [skipn Z.to_nat].
      change (Z.to_nat 0) with 0%nat. cbn [skipn]. rewrite Efe. cbn [bind]. rewrite wr_all by (unfold zlen in *; lia). cbn [bind]. f_equal. f_equal.
      destruct (Nat.leb_spec 16 n) as [H16|H16].
      + unfold o'. replace (negb (d =? 0) && (Z.of_nat n <? 16)) with false by lia. reflexivity.
      + destruct Hd as [-> | ->]; [cbn in Efl; lia|]. unfold o'. change (1 =? 0) with false. cbn [negb andb].
        replace (Z.of_nat n <? 16) with true by lia. reflexivity.
  Qed.
End Tiny.
