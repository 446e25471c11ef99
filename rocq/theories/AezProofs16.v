(** aez.c with authentication bytes: no authenticator, and what goes wrong. *)
From Verif Require Import Base BaseFacts KeyVal AezModel PrpModel PrpSpec AesRound PrpProofs AezSpec AezProofs AezProofs7 AezProofs8 AezProofs9 AezProofs10 AezProofs12 AezAuthModel AezAuthSpec AezProofs15.
From Coq Require Import Lia.

Lemma zlen_nil_inv (x : bytes) : zlen x = 0 -> x = [].
Proof. destruct x; [reflexivity|]. rewrite zlen_cons. pose proof (zlen_nonneg x). lia. Qed.
Lemma tweak_0 N : tweak_of 0 N = [zeros 16; N; []].
Proof. reflexivity. Qed.
Lemma seal_0 R I J L N P : seal R I J L 0 N P = encipher R I J L [zeros 16; N; []] P.
Proof. unfold seal. rewrite tweak_0. destruct P as [|b P]; [reflexivity|]. cbn [length Nat.eqb zeros repeat]. rewrite app_nil_r. reflexivity. Qed.
Lemma without_authenticator R I J L N : block_map R -> part I -> part J -> part L -> is_bytes N -> zlen N <= 16 ->
  exists c, aez_setup (I ++ J ++ L) = Ok c /\ forall m dst, is_bytes m -> zlen m <= UINT_MAX -> buffer (zlen m) dst ->
    aez_encrypt_a R c N (zlen N) 0 m (zlen m) dst = aez_encrypt R c N (zlen N) m (zlen m) dst /\
    aez_decrypt_a R c N (zlen N) 0 m (zlen m) dst = aez_decrypt R c N (zlen N) m (zlen m) dst.
Proof.
  intros HR HI HJ HL BN LN.
  destruct (aez_any_nonce R I J L N HR HI HJ HL BN LN) as (c & Ec & H).
  destruct (auth_encrypt R I J L N 0 HR HI HJ HL BN LN ltac:(lia)) as (c1 & Ec1 & HE).
  destruct (auth_decrypt R I J L N 0 HR HI HJ HL BN LN ltac:(lia)) as (c2 & Ec2 & HD).
  destruct (auth_empty R I J L N 0 HR HI HJ HL BN LN ltac:(lia)) as (c3 & Ec3 & H0).
  assert (c1 = c) as -> by congruence. assert (c2 = c) as -> by congruence. assert (c3 = c) as -> by congruence.
  exists c. split; [exact Ec|]. intros m dst Bm Lm Bd. change (Z.of_nat 0) with 0 in *. split.
  - destruct (H m dst Bm Lm Bd) as [-> _]. specialize (HE m [] dst Bm ltac:(constructor) (Z.le_refl 0)). rewrite app_nil_r, Z.add_0_r in HE.
    rewrite (HE Lm Bd), seal_0. reflexivity.
  - destruct (Z.eq_dec (zlen m) 0) as [Z0|NZ].
    + assert (m = []) as -> by (apply zlen_nil_inv; exact Z0). destruct Bd as [Bd Ld]. assert (dst = []) as -> by (apply zlen_nil_inv; exact Ld).
      destruct (H [] [] Bm Lm (conj Bd Ld)) as [_ E]. cbv zeta in E.
      assert (encipher R I J L [zeros 16; N; []] [] = []) as E0 by reflexivity. rewrite E0 in E. rewrite E. apply (proj1 (H0 [] [] Bm eq_refl)).
      split; [reflexivity|]. intros [|i] k Q; cbn [nth] in Q; rewrite Z.bits_0 in Q; discriminate.
    + pose proof (zlen_nonneg m). pose proof (block_map_blk R HR) as RB. apply part_blk in HI, HJ, HL.
      destruct (setup_key I J L HI HJ HL) as (c' & Ec' & K). assert (c' = c) as -> by congruence. destruct Bd as [Bd Ld]. unfold UINT_MAX in *.
      destruct (open_ok I J L c K R RB 0 N m dst ltac:(lia) BN LN Bm ltac:(cbn; lia) ltac:(lia) Bd ltac:(cbn; lia)) as (X & junk & BX & LX & EC & ED).
      change (Z.of_nat 0) with 0 in ED. rewrite ED, Nat.sub_0_r. assert (length X = length m) as LXn by (unfold zlen in LX; lia).
      rewrite <- LXn, skipn_all, firstn_all. cbn [is_zero forallb].
      destruct (H X dst BX ltac:(lia) ltac:(split; [exact Bd|lia])) as [_ E]. cbv zeta in E. rewrite tweak_0 in EC. rewrite <- EC in E. symmetry. exact E.
Qed.

(** The key and the nonces of the examples *)
Definition yI := 200 :: zeros 14 ++ [1]. Definition yJ := 17 :: zeros 14 ++ [99]. Definition yL := 250 :: zeros 14 ++ [3].
Lemma bytesb x : forallb is_byteb x = true -> is_bytes x.
Proof.
  intros H. apply Forall_forall. intros b Hb. rewrite forallb_forall in H. specialize (H b Hb). unfold is_byteb, is_byte in *.
  apply andb_prop in H as [H1 H2]. apply Z.leb_le in H1. apply Z.ltb_lt in H2. split; assumption.
Qed.
Lemma yparts : part yI /\ part yJ /\ part yL.
Proof. split; [|split]; (split; [apply bytesb; reflexivity|reflexivity]). Qed.
Definition yc := match aez_setup (yI ++ yJ ++ yL) with Ok c => c | _ => mk_ctx [] [] [] [] [] [] [] end.
Lemma seal_len R I J L (a : nat) N P : block_map R -> part I -> part J -> part L -> is_bytes N -> zlen N <= 16 -> (a <= 16)%nat -> is_bytes P ->
  zlen P + Z.of_nat a <= UINT_MAX -> is_bytes (seal R I J L a N P) /\ zlen (seal R I J L a N P) = zlen P + Z.of_nat a.
Proof.
  intros HR HI HJ HL BN LN Ha BP LP. pose proof (block_map_blk R HR) as RB. apply part_blk in HI, HJ, HL. unfold UINT_MAX in LP.
  destruct (setup_key I J L HI HJ HL) as (c & Ec & K).
  apply (seal_ok I J L c K R RB a N P (zeros a) (zeros (length P + a))); try assumption; try apply is_bytes_zeros; try lia.
  - rewrite zlen_zeros. lia.
  - rewrite zlen_zeros. unfold zlen. lia.
Qed.
Lemma empty_forgery : exists I J L N C c, part I /\ part J /\ part L /\ is_bytes N /\ is_bytes C /\ aez_setup (I ++ J ++ L) = Ok c /\
  (forall P, is_bytes P -> zlen P + 16 <= UINT_MAX -> C <> seal aes_round I J L 16 N P) /\ aez_decrypt_a aes_round c N (zlen N) 16 C (zlen C) [] = Ok (0, []).
Proof.
  exists yI, yJ, yL, [1], (zeros 16), yc. destruct yparts as (HI & HJ & HL).
  split; [exact HI|]. split; [exact HJ|]. split; [exact HL|]. split; [apply bytesb; reflexivity|]. split; [apply is_bytes_zeros|]. split; [vm_compute; reflexivity|].
  split; [|vm_compute; reflexivity].
  intros P BP LP E. destruct (seal_len aes_round yI yJ yL 16 [1] P aes_round_map HI HJ HL ltac:(apply bytesb; reflexivity) ltac:(vm_compute; discriminate) ltac:(lia) BP LP) as [_ Q].
  rewrite <- E in Q. change (zlen (zeros 16)) with 16 in Q. assert (P = []) as -> by (destruct P; [reflexivity|rewrite zlen_cons in Q; pose proof (zlen_nonneg P); lia]).
  vm_compute in E. discriminate.
Qed.
Lemma encrypt_overread : exists c, aez_setup (yI ++ yJ ++ yL) = Ok c /\ aez_encrypt_a aes_round c [1] 1 1 (zeros 31) 31 (zeros 32) = UB.
Proof. exists yc. split; vm_compute; reflexivity. Qed.
(** It reads out of bounds for every message that is long enough. *)
Lemma overread_all R c N (a : nat) P dst : (1 <= a <= 16)%nat -> 0 < zlen P -> 32 <= zlen P + Z.of_nat a <= UINT_MAX ->
  forall x, aez_encrypt_a R c N (zlen N) (Z.of_nat a) P (zlen P) dst <> Ok x.
Proof.
  intros Ha LP H x. unfold aez_encrypt_a, UINT_MAX in *. destruct (aez_hash_a R c N (zlen N) (Z.of_nat a)) as [t| | | |]; try discriminate. cbn [bind].
  replace (zlen P =? 0) with false by lia. unfold u32. rewrite Z.mod_small by lia. replace (zlen P + Z.of_nat a <? 32) with false by lia.
  unfold core_a. change (0 =? 0) with true. cbv iota zeta. unfold u32. rewrite (Z.mod_small (zlen P + Z.of_nat a)) by lia.
  destruct (pass_one _ _ _ _ _) as [[d1 x1]| | | |]; try discriminate. cbn [bind].
  match goal with |- context [bind (if 16 <=? ?f then ?u else ?v) _] => destruct (if 16 <=? f then u else v) as [[[f0 f1] x2]| | | |] end; try discriminate. cbn [bind].
  destruct (load P (zlen P + Z.of_nat a - 32)) as [b| | | |]; try discriminate. cbn [bind].
  replace (load P (zlen P + Z.of_nat a - 32 + 16)) with (@UB bytes); [discriminate|].
  unfold load, rd. replace (zlen P + Z.of_nat a - 32 + 16 + 16 <=? zlen P) with false by lia. rewrite andb_false_r. reflexivity.
Qed.
Lemma setup_any h key old I J L : part I -> part J -> part L -> zlen (ctx_bytes old) = 112 ->
  (zlen key = 48 -> key = I ++ J ++ L) -> (zlen key <> 48 -> h key = I ++ J ++ L) -> aez_setup_any h key (zlen key) old = aez_setup (I ++ J ++ L).
Proof.
  intros HI HJ HL LO H1 H2. unfold aez_setup_any. destruct (Z.eqb_spec (zlen key) 48) as [E|E].
  - rewrite (H1 E). unfold aez_setup. destruct (load (I ++ J ++ L) 0); cbn [bind]; try reflexivity. destruct (load (I ++ J ++ L) 16); cbn [bind]; try reflexivity.
    destruct (load (I ++ J ++ L) 32); reflexivity.
  - assert (rd key 0 (zlen key) = Ok key) as ->.
    { rewrite <- (app_nil_r key) at 1. change (key ++ []) with ([] ++ key ++ []). apply rd_mid; reflexivity. }
    cbn [bind]. rewrite (H2 E). apply part_blk in HI, HJ, HL.
    assert (length I = 16 /\ length J = 16 /\ length L = 16)%nat as (LI & LJ & LL) by (split; [|split]; apply blk_len; assumption).
    assert (wr (ctx_bytes old) 0 (I ++ J ++ L) = Ok (I ++ J ++ L ++ skipn 48 (ctx_bytes old))) as ->.
    { unfold wr. rewrite !zlen_app, (blk_zlen _ HI), (blk_zlen _ HJ), (blk_zlen _ HL), LO. cbn [Z.to_nat firstn app Z.leb andb]. change (0 + (16 + (16 + 16)) <=? 112) with true. change (0 <=? 0) with true. cbn [andb]. rewrite !app_length, LI, LJ, LL. cbn [Nat.add]. rewrite <- !app_assoc. reflexivity. }
    cbn [bind]. unfold ctx_of. cbn [cI0 cI1 cI2 cJ0 cJ1 cJ2 cL].
    assert (firstn 16 (skipn (16 * 0) (I ++ J ++ L ++ skipn 48 (ctx_bytes old))) = I) as -> by (change (16 * 0)%nat with 0%nat; cbn [skipn]; rewrite firstn_app, LI, Nat.sub_diag, firstn_all2 by lia; apply app_nil_r).
    assert (firstn 16 (skipn (16 * 1) (I ++ J ++ L ++ skipn 48 (ctx_bytes old))) = J) as ->.
    { rewrite skipn_app, LI. rewrite skipn_all2 by lia. cbn [Nat.mul Nat.add Nat.sub skipn app]. rewrite firstn_app, LJ, Nat.sub_diag, firstn_all2 by lia. apply app_nil_r. }
    assert (firstn 16 (skipn (16 * 2) (I ++ J ++ L ++ skipn 48 (ctx_bytes old))) = L) as ->.
    { rewrite skipn_app, LI. rewrite skipn_all2 by lia. cbn [Nat.mul Nat.add Nat.sub app]. rewrite skipn_app, LJ. rewrite skipn_all2 by lia. cbn [Nat.sub skipn app].
      rewrite firstn_app, LL, Nat.sub_diag, firstn_all2 by lia. apply app_nil_r. }
    destruct (setup_key I J L HI HJ HL) as (c & Ec & _). unfold aez_setup in Ec |- *.
    assert (load (I ++ J ++ L) 0 = Ok I) as ->.
    { unfold load. change (I ++ J ++ L) with ([] ++ I ++ J ++ L). apply rd_mid; [reflexivity|rewrite (blk_zlen _ HI); reflexivity]. }
    assert (load (I ++ J ++ L) 16 = Ok J) as ->.
    { unfold load. apply rd_mid; [rewrite (blk_zlen _ HI); reflexivity|rewrite (blk_zlen _ HJ); reflexivity]. }
    assert (load (I ++ J ++ L) 32 = Ok L) as ->.
    { unfold load. rewrite app_assoc, <- (app_nil_r L) at 1.
      apply rd_mid; [rewrite zlen_app, (blk_zlen _ HI), (blk_zlen _ HJ); reflexivity|rewrite (blk_zlen _ HL); reflexivity]. }
    reflexivity.
Qed.
