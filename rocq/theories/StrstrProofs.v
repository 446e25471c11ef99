From Verif Require Import BaseFacts StrstrModel.

(** [needle] occurs in [hay] at position [k] *)
Definition occurs_at (needle hay : bytes) (k : Z) : Prop :=
  exists a c, hay = a ++ needle ++ c /\ zlen a = k.

Lemma occurs_at_window n h k : occurs_at n h k <-> 0 <= k /\ k + zlen n <= zlen h /\ window h (Z.to_nat k) (length n) = n.
Proof.
  split.
  - intros (a & c & -> & Hk). rewrite !zlen_app. pose proof (zlen_nonneg a); pose proof (zlen_nonneg c).
    split; [lia|]. split; [lia|].
    replace (Z.to_nat k) with (length a) by (unfold zlen in Hk; lia). apply window_app_mid.
  - intros (Hk & Hl & Hw). exists (firstn (Z.to_nat k) h), (skipn (length n) (skipn (Z.to_nat k) h)).
    split.
    + rewrite <- Hw at 1. unfold window. rewrite firstn_skipn, firstn_skipn. reflexivity.
    + unfold zlen in *. rewrite firstn_length. lia.
Qed.

Lemma window_S_snoc (h : bytes) o n b : nth_error h (o + n) = Some b -> window h o (S n) = window h o n ++ [b].
Proof.
  intros Hb. replace (S n) with (n + 1)%nat by lia. rewrite window_app_split. f_equal.
  unfold window. apply nth_error_split in Hb as (l1 & l2 & -> & Hl). rewrite <- Hl, skipn_app, skipn_all, Nat.sub_diag. reflexivity.
Qed.
Lemma firstn_S_snoc (h : bytes) n b : nth_error h n = Some b -> firstn (S n) h = firstn n h ++ [b].
Proof. intros Hb. exact (window_S_snoc h 0 n b Hb). Qed.

Lemma strstr_loop_ok h n : zlen h <= 2 ^ 62 -> zlen n <= 2 ^ 62 -> 0 < zlen n ->
  forall fuel loc1 loc2, 0 <= loc2 < zlen n -> loc2 <= loc1 -> loc1 - loc2 <= zlen h ->
  (zlen h + 1 - (loc1 - loc2)) * (zlen n + 1) - loc2 < Z.of_nat fuel ->
  window h (Z.to_nat (loc1 - loc2)) (Z.to_nat loc2) = firstn (Z.to_nat loc2) n ->
  (forall j, j < loc1 - loc2 -> ~ occurs_at n h j) ->
  exists r, strstr_loop fuel h (zlen h) n (zlen n) loc1 loc2 = Ok r /\
    match r with
    | Some k => occurs_at n h k /\ forall j, j < k -> ~ occurs_at n h j
    | None => forall j, ~ occurs_at n h j
    end.
Proof.
  intros Hh Hn Hn0. induction fuel as [|fuel IH]; intros loc1 loc2 H2 H12 Hs Hf Hw Hno; [nia|].
  cbn [strstr_loop].
  replace (u64 (u64 (loc1 - loc2) + zlen n)) with (loc1 - loc2 + zlen n)
    by (unfold u64; rewrite !Z.mod_small; try lia; rewrite Z.mod_small; lia).
  destruct (Z.leb_spec (loc1 - loc2 + zlen n) (zlen h)) as [Hle|Hgt].
  2:{ exists None. split; [reflexivity|]. intros j Hj. destruct (Z_lt_ge_dec j (loc1 - loc2)) as [Hlt|Hge].
      - exact (Hno j Hlt Hj).
      - apply occurs_at_window in Hj. lia. }
  destruct (rd1_ok h loc1) as (a & -> & Ha); [lia|]. rewrite bind_Ok.
  destruct (rd1_ok n loc2) as (b & -> & Hb); [lia|]. rewrite bind_Ok.
  destruct (Z.eqb_spec a b) as [->|Hneq].
  - assert (Hw' : window h (Z.to_nat (loc1 - loc2)) (Z.to_nat (loc2 + 1)) = firstn (Z.to_nat (loc2 + 1)) n).
    { replace (Z.to_nat (loc2 + 1)) with (S (Z.to_nat loc2)) by lia.
      rewrite (window_S_snoc _ _ _ b), (firstn_S_snoc _ _ b Hb), Hw; [reflexivity|].
      rewrite <- Ha. f_equal. lia. }
    replace (u64 (loc2 + 1)) with (loc2 + 1) by (unfold u64; rewrite Z.mod_small; lia).
    cbv zeta. destruct (Z.eqb_spec (loc2 + 1) (zlen n)) as [Heq|Hne].
    + exists (Some (loc1 - (loc2 + 1) + 1)). split; [reflexivity|].
      replace (loc1 - (loc2 + 1) + 1) with (loc1 - loc2) by lia. split; [|exact Hno].
      apply occurs_at_window. split; [lia|]. split; [lia|].
      replace (Z.to_nat (loc2 + 1)) with (length n) in Hw' by (unfold zlen in Heq; lia).
      rewrite Hw'. apply firstn_all.
    + replace (u64 (loc1 + 1)) with (loc1 + 1) by (unfold u64; rewrite Z.mod_small; lia).
      apply IH; try lia; replace (loc1 + 1 - (loc2 + 1)) with (loc1 - loc2) by lia; assumption || lia.
  - replace (u64 (u64 (loc1 - loc2) + 1)) with (loc1 - loc2 + 1)
      by (unfold u64; rewrite !Z.mod_small; try lia; rewrite Z.mod_small; lia).
    apply IH; try lia; try nia.
    + rewrite Z.sub_0_r. reflexivity.
    + intros j Hj Ho. destruct (Z.eq_dec j (loc1 - loc2)) as [->|]; [|apply (Hno j); [lia|exact Ho]].
      apply occurs_at_window in Ho as (_ & _ & Ho). apply Hneq.
      assert (E : nth_error (window h (Z.to_nat (loc1 - loc2)) (length n)) (Z.to_nat loc2) = Some b) by (rewrite Ho; exact Hb).
      unfold window in E.
      assert (E2 : nth_error (skipn (Z.to_nat (loc1 - loc2)) h) (Z.to_nat loc2) = Some b).
      { rewrite <- (firstn_skipn (length n) (skipn (Z.to_nat (loc1 - loc2)) h)).
        rewrite nth_error_app1; [exact E|]. apply nth_error_Some. congruence. }
      assert (E3 : forall (l : bytes) i k, nth_error (skipn i l) k = nth_error l (i + k)).
      { clear. intros l i. revert l. induction i as [|i IHi]; intros [|x l] k; simpl; auto. destruct k; reflexivity. }
      rewrite E3 in E2. replace (Z.to_nat (loc1 - loc2) + Z.to_nat loc2)%nat with (Z.to_nat loc1) in E2 by lia. congruence.
Qed.

Lemma strstrn_first h n : zlen h <= 2 ^ 62 -> zlen n <= 2 ^ 62 ->
  exists r, strstrn h (zlen h) n (zlen n) = Ok r /\
    match r with
    | Some k => occurs_at n h k /\ forall j, j < k -> ~ occurs_at n h j
    | None => forall j, ~ occurs_at n h j
    end.
Proof.
  intros Hh Hn. unfold strstrn. pose proof (zlen_nonneg h). pose proof (zlen_nonneg n).
  destruct (Z.eqb_spec (zlen n) 0) as [E|E].
  - exists (Some 0). split; [reflexivity|]. assert (n = []) as -> by (destruct n; [reflexivity|rewrite zlen_cons in E; pose proof (zlen_nonneg n); lia]).
    split; [exists [], h; auto|]. intros j Hj (a & c & _ & Ha). pose proof (zlen_nonneg a). lia.
  - destruct (Z.eqb_spec (zlen h) 0) as [E'|E'].
    + exists None. split; [reflexivity|]. intros j Hj. apply occurs_at_window in Hj. lia.
    + apply strstr_loop_ok; try lia; try reflexivity.
      * unfold strstr_fuel. nia.
      * intros j Hj Ho. apply occurs_at_window in Ho. lia.
Qed.

(** The answer depends only on the first [str1_len] bytes: reading is confined to the announced sizes. *)
Lemma strstrn_confined h rest n rest' : zlen h <= 2 ^ 62 -> zlen n <= 2 ^ 62 ->
  strstrn (h ++ rest) (zlen h) (n ++ rest') (zlen n) = strstrn h (zlen h) n (zlen n).
Proof.
  intros Hh Hn. unfold strstrn. destruct (Z.eqb_spec (zlen n) 0) as [|E]; [reflexivity|]. destruct (zlen h =? 0); [reflexivity|].
  pose proof (zlen_nonneg h). pose proof (zlen_nonneg n).
  assert (G : forall fuel l1 l2, 0 <= l2 < zlen n -> l2 <= l1 < 2 ^ 63 ->
    strstr_loop fuel (h ++ rest) (zlen h) (n ++ rest') (zlen n) l1 l2 = strstr_loop fuel h (zlen h) n (zlen n) l1 l2).
  { assert (R : forall a b i, 0 <= i < zlen a -> rd1 (a ++ b) i = rd1 a i).
    { intros a b i Hi. unfold rd1. rewrite zlen_app. pose proof (zlen_nonneg b).
      rewrite !(proj2 (Z.ltb_lt _ _)) by lia. rewrite nth_error_app1 by (unfold zlen in *; lia). reflexivity. }
    induction fuel as [|fuel IH]; intros l1 l2 H2 H12; [reflexivity|]. cbn [strstr_loop].
    replace (u64 (u64 (l1 - l2) + zlen n)) with (l1 - l2 + zlen n)
      by (unfold u64; rewrite !Z.mod_small; try lia; rewrite Z.mod_small; lia).
    destruct (Z.leb_spec (l1 - l2 + zlen n) (zlen h)); [|reflexivity].
    rewrite !R by lia.
    destruct (rd1 h l1) as [a| | | |]; try reflexivity. rewrite !bind_Ok.
    destruct (rd1 n l2) as [b| | | |]; try reflexivity. rewrite !bind_Ok.
    replace (u64 (l2 + 1)) with (l2 + 1) by (unfold u64; rewrite Z.mod_small; lia).
    replace (u64 (l1 + 1)) with (l1 + 1) by (unfold u64; rewrite Z.mod_small; lia).
    replace (u64 (u64 (l1 - l2) + 1)) with (l1 - l2 + 1)
      by (unfold u64; rewrite !Z.mod_small; try lia; rewrite Z.mod_small; lia).
    cbv zeta. destruct (a =? b).
    - destruct (Z.eqb_spec (l2 + 1) (zlen n)); [reflexivity|]. apply IH; lia.
    - apply IH; lia. }
  apply G; lia.
Qed.
