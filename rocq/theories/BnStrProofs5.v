(** The statements of BnStrProperties.v about writing *)
From Coq Require Import Lia.
From Verif Require Import Base BaseFacts MpiModel MpiProofs LimbModel LimbSpec LimbProofs LimbProofs2 LimbProofs3 LimbProofs4 LimbProofs5 LimbProofs6 LimbProofs7 LimbProofs8 LimbProofs19 BnStrModel BnStrSpec BnStrProofs BnStrProofs2 BnStrProofs3 BnStrProofs4.

Lemma write_f X radix : mpi_ok X -> mp X <> [] -> mlen X <= 9990 -> 2 <= radix <= 16 ->
  exists n, forall buf,
    if zlen buf <? n then l_write_string X radix buf = Ok (ERR_MPI_BUFFER_TOO_SMALL, buf, Some n)
    else exists cs, let t := (if ms X =? -1 then [45] else []) ++ cs in
      l_write_string X radix buf = Ok (0, t ++ 0 :: skipn (length t + 1) buf, Some (zlen t + 1)) /\ zlen t + 1 <= n /\
      shortest radix cs (Z.abs (mval X)) /\ numeral radix t (mval X).
Proof.
  intros HX NX LX R. exists (string_size radix (mpi_bitlen (lval (mp X)))). intros buf. pose proof (write_string_ok X radix buf HX NX LX R) as W. cbv zeta in W |- *.
  destruct (zlen buf <? string_size radix (mpi_bitlen (lval (mp X)))); [exact W|]. destruct W as (cs & E & L & D & U & O). exists cs. split; [exact E|]. split; [exact L|]. rewrite mval_abs by exact HX. split.
  - split; [exact D|]. split; [exact U|]. destruct (radix =? 16).
    + destruct O as (l & L1 & O). exists (Z.of_nat l). unfold zlen. split; [lia|]. split; [lia|]. destruct O as [-> | O]; [left; reflexivity | right; exact O].
    + unfold zlen in O |- *. lia.
  - unfold mval. destruct HX as [[S1|S1] _]; rewrite S1; cbn [Z.eqb Pos.eqb app].
    + left. replace (1 * lval (mp X)) with (lval (mp X)) by lia. exact D.
    + right. exists cs, (lval (mp X)). split; [reflexivity|]. split; [exact D | lia].
Qed.
Lemma capital_not_zero cs : Forall capital cs -> Forall (fun c => c <> 0) cs.
Proof. apply Forall_impl. unfold capital. lia. Qed.
Lemma shortest_length radix cs m k : 2 <= radix <= 16 -> 1 <= k -> shortest radix cs m -> m < 2 ^ k -> zlen cs <= k + 2.
Proof.
  intros R K (D & _ & O) B. destruct (Z.eqb_spec radix 16) as [->|N].
  - destruct O as (l & L0 & -> & [-> | O]); [lia|]. change 256 with (2 ^ 8) in O. rewrite <- Z.pow_mul_r in O by lia. assert (8 * l < k); [|lia]. apply (Z.pow_lt_mono_r_iff 2); lia.
  - destruct O as (L1 & [-> | O]); [lia|]. assert (2 ^ (zlen cs - 1) <= radix ^ (zlen cs - 1)) by (apply Z.pow_le_mono_l; lia). assert (zlen cs - 1 < k); [|lia]. apply (Z.pow_lt_mono_r_iff 2); lia.
Qed.
(** Writing a number and reading the text *)
Lemma write_read X radix : mpi_ok X -> mp X <> [] -> mlen X <= 1500 -> 2 <= radix <= 16 ->
  exists n, l_write_string X radix [] = Ok (ERR_MPI_BUFFER_TOO_SMALL, [], Some n) /\
  forall buf Y, n <= zlen buf -> mpi_ok Y -> mlen Y <= 9990 ->
  exists t rest R, l_write_string X radix buf = Ok (0, t ++ 0 :: rest, Some (zlen t + 1)) /\ zlen (t ++ 0 :: rest) = zlen buf /\ Forall (fun c => c <> 0) t /\
    l_read_string Y radix t = ret R /\ mpi_ok R /\ mval R = mval X.
Proof.
  intros HX NX LX R. destruct (write_f X radix HX NX ltac:(lia) R) as (n & W). exists n. split.
  { pose proof (W []) as W0. destruct (Z.ltb_spec (zlen (@nil Z)) n) as [Q|Q]; [exact W0|]. exfalso. destruct W0 as (cs & _ & L & _). change (zlen (@nil Z)) with 0 in Q. pose proof (zlen_nonneg ((if ms X =? -1 then [45] else []) ++ cs)). lia. }
  intros buf Y LBU HY LY.
  specialize (W buf). destruct (Z.ltb_spec (zlen buf) n); [lia|]. destruct W as (cs & E & LN & SH & NU). cbv zeta in *. set (t := (if ms X =? -1 then [45] else []) ++ cs) in *.
  assert (zlen t <= 100000) as LT.
  { assert (zlen cs <= 96002) as LC. { apply (shortest_length radix cs (Z.abs (mval X)) 96000 R ltac:(lia) SH). rewrite mval_abs by exact HX. pose proof (lval_range _ (proj2 HX)) as B. apply Z.lt_le_trans with (1 := proj2 B). change LB with (2 ^ 64). rewrite <- Z.pow_mul_r by (lia || apply zlen_nonneg). apply Z.pow_le_mono_r; [lia|]. unfold mlen in LX. lia. }
    unfold t, zlen in *. rewrite app_length. destruct (ms X =? -1); cbn [length]; lia. }
  destruct (read_string_numeral Y radix t (mval X) R HY LY ltac:(unfold max_text; destruct (radix =? 16); lia) NU) as (Z1 & ER & OR & VR).
  exists t, (skipn (length t + 1) buf), Z1. split; [exact E|]. split; [unfold zlen in *; rewrite app_length; cbn [length]; rewrite skipn_length; lia|].
  split; [|auto]. unfold t. apply Forall_app. split; [destruct (ms X =? -1); repeat constructor; lia | apply capital_not_zero, SH].
Qed.
