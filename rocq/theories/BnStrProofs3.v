(** Writing texts *)
From Coq Require Import Lia.
From Verif Require Import Base BaseFacts MpiModel LimbModel LimbSpec LimbProofs LimbProofs2 LimbProofs3 LimbProofs4 LimbProofs5 LimbProofs6 LimbProofs7 LimbProofs8 LimbProofs19 BnStrModel BnStrSpec BnStrProofs BnStrProofs2.

(** * One division with the quotient stored in the dividend *)
Lemma div_in_place X b : mpi_ok X -> ms X = 1 -> mp X <> [] -> mlen X <= 9990 -> 0 < b < 2 ^ 63 ->
  exists Q, l_div_int true false (Some X) None X b = ret (Some Q, None) /\ mpi_ok Q /\ ms Q = 1 /\ lval (mp Q) = lval (mp X) / b /\ mp Q <> [] /\ mlen Q <= mlen X.
Proof.
  intros HX SX NX LX B. unfold l_div_int, l_sint. destruct (sint_abs_ok b ltac:(lia)) as [-> HL]. cbn [bind].
  assert (sint_sgn b = 1) as -> by (unfold sint_sgn; destruct (Z.ltb_spec b 0); lia). rewrite Z.abs_eq in HL |- * by lia. set (B' := MkMpi 1 [b]).
  assert (mpi_ok B') as HB by (split; [now left|]; constructor; [exact HL | constructor]).
  assert (lval (mp B') = b) as VB by (unfold B'; cbn [mp lval]; lia). assert (mval B' = b) as MB by (unfold mval; rewrite VB; unfold B'; cbn [ms]; lia).
  pose proof (lval_nonneg _ (proj2 HX)) as PX. assert (1 <= mlen X) as LX1 by (now apply mlen_nonnil).
  unfold l_div. rewrite cmp_int_ok by (assumption || lia). cbn [bind]. rewrite cmp_eqb, MB. destruct (Z.compare_spec b 0); try lia.
  rewrite cmp_abs_ok by assumption. cbn [bind]. rewrite cmp3_lt, VB.
  assert (forall (x : res mpi), bindr (bindr x (fun Q => ret (Some Q))) (fun Q' : option mpi => R <-? ret None ;; ret (Q', R)) = bindr x (fun Q => ret (Some Q, @None mpi))) as SIMP.
  { intros [[e|a]| | | |]; reflexivity. }
  destruct (Z.compare_spec (lval (mp X)) b) as [E|E|E].
  2: { rewrite SIMP. destruct (lset0_ok X HX) as (Q & EQ & OQ & PQ & SQ & VQ). rewrite EQ, ret_bindr. exists Q. split; [reflexivity|]. split; [exact OQ|]. split; [exact SQ|].
    split; [rewrite Z.div_small by lia; rewrite PQ; apply lval_zeros|]. unfold mlen, zlen in *. assert (length (mp Q) = Nat.max 1 (length (mp X))) as LQ by (rewrite PQ; apply repeat_length). split; [apply nonnil_len; lia | lia]. }
  all: destruct (div_core_ok X B' HX HB ltac:(lia) ltac:(lia) LX ltac:(unfold mlen, zlen, B'; cbn [mp length]; lia)) as ([[X1 Zq] k] & EC & HX1 & HZ & _ & SZ & _ & VZ & _ & LZ); rewrite EC; clear EC.
  all: rewrite ret_bindr; cbv beta iota zeta.
  all: destruct (copy_new X Zq HX HZ ltac:(apply nonnil_len; lia) ltac:(unfold mlen, zlen in *; lia)) as (Q & EQ & OQ & VQ & SQ & LQ); rewrite EQ, !ret_bindr; cbv beta iota zeta; rewrite ?ret_bindr.
  all: exists (with_s Q (ms Q * ms B')); split; [reflexivity|]; rewrite SQ, SZ; cbn [with_s ms mp]; change (ms B') with 1; split; [split; [now left | apply OQ]|]; split; [reflexivity|]; split; [rewrite VQ, VZ, VB; reflexivity|].
  all: assert (sig (mp Zq) <= sig (mp X))%nat as SG by (apply sig_mono; [apply HZ | apply HX | rewrite VZ, VB; apply Z.div_le_upper_bound; nia]); pose proof (sig_le (mp X)); unfold mlen, zlen in *.
  all: split; [apply nonnil_len; lia | cbn [with_s mp]; lia].
Qed.

(** * Putting characters into the buffer *)
Lemma put_ok c (pre : bytes) x post : put c (pre ++ x :: post, length pre) = Ok (pre ++ c :: post, S (length pre)).
Proof.
  unfold put. assert (lupd (pre ++ x :: post) (length pre) c = Ok (pre ++ c :: post)) as ->; [|reflexivity].
  induction pre as [|y pre IH]; [reflexivity|]. cbn [app length lupd]. rewrite IH. reflexivity.
Qed.
(** The characters that are written *)
Notation up := capital.
Lemma char_digit radix d : 2 <= radix <= 16 -> 0 <= d < radix -> digit radix (if d <? 10 then d + 0x30 else d + 0x37) d /\ up (if d <? 10 then d + 0x30 else d + 0x37).
Proof. intros R D. unfold digit, capital. destruct (Z.ltb_spec d 10); lia. Qed.

(** * A radix other than 16 *)
Lemma write_hlp_S fuel X radix bp : write_hlp (S fuel) X radix bp =
  if (radix <? 2) || (16 <? radix) then err ERR_MPI_BAD_INPUT_DATA
  else
    r <-? l_mod_int X radix ;;
    '(Q, _) <-? l_div_int true false (Some X) None X radix ;;
    match Q with
    | None => UB
    | Some X =>
      c <- l_cmp_int X 0 ;;
      bp <-? (if c =? 0 then ret bp else write_hlp fuel X radix bp) ;;
      bp <- put (if r <? 10 then r + 0x30 else r + 0x37) bp ;;
      ret bp
    end.
Proof. reflexivity. Qed.
Lemma write_hlp_ok radix : 2 <= radix <= 16 -> forall fuel L X pre post, mpi_ok X -> ms X = 1 -> mp X <> [] -> mlen X <= 9990 ->
  lval (mp X) < 2 ^ Z.of_nat (S fuel) -> lval (mp X) < radix ^ Z.of_nat L -> (1 <= L <= length post)%nat ->
  exists cs, write_hlp (S fuel) X radix (pre ++ post, length pre) = ret (pre ++ cs ++ skipn (length cs) post, (length pre + length cs)%nat) /\
    digits radix cs (lval (mp X)) /\ Forall up cs /\ (1 <= length cs <= L)%nat /\ (length cs = 1%nat \/ radix ^ (zlen cs - 1) <= lval (mp X)).
Proof.
  intros R. induction fuel as [|fuel IH]; intros L X pre post HX SX NX LX BF BL LP.
  all: pose proof (lval_nonneg _ (proj2 HX)) as PX; rewrite write_hlp_S; destruct (Z.ltb_spec radix 2) as [|_]; [lia|]; destruct (Z.ltb_spec 16 radix) as [|_]; [lia|]; cbn [orb].
  all: rewrite mod_int_ok by (exact HX || lia || (intros _; exact NX)); rewrite ret_bindr.
  all: assert (mval X = lval (mp X)) as MX by (unfold mval; rewrite SX; lia); rewrite MX.
  all: destruct (div_in_place X radix HX SX NX LX ltac:(lia)) as (Q & -> & OQ & SQ & VQ & NQ & LQ); rewrite ret_bindr; cbv beta iota.
  all: rewrite cmp_int_f by (exact OQ || lia); cbn [bind].
  all: assert (mval Q = lval (mp X) / radix) as MQ by (unfold mval; rewrite SQ, VQ; lia); rewrite MQ.
  all: pose proof (Z.mod_pos_bound (lval (mp X)) radix ltac:(lia)) as MB; pose proof (Z.div_mod (lval (mp X)) radix ltac:(lia)) as DM.
  all: assert (0 <= lval (mp X) / radix) as PQ by (apply Z.div_pos; lia).
  all: destruct (char_digit radix (lval (mp X) mod radix) R MB) as [CD CU].
  all: set (r := lval (mp X) mod radix) in *; set (q := lval (mp X) / radix) in *; set (c := if r <? 10 then r + 0x30 else r + 0x37) in *; clearbody c.
  all: assert (forall (m : Z), (three_way q 0 =? 0) = (q =? 0)) as TW by (intros _; unfold three_way; destruct (Z.ltb_spec q 0), (Z.ltb_spec 0 q), (Z.eqb_spec q 0); try lia; reflexivity); rewrite (TW 0).
  all: destruct (Z.eqb_spec q 0) as [Q0|Q0].
  1, 3: (rewrite ret_bindr; destruct post as [|x post]; [cbn [length] in LP; lia|]; rewrite put_ok; cbn [bind]; exists [c]; cbn [length app skipn];
    split; [rewrite Nat.add_1_r; reflexivity|]; split; [rewrite DM, Q0; replace (radix * 0 + r) with (0 * radix + r) by ring; apply (digits_snoc radix [] 0 c r); [constructor | exact CD]|];
    split; [constructor; [exact CU | constructor]|]; split; [cbn [length] in LP; lia | now left]).
  - exfalso. change (2 ^ Z.of_nat 1) with 2 in BF. apply Q0. unfold q. apply Z.div_small. lia.
  - assert (q < 2 ^ Z.of_nat (S fuel)) as BF2.
    { replace (Z.of_nat (S (S fuel))) with (Z.succ (Z.of_nat (S fuel))) in BF by lia. rewrite Z.pow_succ_r in BF by lia. set (w := 2 ^ Z.of_nat (S fuel)) in *. clearbody w. clear - BF DM MB PQ R. nia. }
    destruct L as [|L]; [lia|]. replace (Z.of_nat (S L)) with (Z.succ (Z.of_nat L)) in BL by lia. rewrite Z.pow_succ_r in BL by lia.
    assert (q < radix ^ Z.of_nat L) as BL2. { set (w := radix ^ Z.of_nat L) in *. clearbody w. clear - BL DM MB PQ R. nia. }
    assert (1 <= L)%nat as L1. { destruct L; [|lia]. change (Z.of_nat 0) with 0 in BL2. rewrite Z.pow_0_r in BL2. lia. }
    specialize (IH L Q pre post OQ SQ NQ ltac:(lia)). rewrite VQ in IH. fold q in IH. destruct (IH BF2 BL2 ltac:(lia)) as (cs & E & DG & UP & LC & LO). rewrite E, ret_bindr.
    destruct (skipn (length cs) post) as [|x rest] eqn:SK. { apply (f_equal (@length Z)) in SK. rewrite skipn_length in SK. cbn [length] in SK. lia. }
    rewrite (app_assoc pre cs). replace (length pre + length cs)%nat with (length (pre ++ cs)) by apply app_length. rewrite put_ok. cbn [bind].
    exists (cs ++ [c]). rewrite !app_length. cbn [length]. split.
    { unfold ret. replace (length pre + length cs)%nat with (length pre + length cs)%nat by reflexivity. rewrite <- !app_assoc. cbn [app].
      replace (skipn (length cs + 1) post) with rest; [replace (length pre + (length cs + 1))%nat with (S (length pre + length cs)) by lia; reflexivity|].
      rewrite (Nat.add_comm (length cs) 1), <- skipn_skipn_add, SK. reflexivity. }
    split; [rewrite DM, (Z.mul_comm radix q); now constructor|]. split; [apply Forall_app; split; [exact UP | constructor; [exact CU | constructor]]|]. split; [lia|]. right.
    unfold zlen. rewrite app_length. cbn [length]. destruct LO as [LO | LO].
    + rewrite LO. change (Z.of_nat (1 + 1) - 1) with 1. rewrite Z.pow_1_r. clear - DM Q0 PQ MB R. nia.
    + unfold zlen in LO. replace (Z.of_nat (length cs + 1) - 1) with (Z.succ (Z.of_nat (length cs) - 1)) by lia. rewrite Z.pow_succ_r by lia. set (w := radix ^ (Z.of_nat (length cs) - 1)) in *. clearbody w. clear - LO DM MB R. nia.
Qed.
