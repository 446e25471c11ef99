(** Writing texts: hexadecimal digits, and the whole function *)
From Coq Require Import Lia.
From Verif Require Import Base BaseFacts MpiModel MpiProofs LimbModel LimbSpec LimbProofs LimbProofs2 LimbProofs3 LimbProofs4 LimbProofs5 LimbProofs6 LimbProofs7 LimbProofs8 LimbProofs19 BnStrModel BnStrSpec BnStrProofs BnStrProofs2 BnStrProofs3.

Lemma put2 c d (pre : bytes) x y post : (bp <- put c (pre ++ x :: y :: post, length pre) ;; put d bp) = Ok (pre ++ [c; d] ++ post, (length pre + 2)%nat).
Proof. rewrite put_ok. cbn [bind]. replace (pre ++ c :: y :: post) with ((pre ++ [c]) ++ y :: post) by (rewrite <- app_assoc; reflexivity). replace (S (length pre)) with (length (pre ++ [c])) by (rewrite app_length; cbn; lia).
  rewrite put_ok, <- app_assoc, app_length. cbn [app length]. do 2 f_equal. lia. Qed.
Lemma two_digits b : 0 <= b < 256 -> forall cs w, digits 16 cs w -> digits 16 (cs ++ [hex_char (b / 16); hex_char (b mod 16)]) (w * 256 + b) /\ up (hex_char (b / 16)) /\ up (hex_char (b mod 16)).
Proof.
  intros B cs w D. pose proof (Z.mod_pos_bound b 16 ltac:(lia)) as M. pose proof (Z.div_mod b 16 ltac:(lia)) as DM.
  destruct (char_digit 16 (b / 16) ltac:(lia) ltac:(lia)) as [D1 U1]. destruct (char_digit 16 (b mod 16) ltac:(lia) ltac:(lia)) as [D2 U2]. fold (hex_char (b / 16)) in D1, U1. fold (hex_char (b mod 16)) in D2, U2.
  split; [|tauto]. change [hex_char (b / 16); hex_char (b mod 16)] with ([hex_char (b / 16)] ++ [hex_char (b mod 16)]). rewrite app_assoc.
  replace (w * 256 + b) with ((w * 16 + b / 16) * 16 + b mod 16) by lia. apply digits_snoc; [apply digits_snoc; assumption | assumption].
Qed.
Lemma room_split (cs post : bytes) n : (length cs + 2 <= n)%nat -> (n <= length post)%nat -> exists x y, skipn (length cs) post = x :: y :: skipn (length cs + 2) post.
Proof.
  intros L1 L2. replace (skipn (length cs + 2) post) with (skipn 2 (skipn (length cs) post)) by (rewrite skipn_skipn_add; f_equal; lia).
  destruct (skipn (length cs) post) as [|x [|y r]] eqn:E; [| |now exists x, y]; apply (f_equal (@length Z)) in E; rewrite skipn_length in E; cbn [length] in E; lia.
Qed.
(** What the buffer holds after [cs] *)
Definition after (pre post cs : bytes) : bytes * nat := (pre ++ cs ++ skipn (length cs) post, (length pre + length cs)%nat).
Lemma put_pair pre post cs c d : (length cs + 2 <= length post)%nat -> (bp <- put c (after pre post cs) ;; put d bp) = Ok (after pre post (cs ++ [c; d])).
Proof.
  intros L. unfold after. destruct (room_split cs post (length post) L (Nat.le_refl _)) as (x & y & ->). rewrite (app_assoc pre cs). replace (length pre + length cs)%nat with (length (pre ++ cs)) by apply app_length.
  rewrite put2. rewrite !app_length. cbn [length]. rewrite <- !app_assoc. do 2 f_equal. lia.
Qed.
Section Hex.
  Context (p : limbs) (Hp : Forall is_limb p) (bits : Z) (Hb : 0 <= bits) (Hv : lval p < 2 ^ bits).
  Let v := lval p.
  (** After the bytes above the m lowest: nothing is written, or the number they make *)
  Definition hinv (m : nat) (k : bool) (cs : bytes) : Prop :=
    if k then digits 16 cs (v / 256 ^ Z.of_nat m) /\ Forall up cs /\ (exists l, length cs = (2 * S l)%nat /\ (256 ^ Z.of_nat l <= v / 256 ^ Z.of_nat m \/ l = O /\ m = O))
    else cs = [] /\ v / 256 ^ Z.of_nat m = 0.
  (** So many characters are written at most *)
  Definition hroom : nat := 2 * Nat.max 1 (Z.to_nat ((bits + 7) / 8)).
  Lemma hinv_room m cs : hinv m true cs -> (length cs <= hroom)%nat.
  Proof using Hv Hb Hp.
    intros (_ & _ & l & L & [B | [-> ->]]); unfold hroom; [|lia]. rewrite L. apply Nat.mul_le_mono_l.
    assert (8 * Z.of_nat l < bits) as Q.
    { apply (Z.pow_lt_mono_r_iff 2); [lia | exact Hb |]. rewrite <- p256. apply Z.le_lt_trans with v; [|exact Hv]. apply Z.le_trans with (1 := B).
      apply Z.div_le_upper_bound; [apply Z.pow_pos_nonneg; lia|]. pose proof (Z.pow_pos_nonneg 256 (Z.of_nat m) ltac:(lia) ltac:(lia)). pose proof (lval_nonneg p Hp). fold v in H0. nia. }
    assert (Z.of_nat (S l) <= (bits + 7) / 8) by (apply Z.div_le_lower_bound; lia). lia.
  Qed.
  (** One byte *)
  Lemma hstep m k cs : hinv (S m) k cs ->
    let b := v / 256 ^ Z.of_nat m mod 256 in
    if (b =? 0) && negb k && negb (m =? 0)%nat then hinv m k cs
    else hinv m true (cs ++ [hex_char (b / 16); hex_char (b mod 16)]).
  Proof using Hp.
    clear bits Hb Hv. intros H b. pose proof (Z.pow_pos_nonneg 256 (Z.of_nat m) ltac:(lia) ltac:(lia)) as P. pose proof (lval_nonneg p Hp) as PV. fold v in PV.
    assert (v / 256 ^ Z.of_nat (S m) = v / 256 ^ Z.of_nat m / 256) as E. { rewrite Z.div_div by lia. rewrite Nat2Z.inj_succ, Z.pow_succ_r by lia. f_equal. ring. }
    set (w := v / 256 ^ Z.of_nat m) in *. assert (0 <= w) as PW by (apply Z.div_pos; lia). pose proof (Z.div_mod w 256 ltac:(lia)) as DM. fold b in DM. pose proof (Z.mod_pos_bound w 256 ltac:(lia)) as MB. fold b in MB.
    unfold hinv in H. rewrite E in H. destruct k.
    - rewrite andb_false_r. cbn [andb negb]. destruct H as (D & U & l & L & O). destruct (two_digits b MB cs _ D) as (D' & U1 & U2). unfold hinv. fold w. replace w with (w / 256 * 256 + b) by lia.
      split; [exact D'|]. split; [apply Forall_app; split; [exact U | repeat (constructor; [assumption|]); constructor]|]. exists (S l). split; [rewrite app_length; cbn [length]; lia|]. left.
      destruct O as [O | [_ O]]; [|discriminate]. rewrite Nat2Z.inj_succ, Z.pow_succ_r by lia. lia.
    - destruct H as [-> W0]. cbn [negb]. rewrite andb_true_r. destruct (Z.eqb_spec b 0) as [B0|B0]; [destruct (Nat.eqb_spec m 0) as [M0|M0]|]; cbn [andb negb].
      2: { split; [reflexivity|]. fold w. lia. }
      all: destruct (two_digits b MB [] 0 (digits_none 16)) as (D' & U1 & U2); unfold hinv; fold w; replace w with (0 * 256 + b) by lia; (split; [exact D'|]); (split; [repeat (constructor; [assumption|]); constructor|]); exists O; (split; [reflexivity|]).
      + right. split; [reflexivity | exact M0].
      + left. change (256 ^ Z.of_nat 0) with 1. lia.
  Qed.
  Lemma limb_byte_at i j : (j < 8)%nat -> Z.land (Z.shiftr (nth i p 0) (8 * Z.of_nat j)) 255 = v / 256 ^ Z.of_nat (8 * i + j) mod 256.
  Proof using Hp.
    clear bits Hb Hv. intros J. unfold v. rewrite <- (limb_byte p (8 * i + j) Hp). replace ((8 * i + j) / 8)%nat with i by (rewrite (Nat.mul_comm 8), Nat.div_add_l by lia; rewrite (Nat.div_small j 8) by lia; lia).
    replace ((8 * i + j) mod 8)%nat with j by (rewrite (Nat.mul_comm 8), Nat.add_comm, Nat.mod_add by lia; now rewrite Nat.mod_small by lia).
    change 255 with (Z.ones 8). rewrite Z.land_ones by lia. reflexivity.
  Qed.
  Lemma write_hex_limb_ok i pre post : (hroom <= length post)%nat -> forall j k cs, (j <= 8)%nat -> hinv (8 * i + j) k cs -> (length cs <= hroom)%nat ->
    exists k' cs', write_hex_limb j (S i) (nth i p 0) k (after pre post cs) = Ok (k', after pre post cs') /\ hinv (8 * i) k' cs' /\ (length cs' <= hroom)%nat /\
      (k = true -> k' = true) /\ (i = O -> (1 <= j)%nat -> k' = true).
  Proof using Hv Hb Hp.
    intros LP. induction j as [|j IH]; intros k cs J H LC.
    - exists k, cs. cbn [write_hex_limb]. rewrite Nat.add_0_r in H. repeat (split; [reflexivity || assumption|]). split; [tauto | lia].
    - cbn [write_hex_limb]. replace (8 * i + S j)%nat with (S (8 * i + j)) in H by lia. pose proof (hstep (8 * i + j) k cs H) as ST. cbv zeta in ST.
      change 0xFF with 255. rewrite limb_byte_at by lia. set (b := v / 256 ^ Z.of_nat (8 * i + j) mod 256) in *.
      assert ((S i + S j =? 2)%nat = (8 * i + j =? 0)%nat) as -> by (destruct (Nat.eqb_spec (S i + S j) 2), (Nat.eqb_spec (8 * i + j) 0); lia || reflexivity).
      destruct ((b =? 0) && negb k && negb (8 * i + j =? 0)%nat) eqn:SKIP.
      + destruct (IH k cs ltac:(lia) ST LC) as (k' & cs' & E & H' & L' & K1 & K2). exists k', cs'. repeat (split; [assumption|]). intros I0 _. apply K2; [exact I0|].
        apply andb_prop in SKIP. destruct SKIP as [_ SKIP]. destruct (Nat.eqb_spec (8 * i + j) 0); [discriminate | lia].
      + pose proof (hinv_room _ _ ST) as R. rewrite app_length in R. cbn [length] in R.
        pose proof (put_pair pre post cs (hex_char (b / 16)) (hex_char (b mod 16)) ltac:(lia)) as PP.
        destruct (put (hex_char (b / 16)) (after pre post cs)) as [bp| | | |]; try discriminate PP. cbn [bind] in PP |- *. rewrite PP. cbn [bind].
        destruct (IH true _ ltac:(lia) ST ltac:(rewrite app_length; cbn [length]; lia)) as (k' & cs' & E & H' & L' & K1 & K2). exists k', cs'. repeat (split; [assumption|]). specialize (K1 eq_refl). split; intros; exact K1.
  Qed.
  Lemma write_hex_ok pre post : (hroom <= length post)%nat -> forall i k cs, (1 <= i <= length p)%nat -> hinv (8 * i) k cs -> (length cs <= hroom)%nat ->
    exists cs', write_hex i p k (after pre post cs) = Ok (after pre post cs') /\ hinv 0 true cs' /\ (length cs' <= hroom)%nat.
  Proof using Hv Hb Hp.
    intros LP. induction i as [|i IH]; intros k cs I H LC; [lia|].
    cbn [write_hex]. rewrite (lnth_ok _ _ 0) by lia. cbn [bind].
    replace (8 * S i)%nat with (8 * i + 8)%nat in H by lia. destruct (write_hex_limb_ok i pre post LP 8 k cs (Nat.le_refl _) H LC) as (k1 & cs1 & E & H1 & L1 & _ & K1). rewrite E. cbn [bind].
    destruct i as [|i]; [|apply (IH k1 cs1); [lia | exact H1 | exact L1]].
    cbn [write_hex]. exists cs1. rewrite (K1 eq_refl ltac:(lia)) in H1. auto.
  Qed.
  Lemma hinv_first : hinv (8 * length p) false [].
  Proof using Hp.
    clear bits Hb Hv. split; [reflexivity|]. apply Z.div_small. pose proof (lval_range p Hp) as B. rewrite p256. unfold v. unfold zlen in B. rewrite LB_two in B. replace (8 * Z.of_nat (8 * length p)) with (64 * Z.of_nat (length p)) by lia. lia.
  Qed.
End Hex.

(** * The size asked for suffices *)
Definition room (radix bits : Z) : Z := if radix =? 16 then 2 * Z.max 1 ((bits + 7) / 8) else if 4 <=? radix then Z.max 1 ((bits + 1) / 2) else Z.max 1 bits.
Lemma size_room radix bits : 2 <= radix <= 16 -> 0 <= bits -> room radix bits + 2 <= string_size radix bits.
Proof.
  intros R B. unfold room, string_size. cbv zeta. rewrite !Z.shiftr_div_pow2 by lia. change (2 ^ 1) with 2.
  assert (forall n, Z.land (n + 1) 1 = (n + 1) mod 2) as LM by (intros n; change 1 with (Z.ones 1) at 2; now rewrite Z.land_ones by lia). rewrite LM.
  destruct (Z.eqb_spec radix 16) as [->|].
  - cbn [Z.leb Z.compare Pos.compare Pos.compare_cont]. lia.
  - destruct (Z.leb_spec 16 radix); [lia|]. destruct (Z.leb_spec 4 radix); lia.
Qed.
Lemma room_pow radix bits v : 2 <= radix < 16 -> 0 <= bits -> v < 2 ^ bits -> v < radix ^ room radix bits /\ 1 <= room radix bits.
Proof.
  intros R B V. unfold room. destruct (Z.eqb_spec radix 16); [lia|]. destruct (Z.leb_spec 4 radix).
  - split; [|lia]. apply Z.lt_le_trans with (1 := V). apply Z.le_trans with (4 ^ Z.max 1 ((bits + 1) / 2)); [|apply Z.pow_le_mono_l; lia].
    change 4 with (2 ^ 2). rewrite <- Z.pow_mul_r by lia. apply Z.pow_le_mono_r; lia.
  - split; [|lia]. apply Z.lt_le_trans with (1 := V). apply Z.le_trans with (2 ^ Z.max 1 bits); [apply Z.pow_le_mono_r; lia | apply Z.pow_le_mono_l; lia].
Qed.
Lemma put_end (pre post : bytes) : (1 <= length post)%nat -> put 0 (pre ++ post, length pre) = Ok (pre ++ 0 :: skipn 1 post, S (length pre)).
Proof. intros L. destruct post as [|x post]; [cbn in L; lia|]. apply put_ok. Qed.

(** What is written: an optional sign, the digits in capitals, no leading zeros but those that make whole bytes *)
Lemma write_string_ok X radix buf : mpi_ok X -> mp X <> [] -> mlen X <= 9990 -> 2 <= radix <= 16 ->
  let n := string_size radix (mpi_bitlen (lval (mp X))) in
  if zlen buf <? n then l_write_string X radix buf = Ok (ERR_MPI_BUFFER_TOO_SMALL, buf, Some n)
  else exists cs, let t := (if ms X =? -1 then [45] else []) ++ cs in
    l_write_string X radix buf = Ok (0, t ++ 0 :: skipn (length t + 1) buf, Some (zlen t + 1)) /\ zlen t + 1 <= n /\
    digits radix cs (lval (mp X)) /\ Forall up cs /\
    (if radix =? 16 then exists l, length cs = (2 * S l)%nat /\ (l = O \/ 256 ^ Z.of_nat l <= lval (mp X)) else (1 <= length cs)%nat /\ (length cs = 1%nat \/ radix ^ (zlen cs - 1) <= lval (mp X))).
Proof.
  intros HX NX LX R n. unfold l_write_string. destruct (Z.ltb_spec radix 2) as [|_]; [lia|]. destruct (Z.ltb_spec 16 radix) as [|_]; [lia|]. cbn [orb].
  rewrite bitlen_ok by exact HX. cbn [bind]. cbv zeta. fold n. destruct (Z.ltb_spec (zlen buf) n) as [SM|BIG]; [reflexivity|].
  set (bits := mpi_bitlen (lval (mp X))) in *. pose proof (lval_nonneg _ (proj2 HX)) as PX.
  assert (0 <= bits) as B0 by (unfold bits; apply bitlen_nonneg).
  assert (lval (mp X) < 2 ^ bits) as VB. { destruct (bits_of_bitlen (lval (mp X)) PX) as (_ & Q & _). exact Q. }
  pose proof (size_room radix bits R B0) as SR. fold n in SR.
  set (sg := if ms X =? -1 then [45] else []).
  assert (length sg <= 1)%nat as LSG by (unfold sg; destruct (ms X =? -1); cbn; lia).
  assert (exists post, buf = firstn (length sg) buf ++ post /\ (if ms X =? -1 then put MINUS (buf, O) else Ok (buf, O)) = Ok (sg ++ post, length sg) /\ length buf = (length sg + length post)%nat /\ forall k, skipn k post = skipn (length sg + k) buf) as (post & EB & -> & LB' & SK).
  { unfold sg. destruct (ms X =? -1).
    - assert (room radix bits >= 0) by (unfold room; destruct (radix =? 16), (4 <=? radix); lia).
      destruct buf as [|x buf]; [unfold zlen in BIG; cbn in BIG; lia|]. exists buf. split; [reflexivity|]. split; [reflexivity|]. split; [reflexivity|]. reflexivity.
    - exists buf. repeat split. }
  cbn [bind]. unfold zlen in BIG.
  assert (room radix bits + 1 <= Z.of_nat (length post)) as RP by lia.
  assert (forall cs, (length cs + 1 <= length post)%nat ->
    put 0 (sg ++ cs ++ skipn (length cs) post, (length sg + length cs)%nat) = Ok ((sg ++ cs) ++ 0 :: skipn (length (sg ++ cs) + 1) buf, S (length (sg ++ cs)))) as FIN.
  { intros cs L. rewrite app_assoc. replace (length sg + length cs)%nat with (length (sg ++ cs)) by apply app_length. rewrite put_end by (rewrite skipn_length; lia).
    rewrite skipn_skipn_add, SK, app_length. do 3 f_equal. f_equal. f_equal. lia. }
  destruct (Z.eqb_spec radix 16) as [->|N16].
  - unfold room in RP. cbn [Z.eqb Pos.eqb] in RP.
    assert (hroom bits + 1 <= length post)%nat as HR by (unfold hroom; lia).
    assert (1 <= length (mp X))%nat as L1 by (destruct (mp X); [congruence | cbn; lia]).
    destruct (write_hex_ok (mp X) (proj2 HX) bits B0 VB sg post ltac:(lia) (length (mp X)) false [] ltac:(lia) (hinv_first (mp X) (proj2 HX)) ltac:(cbn; lia)) as (cs & E & (D & U & l & L & O) & LC).
    unfold after in E at 1. cbn [length app skipn] in E. rewrite Nat.add_0_r in E. rewrite E. cbn [bind]. unfold ret. cbn [bind]. unfold after. rewrite FIN by lia. cbn [bind].
    exists cs. change (256 ^ Z.of_nat 0) with 1 in D, O. rewrite Z.div_1_r in D, O. unfold zlen. split; [do 3 f_equal; lia|]. rewrite app_length. split; [unfold room in SR; cbn [Z.eqb Pos.eqb] in SR; unfold hroom in LC; lia|]. split; [exact D|]. split; [exact U|]. exists l. split; [exact L|]. tauto.
  - destruct (copy_new l_init X init_ok HX NX ltac:(unfold mlen in LX; lia)) as (T & ET & OT & VT & ST & LT). rewrite ET, ret_bindr. cbn [l_init mp length] in LT.
    set (T' := if ms T =? -1 then with_s T 1 else T).
    assert (mpi_ok T' /\ ms T' = 1 /\ mp T' = mp T) as (OT' & ST' & PT').
    { unfold T'. destruct (Z.eqb_spec (ms T) (-1)) as [Q|Q]; [split; [split; [now left | apply OT]|]; split; reflexivity|]. split; [exact OT|]. split; [|reflexivity]. destruct OT as [[S1|S1] _]; [exact S1 | congruence]. }
    pose proof (sig_le (mp X)) as SL. assert (1 <= length (mp X))%nat as L1 by (destruct (mp X); [congruence | cbn; lia]).
    destruct (room_pow radix bits (lval (mp X)) ltac:(lia) B0 VB) as [RPOW R1].
    destruct (write_hlp_ok radix R (64 * length (mp T')) (Z.to_nat (room radix bits)) T' sg post OT' ST') as (cs & E & D & U & LC & O).
    { rewrite PT'. apply nonnil_len. lia. } { unfold mlen, zlen in *. rewrite PT'. lia. }
    { rewrite PT', VT. apply Z.lt_trans with (LB ^ zlen (mp T)); [rewrite <- VT; apply lval_range, OT|]. unfold zlen. rewrite LB_two. apply Z.pow_lt_mono_r; lia. }
    { rewrite PT', VT, Z2Nat.id by lia. exact RPOW. } { lia. }
    rewrite PT', VT in D, O. rewrite E. unfold ret. cbn [bind]. rewrite FIN by lia. cbn [bind].
    exists cs. unfold zlen in O |- *. split; [do 3 f_equal; lia|]. rewrite app_length. split; [lia|]. split; [exact D|]. split; [exact U|]. split; [lia | exact O].
Qed.
