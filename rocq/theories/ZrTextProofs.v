(** Reading and writing scalars *)
From Coq Require Import Lia.
From Verif Require Import Base BaseFacts RelicModel BnStrSpec BnStrProofs ZrTextModel ZrTextSpec.

(** * Writing *)
Lemma digits_total n : forall t, 0 <= t < 2 ^ Z.of_nat n -> exists ds,
  count_digits n t = Ok (zlen ds) /\ digits 10 (rev ds) t /\ Forall capital ds /\ (t = 0 /\ ds = [] \/ 1 <= zlen ds /\ 10 ^ (zlen ds - 1) <= t) /\
  forall a b, zlen ds <= zlen b -> write_digits n t (a ++ b) (zlen a) = Ok (a ++ ds ++ skipn (length ds) b, zlen a + zlen ds).
Proof.
  induction n as [|n IH]; intros t T.
  - change (2 ^ Z.of_nat 0) with 1 in T. assert (t = 0) as -> by lia. exists []. split; [reflexivity|]. split; [apply digits_none|]. split; [apply Forall_nil|]. split; [left; auto|]. intros a b _. change (zlen (@nil Z)) with 0. rewrite Z.add_0_r. reflexivity.
  - cbn [count_digits write_digits]. destruct (Z.eqb_spec t 0) as [->|N].
    + exists []. split; [reflexivity|]. split; [apply digits_none|]. split; [apply Forall_nil|]. split; [left; auto|]. intros a b _. change (zlen (@nil Z)) with 0. rewrite Z.add_0_r. reflexivity.
    + assert (0 <= t / 10 < 2 ^ Z.of_nat n) as T'.
      { rewrite Nat2Z.inj_succ, Z.pow_succ_r in T by lia. split; [apply Z.div_pos; lia | apply Z.div_lt_upper_bound; lia]. }
      destruct (IH _ T') as (ds & C & D & F & B & W). pose proof (Z.mod_pos_bound t 10 ltac:(lia)) as M. pose proof (Z.div_mod t 10 ltac:(lia)) as E.
      exists ((48 + t mod 10) :: ds). rewrite C. cbn [bind]. pose proof (zlen_nonneg ds) as L.
      assert (zlen ((48 + t mod 10) :: ds) = zlen ds + 1) as Z1 by (unfold zlen; cbn [length]; lia). rewrite Z1.
      split; [reflexivity|]. split.
      { cbn [rev]. assert (digits 10 (rev ds ++ [48 + t mod 10]) (t / 10 * 10 + t mod 10)) as D2 by (apply digits_snoc; [exact D|]; split; [lia | left; lia]).
        replace (t / 10 * 10 + t mod 10) with t in D2 by lia. exact D2. }
      split; [constructor; [unfold capital; lia | exact F]|]. split.
      { right. split; [lia|]. replace (zlen ds + 1 - 1) with (zlen ds) by lia. destruct B as [(B & ->)|(B1 & B2)]; [change (10 ^ zlen (@nil Z)) with 1; lia|].
        replace (zlen ds) with (Z.succ (zlen ds - 1)) by lia. rewrite Z.pow_succ_r by lia. lia. }
      intros a b LB0. destruct b as [|x b]; [unfold zlen in *; cbn [length] in *; lia|].
      change (a ++ x :: b) with (a ++ [x] ++ b). rewrite wr_mid by (reflexivity). cbn [bind].
      rewrite (app_assoc a). unfold ZERO. replace (zlen a + 1) with (zlen (a ++ [48 + t mod 10])) by (rewrite zlen_app; reflexivity).
      rewrite W by (unfold zlen in *; cbn [length] in *; lia).
      rewrite zlen_app. change (zlen [48 + t mod 10]) with 1. rewrite <- app_assoc. cbn [app length skipn]. f_equal. f_equal. lia.
Qed.
Lemma snoc_case {A} (l : list A) : l = [] \/ exists m y, l = m ++ [y].
Proof. destruct (rev l) as [|y m] eqn:E; [left | right; exists (rev m), y]; rewrite <- (rev_involutive l), E; reflexivity. Qed.
Lemma rd1_mid (a : bytes) x (c : bytes) pos : pos = zlen a -> rd1 (a ++ x :: c) pos = Ok x.
Proof.
  intros ->. unfold rd1. pose proof (zlen_nonneg a). rewrite zlen_app. assert (1 <= zlen (x :: c)) by (unfold zlen; cbn [length]; lia).
  destruct (Z.leb_spec 0 (zlen a)), (Z.ltb_spec (zlen a) (zlen a + zlen (x :: c))); try lia. cbn [andb].
  unfold zlen. rewrite Nat2Z.id, nth_error_app2, Nat.sub_diag by lia. reflexivity.
Qed.
Lemma reverse_ok n : forall m a c j, zlen m <= Z.of_nat n -> j = zlen a + zlen m - 1 -> reverse_loop n (a ++ m ++ c) (zlen a) j = Ok (a ++ rev m ++ c).
Proof.
  induction n as [|n IH]; intros m a c j L J.
  - destruct m; [|unfold zlen in L; cbn [length] in L; lia]. cbn [reverse_loop]. change (zlen (@nil Z)) with 0 in J. destruct (Z.leb_spec j (zlen a)); [reflexivity | lia].
  - cbn [reverse_loop]. destruct m as [|x m].
    + change (zlen (@nil Z)) with 0 in J. destruct (Z.leb_spec j (zlen a)); [reflexivity | lia].
    + destruct (snoc_case m) as [->|(m' & y & ->)].
      * change (zlen [x]) with 1 in J. destruct (Z.leb_spec j (zlen a)); [reflexivity | lia].
      * assert (zlen (x :: m' ++ [y]) = zlen m' + 2) as E by (unfold zlen; cbn [length]; rewrite app_length; cbn [length]; lia). rewrite E in *. pose proof (zlen_nonneg m').
        destruct (Z.leb_spec j (zlen a)); [lia|].
        replace (a ++ (x :: m' ++ [y]) ++ c) with (a ++ x :: (m' ++ y :: c)) by (cbn [app]; rewrite <- app_assoc; reflexivity).
        rewrite rd1_mid by reflexivity. cbn [bind].
        replace (a ++ x :: (m' ++ y :: c)) with ((a ++ x :: m') ++ y :: c) at 1 by (rewrite <- app_assoc; reflexivity).
        assert (zlen (a ++ x :: m') = j) as J1 by (rewrite zlen_app; unfold zlen in *; cbn [length]; lia).
        rewrite rd1_mid by (symmetry; exact J1). cbn [bind].
        change (a ++ x :: m' ++ y :: c) with (a ++ [x] ++ m' ++ y :: c). rewrite wr_mid by reflexivity. cbn [bind].
        replace (a ++ [y] ++ m' ++ y :: c) with ((a ++ [y] ++ m') ++ [y] ++ c) by (rewrite <- !app_assoc; reflexivity).
        rewrite wr_mid by (try reflexivity; rewrite zlen_app in *; unfold zlen in *; cbn [length app] in *; lia). cbn [bind].
        replace ((a ++ [y] ++ m') ++ [x] ++ c) with ((a ++ [y]) ++ m' ++ (x :: c)) by (rewrite <- !app_assoc; reflexivity).
        replace (zlen a + 1) with (zlen (a ++ [y])) by (rewrite zlen_app; reflexivity).
        rewrite IH; [|lia|rewrite zlen_app; change (zlen [y]) with 1; lia].
        f_equal. cbn [rev]. rewrite rev_app_distr. cbn [rev app]. rewrite <- !app_assoc. reflexivity.
Qed.
Lemma fuel_bound a : a <> 0 -> 0 <= Z.abs a < 2 ^ Z.of_nat (fuel_of a).
Proof.
  intros N. split; [lia|]. unfold fuel_of. rewrite Nat2Z.inj_succ, Z2Nat.id by apply Z.log2_nonneg. apply Z.log2_spec. lia.
Qed.
Lemma zeros_split k n : (k <= n)%nat -> zeros n = zeros k ++ zeros (n - k).
Proof. intros H. unfold zeros. rewrite <- repeat_app. f_equal. lia. Qed.
Lemma skipn_repeat (k n : nat) : skipn k (repeat 0 n) = repeat 0 (n - k).
Proof. revert n. induction k as [|k IH]; intros [|n]; try reflexivity. apply IH. Qed.
Lemma print_ok z : exists t, zr_print z = Ok (t ++ [0]) /\ decimal z t.
Proof.
  destruct (Z.eqb_spec z 0) as [->|N].
  - exists [48]. split; [reflexivity|]. left. split; [lia|]. split; [|split].
    + apply (digits_snoc 10 [] 0 48 0); [constructor|]. split; [lia | left; lia].
    + constructor; [unfold capital; lia | constructor].
    + change (10 =? 16) with false. change (zlen [48]) with 1. split; [lia | left; reflexivity].
  - destruct (digits_total _ _ (fuel_bound z N)) as (ds & C & D & F & B & W). destruct B as [(B & _)|(B1 & B2)]; [lia|].
    assert (shortest 10 (rev ds) (Z.abs z)) as SH.
    { split; [exact D|]. split; [apply Forall_rev; exact F|]. assert (zlen (rev ds) = zlen ds) as -> by (unfold zlen; rewrite rev_length; reflexivity).
      change (10 =? 16) with false. split; [lia | right; exact B2]. }
    unfold zr_print, bn_write_str, bn_size_str. destruct (Z.eqb_spec z 0); [lia|]. rewrite C. cbn [bind]. rewrite Z.ltb_irrefl.
    destruct (Z.ltb_spec z 0) as [G|G].
    + exists (45 :: rev ds). split; [|right; split; [exact G|]; exists (rev ds); split; [reflexivity|]; rewrite <- Z.abs_neq by lia; exact SH].
      replace (Z.to_nat (zlen ds + 1 + 1 + 1)) with (S (length ds + 2)) by (unfold zlen; lia). rewrite (zeros_split 1) by lia. replace (S (length ds + 2) - 1)%nat with (length ds + 2)%nat by lia.
      rewrite wr_prefix by reflexivity. cbn [bind]. change (write_digits ?n ?x ?y 1) with (write_digits n x y (zlen [MINUS])). rewrite W by (rewrite zlen_zeros; unfold zlen; lia). cbn [bind].
      unfold zeros at 1. rewrite skipn_repeat. replace (length ds + 2 - length ds)%nat with 2%nat by lia.
      change (reverse_loop ?n ?x 1 ?y) with (reverse_loop n x (zlen [MINUS]) y). rewrite reverse_ok; [| lia | change (zlen [MINUS]) with 1; lia]. cbn [bind].
      change (repeat 0 2) with ([0] ++ [0]). rewrite app_assoc. rewrite wr_mid; [| rewrite zlen_app; unfold zlen; rewrite rev_length; cbn [length]; lia | reflexivity]. cbn [bind].
      rewrite app_assoc. rewrite rd_prefix; [reflexivity|]. rewrite !zlen_app. change (zlen [MINUS]) with 1. change (zlen [0]) with 1. unfold zlen. rewrite rev_length. lia.
    + exists (rev ds). split; [|left; split; [lia|]; rewrite <- (Z.abs_eq z) by lia; exact SH].
      cbn [bind]. replace (zeros (Z.to_nat (zlen ds + 0 + 1 + 1))) with ([] ++ zeros (length ds + 2)) by (cbn [app]; f_equal; unfold zlen; lia).
      change (write_digits ?n ?x ?y 0) with (write_digits n x y (zlen (@nil Z))). rewrite W by (rewrite zlen_zeros; unfold zlen; lia). cbn [bind].
      unfold zeros. rewrite skipn_repeat. replace (length ds + 2 - length ds)%nat with 2%nat by lia.
      change (reverse_loop ?n ?x 0 ?y) with (reverse_loop n x (zlen (@nil Z)) y). rewrite reverse_ok; [| lia | change (zlen (@nil Z)) with 0; lia]. cbn [bind app].
      change (repeat 0 2) with ([0] ++ [0]). rewrite wr_mid; [| unfold zlen; rewrite rev_length; cbn [length]; lia | reflexivity]. cbn [bind].
      rewrite app_assoc. rewrite rd_prefix; [reflexivity|]. rewrite !zlen_app. change (zlen [0]) with 1. unfold zlen. rewrite rev_length. lia.
Qed.

(** * Reading *)
Lemma digit10 c d : digit 10 c d <-> 48 <= c <= 57 /\ d = c - 48.
Proof. unfold digit. lia. Qed.
Lemma read_loop_ok cap t : forall pre acc pad fuel, digits 10 pre acc -> 0 <= acc -> zlen t <= Z.of_nat fuel -> forall hd len, len = zlen hd + zlen t ->
  exists cs rest v, t = cs ++ rest /\ digits 10 (pre ++ cs) v /\ acc <= v /\ (forall c rest' d, rest = c :: rest' -> ~ digit 10 c d) /\
  (v < cap -> read_loop cap fuel (hd ++ t ++ pad) (zlen hd) len acc = Ok v).
Proof.
  induction t as [|c t IH]; intros pre acc pad fuel D A L hd len E.
  - exists [], [], acc. rewrite (app_nil_r pre). change (zlen (@nil Z)) with 0 in E. repeat split; [exact D | lia | discriminate|]. intros _. destruct fuel; cbn [read_loop]; destruct (Z.leb_spec len (zlen hd)); lia || reflexivity.
  - assert (zlen (c :: t) = zlen t + 1) as Z1 by (unfold zlen; cbn [length]; lia). rewrite Z1 in *. pose proof (zlen_nonneg t).
    destruct fuel as [|fuel]; [lia|].
    destruct ((ZERO <=? c) && (c <=? ZERO + 9)) eqn:G.
    + apply andb_prop in G as G'. unfold ZERO in G'. destruct G' as (G1 & G2). apply Z.leb_le in G1, G2.
      destruct (IH (pre ++ [c]) (acc * 10 + (c - 48)) pad fuel) with (hd := hd ++ [c]) (len := len) as (cs & rest & v & -> & D' & A' & R & Q).
      * apply digits_snoc; [exact D|]. apply digit10. lia.
      * lia.
      * lia.
      * rewrite zlen_app. change (zlen [c]) with 1. lia.
      * exists (c :: cs), rest, v. rewrite <- app_assoc in D'. repeat split; [exact D' | lia | exact R|]. intros V. cbn [read_loop app].
        destruct (Z.leb_spec len (zlen hd)); [lia|]. rewrite rd1_mid by reflexivity. cbn [bind]. rewrite G. cbv zeta. unfold ZERO.
        destruct (Z.leb_spec cap (acc * 10 + (c - 48))); [lia|]. rewrite <- Q by exact V. rewrite zlen_app, <- !app_assoc. cbn [app]. rewrite <- ?app_assoc. reflexivity.
    + exists [], (c :: t), acc. rewrite (app_nil_r pre). repeat split; [exact D | lia | |].
      * intros c0 r d Q. injection Q as -> ->. rewrite digit10. intros (Q & _). unfold ZERO in G. apply andb_false_iff in G. destruct G as [G|G]; apply Z.leb_gt in G; lia.
      * intros _. cbn [read_loop app]. destruct (Z.leb_spec len (zlen hd)); [lia|]. rewrite rd1_mid by reflexivity. cbn [bind]. rewrite G. reflexivity.
Qed.
Lemma begins_total cap t hd pad fuel len : zlen t <= Z.of_nat fuel -> len = zlen hd + zlen t -> exists v, begins t v /\ 0 <= v /\ (v < cap -> read_loop cap fuel (hd ++ t ++ pad) (zlen hd) len 0 = Ok v).
Proof.
  intros L E. destruct (read_loop_ok cap t [] 0 pad fuel (digits_none 10) ltac:(lia) L hd len E) as (cs & rest & v & T & D & A & R & Q).
  exists v. split; [exists cs, rest; auto|]. auto.
Qed.
Lemma not_minus c t z : c <> 45 -> begins (c :: t) z -> read_as (c :: t) z.
Proof. intros N B. destruct c as [|p|p]; try exact B. do 6 (destruct p as [p|p|]; try exact B). exfalso. apply N. reflexivity. Qed.
Lemma read_total cap s : zlen s < 2 ^ 31 -> exists z, read_as s z /\ (Z.abs z < cap -> zr_of_string cap s = Ok z).
Proof.
  intros L. unfold zr_of_string, c_int. pose proof (zlen_nonneg s).
  destruct (Z.leb_spec INT_MIN (zlen s)) as [_|Q]; [|unfold INT_MIN in Q; lia]. destruct (Z.leb_spec (zlen s) INT_MAX) as [_|Q]; [|unfold INT_MAX in Q; lia]. cbn [andb bind]. unfold bn_read_str.
  destruct s as [|c s].
  - exists 0. split; [exists [], []; repeat split; [constructor | discriminate] | reflexivity].
  - change (rd1 ((c :: s) ++ [0]) 0) with (rd1 ([] ++ c :: (s ++ [0])) 0). rewrite rd1_mid by reflexivity. cbn [app]. cbn [bind]. unfold MINUS. destruct (Z.eqb_spec c 45) as [->|N].
    + destruct (begins_total cap s [45] [0] (Z.to_nat (zlen (45 :: s))) (zlen (45 :: s))) as (v & B & P & Q); [unfold zlen; cbn [length]; lia | unfold zlen; cbn [length]; lia|].
      exists (- v). split; [exists v; auto|]. intros V. cbn [app] in Q. change (zlen [45]) with 1 in Q. rewrite Q by lia. reflexivity.
    + destruct (begins_total cap (c :: s) [] [0] (Z.to_nat (zlen (c :: s))) (zlen (c :: s))) as (v & B & P & Q); [unfold zlen; cbn [length]; lia | reflexivity|].
      exists v. split; [apply not_minus; assumption|]. intros V. apply Q. lia.
Qed.
Lemma digits_fun cs v v' : digits 10 cs v -> digits 10 cs v' -> v = v'.
Proof. rewrite <- !parse_digits by lia. congruence. Qed.
Lemma digits_in cs v : digits 10 cs v -> Forall (fun c => exists d, digit 10 c d) cs.
Proof. induction 1; [constructor|]. apply Forall_app. split; [assumption | constructor; [eauto | constructor]]. Qed.
Lemma begins_fun t v v' : begins t v -> begins t v' -> v = v'.
Proof.
  intros (cs & r & E & D & R) (cs' & r' & E' & D' & R'). subst t. apply (digits_fun cs); [exact D|]. replace cs with cs'; [exact D'|].
  apply digits_in in D, D'. clear v v'. revert cs E' D D'. induction cs' as [|c' cs' IH]; intros [|c cs] E D D'; cbn [app] in *; [reflexivity | | |].
  - inversion_clear D as [|? ? (d & Q) _]. exfalso. apply (R' c (cs ++ r) d); [symmetry; exact E | exact Q].
  - inversion_clear D' as [|? ? (d & Q) _]. exfalso. apply (R c' (cs' ++ r') d); [exact E | exact Q].
  - injection E as -> E. f_equal. apply IH; [exact E | inversion D; assumption | inversion D'; assumption].
Qed.
Lemma read_fun t z z' : read_as t z -> read_as t z' -> z = z'.
Proof.
  destruct t as [|c t]; [apply begins_fun|]. destruct (Z.eq_dec c 45) as [->|N].
  - intros (v & B & ->) (v' & B' & ->). f_equal. eapply begins_fun; eassumption.
  - assert (forall z, read_as (c :: t) z -> begins (c :: t) z) as K.
    { intros x B. destruct c as [|p|p]; try exact B. do 6 (destruct p as [p|p|]; try exact B). exfalso. apply N. reflexivity. }
    intros B B'. eapply begins_fun; apply K; assumption.
Qed.
Lemma decimal_read z t rest : decimal z t -> (forall c r d, rest = c :: r -> ~ digit 10 c d) -> read_as (t ++ rest) z.
Proof.
  intros [(P & D & F & B)|(P & cs & -> & D & F & B)] R.
  - change (10 =? 16) with false in B. destruct t as [|c t]; [exfalso; change (zlen (@nil Z)) with 0 in B; lia|]. cbn [app]. apply not_minus.
    + inversion F as [|? ? Q]. unfold capital in Q. lia.
    + exists (c :: t), rest. auto.
  - cbn [app]. exists (- z). split; [|lia]. exists cs, rest. auto.
Qed.
Theorem read_back cap z t : zr_print z = Ok t -> Z.abs z < cap -> zlen t < 2 ^ 31 -> zr_of_string cap t = Ok z.
Proof.
  intros P V L. destruct (print_ok z) as (t' & P' & D). rewrite P in P'. injection P' as ->. destruct (read_total cap _ L) as (z' & R & Q).
  assert (z' = z) as -> by (eapply read_fun; [exact R|]; apply decimal_read; [exact D|]; intros c r d E; injection E as <- <-; rewrite digit10; lia). auto.
Qed.
Theorem read_decimal cap z t : decimal z t -> Z.abs z < cap -> zlen t < 2 ^ 31 -> zr_of_string cap t = Ok z.
Proof.
  intros D V L. destruct (read_total cap _ L) as (z' & R & Q).
  assert (z' = z) as -> by (eapply read_fun; [exact R|]; rewrite <- (app_nil_r t); apply decimal_read; [exact D | discriminate]). auto.
Qed.
Lemma print_refuted : exists z t, zr_print z = Ok t /\ ~ decimal z t.
Proof.
  exists 5, [53; 0]. split; [vm_compute; reflexivity|]. intros [(_ & D & F & _)|(P & _)]; [|lia]. inversion F as [|? ? _ F2]. inversion F2 as [|? ? Q]. unfold capital in Q. lia.
Qed.
Lemma read_refuted : exists s z, (forall z', ~ numeral 10 s z') /\ zr_of_string (2 ^ 256) s = Ok z.
Proof.
  exists [49; 50; 120], 12. split; [|vm_compute; reflexivity]. intros z' [D|(cs & m & E & _)]; [|discriminate E]. apply digits_in in D.
  inversion_clear D as [|? ? _ D2]. inversion_clear D2 as [|? ? _ D3]. inversion_clear D3 as [|? ? (d & Q) _]. rewrite digit10 in Q. lia.
Qed.
