From Coq Require Import Lia.
From Verif Require Import Base BaseFacts MpiModel MpiProofs LimbModel LimbSpec.

Lemma LB_pos : 0 < LB. Proof. reflexivity. Qed.
Lemma LB_gt1 : 1 < LB. Proof. reflexivity. Qed.
Lemma u64_LB x : u64 x = x mod LB. Proof. reflexivity. Qed.
Lemma LB_pow n : 0 < LB ^ Z.of_nat n. Proof. apply Z.pow_pos_nonneg; [exact LB_pos | lia]. Qed.
Lemma LB_powS n : LB ^ Z.of_nat (S n) = LB * LB ^ Z.of_nat n.
Proof. rewrite Nat2Z.inj_succ, Z.pow_succ_r by lia. reflexivity. Qed.
Lemma LB_powadd n m : LB ^ Z.of_nat (n + m) = LB ^ Z.of_nat n * LB ^ Z.of_nat m.
Proof. rewrite Nat2Z.inj_add, Z.pow_add_r by lia. reflexivity. Qed.
Lemma LB_pow_le n m : (n <= m)%nat -> LB ^ Z.of_nat n <= LB ^ Z.of_nat m.
Proof. intros. apply Z.pow_le_mono_r; [exact LB_pos | lia]. Qed.
Lemma LB_pow_lt n m : (n < m)%nat -> LB ^ Z.of_nat n < LB ^ Z.of_nat m.
Proof. intros. apply Z.pow_lt_mono_r; [exact LB_gt1 | lia | lia]. Qed.
Lemma LB_pow_inj_lt n m : LB ^ Z.of_nat n < LB ^ Z.of_nat m -> (n < m)%nat.
Proof. intros H. apply Z.pow_lt_mono_r_iff in H; [lia | exact LB_gt1 | lia]. Qed.
Lemma is_limb_u64 x : is_limb (u64 x). Proof. rewrite u64_LB. apply Z.mod_pos_bound, LB_pos. Qed.
Lemma is_limb_0 : is_limb 0. Proof. split; reflexivity || easy. Qed.
Lemma is_limb_1 : is_limb 1. Proof. split; reflexivity || easy. Qed.
Lemma u64_limb x : is_limb x -> u64 x = x. Proof. rewrite u64_LB. apply Z.mod_small. Qed.

(** * Values *)
Lemma lval_cons x l : lval (x :: l) = x + LB * lval l. Proof. reflexivity. Qed.
Lemma lval_range l : Forall is_limb l -> 0 <= lval l < LB ^ zlen l.
Proof.
  induction 1 as [|x l Hx _ IH]; [split; reflexivity || easy|].
  rewrite lval_cons. unfold zlen in *. cbn [length]. rewrite LB_powS. unfold is_limb in Hx. pose proof LB_pos. nia.
Qed.
Lemma lval_nonneg l : Forall is_limb l -> 0 <= lval l. Proof. intros H. apply lval_range in H. lia. Qed.
Lemma lval_lt l n : Forall is_limb l -> (length l <= n)%nat -> lval l < LB ^ Z.of_nat n.
Proof. intros H Hn. apply lval_range in H. pose proof (LB_pow_le _ _ Hn). unfold zlen in H. lia. Qed.
Lemma lval_app a b : lval (a ++ b) = lval a + LB ^ Z.of_nat (length a) * lval b.
Proof.
  induction a as [|x a IH]; cbn [app length].
  - change (LB ^ Z.of_nat 0) with 1. cbn [lval]. lia.
  - rewrite !lval_cons, IH, LB_powS. ring.
Qed.
Lemma lval_zeros n : lval (repeat 0 n) = 0.
Proof. induction n as [|n IH]; [reflexivity | cbn [repeat]; rewrite lval_cons, IH; lia]. Qed.
Lemma limbs_zeros n : Forall is_limb (repeat 0 n).
Proof. apply Forall_forall. intros x Hx. apply repeat_spec in Hx. subst x. exact is_limb_0. Qed.
Lemma lval_split n l : lval l = lval (firstn n l) + LB ^ Z.of_nat (length (firstn n l)) * lval (skipn n l).
Proof. rewrite <- (firstn_skipn n l) at 1. apply lval_app. Qed.
Lemma Forall_firstn' {A} (P : A -> Prop) n l : Forall P l -> Forall P (firstn n l).
Proof. rewrite !Forall_forall. intros H x Hx. apply H. rewrite <- (firstn_skipn n l). apply in_app_iff. now left. Qed.
Lemma Forall_skipn' {A} (P : A -> Prop) n l : Forall P l -> Forall P (skipn n l).
Proof. rewrite !Forall_forall. intros H x Hx. apply H. rewrite <- (firstn_skipn n l). apply in_app_iff. now right. Qed.
Lemma lval_inj a b : Forall is_limb a -> Forall is_limb b -> length a = length b -> lval a = lval b -> a = b.
Proof.
  intros Ha. revert b. induction Ha as [|x a Hx Ha IH]; intros [|y b] Hb L E; try discriminate; [reflexivity|].
  inversion Hb as [|? ? Hy Hb']; subst. rewrite !lval_cons in E. unfold is_limb in Hx, Hy.
  assert (x = y /\ lval a = lval b) as [-> E'].
  { assert (x = y) by (apply (f_equal (fun z => z mod LB)) in E; rewrite !(Z.mul_comm LB), !Z.mod_add, !Z.mod_small in E; pose proof LB_pos; lia).
    subst. pose proof LB_pos. split; [reflexivity | nia]. }
  f_equal. apply IH; [assumption | now inversion L | assumption].
Qed.

(** * Significant limbs *)
Lemma sig_le l : (sig l <= length l)%nat.
Proof. induction l as [|x l IH]; cbn [sig length]; [lia|]. destruct (sig l); [destruct (x =? 0); lia | lia]. Qed.
Lemma sig_firstn l : lval (firstn (sig l) l) = lval l.
Proof.
  induction l as [|x l IH]; [reflexivity|]. cbn [sig].
  destruct (sig l) as [|k] eqn:E.
  - cbn [firstn lval] in IH. destruct (x =? 0) eqn:Ex; cbn [firstn lval]; rewrite <- IH; lia.
  - rewrite firstn_cons, !lval_cons, IH. reflexivity.
Qed.
Lemma sig_ge l k : Forall is_limb l -> sig l = S k -> LB ^ Z.of_nat k <= lval l.
Proof.
  intros H. revert k. induction H as [|x l Hx Hl IH]; intros k E; [discriminate|].
  cbn [sig] in E. rewrite lval_cons. unfold is_limb in Hx. pose proof LB_pos. pose proof (lval_nonneg l Hl).
  destruct (sig l) as [|j] eqn:Ej.
  - destruct (x =? 0) eqn:Ex; [discriminate|]. injection E as <-. change (LB ^ Z.of_nat 0) with 1. nia.
  - injection E as <-. rewrite LB_powS. specialize (IH j eq_refl). nia.
Qed.
Lemma sig_lt l : Forall is_limb l -> lval l < LB ^ Z.of_nat (sig l).
Proof. intros H. rewrite <- sig_firstn. apply lval_lt; [now apply Forall_firstn' | rewrite firstn_length; lia]. Qed.
Lemma sig_zero l : Forall is_limb l -> sig l = O <-> lval l = 0.
Proof.
  intros H. split; intros E.
  - rewrite <- sig_firstn, E. reflexivity.
  - destruct (sig l) as [|k] eqn:Ek; [reflexivity|]. apply sig_ge in Ek; [|assumption]. pose proof (LB_pow k). lia.
Qed.
Lemma sig_bound l n : Forall is_limb l -> lval l < LB ^ Z.of_nat n -> (sig l <= n)%nat.
Proof.
  intros H E. destruct (sig l) as [|k] eqn:Ek; [lia|]. apply sig_ge in Ek; [|assumption].
  assert (LB ^ Z.of_nat k < LB ^ Z.of_nat n) as L by lia. apply LB_pow_inj_lt in L. lia.
Qed.
Lemma sig_unique l n : Forall is_limb l -> LB ^ Z.of_nat n <= lval l < LB ^ Z.of_nat (S n) -> sig l = S n.
Proof.
  intros H [E1 E2]. apply sig_bound in E2; [|assumption].
  destruct (le_lt_dec (sig l) n) as [L|L]; [|lia].
  pose proof (sig_lt l H). pose proof (LB_pow_le _ _ L). lia.
Qed.
Lemma sig_mono a b : Forall is_limb a -> Forall is_limb b -> lval a <= lval b -> (sig a <= sig b)%nat.
Proof. intros Ha Hb H. apply sig_bound; [assumption|]. pose proof (sig_lt b Hb). lia. Qed.
Lemma sig_nonzero_top l k : Forall is_limb l -> sig l = S k -> exists x, nth_error l k = Some x /\ x <> 0.
Proof.
  intros H. revert k. induction H as [|x l Hx Hl IH]; intros k E; [discriminate|]. cbn [sig] in E.
  destruct (sig l) as [|j] eqn:Ej.
  - destruct (x =? 0) eqn:Ex; [discriminate|]. injection E as <-. exists x. split; [reflexivity | lia].
  - injection E as <-. destruct (IH j eq_refl) as (y & ? & ?). exists y. now split.
Qed.
(** A prefix that keeps the significant limbs keeps the value *)
Lemma lval_firstn l n : (sig l <= n)%nat -> lval (firstn n l) = lval l.
Proof.
  revert n. induction l as [|x l IH]; intros n Hn; [now rewrite firstn_nil|].
  cbn [sig] in Hn. destruct (sig l) as [|k] eqn:E.
  - assert (lval l = 0) as V by (rewrite <- sig_firstn, E; reflexivity).
    destruct n as [|n].
    + destruct (x =? 0) eqn:Ex; [|lia]. cbn [firstn lval]. rewrite V. lia.
    + rewrite firstn_cons, !lval_cons, (IH n) by lia. reflexivity.
  - destruct n as [|n]; [lia|]. rewrite firstn_cons, !lval_cons, (IH n) by lia. reflexivity.
Qed.
Lemma lval_skipn_zero l n : Forall is_limb l -> (sig l <= n)%nat -> lval (skipn n l) = 0.
Proof.
  intros H Hn. pose proof (lval_split n l) as E. rewrite (lval_firstn l n Hn) in E.
  pose proof (LB_pow (length (firstn n l))). nia.
Qed.

(** * Functions that succeed *)
Definition wp {A} (x : res A) (Q : A -> Prop) : Prop := exists a, x = ret a /\ Q a.
Definition wpo {A} (x : outcome A) (Q : A -> Prop) : Prop := exists a, x = Ok a /\ Q a.
Lemma wp_ret {A} (a : A) (Q : A -> Prop) : Q a -> wp (ret a) Q. Proof. intros H. now exists a. Qed.
Lemma wpo_ok {A} (a : A) (Q : A -> Prop) : Q a -> wpo (Ok a) Q. Proof. intros H. now exists a. Qed.
Lemma wp_bind {A B} (x : res A) (f : A -> res B) P Q : wp x P -> (forall a, P a -> wp (f a) Q) -> wp (bindr x f) Q.
Proof. intros (a & -> & H) F. apply F in H. exact H. Qed.
Lemma wp_bindo {A B} (x : outcome A) (f : A -> res B) P Q : wpo x P -> (forall a, P a -> wp (f a) Q) -> wp (bind x f) Q.
Proof. intros (a & -> & H) F. apply F in H. exact H. Qed.
Lemma wpo_bind {A B} (x : outcome A) (f : A -> outcome B) P Q : wpo x P -> (forall a, P a -> wpo (f a) Q) -> wpo (bind x f) Q.
Proof. intros (a & -> & H) F. apply F in H. exact H. Qed.
Lemma wp_mono {A} (x : res A) (P Q : A -> Prop) : wp x P -> (forall a, P a -> Q a) -> wp x Q.
Proof. intros (a & E & H) F. exists a. split; [exact E | exact (F a H)]. Qed.
Lemma wpo_mono {A} (x : outcome A) (P Q : A -> Prop) : wpo x P -> (forall a, P a -> Q a) -> wpo x Q.
Proof. intros (a & E & H) F. exists a. split; [exact E | exact (F a H)]. Qed.
Lemma wpo_eq {A} (x : outcome A) a : wpo x (eq a) -> x = Ok a. Proof. now intros (b & -> & <-). Qed.

Lemma lnth_ok {A} (l : list A) i (d : A) : (i < length l)%nat -> lnth l i = Ok (nth i l d).
Proof. intros H. unfold lnth. now rewrite (nth_error_nth' l d H). Qed.
Lemma lupd_ok {A} (l : list A) i x : (i < length l)%nat -> lupd l i x = Ok (firstn i l ++ x :: skipn (S i) l).
Proof.
  revert i. induction l as [|y l IH]; intros i H; [cbn in H; lia|].
  destruct i as [|i]; [reflexivity|]. cbn [lupd]. rewrite IH by (cbn in H; lia). reflexivity.
Qed.
Lemma nth_limb l i : Forall is_limb l -> is_limb (nth i l 0).
Proof.
  intros H. destruct (nth_in_or_default i l 0) as [I | ->]; [|exact is_limb_0].
  rewrite Forall_forall in H. exact (H _ I).
Qed.

(** * Allocation, copies *)
Lemma grow_ok X n : mpi_ok X -> Z.of_nat n <= 10000 ->
  wp (l_grow X n) (fun Y => mpi_ok Y /\ lval (mp Y) = lval (mp X) /\ ms Y = ms X /\ length (mp Y) = Nat.max (length (mp X)) n /\
    mp Y = mp X ++ repeat 0 (n - length (mp X))).
Proof.
  intros [Hs Hl] Hn. unfold l_grow, MPI_MAX_LIMBS. destruct (Z.ltb_spec 10000 (Z.of_nat n)); [lia|].
  apply wp_ret. cbn [ms mp]. repeat split.
  - exact Hs.
  - apply Forall_app. split; [exact Hl | apply limbs_zeros].
  - rewrite lval_app, lval_zeros. lia.
  - rewrite app_length, repeat_length. lia.
Qed.
Lemma init_ok : mpi_ok l_init. Proof. split; [now left | constructor]. Qed.
Lemma copy_new X Y : mpi_ok X -> mpi_ok Y -> mp Y <> [] -> zlen (mp Y) <= 10000 ->
  wp (l_copy false X Y) (fun R => mpi_ok R /\ lval (mp R) = lval (mp Y) /\ ms R = ms Y /\
    length (mp R) = Nat.max (length (mp X)) (Nat.max 1 (sig (mp Y)))).
Proof.
  unfold zlen. intros HX [Hs Hl] NE Hn. pose proof (sig_le (mp Y)).
  assert (l_copy false X Y = let i := Nat.max 1 (sig (mp Y)) in
    bindr (l_grow X i) (fun X => ret (MkMpi (ms Y) (firstn i (mp Y) ++ repeat 0 (length (mp X) - i))))) as ->
    by (unfold l_copy; destruct (mp Y); [congruence | reflexivity]).
  cbv zeta. assert (1 <= length (mp Y))%nat by (destruct (mp Y); [congruence | cbn [length]; lia]).
  eapply wp_bind; [apply grow_ok; [assumption | lia]|].
  intros Z (HZ & VZ & SZ & LZ & _). apply wp_ret. cbn [ms mp]. repeat split; try exact Hs.
  - apply Forall_app. split; [now apply Forall_firstn' | apply limbs_zeros].
  - rewrite lval_app, lval_zeros, lval_firstn by lia. lia.
  - rewrite app_length, repeat_length, firstn_length. lia.
Qed.
Lemma copy_null same X Y : mp Y = [] -> (same = true -> X = Y) -> ms Y = 1 -> l_copy same X Y = ret l_init.
Proof. intros E H S. unfold l_copy. destruct same; [rewrite (H eq_refl); destruct Y; cbn in *; subst; reflexivity | now rewrite E]. Qed.
(** Copying gives the same value; the number of limbs only grows as needed *)
Lemma copy_ok same X Y : mpi_ok X -> mpi_ok Y -> (same = true -> X = Y) -> zlen (mp Y) <= 10000 ->
  wp (l_copy same X Y) (fun R => mpi_ok R /\ lval (mp R) = lval (mp Y) /\ mval R = mval Y /\ (lval (mp Y) <> 0 -> ms R = ms Y) /\
    (length (mp R) <= Nat.max (length (mp X)) (length (mp Y)))%nat /\ (mp Y <> [] -> (length (mp X) <= length (mp R))%nat)).
Proof.
  intros HX HY E Hn. destruct same.
  - rewrite (E eq_refl) in *. cbn. apply wp_ret. repeat split; try apply HY; lia.
  - clear E. destruct (list_eq_dec Z.eq_dec (mp Y) []) as [N|N].
    + unfold l_copy. rewrite N. apply wp_ret. unfold mval. rewrite N. repeat split; cbn; try lia; [constructor | congruence].
    + eapply wp_mono; [now apply copy_new|]. intros R (? & V & S & L). unfold mval. rewrite V, S. repeat split; try apply H; try lia.
      pose proof (sig_le (mp Y)). assert (1 <= length (mp Y))%nat by (destruct (mp Y); [congruence | cbn [length]; lia]). lia.
Qed.
Lemma sint_abs_ok z : - 2 ^ 63 < z < 2 ^ 63 -> sint_abs z = Ok (Z.abs z) /\ is_limb (Z.abs z).
Proof.
  intros H. unfold sint_abs. destruct (Z.eqb_spec z (- 2 ^ 63)); [lia|]. split; [reflexivity|]. unfold is_limb, LB.
  change (2 ^ 64) with (2 * 2 ^ 63). lia.
Qed.
Lemma sint_sgn_ok z : (sint_sgn z = 1 \/ sint_sgn z = -1) /\ sint_sgn z * Z.abs z = z.
Proof. unfold sint_sgn. destruct (Z.ltb_spec z 0); split; (now left) || (now right) || lia. Qed.
Lemma lset_ok X z : mpi_ok X -> - 2 ^ 63 < z < 2 ^ 63 ->
  wp (l_lset X z) (fun R => mpi_ok R /\ mval R = z /\ mp R = Z.abs z :: repeat 0 (length (mp X) - 1) /\ ms R = sint_sgn z).
Proof.
  intros HX Hz. unfold l_lset. destruct (sint_abs_ok z Hz) as [-> HL]. destruct (sint_sgn_ok z) as [Hs Hv].
  eapply wp_bind; [apply grow_ok; [exact HX | lia]|]. intros Y (_ & _ & _ & L & _). cbn [bind].
  destruct (mp Y) as [|y r] eqn:EY; [cbn in L; lia|].
  apply wp_ret. cbn [ms mp]. assert (length r = length (mp X) - 1)%nat as -> by (cbn [length] in L; lia).
  repeat split; try exact Hs.
  - constructor; [exact HL | apply limbs_zeros].
  - unfold mval. cbn [ms mp]. rewrite lval_cons, lval_zeros. lia.
Qed.
Lemma sint_ok z : - 2 ^ 63 < z < 2 ^ 63 -> wpo (l_sint z) (fun Y => mpi_ok Y /\ mval Y = z /\ length (mp Y) = 1%nat).
Proof.
  intros Hz. unfold l_sint. destruct (sint_abs_ok z Hz) as [-> HL]. destruct (sint_sgn_ok z) as [Hs Hv].
  apply wpo_ok. repeat split; try exact Hs; [constructor; [exact HL | constructor] | unfold mval; cbn; lia].
Qed.

(** * Comparisons *)
Definition cmp3 (gt lt : Z) (c : comparison) : Z := match c with Eq => 0 | Gt => gt | Lt => lt end.
Lemma firstn_S_nth {A} (l : list A) i d : (i < length l)%nat -> firstn (S i) l = firstn i l ++ [nth i l d].
Proof.
  revert i. induction l as [|x l IH]; intros i H; [cbn in H; lia|].
  destruct i as [|i]; [reflexivity|]. cbn [firstn nth app]. f_equal. apply IH. cbn in H. lia.
Qed.
Lemma cmp_loop_ok i x y gt lt : (i <= length x)%nat -> (i <= length y)%nat -> Forall is_limb x -> Forall is_limb y ->
  cmp_loop i x y gt lt = Ok (cmp3 gt lt (lval (firstn i x) ?= lval (firstn i y))).
Proof.
  intros Hx Hy Lx Ly. induction i as [|i IH]; [reflexivity|].
  cbn [cmp_loop]. rewrite (lnth_ok x i 0), (lnth_ok y i 0) by lia. cbn [bind].
  rewrite (firstn_S_nth x i 0), (firstn_S_nth y i 0), !lval_app, !firstn_length, !Nat.min_l by lia.
  cbn [lval]. rewrite !Z.mul_0_r, !Z.add_0_r.
  pose proof (lval_lt (firstn i x) i (Forall_firstn' _ _ _ Lx) ltac:(rewrite firstn_length; lia)) as Bx.
  pose proof (lval_lt (firstn i y) i (Forall_firstn' _ _ _ Ly) ltac:(rewrite firstn_length; lia)) as By.
  pose proof (lval_nonneg _ (Forall_firstn' _ i _ Lx)) as Nx. pose proof (lval_nonneg _ (Forall_firstn' _ i _ Ly)) as Ny.
  rewrite IH by lia. set (P := LB ^ Z.of_nat i) in *. set (a := nth i x 0). set (b := nth i y 0).
  set (u := lval (firstn i x)) in *. set (v := lval (firstn i y)) in *. clearbody P a b u v.
  destruct (Z.ltb_spec b a).
  - replace (u + P * a ?= v + P * b) with Gt; [reflexivity|]. symmetry. apply Z.compare_gt_iff. nia.
  - destruct (Z.ltb_spec a b).
    + replace (u + P * a ?= v + P * b) with Lt; [reflexivity|]. symmetry. apply Z.compare_lt_iff. nia.
    + assert (a = b) as -> by lia. rewrite (Z.add_comm u), (Z.add_comm v), Zcompare_plus_compat. reflexivity.
Qed.
Lemma cmp_abs_ok X Y : mpi_ok X -> mpi_ok Y -> l_cmp_abs X Y = Ok (cmp3 1 (-1) (lval (mp X) ?= lval (mp Y))).
Proof.
  intros [_ LX] [_ LY]. unfold l_cmp_abs.
  pose proof (sig_le (mp X)). pose proof (sig_le (mp Y)).
  destruct (Nat.ltb_spec (sig (mp Y)) (sig (mp X))) as [G|G].
  - destruct (sig (mp X)) as [|k] eqn:E; [lia|]. cbn [Nat.eqb andb]. pose proof (sig_ge _ _ LX E). pose proof (sig_lt _ LY).
    assert (LB ^ Z.of_nat (sig (mp Y)) <= LB ^ Z.of_nat k) by (apply LB_pow_le; lia).
    replace (lval (mp X) ?= lval (mp Y)) with Gt; [reflexivity|]. symmetry. apply Z.compare_gt_iff. lia.
  - destruct (Nat.ltb_spec (sig (mp X)) (sig (mp Y))) as [L|L].
    + destruct (sig (mp Y)) as [|k] eqn:E; [lia|]. cbn [Nat.eqb]. rewrite andb_false_r. pose proof (sig_ge _ _ LY E). pose proof (sig_lt _ LX).
      assert (LB ^ Z.of_nat (sig (mp X)) <= LB ^ Z.of_nat k) by (apply LB_pow_le; lia).
      replace (lval (mp X) ?= lval (mp Y)) with Lt; [reflexivity|]. symmetry. apply Z.compare_lt_iff. lia.
    + assert (sig (mp X) = sig (mp Y)) as E by lia.
      rewrite cmp_loop_ok, E, (lval_firstn (mp Y)), <- E, (lval_firstn (mp X)) by (assumption || lia).
      destruct (Nat.eqb_spec (sig (mp X)) 0) as [Z|Z]; [|reflexivity].
      cbn [andb].
      pose proof (proj1 (sig_zero _ LX) Z) as ->. pose proof (proj1 (sig_zero _ LY) ltac:(lia)) as ->. reflexivity.
Qed.
Lemma cmp3_ge c : 0 <=? cmp3 1 (-1) c = match c with Lt => false | _ => true end. Proof. now destruct c. Qed.
Lemma cmp3_lt c : cmp3 1 (-1) c <? 0 = match c with Lt => true | _ => false end. Proof. now destruct c. Qed.
Lemma cmp3_gt c : 0 <? cmp3 1 (-1) c = match c with Gt => true | _ => false end. Proof. now destruct c. Qed.
Lemma cmp3_eq c : cmp3 1 (-1) c =? 0 = match c with Eq => true | _ => false end. Proof. now destruct c. Qed.
Lemma cmp_ok X Y : mpi_ok X -> mpi_ok Y -> l_cmp X Y = Ok (cmp3 1 (-1) (mval X ?= mval Y)).
Proof.
  intros HX HY. pose proof (cmp_abs_ok X Y HX HY) as C. destruct HX as [SX LX]. destruct HY as [SY LY].
  unfold l_cmp. unfold l_cmp_abs in C. unfold mval.
  pose proof (sig_le (mp X)). pose proof (sig_le (mp Y)).
  pose proof (lval_nonneg _ LX) as NX. pose proof (lval_nonneg _ LY) as NY.
  pose proof (sig_zero _ LX) as ZX. pose proof (sig_zero _ LY) as ZY.
  destruct (Nat.eqb_spec (sig (mp X)) 0) as [E1|E1]; destruct (Nat.eqb_spec (sig (mp Y)) 0) as [E2|E2]; cbn [andb] in *.
  { rewrite (proj1 ZX E1), (proj1 ZY E2), !Z.mul_0_r. reflexivity. }
  1, 2, 3: destruct (Nat.ltb_spec (sig (mp Y)) (sig (mp X))) as [G|G]; [|destruct (Nat.ltb_spec (sig (mp X)) (sig (mp Y))) as [L|L]]; try lia.
  - assert (lval (mp X) = 0) as V by (apply ZX; lia). assert (lval (mp Y) <> 0) by (intros ?; apply E2, ZY; lia). rewrite V, Z.mul_0_r.
    f_equal. destruct SY as [-> | ->]; cbn [Z.opp].
    + replace (0 ?= 1 * lval (mp Y)) with Lt; [reflexivity|]. symmetry. apply Z.compare_lt_iff. lia.
    + replace (0 ?= -1 * lval (mp Y)) with Gt; [reflexivity|]. symmetry. apply Z.compare_gt_iff. lia.
  - assert (lval (mp Y) = 0) as V by (apply ZY; lia). assert (lval (mp X) <> 0) by (intros ?; apply E1, ZX; lia). rewrite V, Z.mul_0_r.
    f_equal. destruct SX as [-> | ->].
    + replace (1 * lval (mp X) ?= 0) with Gt; [reflexivity|]. symmetry. apply Z.compare_gt_iff. lia.
    + replace (-1 * lval (mp X) ?= 0) with Lt; [reflexivity|]. symmetry. apply Z.compare_lt_iff. lia.
  - assert (lval (mp X) > lval (mp Y)) as Q. { destruct (Z.compare_spec (lval (mp X)) (lval (mp Y))); cbn in C; try discriminate. lia. }
    f_equal. destruct SX as [-> | ->].
    + replace (1 * lval (mp X) ?= ms Y * lval (mp Y)) with Gt; [reflexivity|]. symmetry. apply Z.compare_gt_iff. destruct SY as [-> | ->]; lia.
    + replace (-1 * lval (mp X) ?= ms Y * lval (mp Y)) with Lt; [reflexivity|]. symmetry. apply Z.compare_lt_iff. destruct SY as [-> | ->]; lia.
  - assert (lval (mp X) < lval (mp Y)) as Q. { destruct (Z.compare_spec (lval (mp X)) (lval (mp Y))); cbn in C; try discriminate. lia. }
    f_equal. destruct SY as [-> | ->]; cbn [Z.opp].
    + replace (ms X * lval (mp X) ?= 1 * lval (mp Y)) with Lt; [reflexivity|]. symmetry. apply Z.compare_lt_iff. destruct SX as [-> | ->]; lia.
    + replace (ms X * lval (mp X) ?= -1 * lval (mp Y)) with Gt; [reflexivity|]. symmetry. apply Z.compare_gt_iff. destruct SX as [-> | ->]; lia.
  - assert (lval (mp X) <> 0) by (intros ?; apply E1, ZX; lia). assert (lval (mp Y) <> 0) by (intros ?; apply E2, ZY; lia).
    clear C. assert (sig (mp X) = sig (mp Y)) as E by lia.
    rewrite cmp_loop_ok, E, (lval_firstn (mp Y)), <- E, (lval_firstn (mp X)) by (assumption || lia).
    destruct SX as [-> | ->]; destruct SY as [-> | ->]; cbn [Z.ltb Z.compare andb Z.opp].
    + now rewrite !Z.mul_1_l.
    + replace (1 * lval (mp X) ?= -1 * lval (mp Y)) with Gt; [reflexivity|]. symmetry. apply Z.compare_gt_iff. lia.
    + replace (-1 * lval (mp X) ?= 1 * lval (mp Y)) with Lt; [reflexivity|]. symmetry. apply Z.compare_lt_iff. lia.
    + replace (-1 * lval (mp X) ?= -1 * lval (mp Y)) with (CompOpp (lval (mp X) ?= lval (mp Y))).
      * now destruct (lval (mp X) ?= lval (mp Y)).
      * rewrite <- Z.compare_antisym. destruct (Z.compare_spec (lval (mp Y)) (lval (mp X))); symmetry; [apply Z.compare_eq_iff | apply Z.compare_lt_iff | apply Z.compare_gt_iff]; lia.
Qed.
Lemma cmp_int_ok X z : mpi_ok X -> - 2 ^ 63 < z < 2 ^ 63 -> l_cmp_int X z = Ok (cmp3 1 (-1) (mval X ?= z)).
Proof.
  intros HX Hz. unfold l_cmp_int. destruct (sint_ok z Hz) as (Y & -> & HY & V & _). cbn [bind].
  rewrite cmp_ok by assumption. now rewrite V.
Qed.

(** * Addition *)
Lemma bz_ltb a b : bz (a <? b) = (if a <? b then 1 else 0). Proof. reflexivity. Qed.
(** One step of an addition with carry *)
Lemma add_step x c : is_limb x -> 0 <= c < LB -> bz (u64 (x + c) <? c) = (x + c) / LB /\ u64 (x + c) = (x + c) mod LB.
Proof.
  intros Hx Hc. rewrite u64_LB. split; [|reflexivity]. unfold is_limb in Hx. pose proof LB_pos.
  pose proof (Z.div_mod (x + c) LB ltac:(lia)) as D. pose proof (Z.mod_pos_bound (x + c) LB ltac:(lia)) as M.
  rewrite bz_ltb. destruct (Z.ltb_spec ((x + c) mod LB) c); nia.
Qed.
Lemma add_carry_ok p c : Forall is_limb p -> 0 <= c <= 1 ->
  Forall is_limb (add_carry p c) /\ lval (add_carry p c) = lval p + c /\ (length (add_carry p c) <= S (length p))%nat /\
  (length p <= length (add_carry p c))%nat /\ (length (add_carry p c) = length p \/ LB ^ zlen p <= lval p + c).
Proof.
  intros H. revert c. induction H as [|x p Hx Hp IH]; intros c Hc; cbn [add_carry]; destruct (Z.eqb_spec c 0) as [->|Nc].
  - repeat split; cbn; try lia. constructor.
  - assert (c = 1) as -> by lia. split; [constructor; [exact is_limb_1 | constructor]|]. split; [reflexivity|]. split; [cbn; lia|]. split; [cbn; lia|]. right. change (LB ^ zlen (@nil Z)) with 1. cbn [lval]. lia.
  - repeat split; try lia. now constructor.
  - assert (c = 1) as -> by lia. destruct (add_step x 1 Hx (conj Z.le_0_1 LB_gt1)) as [E1 E2]. rewrite E1, E2.
    unfold is_limb in Hx. pose proof LB_gt1. pose proof (Z.div_mod (x + 1) LB ltac:(lia)) as D. pose proof (Z.mod_pos_bound (x + 1) LB ltac:(lia)) as M.
    destruct (IH ((x + 1) / LB) ltac:(nia)) as (F & V & L & L' & T). repeat split.
    + constructor; [exact M | exact F].
    + rewrite !lval_cons, V. lia.
    + cbn [length]. lia.
    + cbn [length]. lia.
    + rewrite zlen_cons. cbn [length]. destruct T as [T|T]; [left; lia|]. right. rewrite Z.pow_add_r, lval_cons, Z.pow_1_r by (lia || apply zlen_nonneg). nia.
Qed.
Lemma add_loop_ok o p c : Forall is_limb o -> Forall is_limb p -> (length o <= length p)%nat -> 0 <= c <= 1 ->
  wpo (add_loop o p c) (fun r => Forall is_limb r /\ lval r = lval p + lval o + c /\ (length r <= S (length p))%nat /\
    (length p <= length r)%nat /\ (length r = length p \/ LB ^ zlen p <= lval p + lval o + c)).
Proof.
  intros Ho. revert p c. induction Ho as [|t o Ht Ho IH]; intros p c Hp L Hc.
  - destruct p; cbn [add_loop]; apply wpo_ok; cbn [lval]; rewrite ?Z.add_0_r; now apply add_carry_ok.
  - destruct p as [|x p]; [cbn in L; lia|]. inversion Hp as [|? ? Hx Hp']; subst. cbn [add_loop].
    pose proof LB_gt1 as G. destruct (add_step x c Hx ltac:(lia)) as [E1 E2]. rewrite E1, E2.
    pose proof (Z.div_mod (x + c) LB ltac:(lia)) as D. pose proof (Z.mod_pos_bound (x + c) LB ltac:(lia)) as M.
    destruct (add_step ((x + c) mod LB) t M Ht) as [E3 E4]. rewrite E3, E4.
    pose proof (Z.div_mod ((x + c) mod LB + t) LB ltac:(lia)) as D2. pose proof (Z.mod_pos_bound ((x + c) mod LB + t) LB ltac:(lia)) as M2.
    unfold is_limb in Hx, Ht.
    set (m1 := (x + c) mod LB) in *. set (q1 := (x + c) / LB) in *. set (m2 := (m1 + t) mod LB) in *. set (q2 := (m1 + t) / LB) in *.
    eapply wpo_bind; [apply (IH p (q1 + q2)); [assumption | cbn in L; lia | clearbody m1 m2 q1 q2; nia]|].
    intros r (F & V & Lr & Lr' & T). apply wpo_ok. clearbody m1 m2 q1 q2. repeat split.
    + constructor; [exact M2 | exact F].
    + rewrite !lval_cons, V. lia.
    + cbn [length]. lia.
    + cbn [length]. lia.
    + rewrite zlen_cons. cbn [length]. destruct T as [T|T]; [left; lia|]. right. rewrite Z.pow_add_r, !lval_cons, Z.pow_1_r by (lia || apply zlen_nonneg). nia.
Qed.
Lemma sig_gt l n : Forall is_limb l -> LB ^ Z.of_nat n <= lval l -> (n < sig l)%nat.
Proof. intros H Hv. apply LB_pow_inj_lt. pose proof (sig_lt l H). lia. Qed.
(** The number of limbs of a result: those of the operands, or what the result needs; never fewer than before *)
Definition lens (X A B R : mpi) : Prop :=
  (length (mp R) <= Nat.max (sig (mp R)) (Nat.max (length (mp X)) (Nat.max (length (mp A)) (length (mp B)))))%nat /\
  (mp A <> [] -> mp B <> [] -> (length (mp X) <= length (mp R))%nat).
(** X = |A| + |B|, whatever the aliasing; X is positive afterwards *)
Lemma add_abs_ok xa xb X A B : mpi_ok X -> mpi_ok A -> mpi_ok B -> (xa = true -> X = A) -> (xb = true -> X = B) ->
  mlen X < 10000 -> mlen A < 10000 -> mlen B < 10000 ->
  wp (l_add_abs xa xb X A B) (fun R => mpi_ok R /\ mval R = lval (mp A) + lval (mp B) /\ ms R = 1 /\ lens X A B R).
Proof.
  unfold mlen, zlen. intros HX HA HB EA EB LX LA LB'. unfold l_add_abs.
  assert (forall xa A B, mpi_ok A -> mpi_ok B -> (xa = true -> X = A) -> Z.of_nat (length (mp A)) < 10000 -> Z.of_nat (length (mp B)) < 10000 ->
    wp (bindr (l_copy xa X A) (fun X => let j := sig (mp B) in bindr (l_grow X j) (fun X =>
      bind (add_loop (firstn j (mp B)) (mp X) 0) (fun p => if MPI_MAX_LIMBS <? zlen p then err ERR_MPI_ALLOC_FAILED else ret (MkMpi 1 p)))))
     (fun R => mpi_ok R /\ mval R = lval (mp A) + lval (mp B) /\ ms R = 1 /\ lens X A B R)) as MAIN.
  { clear - HX LX. intros xa A B HA HB EA LA LB'.
    eapply wp_bind; [apply copy_ok; try assumption; unfold zlen; lia|]. intros Y (HY & VY & _ & _ & LY & LY2). cbv zeta.
    pose proof (sig_le (mp B)).
    eapply wp_bind; [apply grow_ok; [assumption | lia]|]. intros Z (HZ & VZ & _ & LZ & _).
    eapply wp_bindo; [apply add_loop_ok; [apply Forall_firstn', HB | apply HZ | rewrite firstn_length; lia | lia]|].
    intros r (F & V & L & L2 & L3). unfold MPI_MAX_LIMBS. destruct (Z.ltb_spec 10000 (zlen r)) as [Q|Q]; [unfold zlen in Q; lia|].
    apply wp_ret. unfold mval, lens. cbn [ms mp].
    assert (length r <= Nat.max (sig r) (Nat.max (length (mp X)) (Nat.max (length (mp A)) (length (mp B)))))%nat as UP.
    { destruct L3 as [L3|L3]; [lia|]. rewrite <- V in L3. apply sig_gt in L3; [lia | exact F]. }
    rewrite V, VZ, VY, lval_firstn by lia. split; [split; [now left | exact F]|]. split; [lia|]. split; [reflexivity|]. split; [exact UP|].
    intros N1 _. specialize (LY2 N1). lia. }
  destruct xb.
  - rewrite <- (EB eq_refl) in *. eapply wp_mono; [apply (MAIN true X A); try assumption; easy|].
    intros R (? & V & ? & [L1 L2]). (split; [exact H|]); (split; [lia|]); (split; [assumption|]); split; [lia|]. intros N1 N2. apply L2; assumption.
  - now apply MAIN.
Qed.

(** * Subtraction *)
Lemma sub_step x c : is_limb x -> 0 <= c <= LB -> bz (x <? c) = - ((x - c) / LB) /\ u64 (x - c) = (x - c) mod LB.
Proof.
  intros Hx Hc. rewrite u64_LB. split; [|reflexivity]. unfold is_limb in Hx. pose proof LB_pos.
  pose proof (Z.div_mod (x - c) LB ltac:(lia)) as D. pose proof (Z.mod_pos_bound (x - c) LB ltac:(lia)) as M.
  rewrite bz_ltb. destruct (Z.ltb_spec x c); nia.
Qed.
Lemma sub_carry_ok d c : Forall is_limb d -> 0 <= c <= 1 -> c <= lval d ->
  wpo (sub_carry d c) (fun r => Forall is_limb r /\ lval r = lval d - c /\ length r = length d).
Proof.
  intros H. revert c. induction H as [|x d Hx Hd IH]; intros c Hc Hv; cbn [sub_carry]; destruct (Z.eqb_spec c 0) as [->|Nc].
  - apply wpo_ok. repeat split; cbn; try lia. constructor.
  - cbn in Hv. lia.
  - apply wpo_ok. repeat split; try lia. now constructor.
  - assert (c = 1) as -> by lia. pose proof LB_gt1. destruct (sub_step x 1 Hx ltac:(lia)) as [E1 E2]. rewrite E1, E2.
    pose proof (Z.div_mod (x - 1) LB ltac:(lia)) as D. pose proof (Z.mod_pos_bound (x - 1) LB ltac:(lia)) as M.
    unfold is_limb in Hx. rewrite lval_cons in Hv. pose proof (lval_nonneg _ Hd).
    set (q := (x - 1) / LB) in *. set (m := (x - 1) mod LB) in *. clearbody q m.
    eapply wpo_bind; [apply (IH (- q)); nia|]. intros r (F & V & L). apply wpo_ok. repeat split.
    + constructor; [exact M | exact F].
    + rewrite !lval_cons, V. lia.
    + cbn [length]. lia.
Qed.
Lemma sub_loop_ok s d c : Forall is_limb s -> Forall is_limb d -> (length s <= length d)%nat -> 0 <= c <= 1 -> lval s + c <= lval d ->
  wpo (sub_loop s d c) (fun r => Forall is_limb r /\ lval r = lval d - lval s - c /\ length r = length d).
Proof.
  intros Hs. revert d c. induction Hs as [|y s Hy Hs IH]; intros d c Hd L Hc Hv.
  - destruct d; cbn [sub_loop lval] in *; (eapply wpo_mono; [apply sub_carry_ok; [assumption | assumption | cbn [lval]; lia]|]);
    intros r (? & V & ?); repeat split; try assumption; rewrite V; cbn [lval]; lia.
  - destruct d as [|x d]; [cbn in L; lia|]. inversion Hd as [|? ? Hx Hd']; subst. cbn [sub_loop]. pose proof LB_gt1 as G.
    destruct (sub_step x c Hx ltac:(lia)) as [E1 E2]. rewrite E1, E2.
    pose proof (Z.div_mod (x - c) LB ltac:(lia)) as D. pose proof (Z.mod_pos_bound (x - c) LB ltac:(lia)) as M.
    destruct (sub_step ((x - c) mod LB) y M ltac:(unfold is_limb in Hy; lia)) as [E3 E4]. rewrite E3, E4.
    pose proof (Z.div_mod ((x - c) mod LB - y) LB ltac:(lia)) as D2. pose proof (Z.mod_pos_bound ((x - c) mod LB - y) LB ltac:(lia)) as M2.
    unfold is_limb in Hx, Hy. rewrite !lval_cons in Hv.
    set (m1 := (x - c) mod LB) in *. set (q1 := (x - c) / LB) in *. set (m2 := (m1 - y) mod LB) in *. set (q2 := (m1 - y) / LB) in *.
    clearbody m1 m2 q1 q2.
    eapply wpo_bind; [apply (IH d (- q2 + - q1)); [assumption | cbn in L; lia | nia | nia]|].
    intros r (F & V & Lr). apply wpo_ok. repeat split.
    + constructor; [exact M2 | exact F].
    + rewrite !lval_cons, V. lia.
    + cbn [length]. lia.
Qed.
Lemma sub_hlp_ok n s d : Forall is_limb s -> Forall is_limb d -> (n <= length s)%nat -> (n <= length d)%nat -> lval (firstn n s) <= lval d ->
  wpo (sub_hlp n s d) (fun r => Forall is_limb r /\ lval r = lval d - lval (firstn n s) /\ length r = length d).
Proof.
  intros Hs Hd L1 L2 Hv. unfold sub_hlp. destruct (Nat.ltb_spec (length s) n); [lia|].
  eapply wpo_mono; [apply sub_loop_ok; [now apply Forall_firstn' | assumption | rewrite firstn_length; lia | lia | lia]|].
  intros r (? & V & ?). repeat split; try assumption. lia.
Qed.
Lemma sub_abs_ok xa xb X A B : mpi_ok X -> mpi_ok A -> mpi_ok B -> (xa = true -> X = A) -> (xb = true -> X = B) ->
  mlen A <= 10000 -> mlen B <= 10000 -> lval (mp B) <= lval (mp A) ->
  wp (l_sub_abs xa xb X A B) (fun R => mpi_ok R /\ mval R = lval (mp A) - lval (mp B) /\ ms R = 1 /\
    (length (mp R) <= Nat.max (length (mp X)) (length (mp A)))%nat /\ (mp A <> [] -> (length (mp X) <= length (mp R))%nat)).
Proof.
  unfold mlen, zlen. intros HX HA HB EA EB LA LB' Hv. unfold l_sub_abs.
  rewrite cmp_abs_ok by assumption. cbn [bind]. rewrite cmp3_lt.
  destruct (Z.compare_spec (lval (mp A)) (lval (mp B))); try lia.
  1, 2: (eapply wp_bind with (P := fun B' => mpi_ok B' /\ lval (mp B') = lval (mp B));
  [destruct xb; [eapply wp_mono; [apply copy_ok; [exact init_ok | assumption | discriminate | unfold zlen; lia]|]; intros B' (? & V & _); now split | apply wp_ret; now split]|]);
  intros B' (HB' & VB'); 
  (eapply wp_bind with (P := fun Y => mpi_ok Y /\ lval (mp Y) = lval (mp A) /\ (length (mp Y) <= Nat.max (length (mp X)) (length (mp A)))%nat /\ (mp A <> [] -> (length (mp X) <= length (mp Y))%nat));
  [eapply wp_mono; [apply copy_ok; try assumption; unfold zlen; lia|]; intros Y (HY & V & _ & _ & L & L'); repeat split; try apply HY; assumption|]);
  intros Y (HY & VY & LY & LY'); pose proof (sig_le (mp B')); pose proof (sig_le (mp Y));
  (assert (sig (mp B') <= sig (mp Y))%nat by (apply sig_mono; [apply HB' | apply HY | lia]));
  (eapply wp_bindo; [apply sub_hlp_ok; [apply HB' | apply HY | lia | lia | rewrite lval_firstn by lia; lia]|]);
  intros r (F & V & L); apply wp_ret; unfold mval; cbn [ms mp]; rewrite V, lval_firstn, VY, VB' by lia; repeat split; try lia; try (now left); try exact F;
  try (intros Q; rewrite L; auto); rewrite L; assumption.
Qed.
Lemma sub_abs_neg xa xb X A B : mpi_ok A -> mpi_ok B -> lval (mp A) < lval (mp B) -> l_sub_abs xa xb X A B = err ERR_MPI_NEGATIVE_VALUE.
Proof.
  intros HA HB Hv. unfold l_sub_abs. rewrite cmp_abs_ok by assumption. cbn [bind]. rewrite cmp3_lt.
  destruct (Z.compare_spec (lval (mp A)) (lval (mp B))); try lia. reflexivity.
Qed.
Lemma with_s_ok X s : mpi_ok X -> (s = 1 \/ s = -1) -> mpi_ok (with_s X s) /\ mval (with_s X s) = s * lval (mp X).
Proof. intros [_ H] Hs. repeat split; assumption. Qed.
(** X = A + B *)
Lemma add_ok xa xb X A B : mpi_ok X -> mpi_ok A -> mpi_ok B -> (xa = true -> X = A) -> (xb = true -> X = B) ->
  mlen X < 10000 -> mlen A < 10000 -> mlen B < 10000 ->
  wp (l_add xa xb X A B) (fun R => mpi_ok R /\ mval R = mval A + mval B /\ lens X A B R).
Proof.
  intros HX HA HB EA EB LX LA LB'. unfold l_add.
  assert (forall C, mpi_ok C -> ms C = 1 -> mval C = lval (mp C)) as POS by (intros C _ E; unfold mval; rewrite E; lia).
  destruct (Z.ltb_spec (ms A * ms B) 0) as [Hs|Hs].
  - rewrite cmp_abs_ok by assumption. cbn [bind]. rewrite cmp3_ge.
    assert (ms B = - ms A) as SB by (destruct HA as [[E1|E1] _]; destruct HB as [[E2|E2] _]; rewrite E1, E2 in *; lia).
    destruct (Z.compare_spec (lval (mp A)) (lval (mp B))).
    1, 3: (eapply wp_bind; [apply sub_abs_ok; try assumption; unfold mlen in *; lia|]); intros R (HR & V & S & L & L2); apply wp_ret;
      rewrite (POS R HR S) in V; destruct (with_s_ok R (ms A) HR (proj1 HA)) as [O ->]; (split; [exact O|]); (split; [unfold mval; rewrite V, SB; ring|]); unfold lens in *; cbn [mp with_s]; (split; [lia | (intros; apply L2; assumption) || apply L]).
    (eapply wp_bind; [apply sub_abs_ok; try assumption; unfold mlen in *; lia|]); intros R (HR & V & S & L & L2); apply wp_ret;
      rewrite (POS R HR S) in V; destruct (with_s_ok R (- ms A) HR ltac:(destruct HA as [[-> | ->] _]; lia)) as [O ->]; (split; [exact O|]); (split; [unfold mval; rewrite V, SB; ring|]); unfold lens in *; cbn [mp with_s]; (split; [lia | (intros; apply L2; assumption) || apply L]).
  - assert (ms B = ms A) as SB by (destruct HA as [[E1|E1] _]; destruct HB as [[E2|E2] _]; rewrite E1, E2 in *; lia).
    (eapply wp_bind; [apply add_abs_ok; try assumption|]); intros R (HR & V & S & L); apply wp_ret.
    rewrite (POS R HR S) in V; destruct (with_s_ok R (ms A) HR (proj1 HA)) as [O ->]; (split; [exact O|]); (split; [unfold mval; rewrite V, SB; ring|]); unfold lens in *; cbn [mp with_s]; (split; [lia | (intros; apply L2; assumption) || apply L]).
Qed.
Lemma sub_ok xa xb X A B : mpi_ok X -> mpi_ok A -> mpi_ok B -> (xa = true -> X = A) -> (xb = true -> X = B) ->
  mlen X < 10000 -> mlen A < 10000 -> mlen B < 10000 ->
  wp (l_sub xa xb X A B) (fun R => mpi_ok R /\ mval R = mval A - mval B /\ lens X A B R).
Proof.
  intros HX HA HB EA EB LX LA LB'. unfold l_sub.
  assert (forall C, mpi_ok C -> ms C = 1 -> mval C = lval (mp C)) as POS by (intros C _ E; unfold mval; rewrite E; lia).
  destruct (Z.ltb_spec 0 (ms A * ms B)) as [Hs|Hs].
  - rewrite cmp_abs_ok by assumption. cbn [bind]. rewrite cmp3_ge.
    assert (ms B = ms A) as SB by (destruct HA as [[E1|E1] _]; destruct HB as [[E2|E2] _]; rewrite E1, E2 in *; lia).
    destruct (Z.compare_spec (lval (mp A)) (lval (mp B))).
    1, 3: (eapply wp_bind; [apply sub_abs_ok; try assumption; unfold mlen in *; lia|]); intros R (HR & V & S & L & L2); apply wp_ret;
      rewrite (POS R HR S) in V; destruct (with_s_ok R (ms A) HR (proj1 HA)) as [O ->]; (split; [exact O|]); (split; [unfold mval; rewrite V, SB; ring|]); unfold lens in *; cbn [mp with_s]; (split; [lia | (intros; apply L2; assumption) || apply L]).
    (eapply wp_bind; [apply sub_abs_ok; try assumption; unfold mlen in *; lia|]); intros R (HR & V & S & L & L2); apply wp_ret;
      rewrite (POS R HR S) in V; destruct (with_s_ok R (- ms A) HR ltac:(destruct HA as [[-> | ->] _]; lia)) as [O ->]; (split; [exact O|]); (split; [unfold mval; rewrite V, SB; ring|]); unfold lens in *; cbn [mp with_s]; (split; [lia | (intros; apply L2; assumption) || apply L]).
  - assert (ms B = - ms A) as SB by (destruct HA as [[E1|E1] _]; destruct HB as [[E2|E2] _]; rewrite E1, E2 in *; lia).
    (eapply wp_bind; [apply add_abs_ok; try assumption|]); intros R (HR & V & S & L); apply wp_ret.
    rewrite (POS R HR S) in V; destruct (with_s_ok R (ms A) HR (proj1 HA)) as [O ->]; (split; [exact O|]); (split; [unfold mval; rewrite V, SB; ring|]); unfold lens in *; cbn [mp with_s]; (split; [lia | (intros; apply L2; assumption) || apply L]).
Qed.
