(** LagrangeInterpInExponent interpolates any number of points. *)
From Coq Require Import Lia Znumtheory Morphisms Setoid.
From Verif Require Import Base BaseFacts PpkeModel PpkeSpec PpkeProofs RelicSpec.

(** Division by a linear factor *)
Lemma synth q r : exists q', length q' = pred (length q) /\ forall x, poly q x = poly q r + (x - r) * poly q' x.
Proof.
  induction q as [|c q IH]; [exists []; split; [reflexivity|]; intros; cbn [poly]; ring|].
  destruct IH as [q' [L E]]. destruct q as [|d q1].
  - exists []. split; [reflexivity|]. intros x. cbn [poly]. ring.
  - exists (poly (d :: q1) r :: q'). split; [cbn [length] in *; lia|]. intros x. cbn [poly] in *. rewrite (E x). ring.
Qed.
Lemma root_bound p xs q : prime p -> NoDup xs -> Forall (fun x => 0 <= x < p) xs -> (length q <= length xs)%nat ->
  Forall (fun x => (p | poly q x)) xs -> forall x, (p | poly q x).
Proof.
  intros P. revert q. induction xs as [|r xs IH]; intros q ND M L Z0 x.
  - destruct q; [exists 0; reflexivity|cbn [length] in L; lia].
  - inversion ND as [|? ? Nin ND']; subst. inversion M as [|? ? Hr M']; subst. inversion Z0 as [|? ? Zr Z0']; subst.
    destruct (synth q r) as [q' [L' E]]. rewrite E. apply Z.divide_add_r; [exact Zr|]. apply Z.divide_mul_r.
    apply IH; [exact ND'|exact M'|rewrite L'; cbn [length] in L; lia|].
    rewrite Forall_forall in *. intros y Hy. specialize (Z0' y Hy). rewrite E in Z0'.
    assert (D : (p | (y - r) * poly q' y)).
    { replace ((y - r) * poly q' y) with (poly q r + (y - r) * poly q' y - poly q r) by ring. apply Z.divide_sub_r; assumption. }
    apply prime_mult in D; [|exact P]. destruct D as [[k K]|D]; [|exact D]. exfalso. specialize (M' y Hy).
    assert (k = 0) by nia. subst k. assert (y = r) by lia. subst y. contradiction.
Qed.

Fixpoint padd (a b : list Z) : list Z := match a, b with x :: a', y :: b' => x + y :: padd a' b' | _, _ => [] end.
Lemma padd_ok a b : length a = length b -> length (padd a b) = length a /\ forall x, poly (padd a b) x = poly a x + poly b x.
Proof.
  revert b. induction a as [|c a IH]; intros [|d b] L; try discriminate; [split; [reflexivity|]; intros; reflexivity|].
  cbn [length] in L. destruct (IH b ltac:(lia)) as [IL IE]. cbn [padd length poly]. split; [lia|]. intros x. rewrite IE. ring.
Qed.
Lemma scale_ok k a x : poly (map (Z.mul k) a) x = k * poly a x.
Proof. induction a as [|c a IH]; cbn [map poly]; [ring|]. rewrite IH. ring. Qed.

(** Products of linear factors *)
Fixpoint lin (l : list Z) (x : Z) : Z := match l with [] => 1 | a :: l' => (x - a) * lin l' x end.
Lemma mul_linear q a : exists q', length q' = S (length q) /\ forall x, poly q' x = (x - a) * poly q x.
Proof.
  destruct (padd_ok (0 :: q) (map (Z.mul (- a)) (q ++ [0]))) as [L E].
  { cbn [length]. rewrite map_length, app_length. cbn [length]. lia. }
  eexists. split; [exact L|]. intros x. rewrite E, scale_ok. cbn [poly].
  assert (A : poly (q ++ [0]) x = poly q x).
  { clear. induction q as [|c q IH]; cbn [app poly]; [ring|]. rewrite IH. reflexivity. }
  rewrite A. ring.
Qed.
Lemma lin_poly l : exists q, length q = S (length l) /\ forall x, poly q x = lin l x.
Proof.
  induction l as [|a l [q [L E]]]; [exists [1]; split; [reflexivity|]; intros; cbn [poly lin]; ring|].
  destruct (mul_linear q a) as [q' [L' E']]. exists q'. split; [cbn [length]; lia|]. intros x. rewrite E', E. reflexivity.
Qed.
Lemma lin_root l x : In x l -> lin l x = 0.
Proof. induction l as [|a l IH]; intros H; [destruct H|]. cbn [lin]. destruct H as [->|H]; [ring|]. rewrite (IH H). ring. Qed.

Lemma remove_length {A} k (l : list A) : (k < length l)%nat -> S (length (remove_nth k l)) = length l.
Proof. revert k. induction l as [|a l IH]; intros [|k] H; cbn [length remove_nth] in *; try lia. rewrite IH by lia. lia. Qed.
Lemma remove_in (l : list Z) k j d : (k < length l)%nat -> k <> j -> In (nth k l d) (remove_nth j l).
Proof.
  revert k j. induction l as [|a l IH]; intros k j Hk N; [cbn [length] in Hk; lia|]. destruct j as [|j].
  - destruct k as [|k]; [contradiction|]. cbn [nth remove_nth]. apply nth_In. cbn [length] in Hk. lia.
  - destruct k as [|k]; cbn [nth remove_nth]; [left; reflexivity|]. right. apply IH; [cbn [length] in Hk; lia|lia].
Qed.
Lemma remove_notin (l : list Z) j d : NoDup l -> (j < length l)%nat -> ~ In (nth j l d) (remove_nth j l).
Proof.
  revert j. induction l as [|a l IH]; intros [|j] ND H; cbn [length] in H; try lia; inversion ND as [|? ? Nin ND']; subst; cbn [nth remove_nth].
  - exact Nin.
  - intros [E|E]; [apply Nin; rewrite E; apply nth_In; lia|]. apply (IH j ND' ltac:(lia)). exact E.
Qed.
Lemma remove_incl {A} (l : list A) j x : In x (remove_nth j l) -> In x l.
Proof.
  revert j. induction l as [|a l IH]; intros [|j] H; cbn [remove_nth] in H; try destruct H as [->|H]; cbn [In]; auto.
  right. eapply IH. exact H.
Qed.

(** Sums *)
Fixpoint lsum (f : nat -> Z) (j k : nat) : Z := match k with O => 0 | S k' => f j + lsum f (S j) k' end.
Lemma lsum_cong n f g j k : (forall i, (j <= i < j + k)%nat -> cong n (f i) (g i)) -> cong n (lsum f j k) (lsum g j k).
Proof.
  revert j. induction k as [|k IH]; intros j H; cbn [lsum]; [reflexivity|]. rewrite (H j) by lia. rewrite IH; [reflexivity|]. intros i Hi. apply H. lia.
Qed.
Lemma lsum_zero n f j k : (forall i, (j <= i < j + k)%nat -> cong n (f i) 0) -> cong n (lsum f j k) 0.
Proof.
  intros H. rewrite (lsum_cong n f (fun _ => 0) j k H). clear H. revert j. induction k as [|k IH]; intros j; cbn [lsum]; [reflexivity|]. rewrite IH. reflexivity.
Qed.
Lemma lsum_single n f j k m : (j <= m < j + k)%nat -> (forall i, (j <= i < j + k)%nat -> i <> m -> cong n (f i) 0) -> cong n (lsum f j k) (f m).
Proof.
  revert j. induction k as [|k IH]; intros j Hm H; [lia|]. cbn [lsum]. destruct (Nat.eq_dec j m) as [->|N].
  - rewrite lsum_zero; [rewrite Z.add_0_r; reflexivity|]. intros i Hi. apply H; lia.
  - rewrite (H j) by lia. rewrite IH; [reflexivity|lia|]. intros i Hi Ni. apply H; lia.
Qed.

Section Interp.
  Context (R : relic) (RO : relic_ok R).
  Local Notation n := (order R).
  Local Notation "a == b" := (cong n a b) (at level 70).
  Local Notation basis := (lagrange_basis n (gcd_ext R)).

  (** The basis polynomials *)
  Definition skip (j m : nat) (xs : list Z) : list Z := if Nat.leb m j then remove_nth (j - m) xs else xs.
  Lemma loop_ok x xj j m xs prod :
    0 <= x <= n -> 0 <= xj < n -> Forall (fun a => 0 <= a < n) xs -> Forall (fun a => ~ xj == a) (skip j m xs) -> 0 <= prod ->
    exists c, lagrange_loop n (gcd_ext R) x xj j m xs prod = Ok c /\ 0 <= c /\
      c * lin (skip j m xs) xj == prod * lin (skip j m xs) x.
  Proof.
    intros Hx Hj. pose proof (n_pos R RO) as Hn. revert m prod. induction xs as [|a xs IH]; intros m prod M D Hp.
    - exists prod. split; [reflexivity|]. split; [exact Hp|]. unfold skip. destruct (Nat.leb m j); [destruct (j - m)%nat|]; cbn [remove_nth lin]; reflexivity.
    - inversion M as [|? ? Ha M']; subst. cbn [lagrange_loop]. destruct (Nat.eqb j m) eqn:E.
      + apply Nat.eqb_eq in E. subst m.
        assert (Sk : skip j j (a :: xs) = skip j (S j) xs).
        { unfold skip. rewrite Nat.leb_refl, Nat.sub_diag. destruct (Nat.leb (S j) j) eqn:E2; [apply Nat.leb_le in E2; lia|]. reflexivity. }
        rewrite Sk in *. apply IH; assumption.
      + apply Nat.eqb_neq in E.
        assert (Sk : skip j m (a :: xs) = a :: skip j (S m) xs).
        { unfold skip. destruct (Nat.leb m j) eqn:E1.
          - apply Nat.leb_le in E1. destruct (Nat.leb (S m) j) eqn:E2; [|apply Nat.leb_gt in E2; lia].
            replace (j - m)%nat with (S (j - S m)) by (apply Nat.leb_le in E2; lia). reflexivity.
          - apply Nat.leb_gt in E1. destruct (Nat.leb (S m) j) eqn:E2; [apply Nat.leb_le in E2; lia|]. reflexivity. }
        rewrite Sk in *. inversion D as [|? ? Da D']; subst.
        destruct (zr_quot R RO x xj a) as [_ Q]; [lia|lia|]. destruct (Q Da) as [w [-> [Hw W]]]. cbn [bind].
        assert (Hm : 0 <= zr_mul n prod w /\ zr_mul n prod w == prod * w).
        { rewrite zr_mul_mod by lia. split; [apply Z.mod_pos_bound; lia|apply eqm_mod]. }
        destruct Hm as [Hm1 Hm2]. destruct (IH (S m) (zr_mul n prod w) M' D' Hm1) as [c [-> [Hc C]]].
        exists c. split; [reflexivity|]. split; [exact Hc|]. cbn [lin].
        transitivity ((xj - a) * (c * lin (skip j (S m) xs) xj)); [cring|]. rewrite C, Hm2.
        transitivity (prod * (w * (xj - a)) * lin (skip j (S m) xs) x); [cring|]. rewrite W. cring.
  Qed.
  Lemma distinct_mod xs j : NoDup xs -> Forall (fun a => 0 <= a < n) xs -> (j < length xs)%nat ->
    Forall (fun a => ~ nth j xs 0 == a) (remove_nth j xs).
  Proof.
    intros ND M Hj. rewrite Forall_forall in *. intros a Ha [E]. pose proof (M a (remove_incl _ _ _ Ha)) as Ra.
    pose proof (M (nth j xs 0) (nth_In _ _ Hj)) as Rj. rewrite !Z.mod_small in E by assumption. subst a.
    exact (remove_notin xs j 0 ND Hj Ha).
  Qed.
  Lemma basis_ok xs j x : NoDup xs -> Forall (fun a => 0 <= a < n) xs -> (j < length xs)%nat -> 0 <= x <= n ->
    exists c, basis j x xs = Ok c /\ 0 <= c /\ c * lin (remove_nth j xs) (nth j xs 0) == lin (remove_nth j xs) x.
  Proof.
    intros ND M Hj Hx. unfold lagrange_basis. rewrite (nth_error_nth' xs 0 Hj).
    assert (Sk : skip j 0 xs = remove_nth j xs) by (unfold skip; cbn [Nat.leb]; rewrite Nat.sub_0_r; reflexivity).
    destruct (loop_ok x (nth j xs 0) j 0 xs 1) as [c [E [Hc C]]]; try assumption; try lia.
    - rewrite Forall_forall in M. apply M. apply nth_In. exact Hj.
    - rewrite Sk. apply distinct_mod; assumption.
    - exists c. rewrite Sk, Z.mul_1_l in C. auto.
  Qed.

  (** The products in the denominators are not zero. *)
  Lemma lin_nz l x : Forall (fun a => ~ x == a) l -> ~ lin l x == 0.
  Proof.
    pose proof (n_pos R RO) as Hn.
    induction 1 as [|a l Ha _ IH]; cbn [lin]; intros E.
    - destruct E as [E]. rewrite Z.mod_1_l, Z.mod_0_l in E by lia. discriminate.
    - apply eqm_sub0 in E; [|lia]. rewrite Z.sub_0_r in E. apply Zmod_divide in E; [|lia].
      apply prime_mult in E; [|exact (ok_prime R RO)]. destruct E as [E|E].
      + apply Ha. apply eqm_sub0; [lia|]. apply Zdivide_mod. exact E.
      + apply IH. apply eqm_sub0; [lia|]. rewrite Z.sub_0_r. apply Zdivide_mod. exact E.
  Qed.
  Lemma unit_inv w : ~ w == 0 -> exists i, w * i == 1.
  Proof.
    intros Hw. pose proof (n_pos R RO) as Hn. exists (zr_inv n (gcd_ext R) (w mod n)).
    pose proof (Z.mod_pos_bound w n ltac:(lia)) as B.
    assert (w mod n <> 0).
    { intros E. apply Hw. apply Cong. rewrite E, Z.mod_0_l by lia. reflexivity. }
    destruct (zr_inv_ok R RO (w mod n) ltac:(lia)) as [_ I]. rewrite <- I. rewrite eqm_mod at 2. reflexivity.
  Qed.

  (** Sums of multiples of the products are polynomials. *)
  Lemma sum_poly xs k j f : (j + k <= length xs)%nat ->
    exists q, length q = length xs /\ forall x, poly q x = lsum (fun i => f i * lin (remove_nth i xs) x) j k.
  Proof.
    revert j. induction k as [|k IH]; intros j H.
    - exists (repeat 0 (length xs)). split; [apply repeat_length|]. intros x. cbn [lsum]. generalize (length xs). intros N0. induction N0 as [|m IHm]; cbn [repeat poly]; [reflexivity|]. rewrite IHm. ring.
    - destruct (IH (S j) ltac:(lia)) as [q [L E]]. destruct (lin_poly (remove_nth j xs)) as [q1 [L1 E1]].
      destruct (padd_ok (map (Z.mul (f j)) q1) q) as [L2 E2]; [rewrite map_length, L1, remove_length by lia; lia|].
      eexists. split; [rewrite L2, map_length, L1; apply remove_length; lia|]. intros x. rewrite E2, scale_ok, E1, E. reflexivity.
  Qed.

  Lemma choose_inv k (w : nat -> Z) : (forall i, (i < k)%nat -> ~ w i == 0) -> exists iv : nat -> Z, forall i, (i < k)%nat -> w i * iv i == 1.
  Proof.
    induction k as [|k IH]; intros H; [exists (fun _ => 0); intros; lia|]. destruct IH as [iv I]; [intros; apply H; lia|].
    destruct (unit_inv (w k) (H k ltac:(lia))) as [v V]. exists (fun i => if Nat.eqb i k then v else iv i). intros i Hi.
    destruct (Nat.eqb i k) eqn:E; [apply Nat.eqb_eq in E; subst; exact V|]. apply Nat.eqb_neq in E. apply I. lia.
  Qed.

  Lemma interp_sum xs q x c : NoDup xs -> Forall (fun a => 0 <= a < n) xs -> (length q <= length xs)%nat ->
    (forall j, (j < length xs)%nat -> c j * lin (remove_nth j xs) (nth j xs 0) == lin (remove_nth j xs) x) ->
    lsum (fun j => poly q (nth j xs 0) * c j) 0 (length xs) == poly q x.
  Proof.
    intros ND M L C. pose proof (n_pos R RO) as Hn. set (N := length xs) in *.
    destruct (choose_inv N (fun j => lin (remove_nth j xs) (nth j xs 0))) as [iv I].
    { intros j Hj. apply lin_nz. apply distinct_mod; assumption. }
    cbv beta in I.
    assert (S1 : lsum (fun j => poly q (nth j xs 0) * c j) 0 N == lsum (fun j => poly q (nth j xs 0) * iv j * lin (remove_nth j xs) x) 0 N).
    { apply lsum_cong. intros j Hj. rewrite <- (C j) by lia.
      transitivity (poly q (nth j xs 0) * c j * (lin (remove_nth j xs) (nth j xs 0) * iv j)); [rewrite I by lia; cring|cring]. }
    rewrite S1.
    destruct (sum_poly xs N 0 (fun j => poly q (nth j xs 0) * iv j) ltac:(unfold N; lia)) as [P1 [L1 E1]].
    (* pad [q] to the length of [xs] *)
    destruct (padd_ok P1 (map (Z.mul (-1)) (q ++ repeat 0 (N - length q)))) as [L2 E2].
    { rewrite map_length, app_length, repeat_length, L1. fold N. lia. }
    set (D := padd P1 (map (Z.mul (-1)) (q ++ repeat 0 (N - length q)))) in *.
    assert (Pad : forall m y, poly (q ++ repeat 0 m) y = poly q y).
    { intros m y. clear. induction q as [|a q IH]; cbn [app poly]; [|rewrite IH; reflexivity].
      induction m as [|m IHm]; cbn [repeat poly]; [reflexivity|]. rewrite IHm. ring. }
    assert (ED : forall y, poly D y = lsum (fun j => poly q (nth j xs 0) * iv j * lin (remove_nth j xs) y) 0 N - poly q y).
    { intros y. rewrite E2, scale_ok, Pad, E1. ring. }
    assert (Z0 : forall y, (n | poly D y)).
    { apply root_bound with xs; [exact (ok_prime R RO)|exact ND|exact M|rewrite L2, L1; fold N; lia|].
      rewrite Forall_forall. intros y Hy. destruct (In_nth xs y 0 Hy) as [k [Hk <-]].
      apply Zmod_divide; [lia|]. rewrite ED. apply eqm_sub0; [lia|].
      rewrite (lsum_single n _ 0 N k ltac:(fold N in Hk; lia)).
      - transitivity (poly q (nth k xs 0) * (lin (remove_nth k xs) (nth k xs 0) * iv k)); [cring|]. rewrite I by exact Hk. cring.
      - intros i Hi Ni. rewrite (lin_root (remove_nth i xs)) by (apply remove_in; [exact Hk|auto]). cring. }
    apply eqm_sub0; [lia|]. rewrite <- ED. apply Zdivide_mod. apply Z0.
  Qed.

  Lemma exp_sum G g x xs f c : generates G g n ->
    (forall j, (j < length xs)%nat -> basis j x xs = Ok (c j) /\ 0 <= c j) -> (forall j, 0 <= f j) ->
    forall k j a, (j + k <= length xs)%nat -> 0 <= a ->
    lagrange_exp n (gcd_ext R) G x xs j (map (fun i => pow G g (f i)) (seq j k)) (pow G g a) = Ok (pow G g (a + lsum (fun i => f i * c i) j k)).
  Proof.
    intros Ge B Hf. induction k as [|k IH]; intros j a Hk Ha; cbn [seq map lagrange_exp lsum]; [rewrite Z.add_0_r; reflexivity|].
    destruct (B j ltac:(lia)) as [-> Hc]. cbn [bind]. rewrite (gen_pow _ _ _ Ge), (gen_op _ _ _ Ge) by (try apply Z.mul_nonneg_nonneg; auto).
    pose proof (Z.mul_nonneg_nonneg _ _ (Hf j) Hc). rewrite IH by lia. f_equal. f_equal. lia.
  Qed.

  Lemma lsum_nonneg f j k : (forall i, 0 <= f i) -> 0 <= lsum f j k.
  Proof. intros H. revert j. induction k as [|k IH]; intros j; cbn [lsum]; [lia|]. specialize (H j). specialize (IH (S j)). lia. Qed.
  Lemma poly_nonneg q x : Forall (fun c => 0 <= c) q -> 0 <= x -> 0 <= poly q x.
  Proof. intros F Hx. induction F as [|c q Hc _ IH]; cbn [poly]; [lia|]. nia. Qed.

  Lemma map_nth_seq {A} (F : Z -> A) xs : map F xs = map (fun i => F (nth i xs 0)) (seq 0 (length xs)).
  Proof.
    induction xs as [|a xs IH]; [reflexivity|]. cbn [length seq map nth]. f_equal. rewrite IH, <- seq_shift, map_map. reflexivity.
  Qed.

  Lemma interp_ok G g x xs q : generates G g n -> NoDup xs -> Forall (fun a => 0 <= a < n) xs -> 0 <= x <= n ->
    Forall (fun a => 0 <= a) q -> (length q <= length xs)%nat ->
    lagrange_interp n (gcd_ext R) G x xs (map (fun a => pow G g (poly q a)) xs) = Ok (pow G g (poly q x)).
  Proof.
    intros Ge ND M Hx Q L. unfold lagrange_interp.
    set (c := fun j => match basis j x xs with Ok v => Z.max 0 v | _ => 0 end).
    assert (B : forall j, (j < length xs)%nat -> basis j x xs = Ok (c j) /\ 0 <= c j).
    { intros j Hj. destruct (basis_ok xs j x ND M Hj Hx) as [v [E [Hv _]]]. unfold c. rewrite E. split; [f_equal; lia|lia]. }
    assert (C : forall j, (j < length xs)%nat -> c j * lin (remove_nth j xs) (nth j xs 0) == lin (remove_nth j xs) x).
    { intros j Hj. destruct (basis_ok xs j x ND M Hj Hx) as [v [E [Hv V]]]. unfold c. rewrite E, Z.max_r by exact Hv. exact V. }
    assert (Hc : forall j, 0 <= c j) by (intros j; unfold c; destruct (basis j x xs); lia).
    assert (Np : forall j, 0 <= poly q (nth j xs 0)).
    { intros j. apply poly_nonneg; [exact Q|]. destruct (Nat.lt_ge_cases j (length xs)) as [Hj|Hj].
      - rewrite Forall_forall in M. apply (M (nth j xs 0)). apply nth_In. exact Hj.
      - rewrite nth_overflow by exact Hj. lia. }
    rewrite map_nth_seq, (gen_unit _ _ _ Ge).
    rewrite (exp_sum G g x xs (fun j => poly q (nth j xs 0)) c Ge B) by (auto; lia). f_equal. rewrite Z.add_0_l.
    apply (pow_eq R); [exact Ge| | |].
    - apply lsum_nonneg. intros i. apply Z.mul_nonneg_nonneg; auto.
    - apply poly_nonneg; [exact Q|lia].
    - apply interp_sum; assumption.
  Qed.

  (** Two equal points *)
  Lemma loop_equal x xj j m xs prod : 0 <= x <= n -> 0 <= xj < n -> Forall (fun a => 0 <= a < n) xs -> 0 <= prod -> In xj (skip j m xs) ->
    lagrange_loop n (gcd_ext R) x xj j m xs prod = Throw LogicError.
  Proof.
    intros Hx Hj. pose proof (n_pos R RO) as Hn. revert m prod. induction xs as [|a xs IH]; intros m prod M Hp D.
    - unfold skip in D. destruct (Nat.leb m j); [destruct (j - m)%nat|]; destruct D.
    - inversion M as [|? ? Ha M']; subst. cbn [lagrange_loop]. destruct (Nat.eqb j m) eqn:E.
      + apply Nat.eqb_eq in E. subst m.
        assert (Sk : skip j j (a :: xs) = skip j (S j) xs).
        { unfold skip. rewrite Nat.leb_refl, Nat.sub_diag. destruct (Nat.leb (S j) j) eqn:E2; [apply Nat.leb_le in E2; lia|]. reflexivity. }
        rewrite Sk in *. apply IH; assumption.
      + apply Nat.eqb_neq in E.
        assert (Sk : skip j m (a :: xs) = a :: skip j (S m) xs).
        { unfold skip. destruct (Nat.leb m j) eqn:E1.
          - apply Nat.leb_le in E1. destruct (Nat.leb (S m) j) eqn:E2; [|apply Nat.leb_gt in E2; lia].
            replace (j - m)%nat with (S (j - S m)) by (apply Nat.leb_le in E2; lia). reflexivity.
          - apply Nat.leb_gt in E1. destruct (Nat.leb (S m) j) eqn:E2; [apply Nat.leb_le in E2; lia|]. reflexivity. }
        rewrite Sk in *. destruct (zr_quot R RO x xj a) as [Q1 Q2]; [lia|lia|].
        destruct (Z.eq_dec xj a) as [->|N]; [rewrite Q1 by reflexivity; reflexivity|].
        destruct D as [->|D]; [contradiction|].
        destruct Q2 as [w [-> [Hw W]]]; [intros [E1]; rewrite !Z.mod_small in E1 by assumption; contradiction|]. cbn [bind].
        apply IH; [exact M'| |exact D]. rewrite zr_mul_mod by lia. apply Z.mod_pos_bound. lia.
  Qed.

  Lemma dup_exists (xs : list Z) : ~ NoDup xs -> exists i, (i < length xs)%nat /\ In (nth i xs 0) (remove_nth i xs).
  Proof.
    induction xs as [|a l IH]; intros H; [exfalso; apply H; constructor|]. destruct (in_dec Z.eq_dec a l) as [I|I].
    - exists 0%nat. cbn [length nth remove_nth]. split; [lia|exact I].
    - destruct IH as [i [Hi E]]; [intros ND; apply H; constructor; assumption|]. exists (S i). cbn [length nth remove_nth]. split; [lia|right; exact E].
  Qed.
  Lemma skip0 j xs : skip j 0 xs = remove_nth j xs.
  Proof. unfold skip. cbn [Nat.leb]. rewrite Nat.sub_0_r. reflexivity. Qed.
  Lemma basis_cases xs j x : Forall (fun a => 0 <= a < n) xs -> (j < length xs)%nat -> 0 <= x <= n ->
    (In (nth j xs 0) (remove_nth j xs) -> basis j x xs = Throw LogicError) /\
    ((exists c, basis j x xs = Ok c) \/ basis j x xs = Throw LogicError).
  Proof.
    intros M Hj Hx. pose proof M as M0. rewrite Forall_forall in M0. pose proof (M0 (nth j xs 0) (nth_In _ _ Hj)) as Rj.
    unfold lagrange_basis. rewrite (nth_error_nth' xs 0 Hj).
    destruct (in_dec Z.eq_dec (nth j xs 0) (remove_nth j xs)) as [I|I].
    - assert (E := loop_equal x (nth j xs 0) j 0 xs 1 Hx Rj M ltac:(lia) ltac:(rewrite skip0; exact I)). auto.
    - split; [contradiction|]. left. destruct (loop_ok x (nth j xs 0) j 0 xs 1) as [c [E _]]; try assumption; try lia; [|eauto].
      rewrite skip0, Forall_forall. intros a Ha [E]. rewrite !Z.mod_small in E by (exact Rj || apply M0; eapply remove_incl; exact Ha).
      subst a. contradiction.
  Qed.
  Lemma interp_equal G x xs ys : Forall (fun a => 0 <= a < n) xs -> ~ NoDup xs -> length ys = length xs -> 0 <= x <= n ->
    lagrange_interp n (gcd_ext R) G x xs ys = Throw LogicError.
  Proof.
    intros M ND L Hx. destruct (dup_exists xs ND) as [i [Hi D]]. unfold lagrange_interp. generalize (gunit G).
    assert (Gen : forall ys j, (j + length ys = length xs)%nat -> (j <= i)%nat -> forall p, lagrange_exp n (gcd_ext R) G x xs j ys p = Throw LogicError).
    { clear ys L. induction ys as [|y ys IH]; intros j L Hj p; cbn [length] in L; [lia|]. cbn [lagrange_exp].
      destruct (basis_cases xs j x M ltac:(lia) Hx) as [B1 B2]. destruct (Nat.eq_dec j i) as [->|N]; [rewrite (B1 D); reflexivity|].
      destruct B2 as [[c ->]| ->]; cbn [bind]; [|reflexivity]. apply IH; lia. }
    intros p. apply Gen; lia.
  Qed.
End Interp.
