(** Algebra of the puncturable encryption: exponents, Lagrange coefficients, shares, recovery of the blinding factor. *)
From Coq Require Import Znumtheory Zdiv Setoid Morphisms.
From Verif Require Import BaseFacts PpkeModel PpkeSpec FermatProofs HmacSpec HmacModel KeyVal.
Local Ltac Zify.zify_post_hook ::= idtac.

(** Congruence, as a relation [rewrite] does not unfold. *)
Inductive cong (n a b : Z) : Prop := Cong : a mod n = b mod n -> cong n a b.
Lemma cong_iff n a b : cong n a b <-> a mod n = b mod n.
Proof. split; [intros []; assumption|apply Cong]. Qed.
Global Instance cong_equiv n : Equivalence (cong n).
Proof.
  split.
  - intros x. apply Cong. reflexivity.
  - intros x y [E]. apply Cong. symmetry. exact E.
  - intros x y z [E] [F]. apply Cong. congruence.
Qed.
Global Instance cong_add n : Proper (cong n ==> cong n ==> cong n) Z.add.
Proof. intros a b [E] c d [F]. apply Cong. rewrite (Zplus_mod a), (Zplus_mod b), E, F. reflexivity. Qed.
Global Instance cong_sub n : Proper (cong n ==> cong n ==> cong n) Z.sub.
Proof. intros a b [E] c d [F]. apply Cong. rewrite (Zminus_mod a), (Zminus_mod b), E, F. reflexivity. Qed.
Global Instance cong_mul n : Proper (cong n ==> cong n ==> cong n) Z.mul.
Proof. intros a b [E] c d [F]. apply Cong. rewrite (Zmult_mod a), (Zmult_mod b), E, F. reflexivity. Qed.
Global Instance cong_opp n : Proper (cong n ==> cong n) Z.opp.
Proof. intros a b E. rewrite <- !Z.sub_0_l. rewrite E. reflexivity. Qed.
Ltac cring := apply Cong; f_equal; ring.

Lemma mod_sub_shift z n : 0 < n -> - n <= z -> (if z <? 0 then z + n else z mod n) = z mod n.
Proof.
  intros Hn Hz. destruct (z <? 0) eqn:E; [|reflexivity]. apply Z.ltb_lt in E.
  rewrite <- (Z.mod_add z 1 n) by lia. rewrite Z.mul_1_l. symmetry. apply Z.mod_small. lia.
Qed.
Lemma zr_sub_mod n x y : 0 < n -> - n <= x - y -> zr_sub n x y = (x - y) mod n.
Proof. intros. apply mod_sub_shift; assumption. Qed.
Lemma zr_mul_mod n x y : 0 < n -> 0 <= x -> 0 <= y -> zr_mul n x y = (x * y) mod n.
Proof. intros. unfold zr_mul. cbv zeta. apply mod_sub_shift; [assumption|]. assert (0 <= x * y) by (apply Z.mul_nonneg_nonneg; assumption). lia. Qed.
Lemma zr_neg_nonneg n x : 0 < n -> 0 <= x <= n -> 0 <= zr_neg n x /\ cong n (zr_neg n x) (- x).
Proof.
  intros Hn Hx. unfold zr_neg. cbv zeta. destruct (- x <? 0) eqn:E.
  - apply Z.ltb_lt in E. split; [lia|]. apply Cong. rewrite <- (Z.mod_add (- x) 1 n) by lia. f_equal. lia.
  - apply Z.ltb_ge in E. split; [lia|reflexivity].
Qed.

Lemma eqm_mod n a : cong n (a mod n) a.
Proof. apply Cong. apply Zmod_mod. Qed.
Lemma eqm_sub0 n a b : 0 < n -> cong n a b <-> (a - b) mod n = 0.
Proof.
  intros Hn. rewrite cong_iff. split; intros E.
  - rewrite Zminus_mod, E, Z.sub_diag. apply Z.mod_0_l. lia.
  - rewrite <- (Z.sub_add b a), Zplus_mod, E, Z.add_0_l. apply Zmod_mod.
Qed.

Section Alg.
  Context (R : relic) (RO : relic_ok R).
  Local Notation n := (order R).
  Local Notation "a == b" := (cong n a b) (at level 70).
  Local Notation e1 := (pow (G1 R) (gen1 R)).
  Local Notation e2 := (pow (G2 R) (gen2 R)).
  Local Notation eT := (pow (GT R) (genT R)).

  Lemma n_pos : 1 < n.
  Proof. destruct (ok_prime R RO). assumption. Qed.

  Lemma pow_eq G g a b : generates G g n -> 0 <= a -> 0 <= b -> a == b -> pow G g a = pow G g b.
  Proof. intros Ge Ha Hb E. rewrite <- (gen_mod G g n Ge a Ha), <- (gen_mod G g n Ge b Hb). f_equal. destruct E; assumption. Qed.

  Lemma cancel a b c : ~ c == 0 -> a * c == b * c -> a == b.
  Proof.
    intros Hc E. pose proof n_pos as Hn. apply Cong. destruct E as [E]. apply cancel_mod with c; [lia| |exact E].
    apply prime_rel_prime; [exact (ok_prime R RO)|]. intros D. apply Hc. apply eqm_sub0; [lia|]. rewrite Z.sub_0_r.
    apply Zdivide_mod. exact D.
  Qed.

  Lemma hash_range b : 0 <= hash_to_zr R b <= n.
  Proof.
    pose proof n_pos as Hn. unfold hash_to_zr. cbv zeta.
    pose proof (be_decode_range _ (ok_sha R RO (1 :: b))) as Hr.
    destruct (n <? be_decode (sha R (1 :: b))) eqn:E.
    - pose proof (Z.mod_pos_bound (be_decode (sha R (1 :: b))) n ltac:(lia)). lia.
    - apply Z.ltb_ge in E. lia.
  Qed.
  Lemma hash_eqm b : hash_to_zr R b == tag_scalar R b.
  Proof.
    unfold hash_to_zr, tag_scalar. cbv zeta. destruct (n <? _); [reflexivity|]. symmetry. apply eqm_mod.
  Qed.

  Lemma zr_inv_ok a : 0 < a < n -> 0 <= zr_inv n (gcd_ext R) a /\ a * zr_inv n (gcd_ext R) a == 1.
  Proof.
    intros Ha. pose proof n_pos as Hn. destruct (ok_gcd_ext R RO a Ha) as [H1 H2]. unfold zr_inv. cbv zeta.
    destruct (gcd_ext R a n <? 0) eqn:E.
    - apply Z.ltb_lt in E. split; [lia|]. apply Cong. rewrite Z.mul_add_distr_l, Z.mod_add by lia. rewrite H2, Z.mod_1_l by lia. reflexivity.
    - apply Z.ltb_ge in E. split; [lia|]. apply Cong. rewrite H2, Z.mod_1_l by lia. reflexivity.
  Qed.

  (** [(x - b) / (a - b)] *)
  Lemma zr_quot x a b : - n <= x - b -> - n <= a - b ->
    (a == b -> zr_div n (gcd_ext R) (zr_sub n x b) (zr_sub n a b) = Throw LogicError) /\
    (~ a == b -> exists w, zr_div n (gcd_ext R) (zr_sub n x b) (zr_sub n a b) = Ok w /\ 0 <= w /\ w * (a - b) == x - b).
  Proof.
    intros Hx Ha. pose proof n_pos as Hn. unfold zr_div.
    rewrite (zr_sub_mod n a b), (zr_sub_mod n x b) by (assumption || lia).
    split; intros E.
    - apply eqm_sub0 in E; [|lia]. rewrite E. reflexivity.
    - destruct ((a - b) mod n =? 0) eqn:E0; [apply Z.eqb_eq in E0; apply eqm_sub0 in E0; [contradiction|lia]|].
      apply Z.eqb_neq in E0. eexists. split; [reflexivity|].
      pose proof (Z.mod_pos_bound (a - b) n ltac:(lia)) as B1. pose proof (Z.mod_pos_bound (x - b) n ltac:(lia)) as B2.
      destruct (zr_inv_ok ((a - b) mod n) ltac:(lia)) as [I1 I2].
      rewrite zr_mul_mod by lia. split; [apply Z.mod_pos_bound; lia|].
      rewrite eqm_mod. rewrite (eqm_mod n (x - b)). rewrite (eqm_mod n (a - b)) in I2 at 1.
      transitivity ((x - b) * ((a - b) * zr_inv n (gcd_ext R) ((a - b) mod n))).
      { cring. }
      rewrite I2, Z.mul_1_r. reflexivity.
  Qed.

  Lemma zr_mul_1 w : 0 <= w -> 0 <= zr_mul n 1 w /\ zr_mul n 1 w == w.
  Proof.
    intros Hw. pose proof n_pos as Hn. rewrite zr_mul_mod by lia. rewrite Z.mul_1_l. split; [apply Z.mod_pos_bound; lia|apply eqm_mod].
  Qed.

  Lemma basis_0 x a b : - n <= x - b -> - n <= a - b ->
    (a == b -> lagrange_basis n (gcd_ext R) 0 x [a; b] = Throw LogicError) /\
    (~ a == b -> exists w, lagrange_basis n (gcd_ext R) 0 x [a; b] = Ok w /\ 0 <= w /\ w * (a - b) == x - b).
  Proof.
    intros Hx Ha. destruct (zr_quot x a b Hx Ha) as [Q1 Q2]. unfold lagrange_basis. cbn [nth_error lagrange_loop Nat.eqb].
    split; intros E.
    - rewrite (Q1 E). reflexivity.
    - destruct (Q2 E) as (w & Ew & Hw & Cw). rewrite Ew. cbn [bind]. eexists. split; [reflexivity|].
      destruct (zr_mul_1 w Hw) as [M1 M2]. split; [exact M1|]. rewrite M2. exact Cw.
  Qed.
  Lemma basis_1 x a b : - n <= x - a -> - n <= b - a ->
    (b == a -> lagrange_basis n (gcd_ext R) 1 x [a; b] = Throw LogicError) /\
    (~ b == a -> exists w, lagrange_basis n (gcd_ext R) 1 x [a; b] = Ok w /\ 0 <= w /\ w * (b - a) == x - a).
  Proof.
    intros Hx Ha. destruct (zr_quot x b a Hx Ha) as [Q1 Q2]. unfold lagrange_basis. cbn [nth_error lagrange_loop Nat.eqb].
    split; intros E.
    - rewrite (Q1 E). reflexivity.
    - destruct (Q2 E) as (w & Ew & Hw & Cw). rewrite Ew. cbn [bind]. eexists. split; [reflexivity|].
      destruct (zr_mul_1 w Hw) as [M1 M2]. split; [exact M1|]. rewrite M2. exact Cw.
  Qed.

  Lemma not_0_1 : ~ 0 == 1.
  Proof. pose proof n_pos as Hn. rewrite cong_iff, Z.mod_0_l, Z.mod_1_l by lia. discriminate. Qed.

  (** vx on the points q(0) = beta, q(1) = ry + beta of the exponent polynomial *)
  Lemma vx_ok G g b0 b1 beta ry tag : generates G g n -> 0 <= b0 -> 0 <= b1 -> b0 == beta -> b1 == ry + beta ->
    exists v, vx R G [pow G g b0; pow G g b1] tag = Ok (pow G g v) /\ 0 <= v /\ v == beta + tag_scalar R tag * ry.
  Proof.
    intros Ge H0 H1 E0 E1. pose proof n_pos as Hn. pose proof (hash_range tag) as Hh. pose proof (hash_eqm tag) as He.
    unfold vx, lagrange_interp. cbn [lagrange_exp].
    destruct (basis_0 (hash_to_zr R tag) 0 1 ltac:(lia) ltac:(lia)) as [_ B0]. destruct (B0 not_0_1) as (w0 & W0 & P0 & C0).
    destruct (basis_1 (hash_to_zr R tag) 0 1 ltac:(lia) ltac:(lia)) as [_ B1].
    destruct (B1 (fun E => not_0_1 (Equivalence_Symmetric _ _ E))) as (w1 & W1 & P1 & C1).
    rewrite W0. cbn [bind]. rewrite W1. cbn [bind].
    assert (N0 : 0 <= b0 * w0) by (apply Z.mul_nonneg_nonneg; lia).
    assert (N1 : 0 <= b1 * w1) by (apply Z.mul_nonneg_nonneg; lia).
    rewrite (gen_unit G g n Ge), !(gen_pow G g n Ge), !(gen_op G g n Ge) by lia.
    eexists. split; [reflexivity|]. split; [lia|].
    assert (D0 : w0 == 1 - tag_scalar R tag).
    { transitivity (- (w0 * (0 - 1))); [cring|]. rewrite C0, He. cring. }
    assert (D1 : w1 == tag_scalar R tag).
    { transitivity (w1 * (1 - 0)); [cring|]. rewrite C1, He. cring. }
    rewrite E0, E1, D0, D1. cring.
  Qed.

  (** A share whose exponents are beta * a, rho * (beta + h * ry), rho *)
  Definition share_rep (beta ry : Z) (s : share R) (a rho : Z) : Prop :=
    exists x1 x2 x3, 0 <= x1 /\ 0 <= x2 /\ 0 <= x3 /\ sk1 R s = e2 x1 /\ sk2 R s = e2 x2 /\ sk3 R s = e2 x3 /\
      x1 == beta * a /\ x2 == rho * (beta + tag_scalar R (sk4 R s) * ry) /\ x3 == rho.
  (** A ciphertext with exponents s, s * (beta + h * ry) *)
  Definition ct_rep (beta ry : Z) (c : partial_ct R) (s : Z) : Prop :=
    exists y2 y3, 0 <= y2 /\ 0 <= y3 /\ ct2 R c = e1 y2 /\ ct3 R c = e1 y3 /\
      y2 == s /\ y3 == s * (beta + tag_scalar R (ct_tag R c) * ry).

  Lemma hash_neq t t' : ~ tag_scalar R t = tag_scalar R t' -> ~ hash_to_zr R t == hash_to_zr R t'.
  Proof.
    intros Hne E. apply Hne. rewrite (hash_eqm t), (hash_eqm t') in E. destruct E as [E]. unfold tag_scalar in *.
    rewrite !Zmod_mod in E. exact E.
  Qed.
  Lemma hash_same t t' : tag_scalar R t = tag_scalar R t' -> hash_to_zr R t == hash_to_zr R t'.
  Proof. intros E. rewrite (hash_eqm t), (hash_eqm t'), E. reflexivity. Qed.

  Lemma recover_one_collision c s : tag_scalar R (ct_tag R c) = tag_scalar R (sk4 R s) -> recover_one R c s = Throw LogicError.
  Proof.
    intros E. pose proof (hash_range (ct_tag R c)) as H1. pose proof (hash_range (sk4 R s)) as H2.
    unfold recover_one. destruct (basis_0 0 (hash_to_zr R (ct_tag R c)) (hash_to_zr R (sk4 R s)) ltac:(lia) ltac:(lia)) as [B _].
    rewrite (B (hash_same _ _ E)). reflexivity.
  Qed.
  Lemma recover_one_total c s : tag_scalar R (ct_tag R c) <> tag_scalar R (sk4 R s) -> exists z, recover_one R c s = Ok z.
  Proof.
    intros E. pose proof (hash_range (ct_tag R c)) as H1. pose proof (hash_range (sk4 R s)) as H2.
    unfold recover_one. destruct (basis_0 0 (hash_to_zr R (ct_tag R c)) (hash_to_zr R (sk4 R s)) ltac:(lia) ltac:(lia)) as [_ B].
    destruct (B (hash_neq _ _ E)) as (w0 & W0 & _). rewrite W0. cbn [bind].
    destruct (basis_1 0 (hash_to_zr R (ct_tag R c)) (hash_to_zr R (sk4 R s)) ltac:(lia) ltac:(lia)) as [_ B'].
    destruct (B' (fun X => hash_neq _ _ E (Equivalence_Symmetric _ _ X))) as (w1 & W1 & _). rewrite W1. cbn [bind].
    eexists. reflexivity.
  Qed.

  Lemma recover_one_ok beta ry c s sk a rho : ct_rep beta ry c s -> share_rep beta ry sk a rho ->
    tag_scalar R (ct_tag R c) <> tag_scalar R (sk4 R sk) ->
    exists z, recover_one R c sk = Ok (eT z) /\ 0 <= z /\ z == s * beta * (a - rho).
  Proof.
    intros (y2 & y3 & Py2 & Py3 & Ey2 & Ey3 & Cy2 & Cy3) (x1 & x2 & x3 & Px1 & Px2 & Px3 & Ex1 & Ex2 & Ex3 & Cx1 & Cx2 & Cx3) Hne.
    pose proof n_pos as Hn. pose proof (hash_range (ct_tag R c)) as H1. pose proof (hash_range (sk4 R sk)) as H2.
    pose proof (hash_eqm (ct_tag R c)) as HA. pose proof (hash_eqm (sk4 R sk)) as HB.
    unfold recover_one.
    destruct (basis_0 0 (hash_to_zr R (ct_tag R c)) (hash_to_zr R (sk4 R sk)) ltac:(lia) ltac:(lia)) as [_ B].
    destruct (B (hash_neq _ _ Hne)) as (w0 & W0 & P0 & C0). rewrite W0. cbn [bind].
    destruct (basis_1 0 (hash_to_zr R (ct_tag R c)) (hash_to_zr R (sk4 R sk)) ltac:(lia) ltac:(lia)) as [_ B'].
    destruct (B' (fun X => hash_neq _ _ Hne (Equivalence_Symmetric _ _ X))) as (w1 & W1 & P1 & C1). rewrite W1. cbn [bind].
    clear B B' W0 W1.
    rewrite Ey2, Ey3, Ex1, Ex2, Ex3.
    pose proof (ok_G1 R RO) as O1. pose proof (ok_GT R RO) as OT.
    assert (N1 : 0 <= y3 * w0) by (apply Z.mul_nonneg_nonneg; lia).
    assert (N2 : 0 <= y2 * w1) by (apply Z.mul_nonneg_nonneg; lia).
    assert (N3 : 0 <= y3 * w0 * x3) by (apply Z.mul_nonneg_nonneg; lia).
    assert (N4 : 0 <= y2 * w1 * x2) by (apply Z.mul_nonneg_nonneg; lia).
    assert (N5 : 0 <= y2 * x1) by (apply Z.mul_nonneg_nonneg; lia).
    rewrite (gen_unit _ _ _ O1), !(gen_pow _ _ _ O1), (gen_op _ _ _ O1), Z.add_0_l by lia.
    rewrite !(ok_pairing R RO), (gen_op _ _ _ OT), (ok_inv R RO) by lia.
    pose proof (Z.mod_pos_bound (- (y3 * w0 * x3 + y2 * w1 * x2)) n ltac:(lia)) as Bm.
    rewrite (gen_op _ _ _ OT) by lia.
    eexists. split; [reflexivity|]. split; [lia|].
    rewrite eqm_mod. rewrite Cy2, Cy3, Cx1, Cx2, Cx3.
    rewrite HA, HB in C0, C1.
    assert (Hab : ~ tag_scalar R (ct_tag R c) - tag_scalar R (sk4 R sk) == 0).
    { intros X. apply Hne. apply eqm_sub0 in X; [|lia]. rewrite Z.sub_0_r in X. apply eqm_sub0 in X; [|lia].
      destruct X as [X]; unfold tag_scalar in X. rewrite !Zmod_mod in X. exact X. }
    set (p := tag_scalar R (ct_tag R c)) in *. set (q := tag_scalar R (sk4 R sk)) in *.
    assert (K : w0 * (beta + p * ry) + w1 * (beta + q * ry) == beta).
    { apply (cancel _ _ _ Hab).
      transitivity ((w0 * (p - q)) * (beta + p * ry) - (w1 * (q - p)) * (beta + q * ry)); [cring|].
      rewrite C0, C1. cring. }
    transitivity (s * beta * a - s * rho * (w0 * (beta + p * ry) + w1 * (beta + q * ry))); [cring|].
    rewrite K. cring.
  Qed.

  (** The shares of a key, with the sum of their a - rho *)
  Inductive shares_sum (beta ry : Z) : list (share R) -> Z -> Prop :=
  | ss_nil d : d == 0 -> shares_sum beta ry [] d
  | ss_cons s ss a rho d d' : share_rep beta ry s a rho -> shares_sum beta ry ss d -> d' == a - rho + d ->
      shares_sum beta ry (s :: ss) d'.

  Lemma recover_all_ok beta ry c s sk d : ct_rep beta ry c s -> shares_sum beta ry sk d ->
    (forall x, In x sk -> tag_scalar R (ct_tag R c) <> tag_scalar R (sk4 R x)) ->
    forall acc, 0 <= acc ->
    exists zs, recover_all R c sk = Ok zs /\
    exists z, fold_left (op (GT R)) zs (eT acc) = eT z /\ 0 <= z /\ z == acc + s * beta * d.
  Proof.
    intros Hc Hs. pose proof (ok_GT R RO) as OT. induction Hs as [d Hd|x ss a rho d d' Hr Hs IH Hd]; intros Hne acc Ha.
    - exists []. split; [reflexivity|]. exists acc. split; [reflexivity|]. split; [exact Ha|]. rewrite Hd. cring.
    - destruct (recover_one_ok beta ry c s x a rho Hc Hr (Hne x (or_introl eq_refl))) as (z0 & E0 & Pz & Cz).
      destruct (IH (fun y Hy => Hne y (or_intror Hy)) (acc + z0) ltac:(lia)) as (zs & Ez & z & Ef & P & C).
      exists (eT z0 :: zs). split. { cbn [recover_all]. rewrite E0. cbn [bind]. rewrite Ez. reflexivity. }
      exists z. split. { cbn [fold_left]. rewrite (gen_op _ _ _ OT) by lia. exact Ef. }
      split; [exact P|]. rewrite C, Cz, Hd. cring.
  Qed.

  Lemma recover_blind_ok beta ry c s sk d : ct_rep beta ry c s -> shares_sum beta ry sk d -> zlen sk < 2 ^ 32 ->
    (forall x, In x sk -> tag_scalar R (ct_tag R c) <> tag_scalar R (sk4 R x)) ->
    forall e, 0 <= e -> e == s * beta * d -> recover_blind R sk c = Ok (eT e).
  Proof.
    intros Hc Hs Hl Hne e Pe He. destruct (recover_all_ok beta ry c s sk d Hc Hs Hne 0 ltac:(lia)) as (zs & Ez & z & Ef & P & C).
    unfold recover_blind. cbv zeta. assert (u32 (zlen sk) = zlen sk) as -> by (apply Z.mod_small; pose proof (zlen_nonneg sk); lia).
    unfold zlen. rewrite Nat2Z.id, firstn_all, Ez. cbn [bind]. f_equal. rewrite (gen_unit _ _ _ (ok_GT R RO)), Ef.
    apply pow_eq; [exact (ok_GT R RO)|exact P|exact Pe|]. rewrite C, He. reflexivity.
  Qed.

  (** Totality of the recovery, and the collision case, without any assumption on the shares *)
  Lemma recover_all_total c sk : (forall x, In x sk -> tag_scalar R (ct_tag R c) <> tag_scalar R (sk4 R x)) ->
    exists zs, recover_all R c sk = Ok zs.
  Proof.
    induction sk as [|x sk IH]; intros Hne; [exists []; reflexivity|].
    destruct (recover_one_total c x (Hne x (or_introl eq_refl))) as [z Ez].
    destruct (IH (fun y Hy => Hne y (or_intror Hy))) as [zs Es]. cbn [recover_all]. rewrite Ez. cbn [bind]. rewrite Es.
    eexists; reflexivity.
  Qed.
  Lemma recover_all_collision c sk : (exists x, In x sk /\ tag_scalar R (ct_tag R c) = tag_scalar R (sk4 R x)) ->
    recover_all R c sk = Throw LogicError.
  Proof.
    induction sk as [|x sk IH]; intros (y & Hy & E); [destruct Hy|]. cbn [recover_all].
    destruct (Z.eq_dec (tag_scalar R (ct_tag R c)) (tag_scalar R (sk4 R x))) as [Ex|Ex].
    - rewrite (recover_one_collision c x Ex). reflexivity.
    - destruct (recover_one_total c x Ex) as [z Ez]. rewrite Ez. cbn [bind]. destruct Hy as [->|Hy]; [contradiction|].
      rewrite IH by (exists y; split; assumption). reflexivity.
  Qed.
End Alg.
