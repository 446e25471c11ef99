(** The private operation on limbs *)
From Coq Require Import Lia Znumtheory.
From Verif Require Import Base BaseFacts MpiModel MpiProofs LimbModel LimbModel2 LimbSpec LimbSpec2 LimbProofs LimbProofs2 LimbProofs3 LimbProofs4 LimbProofs5 LimbProofs6 LimbProofs9 LimbProofs11 LimbProofs12 LimbProofs13 LimbProofs14 LimbProofs16 LimbProofs19 LimbProofs20 RsaKeyModel TdpKeyModel TdpModel TdpProofs LimbRsaModel LimbRsaSpec.

Definition cwp {A} (m : cm A) x n (Q : Z + A -> rsa_ctx -> nat -> Prop) : Prop := exists r x' n', m x n = Ok (r, x', n') /\ Q r x' n'.
Lemma cwp_bind {A B} (m : cm A) (k : A -> cm B) x n P (Q : Z + B -> rsa_ctx -> nat -> Prop) : cwp m x n P -> (forall e x n, P (inl e) x n -> Q (inl e) x n) -> (forall a x n, P (inr a) x n -> cwp (k a) x n Q) -> cwp (cm_bind m k) x n Q.
Proof. intros (r & x' & n' & E & H) K1 K2. unfold cwp, cm_bind. rewrite E. cbn [bind]. destruct r as [e|a]; [exists (inl e), x', n'; split; [reflexivity | now apply K1] | now apply K2]. Qed.
Lemma cwp_lift {A B} (r : res A) (k : A -> cm B) x n (P : A -> Prop) (Q : Z + B -> rsa_ctx -> nat -> Prop) : wp r P -> (forall a, P a -> cwp (k a) x n Q) -> cwp (cm_bind (cm_lift r) k) x n Q.
Proof. intros (a & E & H) K. unfold cwp, cm_bind, cm_lift. rewrite E. cbn [bind ret]. now apply K. Qed.
Lemma cwp_lifte {A B} e (r : res A) (k : A -> cm B) x n (Q : Z + B -> rsa_ctx -> nat -> Prop) : r = err e -> Q (inl e) x n -> cwp (cm_bind (cm_lift r) k) x n Q.
Proof. intros -> K. unfold cwp, cm_bind, cm_lift. cbn [bind err]. eexists; eexists; eexists; split; [reflexivity | exact K]. Qed.
Lemma cwp_lifto {A B} (r : outcome A) (k : A -> cm B) a x n (Q : Z + B -> rsa_ctx -> nat -> Prop) : r = Ok a -> cwp (k a) x n Q -> cwp (cm_bind (cm_lifto r) k) x n Q.
Proof. intros -> K. unfold cwp, cm_bind, cm_lifto. cbn [bind]. exact K. Qed.
Lemma cwp_get {B} (k : rsa_ctx -> cm B) x n (Q : Z + B -> rsa_ctx -> nat -> Prop) : cwp (k x) x n Q -> cwp (cm_bind cm_get k) x n Q.
Proof. intros K. exact K. Qed.
Lemma cwp_put {B} c (k : unit -> cm B) x n (Q : Z + B -> rsa_ctx -> nat -> Prop) : cwp (k tt) c n Q -> cwp (cm_bind (cm_put c) k) x n Q.
Proof. intros K. exact K. Qed.
Lemma cwp_put1 c x n (Q : Z + unit -> rsa_ctx -> nat -> Prop) : Q (inr tt) c n -> cwp (cm_put c) x n Q.
Proof. intros K. exists (inr tt), c, n. split; [reflexivity | exact K]. Qed.
Lemma cwp_rm {A B} (m : rm A) (k : A -> cm B) a x n n' (Q : Z + B -> rsa_ctx -> nat -> Prop) : m n = Ok (inr a, n') -> cwp (k a) x n' Q -> cwp (cm_bind (cm_rm m) k) x n Q.
Proof. intros E K. unfold cwp, cm_bind, cm_rm. rewrite E. cbn [bind fst snd]. exact K. Qed.
Lemma cwp_ret {A} (a : A) x n (Q : Z + A -> rsa_ctx -> nat -> Prop) : Q (inr a) x n -> cwp (cm_ret a) x n Q.
Proof. intros K. exists (inr a), x, n. split; [reflexivity | exact K]. Qed.
Lemma cwp_last {A} (r : res A) x n (P : A -> Prop) (Q : Z + A -> rsa_ctx -> nat -> Prop) : wp r P -> (forall a, P a -> Q (inr a) x n) -> cwp (cm_lift r) x n Q.
Proof. intros (a & E & H) K. exists (inr a), x, n. unfold cm_lift. rewrite E. split; [reflexivity | now apply K]. Qed.

Lemma s_inv X A N : mpi_ok X -> mpi_ok A -> mpi_ok N -> 1 < mval N -> Z.gcd (mval A) (mval N) = 1 -> mlen A <= 9990 -> mlen N <= 9990 ->
  exists v, mpi_inv_mod (mval A) (mval N) = ret v /\ 0 <= v < mval N /\ (v * mval A) mod mval N = 1 /\ wp (l_inv_mod X A N) (fun R => mpi_ok R /\ mval R = v /\ mlen R <= Z.max (mlen X) (mlen N + 1)).
Proof.
  intros HX HA HN PN G LA LN. destruct (MpiProofs.inv_mod_ok (mval A) (mval N) PN G) as (v & E & V1 & V2). exists v. split; [exact E|]. split; [exact V1|].
  rewrite Z.mul_comm in V2. split; [exact V2|].
  eapply wp_mono; [now apply LimbProofs13.inv_mod_ok|]. cbv beta. intros R (O & R1 & R2 & L). split; [exact O|]. split; [|exact L].
  assert ((mval N | v * mval A - 1)) as D. { apply Z.mod_divide; [lia|]. rewrite Zminus_mod, V2, (Z.mod_small 1) by lia. reflexivity. }
  assert ((mval N | mval A * (mval R - v))) as D2. { replace (mval A * (mval R - v)) with ((mval R * mval A - 1) - (v * mval A - 1)) by lia. now apply Z.divide_sub_r. }
  apply Gauss in D2; [|apply Zgcd_1_rel_prime; now rewrite Z.gcd_comm].
  destruct D2 as [q Q]. assert (q = 0) by nia. nia.
Qed.

(** What the private operation needs of a key *)
Definition key_sane (k : rsa_key) : Prop :=
  1 < key_N k /\ Z.odd (key_N k) = true /\ 1 <= mpi_size (key_N k) <= 1024 /\ 0 <= key_E k /\ 0 < key_P k /\ Z.odd (key_P k) = true /\ 0 < key_Q k /\ Z.odd (key_Q k) = true /\
  0 <= key_DP k /\ 0 <= key_DQ k.
Lemma pos_sign X : mpi_ok X -> 0 < mval X -> ms X = 1.
Proof. intros [S1 L] P. unfold mval in P. pose proof (lval_nonneg _ L). destruct S1 as [E|E]; rewrite E in P; [exact E | lia]. Qed.
Lemma set_V_id c : set_V c (c_Vi c) (c_Vf c) = c. Proof. now destruct c. Qed.
Lemma gcd_mpi a b : gcd_spec a b = mpi_gcd a b. Proof. reflexivity. Qed.

Definition pair_ok (c : rsa_ctx) (vi vf : Z) : Prop :=
  mp (c_Vf c) <> [] /\ ms (c_Vi c) = 1 /\ mval (c_Vi c) = vi /\ mval (c_Vf c) = vf /\ 0 <= vi <= mval (c_N c) /\ 0 <= vf <= mval (c_N c).
Lemma blind_loop_ok f n0 rnd : same_random f n0 rnd -> forall k c i vi vf, mpi_ok (c_N c) -> 1 < mval (c_N c) -> mlen (c_N c) <= 1000 -> c_len c = mpi_size (mval (c_N c)) -> 1 <= mpi_size (mval (c_N c)) <= 1024 ->
  mpi_ok (c_Vi c) -> mpi_ok (c_Vf c) -> mlen (c_Vi c) <= 2000 -> mlen (c_Vf c) <= 2000 -> (0 < k)%nat \/ pair_ok c vi vf ->
  let '(vi', vf', i', found) := blinding_loop k (mval (c_N c)) (mpi_size (mval (c_N c))) rnd i vi vf in
  exists Vi Vf, l_blind_loop f k c (n0 + i)%nat = Ok (if found then inr tt else inl ERR_RSA_RNG_FAILED, set_V c Vi Vf, (n0 + i')%nat) /\
    mpi_ok Vi /\ mpi_ok Vf /\ mlen Vi <= 2000 /\ mlen Vf <= 2000 /\ pair_ok (set_V c Vi Vf) vi' vf' /\ (found = true -> Z.gcd vf' (mval (c_N c)) = 1).
Proof.
  intros R k. induction k as [|k IH]; intros c i vi vf ON PN LN CL SZ OI OF LI LF J.
  - destruct J as [J|J]; [lia|]. cbn [blinding_loop l_blind_loop]. exists (c_Vi c), (c_Vf c). rewrite set_V_id. repeat (split; [assumption || reflexivity|]). discriminate.
  - cbn [blinding_loop]. set (len := mpi_size (mval (c_N c))) in *.
    destruct (R i (Z.to_nat (len - 1)) ltac:(lia)) as (bs & F & B & LB' & V). rewrite Z2Nat.id in V by lia.
    destruct (s_fill f (c_Vf c) (len - 1) (n0 + i)%nat bs OF ltac:(lia) F B ltac:(unfold zlen; lia)) as (Vf & EF & OF' & MF & SF & LF').
    destruct (gcd_ok (c_Vi c) Vf (c_N c) OI OF' ON ltac:(clear - LF LF' SZ; assert ((len - 1 + 7) / 8 < 130) by (apply Z.div_lt_upper_bound; lia); lia) ltac:(lia)) as (Vi & EI & OI' & MI & LI').
    rewrite gcd_mpi, MF, <- V in MI.
    assert (mlen Vf <= 2000) as LF2 by (clear - LF LF' SZ; assert ((len - 1 + 7) / 8 < 130) by (apply Z.div_lt_upper_bound; lia); lia).
    assert (mlen Vi <= 2000) as LI2 by lia.
    assert (0 <= rnd i (len - 1) <= mval (c_N c)) as RF. { rewrite V. pose proof (be_decode_range bs B) as RB. split; [lia|]. assert (256 ^ (len - 1) <= mval (c_N c)); [|replace (zlen bs) with (len - 1) in RB by (unfold zlen; lia); lia].
      clear - PN SZ. assert (~ mval (c_N c) < 256 ^ (len - 1)); [|lia]. intros H. apply size_le in H; [unfold len in H; lia | lia | lia]. }
    assert (0 < mpi_gcd (rnd i (len - 1)) (mval (c_N c)) <= mval (c_N c)) as RI. { unfold mpi_gcd. destruct (Z.eqb_spec (mval (c_N c)) 0); [lia|]. pose proof (Z.gcd_nonneg (rnd i (len - 1)) (mval (c_N c))). pose proof (Z.gcd_divide_r (rnd i (len - 1)) (mval (c_N c))) as D.
      split; [|apply Z.divide_pos_le; [lia | exact D]]. destruct (Z.eq_dec (Z.gcd (rnd i (len - 1)) (mval (c_N c))) 0) as [G0|]; [|lia]. apply Z.gcd_eq_0_r in G0. lia. }
    assert (pair_ok (set_V c Vi Vf) (mpi_gcd (rnd i (len - 1)) (mval (c_N c))) (rnd i (len - 1))) as PK. { unfold pair_ok. cbn [set_V c_Vi c_Vf c_N]. split; [apply mlen_nonnil; lia|]. split; [apply pos_sign; [exact OI' | lia]|]. split; [exact MI|]. split; [lia|]. split; [lia | exact RF]. }
    assert (l_blind_loop f (S k) c (n0 + i)%nat = (if mpi_gcd (rnd i (len - 1)) (mval (c_N c)) =? 1 then cm_ret tt else l_blind_loop f k) (set_V c Vi Vf) (n0 + S i)%nat) as ST.
    { cbn [l_blind_loop]. unfold cm_bind at 1, cm_get. cbn [bind]. unfold cm_bind at 1, cm_rm. rewrite CL. fold len. rewrite EF. cbn [bind fst snd]. unfold cm_bind at 1, cm_put at 1. cbn [bind]. unfold cm_bind at 1, cm_lift. rewrite EI. cbn [bind ret]. unfold cm_bind at 1, cm_put. cbn [bind].
      unfold cm_bind at 1, cm_lifto. rewrite cmp_int_ok by (exact OI' || lia). cbn [bind]. rewrite cmp3_eq, MI. replace (n0 + S i)%nat with (S (n0 + i)) by lia.
      destruct (Z.compare_spec (mpi_gcd (rnd i (len - 1)) (mval (c_N c))) 1) as [G|G|G]; destruct (Z.eqb_spec (mpi_gcd (rnd i (len - 1)) (mval (c_N c))) 1); try lia; reflexivity. }
    rewrite ST. destruct (Z.eqb_spec (mpi_gcd (rnd i (len - 1)) (mval (c_N c))) 1) as [G|G].
    + exists Vi, Vf. split; [reflexivity|]. split; [exact OI'|]. split; [exact OF'|]. split; [exact LI2|]. split; [exact LF2|]. split; [exact PK|]. intros _. unfold mpi_gcd in G. destruct (Z.eqb_spec (mval (c_N c)) 0); [lia | exact G].
    + specialize (IH (set_V c Vi Vf) (S i) (mpi_gcd (rnd i (len - 1)) (mval (c_N c))) (rnd i (len - 1)) ON PN LN CL SZ OI' OF' LI2 LF2 (or_intror PK)). cbn [set_V c_N] in IH. fold len in IH.
      destruct (blinding_loop k (mval (c_N c)) len rnd (S i) _ _) as [[[vi' vf'] i'] found]. exact IH.
Qed.
