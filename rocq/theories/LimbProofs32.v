(** Assignments of contexts and pools *)
From Coq Require Import Lia ZifyBool Znumtheory.
From Verif Require Import Base BaseFacts MpiModel MpiProofs LimbModel LimbModel2 LimbSpec LimbSpec2 LimbProofs LimbProofs2 LimbProofs3 LimbProofs4 LimbProofs5 LimbProofs19 LimbProofs20 LimbProofs24 LimbProofs26 LimbProofs27 LimbProofs29
  RsaKeyModel RsaKeySpec AsnProofs5 RsaKeyProofs TdpKeyModel TdpModel TdpSpec TdpProofs TdpProofs2 TdpProofs3 TdpProofs4 LimbRsaModel LimbRsaSpec.

Definition assigned (R X Y : mpi) : Prop :=
  mpi_ok R /\ mval R = mval Y /\ (mp Y = [] -> mp R = []) /\ (mp Y <> [] -> mp R <> []) /\ mlen R <= Z.max (mlen X) (Z.max 1 (Z.of_nat (sig (mp Y)))).
Lemma a_copy X Y : mpi_ok X /\ mlen X <= 10000 -> mpi_ok Y /\ mlen Y <= 10000 -> exists R, l_copy false X Y = ret R /\ assigned R X Y.
Proof.
  intros [OX LX] [OY LY]. destruct (copy_ok2 false X Y OX OY ltac:(discriminate) LY) as (R & E & O & _ & M & L & N). exists R. split; [exact E|]. split; [exact O|]. split; [exact M|].
  split. { intros H. unfold l_copy in E. rewrite H in E. apply ret_inj in E. now subst R. } split; [intros H; now apply N|]. unfold mlen, zlen. lia.
Qed.
Lemma rsa_assign_ok d src : ctx_objects d -> ctx_objects src -> exists c, l_rsa_copy d src = ret c /\ c_len c = c_len src /\
  assigned (c_N c) (c_N d) (c_N src) /\ assigned (c_E c) (c_E d) (c_E src) /\ assigned (c_RN c) (c_RN d) (c_RN src).
Proof.
  intros D F. unfold ctx_objects in D, F. repeat match goal with H : Forall _ (_ :: _) |- _ => apply Forall_cons_iff in H; let X := fresh "O" in destruct H as [X H] end. clear D F. unfold l_rsa_copy.
  repeat match goal with |- context [l_copy false ?X ?Y] => let R := fresh "R" in let E := fresh "E" in let C := fresh "C" in destruct (a_copy X Y ltac:(assumption) ltac:(assumption)) as (R & E & C); rewrite E; cbn [bindr bind ret]; clear E end.
  eexists. split; [reflexivity|]. cbn [c_len c_N c_E c_RN]. tauto.
Qed.
Lemma assigned_holds R X Y y : assigned R X Y -> mlen X <= 1000 -> holds Y y -> holds R y.
Proof.
  intros (OR & MR & _ & NN & L) LX (O & M & LY). split; [exact OR|]. split; [congruence|]. pose proof (zsig_len Y). split; [|lia]. apply mlen_nonnil, NN, mlen_nonnil. lia.
Qed.
Lemma tight_le R Y : mpi_ok R -> mval R = mval Y -> tight Y -> mlen Y <= mlen R.
Proof.
  intros O M T. unfold tight in T. rewrite <- M in T. destruct (Z_lt_le_dec (mlen R) (mlen Y)); [|assumption]. exfalso. rewrite mval_abs in T by exact O. pose proof (lval_range (mp R) (proj2 O)) as B. change (zlen (mp R)) with (mlen R) in B.
  assert (LB ^ mlen R <= LB ^ (mlen Y - 1)) by (apply Z.pow_le_mono_r; [reflexivity | lia]). lia.
Qed.
(** An assignment is right when the source has not been used or the modulus assigned over has no more limbs *)
Lemma tdp_assign_ok d c k : pub_object c k -> ctx_objects d -> mlen (c_N d) <= 1000 -> mlen (c_E d) <= 1000 -> mlen (c_N d) <= mlen (c_N c) \/ mp (c_RN c) = [] ->
  exists c', l_tdp_assign d c = Ok c' /\ ctx_pub c' k.
Proof.
  intros ((CL & HN & HE & OR & LR & CR) & F & T) D LN LE A. destruct (rsa_assign_ok d c D F) as (c' & E & L & AN & AE & AR). unfold l_tdp_assign. rewrite E. exists c'. split; [reflexivity|].
  split; [congruence|]. split; [now apply (assigned_holds _ _ _ _ AN)|]. split; [now apply (assigned_holds _ _ _ _ AE)|].
  assert (mlen (c_RN d) <= 10000) as LRd. { unfold ctx_objects in D. repeat match goal with H : Forall _ (_ :: _) |- _ => apply Forall_cons_iff in H; let X := fresh "O" in destruct H as [X H] end. tauto. }
  destruct AR as (OR' & MR & NR & _ & LR'). split; [exact OR'|]. pose proof (zsig_len (c_RN c)). split; [lia|].
  destruct CR as [CR|CR]; [left; now apply NR|]. destruct A as [A|A]; [|left; now apply NR]. right. rewrite MR, CR. destruct AN as (ON' & MN & _ & _ & LN'). destruct HN as (ON & _ & LNc).
  assert (mlen (c_N c') = mlen (c_N c)) as ->; [|now rewrite MN]. pose proof (tight_le _ _ ON' MN T). destruct (tight_len _ ON T) as [TL|TL]; [lia|]. exfalso. assert (1 <= mlen (c_N c)) as X by apply LNc. apply mlen_nonnil in X. contradiction.
Qed.
(** A context with a public key read from its bytes *)
Definition rd_num (n : nat) (x : Z) : mpi := match l_read_binary l_init (be_encode n x) with Ok (inr m) => m | _ => l_init end.
Definition ctx_of (n m : nat) (k : rsa_pub) : rsa_ctx :=
  MkCtx (rsa_len k) (rd_num n (pub_N k)) (rd_num m (pub_E k)) l_init l_init l_init l_init l_init l_init l_init l_init l_init l_init l_init.
Lemma rd_num_ok n x : Z.of_nat n <= 7999 -> 0 <= x < 256 ^ Z.of_nat n -> mpi_ok (rd_num n x) /\ mval (rd_num n x) = x /\ 1 <= mlen (rd_num n x) <= Z.max 1 ((Z.of_nat n + 7) / 8).
Proof.
  intros N X. unfold rd_num. assert (zlen (be_encode n x) = Z.of_nat n) as L by (unfold zlen; rewrite be_encode_length; reflexivity).
  destruct (read_both (be_encode n x)) as (_ & R & -> & O & M & _ & LR); [apply be_encode_bytes | lia|]. cbv beta iota delta [ret]. rewrite L in LR. rewrite be_decode_encode in M by exact X. tauto.
Qed.
Lemma init_object : mpi_ok l_init /\ mlen l_init <= 10000.
Proof. split; [exact init_ok | discriminate]. Qed.
Lemma ctx_of_ok n m k : 1 <= Z.of_nat n <= 7999 -> Z.of_nat m <= 7999 -> LB ^ ((Z.of_nat n + 7) / 8 - 1) <= pub_N k < 256 ^ Z.of_nat n -> 0 <= pub_E k < 256 ^ Z.of_nat m -> pub_object (ctx_of n m k) k.
Proof.
  intros N M BN BE. assert (0 <= pub_N k) as N0. { pose proof (Z.pow_nonneg LB ((Z.of_nat n + 7) / 8 - 1) ltac:(discriminate)). lia. }
  assert (forall i, Z.of_nat i <= 7999 -> (Z.of_nat i + 7) / 8 <= 1000) as Dv by (intros i Hi; assert ((Z.of_nat i + 7) / 8 < 1001); [apply Z.div_lt_upper_bound; lia | lia]).
  destruct (rd_num_ok n (pub_N k) (proj2 N) ltac:(lia)) as (ON & MN & LN). destruct (rd_num_ok m (pub_E k) M ltac:(lia)) as (OE & ME & LE). pose proof (Dv n (proj2 N)). pose proof (Dv m M).
  split; [|split].
  - split; [reflexivity|]. cbn [ctx_of c_N c_E c_RN]. split; [repeat split; try assumption || apply ON || lia|]. split; [repeat split; try assumption || apply OE || lia|]. split; [exact init_ok|]. split; [discriminate | now left].
  - unfold ctx_objects. cbn [ctx_of c_N c_E c_D c_P c_Q c_DP c_DQ c_QP c_RN c_RP c_RQ c_Vi c_Vf]. pose proof init_object. constructor; [split; [exact ON | lia]|]. constructor; [split; [exact OE | lia]|]. repeat (constructor; [assumption|]). constructor.
  - unfold tight. cbn [ctx_of c_N]. rewrite MN, Z.abs_eq by exact N0. apply Z.le_trans with (2 := proj1 BN). apply Z.pow_le_mono_r; [reflexivity|]. assert (1 <= (Z.of_nat n + 7) / 8) by (apply Z.div_le_lower_bound; lia). lia.
Qed.

(** The assignment of a used key over a larger one *)
Definition src_key : rsa_pub := {| pub_N := 2 ^ 127 + 1; pub_E := 3 |}.
Definition dst_key : rsa_pub := {| pub_N := 2 ^ 191 + 1; pub_E := 3 |}.
Lemma small_keys_ok : public_ok src_key /\ public_ok dst_key /\ pub_object (ctx_of 16 1 src_key) src_key /\ pub_object (ctx_of 24 1 dst_key) dst_key.
Proof.
  split; [|split; [|split]].
  1, 2: split; [reflexivity|]; split; [reflexivity|]; split; [split; [discriminate | vm_compute; reflexivity]|split; [discriminate | vm_compute; reflexivity]].
  - apply ctx_of_ok; vm_compute; try split; discriminate || reflexivity.
  - apply ctx_of_ok; vm_compute; try split; discriminate || reflexivity.
Qed.
Definition expo (c : rsa_ctx) (X : mpi) : res (mpi * option mpi) := l_exp_mod false l_init X (c_E c) (c_N c) (Some (c_RN c)).
Lemma assign_wrong : exists X Y Z R R' c2, mpi_ok X /\ mval X = 5 /\ expo (ctx_of 16 1 src_key) X = ret (Y, Some R) /\ mval Y = 5 ^ 3 /\
  l_tdp_assign (ctx_of 24 1 dst_key) (set_R (ctx_of 16 1 src_key) R l_init l_init) = Ok c2 /\ expo c2 X = ret (Z, Some R') /\ mval Z <> 5 ^ 3.
Proof.
  exists (rd_num 1 5). do 5 eexists. split; [apply (rd_num_ok 1 5); try split; discriminate || reflexivity|]. split; [reflexivity|]. split; [vm_compute; reflexivity|]. split; [reflexivity|]. split; [vm_compute; reflexivity|]. split; [vm_compute; reflexivity|].
  vm_compute. discriminate.
Qed.
(** The assignment of a pool keeps the old key for order 1 *)
Lemma pool_assign_order_1 d e p r g inp : holds_pool d e -> is_bytes inp -> zlen inp <= 8000 -> l_pool_assign d p = Ok r -> drop (l_pool_eval r g inp 1) = pool_eval e g inp 1.
Proof.
  intros D B L A. rewrite <- (proj1 (pool_eval_refines d e g inp 1 D B L)). unfold l_pool_assign in A. destruct (l_pool_copy_loop (lp_keys p)) as [cs| | | |]; try discriminate. injection A as <-.
  unfold l_pool_eval. cbn [lp_key lp_keys bind Z.eqb Pos.eqb]. destruct (negb _); [reflexivity|]. destruct (throw_if_err (l_read_binary l_init inp)) as [x| | | |]; try reflexivity. cbn [bind].
  destruct (throw_if_err (l_exp_mod true x x (c_E (lp_key d)) (c_N (lp_key d)) (Some (c_RN (lp_key d))))) as [xr| | | |]; try reflexivity. cbn [bind]. destruct (l_write_array (fst xr) g); reflexivity.
Qed.
Definition pub5 : rsa_pub := {| pub_N := 2 ^ 2047 + 1; pub_E := 5 |}.
Lemma pub5_ok : public_ok pub5 /\ bits2048 (pub_N pub5).
Proof.
  assert (B : bits2048 (pub_N pub5)) by (split; [vm_compute; discriminate|vm_compute; reflexivity]). split; [|exact B].
  split; [vm_compute; reflexivity|]. split; [reflexivity|]. split; [split; [vm_compute; discriminate|vm_compute; reflexivity]|].
  split; [discriminate|vm_compute; reflexivity].
Qed.
Lemma pool_of k : public_ok k -> bits2048 (pub_N k) -> pub_E k < 256 -> forall q, pool_new k 2 = Ok q -> exists p, l_pool_new (ctx_of 256 1 k) 2 = Ok p /\ holds_pool p q.
Proof.
  intros PK [B1 B2] E q Q. assert (pub_object (ctx_of 256 1 k) k) as PO.
  { apply ctx_of_ok; [split; discriminate | discriminate | |].
    - split; [|exact B2]. apply Z.le_trans with (2 ^ 2047); [vm_compute; discriminate | exact B1].
    - destruct PK as (_ & _ & _ & P). change (256 ^ Z.of_nat 1) with 256. clear - P E. lia. }
  pose proof (pool_new_refines _ k 2 PO PK) as H. now rewrite Q in H.
Qed.
Lemma pool_assign_total d p q : holds_pool p q -> public_ok (pool_key q) -> pool_copy q = Ok q -> exists r, l_pool_assign d p = Ok r.
Proof.
  intros HP PK QC. pose proof (pool_copy_refines p q HP PK) as C. rewrite QC in C. destruct C as (p' & C & _). unfold l_pool_copy in C. destruct (l_tdp_copy (lp_key p)) as [c| | | |]; try discriminate C. cbn [bind] in C.
  unfold l_pool_assign. destruct (l_pool_copy_loop (lp_keys p)) as [cs| | | |]; try discriminate C. cbn [bind]. now eexists.
Qed.
Lemma pool_order_1 k q p : public_ok k -> bits2048 (pub_N k) -> pool_new k 2 = Ok q -> pool_maximum_order q = 2 -> holds_pool p q ->
  pool_eval q (zeros 256) (message 2) 1 = Ok (message (2 ^ pub_E k mod pub_N k)) /\ drop (l_pool_eval p (zeros 256) (message 2) 1) = Ok (message (2 ^ pub_E k mod pub_N k)).
Proof.
  intros PK B Q M HP. assert (pool_eval q (zeros 256) (message 2) 1 = Ok (message (2 ^ pub_E k mod pub_N k))) as E.
  { rewrite (pool_eval_val k 2 q (zeros 256) (message 2) 1 PK B ltac:(split; [discriminate | reflexivity]) Q eq_refl (message_bytes 2) (message_len 2) ltac:(rewrite M; split; discriminate)).
    change (RSA_PK ^ (1 - 1)) with 1. rewrite Z.mul_1_r. rewrite message_decode by (split; [discriminate | reflexivity]). reflexivity. }
  split; [exact E|]. now rewrite (proj1 (pool_eval_refines p q (zeros 256) (message 2) 1 HP (message_bytes 2) ltac:(rewrite message_len; discriminate))).
Qed.
Lemma pool_assign_wrong : exists p q d e r y y', public_ok (pool_key q) /\ public_ok (pool_key e) /\ bits2048 (pub_N (pool_key q)) /\ bits2048 (pub_N (pool_key e)) /\
  holds_pool p q /\ holds_pool d e /\ l_pool_assign d p = Ok r /\
  drop (l_pool_eval p (zeros 256) (message 2) 1) = Ok y /\ drop (l_pool_eval r (zeros 256) (message 2) 1) = Ok y' /\ y <> y'.
Proof.
  destruct pub3_ok as [K3 B3], pub5_ok as [K5 B5].
  destruct (pool_new pub3 2) as [q| | | |] eqn:Q; [|exfalso; revert Q; vm_compute; discriminate..].
  destruct (pool_new pub5 2) as [e| | | |] eqn:E; [|exfalso; revert E; vm_compute; discriminate..].
  assert (pool_key q = pub3 /\ pool_maximum_order q = 2 /\ pool_copy q = Ok q) as (QK & QM & QC). { assert (pool_new pub3 2 = Ok (Build_tdp_pool pub3 [196611])) as X by (vm_compute; reflexivity). rewrite X in Q. injection Q as <-. split; [reflexivity|]. split; [reflexivity | vm_compute; reflexivity]. }
  assert (pool_key e = pub5 /\ pool_maximum_order e = 2) as (EK & EM). { assert (pool_new pub5 2 = Ok (Build_tdp_pool pub5 [327685])) as X by (vm_compute; reflexivity). rewrite X in E. injection E as <-. split; reflexivity. }
  destruct (pool_of pub3 K3 B3 eq_refl q Q) as (p & _ & HP). destruct (pool_of pub5 K5 B5 eq_refl e E) as (d & _ & HD).
  destruct (pool_assign_total d p q HP ltac:(rewrite QK; exact K3) QC) as (r & A).
  pose proof (pool_order_1 pub3 q p K3 B3 Q QM HP) as [_ Y]. pose proof (pool_order_1 pub5 e d K5 B5 E EM HD) as [Y' _].
  exists p, q, d, e, r, (message (2 ^ pub_E pub3 mod pub_N pub3)), (message (2 ^ pub_E pub5 mod pub_N pub5)). rewrite QK, EK. split; [exact K3|]. split; [exact K5|]. split; [exact B3|]. split; [exact B5|]. split; [exact HP|]. split; [exact HD|]. split; [exact A|]. split; [exact Y|].
  split; [rewrite (pool_assign_order_1 d e p r (zeros 256) (message 2) HD (message_bytes 2) ltac:(rewrite message_len; discriminate) A); exact Y'|]. vm_compute. discriminate.
Qed.
