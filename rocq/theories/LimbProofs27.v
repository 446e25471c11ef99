(** Copies of contexts *)
From Coq Require Import Lia Znumtheory.
From Verif Require Import Base BaseFacts MpiModel MpiProofs LimbModel LimbModel2 LimbSpec LimbSpec2 LimbProofs LimbProofs2 LimbProofs3 LimbProofs4 LimbProofs5 LimbProofs6 LimbProofs9 LimbProofs11 LimbProofs12 LimbProofs13 LimbProofs14 LimbProofs16 LimbProofs19 LimbProofs20 LimbProofs21 LimbProofs22 LimbProofs23 LimbProofs24 LimbProofs25 LimbProofs26 RsaKeyModel RsaKeySpec TdpKeyModel TdpModel TdpProofs LimbRsaModel LimbRsaSpec.

Definition copied (R Y : mpi) : Prop :=
  mpi_ok R /\ mval R = mval Y /\ (mp Y = [] -> mp R = []) /\ (mp Y <> [] -> ms R = ms Y /\ mlen R = Z.max 1 (Z.of_nat (sig (mp Y)))).
Lemma copied_len R Y : copied R Y -> mlen R <= mlen Y.
Proof.
  intros (_ & _ & A & B). destruct (mp Y) as [|y l] eqn:E; [unfold mlen, zlen; rewrite A by reflexivity; cbn; lia|]. rewrite <- E in *. destruct B as [_ ->]; [congruence|]. pose proof (zsig_len Y).
  assert (mp Y <> []) as NE by congruence. apply mlen_nonnil in NE. lia.
Qed.
Lemma copied_holds R Y y : copied R Y -> holds Y y -> holds R y.
Proof.
  intros C (O & M & L). pose proof (copied_len _ _ C). destruct C as (OR & MR & _ & B). split; [exact OR|]. split; [congruence|]. destruct B as [_ B]; [apply mlen_nonnil; lia|]. lia.
Qed.
Lemma tight_len Y : mpi_ok Y -> tight Y -> mlen Y = Z.max 1 (Z.of_nat (sig (mp Y))) \/ mp Y = [].
Proof.
  intros O T. unfold tight in T. destruct (mp Y) as [|y l] eqn:E; [now right|]. left. rewrite <- E in *. assert (1 <= mlen Y) as L1 by (apply mlen_nonnil; congruence).
  pose proof (zsig_len Y). destruct (Z_lt_le_dec (mlen Y) (Z.of_nat (sig (mp Y)) + 1)); [lia|]. exfalso. rewrite mval_abs in T by exact O. pose proof (sig_lt (mp Y) (proj2 O)).
  assert (LB ^ Z.of_nat (sig (mp Y)) <= LB ^ (mlen Y - 1)) by (apply Z.pow_le_mono_r; [reflexivity | lia]). lia.
Qed.
Lemma copied_tight R Y : mpi_ok Y -> copied R Y -> mval Y <> 0 -> tight R.
Proof.
  intros O (OR & MR & _ & B) N. destruct B as [_ B]; [apply nonnil_val; exact N|]. unfold tight. rewrite B, MR, mval_abs by exact O. destruct (sig (mp Y)) as [|k] eqn:E; [apply (sig_zero _ (proj2 O)) in E; unfold mval in N; rewrite E in N; lia|].
  pose proof (sig_ge (mp Y) k (proj2 O) E). replace (Z.max 1 (Z.of_nat (S k)) - 1) with (Z.of_nat k) by lia. assumption.
Qed.
Lemma copied_cache N' N R' R : mpi_ok N -> mp N <> [] -> copied N' N -> copied R' R -> cache_ok N (Some R) -> tight N \/ mp R = [] -> cache_ok N' (Some R').
Proof.
  intros ON NN CN CR (OR & LR & E) T. pose proof (copied_len _ _ CR). destruct CN as (ON' & MN & _ & LN), CR as (OR' & MR & ER & _). split; [exact OR'|]. split; [lia|].
  destruct E as [E|E]; [left; now apply ER|]. destruct T as [T|T]; [|left; now apply ER]. right. destruct (LN NN) as [_ LN']. destruct (tight_len N ON T) as [TL|]; [|contradiction]. rewrite MR, MN, LN', <- TL. exact E.
Qed.
Lemma rsa_copy_ok src : ctx_objects src -> exists c, l_rsa_copy ctx_init src = ret c /\ c_len c = c_len src /\
  copied (c_N c) (c_N src) /\ copied (c_E c) (c_E src) /\ copied (c_D c) (c_D src) /\ copied (c_P c) (c_P src) /\ copied (c_Q c) (c_Q src) /\
  copied (c_DP c) (c_DP src) /\ copied (c_DQ c) (c_DQ src) /\ copied (c_QP c) (c_QP src) /\ copied (c_RN c) (c_RN src) /\ copied (c_RP c) (c_RP src) /\
  copied (c_RQ c) (c_RQ src) /\ copied (c_Vi c) (c_Vi src) /\ copied (c_Vf c) (c_Vf src).
Proof.
  intros F. unfold ctx_objects in F. repeat match goal with H : Forall _ (_ :: _) |- _ => apply Forall_cons_iff in H; let X := fresh "O" in destruct H as [X H] end. clear F. unfold l_rsa_copy.
  repeat match goal with O : mpi_ok ?Y /\ _ |- _ => let R := fresh "R" in let E := fresh "E" in let C := fresh "C" in destruct (s_copy Y (proj1 O) (proj2 O)) as (R & E & C); clear O end.
  cbn [ctx_init c_N c_E c_D c_P c_Q c_DP c_DQ c_QP c_RN c_RP c_RQ c_Vi c_Vf].
  repeat match goal with H : l_copy false l_init ?Y = ret _ |- context [l_copy false l_init ?Y] => rewrite H; cbn [bindr bind ret]; clear H end.
  eexists. split; [reflexivity|]. cbn [c_len c_N c_E c_D c_P c_Q c_DP c_DQ c_QP c_RN c_RP c_RQ c_Vi c_Vf]. unfold copied. tauto.
Qed.
Lemma copied_object R Y : mlen Y <= 10000 -> copied R Y -> mpi_ok R /\ mlen R <= 10000.
Proof. intros L C. pose proof (copied_len _ _ C). split; [apply C | lia]. Qed.
(** A copy of a context with a public key *)
Lemma copy_pub c k : ctx_pub c k -> ctx_objects c -> tight (c_N c) \/ mp (c_RN c) = [] -> pub_N k <> 0 -> exists c', l_rsa_copy ctx_init c = ret c' /\ pub_object c' k.
Proof.
  intros PUB F T N0. destruct (rsa_copy_ok c F) as (c' & E & CL & C1 & C2 & C3 & C4 & C5 & C6 & C7 & C8 & C9 & C10 & C11 & C12 & C13). exists c'. split; [exact E|].
  destruct PUB as (L & HN & HE & CR). pose proof HN as (ON & MN & LN). split; [|split].
  - split; [congruence|]. split; [now apply (copied_holds _ _ _ C1)|]. split; [now apply (copied_holds _ _ _ C2)|]. apply (copied_cache _ (c_N c) _ (c_RN c)); try assumption. apply mlen_nonnil. lia.
  - unfold ctx_objects in *. repeat match goal with H : Forall _ (_ :: _) |- _ => apply Forall_cons_iff in H; let X := fresh "O" in destruct H as [X H] end. repeat (apply Forall_cons; [eapply copied_object; [|eassumption]; tauto|]). apply Forall_nil.
  - apply (copied_tight _ (c_N c) ON C1). rewrite MN. exact N0.
Qed.
(** A copy of a context with a private key *)
Lemma copy_priv c k : ctx_priv c k None -> ctx_objects c -> mp (c_RN c) = [] -> mp (c_RP c) = [] -> mp (c_RQ c) = [] -> pub_N (key_pub k) <> 0 -> key_P k <> 0 -> key_Q k <> 0 ->
  exists c', l_rsa_copy ctx_init c = ret c' /\ ctx_priv c' k None /\ pub_object c' (key_pub k).
Proof.
  intros PRIV F T1 T2 T3 N0 P0 Q0. pose proof PRIV as (PUB & HD & HP & HQ & HDP & HDQ & HQP & CP & CQ & HB). destruct (copy_pub c (key_pub k) PUB F (or_intror T1) N0) as (c2 & E2 & PO).
  destruct (rsa_copy_ok c F) as (c' & E & CL & C1 & C2 & C3 & C4 & C5 & C6 & C7 & C8 & C9 & C10 & C11 & C12 & C13). assert (c2 = c') as -> by (apply ret_inj; congruence). exists c'. split; [exact E|]. split; [|exact PO].
  split; [apply PO|]. do 6 (split; [eapply copied_holds; eassumption|]). split; [apply (copied_cache _ (c_P c) _ (c_RP c)); try assumption; [apply HP | apply mlen_nonnil, HP | now right]|].
  split; [apply (copied_cache _ (c_Q c) _ (c_RQ c)); try assumption; [apply HQ | apply mlen_nonnil, HQ | now right]|].
  destruct HB as (O1 & O2 & L1 & L2 & V). pose proof (copied_len _ _ C12). pose proof (copied_len _ _ C13). split; [apply C12|]. split; [apply C13|]. split; [lia|]. split; [lia|]. now apply C13.
Qed.

(** The copy constructor *)
Lemma tdp_copy_refines c k : ctx_pub c k -> ctx_objects c -> tight (c_N c) \/ mp (c_RN c) = [] -> pub_N k <> 0 ->
  match rsa_check_pubkey k with
  | Ok (inr _) => exists c', l_tdp_copy c = Ok c' /\ pub_object c' k
  | Ok (inl _) => l_tdp_copy c = Throw RuntimeError
  | _ => False
  end.
Proof.
  intros PUB F T N0. destruct (copy_pub c k PUB F T N0) as (c' & E & PO). unfold l_tdp_copy. rewrite E, throw_ret, (check_pub_refines c' k (proj1 PO)).
  destruct (rsa_check_pubkey k) as [[e|[]]| | | |] eqn:RC.
  - reflexivity.
  - exists c'. split; [reflexivity | exact PO].
  - unfold rsa_check_pubkey in RC. repeat (destruct (_ || _) in RC; [discriminate|]). discriminate.
  - unfold rsa_check_pubkey in RC. repeat (destruct (_ || _) in RC; [discriminate|]). discriminate.
  - unfold rsa_check_pubkey in RC. repeat (destruct (_ || _) in RC; [discriminate|]). discriminate.
  - unfold rsa_check_pubkey in RC. repeat (destruct (_ || _) in RC; [discriminate|]). discriminate.
Qed.
(** eval keeps a context that may be copied *)
Lemma eval_object c k g inp c' y : pub_object c k -> is_bytes inp -> zlen inp <= 8000 -> l_tdp_eval c g inp = Ok (c', y) -> pub_object c' k.
Proof.
  intros (PUB & F & T) B L H. pose proof (proj2 (eval_refines c k g inp PUB B L) c' y H) as PUB'. split; [exact PUB'|].
  unfold l_tdp_eval in H. destruct (negb _); [discriminate|]. destruct (throw_if_err (l_read_binary l_init inp)) as [x| | | |]; try discriminate. cbn [bind] in H. destruct (throw_if_err (l_mod true x x (c_N c))) as [x1| | | |]; try discriminate. cbn [bind] in H.
  destruct (throw_if_err (l_exp_mod true x1 x1 (c_E c) (c_N c) (Some (c_RN c)))) as [xr| | | |]; try discriminate. cbn [bind] in H. destruct (l_write_array (fst xr) g); try discriminate. injection H as <- _. split; [|exact T].
  destruct PUB' as (_ & _ & _ & OR & LR & _). unfold ctx_objects in *. cbn [set_R c_N c_E c_D c_P c_Q c_DP c_DQ c_QP c_RN c_RP c_RQ c_Vi c_Vf] in *.
  repeat match goal with H : Forall _ (_ :: _) |- _ => apply Forall_cons_iff in H; let X := fresh "O" in destruct H as [X H] end. repeat (apply Forall_cons; [tauto|]). apply Forall_nil.
Qed.
