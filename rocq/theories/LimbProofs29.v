(** Pools on limbs *)
From Coq Require Import Lia ZifyBool Znumtheory.
From Verif Require Import Base BaseFacts MpiModel MpiProofs LimbModel LimbModel2 LimbSpec LimbSpec2 LimbSpec3 LimbProofs LimbProofs2 LimbProofs3 LimbProofs4 LimbProofs5 LimbProofs6 LimbProofs9 LimbProofs11 LimbProofs12 LimbProofs13 LimbProofs14 LimbProofs16 LimbProofs19 LimbProofs20 LimbProofs21 LimbProofs24 LimbProofs25 LimbProofs26 LimbProofs27
  RsaKeyModel RsaKeySpec AsnProofs5 RsaKeyProofs TdpKeyModel TdpModel TdpProofs LimbRsaModel LimbRsaSpec LimbKeyModel.

Lemma check_ok k : rsa_check_pubkey k = ret tt \/ exists e, rsa_check_pubkey k = err e.
Proof. unfold rsa_check_pubkey. repeat (destruct (_ || _); [right; eexists; reflexivity|]). now left. Qed.
Lemma set_E_object c k E e : pub_object c k -> holds E e -> pub_object (set_E c E) (with_exp k e).
Proof.
  intros ((L & HN & HE & CR) & F & T) H. split; [|split; [|exact T]].
  - split; [exact L|]. split; [exact HN|]. split; [exact H | exact CR].
  - unfold ctx_objects in *. cbn [set_E c_N c_E c_D c_P c_Q c_DP c_DQ c_QP c_RN c_RP c_RQ c_Vi c_Vf] in *. destruct H as (OE & _ & LE).
    repeat match goal with H : Forall _ (_ :: _) |- _ => apply Forall_cons_iff in H; let X := fresh "O" in destruct H as [X H] end. repeat (apply Forall_cons; [assumption || (split; [exact OE | lia])|]). apply Forall_nil.
Qed.
(** The next key of the pool *)
Lemma next_key c k xa : pub_object c k -> public_ok k -> exists c', l_rsa_copy ctx_init c = ret c' /\
  exists E, l_mul_int xa (c_E c') (if xa then c_E c' else c_E c) RSA_PK = ret E /\ pub_object (set_E c' E) (with_exp k (pub_E k * RSA_PK)).
Proof.
  intros PO PK. pose proof PO as (PUB & F & T). pose proof (public_N k PK) as NP. destruct (copy_pub c k PUB F (or_introl T) ltac:(lia)) as (c' & EC & PO'). exists c'. split; [exact EC|].
  pose proof PUB as (_ & _ & (OE & ME & LE) & _). pose proof PO' as ((_ & _ & (OE' & ME' & LE') & _) & _).
  assert (mlen (c_E c') <= 128) as L1.
  { destruct (rsa_copy_ok c F) as (c2 & E2 & _ & _ & (_ & _ & _ & CE) & _). assert (c2 = c') as -> by (apply ret_inj; congruence). destruct CE as [_ CE]; [apply mlen_nonnil; lia|]. rewrite CE.
    assert (Z.of_nat (sig (mp (c_E c))) <= 128); [|lia]. apply zsig; [exact OE | lia|]. rewrite ME. destruct PK as (_ & _ & P1 & P2). change (LB ^ 128) with (2 ^ 8192). rewrite Z.abs_eq by lia. revert P1 P2. generalize (2 ^ 8192) (2 ^ 127). intros. lia. }
  destruct (mul_int_ok xa (c_E c') (if xa then c_E c' else c_E c) RSA_PK OE' ltac:(destruct xa; assumption) ltac:(intros ->; reflexivity) ltac:(destruct xa; lia) ltac:(unfold is_limb, RSA_PK; split; [lia | reflexivity])) as (E & EE & OO & MM & _ & LL).
  exists E. split; [exact EE|]. apply set_E_object; [exact PO'|]. split; [exact OO|]. split; [rewrite MM; destruct xa; congruence|].
  assert (sig [RSA_PK] = 1%nat) as S1 by reflexivity. unfold mlen, zlen in *. rewrite LL, S1. pose proof (sig_le (mp (if xa then c_E c' else c_E c))) as SL.
  assert (sig (mp (if xa then c_E c' else c_E c)) <= 128)%nat as S2.
  { destruct xa; [lia|]. assert (Z.of_nat (sig (mp (c_E c))) <= 128); [|lia]. apply zsig; [exact OE | lia|]. rewrite ME. destruct PK as (_ & _ & P1 & P2). change (LB ^ 128) with (2 ^ 8192). rewrite Z.abs_eq by lia. revert P1 P2. generalize (2 ^ 8192) (2 ^ 127). intros. lia. }
  lia.
Qed.
Lemma pool_loop_refines k : forall n c e, pub_object c (with_exp k e) -> public_ok (with_exp k e) ->
  match pool_loop n k e with
  | Ok es => exists cs, l_pool_loop n c = Ok cs /\ Forall2 (fun c e => pub_object c (with_exp k e)) cs es
  | Throw x => l_pool_loop n c = Throw x
  | _ => False
  end.
Proof.
  induction n as [|n IH]; intros c e PO PK; cbn [pool_loop l_pool_loop]; [exists []; split; [reflexivity | constructor]|].
  destruct (next_key c (with_exp k e) false PO PK) as (c' & EC & E & EE & PO'). cbn [with_exp pub_N pub_E] in PO'. rewrite EC, throw_ret, EE, throw_ret. cbv zeta. rewrite (check_pub_refines _ _ (proj1 PO')).
  change (with_exp (with_exp k e) (e * RSA_PK)) with (with_exp k (e * RSA_PK)) in *.
  destruct (check_ok (with_exp k (e * RSA_PK))) as [CK|[er CK]]; rewrite CK; [rewrite !throw_ret | rewrite !throw_e; reflexivity].
  assert (public_ok (with_exp k (e * RSA_PK))) as PK'.
  { destruct (check_pubkey_ok (with_exp k (e * RSA_PK))) as [(r & ER & HR) _]; [destruct PK as (_ & _ & H & _); cbn [with_exp pub_N] in *; lia | destruct PK as (_ & _ & _ & H); cbn [with_exp pub_E] in *; unfold RSA_PK; lia|]. rewrite CK in ER. injection ER as <-. apply (HR tt). reflexivity. }
  specialize (IH (set_E c' E) (e * RSA_PK) PO' PK'). destruct (pool_loop n k (e * RSA_PK)) as [es| | | |]; try contradiction.
  - destruct IH as (cs & -> & F2). cbn [bind]. eexists. split; [reflexivity|]. constructor; [exact PO' | exact F2].
  - rewrite IH. reflexivity.
Qed.
Lemma pool_new_refines c k size : pub_object c k -> public_ok k ->
  match pool_new k size with
  | Ok q => exists p, l_pool_new c size = Ok p /\ holds_pool p q
  | Throw x => l_pool_new c size = Throw x
  | UB => l_pool_new c size = UB
  | _ => False
  end.
Proof.
  intros PO PK. unfold pool_new, l_pool_new. cbv zeta. destruct (size =? 0); [reflexivity|]. destruct (u8 (size - 1) =? 0); [reflexivity|].
  destruct (next_key c k true PO PK) as (c' & EC & E & EE & PO'). rewrite EC, throw_ret, EE, throw_ret. rewrite (check_pub_refines _ _ (proj1 PO')).
  destruct (check_ok (with_exp k (pub_E k * RSA_PK))) as [CK|[er CK]]; rewrite CK; [rewrite !throw_ret | rewrite !throw_e; reflexivity].
  assert (public_ok (with_exp k (pub_E k * RSA_PK))) as PK'.
  { destruct (check_pubkey_ok (with_exp k (pub_E k * RSA_PK))) as [(r & ER & HR) _]; [destruct PK as (_ & _ & H & _); cbn [with_exp pub_N] in *; lia | destruct PK as (_ & _ & _ & H); cbn [with_exp pub_E] in *; unfold RSA_PK; lia|]. rewrite CK in ER. injection ER as <-. apply (HR tt). reflexivity. }
  pose proof (pool_loop_refines k (Z.to_nat (u8 (size - 1) - 1)) (set_E c' E) _ PO' PK') as H. destruct (pool_loop _ k _) as [es| | | |]; try contradiction.
  - destruct H as (cs & -> & F2). cbn [bind]. eexists. split; [reflexivity|]. split; [exact PO|]. cbn [lp_keys pool_exps pool_key]. constructor; [exact PO' | exact F2].
  - rewrite H. reflexivity.
Qed.
Lemma pool_copy_loop_refines k : pub_N k <> 0 -> forall cs es, Forall2 (fun c e => pub_object c (with_exp k e)) cs es ->
  match pool_copy_loop k es with
  | Ok es' => exists cs', l_pool_copy_loop cs = Ok cs' /\ Forall2 (fun c e => pub_object c (with_exp k e)) cs' es'
  | Throw x => l_pool_copy_loop cs = Throw x
  | _ => False
  end.
Proof.
  intros N0 cs es F2. induction F2 as [|c e cs es (PUB & F & T) F2 IH]; cbn [pool_copy_loop l_pool_copy_loop]; [exists []; split; [reflexivity | constructor]|].
  destruct (copy_pub c (with_exp k e) PUB F (or_introl T) N0) as (c' & EC & PO'). rewrite EC, throw_ret, (check_pub_refines _ _ (proj1 PO')). destruct (check_ok (with_exp k e)) as [CK|[er CK]]; rewrite CK; [rewrite !throw_ret | rewrite !throw_e; reflexivity].
  destruct (pool_copy_loop k es) as [es'| | | |]; try contradiction.
  - destruct IH as (cs' & -> & F2'). cbn [bind]. eexists. split; [reflexivity|]. constructor; [exact PO' | exact F2'].
  - rewrite IH. reflexivity.
Qed.
Lemma pool_copy_refines p q : holds_pool p q -> public_ok (pool_key q) ->
  match pool_copy q with
  | Ok q' => exists p', l_pool_copy p = Ok p' /\ holds_pool p' q'
  | Throw x => l_pool_copy p = Throw x
  | _ => False
  end.
Proof.
  intros ((PUB & F & T) & F2) PK. pose proof (public_N _ PK) as NP. unfold pool_copy, l_pool_copy. pose proof (tdp_copy_refines (lp_key p) (pool_key q) PUB F (or_introl T) ltac:(lia)) as H.
  assert (rsa_check_pubkey (pool_key q) = ret tt) as CK by (apply check_pubkey_ok; [| |assumption]; destruct PK as (_ & _ & _ & H3); lia). rewrite CK in H. cbn [ret] in H. destruct H as (c' & -> & PO'). cbn [bind].
  pose proof (pool_copy_loop_refines (pool_key q) ltac:(lia) _ _ F2) as H. destruct (pool_copy_loop (pool_key q) (pool_exps q)) as [es'| | | |]; try contradiction.
  - destruct H as (cs' & -> & F2'). cbn [bind]. eexists. split; [reflexivity|]. split; [exact PO' | exact F2'].
  - rewrite H. reflexivity.
Qed.
Lemma set_R_object c k R : pub_object c k -> ctx_pub (set_R c R (c_RP c) (c_RQ c)) k -> pub_object (set_R c R (c_RP c) (c_RQ c)) k.
Proof.
  intros (_ & F & T) PUB'. split; [exact PUB'|]. split; [|exact T]. destruct PUB' as (_ & _ & _ & OR & LR & _). unfold ctx_objects in *. cbn [set_R c_N c_E c_D c_P c_Q c_DP c_DQ c_QP c_RN c_RP c_RQ c_Vi c_Vf] in *.
  repeat match goal with H : Forall _ (_ :: _) |- _ => apply Forall_cons_iff in H; let X := fresh "O" in destruct H as [X H] end. repeat (apply Forall_cons; [tauto|]). apply Forall_nil.
Qed.
Lemma upd_nth_forall2 {A B} (P : A -> B -> Prop) l l' i x y : Forall2 P l l' -> nth_error l' i = Some y -> P x y -> Forall2 P (upd_nth l i x) l'.
Proof.
  intros F. revert i. induction F as [|a b l l' H F IH]; intros i N PX; [now destruct i|]. destruct i as [|i]; cbn in N.
  - injection N as <-. unfold upd_nth. cbn. now constructor.
  - unfold upd_nth in *. cbn [firstn skipn app]. constructor; [exact H|]. now apply IH.
Qed.
Lemma forall2_nth {A B} (P : A -> B -> Prop) l l' i : Forall2 P l l' -> match nth_error l' i with Some y => exists x, nth_error l i = Some x /\ P x y | None => nth_error l i = None end.
Proof. intros F. revert i. induction F as [|a b l l' H F IH]; intros i; [now destruct i|]. destruct i as [|i]; cbn; [now exists a | apply IH]. Qed.
Lemma forall2_len {A B} {P : A -> B -> Prop} {l l'} : Forall2 P l l' -> length l = length l'.
Proof. induction 1; cbn; congruence. Qed.
Lemma pool_eval_refines p q g inp order : holds_pool p q -> is_bytes inp -> zlen inp <= 8000 ->
  drop (l_pool_eval p g inp order) = pool_eval q g inp order /\ forall p' y, l_pool_eval p g inp order = Ok (p', y) -> holds_pool p' q.
Proof.
  intros (PO & F2) B L. unfold l_pool_eval, pool_eval, l_pool_maximum_order, pool_maximum_order. pose proof (forall2_len F2) as LL. assert (zlen (lp_keys p) = zlen (pool_exps q)) as ZL by (unfold zlen; lia). rewrite ZL.
  pose proof PO as ((CL & _) & _). rewrite CL.
  assert (forall c k at_, pub_object c k -> pub_N k = pub_N (pool_key q) -> (forall R, ctx_pub (set_R c R (c_RP c) (c_RQ c)) k -> holds_pool (match at_ with None => MkPool (set_R c R (c_RP c) (c_RQ c)) (lp_keys p) | Some i => MkPool (lp_key p) (upd_nth (lp_keys p) i (set_R c R (c_RP c) (c_RQ c))) end) q) ->
    drop (x <- throw_if_err (l_read_binary l_init inp) ;; xr <- throw_if_err (l_exp_mod true x x (c_E c) (c_N c) (Some (c_RN c))) ;; out <- l_write_array (fst xr) g ;;
      let c := set_R c (kept (c_RN c) (snd xr)) (c_RP c) (c_RQ c) in Ok (match at_ with None => MkPool c (lp_keys p) | Some i => MkPool (lp_key p) (upd_nth (lp_keys p) i c) end, out)) =
    (x <- throw_if_err (mpi_read_binary inp) ;; x <- throw_if_err (mpi_exp_mod x (pub_E k) (pub_N (pool_key q))) ;; write_array x g) /\
    forall p' y, (x <- throw_if_err (l_read_binary l_init inp) ;; xr <- throw_if_err (l_exp_mod true x x (c_E c) (c_N c) (Some (c_RN c))) ;; out <- l_write_array (fst xr) g ;;
      let c := set_R c (kept (c_RN c) (snd xr)) (c_RP c) (c_RQ c) in Ok (match at_ with None => MkPool c (lp_keys p) | Some i => MkPool (lp_key p) (upd_nth (lp_keys p) i c) end, out)) = Ok (p', y) -> holds_pool p' q) as MAIN.
  { intros c k at_ PC EN UP. destruct (read_both inp B ltac:(lia)) as (-> & X & EX & OX & MX & SX & LX). rewrite EX, ?throw_ret. rewrite <- MX, <- EN.
    assert (1 <= mlen X <= 9000) as LX1. { assert ((zlen inp + 7) / 8 <= 1001) by (assert ((zlen inp + 7) / 8 < 1002); [apply Z.div_lt_upper_bound; lia | lia]). lia. }
    destruct (exp_refines c k X g (proj1 PC) OX SX LX1) as [E1 E2]. rewrite <- E1. destruct (l_exp_mod true X X (c_E c) (c_N c) (Some (c_RN c))) as [[e|xr]| | | |]; try (split; [reflexivity | discriminate]).
    specialize (E2 xr eq_refl). unfold throw_if_err. cbn [bind]. destruct (l_write_array (fst xr) g); cbn [bind drop]; try (split; [reflexivity | discriminate]). split; [reflexivity|]. intros p' y H. injection H as <- _. apply UP, E2. }
  destruct (order =? 1) eqn:O1.
  - cbn [bind]. destruct (negb _); [split; [reflexivity | discriminate]|]. apply (MAIN (lp_key p) (pool_key q) None PO eq_refl). intros R PR. split; [apply set_R_object; assumption | exact F2].
  - destruct (order <=? u8 (zlen (pool_exps q) + 1)); [|split; [reflexivity | discriminate]]. destruct (order <? 2) eqn:O2; [destruct (0 <=? order - 2) eqn:O3; [lia|]; split; [reflexivity | discriminate]|].
    destruct (0 <=? order - 2) eqn:O3; [|lia]. cbn [andb]. pose proof (forall2_nth _ _ _ (Z.to_nat (order - 2)) F2) as NT. unfold lnth. destruct (order - 2 <? zlen (pool_exps q)) eqn:O4.
    + destruct (nth_error (pool_exps q) (Z.to_nat (order - 2))) as [e|] eqn:NE.
      * destruct NT as (c & NC & PC). rewrite NC. cbn [bind]. destruct (negb _); [split; [reflexivity | discriminate]|]. apply (MAIN c (with_exp (pool_key q) e) (Some (Z.to_nat (order - 2))) PC eq_refl). intros R PR. split; [exact PO|].
        cbn [lp_keys]. eapply upd_nth_forall2; [exact F2 | exact NE|]. apply set_R_object; assumption.
      * rewrite NT. split; [reflexivity | discriminate].
    + assert (nth_error (lp_keys p) (Z.to_nat (order - 2)) = None) as ->; [|split; [reflexivity | discriminate]]. apply nth_error_None. unfold zlen in *. lia.
Qed.
