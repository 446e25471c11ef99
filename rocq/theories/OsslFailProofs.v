(** Failing calls of OpenSSL. *)
From Verif Require Import Base BaseFacts MpiModel RsaKeyModel RsaKeySpec TdpKeyModel TdpModel KeyVal HmacModel OsslModel OsslFailModel OsslFailSpec.
From Coq Require Import Lia.

Ltac good H := unfold fl_new, fl_num; rewrite ?H by lia; cbn [bind].
Lemma eval_good f l k inp : (forall i, (i <= 4)%nat -> f i = false) -> fl_eval f l k inp = ossl_eval k inp.
Proof. intros H. unfold fl_eval, ossl_eval. good H. destruct (negb _); reflexivity. Qed.
Lemma eval_string_good f l k s : (forall i, (i <= 4)%nat -> f i = false) -> fl_eval_string f l k s = ossl_eval_string k s.
Proof.
  intros H. unfold fl_eval_string, ossl_eval_string. destruct (negb _); [reflexivity|]. destruct (rd _ _ _) as [x| | | |]; cbn [bind]; [|reflexivity..]. apply eval_good, H.
Qed.
Lemma sample_good f k rnd : (forall i, (i <= 1)%nat -> f i = false) -> fl_sample f k rnd = ossl_sample k rnd.
Proof. intros H. unfold fl_sample, ossl_sample. good H. reflexivity. Qed.
Lemma generate_good f l H ml gp r t k pk seed : (forall i, (i <= 3)%nat -> f i = false) -> fl_generate f l H ml gp r t k pk seed = ossl_generate H ml gp r t k pk seed.
Proof. intros Hf. unfold fl_generate, ossl_generate, fl_generate_from. destruct (prf_string _ _ _ _ _ _ _ _) as [a o]. good Hf. reflexivity. Qed.
Lemma public_good f k : (forall i, (i <= 3)%nat -> f i = false) -> fl_public_key f k = Ok (ossl_public_key k).
Proof. intros H. unfold fl_public_key. rewrite !H by lia. reflexivity. Qed.
Lemma private_good f o : (forall i, (i <= 5)%nat -> f i = false) -> fl_private_key f o = Ok (ossl_private_key o).
Proof. intros H. unfold fl_private_key. rewrite !H by lia. reflexivity. Qed.
Lemma members_good f l k : (forall i, (i <= 5)%nat -> f i = false) -> fl_members f l k = Ok (ossl_members k).
Proof. intros H. unfold fl_members. good H. reflexivity. Qed.
Lemma invert_good f o g inp : f 0%nat = false -> fl_invert f o g inp = ossl_invert o g inp /\ fl_invert_string f o g inp = ossl_invert_string o g inp.
Proof. intros H. unfold fl_invert, ossl_invert, fl_invert_string, ossl_invert_string, fl_decrypt. rewrite H. split; reflexivity. Qed.
Lemma invert_mult_good f l o inp order : (forall i, (i <= 18)%nat -> f i = false) -> fl_invert_mult f l o inp order = ossl_invert_mult o inp order.
Proof. intros H. unfold fl_invert_mult, ossl_invert_mult. good H. cbv zeta. destruct (order =? 0); [reflexivity|]. destruct (negb _); reflexivity. Qed.
Lemma pool_loop_good f l n i k : (forall j, (2 * i <= j < 2 * (i + n))%nat -> f j = false) -> fl_pool_loop f l n i k = Ok (map Some (ossl_pool_loop n k)).
Proof.
  revert i k. induction n as [|n IH]; intros i k H; [reflexivity|]. cbn [fl_pool_loop ossl_pool_loop]. unfold fl_next_key. good H.
  rewrite IH by (intros j Hj; apply H; lia). cbn [bind map]. reflexivity.
Qed.
(** A pool without null pointers *)
Definition pool_of (p : ossl_pool) : fl_pool := {| fp_key := op_key p; fp_keys := map Some (op_keys p) |}.
Lemma pool_new_good f l k size : 0 <= size < 256 -> (forall i, (i < 2 * Z.to_nat (size - 1))%nat -> f i = false) ->
  fl_pool_new f l k size = (p <- ossl_pool_new k size ;; Ok (pool_of p)).
Proof.
  intros Hs H. unfold fl_pool_new, ossl_pool_new. cbv zeta. destruct (Z.eqb_spec size 0) as [E|E]; [reflexivity|]. unfold u8. rewrite Z.mod_small by lia.
  destruct (Z.eqb_spec (size - 1) 0) as [E1|E1]; [reflexivity|]. rewrite pool_loop_good by (intros; apply H; lia). cbn [bind]. unfold pool_of. cbn [op_key op_keys].
  replace (Z.to_nat (size - 1)) with (S (Z.to_nat (size - 1 - 1))) by lia. reflexivity.
Qed.
Lemma dup_all_good f i ks : (forall j, (i <= j < i + length ks)%nat -> f j = false) -> fl_dup_all f i (map Some ks) = map Some (map RSAPublicKey_dup ks).
Proof.
  revert i. induction ks as [|k ks IH]; intros i H; [reflexivity|]. cbn [fl_dup_all map length option_map] in *. rewrite H by lia. rewrite IH by (intros; apply H; lia). reflexivity.
Qed.
Lemma pool_copy_good f p : (forall i, (i <= length (op_keys p))%nat -> f i = false) -> fl_pool_copy f (pool_of p) = Ok (pool_of (ossl_pool_copy p)).
Proof.
  intros H. unfold fl_pool_copy, fl_copy. rewrite H by lia. cbn [bind pool_of fp_keys fp_key]. rewrite dup_all_good by (intros; apply H; lia). reflexivity.
Qed.
Lemma pool_eval_good f p g inp order : f 0%nat = false -> fl_pool_eval f (pool_of p) g inp order = ossl_pool_eval p g inp order.
Proof.
  intros H. unfold fl_pool_eval, ossl_pool_eval, fl_maximum_order, ossl_maximum_order. rewrite H. cbn [pool_of fp_keys fp_key]. unfold zlen. rewrite map_length, nth_error_map.
  destruct (order =? 1); [reflexivity|]. destruct (order <=? _); [|reflexivity]. destruct (_ && _); [|reflexivity].
  destruct (nth_error (op_keys p) (Z.to_nat (order - 2))); reflexivity.
Qed.

Lemma reported_refl {A} (x : outcome A) : reported x x. Proof. left. reflexivity. Qed.
Lemma reported_throw {A} e (x : outcome A) : reported (Throw e) x. Proof. right. exists e. reflexivity. Qed.
Lemma checked f o g s k rnd : reported (fl_invert_string f o g s) (ossl_invert_string o g s) /\
  reported (fl_copy f k) (Ok (ossl_copy k)) /\
  (f 0%nat = false -> reported (fl_sample f k rnd) (ossl_sample k rnd)) /\
  (f 2%nat = false -> reported (fl_public_key f k) (Ok (ossl_public_key k))) /\
  (f 4%nat = false -> reported (fl_private_key f o) (Ok (ossl_private_key o))).
Proof.
  split; [|split; [|split; [|split]]].
  - destruct (f 0%nat) eqn:E; [|rewrite (proj2 (invert_good f o g s E)); apply reported_refl]. unfold fl_invert_string, ossl_invert_string, fl_decrypt. rewrite E. cbn [bind].
    destruct (negb _); [apply reported_refl|]. apply reported_throw.
  - unfold fl_copy. destruct (f 0%nat); [apply reported_throw|apply reported_refl].
  - intros E. unfold fl_sample, ossl_sample, fl_new. rewrite E. cbn [bind]. destruct (f 1%nat); [apply reported_throw|apply reported_refl].
  - intros E. unfold fl_public_key. rewrite E. destruct (f 0%nat), (f 1%nat), (f 3%nat); (apply reported_throw || apply reported_refl).
  - intros E. unfold fl_private_key. rewrite E. destruct (f 0%nat), (f 1%nat), (f 2%nat), (f 3%nat), (f 5%nat); (apply reported_throw || apply reported_refl).
Qed.
Lemma assigned f self t : fl_assign f self t = (self, Throw InvalidArgument) \/ fl_assign f self t = (ossl_assign self t, Ok tt).
Proof. unfold fl_assign, ossl_assign. destruct (f 0%nat); auto. Qed.

Ltac null := unfold fl_new; repeat match goal with |- context [if ?f ?i then UB else Ok tt] => let E := fresh "E" in destruct (f i) eqn:E; cbn [bind]; try reflexivity end.
Lemma null_eval f l k inp : RSA_size k = 256 -> f 0%nat = true \/ f 1%nat = true \/ f 3%nat = true -> fl_eval f l k inp = UB.
Proof. intros Hk H. unfold fl_eval. rewrite Hk. cbn [negb Z.eqb kMessageSize]. null. destruct H as [H|[H|H]]; congruence. Qed.
Lemma null_generate f l k rnd : f 0%nat = true \/ f 1%nat = true \/ f 2%nat = true -> fl_generate_from f l k rnd = UB.
Proof. intros H. unfold fl_generate_from. null. destruct H as [H|[H|H]]; congruence. Qed.
Lemma null_sample f k rnd : f 0%nat = true -> fl_sample f k rnd = UB.
Proof. intros H. unfold fl_sample, fl_new. rewrite H. reflexivity. Qed.
Lemma null_members f l k : f 0%nat = true \/ f 1%nat = true \/ f 2%nat = true \/ f 5%nat = true -> fl_members f l k = UB.
Proof. intros H. unfold fl_members. null. destruct H as [H|[H|[H|H]]]; congruence. Qed.
Lemma null_invert_mult f l o inp order : RSA_size (key_pub (oi_key o)) = 256 -> order <> 0 ->
  (exists i, In i [0; 1; 2; 3; 7; 9; 10; 11; 12]%nat /\ f i = true) -> fl_invert_mult f l o inp order = UB.
Proof.
  intros Hk Ho (i & Hi & H). unfold fl_invert_mult. cbv zeta. rewrite Hk. destruct (Z.eqb_spec order 0); [contradiction|]. cbn [negb Z.eqb kMessageSize]. null. cbn [In] in Hi.
  repeat (destruct Hi as [<-|Hi]; [congruence|]). contradiction.
Qed.
Lemma null_pool_new f l k size i : 2 <= size < 256 -> 0 <= i < size - 1 -> f (2 * Z.to_nat i)%nat = true -> fl_pool_new f l k size = UB.
Proof.
  intros Hs Hi H. unfold fl_pool_new. cbv zeta. destruct (Z.eqb_spec size 0); [lia|]. unfold u8. rewrite Z.mod_small by lia. destruct (Z.eqb_spec (size - 1) 0); [lia|].
  assert (forall n a k, (a <= Z.to_nat i < a + n)%nat -> fl_pool_loop f l n a k = UB) as G.
  { intros m0. induction m0 as [|m1 IH]; intros a k0 Ha; [lia|]. cbn [fl_pool_loop]. unfold fl_next_key, fl_new. destruct (Nat.eq_dec a (Z.to_nat i)) as [->|N]; [rewrite H; reflexivity|].
    destruct (f (2 * a)%nat); [reflexivity|]. cbn [bind]. rewrite IH by lia. reflexivity. }
  rewrite G by lia. reflexivity.
Qed.
Lemma zero_out : put_bn 0 = Ok (zeros 256).
Proof. reflexivity. Qed.
Lemma silent_eval k inp : RSA_size k = 256 -> fl_eval (only 4) (fun _ => 0) k inp = Ok (zeros 256).
Proof. intros H. unfold fl_eval. rewrite H. reflexivity. Qed.
Lemma silent_generate k rnd : fl_generate_from (only 3) (fun _ => 0) k rnd = Ok (zeros 256).
Proof. reflexivity. Qed.
Lemma silent_invert_mult o inp order : RSA_size (key_pub (oi_key o)) = 256 -> order <> 0 -> fl_invert_mult (only 18) (fun _ => 0) o inp order = Ok (zeros 256).
Proof. intros H Ho. unfold fl_invert_mult. cbv zeta. rewrite H. destruct (Z.eqb_spec order 0); [contradiction|]. reflexivity. Qed.
Lemma silent_invert o g inp : fl_invert (only 0) o g inp = Ok g. Proof. reflexivity. Qed.
Lemma silent_pool_eval p g inp : fl_pool_eval (only 0) p g inp 1 = Ok g. Proof. reflexivity. Qed.
Lemma silent_pool_new k : exists p, fl_pool_new (only 1) (fun _ => pub_E k) k 2 = Ok p /\ fl_maximum_order p = 2 /\ forall f g inp, fl_pool_eval f p g inp 2 = fl_pool_eval f p g inp 1.
Proof. destruct k as [n e]. exists {| fp_key := {| pub_N := n; pub_E := e |}; fp_keys := [Some {| pub_N := n; pub_E := e |}] |}. split; [reflexivity|]. split; [reflexivity|]. reflexivity. Qed.
Lemma silent_pool_copy p k ks : op_keys p = k :: ks -> exists q, fl_pool_copy (only 1) (pool_of p) = Ok q /\ (zlen ks < 254 -> forall f g inp, fl_pool_eval f q g inp 2 = UB).
Proof.
  intros E. unfold fl_pool_copy, fl_copy. cbn [only Nat.eqb bind pool_of fp_key fp_keys]. rewrite E. cbn [map fl_dup_all only Nat.eqb]. eexists. split; [reflexivity|].
  intros Hl f g inp. unfold fl_pool_eval, fl_maximum_order. cbn [fp_key fp_keys]. change (2 =? 1) with false. cbv iota. change (2 - 2) with 0.
  destruct (2 <=? _) eqn:E1; [|exfalso]; [destruct ((0 <=? 0) && _); reflexivity|]. apply Z.leb_gt in E1. revert E1.
  assert (length (fl_dup_all (only 1) 2 (map Some ks)) = length ks) as EL by (generalize 2%nat as i; clear; induction ks as [|a ks IH]; intros i; [reflexivity|]; cbn [map fl_dup_all length]; rewrite IH; reflexivity).
  unfold zlen in *. cbn [length]. rewrite EL. unfold u8. rewrite Z.mod_small by lia. lia.
Qed.
Lemma silent_members k : fl_members (only 3) (fun _ => key_P k) k = Ok {| oi_key := k; oi_p_1 := key_P k; oi_q_1 := key_Q k - 1 |}.
Proof. reflexivity. Qed.

Lemma thrown f : (forall o g s, f 0%nat = true -> exists e, fl_invert_string f o g s = Throw e) /\
  (forall k, f 0%nat = true -> exists e, fl_copy f k = Throw e) /\ (forall k rnd, f 0%nat = false -> f 1%nat = true -> exists e, fl_sample f k rnd = Throw e) /\
  (forall k, f 2%nat = false -> (exists i, In i [0; 1; 3]%nat /\ f i = true) -> exists e, fl_public_key f k = Throw e) /\
  (forall o, f 4%nat = false -> (exists i, In i [0; 1; 2; 3; 5]%nat /\ f i = true) -> exists e, fl_private_key f o = Throw e).
Proof.
  split; [|split; [|split; [|split]]].
  - intros o g s H. unfold fl_invert_string, fl_decrypt. rewrite H. destruct (negb _); eexists; reflexivity.
  - intros k H. unfold fl_copy. rewrite H. eexists. reflexivity.
  - intros k rnd H0 H1. unfold fl_sample, fl_new. rewrite H0, H1. eexists. reflexivity.
  - intros k H2 (i & [<-|[<-|[<-|[]]]] & Hi); unfold fl_public_key; rewrite H2, Hi; repeat match goal with |- context [f ?n] => destruct (f n) end; cbn [orb]; eexists; reflexivity.
  - intros o H2 (i & [<-|[<-|[<-|[<-|[<-|[]]]]]] & Hi); unfold fl_private_key; rewrite H2, Hi; repeat match goal with |- context [f ?n] => destruct (f n) end; cbn [orb]; eexists; reflexivity.
Qed.
Lemma malloc_untested f : (forall k, f 0%nat = false -> f 1%nat = false -> f 2%nat = true -> fl_public_key f k = UB) /\
  (forall o, (forall i, (i < 4)%nat -> f i = false) -> f 4%nat = true -> fl_private_key f o = UB).
Proof.
  split; [intros k A B C; unfold fl_public_key; now rewrite A, B, C|]. intros o H A. unfold fl_private_key. rewrite A, !H by lia. reflexivity.
Qed.
