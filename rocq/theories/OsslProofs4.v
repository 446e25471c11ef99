(** Lemmas on the implementation with OpenSSL: inversion, agreement with the implementation with mbedTLS, other sizes. *)
From Coq Require Import Znumtheory Zpow_facts Lia.
From Verif Require Import Base BaseFacts MpiModel MpiProofs RsaKeyModel RsaKeySpec RsaKeyExample TdpKeyModel TdpModel TdpSpec FermatProofs RsaMathProofs TdpProofs TdpProofs2
  TdpProofs3 TdpProofs4 KeyVal HmacModel HmacSpec HmacProofs2 OsslModel OsslSpec OsslProofs OsslProofs2.

Section Inv.
Context (o : ossl_inverse) (HM : made o) (HK : tdp_key (oi_key o)).
Let k := oi_key o.
Let N := key_N k.

Lemma ok_small : 2 < N /\ N < space.
Proof. destruct (tdp_key_facts k HK) as (_ & _ & _ & HB). destruct (bits2048_facts _ HB) as (_ & A & B). split; assumption. Qed.
Lemma ok_eval inp : ossl_eval (key_pub k) inp = Ok (message (be_decode inp ^ key_E k mod N)).
Proof. destruct (tdp_key_facts k HK) as (_ & _ & _ & HB). exact (o_eval_ok (key_pub k) HB inp). Qed.
Lemma ok_mod x : 0 <= x mod N < N.
Proof. destruct ok_small. apply Z.mod_pos_bound. lia. Qed.

Lemma o_invert_eval g x : zlen g = 256 -> 0 <= x < N ->
  exists c, ossl_eval (key_pub k) (message x) = Ok c /\ ossl_invert o g c = Ok (message x) /\ ossl_invert_string o g c = Ok (message x).
Proof.
  intros Lg Hx. destruct ok_small as [N2 NS]. rewrite ok_eval, message_decode by lia. eexists. split; [reflexivity|].
  pose proof (ok_mod (x ^ key_E k)) as B. set (c := x ^ key_E k mod N) in *.
  assert (R : RSA_eay_mod_exp k (be_decode (message c)) = x).
  { rewrite message_decode by lia. destruct (tdp_key_facts k HK) as (F & FP & FQ & _). apply (root_unique k F FP FQ c); [apply (eay_root k HK)|].
    split; [exact Hx|]. fold N. symmetry. apply Zmod_mod. }
  destruct (o_invert_ok k HK o g (message c) eq_refl Lg (message_len c)) as [E1 E2]; [rewrite message_decode by lia; apply B|].
  rewrite E1, E2, R. split; reflexivity.
Qed.
Lemma o_eval_invert g x : zlen g = 256 -> 0 <= x < N ->
  exists c, ossl_invert o g (message x) = Ok c /\ ossl_invert_string o g (message x) = Ok c /\ ossl_eval (key_pub k) c = Ok (message x).
Proof.
  intros Lg Hx. destruct ok_small as [N2 NS].
  destruct (o_invert_ok k HK o g (message x) eq_refl Lg (message_len x)) as [E1 E2]; [rewrite message_decode by lia; apply Hx|].
  rewrite E1, E2. eexists. split; [reflexivity|]. split; [reflexivity|]. rewrite message_decode by lia.
  destruct (eay_root k HK x) as [B E]. rewrite ok_eval, message_decode by (unfold N in NS; lia). rewrite (Z.mod_small x) in E by exact Hx. do 2 f_equal. exact E.
Qed.
Lemma o_string_eval s : zlen s = 256 -> ossl_eval_string (key_pub k) s = ossl_eval (key_pub k) s.
Proof. destruct (tdp_key_facts k HK) as (_ & _ & _ & HB). exact (o_eval_string_ok (key_pub k) HB s). Qed.

Lemma o_invert_mult_repeat g inp order : zlen g = 256 -> is_bytes inp -> zlen inp = 256 -> be_decode inp < N -> 0 <= order < 2 ^ 32 ->
  ossl_invert_mult o inp order = repeat_call (Z.to_nat order) (ossl_invert o g) inp /\
  ossl_invert_mult_string o inp order = ossl_invert_mult o inp order.
Proof.
  intros Lg Hi Li Hx Ho. split.
  - rewrite (made_members o HM). fold k. rewrite (o_mult_mbed k HK) by assumption.
    destruct (Z.eq_dec order 0) as [->|]; [reflexivity|].
    destruct (invert_mult_root k HK inp order Hi Li ltac:(lia)) as (y & -> & R).
    destruct (o_repeat_root k HK (ossl_members k) g eq_refl Lg (Z.to_nat order) inp Hi Li Hx) as (z & -> & R').
    do 2 f_equal. exact (nroot_unique k HK _ _ _ _ R R').
  - unfold ossl_invert_mult_string, kMessageSize. now rewrite str_data_rd.
Qed.

(** Agreement with the implementation with mbedTLS *)
Lemma agree_inverse cs rnd g g' inp order : Forall (good_call N) cs -> rng_good N rnd -> zlen g = 256 -> zlen g' = 256 ->
  is_bytes inp -> zlen inp = 256 -> 0 <= order < 2 ^ 32 ->
  ossl_eval (key_pub k) inp = tdp_eval (key_pub k) g inp /\
  ossl_invert_mult o inp order = tdp_invert_mult k inp order /\
  (be_decode inp < N -> ossl_invert o g' inp = snd (tdp_invert k rnd g (tdp_run k None cs) inp)).
Proof.
  intros Hc Hr Lg Lg' Hi Li Ho. destruct (tdp_key_facts k HK) as (F & FP & FQ & HB). split; [|split].
  - rewrite ok_eval. symmetry. exact (eval_key k HK g inp Hi Li Lg).
  - rewrite (made_members o HM). exact (o_mult_mbed k HK inp order Hi Li Ho).
  - intros Hx. rewrite (proj1 (o_invert_ok k HK o g' inp eq_refl Lg' Li Hx)).
    pose proof (invert_ok k HK rnd g (tdp_run k None cs) inp (run_ok k HK cs None I Hc) Hr Lg Hi Li) as V.
    change (key_N k) with N in V. rewrite (proj2 (Z.leb_gt _ _) Hx) in V. destruct V as (bl' & y & -> & R & _). cbn [snd]. do 2 f_equal.
    exact (root_unique k F FP FQ _ _ _ (eay_root k HK (be_decode inp)) R).
Qed.
End Inv.

Lemma agree_public k g s : public_ok k -> bits2048 (pub_N k) -> is_bytes s -> zlen g = 256 ->
  (zlen s = 256 -> ossl_eval k s = tdp_eval k g s) /\ ossl_eval_string k s = tdp_eval_string k g s.
Proof.
  intros (HO & _ & _ & E3) HB Hs Lg. assert (HE : 0 <= pub_E k) by lia. split.
  - intros L. rewrite (o_eval_ok k HB), (eval_ok k HB HO HE) by assumption. reflexivity.
  - destruct (Z.eq_dec (zlen s) 256) as [L|L].
    + rewrite (o_eval_string_ok k HB s L), (o_eval_ok k HB), (eval_string_ok k HB HO HE) by assumption. reflexivity.
    + rewrite (o_eval_string_bad k HB s L), (eval_string_bad k HB g s L). reflexivity.
Qed.
Lemma agree_pool k size p op g g' inp order : public_ok k -> bits2048 (pub_N k) -> 0 <= size < 256 -> pool_new k size = Ok p -> ossl_pool_new k size = Ok op ->
  zlen g = 256 -> zlen g' = 256 -> is_bytes inp -> zlen inp = 256 -> be_decode inp < pub_N k -> 1 <= order <= size ->
  ossl_pool_eval op g inp order = pool_eval p g' inp order.
Proof.
  intros HK HB Hs Hp Ho Lg Lg' Hi Li Hx Hor. destruct (opool_inv _ _ _ Hs Ho) as [S1 _].
  pose proof Hp as Hp'. rewrite pool_new_ok in Hp' by (first [exact HK|lia]). destruct (pub_E k * RSA_PK ^ (size - 1) <? pub_N k) eqn:C; [|discriminate].
  apply Z.ltb_lt in C. injection Hp' as Ep.
  assert (M : pool_maximum_order p = size).
  { subst p. unfold pool_maximum_order, zlen. cbn [pool_exps]. rewrite exps_length. unfold u8. rewrite Z.mod_small; lia. }
  rewrite (opool_eval_val k size) by assumption. rewrite (pool_eval_val k size p g' inp order) by (first [assumption|lia]).
  rewrite (proj2 (Z.leb_gt (pub_N k) (be_decode inp)) Hx), orb_false_r.
  rewrite (proj2 (Z.leb_gt _ _)); [reflexivity|]. apply Z.le_lt_trans with (2 := C). change RSA_PK with 65537.
  destruct HK as (_ & _ & _ & E3). apply Z.mul_le_mono_nonneg_l; [lia|]. apply Z.pow_le_mono_r; lia.
Qed.

(** * Other sizes *)
Lemma o_wrong_sizes o g p order s : bits2048 (key_N (oi_key o)) -> bits2048 (pub_N (op_key p)) -> zlen s <> 256 ->
  ossl_eval_string (key_pub (oi_key o)) s = Throw InvalidArgument /\ ossl_invert_string o g s = Throw InvalidArgument /\
  ossl_pool_eval_string p g s order = Throw InvalidArgument.
Proof.
  intros HB HP L. split; [exact (o_eval_string_bad (key_pub (oi_key o)) HB s L)|]. split.
  - unfold ossl_invert_string, kMessageSize. rewrite (proj2 (Z.eqb_neq _ _) L). reflexivity.
  - rewrite opool_eval_string by assumption. rewrite (proj2 (Z.eqb_neq _ _) L). reflexivity.
Qed.
Lemma o_other_moduli o inp order : RSA_size (key_pub (oi_key o)) <> 256 -> order <> 0 ->
  ossl_eval (key_pub (oi_key o)) inp = Throw RuntimeError /\ ossl_invert_mult o inp order = Throw InvalidArgument.
Proof.
  intros L Ho. unfold ossl_eval, ossl_invert_mult. cbv zeta. rewrite (proj2 (Z.eqb_neq order 0) Ho).
  rewrite (proj2 (Z.eqb_neq kMessageSize _)) by (unfold kMessageSize; congruence). split; reflexivity.
Qed.
Lemma o_invert_mult_short o s order : zlen s < 255 -> ossl_invert_mult_string o s order = UB.
Proof.
  intros L. unfold ossl_invert_mult_string, rd, str_data. rewrite zlen_app. change (zlen [0]) with 1. pose proof (zlen_nonneg s).
  replace (0 + kMessageSize <=? zlen s + 1) with false by (unfold kMessageSize; lia). rewrite !andb_false_r. reflexivity.
Qed.
Lemma o_invert_mult_long o s t order : zlen s = 256 -> ossl_invert_mult_string o (s ++ t) order = ossl_invert_mult_string o s order.
Proof.
  intros L. unfold ossl_invert_mult_string, str_data, kMessageSize. rewrite <- app_assoc, !rd_prefix by congruence. reflexivity.
Qed.
Lemma o_long_modulus o g inp : oi_key o = bigkey -> zlen g = 256 -> zlen inp = 256 -> is_bytes inp -> ossl_invert o g inp = UB.
Proof.
  intros E Lg Li Hi. pose proof (decode_range inp Hi Li) as B. unfold ossl_invert, RSA_private_decrypt. cbv zeta. rewrite E, Li.
  replace (RSA_size (key_pub bigkey)) with 257 by (vm_compute; reflexivity). change (257 <? 256) with false. cbn iota.
  rewrite (proj2 (Z.leb_gt _ _)). 2:{ eapply Z.lt_trans; [apply B|]. vm_compute. reflexivity. }
  unfold wr. unfold zlen at 1. rewrite be_encode_length. rewrite Lg. reflexivity.
Qed.
Lemma o_short_modulus o g inp : oi_key o = key130 -> zlen inp = 256 -> ossl_invert o g inp = Ok g.
Proof.
  intros E Li. unfold ossl_invert, RSA_private_decrypt. cbv zeta. rewrite E, Li.
  replace (RSA_size (key_pub key130)) with 17 by (vm_compute; reflexivity). reflexivity.
Qed.
Lemma o_eval_short s : zlen s = 17 -> ossl_eval_string (key_pub key130) s = UB.
Proof.
  intros L. unfold ossl_eval_string. rewrite L. replace (RSA_size (key_pub key130)) with 17 by (vm_compute; reflexivity). change (negb (17 =? 17)) with false. cbn iota.
  unfold rd, str_data. rewrite zlen_app, L. reflexivity.
Qed.
Lemma o_sample_ok k rnd : bits2048 (pub_N k) -> (forall x, rnd (pub_N k) = Some x -> 0 <= x < pub_N k) ->
  (rnd (pub_N k) = None /\ ossl_sample k rnd = Throw RuntimeError) \/
  exists x, rnd (pub_N k) = Some x /\ 0 <= x < pub_N k /\ ossl_sample k rnd = Ok (message x).
Proof.
  intros HB Hr. destruct (bits2048_facts _ HB) as (_ & _ & NS). unfold ossl_sample. destruct (rnd (pub_N k)) as [x|]; [|left; split; reflexivity].
  right. exists x. specialize (Hr x eq_refl). split; [reflexivity|]. split; [exact Hr|]. apply put_ok. lia.
Qed.
Lemma o_sample_long : ossl_sample (key_pub bigkey) (fun _ => Some (2 ^ 2048)) = UB.
Proof. vm_compute. reflexivity. Qed.

(** What a new object holds *)
Lemma o_generated gen o : (forall bits e k, gen bits e = Some k -> private_ok k /\ 2 ^ (bits - 1) <= key_N k < 2 ^ bits /\ rsa_factor (key_P k) /\ rsa_factor (key_Q k) /\ key_E k = e) ->
  ossl_new gen = Ok o -> made o /\ tdp_key (oi_key o) /\ key_E (oi_key o) = 65537.
Proof.
  intros G H. split; [left; exists gen; exact H|]. unfold ossl_new in H. destruct (gen RSA_MODULUS_SIZE RSA_PK) as [k|] eqn:E; [|discriminate]. injection H as <-.
  destruct (G _ _ _ E) as (K & B & P & Q & X). cbn [oi_key ossl_members]. split; [|exact X]. split; [exact K|]. split; [exact B|]. split; assumption.
Qed.
Lemma bio_text_short text : zlen text < 2 ^ 31 -> BIO_text text = text.
Proof.
  intros L. pose proof (Zle_0_nat (length text)) as Z0. unfold BIO_text, zlen in *. rewrite Z.mod_small by lia. rewrite (proj2 (Z.ltb_ge _ _)) by lia.
  replace (Z.to_nat _) with (length text) by lia. apply firstn_all.
Qed.
Lemma o_constructors text : zlen text < 2 ^ 31 ->
  (forall read k, read text = Some k -> ossl_from_public read text = Ok k) /\ (forall read, read text = None -> ossl_from_public read text = Throw RuntimeError) /\
  (forall read k, read text = Some (Some k) -> exists o, ossl_from_private read text = Ok o /\ made o /\ oi_key o = k) /\
  (forall read, read text = None -> ossl_from_private read text = Throw RuntimeError) /\
  (forall read, read text = Some None -> ossl_from_private read text = Throw InvalidArgument).
Proof.
  intros L. pose proof (bio_text_short text L) as B. split; [intros read k H; unfold ossl_from_public; now rewrite B, H|]. split; [intros read H; unfold ossl_from_public; now rewrite B, H|].
  split; [|split; intros read H; unfold ossl_from_private; now rewrite B, H].
  intros read k H. exists (ossl_members k). assert (ossl_from_private read text = Ok (ossl_members k)) as E by (unfold ossl_from_private; now rewrite B, H).
  split; [exact E|]. split; [right; exists read, text; exact E|reflexivity].
Qed.
