(** Properties C90-C96: the RSA functions and the trapdoor permutation on objects made of limbs.  [ctx_pub], [ctx_priv], [pub_object]: the
    context holds the key.  The calls update the context (the constants RN, RP, RQ and the blinding pair); each theorem says that it
    holds the key afterwards. *)
From Coq Require Import Znumtheory.
From Verif Require Import Base BaseFacts MpiModel LimbModel LimbModel2 LimbSpec LimbSpec2 RsaKeyModel RsaKeySpec TdpKeyModel TdpModel TdpSpec LimbSpec3 LimbRsaModel LimbRsaSpec LimbKeyModel
  RsaKeyProofs2 RsaKeyProofs3 RsaKeyExample RsaMathProofs TdpProofs2 TdpProofs4 TdpExample LimbProofs20 LimbProofs23 LimbProofs24 LimbProofs25 LimbProofs26 LimbProofs27 LimbProofs28 LimbProofs29 LimbProofs30 LimbProofs31 LimbProofs32 LimbProofs33 LimbProofs18 LimbProperties LimbProperties3.

(** * C90 *)
(** eval on limbs is eval on numbers, also for moduli it refuses *)
Theorem C90_eval : forall c k g inp, ctx_pub c k -> is_bytes inp -> zlen inp <= 8000 ->
  drop (l_tdp_eval c g inp) = tdp_eval k g inp /\ forall c' y, l_tdp_eval c g inp = Ok (c', y) -> ctx_pub c' k.
Proof. exact eval_refines. Qed.
Print Assumptions C90_eval.
(** The value: x^E mod N, for any number of calls *)
Theorem C90_eval_value : forall k g inps c, pub_object c k -> public_ok k -> bits2048 (pub_N k) -> zlen g = 256 ->
  Forall (fun inp => is_bytes inp /\ zlen inp = 256) inps ->
  l_evals c g inps = Ok (map (fun inp => message (be_decode inp ^ pub_E k mod pub_N k)) inps).
Proof. exact evals_value. Qed.
Print Assumptions C90_eval_value.
Theorem C90_sample : forall c k f n rnd, ctx_pub c k -> same_random f n rnd -> l_tdp_sample c f n = tdp_sample k rnd.
Proof. exact sample_refines. Qed.
Print Assumptions C90_sample.
Theorem C90_generate : forall c k rnd, ctx_pub c k -> is_bytes rnd -> zlen rnd = 264 -> bits2048 (pub_N k) ->
  l_tdp_generate c rnd = Ok (message (be_decode rnd mod pub_N k)).
Proof. exact generate_value. Qed.
Print Assumptions C90_generate.
(** A context read from bytes; the library function behind eval on a modulus of two limbs *)
Example C90_nontrivial : pub_object (ctx_of 16 1 src_key) src_key /\ public_ok src_key /\ pub_object (ctx_of 256 1 pub3) pub3 /\ public_ok pub3 /\ bits2048 (pub_N pub3) /\
  (xr <-? expo (ctx_of 16 1 src_key) (rd_num 16 (2 ^ 50)) ;; ret (mval (fst xr))) = ret ((2 ^ 150) mod (2 ^ 127 + 1)).
Proof.
  destruct small_keys_ok as (A & _ & B & _), pub3_ok as [C D]. split; [exact B|]. split; [exact A|]. split; [now apply ctx_of_2048|]. split; [exact C|]. split; [exact D|]. vm_compute. reflexivity.
Qed.

(** * C91 *)
(** mbedtls_rsa_private on limbs: the same result, error code and blinding pair as on numbers *)
Theorem C91_private : forall c k bl f n rnd inp out, ctx_priv c k bl -> private_ok k -> same_random f n rnd -> is_bytes inp ->
  match rsa_private k bl rnd inp out with
  | Ok (bl', r) => exists c' n', l_rsa_private f inp out c n = Ok (r, c', n') /\ ctx_priv c' k bl'
  | UB => l_rsa_private f inp out c n = UB
  | _ => False
  end.
Proof. exact (fun c k bl f n rnd inp out C K => private_refines c k bl f n rnd inp out C (private_sane k K)). Qed.
Print Assumptions C91_private.
(** Any sequence of eval, invert, invert_mult, sample and generate on an object made from a text answers what the model on numbers answers *)
Theorem C91_sequences : forall alloc s k os, is_bytes s -> zlen s <= 7999 -> tdp_from_private alloc s = Ok k -> Forall op_ok os ->
  exists c P1 Q1, l_tdp_from_private alloc s = Ok (c, (P1, Q1)) /\ snd (run (l_do P1 Q1) c os) = snd (run (k_do k) None os).
Proof. exact text_run. Qed.
Print Assumptions C91_sequences.
(** ... so that invert undoes eval, which is x^E mod N, after any such sequence *)
Theorem C91_inverse_partial : forall alloc s k os f n g g' x, is_bytes s -> zlen s <= 7999 -> tdp_from_private alloc s = Ok k -> tdp_key k ->
  Forall op_ok os -> Forall (op_good k) os -> random_bytes f n -> (exists i, (i < 11)%nat /\ Z.gcd (rnd_of f n i 255) (key_N k) = 1) ->
  zlen g = 256 -> zlen g' = 256 -> 0 <= x < key_N k ->
  exists c P1 Q1 c1 y c2, l_tdp_from_private alloc s = Ok (c, (P1, Q1)) /\ fst (run (l_do P1 Q1) c os) = c1 /\
    y = message (x ^ key_E k mod key_N k) /\ l_tdp_eval c1 g (message x) = Ok (c2, y) /\ snd (l_tdp_invert c2 f n g' y) = Ok (message x).
Proof. exact text_inverse. Qed.
Print Assumptions C91_inverse_partial.
Definition ones : rng := fun _ n => inr (match n with O => [] | S n => zeros n ++ [1] end).
Definition some_ops : list l_op := [OpEval (zeros 256) (message 5); OpInvert ones 0 (zeros 256) (message 5); OpInvertMult (message 7) 12;
  OpSample ones 3; OpGenerate (repeat 200 264); OpInvert ones 1 (zeros 256) (repeat 255 256); OpEval (zeros 256) [1; 2; 3]].
Example C91_nontrivial : is_bytes (pem_private_key tkey) /\ zlen (pem_private_key tkey) <= 7999 /\ tdp_from_private (fun _ => true) (pem_private_key tkey) = Ok tkey /\ tdp_key tkey /\
  Forall op_ok some_ops /\ Forall (op_good tkey) some_ops /\ random_bytes ones 9 /\ (exists i, (i < 11)%nat /\ Z.gcd (rnd_of ones 9 i 255) (key_N tkey) = 1).
Proof.
  assert (R : forall n, random_bytes ones n).
  { intros n i k. exists (match k with O => [] | S m => zeros m ++ [1] end). split; [reflexivity|]. destruct k as [|k]; [split; [constructor | reflexivity]|].
    split; [apply is_bytes_app; split; [apply is_bytes_zeros | repeat constructor; discriminate]|]. rewrite app_length. unfold zeros. rewrite repeat_length. cbn [length]. apply Nat.add_1_r. }
  assert (I : forall b n, 0 <= b < 256 -> is_bytes (repeat b n)) by (intros b n B; apply Forall_forall; intros x Hx; apply repeat_spec in Hx; now subst x).
  assert (G : forall n k, exists i, (i < 11)%nat /\ Z.gcd (rnd_of ones n i 255) k = 1) by (intros n k; exists O; split; [repeat constructor | change (rnd_of ones n 0 255) with 1; apply Z.gcd_1_l]).
  pose proof tkey_ok as T. destruct T as (PK & B & T').
  assert (TT : key_tiny tkey) by (apply private_tiny; [exact PK | exact (proj2 B) | split; [discriminate | reflexivity]]).
  split; [exact (pem_bytes tkey TT)|]. split; [apply Z.le_trans with 5000; [exact (private_text_len tkey TT) | discriminate]|].
  split; [apply from_private_ok; [reflexivity | exact PK | exact (proj2 B) | split; [discriminate | reflexivity]]|]. split; [exact tkey_ok|].
  split; [|split; [|split; [apply R | apply G]]].
  - assert (M : forall x, is_bytes (message x) /\ zlen (message x) <= 8000) by (intros x; split; [apply message_bytes | rewrite message_len; discriminate]).
    assert (J : forall b n, 0 <= b < 256 -> (n < 300)%nat -> is_bytes (repeat b n) /\ zlen (repeat b n) <= 8000) by (intros b n Hb Hn; split; [apply I; exact Hb | unfold zlen; rewrite repeat_length; apply Z.le_trans with 300; [apply Nat2Z.inj_lt in Hn; apply Z.lt_le_incl, Hn | discriminate]]).
    unfold some_ops. constructor; [exact (M 5)|]. constructor; [exact (conj (proj1 (M 5)) (R O))|]. constructor; [exact (M 7)|]. constructor; [exact (R 3%nat)|].
    constructor; [apply J; [split; [discriminate | reflexivity] | apply Nat.ltb_lt; reflexivity]|]. constructor; [split; [apply I; split; [discriminate | reflexivity] | exact (R 1%nat)]|].
    constructor; [split; [repeat constructor; discriminate | discriminate]|]. constructor.
  - unfold some_ops. constructor; [exact Logic.I|]. constructor; [split; [reflexivity|]; split; [apply message_len | apply G]|]. constructor; [exact Logic.I|]. constructor; [exact Logic.I|]. constructor; [exact Logic.I|].
    constructor; [split; [reflexivity|]; split; [reflexivity | apply G]|]. constructor; [exact Logic.I|]. constructor.
Qed.

(** * C92 *)
(** The checks of keys accept exactly the keys whose numbers fit together *)
Theorem C92_check_pubkey : forall c k, ctx_pub c k -> 0 <= pub_N k -> 0 <= pub_E k -> (l_check_pubkey c = ret tt <-> public_ok k) /\ exists r, l_check_pubkey c = Ok r.
Proof. exact check_pub_exact. Qed.
Print Assumptions C92_check_pubkey.
Theorem C92_check_privkey : forall c k, ctx_pub c (key_pub k) -> holds (c_D c) (key_D k) -> holds (c_P c) (key_P k) -> holds (c_Q c) (key_Q k) ->
  holds (c_DP c) (key_DP k) -> holds (c_DQ c) (key_DQ k) -> holds (c_QP c) (key_QP k) -> key_nonneg k ->
  (l_check_privkey c = ret tt <-> private_ok k) /\ exists r, l_check_privkey c = Ok r.
Proof. exact check_priv_exact. Qed.
Print Assumptions C92_check_privkey.
(** A context of 3 and 2 limbs with a private key, the same with another D, and one with other factors of the same product *)
Example C92_nontrivial : l_check_privkey (priv_ctx key130) = ret tt /\ private_ok key130 /\
  l_check_privkey (priv_ctx (with_D key130 (key_D key130 + 1))) = err ERR_RSA_KEY_CHECK_FAILED /\
  l_check_pubkey (priv_ctx key130) = ret tt.
Proof. split; [vm_compute; reflexivity|]. split; [exact key130_ok|]. split; vm_compute; reflexivity. Qed.

(** * C93 *)
(** A new key: 2048 bits, exponent 65537, all numbers fit together, factors accepted by the primality test; or an exception; or the search goes
    on for more than [fuel] pairs of primes or [pf] numbers after a starting point *)
Theorem C93_new_keys : forall fuel pf f n, rng_ok f -> Z.of_nat pf <= 2 ^ 8000 ->
  l_tdp_new fuel pf f n = Diverge \/ l_tdp_new fuel pf f n = Throw RuntimeError \/
  exists c P1 Q1 n' k, l_tdp_new fuel pf f n = Ok (c, (P1, Q1), n') /\ ctx_priv c k None /\ l_p1_q1 c = Ok (P1, Q1) /\ private_ok k /\ bits2048 (key_N k) /\ key_E k = 65537 /\
    candidate f 1024 (key_P k) /\ candidate f 1024 (key_Q k).
Proof. exact tdp_new_limb. Qed.
Print Assumptions C93_new_keys.
(** mbedtls_rsa_gen_key for any size and exponent: errors only for the reasons given, or as the computation on numbers has them for some
    candidates; keys are those computed on numbers from the candidates *)
Theorem C93_gen_key : forall fuel pf f nbits exponent n, rng_ok f -> nbits <= 8192 -> Z.of_nat pf <= 2 ^ 8000 -> exponent < 2 ^ 31 ->
  l_rsa_gen_key fuel pf f nbits exponent n = Diverge \/
  exists r n', l_rsa_gen_key fuel pf f nbits exponent n = Ok (r, n') /\
    match r with
    | inl er => (n' = n /\ forall cand, rsa_gen_key cand nbits exponent = err er) \/
        (exists c0 e, from_rng f c0 n' e /\ er = ERR_RSA_KEY_GEN_FAILED + e) \/
        exists cand, Forall (fun pq => candidate f (nbits / 2) (fst pq) /\ candidate f (nbits / 2) (snd pq)) cand /\ rsa_gen_key cand nbits exponent = err er
    | inr c => exists cand k, Forall (fun pq => candidate f (nbits / 2) (fst pq) /\ candidate f (nbits / 2) (snd pq)) cand /\ rsa_gen_key cand nbits exponent = ret k /\ ctx_priv c k None
    end.
Proof. exact LimbProofs25.gen_key_ok. Qed.
Print Assumptions C93_gen_key.

(** A generator that fails from its third call on; a number that a constant generator makes acceptable; sizes and exponents refused at once *)
Definition failing : rng := fun c n => if Nat.ltb c 2 then inr (zeros n) else inl (-52).
Example C93_nontrivial : rng_ok failing /\ l_tdp_new 5%nat 5%nat failing 2%nat = Throw RuntimeError /\ rng_ok const_two /\ candidate const_two 10 1009 /\
  l_rsa_gen_key 5%nat 5%nat failing 127 65537 0%nat = Ok (inl ERR_RSA_BAD_INPUT_DATA, O) /\ l_rsa_gen_key 5%nat 5%nat failing 128 1 0%nat = Ok (inl ERR_RSA_BAD_INPUT_DATA, O).
Proof.
  split; [intros c n; unfold failing; destruct (Nat.ltb c 2); [split; [apply is_bytes_zeros | apply repeat_length] | exact Logic.I]|]. split; [vm_compute; reflexivity|]. split; [exact const_two_ok|].
  split; [|split; vm_compute; reflexivity]. split; [reflexivity|]. split; [discriminate|]. exists (MkMpi (1) [1009]), 5%nat, 59%nat. split; [split; [now left | constructor; [split; [discriminate | reflexivity] | constructor]]|]. split; [reflexivity | vm_compute; reflexivity].
Qed.

(** * C94 *)
Theorem C94_invert_mult : forall c k bl P1 Q1 inp order, ctx_priv c k bl -> private_ok k -> l_p1_q1 c = Ok (P1, Q1) -> is_bytes inp -> zlen inp <= 8000 ->
  drop (l_tdp_invert_mult c P1 Q1 inp order) = tdp_invert_mult k inp order /\ forall c' y, l_tdp_invert_mult c P1 Q1 inp order = Ok (c', y) -> ctx_priv c' k bl.
Proof. exact invert_mult_refines. Qed.
Print Assumptions C94_invert_mult.

Lemma from_text : exists c P1 Q1, l_tdp_from_private (fun _ => true) (pem_private_key tkey) = Ok (c, (P1, Q1)) /\ l_p1_q1 c = Ok (P1, Q1) /\ ctx_priv c tkey None.
Proof.
  destruct C91_nontrivial as (A & B & C & _). pose proof (from_private_refines (fun _ => true) (pem_private_key tkey) A B) as H. rewrite C in H. destruct H as (c & P1 & Q1 & H1 & H2 & H3 & _). exists c, P1, Q1. auto.
Qed.
Example C94_nontrivial : exists c P1 Q1 c' y, ctx_priv c tkey None /\ private_ok tkey /\ l_p1_q1 c = Ok (P1, Q1) /\ l_tdp_invert_mult c P1 Q1 (message 7) 1000 = Ok (c', message y) /\ 0 <= y < key_N tkey.
Proof.
  destruct from_text as (c & P1 & Q1 & _ & H2 & H3). pose proof tkey_ok as (PK & _).
  destruct (ranges tkey tkey_ok [] rnd_one (zeros 256) (message 7) 1000 (Forall_nil _) (rnd_one_good (key_N tkey) ltac:(discriminate)) eq_refl (message_bytes 7) (message_len 7) ltac:(split; reflexivity)) as (_ & _ & (y & Y & R) & _).
  destruct (invert_mult_refines c tkey None P1 Q1 (message 7) 1000 H3 PK H2 (message_bytes 7) ltac:(rewrite message_len; discriminate)) as [E _]. rewrite Y in E.
  destruct (l_tdp_invert_mult c P1 Q1 (message 7) 1000) as [[c' y']| | | |] eqn:EE; try discriminate E. cbn [drop] in E. injection E as E. subst y'. exists c, P1, Q1, c', y. auto.
Qed.

(** * C95 *)
(** A copy holds the same key, whatever calls were made on the original, if its modulus has no leading zero limbs *)
Theorem C95_copy : forall c k, pub_object c k -> public_ok k -> exists c', l_tdp_copy c = Ok c' /\ pub_object c' k.
Proof. exact copy_object. Qed.
Print Assumptions C95_copy.
Theorem C95_eval_keeps_copyable : forall c k g inp c' y, pub_object c k -> is_bytes inp -> zlen inp <= 8000 -> l_tdp_eval c g inp = Ok (c', y) -> pub_object c' k.
Proof. exact eval_object. Qed.
Print Assumptions C95_eval_keeps_copyable.
Theorem C95_pool : forall c k size, pub_object c k -> public_ok k ->
  match pool_new k size with
  | Ok q => exists p, l_pool_new c size = Ok p /\ holds_pool p q
  | Throw x => l_pool_new c size = Throw x
  | UB => l_pool_new c size = UB
  | _ => False
  end.
Proof. exact pool_new_refines. Qed.
Print Assumptions C95_pool.
Theorem C95_pool_copy : forall p q, holds_pool p q -> public_ok (pool_key q) ->
  match pool_copy q with
  | Ok q' => exists p', l_pool_copy p = Ok p' /\ holds_pool p' q'
  | Throw x => l_pool_copy p = Throw x
  | _ => False
  end.
Proof. exact pool_copy_refines. Qed.
Print Assumptions C95_pool_copy.
Theorem C95_pool_eval : forall p q g inp order, holds_pool p q -> is_bytes inp -> zlen inp <= 8000 ->
  drop (l_pool_eval p g inp order) = pool_eval q g inp order /\ forall p' y, l_pool_eval p g inp order = Ok (p', y) -> holds_pool p' q.
Proof. exact pool_eval_refines. Qed.
Print Assumptions C95_pool_eval.
(** The assignment of TdpImpl_mbedTLS is right if the source was never used or the modulus it replaces has no more limbs *)
Theorem C95_assignment_partial : forall d c k, pub_object c k -> ctx_objects d -> mlen (c_N d) <= 1000 -> mlen (c_E d) <= 1000 ->
  mlen (c_N d) <= mlen (c_N c) \/ mp (c_RN c) = [] -> exists c', l_tdp_assign d c = Ok c' /\ ctx_pub c' k.
Proof. exact tdp_assign_ok. Qed.
Print Assumptions C95_assignment_partial.
(** ... but not after a call of the exponentiation: the constant R^2 mod N is copied as it is, while N keeps the limbs of the old modulus *)
Theorem C95_assignment_refuted : exists c k d k' X Y Y' R R' c2, public_ok k /\ public_ok k' /\ pub_object c k /\ pub_object d k' /\ mpi_ok X /\
  l_exp_mod false l_init X (c_E c) (c_N c) (Some (c_RN c)) = ret (Y, Some R) /\ mval Y = mval X ^ pub_E k mod pub_N k /\
  l_tdp_assign d (set_R c R (c_RP c) (c_RQ c)) = Ok c2 /\
  l_exp_mod false l_init X (c_E c2) (c_N c2) (Some (c_RN c2)) = ret (Y', Some R') /\ mval Y' <> mval X ^ pub_E k mod pub_N k.
Proof.
  destruct assign_wrong as (X & Y & Y' & R & R' & c2 & A1 & A2 & A3 & A4 & A5 & A6 & A7). destruct small_keys_ok as (B1 & B2 & B3 & B4).
  exists (ctx_of 16 1 src_key), src_key, (ctx_of 24 1 dst_key), dst_key, X, Y, Y', R, R', c2. rewrite A2. change (5 ^ pub_E src_key mod pub_N src_key) with (5 ^ 3).
  do 5 (split; [assumption|]). split; [exact A3|]. split; [exact A4|]. split; [exact A5|]. split; [exact A6 | exact A7].
Qed.
Print Assumptions C95_assignment_refuted.
(** The assignment of a pool does not replace the key used for order 1 *)
Theorem C95_pool_assignment_refuted : exists p q d e r y y', public_ok (pool_key q) /\ public_ok (pool_key e) /\ bits2048 (pub_N (pool_key q)) /\ bits2048 (pub_N (pool_key e)) /\
  holds_pool p q /\ holds_pool d e /\ l_pool_assign d p = Ok r /\
  drop (l_pool_eval p (zeros 256) (message 2) 1) = Ok y /\ drop (l_pool_eval r (zeros 256) (message 2) 1) = Ok y' /\ y <> y'.
Proof. exact pool_assign_wrong. Qed.
Print Assumptions C95_pool_assignment_refuted.
Example C95_nontrivial : pub_object (ctx_of 256 1 pub3) pub3 /\ public_ok pub3 /\ exists q p, pool_new pub3 9 = Ok q /\ l_pool_new (ctx_of 256 1 pub3) 9 = Ok p /\ holds_pool p q.
Proof.
  destruct pub3_ok as [C D]. assert (E : pub_object (ctx_of 256 1 pub3) pub3) by now apply ctx_of_2048. split; [exact E|]. split; [exact C|].
  assert (exists q, pool_new pub3 9 = Ok q) as [q Q] by (eexists; vm_compute; reflexivity). pose proof (pool_new_refines _ _ 9 E C) as H. rewrite Q in H. destruct H as (p & P & H). exists q, p. split; [exact Q|]. split; [exact P | exact H].
Qed.

(** * C96 *)
(** Objects made of texts hold the key that the parser on numbers finds, and fail with the same exceptions *)
Theorem C96_public_text : forall alloc s, is_bytes s -> zlen s <= 7999 ->
  match tdp_from_public alloc s with
  | Ok k => exists c, l_tdp_from_public alloc s = Ok c /\ pub_object c k
  | Throw x => l_tdp_from_public alloc s = Throw x
  | _ => False
  end.
Proof. exact from_public_refines. Qed.
Print Assumptions C96_public_text.
Theorem C96_private_text : forall alloc s, is_bytes s -> zlen s <= 7999 ->
  match tdp_from_private alloc s with
  | Ok k => exists c P1 Q1, l_tdp_from_private alloc s = Ok (c, (P1, Q1)) /\ l_p1_q1 c = Ok (P1, Q1) /\ ctx_priv c k None /\ pub_object c (key_pub k) /\ private_ok k
  | Throw x => l_tdp_from_private alloc s = Throw x
  | _ => False
  end.
Proof. exact from_private_refines. Qed.
Print Assumptions C96_private_text.
(** A key of 130 bits: the limbs of the modulus, and the exception for a text cut short *)
Example C96_nontrivial : (r <- l_tdp_from_private (fun _ => true) (pem_private_key key130) ;; Ok (mlen (c_N (fst r)), mval (c_N (fst r)), mval (c_QP (fst r)), mval (fst (snd r)))) =
    Ok (3, key_N key130, key_QP key130, key_P key130 - 1) /\
  l_tdp_from_private (fun _ => true) (firstn 150 (pem_private_key key130)) = Throw RuntimeError.
Proof. split; vm_compute; reflexivity. Qed.
