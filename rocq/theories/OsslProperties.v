(** Properties C98-C104: the trapdoor permutation implemented with OpenSSL.  [made o]: [o] was made by one of the constructors of
    TdpInverseImpl_OpenSSL, whatever key OpenSSL generated or read; [tdp_key]: that key is a proper one. *)
From Coq Require Import Znumtheory.
From Verif Require Import Base BaseFacts Base64Spec PemSpec MpiModel RsaKeyModel RsaKeySpec RsaKeyExample RsaKeyProofs2 RsaKeyProofs3 TdpKeyModel TdpModel TdpSpec RsaMathProofs
  TdpProofs2 TdpProofs3 TdpProofs4 TdpExample KeyVal HmacModel HmacSpec HmacProofs2 OsslModel OsslSpec OsslProofs OsslProofs2 OsslProofs3 OsslProofs4 OsslProofs5.

(** An object holding [tkey] *)
Definition otkey : ossl_inverse := ossl_members tkey.
Lemma otkey_made : made otkey.
Proof. left. now exists (fun _ _ => Some tkey). Qed.
Lemma otkey_pub : public_ok (key_pub tkey) /\ bits2048 (pub_N (key_pub tkey)) /\ pub_E (key_pub tkey) = 65537.
Proof. pose proof tkey_ok as ((K & _) & B & _). split; [exact K|]. split; [exact B|reflexivity]. Qed.

(** * C98 *)
(** Both compositions are the identity below the modulus; nothing is asked of the random generator, since there is no blinding *)
Theorem C98_invert_eval : forall o g x, made o -> tdp_key (oi_key o) -> zlen g = 256 -> 0 <= x < key_N (oi_key o) ->
  exists c, ossl_eval (key_pub (oi_key o)) (message x) = Ok c /\ ossl_invert o g c = Ok (message x) /\ ossl_invert_string o g c = Ok (message x).
Proof. exact (fun o g x _ HK => o_invert_eval o HK g x). Qed.
Print Assumptions C98_invert_eval.
Theorem C98_eval_invert : forall o g x, made o -> tdp_key (oi_key o) -> zlen g = 256 -> 0 <= x < key_N (oi_key o) ->
  exists c, ossl_invert o g (message x) = Ok c /\ ossl_invert_string o g (message x) = Ok c /\ ossl_eval (key_pub (oi_key o)) c = Ok (message x).
Proof. exact (fun o g x _ HK => o_eval_invert o HK g x). Qed.
Print Assumptions C98_eval_invert.
Theorem C98_eval_string : forall o s, made o -> tdp_key (oi_key o) -> zlen s = 256 ->
  ossl_eval_string (key_pub (oi_key o)) s = ossl_eval (key_pub (oi_key o)) s.
Proof. exact (fun o s _ HK => o_string_eval o HK s). Qed.
Print Assumptions C98_eval_string.
(** If RSA_generate_key_ex makes proper keys of the size and with the exponent it is asked for, a new object has a key of 2048 bits with exponent 65537, to which the theorems here apply *)
Theorem C98_generated : forall gen o, (forall bits e k, gen bits e = Some k -> private_ok k /\ 2 ^ (bits - 1) <= key_N k < 2 ^ bits /\ rsa_factor (key_P k) /\ rsa_factor (key_Q k) /\ key_E k = e) ->
  ossl_new gen = Ok o -> made o /\ tdp_key (oi_key o) /\ key_E (oi_key o) = 65537.
Proof. exact o_generated. Qed.
Print Assumptions C98_generated.
Example C98_generates : exists gen, ossl_new gen = Ok otkey /\
  forall bits e k, gen bits e = Some k -> private_ok k /\ 2 ^ (bits - 1) <= key_N k < 2 ^ bits /\ rsa_factor (key_P k) /\ rsa_factor (key_Q k) /\ key_E k = e.
Proof.
  exists (fun bits e => if andb (bits =? 2048) (e =? 65537) then Some tkey else None). split; [reflexivity|]. intros bits e k H.
  destruct (Z.eqb_spec bits 2048) as [->|]; [|discriminate]. destruct (Z.eqb_spec e 65537) as [->|]; [|discriminate]. injection H as <-.
  destruct tkey_ok as (K & B & P & Q). split; [exact K|]. split; [exact B|]. split; [exact P|]. split; [exact Q|reflexivity].
Qed.
Example C98_nontrivial : made otkey /\ tdp_key (oi_key otkey) /\ 0 <= 2 ^ 2000 + 1 < key_N (oi_key otkey).
Proof. split; [exact otkey_made|]. split; [exact tkey_ok|]. split; [vm_compute; discriminate|vm_compute; reflexivity]. Qed.

(** * C99 *)
Theorem C99_invert_mult : forall o g inp order, made o -> tdp_key (oi_key o) -> zlen g = 256 -> is_bytes inp -> zlen inp = 256 ->
  be_decode inp < key_N (oi_key o) -> 0 <= order < 2 ^ 32 ->
  ossl_invert_mult o inp order = repeat_call (Z.to_nat order) (ossl_invert o g) inp /\
  ossl_invert_mult_string o inp order = ossl_invert_mult o inp order.
Proof. exact (fun o g inp order HM HK => o_invert_mult_repeat o HM HK g inp order). Qed.
Print Assumptions C99_invert_mult.
Example C99_nontrivial : made otkey /\ tdp_key (oi_key otkey) /\ is_bytes (message 7) /\ zlen (message 7) = 256 /\ be_decode (message 7) < key_N (oi_key otkey).
Proof.
  split; [exact otkey_made|]. split; [exact tkey_ok|]. split; [apply message_bytes|]. split; [apply message_len|]. vm_compute. reflexivity.
Qed.

(** * C100 *)
(** Below order 128, on inputs below the modulus, for the exponent of the library's own keys *)
Theorem C100_pool_eval_partial : forall k size p g inp order, bits2048 (pub_N k) -> pub_E k = 65537 -> 0 <= size < 256 -> ossl_pool_new k size = Ok p ->
  zlen g = 256 -> is_bytes inp -> zlen inp = 256 -> be_decode inp < pub_N k -> 1 <= order <= ossl_maximum_order p -> order <= 127 ->
  ossl_pool_eval p g inp order = repeat_call (Z.to_nat order) (ossl_eval k) inp.
Proof.
  intros k size p g inp order HB HE Hs Hp Lg Hi Li Hx Ho. rewrite (opool_max k size p Hs Hp) in Ho.
  exact (opool_eval_times k size p g inp order HB HE Hs Hp Lg Hi Li Hx Ho).
Qed.
Print Assumptions C100_pool_eval_partial.
Theorem C100_pool_sizes : forall k size, 2 <= size < 256 -> exists p, ossl_pool_new k size = Ok p /\ ossl_maximum_order p = size /\ op_key p = k.
Proof. exact opool_sizes. Qed.
Print Assumptions C100_pool_sizes.
Theorem C100_large_orders : forall p g inp order, ossl_maximum_order p < order -> order <> 1 -> ossl_pool_eval p g inp order = Throw InvalidArgument.
Proof. exact opool_eval_large. Qed.
Print Assumptions C100_large_orders.
(** Orders from 128 on are accepted when the pool is that large, and the result is uninitialised memory: RSA_public_encrypt refuses
    the exponent, and its answer is not looked at *)
Theorem C100_orders_from_128_refuted : forall k size p g inp order, bits2048 (pub_N k) -> pub_E k = 65537 -> 0 <= size < 256 ->
  ossl_pool_new k size = Ok p -> zlen g = 256 -> zlen inp = 256 -> 128 <= order <= ossl_maximum_order p -> ossl_pool_eval p g inp order = Ok g.
Proof.
  intros k size p g inp order HB HE Hs Hp Lg Li Ho. rewrite (opool_max k size p Hs Hp) in Ho.
  exact (opool_eval_uninit k size p g inp order HB HE Hs Hp Lg Li (conj (Z.le_trans 1 128 order ltac:(discriminate) (proj1 Ho)) (proj2 Ho)) (or_introl (proj1 Ho))).
Qed.
Print Assumptions C100_orders_from_128_refuted.
(** So are inputs from the modulus on, at every order, while eval reduces them *)
Theorem C100_large_inputs_refuted : forall k size p g inp order, bits2048 (pub_N k) -> pub_E k = 65537 -> 0 <= size < 256 ->
  ossl_pool_new k size = Ok p -> zlen g = 256 -> zlen inp = 256 -> pub_N k <= be_decode inp -> 1 <= order <= ossl_maximum_order p ->
  ossl_pool_eval p g inp order = Ok g /\ exists y, ossl_eval k inp = Ok (message y) /\ 0 <= y < pub_N k.
Proof.
  intros k size p g inp order HB HE Hs Hp Lg Li Hx Ho. rewrite (opool_max k size p Hs Hp) in Ho.
  split; [exact (opool_eval_uninit k size p g inp order HB HE Hs Hp Lg Li Ho (or_intror Hx))|].
  exists (be_decode inp ^ pub_E k mod pub_N k). split; [exact (o_eval_ok k HB inp)|]. apply Z.mod_pos_bound.
  apply Z.lt_le_trans with (2 ^ 2047); [reflexivity|apply HB].
Qed.
Print Assumptions C100_large_inputs_refuted.
Theorem C100_order_0_refuted : forall p g inp, ossl_pool_eval p g inp 0 = UB.
Proof. exact opool_eval_order_0. Qed.
Print Assumptions C100_order_0_refuted.
Theorem C100_size_1_refuted : forall k, ossl_pool_new k 1 = UB.
Proof. exact opool_new_1. Qed.
Print Assumptions C100_size_1_refuted.
Theorem C100_any_exponent_refuted : exists k p, public_ok k /\ bits2048 (pub_N k) /\ ossl_pool_new k 2 = Ok p /\
  ossl_pool_eval p (zeros 256) (message 2) 2 <> repeat_call 2 (ossl_eval k) (message 2).
Proof.
  destruct pool_exponent_3 as (p' & E & M & V1 & V2). destruct pub3_ok as [K B]. destruct (opool_sizes pub3 2 ltac:(split; [discriminate|reflexivity])) as (p & Ep & _).
  exists pub3, p. split; [exact K|]. split; [exact B|]. split; [exact Ep|].
  rewrite (agree_pool pub3 2 p' p (zeros 256) (zeros 256) (message 2) 2 K B ltac:(split; [discriminate|reflexivity]) E Ep eq_refl eq_refl (message_bytes 2) (message_len 2)
    ltac:(vm_compute; reflexivity) ltac:(split; discriminate)).
  assert (R : repeat_call 2 (ossl_eval pub3) (message 2) = repeat_call 2 (tdp_eval pub3 (zeros 256)) (message 2)).
  { rewrite V2. rewrite (o_repeat_eval pub3 B 1 (message 2) (message_bytes 2) (message_len 2) ltac:(discriminate)). vm_compute. reflexivity. }
  rewrite R, V1, V2. vm_compute. discriminate.
Qed.
Print Assumptions C100_any_exponent_refuted.
Theorem C100_strings : forall p g s order, bits2048 (pub_N (op_key p)) ->
  ossl_pool_eval_string p g s order = if zlen s =? 256 then ossl_pool_eval p g s order else Throw InvalidArgument.
Proof. exact opool_eval_string. Qed.
Print Assumptions C100_strings.
Example C100_nontrivial : bits2048 (pub_N (key_pub tkey)) /\ pub_E (key_pub tkey) = 65537 /\ (exists p, ossl_pool_new (key_pub tkey) 200 = Ok p /\ ossl_maximum_order p = 200) /\
  be_decode (message 3) < pub_N (key_pub tkey) /\ pub_N (key_pub tkey) <= be_decode (repeat 255 256).
Proof.
  split; [apply otkey_pub|]. split; [reflexivity|]. split; [eexists; split; reflexivity|]. split; [vm_compute; reflexivity|vm_compute; discriminate].
Qed.

(** * C101 *)
(** On the same key the two implementations compute the same values *)
Theorem C101_same_inverse : forall o cs rnd g g' inp order, made o -> tdp_key (oi_key o) -> Forall (good_call (key_N (oi_key o))) cs ->
  rng_good (key_N (oi_key o)) rnd -> zlen g = 256 -> zlen g' = 256 -> is_bytes inp -> zlen inp = 256 -> 0 <= order < 2 ^ 32 ->
  ossl_eval (key_pub (oi_key o)) inp = tdp_eval (key_pub (oi_key o)) g inp /\
  ossl_invert_mult o inp order = tdp_invert_mult (oi_key o) inp order /\
  (be_decode inp < key_N (oi_key o) -> ossl_invert o g' inp = snd (tdp_invert (oi_key o) rnd g (tdp_run (oi_key o) None cs) inp)).
Proof. exact (fun o cs rnd g g' inp order HM HK => agree_inverse o HM HK cs rnd g g' inp order). Qed.
Print Assumptions C101_same_inverse.
Theorem C101_same_eval : forall k g s, public_ok k -> bits2048 (pub_N k) -> is_bytes s -> zlen g = 256 ->
  (zlen s = 256 -> ossl_eval k s = tdp_eval k g s) /\ ossl_eval_string k s = tdp_eval_string k g s.
Proof. exact agree_public. Qed.
Print Assumptions C101_same_eval.
Theorem C101_same_generate : forall H ml gp kb l seed r t k, bits2048 (pub_N k) -> (forall y, zlen (H y) = 64 /\ is_bytes (H y)) -> sized gp -> zlen kb = 32 ->
  zlen seed < 2 ^ 63 -> zlen r = 264 -> zlen t = zlen seed + 1 ->
  ossl_generate H ml gp r t k (VKey kb l) seed = tdp_generate H ml gp r t k (VKey kb l) seed /\
  ossl_generate_key H ml gp r t k (VKey kb l) seed = tdp_generate_key H ml gp r t k (VKey kb l) seed.
Proof. exact o_generate. Qed.
Print Assumptions C101_same_generate.
Theorem C101_same_pool_partial : forall k size p op g g' inp order, public_ok k -> bits2048 (pub_N k) -> 0 <= size < 256 -> pool_new k size = Ok p ->
  ossl_pool_new k size = Ok op -> zlen g = 256 -> zlen g' = 256 -> is_bytes inp -> zlen inp = 256 -> be_decode inp < pub_N k -> 1 <= order <= size ->
  ossl_pool_eval op g inp order = pool_eval p g' inp order.
Proof. exact agree_pool. Qed.
Print Assumptions C101_same_pool_partial.
(** They differ on inputs from the modulus on, and on pools of 128 powers and more *)
Theorem C101_same_refusals_refuted : exists o cs rnd g inp, made o /\ tdp_key (oi_key o) /\ Forall (good_call (key_N (oi_key o))) cs /\
  rng_good (key_N (oi_key o)) rnd /\ zlen g = 256 /\ is_bytes inp /\ zlen inp = 256 /\
  ossl_invert o g inp = Ok g /\ snd (tdp_invert (oi_key o) rnd g (tdp_run (oi_key o) None cs) inp) = Throw InvalidArgument.
Proof.
  assert (I : is_bytes (repeat 255 256)) by (apply Forall_forall; intros x Hx; apply repeat_spec in Hx; subst x; split; [discriminate|reflexivity]).
  assert (X : key_N tkey <= be_decode (repeat 255 256)) by (vm_compute; discriminate).
  assert (R : rng_good (key_N tkey) rnd_one) by (apply rnd_one_good; discriminate).
  exists otkey, [], rnd_one, (zeros 256), (repeat 255 256). split; [exact otkey_made|]. split; [exact tkey_ok|]. split; [constructor|]. split; [exact R|].
  split; [reflexivity|]. split; [exact I|]. split; [reflexivity|].
  split; [exact (proj1 (o_invert_out tkey tkey_ok otkey (zeros 256) (repeat 255 256) eq_refl eq_refl eq_refl X))|].
  pose proof (out_of_range tkey tkey_ok [] rnd_one (zeros 256) (repeat 255 256) (Forall_nil _) R eq_refl I eq_refl X) as [E _].
  change (oi_key otkey) with tkey. rewrite E. reflexivity.
Qed.
Print Assumptions C101_same_refusals_refuted.
Theorem C101_same_pools_refuted : exists k size p, public_ok k /\ bits2048 (pub_N k) /\ ossl_pool_new k size = Ok p /\ pool_new k size = Throw RuntimeError.
Proof.
  destruct (opool_sizes (key_pub tkey) 128 ltac:(split; [discriminate|reflexivity])) as (p & E & _). exists (key_pub tkey), 128, p.
  destruct otkey_pub as (K & B & E1). split; [exact K|]. split; [exact B|]. split; [exact E|]. apply (pool_sizes_large _ _ K B E1). split; discriminate.
Qed.
Print Assumptions C101_same_pools_refuted.
Example C101_nontrivial : made otkey /\ tdp_key (oi_key otkey) /\ rng_good (key_N tkey) rnd_composite /\ (exists p, pool_new (key_pub tkey) 100 = Ok p) /\
  (exists op, ossl_pool_new (key_pub tkey) 100 = Ok op).
Proof.
  split; [exact otkey_made|]. split; [exact tkey_ok|]. split; [apply rnd_composite_good; discriminate|]. destruct otkey_pub as (K & B & E).
  split; [destruct (pool_sizes (key_pub tkey) 100 K B E ltac:(split; discriminate)) as (p & Ep & _); now exists p|eexists; reflexivity].
Qed.

(** * C102 *)
(** The texts of the public key are the same, and are read back by the implementation with mbedTLS *)
Theorem C102_public_key : forall alloc, (forall n, alloc n = true) -> forall der buf k, public_ok k -> pub_N k < 2 ^ 2048 ->
  zlen der = RSA_PUB_DER_MAX_BYTES -> zlen buf = tdp_buf_size ->
  tdp_public_key alloc der buf k = Ok (ossl_public_key k) /\ tdp_from_public alloc (ossl_public_key k) = Ok k.
Proof. exact public_key_roundtrip. Qed.
Print Assumptions C102_public_key.
(** The text of the private key is another one (PKCS#8), which the implementation with mbedTLS reads as the same key *)
Theorem C102_private_key : forall alloc o, (forall n, alloc n = true) -> private_ok (oi_key o) -> key_N (oi_key o) < 2 ^ 2048 ->
  0 <= key_D (oi_key o) < key_N (oi_key o) -> tdp_from_private alloc (ossl_private_key o) = Ok (oi_key o).
Proof. exact (fun alloc o => pkcs8_mbedtls alloc (oi_key o)). Qed.
Print Assumptions C102_private_key.
(** deserialize never reads what serialize wrote, whatever OpenSSL's reader does: it searches the last line of another kind of text *)
Theorem C102_serialize_refuted : forall read o rest out, private_ok (oi_key o) -> key_N (oi_key o) < 2 ^ 2048 -> 0 <= key_D (oi_key o) < key_N (oi_key o) ->
  ~ In 45 rest -> zlen rest <= 2 ^ 61 -> zlen out = zlen (ossl_private_key o) ->
  ossl_serialize o out = Ok (ossl_private_key o) /\
  ossl_deserialize read (ossl_private_key o ++ rest) (zlen (ossl_private_key o ++ rest)) = Throw RuntimeError.
Proof.
  intros read o rest out H1 H2 H3 H4 H5 H6. split; [|exact (o_deserialize_none read (oi_key o) rest (private_tiny (oi_key o) H1 H2 H3) H4 H5)].
  unfold ossl_serialize. apply wr_all. symmetry. exact H6.
Qed.
Print Assumptions C102_serialize_refuted.
(** deserialize finds the text which the implementation with mbedTLS writes, whatever follows it: OpenSSL's reader is given that text without its
    last newline, and the newline is counted.  What is missing: the texts written by this implementation (see above) *)
Theorem C102_deserialize_partial : forall k rest, private_ok k -> key_N k < 2 ^ 2048 -> 0 <= key_D k < key_N k -> zlen rest < 2 ^ 61 -> forall read k',
  read (removelast (pem_private_key k)) = Some (Some k') ->
  exists o, ossl_deserialize read (pem_private_key k ++ rest) (zlen (pem_private_key k ++ rest)) = Ok (o, zlen (pem_private_key k)) /\ made o /\ oi_key o = k'.
Proof. exact o_deserialize_reads. Qed.
Print Assumptions C102_deserialize_partial.
(** The constructors give OpenSSL's reader the whole text, hold the key it reads, and throw when it reads none *)
Theorem C102_constructors : forall text, zlen text < 2 ^ 31 ->
  (forall read k, read text = Some k -> ossl_from_public read text = Ok k) /\ (forall read, read text = None -> ossl_from_public read text = Throw RuntimeError) /\
  (forall read k, read text = Some (Some k) -> exists o, ossl_from_private read text = Ok o /\ made o /\ oi_key o = k) /\
  (forall read, read text = None -> ossl_from_private read text = Throw RuntimeError) /\
  (forall read, read text = Some None -> ossl_from_private read text = Throw InvalidArgument).
Proof. exact o_constructors. Qed.
Print Assumptions C102_constructors.
(** The length is given to OpenSSL as an int: of a text of 2^32 bytes or more only the beginning is read, and a text of 2^31 bytes or more is read up to its first zero *)
Theorem C102_long_texts : forall pre rest,
  (zlen (pre ++ rest) = 2 ^ 32 + zlen pre -> zlen pre < 2 ^ 31 ->
    (forall read, ossl_from_public read (pre ++ rest) = ossl_from_public read pre) /\ (forall read, ossl_from_private read (pre ++ rest) = ossl_from_private read pre)) /\
  (~ In 0 pre -> zlen pre < 2 ^ 31 -> 2 ^ 31 <= zlen (pre ++ 0 :: rest) < 2 ^ 32 ->
    (forall read, ossl_from_public read (pre ++ 0 :: rest) = ossl_from_public read pre) /\ (forall read, ossl_from_private read (pre ++ 0 :: rest) = ossl_from_private read pre)).
Proof. exact o_long_texts. Qed.
Print Assumptions C102_long_texts.
Example C102_nontrivial : private_ok tkey /\ key_N tkey < 2 ^ 2048 /\ 0 <= key_D tkey < key_N tkey /\
  firstn 27 (ossl_private_key (ossl_members key130)) = begin_private /\
  tdp_from_private (fun _ => true) (ossl_private_key (ossl_members key130)) = Ok key130.
Proof.
  split; [apply tkey_ok|]. split; [vm_compute; reflexivity|]. split; [split; [vm_compute; discriminate|vm_compute; reflexivity]|].
  split; vm_compute; reflexivity.
Qed.

(** * C103 *)
Theorem C103_wrong_sizes_partial : forall o g p order s, bits2048 (key_N (oi_key o)) -> bits2048 (pub_N (op_key p)) -> zlen s <> 256 ->
  ossl_eval_string (key_pub (oi_key o)) s = Throw InvalidArgument /\ ossl_invert_string o g s = Throw InvalidArgument /\
  ossl_pool_eval_string p g s order = Throw InvalidArgument.
Proof. exact o_wrong_sizes. Qed.
Print Assumptions C103_wrong_sizes_partial.
Theorem C103_other_moduli_partial : forall o inp order, RSA_size (key_pub (oi_key o)) <> 256 -> order <> 0 ->
  ossl_eval (key_pub (oi_key o)) inp = Throw RuntimeError /\ ossl_invert_mult o inp order = Throw InvalidArgument.
Proof. exact o_other_moduli. Qed.
Print Assumptions C103_other_moduli_partial.
Theorem C103_out_of_range_partial : forall o g inp, made o -> tdp_key (oi_key o) -> zlen g = 256 -> zlen inp = 256 -> key_N (oi_key o) <= be_decode inp ->
  ossl_invert_string o g inp = Throw RuntimeError.
Proof. exact (fun o g inp _ HK Lg Li Hx => proj2 (o_invert_out (oi_key o) HK o g inp eq_refl Lg Li Hx)). Qed.
Print Assumptions C103_out_of_range_partial.
(** The array overload returns uninitialised memory on the same input *)
Theorem C103_array_out_of_range_refuted : forall o g inp, made o -> tdp_key (oi_key o) -> zlen g = 256 -> zlen inp = 256 -> key_N (oi_key o) <= be_decode inp ->
  ossl_invert o g inp = Ok g.
Proof. exact (fun o g inp _ HK Lg Li Hx => proj1 (o_invert_out (oi_key o) HK o g inp eq_refl Lg Li Hx)). Qed.
Print Assumptions C103_array_out_of_range_refuted.
Theorem C103_sample : forall k rnd, bits2048 (pub_N k) -> (forall x, rnd (pub_N k) = Some x -> 0 <= x < pub_N k) ->
  (rnd (pub_N k) = None /\ ossl_sample k rnd = Throw RuntimeError) \/
  exists x, rnd (pub_N k) = Some x /\ 0 <= x < pub_N k /\ ossl_sample k rnd = Ok (message x).
Proof. exact o_sample_ok. Qed.
Print Assumptions C103_sample.
(** With a longer modulus, sample and invert write out of bounds; with a shorter one invert returns uninitialised memory and eval
    reads out of bounds *)
Theorem C103_long_modulus_refuted : exists k rnd, private_ok k /\ (forall n x, rnd n = Some x -> 0 <= x < key_N k) /\ ossl_sample (key_pub k) rnd = UB /\
  forall o g inp, oi_key o = k -> zlen g = 256 -> zlen inp = 256 -> is_bytes inp -> ossl_invert o g inp = UB.
Proof.
  exists bigkey, (fun _ => Some (2 ^ 2048)). split; [exact bigkey_ok|].
  split; [intros n x [= <-]; split; [vm_compute; discriminate|vm_compute; reflexivity]|]. split; [exact o_sample_long|exact o_long_modulus].
Qed.
Print Assumptions C103_long_modulus_refuted.
Theorem C103_short_modulus_refuted : exists k, private_ok k /\ (forall o g inp, oi_key o = k -> zlen inp = 256 -> ossl_invert o g inp = Ok g) /\
  forall s, zlen s = 17 -> ossl_eval_string (key_pub k) s = UB.
Proof. exists key130. split; [exact key130_ok|]. split; [exact o_short_modulus|exact o_eval_short]. Qed.
Print Assumptions C103_short_modulus_refuted.
(** invert_mult does not look at the size of its string *)
Theorem C103_invert_mult_short_refuted : forall o s order, zlen s < 255 -> ossl_invert_mult_string o s order = UB.
Proof. exact o_invert_mult_short. Qed.
Print Assumptions C103_invert_mult_short_refuted.
Theorem C103_invert_mult_long_refuted : forall o s t order, zlen s = 256 -> ossl_invert_mult_string o (s ++ t) order = ossl_invert_mult_string o s order.
Proof. exact o_invert_mult_long. Qed.
Print Assumptions C103_invert_mult_long_refuted.
Example C103_nontrivial : made otkey /\ tdp_key (oi_key otkey) /\ key_N (oi_key otkey) <= be_decode (repeat 255 256) /\
  RSA_size (key_pub key130) = 17 /\ RSA_size (key_pub bigkey) = 257.
Proof.
  split; [exact otkey_made|]. split; [exact tkey_ok|]. split; [vm_compute; discriminate|]. split; vm_compute; reflexivity.
Qed.

(** * C104 *)
Theorem C104_copies : forall k p, ossl_copy k = k /\ (forall self, ossl_assign self k = k) /\ ossl_pool_copy p = p.
Proof. exact (fun k p => conj (dup_id k) (conj (fun _ => dup_id k) (copy_id p))). Qed.
Print Assumptions C104_copies.
Definition pub3' : rsa_pub := {| pub_N := 2 ^ 2047 + 3; pub_E := 3 |}.
Lemma pub3'_ok : public_ok pub3' /\ bits2048 (pub_N pub3').
Proof.
  assert (B : bits2048 (pub_N pub3')) by (split; [vm_compute; discriminate|vm_compute; reflexivity]). split; [|exact B].
  split; [vm_compute; reflexivity|]. split; [reflexivity|]. split; [split; [vm_compute; discriminate|vm_compute; reflexivity]|].
  split; [discriminate|vm_compute; reflexivity].
Qed.
(** The assignment of pools keeps the key of order 1, so that the orders belong to two different keys *)
Theorem C104_pool_assignment_refuted : exists k k' p q, public_ok k /\ bits2048 (pub_N k) /\ public_ok k' /\ bits2048 (pub_N k') /\
  ossl_pool_new k 5 = Ok p /\ ossl_pool_new k' 7 = Ok q /\
  (forall g inp, ossl_pool_eval (ossl_pool_assign p q) g inp 1 = ossl_pool_eval p g inp 1) /\
  (forall g inp order, 2 <= order -> ossl_pool_eval (ossl_pool_assign p q) g inp order = ossl_pool_eval q g inp order) /\
  ossl_pool_eval p (zeros 256) (message (2 ^ 683)) 1 <> ossl_pool_eval q (zeros 256) (message (2 ^ 683)) 1.
Proof.
  destruct pub3'_ok as [K B]. destruct pub3_ok as [K3 B3].
  destruct (opool_sizes pub3' 5 ltac:(split; [discriminate|reflexivity])) as (p & Ep & _ & Kp).
  destruct (opool_sizes pub3 7 ltac:(split; [discriminate|reflexivity])) as (q & Eq & _ & Kq).
  exists pub3', pub3, p, q. split; [exact K|]. split; [exact B|]. split; [exact K3|]. split; [exact B3|]. split; [exact Ep|]. split; [exact Eq|].
  split; [intros g inp; rewrite assign_val; reflexivity|]. split.
  - intros g inp order Ho. rewrite assign_val. unfold ossl_pool_eval, ossl_maximum_order. cbn [op_key op_keys].
    destruct (order =? 1) eqn:C; [apply Z.eqb_eq in C; subst order; exfalso; now apply Ho|reflexivity].
  - rewrite (opool_eval_val pub3' 5 p (zeros 256) (message (2 ^ 683)) 1 B ltac:(split; [discriminate|reflexivity]) Ep eq_refl (message_len (2 ^ 683)) ltac:(split; discriminate)).
    rewrite (opool_eval_val pub3 7 q (zeros 256) (message (2 ^ 683)) 1 B3 ltac:(split; [discriminate|reflexivity]) Eq eq_refl (message_len (2 ^ 683)) ltac:(split; discriminate)).
    assert (S1 : 0 <= 2 ^ 683 < space) by (split; [discriminate|vm_compute; reflexivity]). rewrite message_decode by exact S1.
    replace ((pub_N pub3' <=? pub_E pub3' * 65537 ^ (1 - 1)) || (pub_N pub3' <=? 2 ^ 683)) with false by (vm_compute; reflexivity).
    replace ((pub_N pub3 <=? pub_E pub3 * 65537 ^ (1 - 1)) || (pub_N pub3 <=? 2 ^ 683)) with false by (vm_compute; reflexivity).
    intros M. apply (f_equal (fun r => match r with Ok m => m | _ => [] end)) in M. cbv beta iota in M.
    apply message_inj in M; [revert M; vm_compute; discriminate|split; [vm_compute; discriminate|vm_compute; reflexivity]..].
Qed.
Print Assumptions C104_pool_assignment_refuted.
Example C104_nontrivial : exists p, ossl_pool_new (key_pub tkey) 5 = Ok p /\ length (op_keys p) = 4%nat.
Proof. eexists. split; reflexivity. Qed.
