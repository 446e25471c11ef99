(** Properties C41-C46 and C69-C72: the trapdoor permutation.  [tdp_key k]: the numbers of the key fit together, the modulus has 2048
    bits and the factors are primes (or numbers for which Fermat's theorem holds as well, which allows a checkable example). *)
From Coq Require Import Znumtheory.
From Verif Require Import Base BaseFacts MpiModel RsaKeyModel RsaKeySpec RsaKeyExample RsaKeyProofs3 TdpKeyModel TdpModel TdpSpec RsaMathProofs
  TdpProofs2 TdpProofs3 TdpProofs4 TdpExample KeyVal HmacModel HmacSpec HmacProofs2.

(** The random generator answers ones, after a history of three calls, one of which is refused *)
Definition history : list tdp_call := [
  {| call_string := false; call_rnd := rnd_one; call_buf := repeat 7 256; call_input := message 5 |};
  {| call_string := true; call_rnd := rnd_one; call_buf := repeat 7 256; call_input := [1; 2; 3] |};
  {| call_string := true; call_rnd := rnd_composite; call_buf := repeat 7 256; call_input := repeat 255 256 |}].
Lemma history_good n : 0 <= n -> Forall (good_call n) history.
Proof.
  intros Hn. assert (I : is_bytes (repeat 255 256)) by (apply Forall_forall; intros x Hx; apply repeat_spec in Hx; subst x; split; [discriminate|reflexivity]).
  constructor; [|constructor; [|constructor; [|constructor]]]; unfold good_call; cbn [call_string call_rnd call_buf call_input].
  - split; [now apply rnd_one_good|]. split; [reflexivity|]. split; [apply message_bytes|intros _; apply message_len].
  - split; [now apply rnd_one_good|]. split; [reflexivity|]. split; [repeat constructor; discriminate|discriminate].
  - split; [now apply rnd_composite_good|]. split; [reflexivity|]. split; [exact I|discriminate].
Qed.

(** * C41 *)
(** Both compositions are the identity below the modulus, after any history of calls of invert during which the random generator
    found an invertible number within its eleven attempts (probability of the contrary: below 2^-11000). *)
Theorem C41_invert_eval_partial : forall k cs rnd g g' x, tdp_key k -> Forall (good_call (key_N k)) cs -> rng_good (key_N k) rnd ->
  zlen g = 256 -> zlen g' = 256 -> 0 <= x < key_N k ->
  exists c, tdp_eval (key_pub k) g (message x) = Ok c /\ snd (tdp_invert k rnd g' (tdp_run k None cs) c) = Ok (message x).
Proof. exact (fun k cs rnd g g' x HK => invert_eval k HK cs rnd g g' x). Qed.
Print Assumptions C41_invert_eval_partial.
Theorem C41_eval_invert_partial : forall k cs rnd g g' x, tdp_key k -> Forall (good_call (key_N k)) cs -> rng_good (key_N k) rnd ->
  zlen g = 256 -> zlen g' = 256 -> 0 <= x < key_N k ->
  exists c, snd (tdp_invert k rnd g (tdp_run k None cs) (message x)) = Ok c /\ tdp_eval (key_pub k) g' c = Ok (message x).
Proof. exact (fun k cs rnd g g' x HK => eval_invert k HK cs rnd g g' x). Qed.
Print Assumptions C41_eval_invert_partial.
(** The string overloads do the same on 256 bytes *)
Theorem C41_string_overloads : forall k cs rnd g s, tdp_key k -> Forall (good_call (key_N k)) cs -> rng_good (key_N k) rnd ->
  zlen g = 256 -> is_bytes s -> zlen s = 256 ->
  tdp_eval_string (key_pub k) g s = tdp_eval (key_pub k) g s /\
  tdp_invert_string k rnd g (tdp_run k None cs) s = tdp_invert k rnd g (tdp_run k None cs) s /\
  forall order, tdp_invert_mult_string k s order = tdp_invert_mult k s order.
Proof. exact (fun k cs rnd g s HK => string_overloads k HK cs rnd g s). Qed.
Print Assumptions C41_string_overloads.
(** Not whatever the random generator answers: when it finds no invertible number, the call fails but leaves a blinding pair
    that the next call trusts; that call returns zero without any error. *)
Theorem C41_failed_blinding_is_kept : forall k rnd g x, tdp_key k -> rng_ok rnd -> zlen g = 256 -> 0 <= x < key_N k ->
  snd (tdp_do k None zero_call) = Throw InvalidArgument /\
  snd (tdp_invert k rnd g (tdp_run k None [zero_call]) (message x)) = Ok (message 0).
Proof. exact zero_blinding. Qed.
Print Assumptions C41_failed_blinding_is_kept.
Theorem C41_any_randomness_refuted : exists k c rnd x y, tdp_key k /\ rng_ok (call_rnd c) /\ rng_good (key_N k) rnd /\ 0 <= x < key_N k /\
  snd (tdp_invert k rnd (zeros 256) (tdp_run k None [c]) (message x)) = Ok y /\ tdp_eval (key_pub k) (zeros 256) y <> Ok (message x).
Proof.
  exists tkey, zero_call, rnd_one, 5, (message 0). assert (0 <= 5 < key_N tkey) as B by (split; [discriminate|reflexivity]).
  split; [exact tkey_ok|]. split; [exact rnd_zero_ok|]. split; [apply rnd_one_good; discriminate|].
  split; [exact B|]. split; [|vm_compute; discriminate].
  apply (zero_blinding tkey rnd_one (zeros 256) 5 tkey_ok); [apply (rnd_one_good 0); discriminate|reflexivity|exact B].
Qed.
Print Assumptions C41_any_randomness_refuted.
(** The hypotheses are met by a key with prime factors, and by a concrete 2048-bit key *)
Example C41_nontrivial : (forall k, private_ok k -> bits2048 (key_N k) -> prime (key_P k) -> prime (key_Q k) -> tdp_key k) /\
  tdp_key tkey /\ Forall (good_call (key_N tkey)) history /\ rng_good (key_N tkey) rnd_composite /\ 0 <= 2 ^ 2000 + 1 < key_N tkey.
Proof.
  split; [intros k A B C D; split; [exact A|]; split; [exact B|]; split; now apply prime_rsa_factor|].
  split; [exact tkey_ok|]. split; [apply history_good; discriminate|]. split; [apply rnd_composite_good; discriminate|].
  split; [vm_compute; discriminate|vm_compute; reflexivity].
Qed.

(** * C42 *)
(** Iterated inversion succeeds, and invert_mult returns the same message: [cs'] gives the random generator and the
    uninitialised array of each inversion. *)
Theorem C42_invert_mult : forall k cs cs' x order, tdp_key k -> Forall (good_call (key_N k)) cs ->
  Forall (fun c => rng_good (key_N k) (fst c) /\ zlen (snd c) = 256) cs' -> 0 <= x < key_N k -> 0 <= order < 2 ^ 32 -> zlen cs' = order ->
  exists y, tdp_invert_mult k (message x) order = Ok y /\ invert_repeat k (tdp_run k None cs) cs' (message x) = Ok y.
Proof. exact (fun k cs cs' x order HK => invert_mult_times k HK cs cs' x order). Qed.
Print Assumptions C42_invert_mult.
Example C42_nontrivial : tdp_key tkey /\ Forall (good_call (key_N tkey)) history /\
  Forall (fun c => rng_good (key_N tkey) (fst c) /\ zlen (snd c) = 256) (repeat (rnd_composite, zeros 256) 1000) /\
  zlen (repeat (rnd_composite, zeros 256) 1000) = 1000 /\ tdp_invert_mult tkey (message 7) 0 = Ok (message 7).
Proof.
  split; [exact tkey_ok|]. split; [apply history_good; discriminate|]. split; [|split; reflexivity].
  apply Forall_forall. intros c Hc. apply repeat_spec in Hc. subst c. split; [apply rnd_composite_good; discriminate|reflexivity].
Qed.

(** * C43 *)
Theorem C43_pool_eval_partial : forall k size p g g' inp order, public_ok k -> bits2048 (pub_N k) -> pub_E k = 65537 -> 0 <= size < 256 ->
  pool_new k size = Ok p -> zlen g = 256 -> zlen g' = 256 -> is_bytes inp -> zlen inp = 256 -> 1 <= order <= pool_maximum_order p ->
  pool_eval p g inp order = repeat_call (Z.to_nat order) (tdp_eval k g') inp.
Proof. exact pool_eval_times. Qed.
Print Assumptions C43_pool_eval_partial.
(** With another exponent e the pool evaluates x^(e * 65537^(n - 1)) *)
Theorem C43_pool_eval_value : forall k size p g inp order, public_ok k -> bits2048 (pub_N k) -> 0 <= size < 256 -> pool_new k size = Ok p ->
  zlen g = 256 -> is_bytes inp -> zlen inp = 256 -> 1 <= order <= pool_maximum_order p ->
  pool_eval p g inp order = Ok (message (be_decode inp ^ (pub_E k * 65537 ^ (order - 1)) mod pub_N k)).
Proof. exact pool_eval_val. Qed.
Print Assumptions C43_pool_eval_value.
Theorem C43_pool_eval_string : forall p g s order, bits2048 (pub_N (pool_key p)) -> zlen s = 256 ->
  pool_eval_string p g s order = pool_eval p g s order.
Proof. exact pool_eval_string_ok. Qed.
Print Assumptions C43_pool_eval_string.
Theorem C43_large_orders : forall p g inp order, pool_maximum_order p < order -> order <> 1 -> pool_eval p g inp order = Throw InvalidArgument.
Proof. exact pool_eval_order_large. Qed.
Print Assumptions C43_large_orders.
(** Order 0 reads keys_[-2] *)
Theorem C43_order_0_refuted : forall p g inp, pool_eval p g inp 0 = UB.
Proof. exact pool_eval_order_0. Qed.
Print Assumptions C43_order_0_refuted.
Theorem C43_any_exponent_refuted : exists k p, public_ok k /\ bits2048 (pub_N k) /\ pool_new k 2 = Ok p /\ pool_maximum_order p = 2 /\
  pool_eval p (zeros 256) (message 2) 2 <> repeat_call 2 (tdp_eval k (zeros 256)) (message 2).
Proof.
  destruct pool_exponent_3 as (p & E & M & V1 & V2). exists pub3, p. destruct pub3_ok as [K B]. split; [exact K|]. split; [exact B|].
  split; [exact E|]. split; [exact M|]. rewrite V1, V2. vm_compute. discriminate.
Qed.
Print Assumptions C43_any_exponent_refuted.
Example C43_nontrivial : public_ok (key_pub tkey) /\ bits2048 (key_N tkey) /\ exists p, pool_new (key_pub tkey) 100 = Ok p /\ pool_maximum_order p = 100 /\
  exists y, pool_eval p (zeros 256) (message 3) 100 = Ok y.
Proof.
  pose proof tkey_ok as ((K & _) & B & _). split; [exact K|]. split; [exact B|].
  destruct (pool_sizes (key_pub tkey) 100 K B eq_refl ltac:(split; discriminate)) as (p & E & M & _). exists p. split; [exact E|]. split; [exact M|].
  eexists. apply (pool_eval_val (key_pub tkey) 100 p (zeros 256) (message 3) 100 K B ltac:(split; [discriminate|reflexivity]) E eq_refl
    (message_bytes 3) (message_len 3)).
  rewrite M. split; discriminate.
Qed.

(** * C44 *)
Theorem C44_pool_sizes_partial : forall k size, public_ok k -> bits2048 (pub_N k) -> pub_E k = 65537 -> 2 <= size <= 127 ->
  exists p, pool_new k size = Ok p /\ pool_maximum_order p = size /\ pool_key p = k.
Proof. exact pool_sizes. Qed.
Print Assumptions C44_pool_sizes_partial.
Theorem C44_large_sizes_refuted : forall k size, public_ok k -> bits2048 (pub_N k) -> pub_E k = 65537 -> 128 <= size <= 255 ->
  pool_new k size = Throw RuntimeError.
Proof. exact pool_sizes_large. Qed.
Print Assumptions C44_large_sizes_refuted.
Theorem C44_size_1_refuted : forall k, pool_new k 1 = UB.
Proof. exact pool_new_1. Qed.
Print Assumptions C44_size_1_refuted.
Theorem C44_size_0 : forall k, pool_new k 0 = Throw InvalidArgument.
Proof. exact pool_new_0. Qed.
Print Assumptions C44_size_0.
(** Pools for every key, whatever its exponent and modulus *)
Theorem C44_pool_characterised : forall k size, public_ok k -> 1 < size < 256 ->
  (exists p, pool_new k size = Ok p) <-> pub_E k * 65537 ^ (size - 1) < pub_N k.
Proof.
  intros k size HK Hs. rewrite pool_new_ok by assumption. change RSA_PK with 65537. rewrite <- Z.ltb_lt.
  destruct (_ <? _); split; intros H; [reflexivity|eexists; reflexivity|destruct H; discriminate|discriminate].
Qed.
Print Assumptions C44_pool_characterised.
Example C44_nontrivial : public_ok (key_pub tkey) /\ bits2048 (key_N tkey) /\ pub_E (key_pub tkey) = 65537.
Proof. pose proof tkey_ok as ((K & _) & B & _). split; [exact K|]. split; [exact B|reflexivity]. Qed.

(** * C45 *)
Theorem C45_ranges : forall k cs rnd g inp order, tdp_key k -> Forall (good_call (key_N k)) cs -> rng_good (key_N k) rnd -> zlen g = 256 ->
  is_bytes inp -> zlen inp = 256 -> 0 < order < 2 ^ 32 ->
  (exists y, tdp_eval (key_pub k) g inp = Ok (message y) /\ 0 <= y < key_N k) /\
  (exists y, tdp_sample (key_pub k) rnd = Ok (message y) /\ 0 <= y < key_N k) /\
  (exists y, tdp_invert_mult k inp order = Ok (message y) /\ 0 <= y < key_N k) /\
  (be_decode inp < key_N k -> exists y, snd (tdp_invert k rnd g (tdp_run k None cs) inp) = Ok (message y) /\ 0 <= y < key_N k).
Proof. exact (fun k cs rnd g inp order HK => ranges k HK cs rnd g inp order). Qed.
Print Assumptions C45_ranges.
Theorem C45_sample : forall k rnd, bits2048 (pub_N k) -> rng_ok rnd ->
  exists x, tdp_sample k rnd = Ok (message x) /\ x = rnd O 264 mod pub_N k /\ 0 <= x < pub_N k.
Proof. exact sample_range. Qed.
Print Assumptions C45_sample.
(** The Prf overload keeps the Prf; the Key overload consumes the key *)
Theorem C45_generate : forall H ml gp kb l seed r t k, bits2048 (pub_N k) -> (forall y, zlen (H y) = 64 /\ is_bytes (H y)) -> sized gp -> zlen kb = 32 ->
  zlen seed < 2 ^ 63 -> zlen r = 264 -> zlen t = zlen seed + 1 ->
  exists x, x = be_decode (ctr_mode (rfc_hmac H 128 kb) seed 264) mod pub_N k /\ 0 <= x < pub_N k /\
    tdp_generate H ml gp r t k (VKey kb l) seed = (VKey kb ml, Ok (message x)) /\
    tdp_generate_key H ml gp r t k (VKey kb l) seed = (VEmpty, Ok (message x)).
Proof. exact generate_range. Qed.
Print Assumptions C45_generate.
Definition toyhash (x : bytes) : bytes := let a := fold_left (fun a b => (31 * a + b + 1) mod 65521) x 7 in [a mod 256; a / 256 mod 256] ++ zeros 62.
Definition toygarbage (n : Z) : bytes := repeat 170 (Z.to_nat n).
Example C45_nontrivial : (forall y, zlen (toyhash y) = 64 /\ is_bytes (toyhash y)) /\ sized toygarbage /\ bits2048 (key_N tkey) /\
  snd (tdp_generate toyhash true toygarbage (zeros 264) (zeros 4) (key_pub tkey) (VKey (repeat 5 32) true) [1; 2; 3]) <>
  snd (tdp_generate toyhash true toygarbage (zeros 264) (zeros 4) (key_pub tkey) (VKey (repeat 5 32) true) [1; 2; 4]).
Proof.
  split. { intros y. split; [reflexivity|]. unfold toyhash. apply Forall_app. split; [|repeat constructor; discriminate].
    repeat constructor; apply Z.mod_pos_bound; reflexivity. }
  split; [intros n Hn; unfold toygarbage, zlen; rewrite repeat_length; now apply Z2Nat.id|].
  split; [apply tkey_ok|]. vm_compute. discriminate.
Qed.

(** * C46 *)
(** With a 2048-bit modulus, strings of another size are refused by eval, invert and pools *)
Theorem C46_wrong_sizes_partial : forall k rnd g bl p order s, bits2048 (key_N k) -> bits2048 (pub_N (pool_key p)) -> zlen s <> 256 ->
  tdp_eval_string (key_pub k) g s = Throw InvalidArgument /\
  tdp_invert_string k rnd g bl s = (bl, Throw InvalidArgument) /\
  pool_eval_string p g s order = Throw InvalidArgument.
Proof. exact wrong_sizes. Qed.
Print Assumptions C46_wrong_sizes_partial.
(** With a modulus of another size, eval, invert_mult and pools throw on arrays *)
Theorem C46_other_moduli_partial : forall k g inp order p, rsa_len (key_pub k) <> 256 -> rsa_len (pool_key p) <> 256 -> order <> 0 ->
  tdp_eval (key_pub k) g inp = Throw RuntimeError /\ tdp_invert_mult k inp order = Throw InvalidArgument /\
  (1 <= order <= pool_maximum_order p -> zlen (pool_exps p) < 255 -> pool_eval p g inp order = Throw RuntimeError).
Proof. exact other_moduli. Qed.
Print Assumptions C46_other_moduli_partial.
(** invert_mult does not look at the size of its string: short ones are read out of bounds, long ones are cut *)
Theorem C46_invert_mult_short_refuted : forall k s order, zlen s < 255 -> tdp_invert_mult_string k s order = UB.
Proof. exact invert_mult_short. Qed.
Print Assumptions C46_invert_mult_short_refuted.
Theorem C46_invert_mult_long_refuted : forall k s t order, zlen s = 256 -> tdp_invert_mult_string k (s ++ t) order = tdp_invert_mult_string k s order.
Proof. exact invert_mult_long. Qed.
Print Assumptions C46_invert_mult_long_refuted.
(** eval compares the size of the string with that of the modulus, and then copies 256 bytes *)
Theorem C46_eval_short_modulus_refuted : exists k, private_ok k /\ forall g s, zlen s = 17 -> tdp_eval_string (key_pub k) g s = UB.
Proof. exists key130. split; [exact key130_ok|exact eval_key130]. Qed.
Print Assumptions C46_eval_short_modulus_refuted.
(** invert does not look at the size of the modulus *)
Theorem C46_invert_long_modulus_refuted : exists k, private_ok k /\ forall rnd g bl inp, zlen inp = 256 -> tdp_invert k rnd g bl inp = (bl, UB).
Proof. exists bigkey. split; [exact bigkey_ok|exact invert_bigkey]. Qed.
Print Assumptions C46_invert_long_modulus_refuted.
(** ... and returns uninitialised memory when it is short *)
Theorem C46_invert_short_modulus_refuted : exists k rnd inp g g' r r', private_ok k /\ rng_good (key_N k) rnd /\ zlen g = 256 /\ zlen g' = 256 /\
  snd (tdp_invert k rnd g None inp) = Ok r /\ snd (tdp_invert k rnd g' None inp) = Ok r' /\ r <> r'.
Proof.
  destruct invert_key130 as (g & g' & r & r' & H). exists key130, rnd_one, (zeros 256), g, g', r, r'.
  split; [exact key130_ok|]. split; [apply rnd_one_good; discriminate|exact H].
Qed.
Print Assumptions C46_invert_short_modulus_refuted.
(** sample returns zeros when the number does not fit in 256 bytes *)
Theorem C46_sample_long_modulus_refuted : exists k rnd, public_ok k /\ rng_ok rnd /\ rnd O 264 mod pub_N k = 2 ^ 2048 /\ tdp_sample k rnd = Ok (zeros 256).
Proof.
  exists (key_pub bigkey), (fun _ n => if n =? 264 then 2 ^ 2048 else 0). split; [apply bigkey_ok|].
  split; [|split; [vm_compute; reflexivity|apply sample_bigkey; reflexivity]].
  intros i n Hn. destruct (n =? 264) eqn:E.
  - apply Z.eqb_eq in E. subst n. split; [vm_compute; discriminate|vm_compute; reflexivity].
  - split; [discriminate|]. apply Z.pow_pos_nonneg; [reflexivity|exact Hn].
Qed.
Print Assumptions C46_sample_long_modulus_refuted.
Example C46_nontrivial : bits2048 (key_N tkey) /\ rsa_len (key_pub key130) = 17 /\ rsa_len (key_pub bigkey) = 257 /\
  pool_maximum_order {| pool_key := key_pub bigkey; pool_exps := [9; 27] |} = 3.
Proof. split; [apply tkey_ok|]. split; [vm_compute; reflexivity|]. split; vm_compute; reflexivity. Qed.

(** * C69 *)
(** [cand]: the pairs of primes tried.  The generation ends as soon as there is a usable pair among them. *)
Theorem C69_generated_keys : forall cand, Forall (fun c => prime (fst c) /\ prime (snd c) /\ 2 < fst c /\ 2 < snd c) cand ->
  (tdp_new cand = Diverge /\ Forall (fun c => ~ usable c) cand) \/
  exists k, tdp_new cand = Ok k /\ tdp_key k /\ key_E k = 65537 /\ (In (key_P k, key_Q k) cand \/ In (key_Q k, key_P k) cand).
Proof. intros cand H. destruct (new_primes cand H) as (A & B & C). exact (new_key_ok cand A B C). Qed.
Print Assumptions C69_generated_keys.
(** The same with factors that pass the primality test although they may be composite *)
Theorem C69_generated_keys_consistent : forall cand, candidates_ok cand -> coprime_pairs cand ->
  (tdp_new cand = Diverge /\ Forall (fun c => ~ usable c) cand) \/
  exists k, tdp_new cand = Ok k /\ private_ok k /\ bits2048 (key_N k) /\ key_E k = 65537 /\
    (In (key_P k, key_Q k) cand \/ In (key_Q k, key_P k) cand).
Proof. exact tdp_new_ok. Qed.
Print Assumptions C69_generated_keys_consistent.
Example C69_nontrivial : candidates_ok [(3, 3); (5, 7); (key_Q tkey, key_P tkey)] /\ coprime_pairs [(3, 3); (5, 7); (key_Q tkey, key_P tkey)] /\
  exists k, tdp_new [(3, 3); (5, 7); (key_Q tkey, key_P tkey)] = Ok k.
Proof.
  assert (A : candidates_ok [(3, 3); (5, 7); (key_Q tkey, key_P tkey)]).
  { repeat constructor; try discriminate; vm_compute; reflexivity. }
  assert (B : coprime_pairs [(3, 3); (5, 7); (key_Q tkey, key_P tkey)]).
  { constructor; [now intros []|]. repeat constructor; intros _; vm_compute; reflexivity. }
  split; [exact A|]. split; [exact B|].
  destruct (tdp_new_ok _ A B) as [[_ D]|(k & E & _)]; [|exists k; exact E].
  exfalso. rewrite Forall_forall in D. apply (D (key_Q tkey, key_P tkey)); [right; right; now left|].
  split; [vm_compute; discriminate|]. split; [split; [vm_compute; discriminate|vm_compute; reflexivity]|vm_compute; reflexivity].
Qed.

(** * C70 *)
(** Keys with composite factors pass all the checks of the library, and their permutation is not inverted *)
Theorem C70_composite_factors_refuted : exists k rnd g x c, private_ok k /\ bits2048 (key_N k) /\ rng_good (key_N k) rnd /\ 0 <= x < key_N k /\
  tdp_eval (key_pub k) g (message x) = Ok c /\ snd (tdp_invert k rnd g None c) = Ok c /\ c <> message x.
Proof.
  destruct compkey_invert as (A & B & C & D). exists compkey, rnd_composite, (zeros 256), comp_x, (message (13 * 2 ^ 2044 + 14)).
  destruct compkey_ok as [K1 K2]. split; [exact K1|]. split; [exact K2|]. split; [apply rnd_composite_good; discriminate|].
  split; [exact A|]. split; [exact B|]. split; [exact C|exact D].
Qed.
Print Assumptions C70_composite_factors_refuted.
(** They are inverted when the factors are primes, or Carmichael numbers *)
Theorem C70_accepted_keys_partial : forall k cs rnd g g' x, private_ok k -> bits2048 (key_N k) -> rsa_factor (key_P k) -> rsa_factor (key_Q k) ->
  Forall (good_call (key_N k)) cs -> rng_good (key_N k) rnd -> zlen g = 256 -> zlen g' = 256 -> 0 <= x < key_N k ->
  exists c, tdp_eval (key_pub k) g (message x) = Ok c /\ snd (tdp_invert k rnd g' (tdp_run k None cs) c) = Ok (message x).
Proof. exact (fun k cs rnd g g' x H1 H2 H3 H4 => invert_eval k (conj H1 (conj H2 (conj H3 H4))) cs rnd g g' x). Qed.
Print Assumptions C70_accepted_keys_partial.
Example C70_nontrivial : private_ok tkey /\ bits2048 (key_N tkey) /\ rsa_factor (key_P tkey) /\ rsa_factor (key_Q tkey).
Proof. exact tkey_ok. Qed.

(** * C71 *)
Theorem C71_pool_copy : forall k size p, public_ok k -> 0 <= size < 256 -> pool_new k size = Ok p -> pool_copy p = Ok p.
Proof. exact pool_copy_ok. Qed.
Print Assumptions C71_pool_copy.
Example C71_nontrivial : public_ok (key_pub key130) /\ exists p, pool_new (key_pub key130) 8 = Ok p /\ length (pool_exps p) = 7%nat.
Proof. split; [apply key130_ok|]. eexists. split; [vm_compute; reflexivity|reflexivity]. Qed.

(** * C72 *)
Theorem C72_out_of_range : forall k cs rnd g inp, tdp_key k -> Forall (good_call (key_N k)) cs -> rng_good (key_N k) rnd -> zlen g = 256 ->
  is_bytes inp -> zlen inp = 256 -> key_N k <= be_decode inp ->
  tdp_invert k rnd g (tdp_run k None cs) inp = (tdp_run k None cs, Throw InvalidArgument) /\
  tdp_eval (key_pub k) g inp = tdp_eval (key_pub k) g (message (be_decode inp mod key_N k)) /\
  forall order, 0 < order < 2 ^ 32 -> tdp_invert_mult k inp order = tdp_invert_mult k (message (be_decode inp mod key_N k)) order.
Proof. exact (fun k cs rnd g inp HK => out_of_range k HK cs rnd g inp). Qed.
Print Assumptions C72_out_of_range.
Example C72_nontrivial : tdp_key tkey /\ Forall (good_call (key_N tkey)) history /\ is_bytes (repeat 255 256) /\ key_N tkey <= be_decode (repeat 255 256).
Proof.
  split; [exact tkey_ok|]. split; [apply history_good; discriminate|]. split; [repeat constructor; discriminate|vm_compute; discriminate].
Qed.
