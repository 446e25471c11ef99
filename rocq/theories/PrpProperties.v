(** Properties of Prp: C20 - C23, C65 - C67.  R is the AES round; see PrpProofs.aes_round_map for the one of FIPS 197. *)
From Verif Require Import Base KeyVal AezModel PrpModel PrpSpec AesRound PrpProofs.

(** C20.  Buffers of any length below 2^32; [g], [g']: the initial contents of the output buffers. *)
Theorem C20_decrypt_inverts_encrypt : forall R ml b l l' m g g' k c, block_map R -> is_context b ->
  is_bytes m -> zlen m <= UINT_MAX -> buffer (zlen m) g -> buffer (zlen m) g' ->
  prp_encrypt R true (VKey b l) m (zlen m) g = (k, Ok c) -> prp_decrypt R ml true (VKey b l') c (zlen c) g' = (VKey b ml, Ok m).
Proof. exact dec_enc. Qed.
Print Assumptions C20_decrypt_inverts_encrypt.
Theorem C20_encrypt_inverts_decrypt : forall R ml b l l' m g g' k c, block_map R -> is_context b ->
  is_bytes m -> zlen m <= UINT_MAX -> buffer (zlen m) g -> buffer (zlen m) g' ->
  prp_decrypt R ml true (VKey b l) m (zlen m) g = (k, Ok c) -> prp_encrypt R true (VKey b l') c (zlen c) g' = (VKey b false, Ok m).
Proof. exact enc_dec. Qed.
Print Assumptions C20_encrypt_inverts_decrypt.
Theorem C20_strings_decrypt_inverts_encrypt : forall R ml b l l' m g g' k c, block_map R -> is_context b ->
  is_bytes m -> zlen m <= UINT_MAX -> buffer (zlen m) g -> buffer (zlen m) g' ->
  prp_encrypt_str R true (VKey b l) m g = (k, Ok c) -> prp_decrypt_str R ml true (VKey b l') c g' = (VKey b ml, Ok m).
Proof. exact dec_enc_str. Qed.
Print Assumptions C20_strings_decrypt_inverts_encrypt.
Theorem C20_strings_encrypt_inverts_decrypt : forall R ml b l l' m g g' k c, block_map R -> is_context b ->
  is_bytes m -> zlen m <= UINT_MAX -> buffer (zlen m) g -> buffer (zlen m) g' ->
  prp_decrypt_str R ml true (VKey b l) m g = (k, Ok c) -> prp_encrypt_str R true (VKey b l') c g' = (VKey b false, Ok m).
Proof. exact enc_dec_str. Qed.
Print Assumptions C20_strings_encrypt_inverts_decrypt.
(** Strings longer than the limit are refused. *)
Theorem C20_too_long : forall R ml k m g, UINT_MAX < zlen m ->
  prp_encrypt_str R true k m g = (k, Throw RuntimeError) /\ prp_decrypt_str R ml true k m g = (k, Throw RuntimeError).
Proof. exact too_long. Qed.
Print Assumptions C20_too_long.
(** The AES round of FIPS 197 is an instance. *)
Theorem C20_aes_round : block_map aes_round.
Proof. exact aes_round_map. Qed.
Print Assumptions C20_aes_round.

Fixpoint count (n : nat) (x : Z) : bytes := match n with O => [] | S n' => (x * x + 7 * x) mod 256 :: count n' (x + 1) end.
Definition pctx : bytes := match prp_make true true (VKey (count 48 3) true) with (_, Ok (VKey b _)) => b | _ => [] end.
Definition ok (o : vkey * outcome bytes) : bytes := match snd o with Ok b => b | _ => [] end.
Definition enc (m : bytes) : bytes := ok (prp_encrypt aes_round true (VKey pctx true) m (zlen m) (repeat 170 (length m))).
Definition dec (m : bytes) : bytes := ok (prp_decrypt aes_round true true (VKey pctx true) m (zlen m) (repeat 85 (length m))).
(** With the real AES round: lengths on each path (one byte, odd and even below 32, fragments, all the unrolled loops). *)
Example C20_nontrivial : forallb (fun n => let m := count n 5 in bytes_eqb (dec (enc m)) m && bytes_eqb (enc (dec m)) m && negb (bytes_eqb (enc m) m))
  [1; 2; 3; 15; 16; 17; 31; 32; 33; 50; 64; 95; 350; 543]%nat = true.
Proof. vm_compute. reflexivity. Qed.

(** C21.  The buffers have exactly zlen m bytes: any access outside of them would be UB; the result does not depend
    on the previous content of the output buffer. *)
Theorem C21_lengths_and_bounds : forall R ml b l m g, block_map R -> is_context b -> is_bytes m -> zlen m <= UINT_MAX -> buffer (zlen m) g ->
  exists c c', prp_encrypt R true (VKey b l) m (zlen m) g = (VKey b false, Ok c) /\ is_bytes c /\ zlen c = zlen m /\
    prp_decrypt R ml true (VKey b l) m (zlen m) g = (VKey b ml, Ok c') /\ is_bytes c' /\ zlen c' = zlen m.
Proof. exact lengths_ok. Qed.
Print Assumptions C21_lengths_and_bounds.
Theorem C21_output_is_a_function : forall R ml b m, block_map R -> is_context b -> is_bytes m -> zlen m <= UINT_MAX -> exists c, is_bytes c /\ zlen c = zlen m /\
  (forall l g, buffer (zlen m) g -> prp_encrypt R true (VKey b l) m (zlen m) g = (VKey b false, Ok c)) /\
  (forall l g, buffer (zlen m) g -> prp_decrypt R ml true (VKey b l) c (zlen c) g = (VKey b ml, Ok m)).
Proof. exact perm_enc. Qed.
Print Assumptions C21_output_is_a_function.
Theorem C21_strings : forall R ml k m g, zlen m <= UINT_MAX ->
  prp_encrypt_str R true k m g = prp_encrypt R true k m (zlen m) g /\ prp_decrypt_str R ml true k m g = prp_decrypt R ml true k m (zlen m) g.
Proof. exact strings_same. Qed.
Print Assumptions C21_strings.
(** The model detects out of bounds accesses. *)
Example C21_nontrivial : length (enc (count 77 1)) = 77%nat /\
  snd (prp_encrypt aes_round true (VKey pctx true) (count 77 1) 77 (repeat 170 76)) = UB /\
  snd (prp_encrypt aes_round true (VKey pctx true) (count 76 1) 77 (repeat 170 77)) = UB /\
  snd (prp_encrypt aes_round true (VKey pctx true) (count 16 1) 17 (repeat 170 17)) = UB.
Proof. vm_compute. repeat split. Qed.

(** C22.  [g]: the uninitialised output variable. *)
Theorem C22_encrypt_32_64 : forall R ml b n x, block_map R -> is_context b -> (n <= 8)%nat -> 0 <= x < 256 ^ Z.of_nat n ->
  exists y, 0 <= y < 256 ^ Z.of_nat n /\
  (forall l g, prp_int (prp_encrypt R true) n (VKey b l) x g = (VKey b false, Ok y)) /\
  (forall l g, prp_int (prp_decrypt R ml true) n (VKey b l) y g = (VKey b ml, Ok x)) /\
  (forall l g, buffer (Z.of_nat n) g -> prp_encrypt R true (VKey b l) (le_encode n x) (Z.of_nat n) g = (VKey b false, Ok (le_encode n y))) /\
  (forall l g, buffer (Z.of_nat n) g -> prp_decrypt R ml true (VKey b l) (le_encode n y) (Z.of_nat n) g = (VKey b ml, Ok (le_encode n x))).
Proof. exact int_ok. Qed.
Print Assumptions C22_encrypt_32_64.
Theorem C22_decrypt_32_64 : forall R ml b n y, block_map R -> is_context b -> (n <= 8)%nat -> 0 <= y < 256 ^ Z.of_nat n ->
  exists x, 0 <= x < 256 ^ Z.of_nat n /\
  (forall l g, prp_int (prp_decrypt R ml true) n (VKey b l) y g = (VKey b ml, Ok x)) /\
  (forall l g, prp_int (prp_encrypt R true) n (VKey b l) x g = (VKey b false, Ok y)).
Proof. exact int_dec_ok. Qed.
Print Assumptions C22_decrypt_32_64.
(** the four functions themselves *)
Theorem C22_functions : forall R ml b, block_map R -> is_context b ->
  (forall x, 0 <= x < 2 ^ 32 -> exists y, 0 <= y < 2 ^ 32 /\
     (forall l g, prp_encrypt_32 R true (VKey b l) x g = (VKey b false, Ok y)) /\ (forall l g, prp_decrypt_32 R ml true (VKey b l) y g = (VKey b ml, Ok x))) /\
  (forall x, 0 <= x < 2 ^ 64 -> exists y, 0 <= y < 2 ^ 64 /\
     (forall l g, prp_encrypt_64 R true (VKey b l) x g = (VKey b false, Ok y)) /\ (forall l g, prp_decrypt_64 R ml true (VKey b l) y g = (VKey b ml, Ok x))) /\
  (forall y, 0 <= y < 2 ^ 32 -> exists x, 0 <= x < 2 ^ 32 /\
     (forall l g, prp_decrypt_32 R ml true (VKey b l) y g = (VKey b ml, Ok x)) /\ (forall l g, prp_encrypt_32 R true (VKey b l) x g = (VKey b false, Ok y))) /\
  (forall y, 0 <= y < 2 ^ 64 -> exists x, 0 <= x < 2 ^ 64 /\
     (forall l g, prp_decrypt_64 R ml true (VKey b l) y g = (VKey b ml, Ok x)) /\ (forall l g, prp_encrypt_64 R true (VKey b l) x g = (VKey b false, Ok y))).
Proof. exact int_functions. Qed.
Print Assumptions C22_functions.
Definition okz (o : vkey * outcome Z) : Z := match snd o with Ok z => z | _ => -1 end.
Example C22_nontrivial : let e := okz (prp_encrypt_32 aes_round true (VKey pctx true) 123456789 0) in
  okz (prp_decrypt_32 aes_round true true (VKey pctx true) e 7) = 123456789 /\ e <> 123456789 /\ 0 <= e < 2 ^ 32 /\
  okz (prp_encrypt_64 aes_round true (VKey pctx true) 123456789 0) <> e.
Proof. vm_compute. repeat split; discriminate. Qed.

(** C23.  False: encrypt leaves the context unlocked. *)
Theorem C23_context_locked_refuted : exists R b m g k' c, block_map R /\ is_context b /\ v_protected true (VKey b true) /\
  prp_encrypt R true (VKey b true) m (zlen m) g = (k', Ok c) /\ ~ v_protected true k'.
Proof. exact encrypt_unlocks. Qed.
Print Assumptions C23_context_locked_refuted.
(** The other members: decrypt, serialize, deserialize and the construction from a key, whether they return or throw. *)
Theorem C23_context_locked_partial : forall R ml avail k inp len out buf n,
  v_protected ml k ->
  (forall k' o, prp_decrypt R ml avail k inp len out = (k', o) -> o <> UB -> v_protected ml k') /\
  (forall k' o, prp_serialize ml avail k = (k', o) -> o <> UB -> v_protected ml k') /\
  (forall k' b' r, prp_deserialize ml avail buf n = Ok (k', b', r) -> v_protected ml k') /\
  (forall k' r, prp_make ml avail k = (k', Ok r) -> v_protected ml k' /\ v_protected ml r).
Proof. exact locked_after. Qed.
Print Assumptions C23_context_locked_partial.
Example C23_nontrivial : fst (prp_decrypt aes_round true true (VKey pctx true) [1; 2; 3] 3 [0; 0; 0]) = VKey pctx true /\
  fst (prp_encrypt aes_round true (VKey pctx true) [1; 2; 3] 3 [0; 0; 0]) = VKey pctx false.
Proof. vm_compute. split; reflexivity. Qed.

(** C65 *)
Theorem C65_roundtrip : forall ml b l rest n, is_context b -> 112 <= n ->
  prp_serialize ml true (VKey b l) = (VKey b ml, Ok b) /\
  prp_deserialize ml true (b ++ rest) n = Ok (VKey b ml, zeros 112 ++ rest, 112).
Proof. exact (fun ml b l rest n Hb Hn => conj (serialize_ok ml b l) (deserialize_ok ml b rest n Hb Hn)). Qed.
Print Assumptions C65_roundtrip.
Theorem C65_short_input : forall ml buf n, n < 112 -> prp_deserialize ml true buf n = Throw InvalidArgument.
Proof. exact deserialize_short. Qed.
Print Assumptions C65_short_input.
Example C65_nontrivial : forallb is_byteb pctx = true /\ zlen pctx = 112 /\ nth 17 pctx 0 <> 0.
Proof. vm_compute. split; [reflexivity|split; [reflexivity|discriminate]]. Qed.

(** C66 *)
Theorem C66_construction : forall ml kb l, is_bytes kb -> zlen kb = 48 -> exists b, is_context b /\
  prp_make ml true (VKey kb l) = (VEmpty, Ok (VKey b ml)) /\ prp_random ml true kb = Ok (VKey b ml).
Proof. exact make_ok. Qed.
Print Assumptions C66_construction.
Theorem C66_unavailable : forall R ml k inp len out buf n x g,
  prp_random ml false inp = Throw RuntimeError /\ prp_make ml false k = (k, Throw RuntimeError) /\
  prp_encrypt R false k inp len out = (k, Throw RuntimeError) /\ prp_decrypt R ml false k inp len out = (k, Throw RuntimeError) /\
  prp_encrypt_str R false k inp out = (k, Throw RuntimeError) /\ prp_decrypt_str R ml false k inp out = (k, Throw RuntimeError) /\
  prp_encrypt_32 R false k x g = (k, Throw RuntimeError) /\ prp_decrypt_32 R ml false k x g = (k, Throw RuntimeError) /\
  prp_encrypt_64 R false k x g = (k, Throw RuntimeError) /\ prp_decrypt_64 R ml false k x g = (k, Throw RuntimeError) /\
  prp_serialize ml false k = (k, Throw RuntimeError) /\ prp_deserialize ml false buf n = Throw RuntimeError.
Proof. exact unavailable. Qed.
Print Assumptions C66_unavailable.
Theorem C66_emptied : forall R ml inp len out, prp_make ml true VEmpty = (VEmpty, Throw RuntimeError) /\
  prp_encrypt R true VEmpty inp len out = (VEmpty, Throw RuntimeError) /\ prp_decrypt R ml true VEmpty inp len out = (VEmpty, Throw RuntimeError) /\
  prp_serialize ml true VEmpty = (VEmpty, Throw RuntimeError).
Proof. exact emptied. Qed.
Print Assumptions C66_emptied.
Example C66_nontrivial : prp_make true true (VKey (count 48 3) true) = (VEmpty, Ok (VKey pctx true)) /\ zlen pctx = 112.
Proof. vm_compute. split; reflexivity. Qed.

(** C67 *)
Theorem C67_key_expansion : forall I J L, is_bytes (I ++ J ++ L) -> zlen I = 16 -> zlen J = 16 -> zlen L = 16 ->
  exists c, aez_setup (I ++ J ++ L) = Ok c /\
  cI0 c = I /\ be_decode (cI1 c) = gf_double (be_decode I) /\ be_decode (cI2 c) = gf_double (gf_double (be_decode I)) /\
  cJ0 c = J /\ be_decode (cJ1 c) = gf_double (be_decode J) /\ be_decode (cJ2 c) = gf_double (gf_double (be_decode J)) /\ cL c = L.
Proof. exact expansion. Qed.
Print Assumptions C67_key_expansion.
Example C67_nontrivial : match aez_setup (200 :: zeros 15 ++ count 32 1) with Ok c => cI1 c = 144 :: zeros 14 ++ [135] | _ => False end.
Proof. vm_compute. reflexivity. Qed.
