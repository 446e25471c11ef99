(** Property C97: Prp is AEZ-v4.1 enciphering.  R is the AES round (C20_aes_round: the one of FIPS 197 is an instance). *)
From Verif Require Import Base KeyVal AezModel PrpModel PrpSpec AesRound AezSpec AezProofs12.

(** The key I J L, the nonce of prp.cpp (16 zero bytes), no associated data, no authenticator; [g]: the initial content of the output buffer. *)
Theorem C97_prp_is_aez : forall R ml I J L l, block_map R -> part I -> part J -> part L -> exists b,
  prp_make ml true (VKey (I ++ J ++ L) l) = (VEmpty, Ok (VKey b ml)) /\
  forall l' m g, is_bytes m -> zlen m <= UINT_MAX -> buffer (zlen m) g ->
    let x := encipher R I J L [zeros 16; zeros 16; []] m in
    prp_encrypt R true (VKey b l') m (zlen m) g = (VKey b false, Ok x) /\ prp_encrypt_str R true (VKey b l') m g = (VKey b false, Ok x) /\
    prp_decrypt R ml true (VKey b l') x (zlen x) g = (VKey b ml, Ok m) /\ prp_decrypt_str R ml true (VKey b l') x g = (VKey b ml, Ok m).
Proof. exact prp_is_aez. Qed.
Print Assumptions C97_prp_is_aez.
(** aez.c itself, for nonces of 0 to 16 bytes *)
Theorem C97_any_nonce : forall R I J L N, block_map R -> part I -> part J -> part L -> is_bytes N -> zlen N <= 16 -> exists c, aez_setup (I ++ J ++ L) = Ok c /\
  forall m g, is_bytes m -> zlen m <= UINT_MAX -> buffer (zlen m) g ->
    let x := encipher R I J L [zeros 16; N; []] m in
    aez_encrypt R c N (zlen N) m (zlen m) g = Ok x /\ aez_decrypt R c N (zlen N) x (zlen x) g = Ok (0, m).
Proof. exact aez_any_nonce. Qed.
Print Assumptions C97_any_nonce.
(** The scheme as specified keeps lengths and is injective on the strings of each length. *)
Theorem C97_scheme_is_a_permutation : forall R I J L N m m', block_map R -> part I -> part J -> part L -> is_bytes N -> zlen N <= 16 ->
  is_bytes m -> is_bytes m' -> zlen m <= UINT_MAX -> zlen m' = zlen m -> let x := encipher R I J L [zeros 16; N; []] m in
  is_bytes x /\ zlen x = zlen m /\ (x = encipher R I J L [zeros 16; N; []] m' -> m = m').
Proof. exact encipher_perm. Qed.
Print Assumptions C97_scheme_is_a_permutation.
Definition xI := 200 :: zeros 14 ++ [1]. Definition xJ := 17 :: zeros 14 ++ [99]. Definition xL := 250 :: zeros 14 ++ [3].
(** With the AES round: one byte, a short odd length, fragments of both kinds; the nonce matters. *)
Example C97_nontrivial : part xI /\ part xJ /\ part xL /\ forallb (fun n => let m := map Z.of_nat (seq 7 n) in let x := encipher aes_round xI xJ xL [zeros 16; zeros 16; []] m in
  (zlen x =? zlen m) && negb (bytes_eqb x m) && negb (bytes_eqb x (encipher aes_round xI xJ xL [zeros 16; [1; 2]; []] m))) [1; 21; 44; 85]%nat = true.
Proof.
  assert (forall x, forallb is_byteb x = true -> is_bytes x) as B.
  { intros x H. apply Forall_forall. intros b Hb. rewrite forallb_forall in H. specialize (H b Hb). unfold is_byteb, is_byte in *.
    apply andb_prop in H as [H1 H2]. apply Z.leb_le in H1. apply Z.ltb_lt in H2. split; assumption. }
  split; [|split; [|split]]; [split; [apply B; vm_compute; reflexivity|reflexivity]..|vm_compute; reflexivity].
Qed.
