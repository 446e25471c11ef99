(** Property C119: the ARM path of aez.c computes the same as the AES-NI path. *)
From Verif Require Import Base KeyVal AezModel PrpModel PrpSpec AesRound AezSpec AezAuthModel AezArchModel AezArchSpec AezProofs16 AezProofs18.

(** Keys of any length, all nonces, authenticators, messages, and also the arguments for which the AES-NI path is undefined or rejects. *)
Theorem C119_same : forall R h key old I J L, block_map R -> register_map R -> is_bytes key -> (forall x, is_bytes (h x)) ->
  is_bytes (ctx_bytes old) -> zlen (ctx_bytes old) = 112 ->
  part I -> part J -> part L -> (zlen key = 48 -> key = I ++ J ++ L) -> (zlen key <> 48 -> h key = I ++ J ++ L) ->
  exists c, aez_setup_any h key (zlen key) old = Ok c /\ arm_setup h key (zlen key) old = Ok c /\
  forall n nb a src b dst, is_bytes n -> is_bytes src -> is_bytes dst -> 0 <= b ->
    arm_encrypt R c n nb a src b dst = aez_encrypt_a R c n nb a src b dst /\ arm_decrypt R c n nb a src b dst = aez_decrypt_a R c n nb a src b dst.
Proof. exact arm_same. Qed.
Print Assumptions C119_same.
(** So it is AEZ v4.1 (C97), without authenticator as prp.cpp uses it. *)
Theorem C119_arm_is_aez : forall R h old I J L N, block_map R -> register_map R -> (forall x, is_bytes (h x)) -> is_bytes (ctx_bytes old) -> zlen (ctx_bytes old) = 112 ->
  part I -> part J -> part L -> is_bytes N -> zlen N <= 16 -> exists c, arm_setup h (I ++ J ++ L) 48 old = Ok c /\
  forall m g, is_bytes m -> zlen m <= UINT_MAX -> buffer (zlen m) g ->
    let x := encipher R I J L [zeros 16; N; []] m in
    arm_encrypt R c N (zlen N) 0 m (zlen m) g = Ok x /\ arm_decrypt R c N (zlen N) 0 x (zlen x) g = Ok (0, m).
Proof. exact arm_aez. Qed.
Print Assumptions C119_arm_is_aez.
(** The AES round meets the hypothesis. *)
Theorem C119_aes_round : register_map aes_round.
Proof. exact aes_register. Qed.
Print Assumptions C119_aes_round.

(** One byte, an odd short length, a long message with a fragment; the parts of the key have all top bits. *)
Definition aI := map (fun i => 255 - 3 * Z.of_nat i) (seq 0 16). Definition aJ := map (fun i => 129 + 5 * Z.of_nat i) (seq 0 16). Definition aL := map (fun i => 17 * Z.of_nat i) (seq 0 16).
Example C119_example :
  match arm_setup (fun _ => zeros 48) (aI ++ aJ ++ aL) 48 (ctx_of (zeros 112)) with
  | Ok c => forallb (fun n => let m := map Z.of_nat (seq 7 n) in
      match arm_encrypt aes_round c [5] 1 0 m (Z.of_nat n) (zeros n) with
      | Ok x => bytes_eqb x (encipher aes_round aI aJ aL [zeros 16; [5]; []] m) && negb (bytes_eqb x m)
      | _ => false end) [1; 21; 44]%nat
  | _ => false end = true.
Proof. vm_compute. reflexivity. Qed.
