(** Property C143: what the functions of Prg, Cipher, HMac and Prf leave in temporary memory. *)
From Verif Require Import Base BaseFacts KeyVal PrgModel CipherModel HmacModel TmpModel TmpSpec TmpProofs TmpProofs2 TmpProofs3 TmpProofs4.

(** When a function of Prg returns, whatever the key, the sizes and the protections that fail, its buffers have been given back and
    hold zeros, and it has computed what the model of prg.cpp computes.  What is missing: functions that throw, see below *)
Theorem C143_prg_partial : forall ml blk g gd fu fl offset len out m k s, zlen g = CHACHA20_BLOCK_SIZE -> zlen gd = len ->
  (forall o, t_derive_buf ml blk g fu fl offset len out (mkT m k) = (s, Ok o) -> wiped m (t_mem s) /\ derive_buf blk ml k offset len out = (t_key s, Ok o)) /\
  (forall o, t_derive_str ml blk g gd fu fl offset len (mkT m k) = (s, Ok o) -> wiped m (t_mem s) /\ derive_str blk ml gd k offset len = (t_key s, Ok o)) /\
  (forall o, t_sderive_buf ml blk g fu fl offset len out (mkT m k) = (s, Ok o) -> wiped m (t_mem s) /\ sderive_buf blk k offset len out = (t_key s, Ok (Some o))) /\
  (forall o, t_sderive_str ml blk g gd fu fl offset len (mkT m k) = (s, Ok o) -> wiped m (t_mem s) /\ sderive_str blk gd k offset len = (t_key s, Ok o)).
Proof.
  exact (fun ml blk g gd fu fl offset len out m k s Lg Ld =>
    conj (fun o => derive_buf_inv ml blk g fu fl offset len out m k s o Lg)
    (conj (fun o => derive_str_inv ml blk g gd fu fl offset len m k s o Lg Ld)
    (conj (fun o => sderive_buf_inv ml blk g fu fl offset len out m k s o Lg) (fun o => sderive_str_inv ml blk g gd fu fl offset len m k s o Lg Ld)))).
Qed.
Print Assumptions C143_prg_partial.
(** The same for encryption *)
Theorem C143_encrypt_partial : forall ml kdf aead_enc g gd fu fl inp len out r m k s, (forall x n, zlen (kdf x n) = 32) -> zlen g = 32 ->
  zlen gd = ciphertext_length (zlen inp) ->
  (forall o, t_encrypt ml kdf aead_enc g fu fl inp len out r (mkT m k) = (s, Ok o) ->
     wiped m (t_mem s) /\ encrypt kdf aead_enc ml k inp len out r = (t_key s, Ok o)) /\
  (forall o, t_encrypt_str ml kdf aead_enc g gd fu fl inp r (mkT m k) = (s, Ok o) ->
     wiped m (t_mem s) /\ encrypt_str kdf aead_enc ml k inp gd r = (t_key s, Ok o)).
Proof.
  exact (fun ml kdf ae g gd fu fl inp len out r m k s Lk Lg Ld =>
    conj (fun o => encrypt_inv ml kdf ae (fun _ _ _ => None) Lk g fu fl inp len out r m k s o Lg) (fun o => encrypt_str_inv ml kdf ae (fun _ _ _ => None) Lk g gd fu fl inp r m k s o Lg Ld)).
Qed.
Print Assumptions C143_encrypt_partial.
(** When a ciphertext is refused, nothing of the derived key and of the decrypted bytes is left *)
Theorem C143_refused_partial : forall ml kdf aead_dec, (forall x n, zlen (kdf x n) = 32) -> forall g inp m kb l nonce n c,
  zlen g = 32 -> NONCE_SIZE + ABYTES < zlen inp ->
  rd inp 0 NONCE_SIZE = Ok nonce -> rd inp 0 12 = Ok n -> rd inp NONCE_SIZE (zlen inp - NONCE_SIZE) = Ok c -> aead_dec (kdf kb nonce) n c = None ->
  exists s, t_decrypt_str ml kdf aead_dec g false false inp (mkT m (VKey kb l)) = (s, Throw RuntimeError) /\ wiped m (t_mem s).
Proof. exact decrypt_rejected. Qed.
Print Assumptions C143_refused_partial.
(** HMac wipes its two buffers, also when the key cannot be locked again at the end *)
Theorem C143_hmac_partial : forall ml H B D fu fl N inp len out opos out_len g1 g2 m k, zlen g1 = buffer_len B D len -> zlen g2 = tmp_len B D ->
  (forall s o, t_hmac ml H B D fu fl N inp len out opos out_len g1 g2 (mkT m k) = (s, Ok o) ->
     wiped m (t_mem s) /\ hmac H B D ml N k inp len out opos out_len g1 g2 = (t_key s, Ok o)) /\
  (forall k' o, hmac H B D ml N k inp len out opos out_len g1 g2 = (k', Ok o) ->
     (exists m', t_hmac ml H B D false false N inp len out opos out_len g1 g2 (mkT m k) = (mkT m' k', Ok o)) /\
     (ml = true -> exists s, t_hmac ml H B D false true N inp len out opos out_len g1 g2 (mkT m k) = (s, Throw RuntimeError) /\ wiped m (t_mem s))).
Proof.
  exact (fun ml H B D fu fl N inp len out opos out_len g1 g2 m k L1 L2 =>
    conj (fun s o => hmac_inv ml H B D fu fl N inp len out opos out_len g1 g2 m k s o L1 L2)
    (fun k' o E => conj (hmac_returns ml H B D N inp len out opos out_len g1 g2 m k k' o L1 L2 E)
      (fun Em => hmac_lock ml H B D N inp len out opos out_len g1 g2 m k k' o Em L1 L2 E))).
Qed.
Print Assumptions C143_hmac_partial.
(** Prf wipes its copy of the input and the buffers of every call of HMac *)
Theorem C143_prf_partial : forall ml H g, (forall n, 0 <= n -> zlen (g n) = n) -> forall fu fl NB inp len r t m k s o, zlen t = len + 1 ->
  t_prf ml H g fu fl NB inp len r t (mkT m k) = (s, Ok o) -> wiped m (t_mem s) /\ prf H ml g NB k inp len r t = (t_key s, Ok o).
Proof. exact prf_inv. Qed.
Print Assumptions C143_prf_partial.
(** decrypt on strings always leaves the plaintext in the memory it gives back (encrypt on strings wipes the ciphertext there) *)
Theorem C143_decrypt_refuted : forall ml kdf aead_dec, (forall x n, zlen (kdf x n) = 32) -> forall g fu fl inp m k s o, zlen g = 32 ->
  t_decrypt_str ml kdf aead_dec g fu fl inp (mkT m k) = (s, Ok o) ->
  left_behind o m (t_mem s) /\ decrypt_str kdf aead_dec ml k inp = (t_key s, Ok o).
Proof.
  intros ml kdf ad Lk g fu fl inp m k s o Lg E. destruct (decrypt_str_left ml kdf (fun _ _ _ => []) ad Lk g fu fl inp m k s o Lg E) as [A B].
  split; [|exact B]. eexists _, _. split; [exact A|]. split; [left; reflexivity|]. split; reflexivity.
Qed.
Print Assumptions C143_decrypt_refuted.
(** When the key cannot be locked again, encrypt throws and leaves the derived key in memory *)
Theorem C143_derived_key_refuted : forall kdf aead_enc, (forall x n, zlen (kdf x n) = 32) -> forall g inp len out r kb l m out' nonce, zlen g = 32 ->
  wr out 0 r = Ok out' -> rd out' 0 NONCE_SIZE = Ok nonce ->
  exists s, t_encrypt true kdf aead_enc g false true inp len out r (mkT m (VKey kb l)) = (s, Throw RuntimeError) /\ left_behind (kdf kb nonce) m (t_mem s).
Proof.
  intros kdf ae Lk g inp len out r kb l m out' nonce Lg E1 E2. eexists. split; [exact (encrypt_lock_left true kdf ae (fun _ _ _ => None) Lk g inp len out r kb l m out' nonce eq_refl Lg E1 E2)|].
  eexists _, _. split; [reflexivity|]. split; [left; reflexivity|]. split; reflexivity.
Qed.
Print Assumptions C143_derived_key_refuted.
(** The functions on strings of Prg with an empty key, and HMac with an empty key or one that cannot be unlocked, never delete an array *)
Theorem C143_lost_refuted :
  (forall ml blk g gd fu fl offset len m, exists s, t_sderive_str ml blk g gd fu fl offset len (mkT m VEmpty) = (s, Throw InvalidArgument) /\ lost m (t_mem s)) /\
  (forall H B D fu fl N inp len out opos out_len g1 g2 m k, out_len <= D -> (k = VEmpty \/ fu = true /\ exists b, k = VKey b true) ->
     exists s, t_hmac true H B D fu fl N (Some inp) len (Some out) opos out_len g1 g2 (mkT m k) = (s, Throw RuntimeError) /\ lost m (t_mem s)).
Proof.
  split.
  - intros. eexists. split; [apply sderive_str_lost|]. eexists _, _. split; [reflexivity|]. split; [left; reflexivity|reflexivity].
  - intros H B D fu fl N inp len out opos out_len g1 g2 m k L K. eexists. split; [apply hmac_lost; [reflexivity|apply Z.ltb_ge; exact L|exact K]|].
    eexists _, _. split; [reflexivity|]. split; [left; reflexivity|reflexivity].
Qed.
Print Assumptions C143_lost_refuted.

(** With toy primitives: calls that return, and what they leave *)
Definition ex_blk (k : bytes) (c : Z) : bytes := repeat (7 + hd 0 k + c) 64.
Definition ex_kdf (k n : bytes) : bytes := repeat (hd 0 k + hd 0 n) 32.
Definition ex_aenc (k n m : bytes) : bytes := m ++ repeat (hd 0 k) 16.
Definition ex_adec (k n c : bytes) : option bytes := if bytes_eqb (skipn (length c - 16) c) (repeat (hd 0 k) 16) then Some (firstn (length c - 16) c) else None.
Definition ex_key : vkey := VKey (repeat 5 32) true.
Example C143_examples :
  t_derive_str true ex_blk (repeat 9 64) [1; 2; 3; 4] false false 62 4 (mkT [] ex_key) =
    (mkT [mkB New false [0; 0; 0; 0]; mkB Auto false (zeros 64)] ex_key, Ok [12; 12; 13; 13]) /\
  t_encrypt_str true ex_kdf ex_aenc (repeat 9 32) (repeat 8 34) false false [42; 43] (repeat 1 16) (mkT [] ex_key) =
    (mkT [mkB New false (zeros 34); mkB Auto false (zeros 32)] ex_key, Ok (repeat 1 16 ++ [42; 43] ++ repeat 6 16)) /\
  t_decrypt_str true ex_kdf ex_adec (repeat 9 32) false false (repeat 1 16 ++ [42; 43] ++ repeat 6 16) (mkT [] ex_key) =
    (mkT [mkB Auto false [42; 43]; mkB Auto false (zeros 32)] ex_key, Ok [42; 43]) /\
  t_sderive_str true ex_blk (repeat 9 64) [1; 2] false false 0 2 (mkT [] ex_key) = (mkT [mkB New false [0; 0]] VEmpty, Ok [12; 12]) /\
  (exists o, t_prf true (fun m => repeat (zlen m) 64) (fun n => repeat 3 (Z.to_nat n)) (fun _ => false) (fun _ => false) 70 (Some [1]) 1 (repeat 0 70) [9; 9] (mkT [] ex_key) =
    (mkT [mkB New false [0; 0]; mkB New false (zeros 130); mkB Auto false (zeros 192); mkB New false (zeros 130); mkB Auto false (zeros 192)] ex_key, Ok o)).
Proof. repeat split; try (eexists; vm_compute; reflexivity); vm_compute; reflexivity. Qed.
