(** Properties C12-C16, C59, C60: HMac, Prf and Hash. *)
From Verif Require Import BaseFacts KeyVal HmacModel PrgSpec HmacSpec HmacProofs HmacProofs2.

(** A toy hash function with 64-byte digests, for the examples. *)
Definition toyH (x : bytes) : bytes := let a := fold_left (fun a b => (31 * a + b + 1) mod 65521) x 7 in
  [a mod 256; a / 256] ++ zeros 62.
Definition toyg (n : Z) : bytes := repeat 170 (Z.to_nat n).

(** C12.  [out] is any output buffer that is large enough, [rest] whatever follows the message; key of at most one block. *)
Theorem C12_hmac_is_rfc2104 : forall H B D ml kb l msg rest out,
  (forall x, zlen (H x) = D) -> 0 < B -> zlen kb <= B -> B + zlen msg < 2 ^ 64 ->
  forall n g1 g2, zlen g1 = buffer_len B D (zlen msg) -> zlen g2 = tmp_len B D -> 0 <= n <= D -> n <= zlen out ->
  hmac H B D ml (zlen kb) (VKey kb l) (Some (msg ++ rest)) (zlen msg) (Some out) 0 n g1 g2 =
    (VKey kb ml, Ok (prefix_replaced (firstn (Z.to_nat n) (rfc_hmac H (Z.to_nat B) kb msg)) out)).
Proof. exact hmac_rfc. Qed.
Print Assumptions C12_hmac_is_rfc2104.
Theorem C12_hmac_overloads : forall H B D ml kb l msg r g1 g2,
  (forall x, zlen (H x) = D) -> 0 < B -> zlen kb <= B -> B + zlen msg < 2 ^ 64 ->
  zlen r = D -> zlen g1 = buffer_len B D (zlen msg) -> zlen g2 = tmp_len B D ->
  (forall rest, hmac_array H B D ml (zlen kb) (VKey kb l) (Some (msg ++ rest)) (zlen msg) r g1 g2 = (VKey kb ml, Ok (rfc_hmac H (Z.to_nat B) kb msg))) /\
  hmac_string H B D ml (zlen kb) (VKey kb l) msg r g1 g2 = (VKey kb ml, Ok (rfc_hmac H (Z.to_nat B) kb msg)).
Proof. exact hmac_overloads. Qed.
Print Assumptions C12_hmac_overloads.
Theorem C12_hmac_bad_arguments : forall H B D ml N k inp len out opos n g1 g2,
  D < n \/ inp = None \/ out = None ->
  hmac H B D ml N k inp len out opos n g1 g2 = (k, Throw InvalidArgument).
Proof. exact hmac_bad_args. Qed.
Print Assumptions C12_hmac_bad_arguments.
Example C12_nontrivial :
  snd (hmac toyH 128 64 true 16 (VKey (repeat 5 16) true) (Some [1; 2; 3; 99]) 3 (Some [9; 9; 9; 9]) 0 2 (toyg 131) (toyg 192))
    = Ok (firstn 2 (rfc_hmac toyH 128 (repeat 5 16) [1; 2; 3]) ++ [9; 9]) /\
  firstn 2 (rfc_hmac toyH 128 (repeat 5 16) [1; 2; 3]) <> firstn 2 (rfc_hmac toyH 128 (repeat 5 16) [1; 2; 4]).
Proof. split; vm_compute; [reflexivity|discriminate]. Qed.

(** C13.  Proved for key sizes up to the block size (partial); larger keys compile too, and are cut to one block
    instead of being hashed, or overflow the stack/heap buffers. *)
Theorem C13_hmac_key_sizes_partial : forall H B D ml kb l msg r g1 g2,
  (forall x, zlen (H x) = D) -> 0 < B -> zlen kb <= B -> B + zlen msg < 2 ^ 64 ->
  zlen r = D -> zlen g1 = buffer_len B D (zlen msg) -> zlen g2 = tmp_len B D ->
  snd (hmac_string H B D ml (zlen kb) (VKey kb l) msg r g1 g2) = Ok (rfc_hmac H (Z.to_nat B) kb msg).
Proof. intros. rewrite (proj2 (hmac_overloads H B D ml kb l msg r g1 g2 ltac:(assumption) ltac:(assumption) ltac:(assumption) ltac:(assumption) ltac:(assumption) ltac:(assumption) ltac:(assumption))). reflexivity. Qed.
Print Assumptions C13_hmac_key_sizes_partial.
Theorem C13_hmac_long_keys_are_cut : forall H B D ml k1 k2 l msg r g1 g2,
  (forall x, zlen (H x) = D) -> 0 < B ->
  zlen k1 = B -> 0 < zlen k2 <= D -> zlen k2 <= zlen msg -> B + zlen msg < 2 ^ 64 ->
  zlen r = D -> zlen g1 = buffer_len B D (zlen msg) -> zlen g2 = tmp_len B D ->
  snd (hmac_string H B D ml (zlen (k1 ++ k2)) (VKey (k1 ++ k2) l) msg r g1 g2) = Ok (rfc_hmac H (Z.to_nat B) k1 msg).
Proof. exact hmac_long_trunc. Qed.
Print Assumptions C13_hmac_long_keys_are_cut.
Theorem C13_hmac_very_long_keys_overflow : forall H B D ml kb l inp len out opos n g1 g2,
  (forall x, zlen (H x) = D) -> 0 < B ->
  0 <= n <= D -> zlen g1 = buffer_len B D len -> zlen g2 = tmp_len B D ->
  B + D < zlen kb \/ buffer_len B D len < zlen kb ->
  snd (hmac H B D ml (zlen kb) (VKey kb l) (Some inp) len (Some out) opos n g1 g2) = UB.
Proof. exact hmac_long_ub. Qed.
Print Assumptions C13_hmac_very_long_keys_overflow.
Theorem C13_hmac_every_key_size_refuted : exists H kb msg r g1 g2 o,
  (forall x, zlen (H x) = 64) /\ 16 <= zlen kb /\ zlen r = 64 /\ zlen g1 = buffer_len 128 64 (zlen msg) /\ zlen g2 = tmp_len 128 64 /\
  snd (hmac_string H 128 64 true (zlen kb) (VKey kb true) msg r g1 g2) = Ok o /\ o <> rfc_hmac H 128 kb msg.
Proof.
  exists toyH, (repeat 5 160), (repeat 1 40), (toyg 64), (toyg 168), (toyg 192). eexists.
  split; [reflexivity|]. repeat (split; [vm_compute; first [reflexivity|discriminate]|]).
  vm_compute. discriminate.
Qed.
Print Assumptions C13_hmac_every_key_size_refuted.
Example C13_nontrivial :
  snd (hmac_string toyH 128 64 true 128 (VKey (repeat 5 128) true) [1] (toyg 64) (toyg 129) (toyg 192)) = Ok (rfc_hmac toyH 128 (repeat 5 128) [1]) /\
  snd (hmac_string toyH 128 64 true 130 (VKey (repeat 5 130) true) [1] (toyg 64) (toyg 129) (toyg 192)) = UB /\
  snd (hmac_string toyH 128 64 true 193 (VKey (repeat 5 193) true) (repeat 1 80) (toyg 64) (toyg 208) (toyg 192)) = UB.
Proof. repeat split; vm_compute; reflexivity. Qed.

(** C14.  BLAKE2b: 64-byte digests, 128-byte blocks; key of 32 bytes. *)
Theorem C14_prf_counter_mode : forall H ml g kb l msg rest r t NB,
  (forall y, zlen (H y) = 64) -> sized g -> zlen kb = 32 ->
  0 < NB <= 65472 -> zlen msg < 2 ^ 63 -> zlen r = NB -> zlen t = zlen msg + 1 ->
  prf H ml g NB (VKey kb l) (Some (msg ++ rest)) (zlen msg) r t =
    (VKey kb ml, Ok (if NB <=? 64 then firstn (Z.to_nat NB) (rfc_hmac H 128 kb msg)
                     else ctr_mode (rfc_hmac H 128 kb) msg (Z.to_nat NB))).
Proof. exact prf_ctr. Qed.
Print Assumptions C14_prf_counter_mode.
Theorem C14_prf_overloads : forall H ml g kb l msg r t NB,
  (forall y, zlen (H y) = 64) -> sized g -> zlen kb = 32 ->
  0 < NB <= 65472 -> zlen msg < 2 ^ 63 -> zlen r = NB -> zlen t = zlen msg + 1 ->
  exists o, zlen o = NB /\
    (forall rest, prf H ml g NB (VKey kb l) (Some (msg ++ rest)) (zlen msg) r t = (VKey kb ml, Ok o)) /\
    prf_string H ml g NB (VKey kb l) msg r t = (VKey kb ml, Ok o) /\
    (forall rest, prf_derive_key H ml g NB (VKey kb l) (Some (msg ++ rest)) (zlen msg) r t = (VKey kb ml, Ok (VKey o ml))).
Proof. exact prf_overloads. Qed.
Print Assumptions C14_prf_overloads.
Theorem C14_prf_null : forall H ml g NB k len r t,
  prf H ml g NB k None len r t = (k, Throw InvalidArgument) /\
  prf_derive_key H ml g NB k None len r t = (k, Throw InvalidArgument).
Proof. exact prf_null. Qed.
Print Assumptions C14_prf_null.
Example C14_nontrivial :
  (forall y, zlen (toyH y) = 64) /\ sized toyg /\
  snd (prf toyH true toyg 130 (VKey (repeat 5 32) true) (Some [1; 2; 7]) 2 (toyg 130) (toyg 3)) =
    Ok (rfc_hmac toyH 128 (repeat 5 32) [1; 2; 0] ++ rfc_hmac toyH 128 (repeat 5 32) [1; 2; 1] ++ firstn 2 (rfc_hmac toyH 128 (repeat 5 32) [1; 2; 2])) /\
  firstn 2 (rfc_hmac toyH 128 (repeat 5 32) [1; 2; 0]) <> firstn 2 (rfc_hmac toyH 128 (repeat 5 32) [1; 2; 1]).
Proof.
  split; [reflexivity|]. split; [intros n Hn; unfold toyg, zlen; rewrite repeat_length; apply Z2Nat.id; exact Hn|].
  split; vm_compute; [reflexivity|discriminate].
Qed.

(** C15.  Up to 16384 bytes the inputs of the successive HMACs are distinct; beyond, the one byte counter wraps around,
    and above 65472 bytes the 16-bit position wraps around and the loop never ends. *)
Theorem C15_prf_blocks_distinct_partial : forall H ml g kb l msg rest r t NB,
  (forall y, zlen (H y) = 64) -> sized g -> zlen kb = 32 ->
  0 < NB <= 16384 -> zlen msg < 2 ^ 63 -> zlen r = NB -> zlen t = zlen msg + 1 ->
  exists inputs, NoDup inputs /\
    snd (prf H ml g NB (VKey kb l) (Some (msg ++ rest)) (zlen msg) r t) =
      Ok (firstn (Z.to_nat NB) (concat (map (rfc_hmac H 128 kb) inputs))).
Proof. exact prf_blocks_distinct. Qed.
Print Assumptions C15_prf_blocks_distinct_partial.
Theorem C15_prf_blocks_repeat : forall H ml g kb l msg rest r t NB,
  (forall y, zlen (H y) = 64) -> sized g -> zlen kb = 32 ->
  16448 <= NB <= 65472 -> zlen msg < 2 ^ 63 -> zlen r = NB -> zlen t = zlen msg + 1 ->
  exists o, snd (prf H ml g NB (VKey kb l) (Some (msg ++ rest)) (zlen msg) r t) = Ok o /\
    window o (Z.to_nat 16384) 64 = window o 0 64.
Proof. exact prf_blocks_repeat. Qed.
Print Assumptions C15_prf_blocks_repeat.
Theorem C15_prf_diverges : forall H ml g kb l msg rest r t NB,
  (forall y, zlen (H y) = 64) -> sized g -> zlen kb = 32 ->
  65472 < NB <= 65535 -> zlen msg < 2 ^ 63 -> zlen r = NB -> zlen t = zlen msg + 1 ->
  snd (prf H ml g NB (VKey kb l) (Some (msg ++ rest)) (zlen msg) r t) = Diverge /\
  (* the loop really never ends: no number of iterations is enough *)
  forall fuel tl, zlen tl = 1 -> snd (prf_loop H ml g fuel NB (VKey kb l) (msg ++ tl) (zlen msg) 0 0 r) = Diverge.
Proof. exact prf_diverges. Qed.
Print Assumptions C15_prf_diverges.
Theorem C15_prf_terminates_refuted : exists H g kb msg r t, (forall y, zlen (H y) = 64) /\ sized g /\ zlen kb = 32 /\
  zlen r = 65500 /\ zlen t = zlen msg + 1 /\
  snd (prf H true g 65500 (VKey kb true) (Some msg) (zlen msg) r t) = Diverge.
Proof.
  exists toyH, toyg, (repeat 5 32), [1], (toyg 65500), (toyg 2).
  assert (E : zlen (toyg 65500) = 65500) by (vm_compute; reflexivity).
  split; [reflexivity|]. split; [apply C14_nontrivial|]. split; [reflexivity|]. split; [exact E|]. split; [reflexivity|].
  apply (prf_diverges toyH true toyg (repeat 5 32) true [1] [] (toyg 65500) (toyg 2) 65500); try reflexivity; try exact E; try apply C14_nontrivial; split; [reflexivity|discriminate].
Qed.
Print Assumptions C15_prf_terminates_refuted.
Example C15_nontrivial : window (match snd (prf toyH true toyg 16448 (VKey (repeat 5 32) true) (Some [1]) 1 (toyg 16448) (toyg 2)) with Ok o => o | _ => [] end) (Z.to_nat 16384) 2
  = firstn 2 (rfc_hmac toyH 128 (repeat 5 32) [1; 0]).
Proof. vm_compute. reflexivity. Qed.

(** C16 *)
Theorem C16_hash_prefix : forall H msg rest n out d,
  (forall y, zlen (H y) = 64) -> 0 <= n <= 64 -> n <= zlen out -> zlen d = 64 ->
  hash_trunc H (Some (msg ++ rest)) (zlen msg) n (Some out) d = Ok (prefix_replaced (firstn (Z.to_nat n) (H msg)) out) /\
  hash_str_trunc H msg n d = Ok (firstn (Z.to_nat n) (H msg)) /\
  hash_str H msg d = Ok (H msg).
Proof. exact hash_prefix. Qed.
Print Assumptions C16_hash_prefix.
Theorem C16_hash_full : forall H msg rest out, (forall y, zlen (H y) = 64) -> 64 <= zlen out ->
  hash H (Some (msg ++ rest)) (zlen msg) (Some out) = Ok (prefix_replaced (H msg) out).
Proof. exact hash_full. Qed.
Print Assumptions C16_hash_full.
Theorem C16_hash_rejects : forall H inp len n out d, 64 < n \/ inp = None \/ out = None ->
  hash_trunc H inp len n out d = Throw InvalidArgument /\
  (64 < n -> forall s, hash_str_trunc H s n d = Throw InvalidArgument) /\
  (inp = None \/ out = None -> hash H inp len out = Throw InvalidArgument).
Proof. exact hash_rejects. Qed.
Print Assumptions C16_hash_rejects.
Example C16_nontrivial : hash_str_trunc toyH [1; 2] 2 (toyg 64) = Ok [136; 26] /\ hash_str_trunc toyH [1; 2] 65 (toyg 64) = Throw InvalidArgument.
Proof. split; vm_compute; reflexivity. Qed.

(** C59.  Whatever the arguments, and unless memory is accessed out of bounds, the key is protected as before and keeps its bytes. *)
Theorem C59_hmac_key_locked : forall H B D ml N kb inp len out opos out_len g1 g2 k' r,
  hmac H B D ml N (VKey kb ml) inp len out opos out_len g1 g2 = (k', r) -> r <> UB -> k' = VKey kb ml.
Proof. exact hmac_keeps_key. Qed.
Print Assumptions C59_hmac_key_locked.
Theorem C59_prf_key_locked : forall H ml g NB kb inp len r0 t k' r,
  prf H ml g NB (VKey kb ml) inp len r0 t = (k', r) -> r <> UB -> k' = VKey kb ml.
Proof. exact prf_keeps_key. Qed.
Print Assumptions C59_prf_key_locked.
Example C59_nontrivial :
  fst (hmac toyH 128 64 true 16 (VKey (repeat 5 16) true) (Some [1]) 1 None 0 65 (toyg 129) (toyg 192)) = VKey (repeat 5 16) true /\
  fst (prf toyH true toyg 130 (VKey (repeat 5 32) true) (Some [1]) 1 (toyg 130) (toyg 2)) = VKey (repeat 5 32) true.
Proof. split; vm_compute; reflexivity. Qed.

(** C60 *)
Theorem C60_prf_roundtrip : forall ml kb l rest, zlen kb = 32 ->
  prf_serialize ml (VKey kb l) = (VKey kb ml, Ok kb) /\
  prf_deserialize ml (kb ++ rest) (zlen (kb ++ rest)) = Ok (VKey kb ml, zeros 32 ++ rest, 32).
Proof. exact prf_roundtrip. Qed.
Print Assumptions C60_prf_roundtrip.
Theorem C60_prf_deserialize_short : forall ml buf n, n < 32 -> prf_deserialize ml buf n = Throw InvalidArgument.
Proof. exact prf_deser_short. Qed.
Print Assumptions C60_prf_deserialize_short.
Theorem C60_public_context_injective : forall a b, 0 <= a < 2 ^ 16 -> 0 <= b < 2 ^ 16 ->
  prf_public_context a = prf_public_context b -> a = b.
Proof. exact public_context_inj. Qed.
Print Assumptions C60_public_context_injective.
Example C60_nontrivial : prf_public_context 300 = [1; 44] /\
  prf_deserialize true (repeat 7 32 ++ [1; 2]) 34 = Ok (VKey (repeat 7 32) true, repeat 0 32 ++ [1; 2], 32).
Proof. split; vm_compute; reflexivity. Qed.
