(** Properties C06-C11, C58: the PRG. *)
From Verif Require Import BaseFacts KeyVal PrgModel PrgSpec PrgProofs.

(** C06.  One stream per key; every overload returns the requested window of it.  Objects are at most 2^63 bytes long,
    the offset is any size_t. *)
Theorem C06_prg_keystream : forall blk ml kb,
  exists S : Z -> Z, forall offset len, 0 <= offset < 2 ^ 64 -> 0 <= len <= 2 ^ 63 ->
  (forall l buf, len <= zlen buf ->
     snd (derive_buf blk ml (VKey kb l) offset len (Some buf)) = Ok (Some (prefix_replaced (stream_window S offset len) buf)) /\
     snd (sderive_buf blk (VKey kb l) offset len (Some buf)) = Ok (Some (prefix_replaced (stream_window S offset len) buf))) /\
  (forall l g, zlen g = len ->
     snd (derive_str blk ml g (VKey kb l) offset len) = Ok (stream_window S offset len) /\
     snd (sderive_str blk g (VKey kb l) offset len) = Ok (stream_window S offset len)) /\
  (forall l ne, offset = 0 -> 0 < len -> snd (sderive_vec blk ne (VKey kb l) len) = Ok (stream_window S offset len)).
Proof. exact all_overloads. Qed.
Print Assumptions C06_prg_keystream.
Theorem C06_prg_stream_is_chacha20 : forall blk ml kb l offset len g,
  0 <= offset < 2 ^ 64 -> 0 <= len <= 2 ^ 63 -> zlen g = len ->
  snd (derive_str blk ml g (VKey kb l) offset len) = Ok (stream_window (chacha_stream blk kb) offset len).
Proof. exact stream_is_chacha. Qed.
Print Assumptions C06_prg_stream_is_chacha20.

(** A toy block function whose 64 bytes depend on the key, the counter and the position. *)
Definition toy_blk (k : bytes) (c : Z) : bytes := map (fun j => (hd 0 k + 7 * c + j) mod 256) (zseq 0 64).
Example C06_nontrivial :
  snd (derive_str toy_blk true (repeat 9 5) (VKey [3] true) 62 5) = Ok [65; 66; 10; 11; 12] /\
  snd (derive_str toy_blk true (repeat 9 3) (VKey [3] true) (2 ^ 64 - 2) 3) = Ok [58; 59; 3].
Proof. split; vm_compute; reflexivity. Qed.

(** C07. *)
Theorem C07_prg_compose : forall blk ml kb l l1 l2 offset a b g g1 g2 o oa ob,
  0 <= offset -> 0 <= a -> 0 <= b -> offset + a < 2 ^ 64 -> a + b <= 2 ^ 63 ->
  zlen g = a + b -> zlen g1 = a -> zlen g2 = b ->
  snd (derive_str blk ml g (VKey kb l) offset (a + b)) = Ok o ->
  snd (derive_str blk ml g1 (VKey kb l1) offset a) = Ok oa ->
  snd (derive_str blk ml g2 (VKey kb l2) (offset + a) b) = Ok ob ->
  o = oa ++ ob.
Proof. exact compose. Qed.
Print Assumptions C07_prg_compose.
Example C07_nontrivial :
  snd (derive_str toy_blk true (repeat 0 5) (VKey [3] true) 62 (1 + 4)) = Ok [65; 66; 10; 11; 12] /\
  snd (derive_str toy_blk true (repeat 0 1) (VKey [3] true) 62 1) = Ok [65] /\
  snd (derive_str toy_blk true (repeat 0 4) (VKey [3] true) (62 + 1) 4) = Ok [66; 10; 11; 12].
Proof. repeat split; vm_compute; reflexivity. Qed.

(** C08.  No access outside of the buffer (this would be [UB]), bytes behind the first [len] untouched; for every offset,
    including those for which offset+len wraps around. *)
Theorem C08_prg_in_bounds : forall blk ml kb l offset len buf,
  0 <= offset < 2 ^ 64 -> 0 <= len <= 2 ^ 63 -> len <= zlen buf ->
  exists o, snd (derive_buf blk ml (VKey kb l) offset len (Some buf)) = Ok (Some o) /\
            snd (sderive_buf blk (VKey kb l) offset len (Some buf)) = Ok (Some o) /\
            length o = length buf /\ skipn (Z.to_nat len) o = skipn (Z.to_nat len) buf.
Proof. exact in_bounds. Qed.
Print Assumptions C08_prg_in_bounds.
Example C08_nontrivial :
  snd (derive_buf toy_blk true (VKey [3] true) 62 5 (Some [9;9;9;9;9;8;7])) = Ok (Some [65; 66; 10; 11; 12; 8; 7]) /\
  snd (derive_buf toy_blk true (VKey [3] true) 62 5 (Some [9;9;9;9])) = UB.
Proof. split; vm_compute; reflexivity. Qed.

(** C09. *)
Theorem C09_derive_key : forall blk ml g kb l K i,
  0 < K <= 2 ^ 63 -> zlen g = K -> 0 <= i < 2 ^ 16 ->
  derive_key blk ml g (VKey kb l) K i =
    if too_large K i then (VKey kb l, Throw InvalidArgument)
    else (VKey kb ml, Ok (VKey (stream_window (chacha_stream blk kb) (i * K) K) ml)).
Proof. exact derive_key_ok. Qed.
Print Assumptions C09_derive_key.
Theorem C09_static_derive_key : forall blk ml g kb l K i,
  0 < K <= 2 ^ 63 -> zlen g = K -> 0 <= i < 2 ^ 16 ->
  sderive_key blk ml g (VKey kb l) K i =
    if too_large K i then (VKey kb l, Throw InvalidArgument)
    else (VEmpty, Ok (VKey (stream_window (chacha_stream blk kb) (i * K) K) ml)).
Proof. exact sderive_key_ok. Qed.
Print Assumptions C09_static_derive_key.
Theorem C09_derive_keys : forall blk ml g kb l K n off,
  0 < K -> 0 <= n < 2 ^ 16 -> 0 <= off < 2 ^ 16 -> n * K <= 2 ^ 63 -> zlen g = n * K ->
  derive_keys blk ml g (VKey kb l) K n off =
    if too_large K n || too_large K off then (VKey kb l, Throw InvalidArgument)
    else (VKey kb (if n =? 0 then l else ml),
          Ok (map (fun i => VKey (stream_window (chacha_stream blk kb) (i * K) K) ml) (zseq off (Z.to_nat n)))).
Proof. exact derive_keys_ok. Qed.
Print Assumptions C09_derive_keys.
Theorem C09_static_derive_keys : forall blk ml g kb l K n off,
  0 < K -> 0 <= n < 2 ^ 16 -> 0 <= off < 2 ^ 16 -> n * K <= 2 ^ 63 -> zlen g = n * K ->
  sderive_keys blk ml g (VKey kb l) K n off =
    if n =? 0 then (VKey kb l, Ok [])
    else if too_large K n || too_large K off then (VKey kb l, Throw InvalidArgument)
    else (VEmpty,
          Ok (map (fun i => VKey (stream_window (chacha_stream blk kb) (i * K) K) ml) (zseq off (Z.to_nat n)))).
Proof. exact sderive_keys_ok. Qed.
Print Assumptions C09_static_derive_keys.
(** The rejected requests are exactly those for which [K * n >= SIZE_MAX] up to rounding; no accepted one overflows. *)
Theorem C09_no_overflow : forall K n, 0 <= K -> 0 <= n -> too_large K n = false -> 0 <= n * K < 2 ^ 64.
Proof. exact too_large_false. Qed.
Print Assumptions C09_no_overflow.
Example C09_nontrivial :
  derive_keys toy_blk true (repeat 0 4) (VKey [3] true) 2 2 31 = (VKey [3] true, Ok [VKey [65; 66] true; VKey [10; 11] true]) /\
  derive_key toy_blk true (repeat 0 2) (VKey [3] true) 2 32 = (VKey [3] true, Ok (VKey [10; 11] true)) /\
  too_large (2 ^ 60) 16 = true.
Proof. repeat split; vm_compute; reflexivity. Qed.

(** C10.  Key locked after the call, on all paths except a null output buffer. *)
Theorem C10_prg_key_locked_partial : forall blk ml k, v_protected ml k ->
  (forall offset len buf, 0 <= offset < 2 ^ 64 -> 0 <= len <= 2 ^ 63 -> len <= zlen buf ->
     v_protected ml (fst (derive_buf blk ml k offset len (Some buf)))) /\
  (forall offset len g, 0 <= offset < 2 ^ 64 -> 0 <= len <= 2 ^ 63 -> zlen g = len ->
     v_protected ml (fst (derive_str blk ml g k offset len))) /\
  (forall K i g, 0 < K <= 2 ^ 63 -> 0 <= i < 2 ^ 16 -> zlen g = K ->
     v_protected ml (fst (derive_key blk ml g k K i))) /\
  (forall K n off g, 0 < K -> 0 <= n < 2 ^ 16 -> 0 <= off < 2 ^ 16 -> n * K <= 2 ^ 63 -> zlen g = n * K ->
     v_protected ml (fst (derive_keys blk ml g k K n off))) /\
  v_protected ml (fst (prg_duplicate ml k)) /\
  v_protected ml (fst (prg_serialize ml k)).
Proof. exact members_protected. Qed.
Print Assumptions C10_prg_key_locked_partial.
Theorem C10_prg_key_locked_refuted : exists blk ml k offset len,
  v_protected ml k /\ snd (derive_buf blk ml k offset len None) = Throw InvalidArgument /\
  ~ v_protected ml (fst (derive_buf blk ml k offset len None)).
Proof. exists toy_blk, true, (VKey [3] true), 0, 1. repeat split. vm_compute. discriminate. Qed.
Print Assumptions C10_prg_key_locked_refuted.

(** C11. *)
Theorem C11_static_derive_consumes : forall blk k,
  (forall offset len out, fst (sderive_buf blk k offset len out) = VEmpty) /\
  (forall offset len g, fst (sderive_str blk g k offset len) = VEmpty) /\
  (forall ne len, fst (sderive_vec blk ne k len) = VEmpty) /\
  (forall offset len out, snd (sderive_buf blk VEmpty offset len out) = Throw InvalidArgument) /\
  (forall offset len g, snd (sderive_str blk g VEmpty offset len) = Throw InvalidArgument) /\
  (forall ne len, snd (sderive_vec blk ne VEmpty len) = Throw InvalidArgument).
Proof. exact statics_consume. Qed.
Print Assumptions C11_static_derive_consumes.
Theorem C11_overloads_agree_partial : forall blk kb l len g ne,
  0 < len <= 2 ^ 63 -> zlen g = len ->
  sderive_vec blk ne (VKey kb l) len = sderive_str blk g (VKey kb l) 0 len.
Proof.
  exact (fun blk kb l len g ne Hl Hg =>
    eq_trans (sderive_vec_ok blk ne kb l len ltac:(lia) ltac:(lia))
             (eq_sym (sderive_str_ok blk kb l 0 len g ltac:(lia) ltac:(lia) Hg))).
Qed.
Print Assumptions C11_overloads_agree_partial.
Theorem C11_overloads_agree_refuted : exists blk k,
  snd (sderive_str blk [] k 0 0) = Ok [] /\ snd (sderive_vec blk true k 0) = Throw InvalidArgument.
Proof. exists toy_blk, (VKey [3] true). split; reflexivity. Qed.
Print Assumptions C11_overloads_agree_refuted.
(** The static [derive_keys] does not consume the key when no key is requested. *)
Theorem C11_static_derive_keys_consumes_refuted : exists blk k,
  snd (sderive_keys blk true [] k 16 0 0) = Ok [] /\ fst (sderive_keys blk true [] k 16 0 0) <> VEmpty.
Proof. exists toy_blk, (VKey [3] true). split; [reflexivity|discriminate]. Qed.
Print Assumptions C11_static_derive_keys_consumes_refuted.

(** C58.  Serialisation of a PRG. *)
Theorem C58_prg_serialization : forall ml kb l rest, zlen kb = 32 ->
  prg_serialize ml (VKey kb l) = (VKey kb ml, Ok kb) /\
  prg_deserialize ml (kb ++ rest) (zlen (kb ++ rest)) = Ok (VKey kb ml, zeros 32 ++ rest, 32) /\
  snd (prg_duplicate ml (VKey kb l)) = Ok (VKey kb ml).
Proof. exact prg_roundtrip. Qed.
Print Assumptions C58_prg_serialization.
Example C58_nontrivial : zlen (zseq 1 32) = 32 /\ snd (prg_serialize true (VKey (zseq 1 32) true)) = Ok (zseq 1 32).
Proof. split; reflexivity. Qed.
