(** C121: writing and reading ASN.1 values.  See properties.jsonl and DESIGN.md. *)
From Verif Require Import Base MpiModel AsnModel AsnModel2 RsaKeySpec AsnSpec2 AsnProofs7 AsnProofs9 AsnProofs10.

(** Booleans, strings, bit strings and algorithm identifiers without parameters are written as in X.690; without room for all bytes the buffer is reported as too small. *)
Theorem C121_write :
  (forall v, writer (fun b p => asn1_write_bool b p v) (der_bool (negb (v =? 0))) (zlen (der_bool (negb (v =? 0))))) /\
  (forall t, zlen t < 2 ^ 31 -> writer (fun b p => asn1_write_printable_string b p t) (der_tlv 19 t) (zlen (der_tlv 19 t)) /\
     writer (fun b p => asn1_write_ia5_string b p t) (der_tlv 22 t) (zlen (der_tlv 22 t)) /\ writer (fun b p => asn1_write_octet_string b p t) (der_tlv 4 t) (zlen (der_tlv 4 t))) /\
  (forall buf n, 0 <= n < 2 ^ 31 -> (n + 7) / 8 <= zlen buf -> writer (fun b p => asn1_write_bitstring b p buf n) (der_bits buf n) (zlen (der_bits buf n))) /\
  (forall oid, zlen oid < 2 ^ 31 - 16 -> let s := der_sequence (der_tlv 6 oid ++ der_tlv 5 []) in writer (fun b p => asn1_write_algorithm b p oid 0) s (zlen s)).
Proof. exact writers_ok. Qed.
Print Assumptions C121_write.

(** Parameters that are already in the buffer become part of the algorithm identifier. *)
Theorem C121_write_parameters : forall front oid par post, par <> [] -> zlen oid + zlen par < 2 ^ 30 ->
  let s := der_sequence (der_tlv 6 oid ++ par) in let room := zlen front + zlen par in
  asn1_write_algorithm (front ++ par ++ post) (zlen front) oid (zlen par) =
    if zlen s <=? room then ret (firstn (Z.to_nat (room - zlen s)) front ++ s ++ post, room - zlen s, zlen s) else err ERR_ASN1_BUF_TOO_SMALL.
Proof. exact alg_with_parameters. Qed.
Print Assumptions C121_write_parameters.

(** Integers from 0 to 255 are written as in X.690. *)
Theorem C121_write_int_partial : forall v, 0 <= v <= 255 -> writer (fun b p => asn1_write_int b p v) (der_integer v) (zlen (der_integer v)).
Proof. exact writer_int. Qed.
Print Assumptions C121_write_int_partial.

(** Not so the larger ones: 256 is written as 0, which is what the reader gives back. *)
Theorem C121_write_int_refuted : exists v, 0 <= v < 2 ^ 31 /\ ~ writer (fun b p => asn1_write_int b p v) (der_integer v) (zlen (der_integer v)) /\
  asn1_write_int (zeros 8) 8 v = asn1_write_int (zeros 8) 8 0 /\ asn1_write_int (zeros 8) 8 0 <> err ERR_ASN1_BUF_TOO_SMALL.
Proof.
  exists 256. split; [split; [discriminate|reflexivity]|]. split; [|split; [vm_compute; reflexivity|vm_compute; discriminate]].
  intros W. specialize (W (zeros 8) 8 ltac:(split; discriminate)). vm_compute in W. discriminate.
Qed.
Print Assumptions C121_write_int_refuted.

(** Reading gives the values back. *)
Theorem C121_read : forall a post e,
  (forall v, zlen a + zlen (der_bool v) <= e < 2 ^ 63 -> asn1_get_bool (a ++ der_bool v ++ post) (zlen a) e = ret (zlen a + zlen (der_bool v), if v then 1 else 0)) /\
  (forall x, 0 <= x < 2 ^ 31 -> zlen a + zlen (der_integer x) <= e < 2 ^ 63 -> asn1_get_int (a ++ der_integer x ++ post) (zlen a) e = ret (zlen a + zlen (der_integer x), x)) /\
  (forall buf n, 0 <= n < 2 ^ 31 -> (n + 7) / 8 <= zlen buf -> e = zlen a + zlen (der_bits buf n) -> e < 2 ^ 63 ->
     exists q l, asn1_get_bitstring (a ++ der_bits buf n ++ post) (zlen a) e = ret (e, 8 * l - n, (q, l)) /\
       entry_of (a ++ der_bits buf n ++ post) (3, q, l) = (3, firstn (Z.to_nat ((n + 7) / 8)) buf)).
Proof. exact readers_ok. Qed.
Print Assumptions C121_read.

(** A sequence of at least one value gives the values in their order, or the report that an allocation failed. *)
Theorem C121_sequence_partial : forall tag alloc init cs a post, cs <> [] -> let s := der_sequence_of tag cs in let b := a ++ s ++ post in zlen a + zlen s < 2 ^ 31 ->
  ((forall i, (S i < length cs)%nat -> alloc i = true) -> exists l, asn1_get_sequence_of alloc init b (zlen a) (zlen a + zlen s) tag = ret l /\ map (entry_of b) l = map (fun c => (tag, c)) cs) /\
  ((exists i, (S i < length cs)%nat /\ alloc i = false) -> asn1_get_sequence_of alloc init b (zlen a) (zlen a + zlen s) tag = err ERR_ASN1_ALLOC_FAILED).
Proof. exact sequence_of_ok. Qed.
Print Assumptions C121_sequence_partial.

(** The empty sequence gives one entry: what the caller's structure held before. *)
Theorem C121_empty_sequence_refuted : exists alloc init, asn1_get_sequence_of alloc init (der_sequence_of 2 []) 0 2 2 = ret [init] /\ fst (fst init) <> 2.
Proof. exists (fun _ => true), (7, 0, 9). split; [vm_compute; reflexivity|discriminate]. Qed.
Print Assumptions C121_empty_sequence_refuted.

(** Algorithm identifiers without parameters, or with the parameters NULL, are accepted and the object identifier is found; all other parameters are rejected
    (also accepted: an empty value with the tag 0). *)
Theorem C121_alg_null : forall oid par a post e, zlen oid < 2 ^ 30 -> match par with Some (_, c) => zlen c < 2 ^ 30 | None => True end ->
  let s := der_sequence (der_tlv 6 oid ++ match par with Some (t, c) => der_tlv t c | None => [] end) in zlen a + zlen s <= e < 2 ^ 63 ->
  match par with
  | Some (t, c) => (t = 5 \/ t = 0) /\ c = []
  | None => True
  end ->
  exists ap, asn1_get_alg_null (a ++ s ++ post) (zlen a) e = ret (zlen a + zlen s, (ap, zlen oid)) /\ entry_of (a ++ s ++ post) (6, ap, zlen oid) = (6, oid).
Proof. exact alg_null_ok. Qed.
Print Assumptions C121_alg_null.
Theorem C121_alg_other : forall oid t c a post e, zlen oid < 2 ^ 30 -> zlen c < 2 ^ 30 -> let s := der_sequence (der_tlv 6 oid ++ der_tlv t c) in zlen a + zlen s <= e < 2 ^ 63 ->
  (t <> 5 /\ t <> 0) \/ c <> [] -> asn1_get_alg_null (a ++ s ++ post) (zlen a) e = err ERR_ASN1_INVALID_DATA.
Proof. exact alg_null_other. Qed.
Print Assumptions C121_alg_other.

(** On any data: an error, or a result within the data. *)
Theorem C121_safe : forall b p e, is_bytes b -> zlen b < 2 ^ 63 -> 0 <= p -> e <= zlen b ->
  safe (asn1_get_bool b p e) (fun '(p', v) => p < p' <= e /\ (v = 0 \/ v = 1)) /\
  safe (asn1_get_bitstring b p e) (fun '(p', un, (q, l)) => p' = e /\ 0 <= un <= 7 /\ p < q /\ 0 <= l /\ q + l = e) /\
  safe (asn1_get_alg b p e) (fun '(p', (ap, al), (pt, pl)) => p < p' <= e /\ p < ap /\ 0 <= al /\ ap + al <= p' /\ 0 <= pl) /\
  safe (asn1_get_alg_null b p e) (fun '(p', (ap, al)) => p < p' <= e /\ p < ap /\ 0 <= al /\ ap + al <= p') /\
  (forall alloc init tag, safe (asn1_get_sequence_of alloc init b p e tag) (fun l => l = [init] \/ Forall (fun '(t, q, n) => t = tag /\ p < q /\ 0 <= n /\ q + n <= e) l)).
Proof. exact parsers_safe. Qed.
Print Assumptions C121_safe.

(** Values: true, the bits 10110 and two strings in a sequence, written from the end of a buffer and read back *)
Example C121_example :
  asn1_write_bool (zeros 4) 4 (-3) = ret ([0; 1; 1; 255], 1, 3) /\
  asn1_write_bitstring (zeros 5) 5 [176] 5 = ret ([0; 3; 2; 3; 176], 1, 4) /\ asn1_get_bitstring [0; 3; 2; 3; 176] 1 5 = ret (5, 3, (4, 1)) /\
  der_sequence_of 19 [[72; 105]; [33]] = [48; 7; 19; 2; 72; 105; 19; 1; 33] /\
  asn1_get_sequence_of (fun _ => true) (0, 0, 0) [48; 7; 19; 2; 72; 105; 19; 1; 33] 0 9 19 = ret [(19, 4, 2); (19, 8, 1)] /\
  map (entry_of [48; 7; 19; 2; 72; 105; 19; 1; 33]) [(19, 4, 2); (19, 8, 1)] = [(19, [72; 105]); (19, [33])] /\
  asn1_get_sequence_of (fun _ => false) (0, 0, 0) [48; 7; 19; 2; 72; 105; 19; 1; 33] 0 9 19 = err ERR_ASN1_ALLOC_FAILED /\
  asn1_write_ia5_string (zeros 3) 3 [72; 105] = err ERR_ASN1_BUF_TOO_SMALL.
Proof. vm_compute. repeat split. Qed.
Example C121_int_example : asn1_write_int (zeros 4) 4 200 = ret ([2; 2; 0; 200], 0, 4) /\ asn1_get_int [2; 2; 0; 200] 0 4 = ret (4, 200) /\ asn1_get_int [2; 4; 1; 2; 3; 4] 0 6 = ret (6, 16909060).
Proof. vm_compute. repeat split. Qed.
Example C121_alg_example : asn1_write_algorithm (zeros 7 ++ [4; 1; 9]) 7 [42; 3] 3 = ret ([0; 48; 7; 6; 2; 42; 3; 4; 1; 9], 1, 9) /\
  asn1_get_alg_null [0; 48; 7; 6; 2; 42; 3; 4; 1; 9] 1 10 = err ERR_ASN1_INVALID_DATA /\ asn1_get_alg_null [48; 6; 6; 2; 42; 3; 5; 0] 0 8 = ret (8, (4, 2)).
Proof. vm_compute. repeat split. Qed.
