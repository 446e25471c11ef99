(** Properties C49, C50 and C68 (base64). *)
From Coq Require Import Lia.
From Verif Require Import Base BaseFacts Base64Model Base64Spec Base64Proofs Base64Proofs2 Base64Proofs3 Base64Proofs4 Base64Proofs5.

(** C49: encoding writes the RFC 4648 encoding and a terminating zero, and nothing else. *)
Theorem C49_encode_is_base64 : forall (src buf : bytes) dlen, is_bytes src -> src <> [] ->
  zlen (b64 src) + 1 <= dlen <= zlen buf -> dlen < 2 ^ 64 ->
  base64_encode (Some buf) dlen src (zlen src) =
  Ok (0, zlen (b64 src), Some (b64 src ++ [0] ++ skipn (S (length (b64 src))) buf)).
Proof. exact encode_is_b64. Qed.
Print Assumptions C49_encode_is_base64.
Example C49_encode_case : is_bytes [77; 97; 110; 33] /\
  base64_encode (Some (zeros 10)) 10 [77; 97; 110; 33] 4 = Ok (0, 8, Some [84; 87; 70; 117; 73; 81; 61; 61; 0; 0]).
Proof. split; [repeat constructor; lia|vm_compute; reflexivity]. Qed.

(** C49: called without a buffer, or with one that is too small, encoding writes nothing and announces the size needed. *)
Theorem C49_encode_length_query : forall (src : bytes) dst dlen, src <> [] -> zlen (b64 src) + 1 < 2 ^ 64 ->
  dst = None \/ dlen < zlen (b64 src) + 1 ->
  base64_encode dst dlen src (zlen src) = Ok (ERR_BASE64_BUFFER_TOO_SMALL, zlen (b64 src) + 1, dst).
Proof. exact encode_announces. Qed.
Print Assumptions C49_encode_length_query.
Example C49_query_case : base64_encode None 0 [77; 97; 110; 33] 4 = Ok (ERR_BASE64_BUFFER_TOO_SMALL, 9, None).
Proof. vm_compute; reflexivity. Qed.

(** C49: decoding a line-wrapped encoding gives the original bytes, and announces exactly their number. *)
Theorem C49_decode_inverts_encode : forall (l t d : bytes) dlen, is_bytes l -> wrapped (b64 l) t -> zlen t < 2 ^ 64 ->
  zlen l <= dlen <= zlen d ->
  base64_decode (Some d) dlen t (zlen t) = Ok (0, zlen l, Some (l ++ skipn (length l) d)).
Proof. exact decode_wrapped. Qed.
Print Assumptions C49_decode_inverts_encode.
Theorem C49_decode_length_query : forall (l t : bytes) dst dlen, is_bytes l -> l <> [] -> wrapped (b64 l) t -> zlen t < 2 ^ 64 ->
  (forall d, dst = Some d -> dlen < zlen l /\ dlen <= zlen d) ->
  base64_decode dst dlen t (zlen t) = Ok (ERR_BASE64_BUFFER_TOO_SMALL, zlen l, dst).
Proof. exact decode_announces. Qed.
Print Assumptions C49_decode_length_query.
Example C49_decode_case :
  let t := [84; 87; 70; 13; 10; 117; 73; 32; 10; 81; 61; 61; 10; 32] in
  is_bytes [77; 97; 110; 33] /\ wrapped (b64 [77; 97; 110; 33]) t /\
  base64_decode (Some (zeros 5)) 5 t 14 = Ok (0, 4, Some [77; 97; 110; 33; 0]).
Proof.
  cbv zeta. split; [repeat constructor; lia|]. split; [|vm_compute; reflexivity].
  change (b64 [77; 97; 110; 33]) with [84; 87; 70; 117; 73; 81; 61; 61].
  do 3 apply wr_char. apply (wr_crlf 0). do 2 apply wr_char. apply (wr_lf 1). do 3 apply wr_char. apply (wr_lf 0). apply (wr_end 1).
Qed.

(** C49: composed through the buffers that the two functions fill. *)
Theorem C49_round_trip : forall (src buf out : bytes), is_bytes src -> src <> [] ->
  zlen (b64 src) + 1 <= zlen buf < 2 ^ 64 -> zlen src <= zlen out ->
  exists n buf', base64_encode (Some buf) (zlen buf) src (zlen src) = Ok (0, n, Some buf') /\
    base64_decode (Some out) (zlen out) (firstn (Z.to_nat n) buf') n = Ok (0, zlen src, Some (src ++ skipn (length src) out)).
Proof. exact encode_decode. Qed.
Print Assumptions C49_round_trip.
Example C49_round_trip_case : is_bytes [0; 255; 62; 63; 1] /\ zlen (b64 [0; 255; 62; 63; 1]) = 8.
Proof. split; [repeat constructor; lia|vm_compute; reflexivity]. Qed.

(** C50: for every input and every output buffer, decoding stays in its buffers (no undefined behaviour), ends, leaves
    everything beyond the announced size unchanged, and reports success only together with a count within that size. *)
Theorem C50_decode_in_bounds : forall (src d : bytes) dlen, is_bytes src -> zlen src < 2 ^ 64 -> 0 <= dlen <= zlen d ->
  exists r0 n r o d',
    base64_decode None 0 src (zlen src) = Ok (r0, n, None) /\
    base64_decode (Some d) dlen src (zlen src) = Ok (r, o, Some d') /\
    length d' = length d /\ skipn (Z.to_nat n) d' = skipn (Z.to_nat n) d /\
    (r = 0 -> 0 <= o <= n /\ n <= dlen) /\ (r <> 0 -> d' = d) /\ (r0 = ERR_BASE64_INVALID_CHARACTER <-> r = ERR_BASE64_INVALID_CHARACTER) /\
    (r = 0 \/ r = ERR_BASE64_INVALID_CHARACTER \/ (r = ERR_BASE64_BUFFER_TOO_SMALL /\ dlen < n /\ o = n)).
Proof. exact decode_bounded. Qed.
Print Assumptions C50_decode_in_bounds.
Example C50_malformed_case : is_bytes [81; 81; 81; 61; 61] /\
  base64_decode (Some [9; 9; 9; 9]) 4 [81; 81; 81; 61; 61] 5 = Ok (0, 2, Some [65; 4; 9; 9]) /\
  base64_decode (Some [9; 9; 9; 9]) 4 [81; 32; 81; 61; 61] 5 = Ok (ERR_BASE64_INVALID_CHARACTER, 0, Some [9; 9; 9; 9]).
Proof. split; [repeat constructor; lia|split; vm_compute; reflexivity]. Qed.

(** C50: the value of the decoded bytes, for everything that is accepted. *)
Theorem C50_decoded_bytes : forall (vs : list Z) (p : nat) (t d : bytes) dlen, Forall (fun v => 0 <= v < 64) vs -> (p <= 2)%nat ->
  wrapped (map b64_char vs ++ repeat b64_pad p) t -> zlen t < 2 ^ 64 -> 3 * zlen vs / 4 + 3 <= dlen <= zlen d ->
  exists o, base64_decode (Some d) dlen t (zlen t) =
      Ok (0, o, Some (firstn (Z.to_nat o) (regroup (vs ++ repeat 0 p)) ++ skipn (Z.to_nat o) d)) /\
    o = 3 * ((zlen vs + Z.of_nat p) / 4) - Z.max 0 (Z.of_nat p - (zlen vs + Z.of_nat p) mod 4).
Proof. exact decoded_bytes. Qed.
Print Assumptions C50_decoded_bytes.
Example C50_decoded_case : map b64_char [16; 16; 16] ++ repeat b64_pad 2 = [81; 81; 81; 61; 61] /\ regroup ([16; 16; 16] ++ repeat 0 2) = [65; 4; 0].
Proof. split; vm_compute; reflexivity. Qed.

(** C68 is refuted: a text that is not the encoding of any byte string, wrapped or not, is decoded successfully. *)
Theorem C68_decoder_accepts_only_encodings_refuted : exists (t : bytes), is_bytes t /\
  (exists o d', base64_decode (Some (zeros 4)) 4 t (zlen t) = Ok (0, o, Some d')) /\
  (forall l, is_bytes l -> ~ wrapped (b64 l) t).
Proof. exact truncated_accepted. Qed.
Print Assumptions C68_decoder_accepts_only_encodings_refuted.

(** C68: what holds: up to 2^32 bytes of input, exactly the line-wrapped sequences of digits followed by at most two padding
    characters are accepted. *)
Theorem C68_decoder_accepts_partial : forall (t : bytes), is_bytes t -> zlen t < 2 ^ 32 ->
  ((exists r o, base64_decode None 0 t (zlen t) = Ok (r, o, None) /\ r <> ERR_BASE64_INVALID_CHARACTER) <->
   (exists ds p, accepted t ds p)).
Proof. exact accepts_iff. Qed.
Print Assumptions C68_decoder_accepts_partial.
Example C68_case : exists ds p, accepted [81; 10; 81; 61] ds p.
Proof.
  exists [81; 81], 1%nat. split; [|split; [lia|]].
  - repeat constructor; exists 16; split; (lia || reflexivity).
  - apply wr_char, (wr_lf 0). do 2 apply wr_char. apply (wr_end 0).
Qed.
