(** Property C51: mbedtls_pem_write_buffer. *)
From Verif Require Import Base Base64Model PemModel PemSpec PemProofs.

(** The outcome is always [Ok]: with a buffer of exactly the announced size, no access is out of bounds.  Either the buffer is
    reported as too small for the text (with the size needed) or memory is missing, and the buffer is unchanged, or the text
    and its terminating zero are written and nothing else is changed. *)
Theorem C51_pem_write_in_bounds : forall alloc header footer der buf,
  is_bytes der -> zlen der < 2 ^ 63 -> zlen header + zlen footer < 2 ^ 32 -> zlen buf < 2 ^ 64 ->
  let t := pem_text header footer der ++ [0] in
  (exists need, zlen buf < need /\ zlen t <= need /\
    pem_write_buffer alloc header footer der buf (zlen buf) = Ok (ERR_BASE64_BUFFER_TOO_SMALL, need, buf)) \/
  (exists n, alloc n = false /\ pem_write_buffer alloc header footer der buf (zlen buf) = Ok (ERR_PEM_ALLOC_FAILED, 0, buf)) \/
  (zlen t <= zlen buf /\
    pem_write_buffer alloc header footer der buf (zlen buf) = Ok (0, zlen t, t ++ skipn (length t) buf)).
Proof. exact pem_write_bounds. Qed.
Print Assumptions C51_pem_write_in_bounds.
(** 48 bytes make one full line: the text is 3 + 64 + 1 + 2 bytes; with 3 bytes of slack the buffer is accepted. *)
Example C51_nontrivial :
  pem_write_buffer (fun _ => true) [1; 2; 10] [3; 10] (repeat 0 48) (repeat 7 73) 73 =
    Ok (0, 71, [1; 2; 10] ++ repeat 65 64 ++ [10] ++ [3; 10] ++ [0; 7; 7]) /\
  pem_write_buffer (fun _ => true) [1; 2; 10] [3; 10] (repeat 0 48) (repeat 7 71) 71 =
    Ok (ERR_BASE64_BUFFER_TOO_SMALL, 72, repeat 7 71).
Proof. split; vm_compute; reflexivity. Qed.
