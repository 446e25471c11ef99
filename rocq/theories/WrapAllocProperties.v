(** Property C144: wrap and unwrap when secure memory is exhausted. *)
From Verif Require Import Base BaseFacts KeyVal HmacModel HmacSpec HmacProofs2 HmacProperties.
From Verif Require Import WrapperModel WrapperInst WrapperSpec WrapperProofs WrapperProofs2 WrapperProperties WrapAllocModel WrapAllocProofs.

(** When the memory for the IV, the type, the context and the serialization can be allocated, objects are wrapped and unwrapped.
    What is missing: the other case, see below *)
Theorem C144_enough_memory_partial : forall H stream ml g alloc, (forall y, zlen (H y) = 64) -> sized g -> (forall k n l, length (stream k n l) = l) ->
  forall C tk ek l l' l2 l2' c s iv, zlen tk = 32 -> zlen iv = 16 -> zlen (w_ctx C) < 2 ^ 32 -> serializes C c s ->
  alloc (17 + zlen (w_ctx C) + zlen s) = true ->
  exists c' c'',
    let w' := mk_wrapper (VKey tk ml) (VKey ek ml) in
    wrap_a H stream ml g alloc C (mk_wrapper (VKey tk l) (VKey ek l')) c iv = (c', (w', None, Ok (representation H stream tk ek C iv s))) /\
    unwrap_a H stream ml g alloc C (mk_wrapper (VKey tk l2) (VKey ek l2')) (representation H stream tk ek C iv s) =
      (zeros (Z.to_nat (zlen s + 28)), (w', None, Ok c'')) /\
    snd (w_ser C c'') = Ok s.
Proof. exact wrap_a_ok. Qed.
Print Assumptions C144_enough_memory_partial.
(** Representations that are too short are refused without allocating *)
Theorem C144_short_partial : forall H stream ml g alloc C w r, zlen r <= 28 -> unwrap_a H stream ml g alloc C w r = (r, (w, None, Throw InvalidArgument)).
Proof. exact unwrap_a_short. Qed.
Print Assumptions C144_short_partial.
(** Any number of good representations are unwrapped one after the other, when there is memory for each of them *)
Theorem C144_good_partial : forall H stream ml g cap, (forall y, zlen (H y) = 64) -> sized g -> (forall k n l, length (stream k n l) = l) ->
  forall C tk ek used, zlen tk = 32 -> zlen (w_ctx C) < 2 ^ 32 -> forall l a b,
  Forall (fun p => zlen (fst p) = 16 /\ (exists c, serializes C c (snd p)) /\ used + (17 + zlen (w_ctx C) + zlen (snd p)) <= cap) l ->
  Forall2 (fun p o => exists c, o = Ok c /\ snd (w_ser C c) = Ok (snd p)) l
    (unwraps H stream ml g cap C (mk_wrapper (VKey tk a) (VKey ek b)) used (map (fun p => representation H stream tk ek C (fst p) (snd p)) l)).
Proof. exact unwraps_good. Qed.
Print Assumptions C144_good_partial.
(** When the memory cannot be allocated, wrap and unwrap do not throw: they write to a null pointer *)
Theorem C144_null_pointer_refuted : forall H stream ml g alloc C w, zlen (w_ctx C) < 2 ^ 32 ->
  (forall c iv n, w_size C c = Ok n -> 0 <= n < 2 ^ 63 -> alloc (17 + zlen (w_ctx C) + n) = false ->
     snd (snd (wrap_a H stream ml g alloc C w c iv)) = UB) /\
  (forall r, 28 < zlen r < 2 ^ 63 -> alloc (zlen (w_ctx C) + zlen r - 11) = false -> snd (snd (unwrap_a H stream ml g alloc C w r)) = UB).
Proof.
  intros H stream ml g alloc C w Lc. split.
  - intros c iv n Sz Rn A. rewrite (wrap_a_null H stream ml g alloc C w c iv n Sz Rn Lc A). reflexivity.
  - intros r Lr A. rewrite (unwrap_a_eq H stream ml g alloc C w r Lr Lc), A. reflexivity.
Qed.
Print Assumptions C144_null_pointer_refuted.
(** However much secure memory there is: since representations with a wrong tag keep their buffers, refusing one of them often enough
    makes the next call undefined, whatever representation it is given (of at least the same length) *)
Theorem C144_exhausted_refuted : forall H stream ml g cap, (forall y, zlen (H y) = 64) -> sized g -> (forall k n l, length (stream k n l) = l) ->
  forall C tk ek iv x t v used, zlen tk = 32 -> zlen iv = 16 -> zlen t = 12 -> 0 < zlen x <= STREAM_MAX -> zlen (w_ctx C) < 2 ^ 32 ->
  t <> auth_tag H tk (auth_input C iv (xorb_list x (stream ek t (length x)))) -> zlen x + 28 <= zlen v < 2 ^ 63 -> used <= cap ->
  let n := Z.to_nat ((cap - used) / (17 + zlen (w_ctx C) + zlen x)) in
  unwraps H stream ml g cap C (mk_wrapper (VKey tk ml) (VKey ek ml)) used (repeat (iv ++ x ++ t) n ++ [v]) = repeat (Throw RuntimeError) n ++ [UB].
Proof. exact wrong_tag_exhausts. Qed.
Print Assumptions C144_exhausted_refuted.

(** A forged representation has a wrong tag; three of them exhaust 200 bytes, and the genuine one
    is unwrapped before that *)
Example C144_examples : let C := PrfC true 20 in let r := okr (twrap C (VKey (repeat 9 32) true)) in
  (exists iv x t, flip0 r = iv ++ x ++ t /\ zlen iv = 16 /\ zlen t = 12 /\ zlen x = 32 /\
     t <> auth_tag toyH (repeat 5 32) (auth_input C iv (xorb_list x (toystream (repeat 6 32) t (length x))))) /\
  zlen (w_ctx C) + zlen r - 11 = 51 /\
  unwraps toyH toystream true toyg 200 C tw 0 [flip0 r; r; flip0 r; flip0 r; r] =
    [Throw RuntimeError; Ok (VKey (repeat 9 32) true); Throw RuntimeError; Throw RuntimeError; UB] /\
  unwraps toyH toystream true toyg 200 C tw 0 (repeat r 5) = repeat (Ok (VKey (repeat 9 32) true)) 5 /\
  snd (snd (wrap_a toyH toystream true toyg (fun n => n <=? 50) C tw (VKey (repeat 9 32) true) tiv)) = UB.
Proof.
  split.
  - exists (firstn 16 (flip0 (okr (twrap (PrfC true 20) (VKey (repeat 9 32) true))))), (firstn 32 (skipn 16 (okr (twrap (PrfC true 20) (VKey (repeat 9 32) true))))),
      (skipn 48 (okr (twrap (PrfC true 20) (VKey (repeat 9 32) true)))). vm_compute. repeat split; congruence.
  - vm_compute. repeat split; reflexivity.
Qed.
