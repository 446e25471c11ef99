(** Properties of the key wrapper: C34 - C37, C64. *)
From Verif Require Import BaseFacts KeyVal HmacModel HmacSpec HmacProofs2 HmacProperties RcprfModel RcprfSpec.
From Verif Require Import WrapperModel WrapperInst WrapperSpec WrapperProofs WrapperProofs2.

(** A key stream and keys for the examples. *)
Definition toystream (k n : bytes) (l : nat) : bytes :=
  map (fun i => (fold_left (fun a b => (31 * a + b + 1) mod 251) (k ++ n) (Z.of_nat i)) mod 256) (seq 0 l).
Definition tw : wrapper := mk_wrapper (VKey (repeat 5 32) true) (VKey (repeat 6 32) true).
Definition tiv : bytes := map Z.of_nat (seq 1 16).
Notation twrap C c := (snd (wrap toyH toystream true toyg C tw c tiv)).
Notation tunwrap C r := (unwrap toyH toystream true toyg C tw r).
Definition okr (r : wrapper * option bytes * outcome bytes) : bytes := match r with (_, _, Ok b) => b | _ => [] end.
Definition flip0 (b : bytes) : bytes := match b with x :: r => Z.lxor x 1 :: r | [] => [] end.

(** C34.  Any class whose objects are serialized and read back (the five instances follow). *)
Theorem C34_unwrap_inverts_wrap : forall H stream ml g, (forall y, zlen (H y) = 64) -> sized g -> (forall k n l, length (stream k n l) = l) ->
  forall C tk ek l l' l2 l2' c s iv, zlen tk = 32 -> zlen iv = 16 -> zlen (w_ctx C) < 2 ^ 32 -> serializes C c s ->
  exists c' c'',
    let w' := mk_wrapper (VKey tk ml) (VKey ek ml) in
    wrap H stream ml g C (mk_wrapper (VKey tk l) (VKey ek l')) c iv = (c', (w', None, Ok (representation H stream tk ek C iv s))) /\
    zlen (representation H stream tk ek C iv s) = zlen s + 28 /\
    unwrap H stream ml g C (mk_wrapper (VKey tk l2) (VKey ek l2')) (representation H stream tk ek C iv s) =
      (zeros (Z.to_nat (zlen s + 28)), (w', None, Ok c'')) /\
    snd (w_ser C c'') = Ok s /\ exists tl, w_deser C s (zlen s) = Ok (c'', tl, zlen s).
Proof. exact unwrap_wrap. Qed.
Print Assumptions C34_unwrap_inverts_wrap.
Theorem C34_cipher : forall ml kb l, zlen kb = 32 -> serializes (CipherC ml) (VKey kb l) kb /\
  w_deser (CipherC ml) kb (zlen kb) = Ok (VKey kb ml, zeros 32, zlen kb).
Proof. exact cipher_serializes. Qed.
Print Assumptions C34_cipher.
Theorem C34_prf : forall ml N kb l, zlen kb = 32 -> serializes (PrfC ml N) (VKey kb l) kb /\
  w_deser (PrfC ml N) kb (zlen kb) = Ok (VKey kb ml, zeros 32, zlen kb).
Proof. exact prf_serializes. Qed.
Print Assumptions C34_prf.
Theorem C34_prg : forall ml kb l, zlen kb = 32 -> serializes (PrgC ml) (VKey kb l) kb /\
  w_deser (PrgC ml) kb (zlen kb) = Ok (VKey kb ml, zeros 32, zlen kb).
Proof. exact prg_serializes. Qed.
Print Assumptions C34_prg.
Theorem C34_rcprf : forall ml N R h l, 1 <= h <= 64 -> zlen R = 32 ->
  exists s tl, serializes (RCPrfC ml N) (mk_rcprf h (VKey R l)) s /\
    w_deser (RCPrfC ml N) s (zlen s) = Ok (mk_rcprf h (VKey R ml), tl, zlen s).
Proof. exact rcprf_serializes. Qed.
Print Assumptions C34_rcprf.
Theorem C34_constrained_rcprf : forall blk ml dbg N gN gK, 1 <= N < 2 ^ 16 -> zlen gN = N -> zlen gK = 32 ->
  forall R h l ranges lo hi c0 c, 2 <= h <= 64 -> 0 <= lo <= hi -> hi < 2 ^ (h - 1) -> ~ (lo = 0 /\ hi = 2 ^ (h - 1) - 1) ->
  nested lo hi ranges ->
  snd (rc_constrain blk ml dbg N gN gK (mk_rcprf h (VKey R l)) lo hi) = Ok c0 ->
  constrain_chain (c_constrain blk ml dbg N gN gK) c0 ranges = Ok c ->
  exists s tl, 0 < zlen s /\ (zlen s <= STREAM_MAX -> serializes (CRCPrfC ml dbg N) c s) /\
    zlen s = c_serialized_size N c /\ w_deser (CRCPrfC ml dbg N) s (zlen s) = Ok (c, tl, zlen s).
Proof. exact crcprf_serializes. Qed.
Print Assumptions C34_constrained_rcprf.
(** The keys of a wrapper depend on the master key only, which the constructor consumes. *)
Theorem C34_wrapper_keys : forall H ml g, (forall y, zlen (H y) = 64) -> sized g -> forall kb l, zlen kb = 32 ->
  w_ctor H ml g (VKey kb l) = (VEmpty, Ok (mk_wrapper (VKey (tag_key H kb) ml) (VKey (enc_key H kb) ml))) /\
  zlen (tag_key H kb) = 32 /\ zlen (enc_key H kb) = 32.
Proof. exact w_ctor_ok. Qed.
Print Assumptions C34_wrapper_keys.
Example C34_nontrivial : let r := okr (twrap (PrfC true 20) (VKey (repeat 9 32) true)) in
  zlen r = 60 /\ firstn 16 r = tiv /\ firstn 32 (skipn 16 r) <> repeat 9 32 /\
  tunwrap (PrfC true 20) r = (zeros 60, (tw, None, Ok (VKey (repeat 9 32) true))).
Proof. vm_compute. repeat split; congruence. Qed.

(** C35 *)
Theorem C35_unwrap_authenticates : forall H stream ml g, (forall y, zlen (H y) = 64) -> sized g -> (forall k n l, length (stream k n l) = l) ->
  forall C tk ek l l' c_rep c_rep' w' lk c, zlen tk = 32 -> zlen c_rep <= STREAM_MAX -> zlen (w_ctx C) < 2 ^ 32 ->
  unwrap H stream ml g C (mk_wrapper (VKey tk l) (VKey ek l')) c_rep = (c_rep', (w', lk, Ok c)) ->
  exists iv s tl, zlen iv = 16 /\ 0 < zlen s /\ c_rep = representation H stream tk ek C iv s /\
    w_deser C s (zlen s) = Ok (c, tl, zlen s).
Proof. exact unwrap_authentic. Qed.
Print Assumptions C35_unwrap_authenticates.
Theorem C35_other_representations_rejected : forall H stream ml g, (forall y, zlen (H y) = 64) -> sized g -> (forall k n l, length (stream k n l) = l) ->
  forall C tk ek l l' c_rep, zlen tk = 32 -> zlen c_rep <= STREAM_MAX -> zlen (w_ctx C) < 2 ^ 32 ->
  (forall iv s, zlen iv = 16 -> 0 < zlen s -> c_rep <> representation H stream tk ek C iv s) ->
  exists w' lk, unwrap H stream ml g C (mk_wrapper (VKey tk l) (VKey ek l')) c_rep =
    (c_rep, (w', lk, Throw (if zlen c_rep <=? 28 then InvalidArgument else RuntimeError))).
Proof. exact unwrap_rejects. Qed.
Print Assumptions C35_other_representations_rejected.
Example C35_nontrivial : let r := okr (twrap (PrfC true 20) (VKey (repeat 9 32) true)) in
  snd (snd (tunwrap (PrfC true 20) (flip0 r))) = Throw RuntimeError /\ snd (snd (tunwrap (PrfC true 21) r)) = Throw RuntimeError /\
  snd (snd (tunwrap (CipherC true) r)) = Throw RuntimeError /\ snd (snd (tunwrap (PrfC true 20) (firstn 28 r))) = Throw InvalidArgument.
Proof. vm_compute. repeat split. Qed.

(** C36.  The headers of two classes differ... *)
Theorem C36_header_prf_rcprf_injective : forall a b, 0 <= a < 2 ^ 16 -> 0 <= b < 2 ^ 16 -> a <> b ->
  prf_public_context a <> prf_public_context b /\ rc_public_context a <> rc_public_context b.
Proof. exact (fun a b Ha Hb Hn => conj (fun E => Hn (public_context_inj a b Ha Hb E)) (fun E => Hn (public_context_inj a b Ha Hb E))). Qed.
Print Assumptions C36_header_prf_rcprf_injective.
(** ... so that a representation accepted for both is a collision of the 96-bit tags on different inputs: *)
Theorem C36_two_classes_collide_partial : forall H stream ml g, (forall y, zlen (H y) = 64) -> sized g -> (forall k n l, length (stream k n l) = l) ->
  forall C1 C2 tk ek l1 l1' l2 l2' c_rep r1 r2 w1 w2 k1 k2 c1 c2, zlen tk = 32 -> zlen c_rep <= STREAM_MAX ->
  zlen (w_ctx C1) < 2 ^ 32 -> zlen (w_ctx C2) < 2 ^ 32 ->
  w_type C1 :: w_ctx C1 <> w_type C2 :: w_ctx C2 ->
  unwrap H stream ml g C1 (mk_wrapper (VKey tk l1) (VKey ek l1')) c_rep = (r1, (w1, k1, Ok c1)) ->
  unwrap H stream ml g C2 (mk_wrapper (VKey tk l2) (VKey ek l2')) c_rep = (r2, (w2, k2, Ok c2)) ->
  exists iv s, zlen iv = 16 /\ c_rep = representation H stream tk ek C1 iv s /\ auth_input C1 iv s <> auth_input C2 iv s /\
    auth_tag H tk (auth_input C1 iv s) = auth_tag H tk (auth_input C2 iv s).
Proof. exact unwrap_two_classes. Qed.
Print Assumptions C36_two_classes_collide_partial.
(** ... but RCPrf and ConstrainedRCPrf have the same one: every constrained key of a single leaf of 11 bytes (whatever the hash
    function and keys) is unwrapped as an RCPrf. *)
Theorem C36_leaf_unwraps_as_rcprf : forall H stream ml g, (forall y, zlen (H y) = 64) -> sized g -> (forall k n l, length (stream k n l) = l) ->
  forall dbg tk ek l l' l2 l2' h lf buf iv, zlen tk = 32 -> zlen iv = 16 -> 1 <= h <= 64 -> 0 <= lf < 2 ^ 64 -> zlen buf = 11 ->
  let c := mk_crcprf h [Leaf h lf buf] in
  exists rep, wrap H stream ml g (CRCPrfC ml dbg 11) (mk_wrapper (VKey tk l) (VKey ek l')) c iv =
    (c, (mk_wrapper (VKey tk ml) (VKey ek ml), None, Ok rep)) /\
  exists r w' k', unwrap H stream ml g (RCPrfC ml 11) (mk_wrapper (VKey tk l2) (VKey ek l2')) rep = (r, (w', None, Ok (mk_rcprf h (VKey k' ml)))) /\
    k' = [1; 0; 0; 0; 1] ++ le_encode 8 lf ++ le_encode 8 lf ++ buf.
Proof. exact leaf_as_rcprf. Qed.
Print Assumptions C36_leaf_unwraps_as_rcprf.
Theorem C36_no_cross_type_unwrap_refuted : exists (c : crcprf) (r : bytes) (k : bytes),
  snd (twrap (CRCPrfC true true 11) c) = Ok r /\ snd (snd (tunwrap (RCPrfC true 11) r)) = Ok (mk_rcprf 5 (VKey k true)).
Proof.
  exists (mk_crcprf 5 [Leaf 5 3 (repeat 7 11)]), (okr (twrap (CRCPrfC true true 11) (mk_crcprf 5 [Leaf 5 3 (repeat 7 11)]))),
    ([1; 0; 0; 0; 1] ++ le_encode 8 3 ++ le_encode 8 3 ++ repeat 7 11).
  vm_compute. repeat split.
Qed.
Print Assumptions C36_no_cross_type_unwrap_refuted.
Example C36_nontrivial : w_type (PrfC true 16) :: w_ctx (PrfC true 16) <> w_type (PrfC true 32) :: w_ctx (PrfC true 32) /\
  w_type (CipherC true) :: w_ctx (CipherC true) <> w_type (PrgC true) :: w_ctx (PrgC true) /\
  w_type (PrfC true 16) :: w_ctx (PrfC true 16) <> w_type (RCPrfC true 16) :: w_ctx (RCPrfC true 16).
Proof. repeat split; discriminate. Qed.

(** C37.  Whatever the keys, sizes and classes. *)
Theorem C37_erased_iff_success : forall H stream ml g C w c_rep c_rep' w' lk o,
  unwrap H stream ml g C w c_rep = (c_rep', (w', lk, o)) ->
  match o with Ok _ => c_rep' = zeros (length c_rep) | _ => c_rep' = c_rep end.
Proof. exact unwrap_erases. Qed.
Print Assumptions C37_erased_iff_success.
Example C37_nontrivial : let r := okr (twrap (PrfC true 20) (VKey (repeat 9 32) true)) in
  fst (tunwrap (PrfC true 20) r) = zeros 60 /\ fst (tunwrap (PrfC true 20) (flip0 r)) = flip0 r /\ r <> zeros 60.
Proof. vm_compute. repeat split; congruence. Qed.

(** C64.  The secure buffer with the decrypted content is freed by a successful call... *)
Theorem C64_buffer_freed_on_success_only_partial : forall H stream ml g C w c_rep c_rep' w' lk o,
  unwrap H stream ml g C w c_rep = (c_rep', (w', lk, o)) -> 28 < zlen c_rep ->
  match o with Ok _ => lk = None | _ => lk <> None end.
Proof. exact unwrap_leaks. Qed.
Print Assumptions C64_buffer_freed_on_success_only_partial.
(** ... and by no failing one: one modified byte is enough. *)
Theorem C64_buffer_freed_refuted : exists (r : bytes) (e : exn) (b : bytes),
  snd (tunwrap (PrfC true 20) r) = (tw, Some b, Throw e).
Proof. exists (flip0 (okr (twrap (PrfC true 20) (VKey (repeat 9 32) true)))). vm_compute. do 2 eexists. reflexivity. Qed.
Print Assumptions C64_buffer_freed_refuted.
Example C64_nontrivial : let r := okr (twrap (PrfC true 20) (VKey (repeat 9 32) true)) in
  28 < zlen r /\ snd (fst (snd (tunwrap (PrfC true 20) r))) = None.
Proof. vm_compute. repeat split; congruence. Qed.
