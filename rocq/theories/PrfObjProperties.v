(** Property C147: objects with keys that are moved. *)
From Verif Require Import Base BaseFacts KeyVal PrgModel HmacModel HmacSpec CipherModel PrpModel RcprfModel WrapperModel HmacProofs2 HmacProperties PrfObjModel PrfObjSpec PrfObjProofs PrfObjProofs2.

(** Programs with Prf objects: with memory locking, or if no variable without a key is evaluated.
    What is missing: evaluating such a variable without memory locking; output lengths above 65472 (C15) *)
Theorem C147_prf_programs_partial : forall H ml g NB, (forall y, zlen (H y) = 64) -> sized g -> 0 < NB <= 65472 -> forall l,
  Forall (typed NB) l -> (ml = true \/ held_when_used H NB (fun _ => None) l) ->
  snd (p_run H ml g NB (fun _ => VEmpty) l) = snd (a_run H NB (fun _ => None) l) /\
  prf_memory ml (fst (a_run H NB (fun _ => None) l)) (fst (p_run H ml g NB (fun _ => VEmpty) l)).
Proof. exact programs_ok. Qed.
Print Assumptions C147_prf_programs_partial.

(** Objects of the other classes whose key was moved away refuse to work.  Prg, RCPrf and unwrap: in every build *)
Theorem C147_moved_prg : forall blk ml, (forall g offset len out, 0 < len ->
    derive_buf blk ml VEmpty offset len out = (VEmpty, Throw RuntimeError) /\ derive_str blk ml g VEmpty offset len = (VEmpty, Throw RuntimeError)) /\
  (forall g K i, 0 < K -> too_large K i = false -> derive_key blk ml g VEmpty K i = (VEmpty, Throw RuntimeError)) /\
  (forall g K n i, 0 < K -> 0 < n -> n * K < 2 ^ 64 -> too_large K n = false -> too_large K i = false -> derive_keys blk ml g VEmpty K n i = (VEmpty, Throw RuntimeError)) /\
  prg_duplicate ml VEmpty = (VEmpty, Throw RuntimeError) /\ prg_serialize ml VEmpty = (VEmpty, Throw RuntimeError).
Proof. exact prg_empty. Qed.
Print Assumptions C147_moved_prg.
Theorem C147_moved_rcprf : forall blk ml dbg N gN gK h leaf, 2 <= h <= 63 -> 1 <= N < 2 ^ 16 -> 0 <= leaf < 2 ^ (h - 1) ->
  rc_eval blk ml dbg N gN gK (mk_rcprf h VEmpty) leaf = (mk_rcprf h VEmpty, Throw RuntimeError).
Proof. exact rcprf_empty. Qed.
Print Assumptions C147_moved_rcprf.
Theorem C147_moved_rcprf_range : forall blk ml dbg N gN gK h mn mx, 2 <= h <= 63 -> 1 <= N < 2 ^ 16 -> 0 <= mn <= mx -> mx < 2 ^ (h - 1) ->
  rc_eval_range blk ml dbg N gN gK (mk_rcprf h VEmpty) mn mx = (mk_rcprf h VEmpty, [], Throw RuntimeError).
Proof. exact rcprf_empty_range. Qed.
Print Assumptions C147_moved_rcprf_range.
Theorem C147_moved_rcprf_constrain : forall blk ml dbg N gN gK h mn mx, 2 <= h <= 64 -> 1 <= N < 2 ^ 16 -> 0 <= mn <= mx -> mx < 2 ^ (h - 1) ->
  (mn <> 0 \/ mx <> 2 ^ (h - 1) - 1) ->
  rc_constrain blk ml dbg N gN gK (mk_rcprf h VEmpty) mn mx = (mk_rcprf h VEmpty, Throw RuntimeError).
Proof. exact rcprf_empty_constrain. Qed.
Print Assumptions C147_moved_rcprf_constrain.
Theorem C147_moved_wrapper_partial : forall H stream ml g, sized g -> forall C,
  (forall rep, 28 < zlen rep -> zlen rep + zlen (w_ctx C) < 2 ^ 63 ->
     exists buffer, unwrap H stream ml g C (mk_wrapper VEmpty VEmpty) rep = (rep, (mk_wrapper VEmpty VEmpty, Some buffer, Throw RuntimeError))) /\
  (ml = true -> forall c c' n s iv, w_size C c = Ok n -> w_ser C c = (c', Ok s) -> zlen s = n -> n + zlen (w_ctx C) < 2 ^ 63 -> zlen iv = 16 ->
     exists buffer, wrap H stream ml g C (mk_wrapper VEmpty VEmpty) c iv = (c', (mk_wrapper VEmpty VEmpty, Some buffer, Throw RuntimeError))).
Proof. exact wrapper_empty. Qed.
Print Assumptions C147_moved_wrapper_partial.
(** HMac and Cipher: with memory locking.  What is missing: without it, see below *)
Theorem C147_moved_hmac_partial : forall H B D N inp len out opos out_len g1 g2, out_len <= D ->
  hmac H B D true N VEmpty (Some inp) len (Some out) opos out_len g1 g2 = (VEmpty, Throw RuntimeError).
Proof. exact hmac_empty. Qed.
Print Assumptions C147_moved_hmac_partial.
Theorem C147_moved_cipher_partial : forall kdf enc dec inp len out r, zlen r = 16 -> 16 <= zlen out -> 16 <= zlen inp ->
  encrypt kdf enc true VEmpty inp len out r = (VEmpty, Throw RuntimeError) /\
  (32 <= len -> decrypt kdf dec true VEmpty inp len out = (VEmpty, out, Throw RuntimeError)) /\
  cipher_serialize true VEmpty = (VEmpty, Throw RuntimeError).
Proof. exact cipher_empty. Qed.
Print Assumptions C147_moved_cipher_partial.

(** Without memory locking Key::data does not throw: HMac and Prf read from a null pointer, and Cipher ends the process *)
Theorem C147_without_locking_refuted :
  (forall H B D N inp len out opos out_len g1 g2, out_len <= D -> hmac H B D false N VEmpty (Some inp) len (Some out) opos out_len g1 g2 = (VEmpty, UB)) /\
  (exists l, Forall (typed 20) l /\ snd (p_run toyH false toyg 20 (fun _ => VEmpty) l) = [Ok []; Ok []; UB] /\
     snd (a_run toyH 20 (fun _ => None) l) = [Ok []; Ok []; Throw RuntimeError]) /\
  (forall kdf enc dec inp len out r, zlen r = 16 -> 16 <= zlen out -> 16 <= zlen inp -> 32 <= len ->
     encrypt kdf enc false VEmpty inp len out r = (VEmpty, Abort) /\ decrypt kdf dec false VEmpty inp len out = (VEmpty, out, Abort)).
Proof.
  split; [exact hmac_empty_ub|]. split; [|exact cipher_empty_abort].
  exists [PNew 0 (repeat 7 32); PMove 1 0; PEval 0 [1; 2]].
  split; [repeat constructor|]. split; vm_compute; reflexivity.
Qed.
Print Assumptions C147_without_locking_refuted.

(** Variable 0 is moved to 1, moved to itself, and evaluated; a key is derived into 0; 2 is never given a key *)
Definition prog147 : list pop :=
  [PNew 0 (repeat 7 32); PEval 0 [1]; PMove 1 0; PMove 1 1; PEval 1 [1]; PEval 0 [1]; PDerive 0 1 [2]; PSave 0; PEval 2 [1]; PDestroy 1; PSave 1].
Example C147_examples : Forall (typed 32) prog147 /\ sized toyg /\ (forall y, zlen (toyH y) = 64) /\
  let v x := firstn 32 (rfc_hmac toyH 128 (repeat 7 32) [x]) in
  snd (p_run toyH true toyg 32 (fun _ => VEmpty) prog147) =
    [Ok []; Ok (v 1); Ok []; Ok []; Ok (v 1); Throw RuntimeError; Ok []; Ok (v 2); Throw RuntimeError; Ok []; Throw RuntimeError] /\ v 1 <> v 2 /\
  held_when_used toyH 32 (fun _ => None) [PNew 0 (repeat 7 32); PEval 0 [1]; PMove 1 0; PMove 1 1; PEval 1 [1]; PDerive 0 1 [2]; PSave 2].
Proof.
  split; [repeat constructor|]. split; [apply C14_nontrivial|]. split; [apply C14_nontrivial|]. split; [vm_compute; reflexivity|].
  split; [vm_compute; discriminate|]. repeat split; vm_compute; discriminate.
Qed.
(** Objects that were moved away *)
Definition blk147 (k : bytes) (i : Z) : bytes := repeat i 64.
Example C147_moved_examples :
  derive_key blk147 false (zeros 16) VEmpty 16 3 = (VEmpty, Throw RuntimeError) /\
  rc_eval blk147 false true 2 [0; 0] (zeros 32) (mk_rcprf 5 VEmpty) 13 = (mk_rcprf 5 VEmpty, Throw RuntimeError) /\
  rc_eval_range blk147 false true 2 [0; 0] (zeros 32) (mk_rcprf 5 VEmpty) 9 13 = (mk_rcprf 5 VEmpty, [], Throw RuntimeError) /\
  rc_constrain blk147 true true 2 [0; 0] (zeros 32) (mk_rcprf 5 VEmpty) 0 14 = (mk_rcprf 5 VEmpty, Throw RuntimeError) /\
  snd (hmac toyH 128 64 true 16 VEmpty (Some [1]) 1 (Some (zeros 20)) 0 20 (toyg 129) (toyg 192)) = Throw RuntimeError /\
  encrypt (fun _ _ => zeros 32) (fun _ _ m => m) true VEmpty (repeat 4 40) 40 (zeros 72) (repeat 1 16) = (VEmpty, Throw RuntimeError).
Proof. repeat split; vm_compute; reflexivity. Qed.
