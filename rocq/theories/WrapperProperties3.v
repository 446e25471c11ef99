(** Property C34 for TdpInverse. *)
From Verif Require Import Base RsaKeyModel RsaKeySpec RsaKeyExample RsaKeyProofs3 WrapperModel WrapperInst WrapperInst2 WrapperInst3 WrapperSpec WrapperProofs4 WrapperProperties.

Theorem C34_tdp_inverse : forall alloc, (forall n, alloc n = true) -> forall der buf k,
  private_ok k -> key_N k < 2 ^ 2048 -> 0 <= key_D k < key_N k -> zlen der = RSA_PRV_DER_MAX_BYTES -> zlen buf = 5000 ->
  exists s, serializes (TdpC alloc der buf) k s /\ w_deser (TdpC alloc der buf) s (zlen s) = Ok (k, s, zlen s).
Proof. exact tdp_serializes. Qed.
Print Assumptions C34_tdp_inverse.
Example C34_tdp_nontrivial :
  let C := TdpC (fun _ => true) (zeros (Z.to_nat 5679)) (zeros (Z.to_nat 5000)) in
  let r := okr (twrap C key130) in
  zlen r = 201 + 28 /\ snd (snd (tunwrap C r)) = Ok key130 /\ private_ok key130.
Proof. split; [vm_compute; reflexivity|]. split; [vm_compute; reflexivity|exact key130_ok]. Qed.

(** C36: all the classes other than ConstrainedRCPrf have different type bytes. *)
Theorem C36_type_bytes_distinct_tdp_partial : forall ml N M alloc der buf,
  NoDup [w_type (CipherC ml); w_type (PrfC ml N); w_type (PrgC ml); w_type (PrpC ml); w_type (RCPrfC ml M); w_type (TdpC alloc der buf)].
Proof. exact types_distinct_tdp. Qed.
Print Assumptions C36_type_bytes_distinct_tdp_partial.
