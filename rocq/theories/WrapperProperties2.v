(** Property C34 for Prp. *)
From Verif Require Import Base KeyVal HmacProperties WrapperModel WrapperInst WrapperInst2 WrapperSpec WrapperProofs3 WrapperProperties.

Theorem C34_prp : forall ml b l, zlen b = 112 -> serializes (PrpC ml) (VKey b l) b /\
  w_deser (PrpC ml) b (zlen b) = Ok (VKey b ml, zeros 112, zlen b).
Proof. exact prp_serializes. Qed.
Print Assumptions C34_prp.
Example C34_prp_nontrivial : let r := okr (twrap (PrpC true) (VKey (repeat 9 112) true)) in
  zlen r = 140 /\ tunwrap (PrpC true) r = (zeros 140, (tw, None, Ok (VKey (repeat 9 112) true))) /\
  snd (snd (tunwrap (PrgC true) r)) <> Ok (VKey (repeat 9 112) true).
Proof. vm_compute. repeat split; congruence. Qed.

(** C36: the classes other than ConstrainedRCPrf have different type bytes, whatever the output sizes
    (see C36_header_prf_rcprf_injective for two output sizes of the same class). *)
Theorem C36_type_bytes_distinct_partial : forall ml N M,
  NoDup [w_type (CipherC ml); w_type (PrfC ml N); w_type (PrgC ml); w_type (PrpC ml); w_type (RCPrfC ml M)].
Proof. exact types_distinct. Qed.
Print Assumptions C36_type_bytes_distinct_partial.
