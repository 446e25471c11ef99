(** The other classes that can be wrapped: TdpInverse. *)
From Verif Require Import Base RsaKeyModel TdpKeyModel WrapperModel.

(** wrapper.hpp:377-382; tdp.hpp:281-292, 587-590; tdp.cpp:288-329: the PEM text of the private key is serialized; the public
    context is empty.  The input buffer is not erased. *)
Definition TdpC (alloc : Z -> bool) (der buf : bytes) : wclass :=
  mk_wclass rsa_key 7 [] (tdp_serialized_size alloc der buf)
    (fun k => (k, n <- tdp_serialized_size alloc der buf k ;; tdp_serialize alloc der buf k (zeros (Z.to_nat n))))
    (fun b n => '(k, r) <- tdp_deserialize alloc b n ;; Ok (k, b, r)).
