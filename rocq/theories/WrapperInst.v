(** The classes that can be wrapped: type bytes of wrapper.hpp:331-382, public contexts and serialization functions. *)
From Verif Require Import Base KeyVal PrgModel HmacModel CipherModel RcprfModel WrapperModel.

Section Inst.
  Variable ml dbg : bool.
  (** wrapper.hpp:340-345; cipher.hpp:59-69, 190-201 *)
  Definition CipherC : wclass := mk_wclass vkey 1 [] (fun _ => Ok cipher_kKeySize) (cipher_serialize ml) (fun b n => cipher_deserialize ml b n 0).
  (** wrapper.hpp:347-352; prf.hpp:70-79, 139-150 *)
  Definition PrfC (NBYTES : Z) : wclass :=
    mk_wclass vkey 2 (prf_public_context NBYTES) (fun _ => Ok prf_kKeySize) (prf_serialize ml) (prf_deserialize ml).
  (** wrapper.hpp:354-359; prg.hpp:63-72 *)
  Definition PrgC : wclass := mk_wclass vkey 3 [] (fun _ => Ok prg_kKeySize) (prg_serialize ml) (prg_deserialize ml).
  (** rcprf.hpp:1321-1330, 1863-1872 *)
  Definition rc_public_context (NBYTES : Z) : bytes := [Z.land (Z.shiftr NBYTES 8) 0xFF; Z.land NBYTES 0xFF].
  (** wrapper.hpp:368-373 *)
  Definition RCPrfC (NBYTES : Z) : wclass :=
    mk_wclass rcprf 6 (rc_public_context NBYTES) (fun r => Ok (rc_serialized_size r)) (rc_serialize ml) (rc_deserialize ml).
  (** wrapper.hpp:375-380: the type byte is the one of RCPrf. *)
  Definition CRCPrfC (NBYTES : Z) : wclass :=
    mk_wclass crcprf 6 (rc_public_context NBYTES) (fun c => Ok (c_serialized_size NBYTES c)) (c_serialize ml dbg NBYTES)
      (c_deserialize ml NBYTES).
End Inst.
