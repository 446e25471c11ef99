(** The other classes that can be wrapped: Prp. *)
From Verif Require Import Base KeyVal PrpModel WrapperModel.

(** wrapper.hpp:353-358; prp.hpp:54-68, 255-270: the context is serialized; the public context is empty. *)
Definition PrpC (ml : bool) : wclass := mk_wclass vkey 4 [] (fun _ => Ok prp_kContextSize) (prp_serialize ml true) (prp_deserialize ml true).
