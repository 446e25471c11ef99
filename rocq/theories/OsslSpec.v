(** Objects of the implementation with OpenSSL. *)
From Verif Require Import Base RsaKeyModel OsslModel.

(** What the two constructors of TdpInverseImpl_OpenSSL make, whatever OpenSSL generates or reads *)
Definition made (o : ossl_inverse) : Prop :=
  (exists gen, ossl_new gen = Ok o) \/ (exists read sk, ossl_from_private read sk = Ok o).
