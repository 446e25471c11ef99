(** Specification of wrapping: the layout described in wrapper.hpp:64-88. *)
From Verif Require Import Base KeyVal HmacSpec WrapperModel.

Section Spec.
  Variable H : bytes -> bytes.
  Variable stream : bytes -> bytes -> nat -> bytes.

  (** The two keys of a wrapper made from a master key. *)
  Definition tag_key (key : bytes) : bytes := firstn 32 (rfc_hmac H 128 key [1]).
  Definition enc_key (key : bytes) : bytes := firstn 32 (rfc_hmac H 128 key [2]).

  (** What is authenticated: random IV, type byte, public context, serialization. *)
  Definition auth_input (C : wclass) (iv s : bytes) : bytes := iv ++ w_type C :: w_ctx C ++ s.
  Definition auth_tag (tk x : bytes) : bytes := firstn 12 (rfc_hmac H 128 tk x).

  (** The representation of the serialization [s] of an object of class [C]. *)
  Definition representation (tk ek : bytes) (C : wclass) (iv s : bytes) : bytes :=
    let t := auth_tag tk (auth_input C iv s) in
    iv ++ xorb_list s (stream ek t (length s)) ++ t.
End Spec.

(** An object that is serialized and read back: its serialization [s], of the announced size and not empty; the object read
    back is serialized in the same way. *)
Definition serializes (C : wclass) (c : w_obj C) (s : bytes) : Prop :=
  w_size C c = Ok (zlen s) /\ 0 < zlen s <= STREAM_MAX /\ (exists c', w_ser C c = (c', Ok s)) /\
  exists c'' tl, w_deser C s (zlen s) = Ok (c'', tl, zlen s) /\ snd (w_ser C c'') = Ok s.
