(** Key objects as values, used by the models of the classes that hold a key.
    This is the abstract view justified by KeyProperties.C02_key_values (assuming that allocation and
    memory protection do not fail); [KeyValBridge.v] shows that these functions are the steps of that specification. *)
From Verif Require Import Base.

(** A moved-from/erased key, or key bytes with the lock flag. *)
Inductive vkey := VEmpty | VKey (b : bytes) (locked : bool).

(** [ml]: ENABLE_MEMORY_LOCK.  Building a key from N bytes (key.hpp:141-165, 255-275). *)
Definition v_make (ml : bool) (b : bytes) : vkey := VKey b ml.

(** [unlock_get] (key.hpp:374-382). *)
Definition v_unlock_get (k : vkey) : vkey * outcome bytes :=
  match k with
  | VEmpty => (VEmpty, Throw RuntimeError)
  | VKey b _ => (VKey b false, Ok b)
  end.

(** [unlock] (key.hpp:307-321). *)
Definition v_unlock (k : vkey) : vkey :=
  match k with
  | VEmpty => VEmpty
  | VKey b _ => VKey b false
  end.

(** [lock] (key.hpp:284-298). *)
Definition v_lock (ml : bool) (k : vkey) : vkey :=
  match k with
  | VEmpty => VEmpty
  | VKey b _ => VKey b ml
  end.

(** [is_empty] (key.hpp:329). *)
Definition v_is_empty (k : vkey) : bool := match k with VEmpty => true | VKey _ _ => false end.

(** [serialize] (key.hpp:395-404). *)
Definition v_serialize (k : vkey) : outcome bytes :=
  match k with
  | VEmpty => Throw RuntimeError
  | VKey _ true => Throw RuntimeError
  | VKey b false => Ok b
  end.

(** A key is protected: empty, or locked when memory locking is enabled. *)
Definition v_protected (ml : bool) (k : vkey) : Prop :=
  match k with
  | VEmpty => True
  | VKey _ l => l = ml
  end.
