(** Specification for SetHash: every variable denotes a function giving the net multiplicity of each string. *)
From Verif Require Import Base SetHashModel.

(** Laws assumed of the curve: abelian group, encodings are 32 bytes and can be decoded, the neutral element is encoded as
    01 00 .. 00; [main] is the prime order subgroup: from_uniform lands in it, and is_valid accepts exactly the encodings of its
    elements other than the neutral one. *)
Record ed25519_laws (E : ed25519) (main : point E -> Prop) : Prop := {
  L_comm : forall a b, padd E a b = padd E b a;
  L_assoc : forall a b c, padd E a (padd E b c) = padd E (padd E a b) c;
  L_zero : forall a, padd E a (pzero E) = a;
  L_opp : forall a, padd E a (popp E a) = pzero E;
  L_len : forall a, length (penc E a) = 32%nat;
  L_dec : forall a, pdec E (penc E a) = Some a;
  L_enc0 : penc E (pzero E) = 1 :: zeros 31;
  L_m0 : main (pzero E);
  L_madd : forall a b, main a -> main b -> main (padd E a b);
  L_mopp : forall a, main a -> main (popp E a);
  L_uniform : forall h, exists a, main a /\ from_uniform E h = penc E a;
  L_valid : forall b, is_valid E b = true <-> exists a, main a /\ a <> pzero E /\ b = penc E a
}.

Definition mult := bytes -> Z.
Definition m_one (s : bytes) : mult := fun x => if bytes_eqb x s then 1 else 0.
Definition m_add (a b : mult) : mult := fun x => a x + b x.
Definition m_sub (a b : mult) : mult := fun x => a x - b x.
Definition m_zero : mult := fun _ => 0.
Definition m_list (l : list bytes) : mult := fold_right (fun s m => m_add (m_one s) m) m_zero l.

Definition m_store := nat -> option mult.
Definition m_set (st : m_store) (i : nat) (m : mult) : m_store := fun k => if Nat.eqb k i then Some m else st k.
(** The meaning of a program; [None] if it uses a variable that has no value. *)
Definition m_step (st : m_store) (o : sh_op) : option m_store :=
  match o with
  | OpNew i => Some (m_set st i m_zero)
  | OpVector i l => Some (m_set st i (m_list l))
  | OpData i j | OpCopy i j => match st j with Some a => Some (m_set st i a) | None => None end
  | OpAdd i s => match st i with Some a => Some (m_set st i (m_add a (m_one s))) | None => None end
  | OpRemove i s => match st i with Some a => Some (m_set st i (m_sub a (m_one s))) | None => None end
  | OpAddSet i j => match st i, st j with Some a, Some b => Some (m_set st i (m_add a b)) | _, _ => None end
  | OpRemoveSet i j => match st i, st j with Some a, Some b => Some (m_set st i (m_sub a b)) | _, _ => None end
  end.
Fixpoint m_run (st : m_store) (p : list sh_op) : option m_store :=
  match p with
  | [] => Some st
  | o :: p' => match m_step st o with Some st' => m_run st' p' | None => None end
  end.
Definition m_empty : m_store := fun _ => None.
