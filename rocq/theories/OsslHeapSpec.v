(** What the objects of tdp_impl_openssl.cpp are expected to hold, seen from outside *)
From Verif Require Import Base OsslHeapModel.

(** Which objects are alive, and for a pool its number of keys beyond the first *)
Inductive thing := Nothing | APermutation | AnInverse | APool (n : nat).
Definition set_at (v : nat) (x : thing) (ts : list thing) : list thing := firstn v ts ++ x :: skipn (S v) ts.
Definition alive (t : thing) : bool := match t with Nothing => false | _ => true end.
Definition empty_at (v : nat) (ts : list thing) : bool := match nth_error ts v with Some Nothing => true | _ => false end.
(** Calls that fit the object, and whether they throw *)
Definition call_throws (t : thing) (f : function) : option bool :=
  match f, t with
  | _, Nothing => None
  | FPublicKey write read string, _ => if string then Some (negb (write && read)) else None
  | FEval size, _ => Some (negb size)
  | FSample ok, _ => Some (negb ok)
  | FGenerate, _ => Some false
  | FPrivateKey set write read string, AnInverse => if string then Some (negb (set && write && read)) else None
  | FInvert ok, AnInverse => Some (negb ok)
  | FInvertMult order size, AnInverse => Some (negb (order =? 0) && negb size)
  | FEvalPool order, APool n => if 1 <=? order then Some (Z.of_nat n + 1 <? order) else None
  | _, _ => None
  end.
(** What an operation does to the objects and whether it throws; None: the program is not allowed.  Left out of the allowed programs: private keys of another algorithm,
    pools of size 1, and strings without memory. *)
Definition expect (ts : list thing) (p : op) : option (list thing * bool) :=
  match p with
  | OPublic v text =>
    if empty_at v ts then Some (match text with Some _ => (set_at v APermutation ts, false) | None => (ts, true) end) else None
  | OCopy v w => if empty_at v ts && alive (nth w ts Nothing) then Some (set_at v APermutation ts, false) else None
  | OAssign v w => match nth v ts Nothing with APermutation => if alive (nth w ts Nothing) then Some (ts, false) else None | _ => None end
  | OGenerate v word key =>
    if empty_at v ts then Some (match word, key with true, Some _ => (set_at v AnInverse ts, false) | _, _ => (ts, true) end) else None
  | OPrivate v text =>
    if empty_at v ts then
      match text with None => Some (ts, true) | Some None => None | Some (Some _) => Some (set_at v AnInverse ts, false) end
    else None
  | OPool v text size =>
    if empty_at v ts && (0 <=? size) && (size <? 256) && negb (size =? 1) then
      Some (match text with Some _ => if size =? 0 then (ts, true) else (set_at v (APool (Z.to_nat (size - 1))) ts, false) | None => (ts, true) end)
    else None
  | OPoolCopy v w => match nth w ts Nothing with APool n => if empty_at v ts then Some (set_at v (APool n) ts, false) else None | _ => None end
  | OPoolAssign v w => match nth v ts Nothing, nth w ts Nothing with APool _, APool n => Some (set_at v (APool n) ts, false) | _, _ => None end
  | OCall v f => match call_throws (nth v ts Nothing) f with Some b => Some (ts, b) | None => None end
  | ODestroy v => if alive (nth v ts Nothing) then Some (set_at v Nothing ts, false) else None
  end.
Fixpoint expect_all (ts : list thing) (ps : list op) : option (list thing * list bool) :=
  match ps with
  | [] => Some (ts, [])
  | p :: ps =>
    match expect ts p with
    | None => None
    | Some (ts, b) => match expect_all ts ps with Some (ts, bs) => Some (ts, b :: bs) | None => None end
    end
  end.
(** How many resources of a kind an object holds *)
Definition holds (k : kind) (t : thing) : nat :=
  match k, t with
  | KRsa, (APermutation | AnInverse) => 1
  | KRsa, APool n => S n
  | KBn, AnInverse => 3
  | KArr, APool _ => 1
  | _, _ => 0
  end.
Definition total (k : kind) (ts : list thing) : nat := list_sum (map (holds k) ts).
(** How many resources of a kind are in use, and those with more than one reference *)
Definition same (a b : kind) : {a = b} + {a <> b}. Proof. decide equality. Defined.
Definition in_use (k : kind) (h : heap) : nat :=
  length (filter (fun c => if same (kind_of c) k then negb (refs c =? 0)%nat else false) h).
Definition unshared (h : heap) : Prop := Forall (fun c => (refs c <= 1)%nat) h.
(** The numbers left in memory that has been released *)
Definition left_behind (h : heap) (x : Z) : Prop := exists c, In c h /\ refs c = O /\ In x (nums c).
