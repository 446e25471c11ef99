(** What OpenSSL expects of the locks: who is between locking and unlocking, and what threads may do. *)
From Verif Require Import Base LockModel.

(** The four modes OpenSSL uses: CRYPTO_LOCK (1) or CRYPTO_UNLOCK (2), with CRYPTO_READ (4) or CRYPTO_WRITE (8) *)
Definition locks (mode : Z) : bool := (mode =? 5) || (mode =? 9).
Definition unlocks (mode : Z) : bool := (mode =? 6) || (mode =? 10).
Definition lock_eqb (a b : lock) : bool :=
  match a, b with Static n, Static m => (n =? m)%nat | Dynamic n, Dynamic m => (n =? m)%nat | _, _ => false end.
(** Whether thread [t] is between locking and unlocking [l], according to what has happened (the last event first) *)
Fixpoint inside (t : nat) (l : lock) (past : list (nat * event)) : bool :=
  match past with
  | [] => false
  | (u, ELock l' mode) :: past => if (u =? t)%nat && lock_eqb l l' then locks mode else inside t l past
  | _ :: past => inside t l past
  end.
(** Whether the library is initialised *)
Fixpoint up (past : list (nat * event)) : bool :=
  match past with
  | [] => false
  | (_, EInit _) :: _ => true
  | (_, EKill) :: _ => false
  | _ :: past => up past
  end.
(** How many dynamic locks have been created, and which of them have been destroyed *)
Fixpoint created (past : list (nat * event)) : nat :=
  match past with
  | [] => 0%nat
  | (_, ECreate true) :: past => S (created past)
  | _ :: past => created past
  end.
Definition destroyed (i : nat) (past : list (nat * event)) : Prop := exists t, In (t, EDestroy i) past.
(** The library is initialised once at a time and with memory; locks are used while it is; a thread does not lock what it has locked, unlocks what it
    has locked; nothing is destroyed while some thread is inside. *)
Definition allowed (num : nat) (past : list (nat * event)) (t : nat) (e : event) : Prop :=
  match e with
  | EInit memory => memory = true /\ up past = false
  | EKill => forall u n, (n < num)%nat -> inside u (Static n) past = false
  | ECreate _ => up past = true
  | EDestroy i => up past = true /\ (i < created past)%nat /\ ~ destroyed i past /\ forall u, inside u (Dynamic i) past = false
  | ELock l mode =>
    up past = true /\ (match l with Static n => (n < num)%nat | Dynamic i => (i < created past)%nat /\ ~ destroyed i past end) /\
    (locks mode = true /\ inside t l past = false \/ unlocks mode = true /\ inside t l past = true)
  end.
Fixpoint disciplined (num : nat) (past es : list (nat * event)) : Prop :=
  match es with
  | [] => True
  | (t, e) :: es => allowed num past t e /\ disciplined num ((t, e) :: past) es
  end.
