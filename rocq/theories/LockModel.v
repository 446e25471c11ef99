(** Model of the locks src/utils.cpp gives to OpenSSL, with several threads.

    A mutex of pthreads is uninitialised (or destroyed), free, or held by a thread; what POSIX leaves undefined is [UB]: locking, unlocking or destroying
    a mutex that is not initialised, initialising one that is, destroying one that is held, unlocking one that the thread does not hold.  Threads take turns: what happens is a list of events, each of one thread.
    OpenSSL calls the callbacks that are set; when none is set, it does nothing. *)
From Verif Require Import Base.

Inductive mutex := Raw | Free | Held (t : nat).
(** What a thread does, or that it has to wait *)
Definition may_wait (A : Type) := outcome (option A).
Definition pthread_init (m : mutex) : outcome mutex := match m with Raw => Ok Free | _ => UB end.
Definition pthread_destroy (m : mutex) : outcome mutex := match m with Free => Ok Raw | _ => UB end.
Definition pthread_lock (t : nat) (m : mutex) : may_wait mutex := match m with Raw => UB | Free => Ok (Some (Held t)) | Held _ => Ok None end.
Definition pthread_unlock (t : nat) (m : mutex) : outcome mutex := match m with Held u => if (u =? t)%nat then Ok Free else UB | _ => UB end.
Fixpoint for_all (f : mutex -> outcome mutex) (ms : list mutex) : outcome (list mutex) :=
  match ms with
  | [] => Ok []
  | m :: ms => m <- f m ;; ms <- for_all f ms ;; Ok (m :: ms)
  end.
Record state := MkState {
  mutex_buf : option (list mutex);        (* utils.cpp:40; None: nullptr *)
  abandoned : nat;                        (* arrays that nothing points to any more *)
  callbacks : bool;                       (* all five are set, or none *)
  dynamic : list (option mutex)           (* CRYPTO_dynlock_value, in the order of their creation; None: released *)
}.
Definition set_nth {A} (l : list A) (i : nat) (x : A) : list A := firstn i l ++ x :: skipn (S i) l.
Section Locks.
(** CRYPTO_num_locks() *)
Variable num : nat.
Definition CRYPTO_LOCK : Z := 1.
(** lines 54-58 and 118-122 *)
Definition lock_or_unlock (t : nat) (mode : Z) (m : mutex) : may_wait mutex :=
  if negb (Z.land mode CRYPTO_LOCK =? 0) then pthread_lock t m else m <- pthread_unlock t m ;; Ok (Some m).
(** locking_function, utils.cpp:50-60 *)
Definition locking_function (s : state) (t : nat) (mode : Z) (n : nat) : may_wait state :=
  match mutex_buf s with
  | None => UB
  | Some ms =>
    match nth_error ms n with
    | None => UB
    | Some m =>
      r <- lock_or_unlock t mode m ;;
      Ok (match r with Some m => Some (MkState (Some (set_nth ms n m)) (abandoned s) (callbacks s) (dynamic s)) | None => None end)
    end
  end.
(** dyn_create_function, utils.cpp:84-102; [memory]: whether malloc succeeds *)
Definition dyn_create_function (s : state) (memory : bool) : outcome state :=
  if memory then m <- pthread_init Raw ;; Ok (MkState (mutex_buf s) (abandoned s) (callbacks s) (dynamic s ++ [Some m])) else Ok s.
(** dyn_lock_function, utils.cpp:112-123 *)
Definition dyn_lock_function (s : state) (t : nat) (mode : Z) (i : nat) : may_wait state :=
  match nth_error (dynamic s) i with
  | Some (Some m) =>
    r <- lock_or_unlock t mode m ;;
    Ok (match r with Some m => Some (MkState (mutex_buf s) (abandoned s) (callbacks s) (set_nth (dynamic s) i (Some m))) | None => None end)
  | _ => UB
  end.
(** dyn_destroy_function, utils.cpp:133-139 *)
Definition dyn_destroy_function (s : state) (i : nat) : outcome state :=
  match nth_error (dynamic s) i with
  | Some (Some m) => _ <- pthread_destroy m ;; Ok (MkState (mutex_buf s) (abandoned s) (callbacks s) (set_nth (dynamic s) i None))
  | _ => UB
  end.
(** init_locks, utils.cpp:150-175 *)
Definition init_locks (s : state) (memory : bool) : outcome state :=
  let abandoned' := (match mutex_buf s with Some _ => S (abandoned s) | None => abandoned s end) in
  if memory then ms <- for_all pthread_init (repeat Raw num) ;; Ok (MkState (Some ms) abandoned' true (dynamic s))
  else Ok (MkState None abandoned' (callbacks s) (dynamic s)).
(** kill_locks, utils.cpp:177-203 *)
Definition kill_locks (s : state) : outcome state :=
  match mutex_buf s with
  | None => Ok s
  | Some ms => _ <- for_all pthread_destroy ms ;; Ok (MkState None (abandoned s) false (dynamic s))
  end.

Inductive lock := Static (n : nat) | Dynamic (i : nat).
Inductive event :=
| ELock (l : lock) (mode : Z)      (* OpenSSL's CRYPTO_lock, which also unlocks *)
| ECreate (memory : bool) | EDestroy (i : nat) | EInit (memory : bool) | EKill.
Definition step (s : state) (t : nat) (e : event) : may_wait state :=
  let now r := (s <- r ;; Ok (Some s)) in
  match e with
  | ELock (Static n) mode => if callbacks s then locking_function s t mode n else Ok (Some s)
  | ELock (Dynamic i) mode => if callbacks s then dyn_lock_function s t mode i else Ok (Some s)
  | ECreate memory => if callbacks s then now (dyn_create_function s memory) else Ok (Some s)
  | EDestroy i => if callbacks s then now (dyn_destroy_function s i) else Ok (Some s)
  | EInit memory => now (init_locks s memory)
  | EKill => now (kill_locks s)
  end.
(** Events until one has to wait.  Result: the state, the events that have happened (the last one first), and whether an event waits *)
Fixpoint run_events (s : state) (past : list (nat * event)) (es : list (nat * event)) : outcome (state * list (nat * event) * bool) :=
  match es with
  | [] => Ok (s, past, false)
  | (t, e) :: es =>
    r <- step s t e ;;
    match r with
    | None => Ok (s, past, true)
    | Some s => run_events s ((t, e) :: past) es
    end
  end.
End Locks.
Definition fresh : state := MkState None 0 false [].
