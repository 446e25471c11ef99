(** C130: the locks given to OpenSSL. *)
From Coq Require Import Lia.
From Verif Require Import Base LockModel LockSpec LockProofs.

(** However threads take turns, nothing undefined happens, and a thread waits only for a lock that another one has locked.  What is missing: the library initialised twice, or cleaned up while a lock is in use, see below. *)
Theorem C130_waits_partial : forall num es, disciplined num [] es -> exists s past w, run_events num fresh [] es = Ok (s, past, w) /\ exists rest, es = rev past ++ rest /\ (w = false -> rest = []) /\
  (w = true -> exists t l mode rest', rest = (t, ELock l mode) :: rest' /\ locks mode = true /\ exists u, inside u l past = true).
Proof. exact locks_run. Qed.
Print Assumptions C130_waits_partial.
(** At any moment at most one thread is between locking and unlocking a lock. *)
Theorem C130_exclusion_partial : forall num es s past w l t u, disciplined num [] es -> run_events num fresh [] es = Ok (s, past, w) -> inside t l past = true -> inside u l past = true -> t = u.
Proof. exact locks_exclusive. Qed.
Print Assumptions C130_exclusion_partial.
(** After cleaning up, the array is released and no callback is set; the dynamic locks that are allocated are those that have been created and not destroyed. *)
Theorem C130_memory_partial : forall num es s past w, disciplined num [] es -> run_events num fresh [] es = Ok (s, past, w) ->
  (if up past then exists ms, mutex_buf s = Some ms /\ length ms = num else mutex_buf s = None) /\ abandoned s = 0%nat /\ callbacks s = up past /\
  forall i, (exists m, nth_error (dynamic s) i = Some (Some m)) <-> (i < created past)%nat /\ ~ destroyed i past.
Proof. exact locks_memory. Qed.
Print Assumptions C130_memory_partial.
(** A dynamic lock is released after its mutex, which no thread holds, has been destroyed: otherwise the behaviour is undefined. *)
Theorem C130_destroyed_free : forall num s t i s', callbacks s = true -> step num s t (EDestroy i) = Ok s' -> nth_error (dynamic s) i = Some (Some Free).
Proof. exact destroyed_free. Qed.
Print Assumptions C130_destroyed_free.
(** Initialising again while a thread holds a lock: its unlocking is undefined, and the old array is lost. *)
Theorem C130_twice_refuted : exists es s past, run_events 4 fresh [] (es ++ [(1%nat, ELock (Static 2) 10)]) = UB /\ run_events 4 fresh [] es = Ok (s, past, false) /\ abandoned s = 1%nat /\
  es = [(0, EInit true); (1, ELock (Static 2) 9); (0, EInit true)]%nat.
Proof. do 3 eexists. split; [|split; [|split; [|reflexivity]]]; vm_compute; reflexivity. Qed.
Print Assumptions C130_twice_refuted.
(** Cleaning up while a thread holds a lock destroys a mutex that is held. *)
Theorem C130_cleanup_refuted : exists es, run_events 4 fresh [] es = UB /\ es = [(0, EInit true); (1, ELock (Static 2) 9); (0, EKill)]%nat.
Proof. eexists. split; [|reflexivity]. vm_compute. reflexivity. Qed.
Print Assumptions C130_cleanup_refuted.
(** A dynamic lock that is destroyed after cleaning up is not released. *)
Theorem C130_dynamic_refuted : exists es s past, run_events 4 fresh [] es = Ok (s, past, false) /\ es = [(0, EInit true); (1, ECreate true); (0, EKill); (1, EDestroy 0)]%nat /\ dynamic s = [Some Free].
Proof. do 3 eexists. split; [|split; [reflexivity|]]; vm_compute; reflexivity. Qed.
Print Assumptions C130_dynamic_refuted.

(** Two threads, a static and a dynamic lock, waiting, cleaning up and initialising again *)
Definition example : list (nat * event) :=
  [(0, EInit true); (0, ECreate true); (0, ELock (Static 2) 9); (1, ELock (Dynamic 0) 5); (1, ELock (Dynamic 0) 6); (0, ELock (Static 2) 10); (1, ELock (Static 2) 5); (1, ELock (Static 2) 6); (1, EDestroy 0); (0, EKill); (0, EInit true); (1, ELock (Static 3) 9)]%nat.
Lemma not_destroyed i past : existsb (fun x => match snd x with EDestroy j => (i =? j)%nat | _ => false end) past = false -> ~ destroyed i past.
Proof. intros H [t Ht]. assert (existsb (fun x => match snd x with EDestroy j => (i =? j)%nat | _ => false end) past = true) as Q; [|congruence]. apply existsb_exists. exists (t, EDestroy i). split; [exact Ht|apply Nat.eqb_refl]. Qed.
Local Ltac lk := split; [reflexivity|]; split; [first [lia | split; [cbn; lia|apply not_destroyed; reflexivity]]|]; first [left; split; reflexivity | right; split; reflexivity].
Example C130_example : disciplined 4 [] example /\ (exists s past, run_events 4 fresh [] example = Ok (s, past, false) /\ inside 1 (Static 3) past = true) /\
  disciplined 4 [] (example ++ [(0%nat, ELock (Static 3) 9)]) /\ exists s past, run_events 4 fresh [] (example ++ [(0%nat, ELock (Static 3) 9)]) = Ok (s, past, true).
Proof.
  assert (disciplined 4 [] (example ++ [(0%nat, ELock (Static 3) 9)])) as D.
  { unfold example. cbn [app disciplined allowed]. split; [split; reflexivity|]. split; [reflexivity|]. split; [lk|]. split; [lk|]. split; [lk|]. split; [lk|]. split; [lk|]. split; [lk|].
    split; [split; [reflexivity|]; split; [cbn; lia|]; split; [apply not_destroyed; reflexivity|]; intros u; cbn; destruct u as [|[|u]]; reflexivity|].
    split; [intros u n Hn; destruct n as [|[|[|[|n]]]]; try lia; destruct u as [|[|u]]; reflexivity|]. split; [split; reflexivity|]. split; [lk|]. split; [lk|exact I]. }
  split; [|split; [|split; [exact D|]]].
  - assert (forall es ys past, disciplined 4 past (es ++ ys) -> disciplined 4 past es) as P by (induction es as [|[t e] es IH]; intros ys past H; [exact I|]; destruct H as [H1 H2]; split; [exact H1|eapply IH; exact H2]). eapply P. exact D.
  - do 2 eexists. split; [vm_compute; reflexivity|reflexivity].
  - do 2 eexists. vm_compute. reflexivity.
Qed.
