(** Properties C01-C05: Key objects. *)
From Verif Require Import BaseFacts KeyModel KeySpec KeyProofs KeyProofs2 KeyProofs3.

(** C01.  Whatever the program, no operation reads protected or freed memory nor frees twice (these are [UB] in the
    model), an allocation has at most one owner, owners point to live allocations; if no protection call fails and no
    callback throws, each live allocation has an owner, so nothing is left when all the objects are destroyed. *)
Theorem C01_key_ownership : forall c N ops s vs,
  Forall (op_ok N) ops -> run c N init_st ops = (s, vs) ->
  ~ In UB vs /\
  (forall i j p, owns s i p -> owns s j p -> i = j) /\
  (forall i p, owns s i p -> live s p) /\
  (Forall op_noleak ops ->
     (forall p, live s p -> exists i, owns s i p) /\
     ((forall i, get_obj s i = None) -> Forall (fun x => x = Freed) (heap s))).
Proof. exact ownership. Qed.
Print Assumptions C01_key_ownership.

Definition ex_env (rnd : bytes) := mkEnv true [219;219] rnd false.
Definition ex_prog : list (env * op) :=
  [ (ex_env [1;2], ONew); (ex_env [], OFromBuf (Some [5;6;7])); (ex_env [], OMove 0); (ex_env [], OAssign 1 2);
    (ex_env [], OUnlockGet 1); (ex_env [], OAssign 1 1); (ex_env [], OData 1); (ex_env [], OUnlockGet 0);
    (ex_env [], ODestroy 0); (ex_env [], ODestroy 1); (ex_env [], ODestroy 2) ].
Example C01_nontrivial :
  Forall (op_ok 2) ex_prog /\ Forall op_noleak ex_prog /\
  run (mkCfg true true) 2 init_st ex_prog =
    (mkS [Freed; Freed] [None; None; None],
     [Ok VUnit; Ok (VBuf [0;0;7]); Ok VUnit; Ok VUnit; Ok (VPtr (Some [1;2])); Ok VUnit; Ok (VPtr (Some [1;2]));
      Throw RuntimeError; Ok VUnit; Ok VUnit; Ok VUnit]).
Proof. split; [|split; [|vm_compute; reflexivity]]; repeat constructor; simpl; lia. Qed.

(** C57.  A constructor whose memory protection fails throws and leaks its allocation. *)
Theorem C57_key_ctor_failure_leak_refuted : exists c N ops s vs,
  Forall (op_ok N) ops /\ run c N init_st ops = (s, vs) /\
  (forall i, get_obj s i = None) /\ exists p, live s p.
Proof.
  exists (mkCfg true true), 2%nat, [(mkEnv true [219;219] [1;2] true, ONew)], (mkS [Live [1;2] PRW] []), [Throw RuntimeError].
  repeat split; [repeat constructor| |]; [intros [|i]; reflexivity|]. exists 0%nat. unfold live; simpl; eauto.
Qed.
Print Assumptions C57_key_ctor_failure_leak_refuted.

(** A failing constructor publishes no object; it leaves one allocation behind exactly when the callback throws or the
    protection fails after an allocation, and changes nothing otherwise.  What is missing: the release of that allocation. *)
Theorem C57_failures_partial : forall c N s e o s' x,
  (o = ONew \/ (exists b, o = OFromBuf b) \/ (exists f, o = OCallback f)) -> step c N s (e, o) = (s', Throw x) ->
  objs s' = objs s /\
  (e_alloc e = true /\ o <> OFromBuf None /\ (o = OCallback None \/ memlock c = true /\ e_mpfail e = true) /\
     (exists b, heap s' = heap s ++ [Live b PRW]) \/
   (e_alloc e = false \/ o = OFromBuf None) /\ s' = s).
Proof. exact ctor_failures. Qed.
Print Assumptions C57_failures_partial.
Example C57_cases :
  step (mkCfg true true) 2 init_st (mkEnv true [] [] true, OFromBuf None) = (init_st, Throw InvalidArgument) /\
  step (mkCfg true true) 2 init_st (mkEnv false [] [] true, OCallback (Some [1;2])) = (init_st, Throw BadAlloc) /\
  step (mkCfg false true) 2 init_st (mkEnv true [7;7] [] false, OCallback None) = (mkS [Live [7;7] PRW] [], Throw InvalidArgument).
Proof. repeat split; reflexivity. Qed.

(** C02.  What a program observes is what it would observe if Key objects were plain values. *)
Theorem C02_key_values : forall c N ops, Forall (op_ok N) ops ->
  snd (run c N init_st ops) = snd (s_run c N [] ops).
Proof. exact refinement. Qed.
Print Assumptions C02_key_values.
Theorem C02_key_bytes_fixed : forall c N s ops p b pr,
  nth_error (heap s) p = Some (Live b pr) ->
  nth_error (heap (fst (run c N s ops))) p = Some Freed \/
  exists pr', nth_error (heap (fst (run c N s ops))) p = Some (Live b pr').
Proof. exact content_stable. Qed.
Print Assumptions C02_key_bytes_fixed.
Theorem C02_key_reads_owned_bytes : forall c N s i k e,
  reachable c N s -> get_obj s i = Some k -> e_mpfail e = false ->
  match kptr k with
  | None => snd (step c N s (e, OUnlockGet i)) = Throw RuntimeError
  | Some p => exists b pr, nth_error (heap s) p = Some (Live b pr) /\
                snd (step c N s (e, OUnlockGet i)) = Ok (VPtr (Some b))
  end.
Proof. exact unlock_get_ok. Qed.
Print Assumptions C02_key_reads_owned_bytes.
Theorem C02_key_emptied : forall c N s i k e o e',
  reachable c N s -> get_obj s i = Some k -> empties i o ->
  (match o with OAssign a _ => get_obj s a <> None | _ => True end) ->
  let s' := fst (step c N s (e, o)) in
  snd (step c N s' (e', OUnlockGet i)) = Throw RuntimeError /\
  snd (step c N s' (e', OSerialize i)) = Throw RuntimeError /\
  snd (step c N s' (e', OData i)) = (if memlock c then Throw RuntimeError else Ok (VPtr None)) /\
  snd (step c N s' (e', OIsEmpty i)) = Ok (VBool true).
Proof. exact emptied_throws. Qed.
Print Assumptions C02_key_emptied.
Example C02_nontrivial :
  reachable (mkCfg true true) 2 (mkS [Live [1;2] PNA] [Some (mkK (Some 0%nat) true)]) /\ empties 0 (OMove 0).
Proof.
  split; [|reflexivity]. exists [(ex_env [1;2], ONew)], [Ok VUnit]. split; [repeat constructor|reflexivity].
Qed.

(** C03. *)
Theorem C03_lock_flag_is_protection : forall c N ops s vs i k p,
  memlock c = true -> mpsup c = true ->
  Forall (op_ok N) ops -> run c N init_st ops = (s, vs) ->
  get_obj s i = Some k -> kptr k = Some p ->
  (is_locked c k = true <-> exists b, nth_error (heap s) p = Some (Live b PNA)) /\
  (is_locked c k = false <-> exists b, nth_error (heap s) p = Some (Live b PRO)).
Proof. exact lock_flag. Qed.
Print Assumptions C03_lock_flag_is_protection.
Theorem C03_lock_unlock : forall c N s i k e,
  reachable c N s -> get_obj s i = Some k -> e_mpfail e = false -> memlock c = true -> kptr k <> None ->
  let s1 := fst (step c N s (e, OLock i)) in
  let s2 := fst (step c N s (e, OUnlock i)) in
  (exists k1, get_obj s1 i = Some k1 /\ is_locked c k1 = true /\ kptr k1 = kptr k /\
     forall e', fst (step c N s1 (e', OLock i)) = s1) /\
  (exists k2, get_obj s2 i = Some k2 /\ is_locked c k2 = false /\ kptr k2 = kptr k /\
     forall e', fst (step c N s2 (e', OUnlock i)) = s2).
Proof. exact lock_unlock_effect. Qed.
Print Assumptions C03_lock_unlock.
Theorem C03_reads : forall c N s i k e p,
  reachable c N s -> get_obj s i = Some k -> kptr k = Some p ->
  (is_locked c k = true ->
     snd (step c N s (e, OData i)) = Throw RuntimeError /\ snd (step c N s (e, OSerialize i)) = Throw RuntimeError) /\
  (is_locked c k = false -> exists b pr, nth_error (heap s) p = Some (Live b pr) /\
     snd (step c N s (e, OData i)) = Ok (VPtr (Some b)) /\ snd (step c N s (e, OSerialize i)) = Ok (VBytes b)).
Proof. exact reads_iff_unlocked. Qed.
Print Assumptions C03_reads.
Example C03_nontrivial :
  let s := fst (run (mkCfg true true) 2 init_st [(ex_env [1;2], ONew); (ex_env [], OUnlock 0)]) in
  get_obj s 0 = Some (mkK (Some 0%nat) false) /\ nth_error (heap s) 0 = Some (Live [1;2] PRO).
Proof. split; reflexivity. Qed.

(** C04. *)
Theorem C04_key_from_buffer : forall c N s e b,
  reachable c N s -> (N <= length b)%nat -> e_alloc e = true -> e_mpfail e = false ->
  snd (step c N s (e, OFromBuf (Some b))) = Ok (VBuf (zeros N ++ skipn N b)) /\
  fresh_holds c N s (fst (step c N s (e, OFromBuf (Some b)))) (firstn N b).
Proof. exact from_buffer. Qed.
Print Assumptions C04_key_from_buffer.
Theorem C04_key_from_null : forall c N s e,
  step c N s (e, OFromBuf None) = (s, Throw InvalidArgument).
Proof. reflexivity. Qed.
Print Assumptions C04_key_from_null.
Example C04_nontrivial :
  reachable (mkCfg true true) 2 init_st /\ (2 <= length [5;6;7])%nat /\
  snd (step (mkCfg true true) 2 init_st (ex_env [], OFromBuf (Some [5;6;7]))) = Ok (VBuf [0;0;7]).
Proof. split; [exists [], []; split; [constructor|reflexivity]|split; [simpl; lia|reflexivity]]. Qed.

(** C05.  With memory locking the default constructor holds the random bytes; without, it does not depend on them. *)
Theorem C05_key_default_random_partial : forall c N s e,
  memlock c = true -> reachable c N s -> e_alloc e = true -> e_mpfail e = false ->
  fresh_holds c N s (fst (step c N s (e, ONew))) (e_rnd e).
Proof. exact default_random. Qed.
Print Assumptions C05_key_default_random_partial.
Theorem C05_key_default_random_refuted : exists c N e s',
  e_alloc e = true /\ e_mpfail e = false /\ length (e_rnd e) = N /\
  step c N init_st (e, ONew) = (s', Ok VUnit) /\
  snd (step c N s' (e, OUnlockGet 0)) <> Ok (VPtr (Some (e_rnd e))).
Proof.
  exists (mkCfg false true), 2%nat, (mkEnv true [219;219] [1;2] false), (mkS [Live [219;219] PRW] [Some (mkK (Some 0%nat) false)]).
  repeat split. vm_compute. discriminate.
Qed.
Print Assumptions C05_key_default_random_refuted.
