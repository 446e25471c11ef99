(** C140: invert of one object from several threads (mbedTLS). *)
From Verif Require Import Base MpiModel RsaKeyModel RsaKeySpec TdpModel TdpSpec TdpExample BlindThreadModel BlindThreadSpec BlindThreadProofs BlindThreadProofs2.

(** With a mutex that the callers hold during each call, every result is right, whatever the schedule.  What is missing: there is no mutex, and without one this is false, see below. *)
Theorem C140_mutex_partial : forall k css ts, tdp_key k -> Forall (good_calls k) css -> exists s h ths,
  run_threads true k (fresh_object, None, map starting css) ts = Ok (s, h, ths) /\ Forall (fun th => Forall (right k) (results th)) ths.
Proof. exact invert_mutex. Qed.
Print Assumptions C140_mutex_partial.
(** And all calls can return. *)
Theorem C140_mutex_finishes_partial : forall k css ts, tdp_key k -> Forall (good_calls k) css -> exists us s h ths,
  run_threads true k (fresh_object, None, map starting css) (ts ++ us) = Ok (s, h, ths) /\ Forall ended ths /\
  Forall2 (fun cs th => map fst (rev (results th)) = cs /\ Forall (right k) (results th)) css ths.
Proof. exact invert_mutex_finishes. Qed.
Print Assumptions C140_mutex_finishes_partial.
(** Without a mutex a thread that changes the blinding values between two steps of another makes its call return a wrong number, for every key. *)
Theorem C140_shared_refuted : forall k, tdp_key k -> exists css ts s h th0 th1 x, run_threads false k (fresh_object, None, map starting css) ts = Ok (s, h, [th0; th1]) /\
  Forall (good_calls k) css /\ hd_error (results th0) = Some x /\ ~ right k x.
Proof.
  intros k HK. destruct (shared_wrong k HK) as (s & h & th0 & th1 & y & E & R & W). exists [[(two, 1); (two, 1)]; [(two, 1)]], schedule, s, h, th0, th1, ((two, 1), inr y).
  split; [exact E|]. split; [|auto]. pose proof (two_good k HK) as G. repeat apply Forall_cons; try apply Forall_nil; split; try exact G; discriminate.
Qed.
Print Assumptions C140_shared_refuted.
(** A call that no other thread interrupts does the same as mbedtls_rsa_private of TdpModel.v, errors included, whatever the key, the random values and the blinding pair. *)
Theorem C140_alone : forall m k bl rnd inp out bs T, rd inp 0 (rsa_len (key_pub k)) = Ok bs -> mpi_read_binary bs = ret T -> exists n bl' r,
  run_threads m k (shared_of bl, None, [starting [(rnd, T)]]) (repeat 0%nat n) = Ok (shared_of bl', None, [{| todo := []; current := None; results := [((rnd, T), r)] |}]) /\
  rsa_private k bl rnd inp out = (x <- written k out r ;; Ok (bl', x)).
Proof. exact invert_alone. Qed.
Print Assumptions C140_alone.
Example C140_example_alone : exists bs, rd (repeat 1 300) 0 (rsa_len (key_pub tkey)) = Ok bs /\ exists T, mpi_read_binary bs = ret T /\ 0 < T.
Proof. eexists. split; [vm_compute; reflexivity|]. eexists. split; [vm_compute; reflexivity|reflexivity]. Qed.

(** A key, two threads, and inputs below and above the modulus *)
Example C140_example : tdp_key tkey /\ Forall (good_calls tkey) [[(two, 1); (two, key_N tkey)]; [(two, 5)]].
Proof. split; [exact tkey_ok|]. pose proof (two_good tkey tkey_ok) as G. repeat apply Forall_cons; try apply Forall_nil; split; try exact G; discriminate. Qed.
