(** Property C138: failing calls of OpenSSL. *)
From Verif Require Import Base BaseFacts MpiModel RsaKeyModel RsaKeySpec TdpKeyModel TdpModel TdpSpec TdpExample KeyVal HmacModel OsslModel OsslFailModel OsslFailSpec OsslFailProofs.

(** If none of the calls a function makes fails, it is the function of C98-C104. *)
Theorem C138_no_error : forall f l,
  (forall k inp, (forall i, (i <= 4)%nat -> f i = false) -> fl_eval f l k inp = ossl_eval k inp /\ fl_eval_string f l k inp = ossl_eval_string k inp) /\
  (forall k rnd, (forall i, (i <= 1)%nat -> f i = false) -> fl_sample f k rnd = ossl_sample k rnd) /\
  (forall H ml gp r t k pk seed, (forall i, (i <= 3)%nat -> f i = false) -> fl_generate f l H ml gp r t k pk seed = ossl_generate H ml gp r t k pk seed) /\
  (forall k, (forall i, (i <= 5)%nat -> f i = false) -> fl_members f l k = Ok (ossl_members k)) /\
  (forall o g inp, f 0%nat = false -> fl_invert f o g inp = ossl_invert o g inp /\ fl_invert_string f o g inp = ossl_invert_string o g inp) /\
  (forall o inp order, (forall i, (i <= 18)%nat -> f i = false) -> fl_invert_mult f l o inp order = ossl_invert_mult o inp order) /\
  (forall k size, 0 <= size < 256 -> (forall i, (i < 2 * Z.to_nat (size - 1))%nat -> f i = false) -> fl_pool_new f l k size = (p <- ossl_pool_new k size ;; Ok (pool_of p))) /\
  (forall p, (forall i, (i <= length (op_keys p))%nat -> f i = false) -> fl_pool_copy f (pool_of p) = Ok (pool_of (ossl_pool_copy p))) /\
  (forall p g inp order, f 0%nat = false -> fl_pool_eval f (pool_of p) g inp order = ossl_pool_eval p g inp order).
Proof.
  intros f l. split; [intros; split; [apply eval_good|apply eval_string_good]; assumption|]. split; [exact (sample_good f)|]. split; [exact (generate_good f l)|]. split; [exact (members_good f l)|].
  split; [exact (invert_good f)|]. split; [exact (invert_mult_good f l)|]. split; [exact (pool_new_good f l)|]. split; [exact (pool_copy_good f)|exact (pool_eval_good f)].
Qed.
Print Assumptions C138_no_error.
(** Whatever fails, these functions give the right result or throw; sample, public_key and private_key except for one allocation each. *)
Theorem C138_reported_partial : forall f o g s k rnd, reported (fl_invert_string f o g s) (ossl_invert_string o g s) /\
  reported (fl_copy f k) (Ok (ossl_copy k)) /\
  (f 0%nat = false -> reported (fl_sample f k rnd) (ossl_sample k rnd)) /\
  (f 2%nat = false -> reported (fl_public_key f k) (Ok (ossl_public_key k))) /\
  (f 4%nat = false -> reported (fl_private_key f o) (Ok (ossl_private_key o))).
Proof. exact checked. Qed.
Print Assumptions C138_reported_partial.
(** They do throw when one of the calls that are tested fails. *)
Theorem C138_thrown_partial : forall f, (forall o g s, f 0%nat = true -> exists e, fl_invert_string f o g s = Throw e) /\
  (forall k, f 0%nat = true -> exists e, fl_copy f k = Throw e) /\ (forall k rnd, f 0%nat = false -> f 1%nat = true -> exists e, fl_sample f k rnd = Throw e) /\
  (forall k, f 2%nat = false -> (exists i, In i [0; 1; 3]%nat /\ f i = true) -> exists e, fl_public_key f k = Throw e) /\
  (forall o, f 4%nat = false -> (exists i, In i [0; 1; 2; 3; 5]%nat /\ f i = true) -> exists e, fl_private_key f o = Throw e).
Proof. exact thrown. Qed.
Print Assumptions C138_thrown_partial.
(** The result of malloc is not tested. *)
Theorem C138_malloc_refuted : forall f, (forall k, f 0%nat = false -> f 1%nat = false -> f 2%nat = true -> fl_public_key f k = UB) /\
  (forall o, (forall i, (i < 4)%nat -> f i = false) -> f 4%nat = true -> fl_private_key f o = UB).
Proof. exact malloc_untested. Qed.
Print Assumptions C138_malloc_refuted.
(** An assignment that throws leaves the object as it was. *)
Theorem C138_assignment : forall f self t, fl_assign f self t = (self, Throw InvalidArgument) \/ fl_assign f self t = (ossl_assign self t, Ok tt).
Proof. exact assigned. Qed.
Print Assumptions C138_assignment.
(** A null pointer that an allocation returns is used. *)
Theorem C138_null_pointers_refuted : forall f l,
  (forall k inp, RSA_size k = 256 -> f 0%nat = true \/ f 1%nat = true \/ f 3%nat = true -> fl_eval f l k inp = UB) /\
  (forall k rnd, f 0%nat = true -> fl_sample f k rnd = UB) /\
  (forall k rnd, f 0%nat = true \/ f 1%nat = true \/ f 2%nat = true -> fl_generate_from f l k rnd = UB) /\
  (forall k, f 0%nat = true \/ f 1%nat = true \/ f 2%nat = true \/ f 5%nat = true -> fl_members f l k = UB) /\
  (forall o inp order, RSA_size (key_pub (oi_key o)) = 256 -> order <> 0 -> (exists i, In i [0; 1; 2; 3; 7; 9; 10; 11; 12]%nat /\ f i = true) -> fl_invert_mult f l o inp order = UB) /\
  (forall k size i, 2 <= size < 256 -> 0 <= i < size - 1 -> f (2 * Z.to_nat i)%nat = true -> fl_pool_new f l k size = UB).
Proof.
  intros f l. split; [exact (null_eval f l)|]. split; [exact (null_sample f)|]. split; [exact (null_generate f l)|]. split; [exact (null_members f l)|].
  split; [exact (null_invert_mult f l)|exact (null_pool_new f l)].
Qed.
Print Assumptions C138_null_pointers_refuted.
(** One failing computation, and zero is returned without an exception: for the input 1 and the key of the example, where the right results are not zero. *)
Definition one_in : bytes := zeros 255 ++ [1].
Definition xkey : ossl_inverse := ossl_members tkey.
Theorem C138_wrong_results_refuted : exists o inp, private_ok (oi_key o) /\ is_bytes inp /\
  fl_eval (only 4) (fun _ => 0) (key_pub (oi_key o)) inp = Ok (zeros 256) /\ ossl_eval (key_pub (oi_key o)) inp = Ok one_in /\
  fl_invert_mult (only 18) (fun _ => 0) o inp 1 = Ok (zeros 256) /\ ossl_invert_mult o inp 1 = Ok one_in /\
  fl_generate_from (only 3) (fun _ => 0) (key_pub (oi_key o)) inp = Ok (zeros 256) /\ fl_generate_from (fun _ => false) (fun _ => 0) (key_pub (oi_key o)) inp = Ok one_in.
Proof.
  exists xkey, one_in. split; [exact (proj1 tkey_ok)|]. split; [apply is_bytes_app; split; [apply is_bytes_zeros|]; apply Forall_cons; [split; [apply Z.le_0_1|reflexivity]|constructor]|].
  split; [vm_compute; reflexivity|]. split; [vm_compute; reflexivity|]. split; [vm_compute; reflexivity|]. split; [vm_compute; reflexivity|]. split; vm_compute; reflexivity.
Qed.
Print Assumptions C138_wrong_results_refuted.
(** The same for all keys, and: invert of an array and eval_pool return what was in memory; a pool whose constructor did not throw computes order 2 as order 1; a copy of a pool
    contains null pointers; the object for inversion computes modulo P instead of P - 1. *)
Theorem C138_silent_refuted :
  (forall k inp, RSA_size k = 256 -> fl_eval (only 4) (fun _ => 0) k inp = Ok (zeros 256)) /\
  (forall o inp order, RSA_size (key_pub (oi_key o)) = 256 -> order <> 0 -> fl_invert_mult (only 18) (fun _ => 0) o inp order = Ok (zeros 256)) /\
  (forall o g inp, fl_invert (only 0) o g inp = Ok g) /\
  (forall p g inp, fl_pool_eval (only 0) p g inp 1 = Ok g) /\
  (forall k, exists p, fl_pool_new (only 1) (fun _ => pub_E k) k 2 = Ok p /\ fl_maximum_order p = 2 /\ forall f g inp, fl_pool_eval f p g inp 2 = fl_pool_eval f p g inp 1) /\
  (forall p k ks, op_keys p = k :: ks -> exists q, fl_pool_copy (only 1) (pool_of p) = Ok q /\ (zlen ks < 254 -> forall f g inp, fl_pool_eval f q g inp 2 = UB)) /\
  (forall k, fl_members (only 3) (fun _ => key_P k) k = Ok {| oi_key := k; oi_p_1 := key_P k; oi_q_1 := key_Q k - 1 |}).
Proof.
  split; [exact silent_eval|]. split; [exact silent_invert_mult|]. split; [exact silent_invert|]. split; [exact silent_pool_eval|]. split; [exact silent_pool_new|].
  split; [exact silent_pool_copy|exact silent_members].
Qed.
Print Assumptions C138_silent_refuted.

(** Calls that fail, and are reported or not *)
Example C138_example : RSA_size (key_pub tkey) = 256 /\ fl_invert_string (only 0) xkey (zeros 256) one_in = Throw RuntimeError /\ fl_sample (only 1) (key_pub tkey) (fun n => Some (n - 1)) = Throw RuntimeError /\
  fl_copy (only 0) (key_pub tkey) = Throw InvalidArgument /\ fl_eval (only 7) (fun _ => 5) (key_pub tkey) one_in = Ok one_in /\
  (exists p, fl_pool_new (only 9) (fun _ => 5) (key_pub tkey) 3 = Ok p /\ length (fp_keys p) = 2%nat).
Proof.
  split; [vm_compute; reflexivity|]. split; [vm_compute; reflexivity|]. split; [vm_compute; reflexivity|]. split; [vm_compute; reflexivity|]. split; [vm_compute; reflexivity|].
  eexists. split; vm_compute; reflexivity.
Qed.
