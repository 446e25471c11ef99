(** C131: the objects and functions of tdp_impl_openssl.cpp release what they allocate *)
From Verif Require Import Base OsslHeapModel OsslHeapSpec OsslHeapProofs OsslHeapProofs2.

Theorem C131_memory_partial : forall n ps ts bs, expect_all (repeat Nothing n) ps = Some (ts, bs) -> exists h os, run [] (repeat Dead n) ps = Ok (h, os, bs) /\
  (forall k, in_use k h = total k ts) /\ unshared h.
Proof. exact memory. Qed.
Print Assumptions C131_memory_partial.

(** A private key of another algorithm: the BIO and the EVP_PKEY are never released *)
Theorem C131_other_algorithm_refuted : forall h, exists h', from_private (Some None) h = Ok (h', Dead) /\
  forall k, in_use k h' = (in_use k h + (if same KBio k then 1 else 0) + (if same KEvp k then 1 else 0))%nat.
Proof. exact other_algorithm. Qed.
Print Assumptions C131_other_algorithm_refuted.

(** When the string of public_key has no memory, the BIO and the buffer are never released *)
Theorem C131_string_refuted : forall h k key, use KRsa h k = Ok key -> exists h', call_function (Tdp k) (FPublicKey true true false) h = Ok (h', true) /\
  forall x, in_use x h' = (in_use x h + (if same KBio x then 1 else 0) + (if same KBuf x then 1 else 0))%nat.
Proof. exact no_memory. Qed.
Print Assumptions C131_string_refuted.

Theorem C131_size_1_refuted : forall ns h, pool_new (Some ns) 1 h = UB.
Proof. exact size_1. Qed.
Print Assumptions C131_size_1_refuted.

(** After the destructor, p - 1 and q - 1 are left in memory that has been released *)
Theorem C131_wiped_refuted : forall p q d n, exists h os, run [] [Dead] [OGenerate 0 true (Some [n; 65537; d; p; q]); ODestroy 0] = Ok (h, os, [false; false]) /\
  (forall k, in_use k h = O) /\ left_behind h (p - 1) /\ left_behind h (q - 1).
Proof. exact not_wiped. Qed.
Print Assumptions C131_wiped_refuted.

(** After invert_mult, so are the exponents *)
Theorem C131_exponents_refuted : forall p q d n, exists h os, run [] [Dead] [OGenerate 0 true (Some [n; 65537; d; p; q]); OCall 0 (FInvertMult 1 true)] = Ok (h, os, [false; false]) /\
  left_behind h (d mod (p - 1)) /\ left_behind h (d mod (q - 1)).
Proof. exact exponents_left. Qed.
Print Assumptions C131_exponents_refuted.

(** Every operation, with exceptions, and at the end nothing is in use *)
Definition example_program : list op :=
  [ OPublic 0 None; OPublic 0 (Some [3233; 17]); OCopy 1 0; OAssign 1 0; OAssign 0 0; OGenerate 2 false None; OGenerate 2 true None; OGenerate 2 true (Some [3233; 17; 413; 61; 53]);
    OPrivate 3 None; OPrivate 3 (Some (Some [3233; 17; 413; 61; 53])); OCopy 4 3; OPool 5 None 3; OPool 5 (Some [3233; 17]) 0; OPool 5 (Some [3233; 17]) 4; OPool 6 (Some [3233; 17]) 2;
    OPoolCopy 7 5; OPoolAssign 6 5; OPoolAssign 5 5; OPoolAssign 7 6; OCall 0 (FPublicKey true true true); OCall 0 (FPublicKey false true true); OCall 0 (FPublicKey true false true); OCall 1 (FEval true);
    OCall 5 (FEval false); OCall 2 (FSample true); OCall 2 (FSample false); OCall 3 FGenerate; OCall 3 (FPrivateKey true true true true); OCall 3 (FPrivateKey false true true true);
    OCall 3 (FPrivateKey true false true true); OCall 3 (FPrivateKey true true false true); OCall 2 (FInvert true); OCall 2 (FInvertMult 5 true); OCall 2 (FInvertMult 5 false); OCall 5 (FEvalPool 1);
    OCall 5 (FEvalPool 4); OCall 5 (FEvalPool 5) ].
Definition example_end : list op := map ODestroy (seq 0 8).
Example C131_example : exists bs, expect_all (repeat Nothing 8) example_program = Some ([APermutation; APermutation; AnInverse; AnInverse; APermutation; APool 3; APool 3; APool 3], bs) /\
  map (fun k => total k [APermutation; APermutation; AnInverse; AnInverse; APermutation; APool 3; APool 3; APool 3]) [KRsa; KBn; KCtx; KBio; KEvp; KBuf; KArr] = [17; 6; 0; 0; 0; 0; 3]%nat.
Proof. eexists. split; reflexivity. Qed.
Example C131_example_end : exists bs, expect_all (repeat Nothing 8) (example_program ++ example_end) = Some (repeat Nothing 8, bs) /\ (forall k, total k (repeat Nothing 8) = O).
Proof. eexists. split; [reflexivity|]. intros []; reflexivity. Qed.
(** The hypothesis of C131_string_refuted *)
Example C131_meets_string : use KRsa [MkCell KRsa 1 [3233; 17]] 0 = Ok (MkCell KRsa 1 [3233; 17]).
Proof. reflexivity. Qed.
