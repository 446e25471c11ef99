(** Reading keys when allocations fail.  Properties C132 and C133. *)
From Verif Require Import Base MpiModel PemModel AsnModel RsaKeyModel TdpKeyModel RsaKeySpec RsaKeyExample PkHeapModel PkHeapSpec PkHeapProofs3.

(** C132: whichever allocations fail, the constructors hold the key of the text or throw; nothing is released twice, and nothing but the numbers of the key stays allocated.
    Missing: the numbers p_1_, q_1_, phi_ (see C127). *)
Theorem C132_public : forall ora h pk, is_bytes pk -> zlen pk < 2 ^ 62 -> exists h' ns thrown,
  public_constructor ora h pk = Ok (h', ns, thrown) /\ only_adds h h' (map fst ns) /\
  (thrown = false -> exists k, tdp_from_public (fun _ => true) pk = Ok k /\ map snd ns = public_numbers k) /\
  (thrown = true -> ns = [] /\ (no_failure ora h h' -> tdp_from_public (fun _ => true) pk = Throw RuntimeError)).
Proof. exact public_constructor_ok. Qed.
Print Assumptions C132_public.
Theorem C132_private : forall ora h sk, is_bytes sk -> zlen sk < 2 ^ 62 -> exists h' ns thrown,
  private_constructor ora h sk = Ok (h', ns, thrown) /\ only_adds h h' (map fst ns) /\
  (thrown = false -> exists k, tdp_from_private (fun _ => true) sk = Ok k /\ map snd ns = private_numbers k) /\
  (thrown = true -> ns = [] /\ (no_failure ora h h' -> tdp_from_private (fun _ => true) sk = Throw RuntimeError)).
Proof. exact private_constructor_ok. Qed.
Print Assumptions C132_private.
Definition start : heap := MkHeap [MkCell KBuffer true] 0.
Definition short (r : outcome (heap * numbers * bool)) : option (list bool * list Z * bool) :=
  match r with Ok (h, ns, t) => Some (map live (cells h), map snd ns, t) | _ => None end.
(** All allocations succeed; the fifth fails; the first of the copy fails *)
Example C132_example :
  short (private_constructor (fun _ => true) start (pem_private_key key130)) = Some (true :: repeat false 10 ++ repeat true 8, private_numbers key130, false) /\
  short (private_constructor (fun n => negb (n =? 4)%nat) start (pem_private_key key130)) = Some (true :: repeat false 4, [], true) /\
  short (private_constructor (fun n => negb (n =? 11)%nat) start (pem_private_key key130)) = Some (true :: repeat false 10, [], true) /\
  short (public_constructor (fun n => negb (n =? 3)%nat) start (pem_public_key (key_N key130) (key_E key130))) = Some (true :: repeat false 3, [], true).
Proof. vm_compute. repeat split. Qed.

(** C133: a parser that returns 0 has read a key.  What holds: if the functions of rsa_io.c return 0, the text is a key, and the context holds the numbers of that key or none at all. *)
Theorem C133_private_partial : forall ora h key, is_bytes key -> zlen key < 2 ^ 63 -> exists h' ns r,
  rsa_parse_key ora h key = Ok (h', ns, r) /\ only_adds h h' (map fst ns) /\
  (forall x, r = inl x -> ns = [] /\ (no_failure ora h h' -> pk_parse_key (fun _ => true) key (zlen key) = err x)) /\
  (forall u, r = inr u -> exists k, pk_parse_key (fun _ => true) key (zlen key) = ret k /\ (map snd ns = private_numbers k \/ ns = [] /\ ~ no_failure ora h h')).
Proof. exact rsa_parse_ok. Qed.
Print Assumptions C133_private_partial.
Theorem C133_public_partial : forall ora h key, is_bytes key -> zlen key < 2 ^ 63 -> exists h' ns r,
  rsa_parse_public_key ora h key = Ok (h', ns, r) /\ only_adds h h' (map fst ns) /\
  (forall x, r = inl x -> ns = [] /\ (no_failure ora h h' -> pk_parse_public_key (fun _ => true) key (zlen key) = err x)) /\
  (forall u, r = inr u -> exists k, pk_parse_public_key (fun _ => true) key (zlen key) = ret k /\ (map snd ns = public_numbers k \/ ns = [] /\ ~ no_failure ora h h')).
Proof. exact rsa_parse_public_ok. Qed.
Print Assumptions C133_public_partial.
(** mbedtls_rsa_parse_key returns 0 although the numbers could not be copied *)
Theorem C133_copy_refuted : exists ora key, (exists k, pk_parse_key (fun _ => true) key (zlen key) = ret k) /\
  match rsa_parse_key ora start key with Ok (_, ns, r) => ns = [] /\ r = inr tt | _ => False end.
Proof.
  exists (fun n => negb (n =? 11)%nat), (pem_private_key key130 ++ [0]). split; [exists key130|]; vm_compute; [reflexivity|]. split; reflexivity.
Qed.
Print Assumptions C133_copy_refuted.
(** mbedtls_pk_parse_key returns 0 for a text that is no key and does not set up the context, if its context cannot be allocated *)
Theorem C133_setup_refuted : exists ora key, (exists x, pk_parse_key (fun _ => true) key (zlen key) = err x) /\
  match parse_key ora start None key (zlen key) with Ok (_, c, r) => c = None /\ r = inr tt | _ => False end.
Proof.
  exists (fun n => negb (n =? 2)%nat), [1; 2; 3]. split; [eexists|]; vm_compute; [reflexivity|]. split; reflexivity.
Qed.
Print Assumptions C133_setup_refuted.
Example C133_example :
  match rsa_parse_key (fun _ => true) start (pem_private_key key130 ++ [0]) with Ok (_, ns, r) => map snd ns = private_numbers key130 /\ r = inr tt | _ => False end /\
  match rsa_parse_public_key (fun _ => true) start (pem_public_key (key_N key130) (key_E key130) ++ [0]) with Ok (_, ns, r) => map snd ns = public_numbers (key_pub key130) /\ r = inr tt | _ => False end.
Proof. vm_compute. repeat split. Qed.
