(** Property C120: source and destination in the same memory. *)
From Verif Require Import Base BaseFacts KeyVal AezModel PrpModel PrpSpec AesRound AezSpec AezMemModel AezMemSpec AezProofs21.
From Coq Require Import Lia.

(** Prp::encrypt and decrypt with pointers: for the same region or regions without common byte, the destination gets the cipher text (C97) of what
    was in the source before the call, and no other byte changes. *)
Theorem C120_prp_partial : forall R ml I J L l, block_map R -> part I -> part J -> part L -> exists b,
  prp_make ml true (VKey (I ++ J ++ L) l) = (VEmpty, Ok (VKey b ml)) /\
  forall l' m sp dp n, is_bytes m -> 0 <= n <= UINT_MAX -> regions m sp dp n ->
    m_prp_encrypt R true (VKey b l') sp n dp m = (VKey b false, Ok (overlay m dp (encipher R I J L [zeros 16; zeros 16; []] (bytes_at m sp n)))) /\
    (forall y, is_bytes y -> zlen y = n -> bytes_at m sp n = encipher R I J L [zeros 16; zeros 16; []] y ->
      m_prp_decrypt R ml true (VKey b l') sp n dp m = (VKey b ml, Ok (overlay m dp y))).
Proof. exact mem_prp. Qed.
Print Assumptions C120_prp_partial.
(** The functions of aez.c, any nonce *)
Theorem C120_aez_partial : forall R I J L N, block_map R -> part I -> part J -> part L -> is_bytes N -> zlen N <= 16 -> exists c, aez_setup (I ++ J ++ L) = Ok c /\
  forall m sp dp n, is_bytes m -> 0 <= n <= UINT_MAX -> regions m sp dp n ->
    m_aez_encrypt R c N (zlen N) sp n dp m = Ok (overlay m dp (encipher R I J L [zeros 16; N; []] (bytes_at m sp n))) /\
    (forall y, is_bytes y -> zlen y = n -> bytes_at m sp n = encipher R I J L [zeros 16; N; []] y -> m_aez_decrypt R c N (zlen N) sp n dp m = Ok (0, overlay m dp y)).
Proof. exact mem_aez. Qed.
Print Assumptions C120_aez_partial.
(** Encrypting in place and then decrypting in place restores the memory. *)
Theorem C120_round_trip : forall R ml I J L l, block_map R -> part I -> part J -> part L -> exists b,
  prp_make ml true (VKey (I ++ J ++ L) l) = (VEmpty, Ok (VKey b ml)) /\
  forall l' m p n, is_bytes m -> 0 <= n <= UINT_MAX -> 0 <= p -> p + n <= zlen m -> exists m',
    m_prp_encrypt R true (VKey b l') p n p m = (VKey b false, Ok m') /\ m_prp_decrypt R ml true (VKey b false) p n p m' = (VKey b ml, Ok m).
Proof. exact mem_round_trip. Qed.
Print Assumptions C120_round_trip.
(** Without support of the processor, or after the context was moved away, nothing is read or written *)
Theorem C120_refused : forall R ml sp n dp m,
  (forall k, m_prp_encrypt R false k sp n dp m = (k, Throw RuntimeError) /\ m_prp_decrypt R ml false k sp n dp m = (k, Throw RuntimeError)) /\
  m_prp_encrypt R true VEmpty sp n dp m = (VEmpty, Throw RuntimeError) /\ m_prp_decrypt R ml true VEmpty sp n dp m = (VEmpty, Throw RuntimeError).
Proof. intros. repeat split. Qed.
Print Assumptions C120_refused.

Definition qI := 200 :: zeros 14 ++ [1]. Definition qJ := 17 :: zeros 14 ++ [99]. Definition qL := 250 :: zeros 14 ++ [3].
(** The memory as the call must leave it *)
Definition expected (m : bytes) (sp n dp : Z) : bytes := overlay m dp (encipher aes_round qI qJ qL [zeros 16; zeros 16; []] (bytes_at m sp n)).
Definition call (m : bytes) (sp n dp : Z) : bool :=
  match aez_setup (qI ++ qJ ++ qL) with
  | Ok c => match m_aez_encrypt aes_round c (zeros 16) 16 sp n dp m with Ok m' => bytes_eqb m' (expected m sp n dp) | _ => false end
  | _ => false end.
(** For overlapping regions the result is wrong: 64 bytes moved by one block. *)
Theorem C120_overlap_refuted : exists m sp n dp c, is_bytes m /\ 0 <= sp /\ sp + n <= zlen m /\ 0 <= dp /\ dp + n <= zlen m /\
  aez_setup (qI ++ qJ ++ qL) = Ok c /\ forall m', m_aez_encrypt aes_round c (zeros 16) 16 sp n dp m = Ok m' -> bytes_at m' dp n <> encipher aes_round qI qJ qL [zeros 16; zeros 16; []] (bytes_at m sp n).
Proof.
  exists (map Z.of_nat (seq 5 80)), 0, 64, 16, (match aez_setup (qI ++ qJ ++ qL) with Ok c => c | _ => ctx_of [] end).
  split; [apply Forall_forall; intros x Hx; apply in_map_iff in Hx as (i & <- & Hi); apply in_seq in Hi; unfold is_byte; lia|].
  split; [apply Z.le_refl|]. split; [vm_compute; discriminate|]. split; [discriminate|]. split; [vm_compute; discriminate|]. split; [vm_compute; reflexivity|].
  intros m' E. remember (map Z.of_nat (seq 5 80)) as m eqn:Em.
  assert (match m_aez_encrypt aes_round (match aez_setup (qI ++ qJ ++ qL) with Ok c => c | _ => ctx_of [] end) (zeros 16) 16 0 64 16 m with
    | Ok m' => bytes_eqb (bytes_at m' 16 64) (encipher aes_round qI qJ qL [zeros 16; zeros 16; []] (bytes_at m 0 64)) | _ => true end = false) as H by (subst m; vm_compute; reflexivity).
  rewrite E in H. intros F. rewrite F in H. revert H. generalize (encipher aes_round qI qJ qL [zeros 16; zeros 16; []] (bytes_at m 0 64)). clear. intros x H.
  rewrite bytes_eqb_refl in H. discriminate H.
Qed.
Print Assumptions C120_overlap_refuted.
(** In place, and to a place before and after: short, odd, long with a fragment *)
Example C120_example : let m := map Z.of_nat (seq 3 120) in
  forallb (fun n => call m 10 n 10 && call m 0 n 60 && call m 60 n 0 && negb (bytes_eqb (expected m 10 n 10) m)) [21; 44] = true /\ call m 0 64 16 = false.
Proof. vm_compute. split; reflexivity. Qed.
