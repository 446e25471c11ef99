(** Property C137: source and destination in the same memory, on ARM. *)
From Verif Require Import Base BaseFacts KeyVal AezModel PrpModel PrpSpec AesRound AezSpec AezArchModel AezArchSpec AezMemModel AezMemSpec AezArmMemModel AezProofs22.

(** Any two regions, also overlapping ones and ones outside the memory: the ARM path does what the AES-NI path does. *)
Theorem C137_same : forall R I J L, block_map R -> register_map R -> part I -> part J -> part L -> exists c, aez_setup (I ++ J ++ L) = Ok c /\
  forall N nb m sp dp n, is_bytes N -> is_bytes m -> 0 <= n ->
    arm_m_encrypt R c N nb sp n dp m = m_aez_encrypt R c N nb sp n dp m /\ arm_m_decrypt R c N nb sp n dp m = m_aez_decrypt R c N nb sp n dp m.
Proof. exact arm_mem_same. Qed.
Print Assumptions C137_same.
(** Without support of the processor, or after the context was moved away, nothing is read or written *)
Theorem C137_refused : forall R ml sp n dp m,
  (forall k, arm_m_prp_encrypt R false k sp n dp m = (k, Throw RuntimeError) /\ arm_m_prp_decrypt R ml false k sp n dp m = (k, Throw RuntimeError)) /\
  arm_m_prp_encrypt R true VEmpty sp n dp m = (VEmpty, Throw RuntimeError) /\ arm_m_prp_decrypt R ml true VEmpty sp n dp m = (VEmpty, Throw RuntimeError).
Proof. intros. repeat split. Qed.
Print Assumptions C137_refused.
(** Prp on ARM: for the same region or regions without common byte, the destination gets the cipher text of what was in the source before the call, and no
    other byte changes.  The context before the construction may contain any bytes. *)
Theorem C137_prp : forall R ml I J L l old, block_map R -> register_map R -> part I -> part J -> part L -> is_bytes (ctx_bytes old) -> zlen (ctx_bytes old) = 112 -> exists b,
  arm_prp_make ml true old (VKey (I ++ J ++ L) l) = (VEmpty, Ok (VKey b ml)) /\
  forall l' m sp dp n, is_bytes m -> 0 <= n <= UINT_MAX -> regions m sp dp n ->
    arm_m_prp_encrypt R true (VKey b l') sp n dp m = (VKey b false, Ok (overlay m dp (encipher R I J L [zeros 16; zeros 16; []] (bytes_at m sp n)))) /\
    (forall y, is_bytes y -> zlen y = n -> bytes_at m sp n = encipher R I J L [zeros 16; zeros 16; []] y ->
      arm_m_prp_decrypt R ml true (VKey b l') sp n dp m = (VKey b ml, Ok (overlay m dp y))).
Proof. exact arm_mem_prp. Qed.
Print Assumptions C137_prp.
(** What one path encrypts in place, both paths decrypt in place. *)
Theorem C137_round_trip : forall R ml I J L l old, block_map R -> register_map R -> part I -> part J -> part L -> is_bytes (ctx_bytes old) -> zlen (ctx_bytes old) = 112 -> exists b,
  arm_prp_make ml true old (VKey (I ++ J ++ L) l) = (VEmpty, Ok (VKey b ml)) /\
  forall l' m p n, is_bytes m -> 0 <= n <= UINT_MAX -> 0 <= p -> p + n <= zlen m -> exists m',
    arm_m_prp_encrypt R true (VKey b l') p n p m = (VKey b false, Ok m') /\ arm_m_prp_decrypt R ml true (VKey b false) p n p m' = (VKey b ml, Ok m) /\
    m_prp_encrypt R true (VKey b l') p n p m = (VKey b false, Ok m') /\ m_prp_decrypt R ml true (VKey b false) p n p m' = (VKey b ml, Ok m).
Proof. exact arm_mem_round_trip. Qed.
Print Assumptions C137_round_trip.

(** In place and to a place before: short with an odd length, long with a fragment; the parts of the key have all top bits. *)
Definition mI := map (fun i => 255 - 3 * Z.of_nat i) (seq 0 16). Definition mJ := map (fun i => 129 + 5 * Z.of_nat i) (seq 0 16). Definition mL := map (fun i => 17 * Z.of_nat i) (seq 0 16).
Example C137_example : let m := map Z.of_nat (seq 3 120) in
  match arm_prp_make true true (ctx_of (repeat 77 112)) (VKey (mI ++ mJ ++ mL) true) with
  | (VEmpty, Ok k) => forallb (fun q : Z * Z * Z => let '(sp, n, dp) := q in
      match arm_m_prp_encrypt aes_round true k sp n dp m with
      | (k', Ok x) => bytes_eqb x (overlay m dp (encipher aes_round mI mJ mL [zeros 16; zeros 16; []] (bytes_at m sp n))) && negb (bytes_eqb x m) &&
          match arm_m_prp_decrypt aes_round true true k' dp n sp x with (_, Ok y) => bytes_eqb (bytes_at y sp n) (bytes_at m sp n) | _ => false end
      | _ => false end) [(10, 21, 10); (60, 44, 0)]
  | _ => false end = true.
Proof. vm_compute. reflexivity. Qed.
