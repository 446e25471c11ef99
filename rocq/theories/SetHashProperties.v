(** Properties C38, C39: SetHash. *)
From Verif Require Import Base HmacModel SetHashModel SetHashSpec SetHashProofs.

(** C38.  Two variables of two arbitrary programs (constructors, copies, additions and removals of elements and of whole
    set hashes, including to themselves) hold the same bytes as soon as the net multiplicity of every string is the same. *)
Theorem C38_sethash_multiset : forall E main, ed25519_laws E main -> forall H, (forall x, zlen (H x) = 64) ->
  forall g1 g2, zlen g1 = 32 -> zlen g2 = 64 ->
  forall p p' ms ms' i i' m m',
  m_run m_empty p = Some ms -> m_run m_empty p' = Some ms' -> ms i = Some m -> ms' i' = Some m' ->
  (forall x, m x = m' x) ->
  exists st st' b, sh_run E H g1 g2 sh_empty p = Ok st /\ sh_run E H g1 g2 sh_empty p' = Ok st' /\
    st i = Some b /\ st' i' = Some b /\ sh_eq b b = true /\ sh_ne b b = false.
Proof. exact multiset. Qed.
Print Assumptions C38_sethash_multiset.

(** C39.  The bytes constructor accepts exactly the encodings of elements of the prime order subgroup. *)
Theorem C39_sethash_from_bytes : forall E main, ed25519_laws E main -> forall b,
  (exists a, main a /\ b = penc E a) /\ sh_from_bytes E b = Ok b \/
  (~ exists a, main a /\ b = penc E a) /\ sh_from_bytes E b = Throw InvalidArgument.
Proof. exact ctor_bytes. Qed.
Print Assumptions C39_sethash_from_bytes.
(** Every value computed by a program is 32 bytes, is accepted by the bytes constructor (which yields the same object), and
    == on such values is equality of data(). *)
Theorem C39_sethash_data_roundtrip : forall E main, ed25519_laws E main -> forall H, (forall x, zlen (H x) = 64) ->
  forall g1 g2, zlen g1 = 32 -> zlen g2 = 64 ->
  forall p ms i b st, m_run m_empty p = Some ms -> sh_run E H g1 g2 sh_empty p = Ok st -> st i = Some b ->
  length b = 32%nat /\ sh_from_bytes E b = Ok b /\
  (forall p' ms' st' i' b', m_run m_empty p' = Some ms' -> sh_run E H g1 g2 sh_empty p' = Ok st' -> st' i' = Some b' ->
     (sh_eq b b' = true <-> b = b')).
Proof. exact run_valid. Qed.
Print Assumptions C39_sethash_data_roundtrip.

(** A toy curve: the group of order 3, encoded on 32 bytes. *)
Inductive z3 := A0 | A1 | A2.
Definition z3add a b := match a, b with A0, x => x | x, A0 => x | A1, A1 => A2 | A1, A2 => A0 | A2, A1 => A0 | A2, A2 => A1 end.
Definition z3opp a := match a with A0 => A0 | A1 => A2 | A2 => A1 end.
Definition z3enc a := match a with A0 => 1 :: zeros 31 | A1 => 2 :: zeros 31 | A2 => 3 :: zeros 31 end.
Definition z3dec b := if bytes_eqb b (z3enc A0) then Some A0 else if bytes_eqb b (z3enc A1) then Some A1 else if bytes_eqb b (z3enc A2) then Some A2 else None.
Definition toyE : ed25519 := {| point := z3; pzero := A0; padd := z3add; popp := z3opp; penc := z3enc; pdec := z3dec;
  is_valid := fun b => bytes_eqb b (z3enc A1) || bytes_eqb b (z3enc A2);
  from_uniform := fun h => if hd 0 h mod 3 =? 0 then z3enc A0 else if hd 0 h mod 3 =? 1 then z3enc A1 else z3enc A2 |}.
Example toyE_laws : ed25519_laws toyE (fun _ => True).
Proof.
  constructor; try (intros; exact I); try (intros; reflexivity); try (repeat intros []; reflexivity).
  - intros h. simpl. destruct (_ =? 0); [exists A0; auto|]. destruct (_ =? 1); [exists A1; auto|exists A2; auto].
  - intros b. simpl. rewrite orb_true_iff, !BaseFacts.bytes_eqb_spec. split.
    + intros [->| ->]; [exists A1|exists A2]; repeat split; discriminate.
    + intros ([| |] & _ & Hn & ->); auto. destruct Hn; reflexivity.
Qed.
Definition toyH (x : bytes) : bytes := fold_left (fun a b => (31 * a + b) mod 251) x 7 :: zeros 63.
Definition toy_prog := [OpNew 0; OpAdd 0 [1]; OpAdd 0 [3]; OpRemove 0 [1]; OpVector 1 [[3]; [4]]; OpRemove 1 [4]; OpNew 2; OpAddSet 2 2; OpData 3 1].
Example C38_nontrivial : (exists ms, m_run m_empty toy_prog = Some ms) /\
  match sh_run toyE toyH (zeros 32) (zeros 64) sh_empty toy_prog with
  | Ok st => st 0%nat = st 1%nat /\ st 0%nat = st 3%nat /\ st 0%nat <> st 2%nat | _ => False end.
Proof. split; [eexists; reflexivity|]. vm_compute. repeat split; discriminate. Qed.
Example C39_nontrivial : sh_from_bytes toyE (4 :: zeros 31) = Throw InvalidArgument /\ sh_from_bytes toyE (1 :: zeros 31) = Ok (1 :: zeros 31).
Proof. split; reflexivity. Qed.
