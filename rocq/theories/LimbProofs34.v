(** A failed blinding is kept by the object of limbs *)
From Coq Require Import Lia.
From Verif Require Import Base BaseFacts MpiModel LimbModel LimbSpec LimbProofs23 LimbProofs25 LimbProofs28 LimbProofs31 RsaKeyModel RsaKeySpec AsnProofs5 AsnProofs8 RsaKeyProofs TdpKeyModel TdpModel TdpSpec TdpProofs TdpProofs2 TdpProofs3 TdpProofs4
  LimbRsaModel LimbRsaSpec LimbKeyModel LimbRsaProperties.

Lemma be_zeros n : be_decode (zeros n) = 0.
Proof. induction n as [|n IH]; [reflexivity|]. change (zeros (S n)) with (0 :: zeros n). rewrite be_decode_cons, IH. reflexivity. Qed.
Lemma failed_blinding alloc s k f n f' n' g x : is_bytes s -> zlen s <= 7999 -> tdp_from_private alloc s = Ok k -> tdp_key k ->
  (forall i m, f (n + i)%nat m = inr (zeros m)) -> random_bytes f' n' -> zlen g = 256 -> 0 <= x < key_N k ->
  exists c P1 Q1, l_tdp_from_private alloc s = Ok (c, (P1, Q1)) /\
    snd (run (l_do P1 Q1) c [OpInvert f n (zeros 256) (message 2); OpInvert f' n' g (message x)]) = [Throw InvalidArgument; Ok (message 0)].
Proof.
  intros B L E TK Z R Lg X. pose proof (from_private_refines alloc s B L) as H. rewrite E in H. destruct H as (c & P1 & Q1 & E1 & _ & C & _ & PK). exists c, P1, Q1. split; [exact E1|].
  assert (SR : same_random f n rnd_zero). { intros i m _. exists (zeros m). split; [apply Z|]. split; [apply is_bytes_zeros|]. split; [apply repeat_length|]. symmetry. apply be_zeros. }
  destruct (invert_refines c k None f n rnd_zero (zeros 256) (message 2) C (private_sane k PK) SR (message_bytes 2)) as [Ea Ca].
  cbn [run l_do]. destruct (l_tdp_invert c f n (zeros 256) (message 2)) as [c1 r1]. cbn [fst snd] in Ea, Ca.
  destruct (invert_refines c1 k _ f' n' (rnd_of f' n') g (message x) Ca (private_sane k PK) (random_same f' n' R) (message_bytes x)) as [Eb _].
  destruct (l_tdp_invert c1 f' n' g (message x)) as [c2 r2]. cbn [fst snd] in *.
  destruct (zero_blinding k (rnd_of f' n') g x TK (random_ok f' n' R) Lg X) as [Za Zb]. cbn [tdp_run] in Zb. unfold tdp_do, zero_call in Za, Zb. cbn [call_string call_rnd call_buf call_input] in Za, Zb.
  f_equal; [congruence|]. f_equal. congruence.
Qed.
