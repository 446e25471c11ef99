(** C91, continued: what a failing generator does to an object of limbs *)
From Verif Require Import Base BaseFacts MpiModel LimbModel LimbSpec PemModel RsaKeyModel RsaKeySpec TdpKeyModel TdpModel TdpSpec TdpProofs TdpProofs4 TdpExample TdpProofs2 LimbRsaModel LimbRsaSpec LimbKeyModel LimbRsaProperties LimbProofs34.

(** Whatever the key: if the random numbers of an inversion are zeros, it throws, but keeps numbers for blinding; the next one then answers zero for every message. *)
Theorem C91_failed_blinding_is_kept : forall alloc s k f n f' n' g x, is_bytes s -> zlen s <= 7999 -> tdp_from_private alloc s = Ok k -> tdp_key k ->
  (forall i m, f (n + i)%nat m = inr (zeros m)) -> random_bytes f' n' -> zlen g = 256 -> 0 <= x < key_N k ->
  exists c P1 Q1, l_tdp_from_private alloc s = Ok (c, (P1, Q1)) /\
    snd (run (l_do P1 Q1) c [OpInvert f n (zeros 256) (message 2); OpInvert f' n' g (message x)]) = [Throw InvalidArgument; Ok (message 0)].
Proof. exact failed_blinding. Qed.
Print Assumptions C91_failed_blinding_is_kept.
(** So C91_inverse_partial is false without the hypothesis on the generator. *)
Theorem C91_inverse_refuted : exists s k o f n g x y c P1 Q1, is_bytes s /\ zlen s <= 7999 /\ tdp_from_private (fun _ => true) s = Ok k /\ tdp_key k /\ op_ok o /\
  random_bytes f n /\ (exists i, (i < 11)%nat /\ Z.gcd (rnd_of f n i 255) (key_N k) = 1) /\ zlen g = 256 /\ 0 <= x < key_N k /\ l_tdp_from_private (fun _ => true) s = Ok (c, (P1, Q1)) /\
  snd (run (l_do P1 Q1) c [o; OpInvert f n g (message x)]) = [Throw InvalidArgument; Ok y] /\ tdp_eval (key_pub k) (zeros 256) y <> Ok (message x).
Proof.
  destruct C91_nontrivial as (B & L & E & TK & _ & _ & R & G). assert (0 <= 5 < key_N tkey) as X by (split; [discriminate | reflexivity]).
  set (zf := fun (_ : nat) (m : nat) => inr (zeros m) : Z + bytes).
  destruct (failed_blinding (fun _ => true) (pem_private_key tkey) tkey zf O ones 9%nat (zeros 256) 5 B L E TK (fun _ _ => eq_refl) R eq_refl X) as (c & P1 & Q1 & E1 & E2).
  exists (pem_private_key tkey), tkey, (OpInvert zf O (zeros 256) (message 2)), ones, 9%nat, (zeros 256), 5, (message 0), c, P1, Q1.
  split; [exact B|]. split; [exact L|]. split; [exact E|]. split; [exact TK|]. split.
  { split; [apply message_bytes|]. intros i m. exists (zeros m). split; [reflexivity|]. split; [apply is_bytes_zeros | apply repeat_length]. }
  split; [exact R|]. split; [exact G|]. split; [reflexivity|]. split; [exact X|]. split; [exact E1|]. split; [exact E2|]. vm_compute. discriminate.
Qed.
Print Assumptions C91_inverse_refuted.
