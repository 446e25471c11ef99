(** Programs on pools *)
From Coq Require Import Lia ZifyBool Permutation.
From Verif Require Import Base BaseFacts MpiModel LimbModel HeapModel HeapSpec HeapProofs3 TdpHeapModel TdpHeapSpec TdpHeapProofs TdpHeapProofs2 PoolHeapModel PoolHeapSpec PoolHeapProofs.

Section Prog.
Variable ora : nat -> bool.
Variable M k : nat.
Lemma prun_ok : forall cs s, pinv M k s -> plate s = false -> Forall (pstatement_ok k M) cs -> exists s', prun ora M k s cs = Ok s' /\ (plate s' = false -> pinv M k s').
Proof.
  induction cs as [|c cs IH]; intros s T P F; [exists s; split; [reflexivity|intros _; exact T]|]. inversion F as [|? ? F1 F2]; subst. cbn [prun]. destruct (pstep_ok ora M k s c T P F1) as [s1 [E1 T1]]. rewrite E1. cbn [bind]. destruct (plate s1) eqn:P1; [exists s1; split; [reflexivity|intros Q; congruence]|]. apply IH; [apply T1; reflexivity|exact P1|exact F2].
Qed.
Lemma pinv_start : pinv M k (pstart k M).
Proof.
  exists (repeat l_init (size (k * S M))). cbn [pstart psheap psobjs ppools]. split; [apply (st_start ora)|]. split; [apply repeat_length|]. split; [apply repeat_length|].
  assert (forall i, clear (repeat l_init (size (k * S M))) i 0 15) as C. { intros i j _. unfold val. destruct (nth_in_or_default (at_ i j) (repeat l_init (size (k * S M))) l_init) as [H|H]; [apply repeat_spec in H; exact H|exact H]. }
  split; [apply C|]. intros i Hi. unfold pool_of. cbn [pstart ppools]. destruct (nth_in_or_default i (repeat (@None pool) k) None) as [H|H]; [apply repeat_spec in H|]; rewrite H; intros j _; apply C.
Qed.
Lemma destroy_pool s p s' : length (ppools s) = k -> (p < k)%nat -> plate s = false -> pstep ora M k s (PDestroy p) = Ok s' -> pool_of s' p = None /\ (forall t, pool_of s t = None -> pool_of s' t = None) /\ plate s' = false.
Proof.
  intros LL Hp PL E. cbn [pstep] in E. cbv zeta in E. destruct (pool_of s p) as [x|] eqn:KI.
  - destruct (negb (pcount x =? pinit x)%nat); [discriminate E|]. destruct (free_keys ora (psheap s) (psobjs s) (keys M p (pcount x))) as [[h1 o1]| | | |]; cbn [bind] in E; try discriminate E. destruct (delete_array ora M h1 o1 p) as [[h2 o2]| | | |]; cbn [bind] in E; try discriminate E. destruct (destroy_base ora h2 o2 (group M p 0)) as [[h3 o3]| | | |]; cbn [bind] in E; try discriminate E. injection E as <-.
    unfold pool_of. cbn [ppools plate]. split; [rewrite (set_pool_nth ora) by lia; rewrite Nat.eqb_refl; reflexivity|]. split; [|reflexivity]. intros t Ht. rewrite (set_pool_nth ora) by lia. destruct (t =? p)%nat; [reflexivity|exact Ht].
  - injection E as <-. split; [exact KI|]. split; [intros t Ht; exact Ht|exact PL].
Qed.
Lemma destroy_pools_ok : forall m j s, pinv M k s -> plate s = false -> (j + m = k)%nat -> (forall t, (t < j)%nat -> pool_of s t = None) -> exists s', prun ora M k s (map PDestroy (seq j m)) = Ok s' /\ pinv M k s' /\ forall t, (t < k)%nat -> pool_of s' t = None.
Proof.
  induction m as [|m IH]; intros j s T P L D; [exists s; split; [reflexivity|]; split; [exact T|]; intros t Ht; apply D; lia|]. cbn [seq map prun].
  destruct (pstep_ok ora M k s (PDestroy j) T P ltac:(cbn; lia)) as [s1 [E1 T1]]. rewrite E1. cbn [bind]. pose proof T as [V [_ [_ [LL _]]]]. destruct (destroy_pool s j s1 LL ltac:(lia) P E1) as [K1 [K2 K3]]. rewrite K3.
  apply (IH (S j) s1 (T1 K3) K3 ltac:(lia)). intros t Ht. destruct (Nat.eq_dec t j) as [->|N]; [exact K1|]. apply K2, D. lia.
Qed.
Theorem pools_memory cs : Forall (pstatement_ok k M) cs -> exists s, prun ora M k (pstart k M) cs = Ok s /\ (plate s = false -> owned (psheap s) (psobjs s) /\ wiped (psheap s)).
Proof.
  intros F. destruct (prun_ok cs (pstart k M) pinv_start eq_refl F) as [s [E T]]. exists s. split; [exact E|]. intros P. destruct (T P) as [V [S' _]]. destruct (st_end _ _ _ S') as [A [B _]]. split; assumption.
Qed.
Theorem pools_end cs s : Forall (pstatement_ok k M) cs -> prun ora M k (pstart k M) cs = Ok s -> plate s = false -> exists s', prun ora M k s (destroy_pools k) = Ok s' /\ cells (psheap s') = [] /\ wiped (psheap s').
Proof.
  intros F E P. destruct (prun_ok cs (pstart k M) pinv_start eq_refl F) as [s0 [E0 T]]. rewrite E in E0. injection E0 as <-. specialize (T P). destruct (destroy_pools_ok k 0 s T P ltac:(lia) ltac:(lia)) as [s1 [E1 [T1 D1]]]. exists s1. split; [exact E1|].
  destruct T1 as [V [S' [L' [LL [CK A]]]]]. destruct (st_end _ _ _ S') as [_ [W C]]. split; [|exact W]. apply C. apply Forall_forall. intros x Hx. destruct (In_nth V x l_init Hx) as [t [Ht Et]]. subst x. symmetry. rewrite L' in Ht. unfold size in Ht.
  pose proof (Nat.div_mod t 16 ltac:(lia)) as DM. pose proof (Nat.mod_upper_bound t 16 ltac:(lia)) as MB. assert (t = at_ (t / 16) (t mod 16)) as -> by (unfold at_; exact DM). change (nth ?a V l_init) with (val V a).
  set (q := (t / 16)%nat) in *. set (r := (t mod 16)%nat) in *. destruct (Nat.eq_dec q (k * S M)) as [->|NQ]; [apply CK; lia|]. assert (q < k * S M)%nat as HQ by lia.
  pose proof (Nat.div_mod q (S M) ltac:(lia)) as DQ. pose proof (Nat.mod_upper_bound q (S M) ltac:(lia)) as MQ. assert (q = group M (q / S M) (q mod S M)) as EQ by (unfold group; rewrite Nat.mul_comm; exact DQ). set (p := (q / S M)%nat) in *. set (j := (q mod S M)%nat) in *.
  assert (p < k)%nat as Hp by (apply Nat.div_lt_upper_bound; [lia|]; rewrite Nat.mul_comm; exact HQ). specialize (A p Hp). rewrite (D1 p Hp) in A. cbn [pool_ok] in A. rewrite EQ. apply (A j); lia.
Qed.
End Prog.
