(** Proofs about random.hpp. *)
From Coq Require Import Lia ZifyBool.
From Verif Require Import Base BaseFacts HeapModel HeapSpec HeapProofs RandomModel RandomSpec.

Lemma lookup_store_same : forall c p l l', lookup c p = Some l -> lookup (store c p l') p = Some l'.
Proof. induction c as [|[x m] c IH]; intros p l l' H; [discriminate H|]. cbn [lookup store] in *. destruct (x =? p) eqn:E; cbn [lookup]; rewrite E; [reflexivity|]. eapply IH; exact H. Qed.
Lemma lookup_store_other : forall c p q l', q <> p -> lookup (store c p l') q = lookup c q.
Proof. induction c as [|[x m] c IH]; intros p q l' H; [reflexivity|]. cbn [lookup store]. destruct (Z.eqb_spec x p) as [->|E]; cbn [lookup]; [replace (p =? q) with false by lia; reflexivity|]. destruct (x =? q); [reflexivity|]. apply IH. exact H. Qed.
Section Src.
Variable src : nat -> Z.
Lemma bytes_fill s p off n l : lookup (cells (rheap s)) p = Some l -> (off + n <= length l)%nat ->
  exists s', random_bytes src s p off n = Ok s' /\ lookup (cells (rheap s')) p = Some (firstn off l ++ segment src (rpos s) n ++ skipn (off + n) l) /\
    (forall q, q <> p -> lookup (cells (rheap s')) q = lookup (cells (rheap s)) q) /\ rpos s' = (rpos s + n)%nat /\ rng_wrap src s p off n = Ok (s', 0).
Proof.
  intros H L. unfold rng_wrap, random_bytes. rewrite H. apply Nat.leb_le in L. rewrite L. eexists. split; [reflexivity|]. cbn [rheap with_cells cells rpos]. split; [eapply lookup_store_same; exact H|]. split; [intros q Hq; apply lookup_store_other; exact Hq|]. split; reflexivity.
Qed.
Lemma array_fill s p size N l : lookup (cells (rheap s)) p = Some l -> length l = (N * size)%nat ->
  exists s', random_array src s p size N = Ok s' /\ lookup (cells (rheap s')) p = Some (segment src (rpos s) (N * size)) /\ (forall q, q <> p -> lookup (cells (rheap s')) q = lookup (cells (rheap s)) q) /\ rpos s' = (rpos s + N * size)%nat.
Proof.
  intros H L. destruct (bytes_fill s p 0 (N * size) l H) as (s' & E & P & O & R & _); [lia|]. exists s'. split; [exact E|]. split; [|split; assumption]. rewrite P. cbn [firstn app Nat.add]. rewrite skipn_all2 by lia. rewrite app_nil_r. reflexivity.
Qed.
Lemma bytes_outside s p off n l : lookup (cells (rheap s)) p = Some l -> (length l < off + n)%nat -> random_bytes src s p off n = UB.
Proof. intros H L. unfold random_bytes. rewrite H. replace (off + n <=? length l)%nat with false by lia. reflexivity. Qed.
Lemma new_array s size N : exists s', random_new_array src s size N = Ok (s', segment src (rpos s) (N * size)) /\ cells (rheap s') = cells (rheap s) /\ rpos s' = (rpos s + N * size)%nat /\ next_addr (rheap s') = next_addr (rheap s) + 1 /\ calls (rheap s') = calls (rheap s).
Proof.
  unfold random_new_array, random_bytes. cbn [rheap cells lookup rpos store]. rewrite Z.eqb_refl. rewrite repeat_length, Nat.leb_refl. cbn [bind rheap with_cells cells lookup remove rpos]. rewrite Z.eqb_refl. cbn [firstn app Nat.add]. rewrite skipn_all2 by (rewrite repeat_length; lia). rewrite app_nil_r.
  eexists. split; [reflexivity|]. repeat split.
Qed.
Variable ora : nat -> bool.
Lemma rel_head h p b c : p <> 0 -> cells h = (p, b) :: c -> release h p = Ok (MkHeap c (next_addr h) (calls h) (b :: released h)).
Proof. intros Hp E. unfold release. replace (p =? 0) with false by lia. rewrite E. cbn [lookup remove]. rewrite Z.eqb_refl. reflexivity. Qed.
Lemma string_cases s n : 0 < next_addr (rheap s) ->
  let k := calls (rheap s) in let d := segment src (rpos s) n in
  exists s' r, random_string src ora s n = Ok (s', r) /\ 0 < next_addr (rheap s') /\
    ((ora k = false /\ r = None /\ cells (rheap s') = cells (rheap s) /\ rpos s' = rpos s /\ released (rheap s') = released (rheap s)) \/
     (ora k = true /\ (n <= 15)%nat \/ ora k = true /\ ora (S k) = true) /\ r = Some d /\ cells (rheap s') = cells (rheap s) /\ rpos s' = (rpos s + n)%nat /\ released (rheap s') = d :: released (rheap s) \/
     (ora k = true /\ (15 < n)%nat /\ ora (S k) = false) /\ r = None /\ cells (rheap s') = (next_addr (rheap s), d) :: cells (rheap s) /\ rpos s' = (rpos s + n)%nat).
Proof.
  intros Hn k d. unfold random_string, calloc. fold k. destruct (ora k) eqn:O1.
  2:{ change (0 =? 0) with true. cbn iota. eexists. exists None. split; [reflexivity|]. cbn [rheap next_addr cells rpos released]. split; [exact Hn|]. left. repeat split. }
  replace (next_addr (rheap s) =? 0) with false by lia. unfold random_bytes. cbn [rheap cells lookup rpos store]. rewrite Z.eqb_refl. rewrite repeat_length. cbn [Nat.add]. rewrite Nat.leb_refl. cbn [firstn app bind]. rewrite skipn_all2 by (rewrite repeat_length; lia). rewrite app_nil_r. fold (segment src (rpos s) n). fold d.
  assert (length d = n) as Ld by (unfold d, segment; rewrite map_length, seq_length; reflexivity).
  unfold string_storage, with_cells. cbn [rheap cells next_addr calls released rpos]. fold k. destruct (n <=? 15)%nat eqn:E15.
  - unfold load. cbn [cells lookup]. rewrite Z.eqb_refl, Ld, Nat.leb_refl. cbn [bind]. rewrite (rel_head _ _ d (cells (rheap s))) by (try reflexivity; lia). cbn [bind]. rewrite firstn_all2 by lia.
    eexists. exists (Some d). split; [reflexivity|]. cbn [rheap next_addr cells rpos released]. split; [lia|]. right. left. split; [left; split; [reflexivity|lia]|]. repeat split.
  - destruct (ora (S k)) eqn:O2.
    + unfold load. cbn [cells lookup]. rewrite Z.eqb_refl, Ld, Nat.leb_refl. cbn [bind]. rewrite (rel_head _ _ d (cells (rheap s))) by (try reflexivity; lia). cbn [bind]. rewrite firstn_all2 by lia.
      eexists. exists (Some d). split; [reflexivity|]. cbn [rheap next_addr cells rpos released]. split; [lia|]. right. left. split; [right; split; reflexivity|]. repeat split.
    + eexists. exists None. split; [reflexivity|]. cbn [rheap next_addr cells rpos released]. split; [lia|]. right. right. split; [split; [reflexivity|split; [lia|reflexivity]]|]. repeat split.
Qed.
Lemma string_ok s n : 0 < next_addr (rheap s) -> ora (calls (rheap s)) = true -> ora (S (calls (rheap s))) = true ->
  exists s', random_string src ora s n = Ok (s', Some (segment src (rpos s) n)) /\ cells (rheap s') = cells (rheap s) /\ rpos s' = (rpos s + n)%nat.
Proof.
  intros Hn O1 O2. destruct (string_cases s n Hn) as (s' & r & E & _ & [(O & _)|[(_ & Er & C & R & _)|((_ & _ & O) & _)]]); try congruence. exists s'. rewrite E, Er. repeat split; assumption.
Qed.
Lemma string_throws s n : 0 < next_addr (rheap s) -> ora (calls (rheap s)) = false ->
  exists s', random_string src ora s n = Ok (s', None) /\ cells (rheap s') = cells (rheap s) /\ rpos s' = rpos s.
Proof.
  intros Hn O1. destruct (string_cases s n Hn) as (s' & r & E & _ & [(O & Er & C & R & _)|[([[O _]|[O _]] & _)|((O & _) & _)]]); try congruence. exists s'. rewrite E, Er. repeat split; assumption.
Qed.
Lemma ask_all : (forall k, ora k = true) -> forall qs s, 0 < next_addr (rheap s) -> exists s', ask src ora s qs = Ok (s', map Some (deal src (rpos s) qs)) /\ cells (rheap s') = cells (rheap s).
Proof.
  intros O. induction qs as [|q qs IH]; intros s Hn; [exists s; split; reflexivity|]. cbn [ask]. destruct q as [size N|n]; cbn [ask1 deal size_of map].
  - destruct (new_array s size N) as (s1 & E1 & C1 & R1 & A1 & _). rewrite E1. cbn [bind]. destruct (IH s1 ltac:(lia)) as (s2 & E2 & C2). rewrite E2. cbn [bind]. rewrite R1. exists s2. split; [reflexivity|congruence].
  - destruct (string_cases s n Hn) as (s1 & r & E1 & A1 & [(O1 & _)|[(_ & -> & C1 & R1 & _)|((_ & _ & O1) & _)]]); try (rewrite O in O1; discriminate O1). rewrite E1. cbn [bind]. destruct (IH s1 A1) as (s2 & E2 & C2). rewrite E2. cbn [bind]. rewrite R1. exists s2. split; [reflexivity|congruence].
Qed.
End Src.
Lemma deal_concat src : forall qs k, concat (deal src k qs) = segment src k (list_sum (map size_of qs)).
Proof. induction qs as [|q qs IH]; intros k; [reflexivity|]. cbn [deal concat map]. rewrite IH. unfold segment. cbn [list_sum fold_right]. fold (list_sum (map size_of qs)). rewrite seq_app, map_app. reflexivity. Qed.
