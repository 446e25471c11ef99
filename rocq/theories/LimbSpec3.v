(** Specifications for the primality test and the generation of primes *)
From Coq Require Import Znumtheory.
From Verif Require Import Base MpiModel LimbModel LimbModel2 LimbSpec.

(** x behaves like a prime for the base a: x - 1 = d 2^s with d odd, and the sequence a^d, a^2d, ..., a^(2^(s-1) d) modulo x starts with 1
    or meets -1 *)
Definition strong_probable_prime (x a : Z) : Prop :=
  exists d s, 0 < s /\ Z.odd d = true /\ x - 1 = d * 2 ^ s /\
    (a ^ d mod x = 1 \/ exists r, 0 <= r < s /\ a ^ (d * 2 ^ r) mod x = x - 1).
(** A random number cut to the number of bits of w, by dropping its last bits *)
Definition cut (w a : Z) : Z := a / 2 ^ Z.max 0 (Z.log2 a - Z.log2 w).
(** The generator answers an error, or as many bytes as asked for *)
Definition rng_ok (f : rng) : Prop := forall c n, match f c n with inr b => is_bytes b /\ length b = n | inl _ => True end.
(** Its answer number c, asked for sz bytes, gives the base a for x *)
Definition base_drawn (f : rng) (sz : nat) (x : Z) (c : nat) (a : Z) : Prop := exists b, f c sz = inr b /\ a = cut (x - 1) (be_decode b).
(** An answer of the calls c, ..., c' - 1 is an error *)
Definition rng_fails (f : rng) (sz c c' : nat) (e : Z) : Prop := exists i, (c <= i < c')%nat /\ f i sz = inl e.
(** 31 answers in a row among those of the calls c, ..., c' - 1 give no number strictly between 1 and x - 1 *)
Definition rng_stuck (f : rng) (sz c c' : nat) (x : Z) : Prop :=
  exists i, (c <= i)%nat /\ (i + 31 <= c')%nat /\ forall j, (j < 31)%nat -> exists a, base_drawn f sz x (i + j) a /\ ~ 1 < a < x - 1.
(** The generator never fails and never gets stuck *)
Definition rng_useful (f : rng) (sz : nat) (x : Z) : Prop :=
  (forall c e, f c sz <> inl e) /\ forall c, exists j a, (j < 31)%nat /\ base_drawn f sz x (c + j) a /\ 1 < a < x - 1.
(** x passed the test for n bases, given by different answers of the generator *)
Definition passed (f : rng) (sz c c' n : nat) (x : Z) : Prop :=
  exists is, length is = n /\ NoDup is /\
    Forall (fun i => (c <= i < c')%nat /\ exists a, base_drawn f sz x i a /\ 1 < a < x - 1 /\ strong_probable_prime x a) is.
(** The number of bases for a number of k bits: the table of the Handbook of Applied Cryptography, 4.4, for an error below 2^-80 *)
Definition bases_for (k : Z) : nat :=
  if k <? 150 then 27 else if k <? 250 then 18 else if k <? 350 then 12 else if k <? 650 then 8 else if k <? 850 then 4 else if k <? 1300 then 3 else 2.
(** The generator is useful for every number that is tested with it *)
Definition rng_good (f : rng) : Prop := forall sz x, (0 < sz)%nat -> 997 < x -> rng_useful f sz x.
(** Where the search for a prime of k bits starts, for the random number v: v or, when it is too long, its first k - 1 bits; then the first
    and the last bit are set *)
Definition search_start (k v : Z) : Z :=
  Z.lor (Z.lor (if Z.log2 v <? k then v else v / 2 ^ (Z.log2 v + 2 - k)) (2 ^ (k - 1))) 1.
