(** The enciphering scheme of AEZ v4.1 (Hoang, Krovetz, Rogaway: AEZ v4.1: Authenticated Encryption by Enciphering, 2015), which is the one
    src/aez/aez.c names at its top: written from the definition of the scheme and without regard to the code.  Strings have a whole number of bytes. *)
From Verif Require Import Base PrpSpec.

(** Multiplication of an element of GF(2^128) by the polynomial whose coefficients are the bits of k *)
Fixpoint gf_times (k : positive) (v : Z) : Z :=
  match k with
  | xH => v
  | xO k => gf_double (gf_times k v)
  | xI k => Z.lxor (gf_double (gf_times k v)) v
  end.
(** The same on blocks, most significant byte first *)
Definition times (k : Z) (X : bytes) : bytes :=
  match k with Zpos p => be_encode 16 (gf_times p (be_decode X)) | _ => zeros 16 end.
Notation "a (+) b" := (xorb_list a b) (at level 50, left associativity).
(** X 10...0, to 16 bytes *)
Definition pad10 (X : bytes) : bytes := X ++ 128 :: zeros (15 - length X).
(** Block number i of a string, from 0 *)
Definition block (X : bytes) (i : nat) : bytes := firstn 16 (skipn (16 * i) X).
Definition xors (l : list bytes) : bytes := fold_right xorb_list (zeros 16) l.

Section Aez.
  (** The AES round without the addition of the round key *)
  Variable R : bytes -> bytes.
  (** The three parts of the key *)
  Variables I J L : bytes.
  (** The round keys of ks one after the other, after a first addition of the key k *)
  Definition aes_keys (k : bytes) (ks : list bytes) (X : bytes) : bytes := fold_left (fun x k => R x (+) k) ks (X (+) k).
  (** The multiplier for the pair number i of a long string, i >= 1 *)
  Definition mult (i : Z) : Z := 2 ^ (3 + (i - 1) / 8) + (i - 1) mod 8.
  (** The tweakable block cipher E_K^{j,i} *)
  Definition tbc (j i : Z) (X : bytes) : bytes :=
    if j =? -1 then aes_keys (times i J) [I; J; L; I; J; L; I; J; L; I] X
    else if j =? 0 then aes_keys (times i I) [J; I; L; zeros 16] X
    else if j =? 1 then aes_keys (times (mult i) I) [J; I; L; zeros 16] X
    else if j =? 2 then aes_keys (times (mult i) I) [L; I; J; L] X
    else
      let D := times (2 ^ (j - 3)) L (+) (if i =? 0 then zeros 16 else times (mult i) J) in
      aes_keys D [J; I; L; D] X.

  (** AEZ-hash: the string number j of the tweak, from 3 *)
  Definition hash_string (j : Z) (U : bytes) : bytes :=
    let m := (length U / 16)%nat in
    let full := xors (map (fun i => tbc j (Z.of_nat i + 1) (block U i)) (seq 0 m)) in
    if (length U =? 0)%nat || negb (length U mod 16 =? 0)%nat then full (+) tbc j 0 (pad10 (skipn (16 * m) U)) else full.
  Fixpoint hash_from (j : Z) (T : list bytes) : bytes :=
    match T with [] => zeros 16 | U :: T => hash_string j U (+) hash_from (j + 1) T end.
  Definition hash (T : list bytes) : bytes := hash_from 3 T.

  (** AEZ-core, for 32 bytes and more *)
  Definition core (Delta M : bytes) : bytes :=
    let f := (length M mod 32)%nat in
    let m := (length M / 32 - 1)%nat in
    let pairs := map Z.of_nat (seq 1 m) in
    let Ml i := block M (2 * Z.to_nat i - 2) in
    let Mr i := block M (2 * Z.to_nat i - 1) in
    let Muv := firstn f (skipn (32 * m) M) in
    let Mx := firstn 16 (skipn (32 * m + f) M) in
    let My := skipn (32 * m + f + 16) M in
    let W i := Ml i (+) tbc 1 i (Mr i) in
    let X i := Mr i (+) tbc 0 0 (W i) in
    let frag U :=
      if (f =? 0)%nat then zeros 16
      else if (f <? 16)%nat then tbc 0 4 (pad10 U)
      else tbc 0 4 (firstn 16 U) (+) tbc 0 5 (pad10 (skipn 16 U)) in
    let Xs := xors (map X pairs) (+) frag Muv in
    let Sx := Mx (+) Delta (+) Xs (+) tbc 0 1 My in
    let Sy := My (+) tbc (-1) 1 Sx in
    let S := Sx (+) Sy in
    let S' i := tbc 2 i S in
    let Y i := W i (+) S' i in
    let Z_ i := X i (+) S' i in
    let Cr i := Y i (+) tbc 0 0 (Z_ i) in
    let Cl i := Z_ i (+) tbc 1 i (Cr i) in
    let Cuv := Muv (+) firstn f (tbc (-1) 4 S ++ tbc (-1) 5 S) in
    let Ys := xors (map Y pairs) (+) frag Cuv in
    let Cy := Sx (+) tbc (-1) 2 Sy in
    let Cx := Sy (+) Delta (+) Ys (+) tbc 0 2 Cy in
    flat_map (fun i => Cl i ++ Cr i) pairs ++ Cuv ++ Cx ++ Cy.

  (** AEZ-tiny, for 1 to 31 bytes: a Feistel network on the two halves of the bits of M, as numbers *)
  Definition tbcz (i x : Z) : Z := be_decode (tbc 0 i (be_encode 16 x)).
  Definition tiny_round (i n D : Z) (LR : Z * Z) (k : Z) : Z * Z :=
    let '(l, r) := LR in
    (r, Z.lxor l (tbcz i (Z.lxor (Z.lxor D (r * 2 ^ (128 - n) + 2 ^ (127 - n))) k) / 2 ^ (128 - n))).
  Definition tiny (Delta M : bytes) : bytes :=
    let len := length M in
    let n := 4 * Z.of_nat len in
    let rounds := (if len =? 1 then 24 else if len =? 2 then 16 else if len <? 16 then 10 else 8)%nat in
    let i := if (len <? 16)%nat then 7 else 6 in
    let D := be_decode Delta in
    let '(l, r) := fold_left (tiny_round i n D) (map Z.of_nat (seq 0 rounds)) (be_decode M / 2 ^ n, be_decode M mod 2 ^ n) in
    let C := r * 2 ^ n + l in
    be_encode len
      (if (len <? 16)%nat then
         let flip := tbcz 3 (Z.lxor D (Z.lor (C * 2 ^ (128 - 2 * n)) (2 ^ 127))) / 2 ^ 127 in
         Z.lxor C (flip * 2 ^ (2 * n - 1))
       else C).

  Definition encipher (T : list bytes) (M : bytes) : bytes :=
    if (length M =? 0)%nat then [] else if (length M <? 32)%nat then tiny (hash T) M else core (hash T) M.
End Aez.
(** One of the three parts of the key *)
Definition part (x : bytes) : Prop := is_bytes x /\ zlen x = 16.
