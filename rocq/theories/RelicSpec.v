(** Vocabulary of the properties of the wrappers around RELIC and of the initialisation of the library. *)
From Coq Require Import Znumtheory.
From Verif Require Import Base RelicModel.

(** A scalar in reduced form. *)
Definition member (n z : Z) : Prop := 0 <= z < n.
(** [z] is the reduced form of the integer [v]. *)
Definition represents (n z v : Z) : Prop := member n z /\ (n | z - v).

(** What is assumed of RELIC's arithmetic: an odd prime order, a Bezout cofactor no larger than the order, and powers. *)
Record arith_ok (n : Z) (gext : Z -> Z -> Z) (mxp : Z -> Z -> Z -> Z) : Prop := {
  ao_prime : prime n;
  ao_odd : n <> 2;
  ao_gext : forall a, 0 < a < n -> - n < gext a n < n /\ (n | a * gext a n - 1);
  ao_mxp : forall x r, member n x -> 0 <= r -> mxp x r n = x ^ r mod n
}.

(** The value of a number of RELIC, and the normal form every number of RELIC has: digits, the last one not zero. *)
Definition is_digit (d : Z) : Prop := 0 <= d < 2 ^ dig_bits.
Fixpoint digits_value (l : list Z) : Z := match l with [] => 0 | d :: l' => d + 2 ^ dig_bits * digits_value l' end.
Definition bn_value (a : bn) : Z := if bn_neg a then - digits_value (bn_dp a) else digits_value (bn_dp a).
Definition bn_normal (a : bn) : Prop := Forall is_digit (bn_dp a) /\ last (bn_dp a) 1 <> 0.

(** The bytes of an element in hexadecimal, as the loop is meant to print them. *)
Definition hex_byte (v : Z) : bytes :=
  (if v <? 16 then [] else [hex_digit false (v / 16)]) ++ [hex_digit false (v mod 16)].
Definition hex_text (data : bytes) : bytes := [48; 120] ++ flat_map hex_byte data ++ [10].
(** The byte at an index. *)
Definition look (data : bytes) (i : Z) : Z := nth (Z.to_nat i) data 0.
(** A stream as std::cout starts. *)
Definition new_stream : stream :=
  {| st_flags := {| fl_hex := false; fl_showbase := false; fl_upper := false |}; st_text := [] |}.

(** RELIC starts when asked to. *)
Definition relic_starts (e : env) : Prop := e_core_init e = 0 /\ e_param e = 0.
(** Nothing goes wrong in init_crypto_lib. *)
Definition good_env (e : env) : Prop := relic_starts e /\ e_new e = true /\ e_malloc e = true /\ 0 <= e_sodium e.

(** Handles of RELIC as an application creates and destroys them: [New] creates one with allowAlreadyInitialized, [Del k]
    destroys the [k]-th most recent of those alive. *)
Inductive hop := New (e : env) | Del (k : nat).
(** The handles alive, the most recent first, and RELIC's context. *)
Definition hstate : Type := list bool * option bool.
Fixpoint remove_nth {A} (k : nat) (l : list A) : list A :=
  match k, l with
  | O, _ :: l' => l'
  | S k', x :: l' => x :: remove_nth k' l'
  | _, [] => []
  end.
Definition hstep (s : hstate) (o : hop) : hstate :=
  match o with
  | New e => match handle_new true e (snd s) with (Ok h, c) => (h :: fst s, c) | (_, c) => (fst s, c) end
  | Del k => match nth_error (fst s) k with Some h => (remove_nth k (fst s), handle_delete h (snd s)) | None => s end
  end.
Definition hrun (l : list hop) : hstate := fold_left hstep l ([], None).
(** The order of destruction scopes give: always the most recent handle. *)
Definition scoped (o : hop) : Prop := match o with New e => relic_starts e | Del k => k = 0%nat end.

(** Calls of the two functions of the library. *)
Inductive lop := Init (e : env) | Cleanup.
Definition fresh : lib :=
  {| l_core := None; l_handle := None; l_lost := []; l_locks := false; l_lost_locks := 0; l_callbacks := false;
     l_misuse := false; l_prp := None |}.
Definition lstep (ossl : bool) (s : lib) (o : lop) : lib :=
  match o with Init e => snd (init_crypto_lib ossl e s) | Cleanup => cleanup_crypto_lib ossl s end.
Definition lrun (ossl : bool) (l : list lop) : lib := fold_left (lstep ossl) l fresh.
(** Nothing of what the library acquires is held. *)
Definition released (s : lib) : Prop :=
  l_core s = None /\ l_handle s = None /\ l_lost s = [] /\ l_locks s = false /\ l_lost_locks s = 0 /\ l_callbacks s = false.
(** Pairs of init and cleanup. *)
Fixpoint pairs (es : list env) : list lop := match es with [] => [] | e :: es' => Init e :: Cleanup :: pairs es' end.
(** The conditions under which RELIC, respectively malloc, never fails in the calls. *)
Definition starts (o : lop) : Prop := match o with Init e => relic_starts e | Cleanup => True end.
Definition mallocs (o : lop) : Prop := match o with Init e => e_malloc e = true | Cleanup => True end.
(** malloc may fail, but only when there are no locks ([b]: whether there may be locks at the beginning). *)
Fixpoint mallocs_again (b : bool) (l : list lop) : Prop :=
  match l with
  | [] => True
  | Init e :: l => (b = true -> e_malloc e = true) /\ mallocs_again (e_malloc e) l
  | Cleanup :: l => mallocs_again false l
  end.

(** Polynomials with integer coefficients, lowest degree first. *)
Fixpoint poly (q : list Z) (x : Z) : Z := match q with [] => 0 | c :: q' => c + x * poly q' x end.
