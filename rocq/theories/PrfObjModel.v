(** Model of programs with several Prf<NBYTES> objects: src/include/sse/crypto/prf.hpp, hmac.hpp and key.hpp, with the functions of
    [HmacModel].  Simplifications: the objects exist from the beginning, without a key; a destroyed object is one without a key. *)
From Verif Require Import Base KeyVal HmacModel.

Inductive pop :=
| PNew (d : nat) (b : bytes)           (* d = Prf(Key(b)) *)
| PMove (d s : nat)                    (* d = std::move(s) *)
| PEval (s : nat) (msg : bytes)        (* s.prf(msg) *)
| PDerive (d s : nat) (msg : bytes)    (* d = Prf(s.derive_key(msg)), for NBYTES = 32 *)
| PSave (s : nat)                      (* s.serialize, as the wrapper calls it *)
| PDestroy (s : nat).
Definition put {A} (f : nat -> A) (i : nat) (a : A) : nat -> A := fun j => if Nat.eqb j i then a else f j.

Section PrfObj.
  Variable H : bytes -> bytes.
  Variable ml : bool.
  Variable g : Z -> bytes.
  Variable NB : Z.
  (** The move assignments prf.hpp:111 and hmac.hpp:116 (default) call the one of Key, key.hpp:208-222, which tests for the same object *)
  Definition p_move (f : nat -> vkey) (d s : nat) : nat -> vkey :=
    if Nat.eqb d s then f else put (put f d (f s)) s VEmpty.
  (** Prf(Key&&), prf.hpp:100-103, and the assignment of the temporary object *)
  Definition p_store (f : nat -> vkey) (d : nat) (k : vkey) : (nat -> vkey) * outcome bytes :=
    match prf_ctor k with
    | (_, Ok k) => (put f d k, Ok [])
    | (_, Throw e) => (f, Throw e)
    | _ => (f, UB)
    end.
  Definition p_step (f : nat -> vkey) (op : pop) : (nat -> vkey) * outcome bytes :=
    match op with
    | PNew d b => p_store f d (v_make ml b)
    | PMove d s => (p_move f d s, Ok [])
    | PEval s msg => let (k, o) := prf H ml g NB (f s) (Some msg) (zlen msg) (g NB) (g (zlen msg + 1)) in (put f s k, o)
    | PDerive d s msg =>
      match prf_derive_key H ml g NB (f s) (Some msg) (zlen msg) (g NB) (g (zlen msg + 1)) with
      | (k, Ok k') => p_store (put f s k) d k'
      | (k, Throw e) => (put f s k, Throw e)
      | (k, UB) => (put f s k, UB) | (k, Abort) => (put f s k, Abort) | (k, Diverge) => (put f s k, Diverge)
      end
    | PSave s => let (k, o) := prf_serialize ml (f s) in (put f s k, o)
    | PDestroy s => (put f s VEmpty, Ok [])
    end.
  Fixpoint p_run (f : nat -> vkey) (l : list pop) : (nat -> vkey) * list (outcome bytes) :=
    match l with
    | [] => (f, [])
    | op :: l => let (f, x) := p_step f op in let (f, xs) := p_run f l in (f, x :: xs)
    end.
End PrfObj.
