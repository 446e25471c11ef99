(** What a source of random bytes gives to a sequence of requests. *)
From Verif Require Import Base RandomModel.

(** [n] bytes of the source, from byte [k] on *)
Definition segment (src : nat -> Z) (k n : nat) : bytes := map src (seq k n).
Definition size_of (q : request) : nat := match q with QArray size N => N * size | QString n => n end.
(** Each request gets the bytes after those of the requests before. *)
Fixpoint deal (src : nat -> Z) (k : nat) (qs : list request) : list bytes :=
  match qs with
  | [] => []
  | q :: qs => segment src k (size_of q) :: deal src (k + size_of q) qs
  end.
