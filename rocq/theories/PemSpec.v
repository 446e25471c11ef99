(** The PEM text format: base64 lines of 64 characters between a header and a footer line. *)
From Verif Require Import Base Base64Spec.

(** [s] broken into lines of 64 characters, the last one possibly shorter, each ended by LF; [col] characters are already on
    the current line *)
Fixpoint wrap64 (col : nat) (s : bytes) : bytes :=
  match s with
  | [] => if Nat.eqb col 0 then [] else [10]
  | c :: r => c :: (if Nat.eqb col 63 then 10 :: wrap64 0 r else wrap64 (S col) r)
  end.
(** The PEM text of [der]; the header and the footer are given with their line ends *)
Definition pem_text (header footer der : bytes) : bytes := header ++ wrap64 0 (b64 der) ++ footer.
