(** Base64 as in RFC 4648, written with arithmetic on groups of three bytes and independently of the tables and bit
    operations of the C code. *)
From Verif Require Import Base.

(** The 64-character alphabet *)
Definition b64_char (v : Z) : Z :=
  if v <? 26 then 65 + v
  else if v <? 52 then 97 + (v - 26)
  else if v <? 62 then 48 + (v - 52)
  else if v =? 62 then 43 else 47.
Definition b64_pad : Z := 61.
(** The value of the digit at position [k] (0 to 3) of the 24-bit number [x] *)
Definition sextet (x k : Z) : Z := (x / 64 ^ (3 - k)) mod 64.

(** The encoding of a byte string *)
Fixpoint b64 (l : bytes) : bytes :=
  match l with
  | [] => []
  | [a] => let x := 65536 * a in [b64_char (sextet x 0); b64_char (sextet x 1); b64_pad; b64_pad]
  | [a; b] => let x := 65536 * a + 256 * b in
              [b64_char (sextet x 0); b64_char (sextet x 1); b64_char (sextet x 2); b64_pad]
  | a :: b :: c :: r =>
    let x := 65536 * a + 256 * b + c in
    [b64_char (sextet x 0); b64_char (sextet x 1); b64_char (sextet x 2); b64_char (sextet x 3)] ++ b64 r
  end.

(** [wrapped s t]: [t] is [s] with line breaks inserted anywhere, each of them LF or CR LF, possibly with spaces in
    front, and possibly with spaces at the end. *)
Inductive wrapped : bytes -> bytes -> Prop :=
| wr_end (k : nat) : wrapped [] (repeat 32 k)
| wr_char c s t : wrapped s t -> wrapped (c :: s) (c :: t)
| wr_lf (k : nat) s t : wrapped s t -> wrapped s (repeat 32 k ++ [10] ++ t)
| wr_crlf (k : nat) s t : wrapped s t -> wrapped s (repeat 32 k ++ [13; 10] ++ t).

(** A character of the alphabet *)
Definition is_digit (c : Z) : Prop := exists v, 0 <= v < 64 /\ c = b64_char v.
(** What the decoder accepts: line-wrapped digits followed by at most two padding characters. *)
Definition accepted (t : bytes) (ds : bytes) (pads : nat) : Prop :=
  Forall is_digit ds /\ (pads <= 2)%nat /\ wrapped (ds ++ repeat b64_pad pads) t.

(** The 24-bit number of four digit values, and the bytes of a sequence of digit values (whole groups only) *)
Definition group (v0 v1 v2 v3 : Z) : Z := 262144 * v0 + 4096 * v1 + 64 * v2 + v3.
Fixpoint regroup (vs : list Z) : bytes :=
  match vs with
  | v0 :: v1 :: v2 :: v3 :: r =>
    let x := group v0 v1 v2 v3 in [x / 65536; x / 256 mod 256; x mod 256] ++ regroup r
  | _ => []
  end.
