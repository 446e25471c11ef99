(** Model of the texts of scalars: ZR(const std::string&) and operator<<(std::ostream&, const ZR&) of src/ppke/relic_wrapper/relic_api.cpp.

    RELIC is not in the repository; [bn_size_str], [bn_write_str] and [bn_read_str] are what RELIC 0.5 does for radix 10 (src/bn/relic_bn_util.c).  Its numbers are integers
    (a negative zero is 0); numbers of [cap] and more do not fit, which RELIC reports by an error of its own that the wrapper does not look at: [UB] here, as in RelicModel. *)
From Verif Require Import Base RelicModel.

Definition MINUS : Z := 45.
Definition ZERO : Z := 48.
(** The loop of bn_size_str: divisions by 10 until 0 *)
Fixpoint count_digits (fuel : nat) (t : Z) : outcome Z :=
  if t =? 0 then Ok 0 else match fuel with O => Diverge | S fuel => d <- count_digits fuel (t / 10) ;; Ok (d + 1) end.
Definition fuel_of (a : Z) : nat := S (Z.to_nat (Z.log2 (Z.abs a))).
(** bn_size_str: the characters with the sign and the terminating zero *)
Definition bn_size_str (a : Z) : outcome Z :=
  if a =? 0 then Ok 2 else d <- count_digits (fuel_of a) (Z.abs a) ;; Ok (d + (if a <? 0 then 1 else 0) + 1).
(** The loop of bn_write_str: digits from the least significant at positions [j], ... of [str] *)
Fixpoint write_digits (fuel : nat) (t : Z) (str : bytes) (j : Z) : outcome (bytes * Z) :=
  if t =? 0 then Ok (str, j)
  else match fuel with
       | O => Diverge
       | S fuel => str <- wr str j [ZERO + t mod 10] ;; write_digits fuel (t / 10) str (j + 1)
       end.
(** The loop that reverses the digits between positions [i] and [j] *)
Fixpoint reverse_loop (fuel : nat) (str : bytes) (i j : Z) : outcome bytes :=
  if j <=? i then Ok str
  else match fuel with
       | O => Diverge
       | S fuel =>
         a <- rd1 str i ;; b <- rd1 str j ;;
         str <- wr str i [b] ;; str <- wr str j [a] ;;
         reverse_loop fuel str (i + 1) (j - 1)
       end.
(** bn_write_str into [str]; a buffer of less than the needed [len] is an error of RELIC *)
Definition bn_write_str (str : bytes) (len a : Z) : outcome bytes :=
  l <- bn_size_str a ;;
  if len <? l then UB
  else if a =? 0 then wr str 0 [ZERO; 0]
  else
    '(str, j) <- (if a <? 0 then str <- wr str 0 [MINUS] ;; Ok (str, 1) else Ok (str, 0)) ;;
    '(str, _) <- write_digits (fuel_of a) (Z.abs a) str j ;;
    str <- reverse_loop (Z.to_nat l) str j (l - 2) ;;
    wr str (l - 1) [0].
(** bn_read_str: the digits up to the first character that is none *)
Fixpoint read_loop (cap : Z) (fuel : nat) (str : bytes) (j len a : Z) : outcome Z :=
  if len <=? j then Ok a
  else match fuel with
       | O => Diverge
       | S fuel =>
         c <- rd1 str j ;;
         if (ZERO <=? c) && (c <=? ZERO + 9) then
           let a := a * 10 + (c - ZERO) in
           if cap <=? a then UB else read_loop cap fuel str (j + 1) len a
         else Ok a
       end.
Definition bn_read_str (cap : Z) (str : bytes) (len : Z) : outcome Z :=
  c <- rd1 str 0 ;;
  if c =? MINUS then a <- read_loop cap (Z.to_nat len) str 1 len 0 ;; Ok (- a)
  else read_loop cap (Z.to_nat len) str 0 len 0.

(** ZR(const std::string&), relic_api.cpp:57-66: the characters of c_str() end with a zero; the size is cast to int *)
Definition zr_of_string (cap : Z) (s : bytes) : outcome Z := len <- c_int (zlen s) ;; bn_read_str cap (s ++ [0]) len.
(** operator<<(std::ostream&, const ZR&), relic_api.cpp:201-211: the characters put on the stream *)
Definition zr_print (z : Z) : outcome bytes :=
  length <- bn_size_str z ;;
  let data := zeros (Z.to_nat (length + 1)) in
  data <- bn_write_str data length z ;;
  rd data 0 length.
