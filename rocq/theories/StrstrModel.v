(** Model of strstrn_uint8, src/utils.cpp:239-265. *)
From Verif Require Import Base.

(** The loop utils.cpp:254-263 with size_t arithmetic; [fuel] bounds the number of iterations ([Diverge] when exhausted). *)
Fixpoint strstr_loop (fuel : nat) (str1 : bytes) (str1_len : Z) (str2 : bytes) (str2_len : Z) (loc1 loc2 : Z) : outcome (option Z) :=
  match fuel with
  | O => Diverge
  | S fuel' =>
    if u64 (u64 (loc1 - loc2) + str2_len) <=? str1_len then
      a <- rd1 str1 loc1 ;;
      b <- rd1 str2 loc2 ;;
      if a =? b then
        let loc2 := u64 (loc2 + 1) in
        if loc2 =? str2_len then Ok (Some (loc1 - loc2 + 1))
        else strstr_loop fuel' str1 str1_len str2 str2_len (u64 (loc1 + 1)) loc2
      else strstr_loop fuel' str1 str1_len str2 str2_len (u64 (u64 (loc1 - loc2) + 1)) 0
    else Ok None
  end.
(** A bound on the number of iterations (the theorems show that it is never reached). *)
Definition strstr_fuel (len1 len2 : Z) : nat := Z.to_nat ((len1 + 1) * (len2 + 1)) + 1.

(** [Some k]: the pointer str1 + k, [None]: nullptr. *)
Definition strstrn (str1 : bytes) (str1_len : Z) (str2 : bytes) (str2_len : Z) : outcome (option Z) :=
  if str2_len =? 0 then Ok (Some 0)
  else if str1_len =? 0 then Ok None
  else strstr_loop (strstr_fuel str1_len str2_len) str1 str1_len str2 str2_len 0 0.
