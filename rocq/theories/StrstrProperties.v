(** Property C40: substring search. *)
From Verif Require Import Base StrstrModel StrstrProofs.

(** The outcome is [Ok]: no access outside of the two strings (which would be [UB]), and termination. *)
Theorem C40_strstr_first_occurrence : forall h n, zlen h <= 2 ^ 62 -> zlen n <= 2 ^ 62 ->
  exists r, strstrn h (zlen h) n (zlen n) = Ok r /\
    match r with
    | Some k => (exists a c, h = a ++ n ++ c /\ zlen a = k) /\
                forall j, j < k -> ~ exists a c, h = a ++ n ++ c /\ zlen a = j
    | None => forall j, ~ exists a c, h = a ++ n ++ c /\ zlen a = j
    end.
Proof. exact strstrn_first. Qed.
Print Assumptions C40_strstr_first_occurrence.
Theorem C40_strstr_confined : forall h rest n rest', zlen h <= 2 ^ 62 -> zlen n <= 2 ^ 62 ->
  strstrn (h ++ rest) (zlen h) (n ++ rest') (zlen n) = strstrn h (zlen h) n (zlen n).
Proof. exact strstrn_confined. Qed.
Print Assumptions C40_strstr_confined.
Example C40_nontrivial :
  strstrn [1; 1; 2; 1; 1; 1; 2; 3] 8 [1; 1; 2; 3] 4 = Ok (Some 4) /\
  strstrn [1; 1; 2; 1; 1; 1; 2; 3] 7 [1; 1; 2; 3] 4 = Ok None /\
  strstrn [] 0 [] 0 = Ok (Some 0).
Proof. repeat split; vm_compute; reflexivity. Qed.
