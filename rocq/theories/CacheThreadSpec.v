(** What calls of eval from several threads must use and leave. *)
From Verif Require Import Base CacheThreadModel.

(** The constant that Montgomery multiplication needs: R^2 modulo N for R = 2 ^ (64 limbs), with all its limbs *)
Definition right (N limbs : Z) (x : Z * Z) : Prop := fst x = limbs /\ 0 <= snd x < N /\ (N | snd x - (2 ^ (64 * limbs)) ^ 2).
Definition ended (th : thread) : Prop := todo th = O /\ current th = None.
(** Nothing is left in memory. *)
Definition all_released (m : memory) : Prop := Forall (fun b => b = None) m.
