(** Several threads that call invert of the same object of src/tdp_impl/tdp_impl_mbedtls.cpp: the blinding pair of the context is shared.

    invert is const, but mbedtls_rsa_private (src/mbedtls/rsa.c:380-557) changes ctx->Vi and ctx->Vf; MBEDTLS_THREADING_C is not defined and the context has no mutex.
    A step is one call of a function on numbers that reads or changes Vi or Vf, or the test of Vf.p; these are atomic in the model.  Steps on other numbers are joined to them.  Allocations succeed.
    Inputs and results are numbers; how bytes become numbers is in TdpModel.v. *)
From Verif Require Import Base MpiModel RsaKeyModel RsaKeySpec TdpModel.

(** ctx->Vi, and ctx->Vf, whose limbs are null at first *)
Record shared := { Vi : Z; Vf : option Z }.
Definition fresh_object : shared := {| Vi := 0; Vf := None |}.
(** The random values of a call and its input *)
Definition call : Type := (nat -> Z -> Z) * Z.
(** Where a thread is; [i]: how many random values it has used, [n]: how many attempts are left *)
Inductive place :=
| Start                                              (* rsa.c:416-434, 327 *)
| SquareVi | ReduceVi | SquareVf | ReduceVf          (* rsa.c:330-333 *)
| Fill (n i : nat) | Gcd (n i : nat) | Test (n i : nat)  (* rsa.c:339-345 *)
| Invert (i : nat) | Power (i : nat)                 (* rsa.c:348-349 *)
| Blind (i : nat)                                    (* rsa.c:437-503 *)
| Unblind (T : Z)                                    (* rsa.c:506-512 *)
| Done (r : Z + Z).
(** MBEDTLS_MPI_CHK *)
Definition chk {A} (s : shared) (r : res A) (f : A -> shared * place) : outcome (shared * place) :=
  x <- r ;; Ok (match x with inl e => (s, Done (inl (ERR_RSA_PRIVATE_FAILED + e))) | inr a => f a end).
(** A number whose limbs are null has the value 0 *)
Definition value (v : option Z) : Z := match v with Some x => x | None => 0 end.
(** rsa.c:437-503: blinding and the computation modulo P and Q *)
Definition blind_and_power (k : rsa_key) (c : call) (vi : Z) (i : nat) : res Z :=
  T <-? mpi_mod (snd c * vi) (key_N k) ;;
  let DP := (key_P k - 1) * fst c i RSA_EXPONENT_BLINDING + key_DP k in
  let DQ := (key_Q k - 1) * fst c (S i) RSA_EXPONENT_BLINDING + key_DQ k in
  T1 <-? mpi_exp_mod T DP (key_P k) ;;
  T2 <-? mpi_exp_mod T DQ (key_Q k) ;;
  T <-? mpi_mod ((T1 - T2) * key_QP k) (key_P k) ;;
  ret (T2 + T * key_Q k).
(** A step of mbedtls_rsa_private *)
Definition place_step (k : rsa_key) (c : call) (s : shared) (p : place) : outcome (shared * place) :=
  match p with
  | Start =>
    if key_N k <=? snd c then Ok (s, Done (inl (ERR_RSA_PRIVATE_FAILED + ERR_MPI_BAD_INPUT_DATA)))
    else Ok (s, match Vf s with Some _ => SquareVi | None => Fill 11 0 end)
  | SquareVi => Ok ({| Vi := Vi s * Vi s; Vf := Vf s |}, ReduceVi)
  | ReduceVi => chk s (mpi_mod (Vi s) (key_N k)) (fun v => ({| Vi := v; Vf := Vf s |}, SquareVf))
  | SquareVf => Ok ({| Vi := Vi s; Vf := Some (value (Vf s) * value (Vf s)) |}, ReduceVf)
  | ReduceVf => chk s (mpi_mod (value (Vf s)) (key_N k)) (fun v => ({| Vi := Vi s; Vf := Some v |}, Blind 0))
  | Fill n i =>
    match n with
    | O => Ok (s, Done (inl (ERR_RSA_PRIVATE_FAILED + ERR_RSA_RNG_FAILED)))
    | S n => Ok ({| Vi := Vi s; Vf := Some (fst c i (rsa_len (key_pub k) - 1)) |}, Gcd n (S i))
    end
  | Gcd n i => Ok ({| Vi := mpi_gcd (value (Vf s)) (key_N k); Vf := Vf s |}, Test n i)
  | Test n i => Ok (s, if Vi s =? 1 then Invert i else Fill n i)
  | Invert i => chk s (mpi_inv_mod (value (Vf s)) (key_N k)) (fun v => ({| Vi := v; Vf := Vf s |}, Power i))
  | Power i => chk s (mpi_exp_mod (Vi s) (key_E k) (key_N k)) (fun v => ({| Vi := v; Vf := Vf s |}, Blind i))
  | Blind i => chk s (blind_and_power k c (Vi s) i) (fun T => (s, Unblind T))
  | Unblind T => chk s (mpi_mod (T * value (Vf s)) (key_N k)) (fun y => (s, Done (inr y)))
  | Done r => Ok (s, Done r)
  end.

(** A thread: the calls to make, the present one, and the results (the last one first) *)
Record thread := { todo : list call; current : option (call * place); results : list (call * (Z + Z)) }.
Definition starting (cs : list call) : thread := {| todo := cs; current := None; results := [] |}.
Definition put {A} (l : list A) (i : nat) (x : A) : list A := firstn i l ++ x :: skipn (S i) l.
(** The object, the thread that holds the caller's mutex, and the threads *)
Definition config : Type := shared * option nat * list thread.
Section Run.
  (** Whether the callers hold a mutex during each call *)
  Variable mutex : bool.
  Variable k : rsa_key.
  (** A step of thread [t]: a thread that waits or has ended does nothing. *)
  Definition thread_step (x : config) (t : nat) : outcome config :=
    let '(s, h, ths) := x in
    match nth_error ths t with
    | None => Ok x
    | Some th =>
      match current th with
      | None =>
        match todo th with
        | [] => Ok x
        | c :: cs =>
          match mutex, h with
          | true, Some _ => Ok x
          | _, _ => Ok (s, Some t, put ths t {| todo := cs; current := Some (c, Start); results := results th |})
          end
        end
      | Some (c, Done r) => Ok (s, None, put ths t {| todo := todo th; current := None; results := (c, r) :: results th |})
      | Some (c, p) =>
        '(s, p) <- place_step k c s p ;;
        Ok (s, h, put ths t {| todo := todo th; current := Some (c, p); results := results th |})
      end
    end.
  Fixpoint run_threads (x : config) (ts : list nat) : outcome config :=
    match ts with [] => Ok x | t :: ts => x <- thread_step x t ;; run_threads x ts end.
End Run.
