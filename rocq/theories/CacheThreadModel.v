(** Several threads that call eval of the same object of src/tdp_impl/tdp_impl_mbedtls.cpp (lines 170-229, and 840-885 for the first key of a pool): the cached constant RN of the context is shared.

    eval is const, but mbedtls_mpi_exp_mod (src/mbedtls/bignum.c:1547-1750) stores R^2 mod N in the cache at the first call, without a mutex.
    A step is one access to the cache, or the use of the constant; memory is sequentially consistent.  memcpy of a number copies its number of limbs and its pointer one after the other, in an order that the C standard leaves open ([up]: in the order of the fields); the sign is not looked at (mpi_montmul, bignum.c:1490-1528).
    The steps on local numbers are not modelled, and allocations succeed. *)
From Verif Require Import Base.

(** ctx->RN: its number of limbs and its pointer, null at first (rsa.c:64-75) *)
Record cache := { cn : Z; cp : option nat }.
Definition empty_cache : cache := {| cn := 0; cp := None |}.
(** Where a call is; [b], [n]: pointer and number of limbs of the local number RR *)
Inductive place :=
| Begin                                    (* bignum.c:1598 *)
| Compute                                  (* bignum.c:1600-1602 *)
| Store1 (b : nat) | Store2 (b : nat)      (* bignum.c:1605 *)
| Load1 | Load2 (n : Z) (b : nat)          (* bignum.c:1608 *)
| Use (n : Z) (b : nat)                    (* bignum.c:1613-1738 *)
| Finish (n v : Z) (b : nat)               (* bignum.c:1746-1747 *)
| Return (n v : Z).
Section Call.
  (** The modulus, its number of limbs, and the order of memcpy *)
  Variable N : Z.
  Variable limbs : Z.
  Variable up : bool.
  (** The constant, bignum.c:1600-1602 *)
  Definition constant : Z := 2 ^ (2 * limbs * 64) mod N.
  (** Blocks of memory hold a number or have been released *)
  Definition memory : Type := list (option Z).
  (** A step of a call *)
  Definition call_step (c : cache) (m : memory) (p : place) : outcome (cache * memory * place) :=
    match p with
    | Begin => Ok (c, m, match cp c with None => Compute | Some _ => Load1 end)
    | Compute => Ok (c, m ++ [Some constant], Store1 (length m))
    | Store1 b => Ok (if up then {| cn := limbs; cp := cp c |} else {| cn := cn c; cp := Some b |}, m, Store2 b)
    | Store2 b => Ok (if up then {| cn := cn c; cp := Some b |} else {| cn := limbs; cp := cp c |}, m, Use limbs b)
    | Load1 => match up, cp c with
               | true, _ => Ok (c, m, Load2 (cn c) O)
               | false, Some b => Ok (c, m, Load2 0 b)
               | false, None => UB
               end
    | Load2 n b => match up, cp c with
                   | true, Some b => Ok (c, m, Use n b)
                   | true, None => UB
                   | false, _ => Ok (c, m, Use (cn c) b)
                   end
    | Use n b => match nth_error m b with Some (Some v) => Ok (c, m, Finish n v b) | _ => UB end
    | Finish n v b => Ok (c, match cp c with None => firstn b m ++ None :: skipn (S b) m | Some _ => m end, Return n v)
    | Return n v => Ok (c, m, Return n v)
    end.

  (** A thread: how many calls to make, the present one, and the constants used (the last one first), with their number of limbs *)
  Record thread := { todo : nat; current : option place; used : list (Z * Z) }.
  Definition starting (n : nat) : thread := {| todo := n; current := None; used := [] |}.
  Definition put {A} (l : list A) (i : nat) (x : A) : list A := firstn i l ++ x :: skipn (S i) l.
  (** The cache, the memory, the thread that holds the callers' mutex, and the threads *)
  Record config := { rn : cache; mem : memory; holder : option nat; threads : list thread }.
  (** Whether the callers hold a mutex during each call *)
  Variable mutex : bool.
  (** A step of thread [t]: a thread that waits or has ended does nothing. *)
  Definition thread_step (x : config) (t : nat) : outcome config :=
    match nth_error (threads x) t with
    | None => Ok x
    | Some th =>
      match current th, todo th with
      | None, O => Ok x
      | None, S n =>
        match mutex, holder x with
        | true, Some _ => Ok x
        | _, _ => Ok {| rn := rn x; mem := mem x; holder := Some t; threads := put (threads x) t {| todo := n; current := Some Begin; used := used th |} |}
        end
      | Some (Return n v), _ => Ok {| rn := rn x; mem := mem x; holder := None; threads := put (threads x) t {| todo := todo th; current := None; used := (n, v) :: used th |} |}
      | Some p, _ =>
        '(c, m, p) <- call_step (rn x) (mem x) p ;;
        Ok {| rn := c; mem := m; holder := holder x; threads := put (threads x) t {| todo := todo th; current := Some p; used := used th |} |}
      end
    end.
  Fixpoint run_threads (x : config) (ts : list nat) : outcome config :=
    match ts with [] => Ok x | t :: ts => x <- thread_step x t ;; run_threads x ts end.
  (** The object after its construction and the threads *)
  Definition begin (ns : list nat) : config := {| rn := empty_cache; mem := []; holder := None; threads := map starting ns |}.
End Call.
(** The destructor: mbedtls_rsa_free releases RN, rsa.c:602 *)
Definition destroy (c : cache) (m : memory) : outcome memory :=
  match cp c with
  | None => Ok m
  | Some b => match nth_error m b with Some (Some _) => Ok (firstn b m ++ None :: skipn (S b) m) | _ => UB end
  end.
