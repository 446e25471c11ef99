(** Model of the local big numbers of the functions of src/tdp_impl/tdp_impl_mbedtls.cpp on messages, on the heap of HeapModel.

    Objects 0 to 15 are those of the C++ object in the order of TdpHeapModel (N E D P Q DP DQ QP RN RP RQ Vi Vf, phi_, p_1_, q_1_), objects 16 to 31 the
    local variables of the function that runs, objects 32 to 47 the temporaries inside a function of bignum.c.  From 48 on there are the objects of
    variables whose lifetime has ended.  What a function of bignum.c computes is not modelled here: it is any sequence of calls of HeapModel, at the end of which it releases its
    temporaries (bignum.c, the label cleanup of each function), with any result. *)
From Verif Require Import Base MpiModel HeapModel TdpHeapModel.

(** What a function of bignum.c does and whether it returns 0 *)
Definition call : Type := list command * bool.
Section Local.
Context (ora : nat -> bool).
Definition call1 (c : list command) (h : heap) (o : objs) : outcome (heap * objs) :=
  '(h, o) <- run ora c h o ;; run ora (map CFree (seq 32 16)) h o.
(** MBEDTLS_MPI_CHK, bignum.h:44, and the checks of [ret]: calls until one fails; whether all return 0 *)
Fixpoint checked (cs : list call) (h : heap) (o : objs) : outcome (heap * objs * bool) :=
  match cs with
  | [] => Ok (h, o, true)
  | (c, ok) :: cs => '(h, o) <- call1 c h o ;; if negb ok then Ok (h, o, false) else checked cs h o
  end.
(** mbedtls_mpi_lset with its return value *)
Definition lset_code (d : nat) (z : Z) (h : heap) (o : objs) : outcome (heap * objs * Z) :=
  '(h, X, r) <- h_lset ora h (nth d o h_init) z ;; Ok (h, put_obj o d X, r).
(** Local variables *)
Definition v_x : nat := 16.
Definition v_order : nat := 17.
Definition v_dp : nat := 18.
Definition v_dq : nat := 19.
Definition v_yp : nat := 20.
Definition v_yq : nat := 21.
Definition v_y : nat := 22.
Definition v_base : nat := 23.
(** Erasing and releasing, e.g. tdp_impl_mbedtls.cpp:225-226; return values are ignored *)
Definition erase (vs : list nat) (h : heap) (o : objs) : outcome (heap * objs) :=
  run ora (map (fun v => CLset v 0) vs ++ map CFree vs) h o.
(** A function with one local number: x is computed by the calls [cs]; a failure throws, otherwise x is written, erased and released.  The last component: whether an exception is thrown. *)
Definition with_x (cs : list call) (h : heap) (o : objs) : outcome (heap * objs * bool) :=
  '(h, o, ok) <- checked cs h o ;;
  if negb ok then Ok (h, o, true)
  else '(h, o) <- erase [v_x] h o ;; Ok (h, o, false).
(** The loop of insecure_mod_exp, tdp_impl_mbedtls.cpp:535-543; [eff n] are the functions called, four for each bit *)
Fixpoint modexp_loop (fuel : nat) (e : Z) (n : nat) (eff : nat -> call) (h : heap) (o : objs) : outcome (heap * objs * bool) :=
  match fuel with
  | O => Ok (h, o, true)
  | S fuel =>
    if e =? 0 then Ok (h, o, true)
    else
      '(h, o, ok) <- (if e mod 2 =? 1 then checked [eff (4 * n)%nat; eff (4 * n + 1)%nat] h o else Ok (h, o, true)) ;;
      if negb ok then Ok (h, o, false)
      else
        '(h, o, ok) <- checked [eff (4 * n + 2)%nat; eff (4 * n + 3)%nat] h o ;;
        if negb ok then Ok (h, o, false) else modexp_loop fuel (e / 2) (S n) eff h o
  end.
(** insecure_mod_exp, tdp_impl_mbedtls.cpp:518-549: X is object [d], A object [a]; [md] is the first reduction of base.  The last component: whether 0 is returned. *)
Definition modexp (d a : nat) (e : Z) (md : call) (eff : nat -> call) (h : heap) (o : objs) : outcome (heap * objs * bool) :=
  '(h, o, r) <- lset_code d 1 h o ;;
  '(h, o, ok) <- (if negb (r =? 0) then Ok (h, o, false)
    else
      '(h, o, r) <- copy_code ora h o v_base a ;;
      if negb (r =? 0) then Ok (h, o, false)
      else
        '(h, o, ok) <- checked [md] h o ;;
        if negb ok then Ok (h, o, false) else modexp_loop 64 e 0 eff h o) ;;
  '(h, o) <- run ora [CFree v_base] h o ;;
  Ok (h, o, ok).

(** The functions; their inputs are what the functions of bignum.c do *)
Inductive function :=
| FEval (read md ex : call)             (* TdpImpl_mbedTLS::eval, tdp_impl_mbedtls.cpp:170-229 *)
| FSample (fill md : call)              (* sample_array, tdp_impl_mbedtls.cpp:244-274 *)
| FGenerate (read md : call)            (* generate_array, tdp_impl_mbedtls.cpp:289-323 *)
| FPool (read ex : call)                (* eval_pool, tdp_impl_mbedtls.cpp:810-878 *)
| FInvertMult (order : Z) (read : call) (mdp mdq : call) (effp effq : nat -> call) (arith : list call) (fits : bool).
                                        (* invert_mult, tdp_impl_mbedtls.cpp:551-697; [arith]: lines 626-646; [fits]: whether mbedtls_mpi_write_binary returns 0 *)
Definition body (f : function) (h : heap) (o : objs) : outcome (heap * objs * bool) :=
  match f with
  | FEval read md ex => with_x [read; md; ex] h o
  | FSample fill md => with_x [fill; md] h o
  | FGenerate read md => with_x [read; md] h o
  | FPool read ex => with_x [read; ex] h o
  | FInvertMult order read mdp mdq effp effq arith fits =>
    if order =? 0 then Ok (h, o, false)
    else
      '(h, o, ok) <- checked [read] h o ;;
      if negb ok then Ok (h, o, true)
      else
        '(h, o, _) <- lset_code v_order order h o ;;
        '(h, o, ok) <- modexp v_dp 5 order mdp effp h o ;;
        '(h, o, ok) <- (if negb ok then Ok (h, o, false) else modexp v_dq 6 order mdq effq h o) ;;
        '(h, o, ok) <- (if negb ok then Ok (h, o, false) else checked arith h o) ;;
        if ok && negb fits then Ok (h, o, true)
        else
          '(h, o) <- erase [v_x; v_dp; v_dq; v_yp; v_yq; v_order] h o ;;
          if negb ok then Ok (h, o, true)
          else '(h, o) <- erase [v_y] h o ;; Ok (h, o, false)
  end.
(** A function is called: its local variables start with mbedtls_mpi_init, and their lifetime ends, when it returns or throws, without a destructor. *)
Definition call_function (f : function) (h : heap) (o : objs) : outcome (heap * objs * bool) :=
  '(h, o, thrown) <- body f h (firstn 16 o ++ repeat h_init 32 ++ skipn 48 o) ;;
  Ok (h, firstn 16 o ++ repeat h_init 32 ++ skipn 48 o ++ firstn 16 (skipn 16 o), thrown).
(** Several functions on one object: whether each of them throws *)
Fixpoint call_functions (fs : list function) (h : heap) (o : objs) : outcome (heap * objs * list bool) :=
  match fs with
  | [] => Ok (h, o, [])
  | f :: fs =>
    '(h, o, t) <- call_function f h o ;;
    '(h, o, ts) <- call_functions fs h o ;;
    Ok (h, o, t :: ts)
  end.
End Local.
