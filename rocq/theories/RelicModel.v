(** Model of the rest of the wrappers of src/ppke/relic_wrapper/relic_api.{h,cpp}: scalars (ZR), hashes, printing of
    group elements, the integer functions of PairingGroup, resource handles; and of init_crypto_lib and
    cleanup_crypto_lib of src/utils.cpp.  No proofs here.

    The operators +, -, *, / and unary - of ZR are in PpkeModel ([zr_add], [zr_sub], [zr_mul], [zr_div], [zr_neg],
    [zr_inv]).  RELIC is not in the repository.  Its big numbers are integers; bn_mod returns the remainder between 0 and
    the order; bn_write_bin of a number with too many bytes is undefined behaviour here (RELIC raises an error of its own,
    which the wrapper does not look at). *)
From Verif Require Import Base PpkeModel.

Definition INT_MIN : Z := - 2 ^ 31.
Definition INT_MAX : Z := 2 ^ 31 - 1.
(** A result of type int: signed overflow is undefined. *)
Definition c_int (x : Z) : outcome Z := if (INT_MIN <=? x) && (x <=? INT_MAX) then Ok x else UB.

Section Scalars.
  (** g1_get_ord; bn_gcd_ext (as in PpkeModel); bn_mxp(x, r, order) *)
  Variable n : Z.
  Variable gext : Z -> Z -> Z.
  Variable mxp : Z -> Z -> Z -> Z.

  (** ZR() relic_api.h:103-111 *)
  Definition zr_new : Z := 1.
  (** ZR(int) relic_api.cpp:42-55: -x overflows for the least int. *)
  Definition zr_of_int (x : Z) : outcome Z :=
    if x <? 0 then m <- c_int (- x) ;; Ok (- m) else Ok x.
  (** ZR(const uint8_t*, size_t) relic_api.cpp:68-77: not reduced.  The length is below 2^31. *)
  Definition zr_of_bytes (b : bytes) : Z := be_decode b.
  (** ZR::inverse relic_api.cpp:85-90: no test for zero. *)
  Definition zr_inverse (a : Z) : Z := zr_inv n gext a.
  (** power(ZR, int), power(ZR, ZR) relic_api.cpp:147-160 *)
  Definition zr_power (x r : Z) : Z := mxp x r n.
  Definition zr_power_int (x r : Z) : outcome Z := r' <- zr_of_int r ;; Ok (mxp x r' n).
  (** ZR::ismember relic_api.cpp:189-192 *)
  Definition zr_is_member (z : Z) : bool := (z <? n) && (0 <=? z).
  (** operator==, operator< relic_api.h *)
  Definition zr_eq (x y : Z) : bool := x =? y.
  Definition zr_lt (x y : Z) : bool := x <? y.
  (** operator<<(ZR, int) relic_api.cpp:213-222, for a shift that is not negative: reduced only when larger than the order. *)
  Definition zr_shl (a b : Z) : Z := let z := a * 2 ^ b in if n <? z then z mod n else z.
  (** operator>>(ZR, int) relic_api.cpp:224-230: bn_rsh shifts the absolute value. *)
  Definition zr_shr (a b : Z) : Z := Z.sgn a * (Z.abs a / 2 ^ b).
  (** PairingGroup::div(int, ZR) relic_api.cpp:888-891 *)
  Definition zr_div_int (x y : Z) : outcome Z := x' <- zr_of_int x ;; zr_div n gext x' y.
End Scalars.

(** RELIC's representation of a big number: its sign and its [used] digits, least significant first. *)
Record bn := { bn_neg : bool; bn_dp : list Z }.
Definition dig_bits : Z := 64.
(** operator&(ZR, ZR) relic_api.cpp:232-247: the digits both operands have; the sign of a new number is positive, and
    [used] is not adjusted to the digits that are left. *)
Fixpoint and_digits (a b : list Z) : list Z :=
  match a, b with
  | x :: a', y :: b' => Z.land x y :: and_digits a' b'
  | _, _ => []
  end.
Definition zr_and (a b : bn) : bn := {| bn_neg := false; bn_dp := and_digits (bn_dp a) (bn_dp b) |}.

(** ZR::getBytes relic_api.cpp:194-199, writeBytes 79-82: [len] is RELIC_BN_BYTES; the sign is not written. *)
Definition zr_get_bytes (len : nat) (z : Z) : outcome bytes :=
  if Z.abs z <? 256 ^ Z.of_nat len then Ok (be_encode len (Z.abs z)) else UB.

(** What the three hashes give to RELIC. relic_api.h:84-87.
    hashToZR relic_api.cpp:162-183; hashToG1 324-338; hashToG2 440-455. *)
Definition HASH_TO_ZR : Z := 1.
Definition HASH_TO_G1 : Z := 2.
Definition HASH_TO_G2 : Z := 3.
Definition hash_zr_input (b : bytes) : bytes := HASH_TO_ZR :: b.
Definition hash_g1_input (b : bytes) : bytes := HASH_TO_G1 :: b.
Definition hash_g2_input (b : bytes) : bytes := HASH_TO_G1 :: b.

(** power(GT, ZR) relic_api.cpp:548-562; [exp]: gt_exp *)
Definition gt_power {X : Type} (inv : X -> X) (exp : X -> Z -> X) (g : X) (zr : Z) : X :=
  if zr_eq zr (-1) then inv g else exp g zr.
(** PairingGroup::exp(G, int) relic_api.cpp:820-824, 934-938, 946-950; [power]: power(G, ZR) *)
Definition exp_int {X : Type} (power : X -> Z -> X) (g : X) (r : Z) : outcome X := z <- zr_of_int r ;; Ok (power g z).

(** PairingGroup::add, sub, mul, div on int relic_api.cpp:846-849, 856-859, 866-869, 909-915.  Division truncates. *)
Definition int_add (g h : Z) : outcome Z := c_int (g + h).
Definition int_sub (g h : Z) : outcome Z := c_int (g - h).
Definition int_mul (g h : Z) : outcome Z := c_int (g * h).
Definition int_div (g h : Z) : outcome Z := if h =? 0 then Throw LogicError else c_int (Z.quot g h).

(** An output stream: the formatting flags that matter here, and what was written.  The field width is zero. *)
Record flags := { fl_hex : bool; fl_showbase : bool; fl_upper : bool }.
Record stream := { st_flags : flags; st_text : bytes }.
Definition st_put (st : stream) (b : bytes) : stream := {| st_flags := st_flags st; st_text := st_text st ++ b |}.
Definition st_set (st : stream) (f : flags) : stream := {| st_flags := f; st_text := st_text st |}.
(** std::hex *)
Definition std_hex (st : stream) : stream :=
  st_set st {| fl_hex := true; fl_showbase := fl_showbase (st_flags st); fl_upper := fl_upper (st_flags st) |}.
(** operator<<(unsigned int) of a value below 256 after std::hex *)
Definition hex_digit (upper : bool) (d : Z) : Z := if d <? 10 then 48 + d else (if upper then 65 else 97) + (d - 10).
Definition put_hex (st : stream) (v : Z) : stream :=
  let f := st_flags st in
  st_put st ((if fl_showbase f && negb (v =? 0) then [48; if fl_upper f then 88 else 120] else [])
             ++ (if v <? 16 then [] else [hex_digit (fl_upper f) (v / 16)]) ++ [hex_digit (fl_upper f) (v mod 16)]).
(** operator<<(ostream, G1) relic_api.cpp:373-389, G2 492-508, GT 635-651; [data]: what getBytes() returned.  The loop
    variable runs over the bytes, and the bytes are then used as indices. *)
Fixpoint print_loop (data l : bytes) (st : stream) : outcome stream :=
  match l with
  | [] => Ok st
  | i :: l' =>
    match nth_error data (Z.to_nat i) with
    | None => UB
    | Some v => print_loop data l' (put_hex (std_hex st) v)
    end
  end.
Definition print_element (data : bytes) (st : stream) : outcome stream :=
  let saved := st_flags st in
  let st1 := st_put st [48; 120] in
  st2 <- print_loop data data st1 ;;
  let st3 := st_put st2 [10] in
  Ok (st_set st3 saved).

(** RELIC's context: None when core_get() is null, else whether the curve is set. *)
Notation core := (option bool) (only parsing).
(** What RELIC, the allocator, libsodium and the processor answer. *)
Record env := {
  (** core_init: zero (RLC_OK) or an error, and the context it leaves behind in that case *)
  e_core_init : Z; e_core_left : core;
  (** pc_param_set_any *)
  e_param : Z;
  e_new : bool; e_malloc : bool; e_sodium : Z; e_aesni : bool
}.
(** error_if_relic_not_init relic_api.cpp:16-26: the first thing the constructors of ZR, G1, G2, GT do. *)
Definition error_if_relic_not_init (c : core) : outcome unit := match c with None => Throw RuntimeError | Some _ => Ok tt end.
(** relicResourceHandle relic_api.cpp:653-676: isInit of the new object, and the context afterwards.  After an exception
    the destructor is not called. *)
Definition handle_new (allow : bool) (e : env) (c : core) : outcome bool * core :=
  match c with
  | Some _ => if allow then (Ok false, c) else (Throw RuntimeError, c)
  | None =>
    if negb (e_core_init e =? 0) then (Throw RuntimeError, e_core_left e)
    else if negb (e_param e =? 0) then (Throw RuntimeError, Some false)
    else (Ok true, Some true)
  end.
(** ~relicResourceHandle relic_api.cpp:677-682 *)
Definition handle_delete (isInit : bool) (c : core) : core := if isInit then None else c.

(** The state of the process as utils.cpp changes it.  [lost], [lost_locks]: handles and arrays of mutexes that were
    allocated, not freed, and that no pointer points to any more. *)
Record lib := {
  l_core : core;
  l_handle : option bool;      (** g_relic_handle_ utils.cpp:148 *)
  l_lost : list bool;
  l_locks : bool;              (** mutex_buf is not null *)
  l_lost_locks : Z;
  l_callbacks : bool;          (** the five callbacks of OpenSSL are set *)
  l_misuse : bool;             (** sodium_misuse_handler is installed *)
  l_prp : option bool          (** Prp::is_available, once computed *)
}.
Section Lib.
  (** Compiled with WITH_OPENSSL? *)
  Variable ossl : bool.
  (** init_locks utils.cpp:150-175; its result is not looked at.  Initialising the mutexes succeeds. *)
  Definition init_locks (e : env) (s : lib) : lib :=
    if ossl then
      {| l_core := l_core s; l_handle := l_handle s; l_lost := l_lost s;
         l_locks := e_malloc e;
         l_lost_locks := if l_locks s then l_lost_locks s + 1 else l_lost_locks s;
         l_callbacks := if e_malloc e then true else l_callbacks s;
         l_misuse := l_misuse s; l_prp := l_prp s |}
    else s.
  (** kill_locks utils.cpp:177-203 *)
  Definition kill_locks (s : lib) : lib :=
    if ossl && l_locks s then
      {| l_core := l_core s; l_handle := l_handle s; l_lost := l_lost s; l_locks := false; l_lost_locks := l_lost_locks s;
         l_callbacks := false; l_misuse := l_misuse s; l_prp := l_prp s |}
    else s.
  (** What a call of OpenSSL that takes a lock does: locking_function utils.cpp:50-60 indexes mutex_buf. *)
  Definition take_lock (s : lib) : outcome unit := if l_callbacks s then if l_locks s then Ok tt else UB else Ok tt.

  (** init_crypto_lib utils.cpp:212-226 *)
  Definition init_crypto_lib (e : env) (s0 : lib) : outcome unit * lib :=
    let s := init_locks e s0 in
    if negb (e_new e) then (Throw BadAlloc, s)
    else
      match handle_new true e (l_core s) with
      | (Ok h, c) =>
        let s1 := {| l_core := c; l_handle := Some h;
                     l_lost := match l_handle s with Some h0 => h0 :: l_lost s | None => l_lost s end;
                     l_locks := l_locks s; l_lost_locks := l_lost_locks s; l_callbacks := l_callbacks s;
                     l_misuse := l_misuse s; l_prp := l_prp s |} in
        if e_sodium e <? 0 then (Throw RuntimeError, s1)
        else (Ok tt, {| l_core := l_core s1; l_handle := l_handle s1; l_lost := l_lost s1; l_locks := l_locks s1;
                        l_lost_locks := l_lost_locks s1; l_callbacks := l_callbacks s1; l_misuse := true;
                        l_prp := Some (e_aesni e) |})
      | (o, c) =>
        (bind o (fun _ => Ok tt),
         {| l_core := c; l_handle := l_handle s; l_lost := l_lost s; l_locks := l_locks s; l_lost_locks := l_lost_locks s;
            l_callbacks := l_callbacks s; l_misuse := l_misuse s; l_prp := l_prp s |})
      end.

  (** cleanup_crypto_lib utils.cpp:228-234 *)
  Definition cleanup_crypto_lib (s : lib) : lib :=
    kill_locks
      {| l_core := match l_handle s with Some h => handle_delete h (l_core s) | None => l_core s end;
         l_handle := None; l_lost := l_lost s; l_locks := l_locks s; l_lost_locks := l_lost_locks s;
         l_callbacks := l_callbacks s; l_misuse := l_misuse s; l_prp := l_prp s |}.
End Lib.
