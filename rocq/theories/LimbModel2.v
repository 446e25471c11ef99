(** The rest of src/mbedtls/bignum.c at the level of limbs: Montgomery multiplication, modular exponentiation, greatest common
    divisor, modular inverse, random numbers and primes.  Temporary objects are freed at the end of each function in the C code;
    freeing is not modelled. *)
From Verif Require Import Base MpiModel LimbModel.

(** mpi_montg_init, bignum.c:1472-1484: i = 64, 32, 16, 8 *)
Definition montg_init (m0 : Z) : Z :=
  let x := u64 (m0 + u64 (Z.shiftl (Z.land (u64 (m0 + 2)) 4) 1)) in
  let step x := u64 (x * u64 (2 - u64 (m0 * x))) in
  let x := step (step (step (step x))) in
  u64 (2 ^ 64 - 1 - x + 1).

(** mpi_montmul, bignum.c:1489-1527: the loop of lines 1505-1518; d is T->p + i *)
Fixpoint montmul_loop (k i n m : nat) (a b np : limbs) (mm : Z) (t : limbs) : outcome limbs :=
  match k with
  | O => Ok t
  | S k =>
    u0 <- lnth a i ;;
    d0 <- lnth t i ;;
    b0 <- lnth b 0 ;;
    let u1 := u64 (u64 (d0 + u64 (u0 * b0)) * mm) in
    t <- at_off i (fun d => mul_hlp m b d u0) t ;;
    t <- at_off i (fun d => mul_hlp n np d u1) t ;;
    t <- lupd t i u0 ;;
    t <- lupd t (S i + (n + 1)) 0 ;;
    montmul_loop k (S i) n m a b np mm t
  end.
(** A and B may be the same object; T is only a buffer of [tn] limbs *)
Definition montmul (A B N : mpi) (mm : Z) (tn : nat) : res mpi :=
  let n := length (mp N) in
  if (tn <? n + 1)%nat then err ERR_MPI_BAD_INPUT_DATA
  else
    let m := if (length (mp B) <? n)%nat then length (mp B) else n in
    t <- montmul_loop n 0 n m (mp A) (mp B) (mp N) mm (repeat 0 tn) ;;
    if (length t <? n + (n + 1))%nat || (length (mp A) <? n + 1)%nat then UB
    else
      let A := MkMpi (ms A) (firstn (n + 1) (skipn n t) ++ skipn (n + 1) (mp A)) in
      c <- l_cmp_abs A N ;;
      if 0 <=? c then p <- sub_hlp n (mp N) (mp A) ;; ret (MkMpi (ms A) p)
      else _ <- sub_hlp n (mp A) t ;; ret A.
(** mpi_montred, bignum.c:1532-1541 *)
Definition montred (A N : mpi) (mm : Z) (tn : nat) : res mpi := montmul A (MkMpi 1 [1]) N mm tn.

(** mbedtls_mpi_exp_mod, bignum.c:1546-1750 *)
(** Lines 1573-1577 *)
Definition window_size (i : Z) : nat :=
  if 671 <? i then 6%nat else if 239 <? i then 5%nat else if 79 <? i then 4%nat else if 23 <? i then 3%nat else 1%nat.
Fixpoint square_n (k : nat) (X N : mpi) (mm : Z) (tn : nat) : res mpi :=
  match k with O => ret X | S k => X <-? montmul X X N mm tn ;; square_n k X N mm tn end.
(** Lines 1641-1648: W[i], ..., W[i + k - 1] *)
Fixpoint fill_window (k i : nat) (W : list mpi) (N : mpi) (mm : Z) (tn : nat) : res (list mpi) :=
  match k with
  | O => ret W
  | S k =>
    Wi <- lnth W i ;;
    Wi <-? l_grow Wi (length (mp N) + 1) ;;
    Wp <- lnth W (i - 1) ;;
    Wi <-? l_copy false Wi Wp ;;
    W1 <- lnth W 1 ;;
    Wi <-? montmul Wi W1 N mm tn ;;
    W <- lupd W i Wi ;;
    fill_window k (S i) W N mm tn
  end.
(** Lines 1623-1649 *)
Definition window_table (wsize : nat) (W : list mpi) (N : mpi) (mm : Z) (tn : nat) : res (list mpi) :=
  if (1 <? wsize)%nat then
    let j := (2 ^ (wsize - 1))%nat in
    Wj <- lnth W j ;;
    Wj <-? l_grow Wj (length (mp N) + 1) ;;
    W1 <- lnth W 1 ;;
    Wj <-? l_copy false Wj W1 ;;
    Wj <-? square_n (wsize - 1) Wj N mm tn ;;
    W <- lupd W j Wj ;;
    fill_window (2 ^ wsize - (j + 1)) (j + 1) W N mm tn
  else ret W.
(** The variables X, nbits, wbits and state of the loop of lines 1657-1713 *)
Record exp_state := MkExp { ex : mpi; enb : nat; ewb : Z; est : Z }.
Definition exp_bit (wsize : nat) (W : list mpi) (N : mpi) (mm : Z) (tn : nat) (ei : Z) (s : exp_state) : res exp_state :=
  if (ei =? 0) && (est s =? 0) then ret s
  else if (ei =? 0) && (est s =? 1) then X <-? montmul (ex s) (ex s) N mm tn ;; ret (MkExp X (enb s) (ewb s) (est s))
  else
    let nbits := S (enb s) in
    let wbits := Z.lor (ewb s) (Z.shiftl ei (Z.of_nat wsize - Z.of_nat nbits)) in
    if (nbits =? wsize)%nat then
      X <-? square_n wsize (ex s) N mm tn ;;
      Wk <- lnth W (Z.to_nat wbits) ;;
      X <-? montmul X Wk N mm tn ;;
      ret (MkExp X 0 0 1)
    else ret (MkExp (ex s) nbits wbits 2).
Fixpoint exp_bits (bufsize : nat) (e : Z) (wsize : nat) (W : list mpi) (N : mpi) (mm : Z) (tn : nat) (s : exp_state) : res exp_state :=
  match bufsize with
  | O => ret s
  | S bufsize => s <-? exp_bit wsize W N mm tn (Z.land (Z.shiftr e (Z.of_nat bufsize)) 1) s ;; exp_bits bufsize e wsize W N mm tn s
  end.
Fixpoint exp_limbs (nblimbs : nat) (E : limbs) (wsize : nat) (W : list mpi) (N : mpi) (mm : Z) (tn : nat) (s : exp_state) : res exp_state :=
  match nblimbs with
  | O => ret s
  | S nblimbs => e <- lnth E nblimbs ;; s <-? exp_bits 64 e wsize W N mm tn s ;; exp_limbs nblimbs E wsize W N mm tn s
  end.
(** Lines 1718-1726 *)
Fixpoint exp_rest (nbits : nat) (wbits : Z) (wsize : nat) (X W1 N : mpi) (mm : Z) (tn : nat) : res mpi :=
  match nbits with
  | O => ret X
  | S nbits =>
    X <-? montmul X X N mm tn ;;
    let wbits := Z.shiftl wbits 1 in
    X <-? (if negb (Z.land wbits (Z.shiftl 1 (Z.of_nat wsize)) =? 0) then montmul X W1 N mm tn else ret X) ;;
    exp_rest nbits wbits wsize X W1 N mm tn
  end.
(** [xa]: X == A (X is neither E nor N); [rr]: the argument _RR, None when it is null.  The new value of *_RR is returned. *)
Definition l_exp_mod (xa : bool) (X A E N : mpi) (rr : option mpi) : res (mpi * option mpi) :=
  c <- l_cmp_int N 0 ;;
  if c <? 0 then err ERR_MPI_BAD_INPUT_DATA
  else
    n0 <- lnth (mp N) 0 ;;
    if Z.land n0 1 =? 0 then err ERR_MPI_BAD_INPUT_DATA
    else
      c <- l_cmp_int E 0 ;;
      if c <? 0 then err ERR_MPI_BAD_INPUT_DATA
      else
        let mm := montg_init n0 in
        i <- l_bitlen E ;;
        let wsize := window_size i in
        let j := (length (mp N) + 1)%nat in
        X <-? l_grow X j ;;
        let A := if xa then X else A in
        W1 <-? l_grow l_init j ;;
        T <-? l_grow l_init (j * 2) ;;
        let tn := length (mp T) in
        let neg := ms A =? -1 in
        A <-? (if neg then P <-? l_copy false l_init A ;; ret (with_s P 1) else ret A) ;;
        RR <-? match rr with
          | Some (MkMpi s (x :: r)) => ret (MkMpi s (x :: r))
          | _ =>
            R <-? l_lset l_init 1 ;;
            R <-? l_shift_l R (zlen (mp N) * 2 * 64) ;;
            l_mod true R R N
          end ;;
        c <- l_cmp A N ;;
        W1 <-? (if 0 <=? c then l_mod false W1 A N else l_copy false W1 A) ;;
        W1 <-? montmul W1 RR N mm tn ;;
        X <-? l_copy false X RR ;;
        X <-? montred X N mm tn ;;
        W <- lupd (repeat l_init 128) 1 W1 ;;
        W <-? window_table wsize W N mm tn ;;
        s <-? exp_limbs (length (mp E)) (mp E) wsize W N mm tn (MkExp X 0 0 0) ;;
        W1 <- lnth W 1 ;;
        X <-? exp_rest (enb s) (ewb s) wsize (ex s) W1 N mm tn ;;
        X <-? montred X N mm tn ;;
        X <-? match mp E with
          | e0 :: _ => if neg && negb (Z.land e0 1 =? 0) then l_add false true (with_s X (-1)) N (with_s X (-1)) else ret X
          | [] => ret X
          end ;;
        ret (X, match rr with Some _ => Some RR | None => None end).

(** mbedtls_mpi_gcd, bignum.c:1754-1801: the loop of lines 1777-1791 *)
Fixpoint gcd_loop (fuel : nat) (TA TB : mpi) : res mpi :=
  match fuel with
  | O => Diverge
  | S fuel =>
    c <- l_cmp_int TA 0 ;;
    if c =? 0 then ret TB
    else
      TA <-? l_shift_r TA (l_lsb TA) ;;
      TB <-? l_shift_r TB (l_lsb TB) ;;
      c <- l_cmp TA TB ;;
      if 0 <=? c then
        TA <-? l_sub_abs true false TA TA TB ;;
        TA <-? l_shift_r TA 1 ;;
        gcd_loop fuel TA TB
      else
        TB <-? l_sub_abs true false TB TB TA ;;
        TB <-? l_shift_r TB 1 ;;
        gcd_loop fuel TA TB
  end.
Definition l_gcd (G A B : mpi) : res mpi :=
  TA <-? l_copy false l_init A ;;
  TB <-? l_copy false l_init B ;;
  let lz := l_lsb TA in
  let lzt := l_lsb TB in
  let lz := if lzt <? lz then lzt else lz in
  TA <-? l_shift_r TA lz ;;
  TB <-? l_shift_r TB lz ;;
  TB <-? gcd_loop (64 * (length (mp A) + length (mp B)) + 1) (with_s TA 1) (with_s TB 1) ;;
  TB <-? l_shift_l TB lz ;;
  l_copy false G TB.

(** mbedtls_mpi_inv_mod, bignum.c:1830-1920: the loops of lines 1866-1879 and 1881-1893 *)
Fixpoint inv_halve (fuel : nat) (T U1 U2 TA TB : mpi) : res (mpi * mpi * mpi) :=
  match fuel with
  | O => Diverge
  | S fuel =>
    t0 <- lnth (mp T) 0 ;;
    if Z.land t0 1 =? 0 then
      T <-? l_shift_r T 1 ;;
      u1 <- lnth (mp U1) 0 ;;
      odd <- (if negb (Z.land u1 1 =? 0) then Ok true else u2 <- lnth (mp U2) 0 ;; Ok (negb (Z.land u2 1 =? 0))) ;;
      U <-? (if odd : bool then U1 <-? l_add true false U1 U1 TB ;; U2 <-? l_sub true false U2 U2 TA ;; ret (U1, U2) else ret (U1, U2)) ;;
      let '(U1, U2) := U in
      U1 <-? l_shift_r U1 1 ;;
      U2 <-? l_shift_r U2 1 ;;
      inv_halve fuel T U1 U2 TA TB
    else ret (T, U1, U2)
  end.
(** Lines 1864-1909; [k] bounds the number of trailing zeros *)
Fixpoint inv_loop (fuel k : nat) (TU U1 U2 TV V1 V2 TA TB : mpi) : res mpi :=
  match fuel with
  | O => Diverge
  | S fuel =>
    u <-? inv_halve k TU U1 U2 TA TB ;;
    let '(TU, U1, U2) := u in
    v <-? inv_halve k TV V1 V2 TA TB ;;
    let '(TV, V1, V2) := v in
    c <- l_cmp TU TV ;;
    s <-? (if 0 <=? c then
             TU <-? l_sub true false TU TU TV ;;
             U1 <-? l_sub true false U1 U1 V1 ;;
             U2 <-? l_sub true false U2 U2 V2 ;;
             ret (TU, U1, U2, TV, V1, V2)
           else
             TV <-? l_sub true false TV TV TU ;;
             V1 <-? l_sub true false V1 V1 U1 ;;
             V2 <-? l_sub true false V2 V2 U2 ;;
             ret (TU, U1, U2, TV, V1, V2)) ;;
    let '(TU, U1, U2, TV, V1, V2) := s in
    c <- l_cmp_int TU 0 ;;
    if c =? 0 then ret V1 else inv_loop fuel k TU U1 U2 TV V1 V2 TA TB
  end.
(** Lines 1911-1915 *)
Fixpoint inv_up (fuel : nat) (V N : mpi) : res mpi :=
  match fuel with
  | O => Diverge
  | S fuel => c <- l_cmp_int V 0 ;; if c <? 0 then V <-? l_add true false V V N ;; inv_up fuel V N else ret V
  end.
Fixpoint inv_down (fuel : nat) (V N : mpi) : res mpi :=
  match fuel with
  | O => Diverge
  | S fuel => c <- l_cmp V N ;; if 0 <=? c then V <-? l_sub true false V V N ;; inv_down fuel V N else ret V
  end.
Definition l_inv_mod (X A N : mpi) : res mpi :=
  c <- l_cmp_int N 1 ;;
  if c <=? 0 then err ERR_MPI_BAD_INPUT_DATA
  else
    G <-? l_gcd l_init A N ;;
    c <- l_cmp_int G 1 ;;
    if negb (c =? 0) then err ERR_MPI_NOT_ACCEPTABLE
    else
      TA <-? l_mod false l_init A N ;;
      TU <-? l_copy false l_init TA ;;
      TB <-? l_copy false l_init N ;;
      TV <-? l_copy false l_init N ;;
      U1 <-? l_lset l_init 1 ;;
      U2 <-? l_lset l_init 0 ;;
      V1 <-? l_lset l_init 0 ;;
      V2 <-? l_lset l_init 1 ;;
      let bits := (64 * length (mp N))%nat in
      V1 <-? inv_loop (2 * bits + 1) (bits + 1) TU U1 U2 TV V1 V2 TA TB ;;
      V1 <-? inv_up (2 * bits + 3) V1 N ;;
      V1 <-? inv_down (2 * bits + 3) V1 N ;;
      l_copy false X V1.

(** small_prime, bignum.c:1924-1947 (the last entry, -103, ends the loop) *)
Definition small_prime : list Z := [
  3; 5; 7; 11; 13; 17; 19; 23; 29; 31; 37; 41; 43; 47; 53; 59; 61; 67; 71; 73; 79; 83; 89; 97; 101; 103; 107; 109; 113; 127; 131; 137;
  139; 149; 151; 157; 163; 167; 173; 179; 181; 191; 193; 197; 199; 211; 223; 227; 229; 233; 239; 241; 251; 257; 263; 269; 271; 277; 281;
  283; 293; 307; 311; 313; 317; 331; 337; 347; 349; 353; 359; 367; 373; 379; 383; 389; 397; 401; 409; 419; 421; 431; 433; 439; 443; 449;
  457; 461; 463; 467; 479; 487; 491; 499; 503; 509; 521; 523; 541; 547; 557; 563; 569; 571; 577; 587; 593; 599; 601; 607; 613; 617; 619;
  631; 641; 643; 647; 653; 659; 661; 673; 677; 683; 691; 701; 709; 719; 727; 733; 739; 743; 751; 757; 761; 769; 773; 787; 797; 809; 811;
  821; 823; 827; 829; 839; 853; 857; 859; 863; 877; 881; 883; 887; 907; 911; 919; 929; 937; 941; 947; 953; 967; 971; 977; 983; 991; 997].
(** mpi_check_small_factors, bignum.c:1958-1980: the value returned *)
Fixpoint small_factors_loop (ps : list Z) (X : mpi) : outcome Z :=
  match ps with
  | [] => Ok 0
  | p :: ps =>
    c <- l_cmp_int X p ;;
    if c <=? 0 then Ok 1
    else
      r <- l_mod_int X p ;;
      match r with
      | inl e => Ok e
      | inr r => if r =? 0 then Ok ERR_MPI_NOT_ACCEPTABLE else small_factors_loop ps X
      end
  end.
Definition l_check_small_factors (X : mpi) : outcome Z :=
  x0 <- lnth (mp X) 0 ;;
  if Z.land x0 1 =? 0 then Ok ERR_MPI_NOT_ACCEPTABLE else small_factors_loop small_prime X.

(** Functions that call the random generator: the state is the number of calls so far.  The call number [c] of the generator answers an
    error code or bytes. *)
Definition rng := nat -> nat -> Z + bytes.
Definition rm (A : Type) := nat -> outcome ((Z + A) * nat).
Definition rm_ret {A} (a : A) : rm A := fun c => Ok (inr a, c).
Definition rm_err {A} (e : Z) : rm A := fun c => Ok (inl e, c).
Definition rm_lift {A} (x : res A) : rm A := fun c => r <- x ;; Ok (r, c).
Definition rm_lifto {A} (x : outcome A) : rm A := fun c => r <- x ;; Ok (inr r, c).
Definition rm_bind {A B} (x : rm A) (f : A -> rm B) : rm B :=
  fun c => rc <- x c ;; match fst rc with inl e => Ok (inl e, snd rc) | inr a => f a (snd rc) end.
Notation "x <-* e ;; k" := (rm_bind e (fun x => k)) (at level 61, e at next level, right associativity).
(** mbedtls_mpi_fill_random, bignum.c:1810-1825 *)
Definition l_fill_random (f : rng) (X : mpi) (size : Z) : rm mpi :=
  if 1024 <? size then rm_err ERR_MPI_BAD_INPUT_DATA
  else fun c =>
    match f c (Z.to_nat size) with
    | inl e => Ok (inl e, S c)
    | inr buf => rm_lift (l_read_binary X buf) (S c)
    end.

(** mpi_miller_rabin, bignum.c:1985-2084 *)
(** The number of rounds, lines 2008-2010 *)
Definition mr_rounds (i : Z) : nat :=
  if 1300 <=? i then 2%nat else if 850 <=? i then 3%nat else if 650 <=? i then 4%nat else if 350 <=? i then 8%nat
  else if 250 <=? i then 12%nat else if 150 <=? i then 18%nat else 27%nat.
(** The loop of lines 2027-2043; count = 31 - k.  Its return at line 2038 frees nothing (not modelled). *)
Fixpoint mr_draw (f : rng) (k : nat) (X W A : mpi) : rm mpi :=
  A <-* l_fill_random f A (zlen (mp X) * 8) ;;
  ba <-* rm_lifto (l_bitlen A) ;;
  bw <-* rm_lifto (l_bitlen W) ;;
  A <-* rm_lift (if bw <? ba then l_shift_r A (ba - bw) else ret A) ;;
  match k with
  | O => rm_err ERR_MPI_NOT_ACCEPTABLE
  | S k =>
    c1 <-* rm_lifto (l_cmp A W) ;;
    again <-* rm_lifto (if 0 <=? c1 then Ok true else c2 <- l_cmp_int A 1 ;; Ok (c2 <=? 0)) ;;
    if again : bool then mr_draw f k X W A else rm_ret A
  end.
(** The loop of lines 2054-2066 *)
Fixpoint mr_square (k : nat) (X W A T : mpi) : res mpi :=
  match k with
  | O => ret A
  | S k =>
    c <- l_cmp A W ;;
    if c =? 0 then ret A
    else
      T <-? l_mul false false T A A ;;
      A <-? l_mod false A T X ;;
      c <- l_cmp_int A 1 ;;
      if c =? 0 then ret A else mr_square k X W A T
  end.
(** Lines 2017-2025: the number is thrown away *)
Definition mr_first (f : rng) (X W A : mpi) : rm mpi :=
  A <-* l_fill_random f A (zlen (mp X) * 8) ;;
  c1 <-* rm_lifto (l_cmp A W) ;;
  A <-* rm_lift (if 0 <=? c1 then ba <- l_bitlen A ;; bw <- l_bitlen W ;; l_shift_r A (ba - bw + 1) else ret A) ;;
  a0 <-* rm_lifto (lnth (mp A) 0) ;;
  p <-* rm_lifto (lupd (mp A) 0 (Z.lor a0 3)) ;;
  rm_ret (MkMpi (ms A) p).
(** Lines 2045-2076: whether the number A passes, with the new values of A, T and RR; [s] = lsb (W), R = W >> s *)
Definition mr_test (X W R A T RR : mpi) (s : Z) : res (mpi * mpi * bool) :=
  AR <-? l_exp_mod true A A R X (Some RR) ;;
  let '(A, rr) := AR in
  let RR := match rr with Some RR => RR | None => RR end in
  c1 <- l_cmp A W ;;
  one <- (if c1 =? 0 then Ok true else c2 <- l_cmp_int A 1 ;; Ok (c2 =? 0)) ;;
  if one : bool then ret (A, RR, true)
  else
    A <-? mr_square (Z.to_nat (s - 1)) X W A T ;;
    c1 <- l_cmp A W ;;
    bad <- (if negb (c1 =? 0) then Ok true else c2 <- l_cmp_int A 1 ;; Ok (c2 =? 0)) ;;
    ret (A, RR, negb bad).
(** The loop of lines 2012-2077 (the old content of T has no influence: it starts without limbs in each round) *)
Fixpoint mr_loop (f : rng) (n : nat) (X W R A RR : mpi) (s : Z) : rm unit :=
  match n with
  | O => rm_ret tt
  | S n =>
    A <-* mr_first f X W A ;;
    A <-* mr_draw f 31 X W A ;;
    t <-* rm_lift (mr_test X W R A l_init RR s) ;;
    let '(A, RR, pass) := t in
    if pass : bool then mr_loop f n X W R A RR s else rm_err ERR_MPI_NOT_ACCEPTABLE
  end.
Definition l_miller_rabin (f : rng) (X : mpi) : rm unit :=
  W <-* rm_lift (l_sub_int false l_init X 1) ;;
  let s := l_lsb W in
  R <-* rm_lift (l_copy false l_init W) ;;
  R <-* rm_lift (l_shift_r R s) ;;
  i <-* rm_lifto (l_bitlen X) ;;
  mr_loop f (mr_rounds i) X W R l_init l_init s.
(** mbedtls_mpi_is_prime, bignum.c:2089-2116 *)
Definition l_is_prime (f : rng) (X : mpi) : rm unit :=
  let XX := MkMpi 1 (mp X) in
  c0 <-* rm_lifto (l_cmp_int XX 0) ;;
  c1 <-* rm_lifto (l_cmp_int XX 1) ;;
  if (c0 =? 0) || (c1 =? 0) then rm_err ERR_MPI_NOT_ACCEPTABLE
  else
    c2 <-* rm_lifto (l_cmp_int XX 2) ;;
    if c2 =? 0 then rm_ret tt
    else
      r <-* rm_lifto (l_check_small_factors XX) ;;
      if r =? 0 then l_miller_rabin f XX
      else if r =? 1 then rm_ret tt
      else rm_err r.

(** mbedtls_mpi_gen_prime, bignum.c:2121-2213, for dh_flag = 0 (the only value the library uses).  The loop of lines 2150-2156 has no
    bound: [fuel]. *)
Fixpoint gen_loop (fuel : nat) (f : rng) (X : mpi) : rm mpi :=
  match fuel with
  | O => fun _ => Diverge
  | S fuel => fun c =>
    r <- l_is_prime f X c ;;
    match fst r with
    | inr _ => Ok (inr X, snd r)
    | inl e =>
      if e =? ERR_MPI_NOT_ACCEPTABLE then (X <-* rm_lift (l_add_int true X X 2) ;; gen_loop fuel f X) (snd r)
      else Ok (inl e, snd r)
    end
  end.
Definition l_gen_prime (fuel : nat) (f : rng) (X : mpi) (nbits : Z) : rm mpi :=
  if (nbits <? 3) || (8192 <? nbits) then rm_err ERR_MPI_BAD_INPUT_DATA
  else
    let n := nbits / 64 + bz (negb (nbits mod 64 =? 0)) in
    X <-* l_fill_random f X (n * 8) ;;
    k <-* rm_lifto (l_bitlen X) ;;
    X <-* rm_lift (if nbits <? k then l_shift_r X (k - nbits + 1) else ret X) ;;
    r <-* rm_lifto (l_set_bit X (nbits - 1) 1) ;;
    let X := match r with inr X => X | inl _ => X end in
    x0 <-* rm_lifto (lnth (mp X) 0) ;;
    p <-* rm_lifto (lupd (mp X) 0 (Z.lor x0 1)) ;;
    gen_loop fuel f (MkMpi (ms X) p).
