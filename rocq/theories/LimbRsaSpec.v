(** When a context of limbs holds an RSA key, and which contents the functions rely on *)
From Coq Require Import Znumtheory.
From Verif Require Import Base MpiModel LimbModel LimbModel2 LimbSpec LimbSpec2 RsaKeyModel TdpKeyModel TdpModel TdpSpec LimbSpec3 LimbRsaModel.

(** An object of at most 1000 limbs (an accepted modulus has at most 128) that was assigned the number [x] *)
Definition holds (X : mpi) (x : Z) : Prop := mpi_ok X /\ mval X = x /\ 1 <= mlen X <= 1000.
(** The public part; the constant RN is unused so far or belongs to N *)
Definition ctx_pub (c : rsa_ctx) (k : rsa_pub) : Prop :=
  c_len c = rsa_len k /\ holds (c_N c) (pub_N k) /\ holds (c_E c) (pub_E k) /\ cache_ok (c_N c) (Some (c_RN c)).
(** The blinding pair: none as long as Vf was not assigned *)
Definition holds_blinding (c : rsa_ctx) (bl : blinding) : Prop :=
  mpi_ok (c_Vi c) /\ mpi_ok (c_Vf c) /\ mlen (c_Vi c) <= 2000 /\ mlen (c_Vf c) <= 2000 /\
  match bl with
  | None => mp (c_Vf c) = []
  | Some (vi, vf) => mp (c_Vf c) <> [] /\ ms (c_Vi c) = 1 /\ mval (c_Vi c) = vi /\ mval (c_Vf c) = vf /\
      0 <= vi <= mval (c_N c) /\ 0 <= vf <= mval (c_N c)
  end.
Definition ctx_priv (c : rsa_ctx) (k : rsa_key) (bl : blinding) : Prop :=
  ctx_pub c (key_pub k) /\ holds (c_D c) (key_D k) /\ holds (c_P c) (key_P k) /\ holds (c_Q c) (key_Q k) /\
  holds (c_DP c) (key_DP k) /\ holds (c_DQ c) (key_DQ k) /\ holds (c_QP c) (key_QP k) /\
  cache_ok (c_P c) (Some (c_RP c)) /\ cache_ok (c_Q c) (Some (c_RQ c)) /\ holds_blinding c bl.
(** The numbers of a key read from a text are not negative *)
Definition key_nonneg (k : rsa_key) : Prop :=
  0 <= key_N k /\ 0 <= key_E k /\ 0 <= key_D k /\ 0 <= key_P k /\ 0 <= key_Q k /\ 0 <= key_DP k /\ 0 <= key_DQ k /\ 0 <= key_QP k.
(** The generator [f] never fails and its calls from number [n] on answer the numbers [rnd] *)
Definition same_random (f : rng) (n : nat) (rnd : nat -> Z -> Z) : Prop :=
  forall i k, (k <= 1024)%nat -> exists bs, f (n + i)%nat k = inr bs /\ is_bytes bs /\ length bs = k /\ rnd i (Z.of_nat k) = be_decode bs.
(** No leading limb is zero *)
Definition tight (X : mpi) : Prop := LB ^ (mlen X - 1) <= Z.abs (mval X).
(** All objects of a context are numbers of at most 10000 limbs, assigned or not *)
Definition ctx_objects (c : rsa_ctx) : Prop :=
  Forall (fun X => mpi_ok X /\ mlen X <= 10000)
    [c_N c; c_E c; c_D c; c_P c; c_Q c; c_DP c; c_DQ c; c_QP c; c_RN c; c_RP c; c_RQ c; c_Vi c; c_Vf c].
(** A context that may be copied: the cached constant RN was computed for as many limbs as the copy of N will have *)
Definition pub_object (c : rsa_ctx) (k : rsa_pub) : Prop := ctx_pub c k /\ ctx_objects c /\ tight (c_N c).
(** A pool: the same modulus, as many keys as exponents *)
Definition holds_pool (p : l_pool) (q : tdp_pool) : Prop :=
  pub_object (lp_key p) (pool_key q) /\ Forall2 (fun c e => pub_object c (with_exp (pool_key q) e)) (lp_keys p) (pool_exps q).

(** What the caller sees of a function that also returns the new context *)
Definition drop {A B} (x : outcome (A * B)) : outcome B :=
  match x with Ok (_, b) => Ok b | Throw e => Throw e | UB => UB | Abort => Abort | Diverge => Diverge end.
(** A number that mbedtls_mpi_gen_prime may return: odd, with its leading bits, and accepted by the primality test *)
Definition candidate (f : rng) (nbits x : Z) : Prop :=
  Z.odd x = true /\ 2 ^ (nbits - 1) <= x /\ exists X c c', mpi_ok X /\ mval X = x /\ l_is_prime f X c = Ok (inr tt, c').
(** An error due to the random generator: it failed in one of the calls from number [c] to [c'], or the number asked for was too small *)
Definition from_rng (f : rng) (c c' : nat) (er : Z) : Prop := er = ERR_MPI_BAD_INPUT_DATA \/ exists sz, rng_fails f sz c c' er.

(** * Sequences of calls on one object *)
(** Calls of eval, one after the other *)
Fixpoint l_evals (c : rsa_ctx) (g : bytes) (inps : list bytes) : outcome (list bytes) :=
  match inps with
  | [] => Ok []
  | inp :: inps => r <- l_tdp_eval c g inp ;; ys <- l_evals (fst r) g inps ;; Ok (snd r :: ys)
  end.
(** The methods of a TdpInverse object on arrays; [g] is the uninitialised array of the caller, [f] and [n] the random generator and the
    number of its next call, [prf] what the PRF returned *)
Inductive l_op :=
| OpEval (g inp : bytes)
| OpInvert (f : rng) (n : nat) (g inp : bytes)
| OpInvertMult (inp : bytes) (order : Z)
| OpSample (f : rng) (n : nat)
| OpGenerate (prf : bytes).
(** The numbers a generator answers; [random_bytes]: it answers the bytes asked for *)
Definition rnd_of (f : rng) (n : nat) (i : nat) (k : Z) : Z := match f (n + i)%nat (Z.to_nat k) with inr bs => be_decode bs | inl _ => 0 end.
Definition random_bytes (f : rng) (n : nat) : Prop :=
  forall i k, exists bs, f (n + i)%nat k = inr bs /\ is_bytes bs /\ length bs = k.
Definition op_ok (o : l_op) : Prop :=
  match o with
  | OpEval _ inp => is_bytes inp /\ zlen inp <= 8000
  | OpInvert f n _ inp => is_bytes inp /\ random_bytes f n
  | OpInvertMult inp _ => is_bytes inp /\ zlen inp <= 8000
  | OpSample f n => random_bytes f n
  | OpGenerate prf => is_bytes prf /\ zlen prf <= 8000
  end.
(** The object of limbs after a call, which an exception leaves as it was, and the result *)
Definition after (c : rsa_ctx) (r : outcome (rsa_ctx * bytes)) : rsa_ctx * outcome bytes :=
  (match r with Ok (c', _) => c' | _ => c end, drop r).
Definition l_do (P1 Q1 : mpi) (c : rsa_ctx) (o : l_op) : rsa_ctx * outcome bytes :=
  match o with
  | OpEval g inp => after c (l_tdp_eval c g inp)
  | OpInvert f n g inp => l_tdp_invert c f n g inp
  | OpInvertMult inp order => after c (l_tdp_invert_mult c P1 Q1 inp order)
  | OpSample f n => (c, l_tdp_sample c f n)
  | OpGenerate prf => (c, l_tdp_generate c prf)
  end.
(** The same on numbers, where the blinding pair is the only state *)
Definition k_do (k : rsa_key) (bl : blinding) (o : l_op) : blinding * outcome bytes :=
  match o with
  | OpEval g inp => (bl, tdp_eval (key_pub k) g inp)
  | OpInvert f n g inp => tdp_invert k (rnd_of f n) g bl inp
  | OpInvertMult inp order => (bl, tdp_invert_mult k inp order)
  | OpSample f n => (bl, tdp_sample (key_pub k) (rnd_of f n))
  | OpGenerate prf => (bl, x <- throw_if_err (mpi_read_binary prf) ;; x <- throw_if_err (mpi_mod x (key_N k)) ;; write_array x (zeros 256))
  end.
(** The state after a sequence of calls, whatever they led to, and their results *)
Fixpoint run {S} (step : S -> l_op -> S * outcome bytes) (s : S) (os : list l_op) : S * list (outcome bytes) :=
  match os with
  | [] => (s, [])
  | o :: os => let '(s, r) := step s o in let '(s, rs) := run step s os in (s, r :: rs)
  end.
(** The calls whose results are those of the trapdoor permutation: 256 bytes, and a generator that finds an invertible number *)
Definition op_good (k : rsa_key) (o : l_op) : Prop :=
  match o with
  | OpInvert f n g inp => zlen g = 256 /\ zlen inp = 256 /\ exists i, (i < 11)%nat /\ Z.gcd (rnd_of f n i 255) (key_N k) = 1
  | _ => True
  end.
