(** src/tdp_impl/tdp_impl_openssl.cpp when calls of OpenSSL fail: the functions of OsslModel.v with the tests of return values that the code makes, and without those it does not make.

    The calls of each function are numbered in the order of the text.  [f i]: call number [i] fails, because it cannot allocate memory; it then returns a null pointer, 0 or -1.
    [l i]: the number that the destination contains after call [i] has failed.  Giving a null pointer to a function on numbers, or reading through one, is [UB].
    The functions on BIOs of OpenSSL 1.0.2 accept null pointers and fail. *)
From Verif Require Import Base MpiModel RsaKeyModel RsaKeySpec TdpKeyModel TdpModel KeyVal HmacModel OsslModel.

Section Fail.
  Variable f : nat -> bool.
  Variable l : nat -> Z.
  (** BN_new, BN_CTX_new, used later whatever they return *)
  Definition fl_new (i : nat) : outcome unit := if f i then UB else Ok tt.
  (** A call that stores a number, the returned value being ignored *)
  Definition fl_num (i : nat) (x : Z) : Z := if f i then l i else x.

  (** TdpImpl_OpenSSL::eval (array), tdp_impl_openssl.cpp:201-238: BN_CTX_new, BN_new, BN_bin2bn, BN_new, BN_mod_exp *)
  Definition fl_eval (k : rsa_pub) (inp : bytes) : outcome bytes :=
    if negb (kMessageSize =? RSA_size k) then Throw RuntimeError
    else
      _ <- fl_new 0 ;; _ <- fl_new 1 ;;
      let x := fl_num 2 (be_decode inp) in
      _ <- fl_new 3 ;;
      let y := fl_num 4 (BN_mod_exp 0 x (pub_E k) (pub_N k)) in
      if kMessageSize <? BN_num_bytes y then Abort else put_bn y.
  (** eval (string), tdp_impl_openssl.cpp:183-199 *)
  Definition fl_eval_string (k : rsa_pub) (s : bytes) : outcome bytes :=
    if negb (zlen s =? RSA_size k) then Throw InvalidArgument
    else inp <- rd (str_data s) 0 kMessageSize ;; fl_eval k inp.
  (** sample_array, tdp_impl_openssl.cpp:248-273: BN_new, BN_rand_range ([rnd]) *)
  Definition fl_sample (k : rsa_pub) (rnd : Z -> option Z) : outcome bytes :=
    _ <- fl_new 0 ;;
    if f 1 then Throw RuntimeError
    else match rnd (pub_N k) with None => Throw RuntimeError | Some x => put_bn x end.
  (** generate_array after the call of the PRF, tdp_impl_openssl.cpp:288-313: BN_CTX_new, BN_bin2bn (which allocates), BN_new, BN_div *)
  Definition fl_generate_from (k : rsa_pub) (rnd : bytes) : outcome bytes :=
    _ <- fl_new 0 ;; _ <- fl_new 1 ;; _ <- fl_new 2 ;;
    put_bn (fl_num 3 (BN_rem 0 (be_decode rnd) (pub_N k))).
  (** generate_array, tdp_impl_openssl.cpp:284-313 *)
  Definition fl_generate (H : bytes -> bytes) (ml : bool) (gp : Z -> bytes) (r t : bytes) (k : rsa_pub) (pk : vkey) (seed : bytes) : vkey * outcome bytes :=
    let '(pk, o) := prf_string H ml gp kRSAPrfSize pk seed r t in (pk, rnd <- o ;; fl_generate_from k rnd).
  (** public_key, tdp_impl_openssl.cpp:143-181: BIO_new, PEM_write_bio_RSA_PUBKEY, malloc, BIO_read *)
  Definition fl_public_key (k : rsa_pub) : outcome bytes :=
    if f 0%nat || f 1%nat then Throw RuntimeError
    else if f 2 then UB
    else if f 3 then Throw RuntimeError
    else Ok (PEM_write_RSA_PUBKEY k).
  (** The copy constructor, tdp_impl_openssl.cpp:100-103: RSAPublicKey_dup *)
  Definition fl_copy (k : rsa_pub) : outcome rsa_pub := if f 0 then Throw InvalidArgument else Ok (RSAPublicKey_dup k).
  (** operator=, tdp_impl_openssl.cpp:105-112: the object and the outcome *)
  Definition fl_assign (self t : rsa_pub) : rsa_pub * outcome unit := if f 0 then (self, Throw InvalidArgument) else (RSAPublicKey_dup t, Ok tt).

  (** The last part of the constructors, tdp_impl_openssl.cpp:367-378 and 420-430: BN_new, BN_dup twice, BN_sub_word twice, BN_CTX_new, BN_mul (into phi_, which is not used) *)
  Definition fl_members (k : rsa_key) : outcome ossl_inverse :=
    _ <- fl_new 0 ;; _ <- fl_new 1 ;; _ <- fl_new 2 ;;
    let p_1 := fl_num 3 (key_P k - 1) in
    let q_1 := fl_num 4 (key_Q k - 1) in
    _ <- fl_new 5 ;;
    Ok {| oi_key := k; oi_p_1 := p_1; oi_q_1 := q_1 |}.
  (** private_key, tdp_impl_openssl.cpp:440-491: EVP_PKEY_new, EVP_PKEY_set1_RSA (which accepts a null pointer and fails), BIO_new, PEM_write_bio_PKCS8PrivateKey, malloc, BIO_read *)
  Definition fl_private_key (o : ossl_inverse) : outcome bytes :=
    if f 0%nat || f 1%nat then Throw RuntimeError
    else if f 2%nat || f 3%nat then Throw RuntimeError
    else if f 4 then UB
    else if f 5 then Throw RuntimeError
    else Ok (PEM_write_PKCS8PrivateKey (oi_key o)).
  (** invert (string), tdp_impl_openssl.cpp:494-520: RSA_private_decrypt *)
  Definition fl_decrypt (i : nat) (from to : bytes) (k : rsa_key) : outcome (Z * bytes) := if f i then Ok (-1, to) else RSA_private_decrypt from to k.
  Definition fl_invert_string (o : ossl_inverse) (g s : bytes) : outcome bytes :=
    if negb (zlen s =? kMessageSize) then Throw InvalidArgument
    else
      '(ret, out) <- fl_decrypt 0 s g (oi_key o) ;;
      if ret <? 0 then Throw RuntimeError else rd out 0 ret.
  (** invert (array), tdp_impl_openssl.cpp:522-534 *)
  Definition fl_invert (o : ossl_inverse) (g inp : bytes) : outcome bytes := '(_, out) <- fl_decrypt 0 inp g (oi_key o) ;; Ok out.
  (** invert_mult (array), tdp_impl_openssl.cpp:536-598: BN_CTX_new, BN_new for bn_order, d_p, d_q, BN_set_word, BN_mod_exp twice; BN_new for x, BN_bin2bn; BN_new for y_p, y_q, h, y;
      BN_mod_exp twice, BN_mod_sub, BN_mod_mul, BN_mul, BN_add *)
  Definition fl_invert_mult (o : ossl_inverse) (inp : bytes) (order : Z) : outcome bytes :=
    let k := oi_key o in
    if order =? 0 then Ok inp
    else if negb (kMessageSize =? RSA_size (key_pub k)) then Throw InvalidArgument
    else
      _ <- fl_new 0 ;; _ <- fl_new 1 ;; _ <- fl_new 2 ;; _ <- fl_new 3 ;;
      let bn_order := fl_num 4 order in
      let d_p := fl_num 5 (BN_mod_exp 0 (key_D k) bn_order (oi_p_1 o)) in
      let d_q := fl_num 6 (BN_mod_exp 0 (key_D k) bn_order (oi_q_1 o)) in
      _ <- fl_new 7 ;;
      let x := fl_num 8 (be_decode inp) in
      _ <- fl_new 9 ;; _ <- fl_new 10 ;; _ <- fl_new 11 ;; _ <- fl_new 12 ;;
      let y_p := fl_num 13 (BN_mod_exp 0 x d_p (key_P k)) in
      let y_q := fl_num 14 (BN_mod_exp 0 x d_q (key_Q k)) in
      let h := fl_num 15 (BN_mod_sub 0 y_p y_q (key_P k)) in
      let h := fl_num 16 (BN_mod_mul h h (key_QP k) (key_P k)) in
      let y := fl_num 17 (h * key_Q k) in
      let y := fl_num 18 (y + y_q) in
      put_bn y.

  (** Pools: null pointers may be stored in keys_ *)
  Record fl_pool := { fp_key : rsa_pub; fp_keys : list (option rsa_pub) }.
  (** One key of the constructor, tdp_impl_openssl.cpp:625-631: RSAPublicKey_dup, whose result is read, and BN_mul_word; key number [i] *)
  Definition fl_next_key (i : nat) (k : rsa_pub) : outcome rsa_pub :=
    _ <- fl_new (2 * i) ;; Ok {| pub_N := pub_N k; pub_E := fl_num (2 * i + 1) (pub_E k * RSA_PK) |}.
  Fixpoint fl_pool_loop (n i : nat) (k : rsa_pub) : outcome (list (option rsa_pub)) :=
    match n with
    | O => Ok []
    | S n' => k <- fl_next_key i k ;; ks <- fl_pool_loop n' (S i) k ;; Ok (Some k :: ks)
    end.
  (** The constructor, tdp_impl_openssl.cpp:614-632, after the construction of the base class *)
  Definition fl_pool_new (k : rsa_pub) (size : Z) : outcome fl_pool :=
    let keys_count := u8 (size - 1) in
    if size =? 0 then Throw InvalidArgument
    else if keys_count =? 0 then UB
    else ks <- fl_pool_loop (Z.to_nat keys_count) 0 k ;; Ok {| fp_key := k; fp_keys := ks |}.
  (** RSAPublicKey_dup for keys_[i], tdp_impl_openssl.cpp:639-642; of a null pointer it is a null pointer (ASN1_item_dup) *)
  Fixpoint fl_dup_all (i : nat) (ks : list (option rsa_pub)) : list (option rsa_pub) :=
    match ks with [] => [] | k :: ks => (if f i then None else option_map RSAPublicKey_dup k) :: fl_dup_all (S i) ks end.
  (** The copy constructor, tdp_impl_openssl.cpp:634-643 *)
  Definition fl_pool_copy (p : fl_pool) : outcome fl_pool :=
    k <- fl_copy (fp_key p) ;; Ok {| fp_key := k; fp_keys := fl_dup_all 1 (fp_keys p) |}.
  Definition fl_maximum_order (p : fl_pool) : Z := u8 (zlen (fp_keys p) + 1).
  (** eval_pool (array), tdp_impl_openssl.cpp:676-707: RSA_public_encrypt *)
  Definition fl_pool_eval (p : fl_pool) (g inp : bytes) (order : Z) : outcome bytes :=
    key <- (if order =? 1 then Ok (fp_key p)
            else if order <=? fl_maximum_order p then
              if (0 <=? order - 2) && (order - 2 <? zlen (fp_keys p)) then
                match nth_error (fp_keys p) (Z.to_nat (order - 2)) with Some (Some k) => Ok k | _ => UB end
              else UB
            else Throw InvalidArgument) ;;
    '(_, out) <- (if f 0 then Ok (-1, g) else RSA_public_encrypt inp g key) ;; Ok out.
End Fail.
