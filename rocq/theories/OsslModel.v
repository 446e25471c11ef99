(** Model of the implementation of the trapdoor permutation with OpenSSL: src/tdp_impl/tdp_impl_openssl.cpp, used when the library
    is configured with RSA_IMPL_OPENSSL (tdp.cpp:33-76).

    OpenSSL itself is not in the repository.  A BIGNUM is its value, an RSA structure the numbers of the key; the functions of
    OpenSSL 1.0.2 (the code accesses the members of RSA directly, which later versions do not allow) are replaced by the
    definitions of the first section, after their manual pages and, for the checks of RSA_public_encrypt and
    RSA_private_decrypt, crypto/rsa/rsa_eay.c.  Allocation succeeds.  Reading PEM texts is a parameter.
    [g] stands for the contents of an uninitialised array. *)
From Coq Require Import Zpow_facts.
From Verif Require Import Base Base64Spec PemSpec StrstrModel MpiModel RsaKeyModel RsaKeySpec TdpKeyModel TdpModel KeyVal HmacModel.

(** * OpenSSL *)
(** BN_num_bits and BN_num_bytes *)
Definition BN_num_bits (x : Z) : Z := if x =? 0 then 0 else Z.log2 (Z.abs x) + 1.
Definition BN_num_bytes (x : Z) : Z := (BN_num_bits x + 7) / 8.
(** BN_bn2bin: the bytes written *)
Definition BN_bn2bin (x : Z) : bytes := be_encode (Z.to_nat (BN_num_bytes x)) (Z.abs x).
(** BN_mod_exp on non-negative numbers, [r] being the destination: unchanged when the call fails *)
Definition BN_mod_exp (r a p m : Z) : Z := if m <=? 0 then r else Zpow_mod a p m mod m.
(** BN_div(nullptr, rem, m, d, ctx): the remainder has the sign of the dividend *)
Definition BN_rem (r m d : Z) : Z := if d =? 0 then r else Z.rem m d.
(** BN_mod_sub and BN_mod_mul: the result is not negative *)
Definition BN_mod_sub (r a b m : Z) : Z := if m =? 0 then r else (a - b) mod (Z.abs m).
Definition BN_mod_mul (r a b m : Z) : Z := if m =? 0 then r else (a * b) mod (Z.abs m).
(** RSA_size *)
Definition RSA_size (k : rsa_pub) : Z := BN_num_bytes (pub_N k).
(** RSA_public_encrypt(flen, from, to, rsa, RSA_NO_PADDING) (RSA_eay_public_encrypt): the returned number, and the bytes of [to].
    OPENSSL_RSA_MAX_MODULUS_BITS is 16384, OPENSSL_RSA_SMALL_MODULUS_BITS 3072, OPENSSL_RSA_MAX_PUBEXP_BITS 64. *)
Definition RSA_public_encrypt (from to : bytes) (k : rsa_pub) : outcome (Z * bytes) :=
  let num := RSA_size k in
  if 16384 <? BN_num_bits (pub_N k) then Ok (-1, to)
  else if pub_N k <=? pub_E k then Ok (-1, to)
  else if (3072 <? BN_num_bits (pub_N k)) && (64 <? BN_num_bits (pub_E k)) then Ok (-1, to)
  else if negb (zlen from =? num) then Ok (-1, to)
  else if pub_N k <=? be_decode from then Ok (-1, to)
  else
    to <- wr to 0 (be_encode (Z.to_nat num) (BN_mod_exp 0 (be_decode from) (pub_E k) (pub_N k))) ;;
    Ok (num, to).
(** RSA_eay_mod_exp: Chinese remainder theorem, and the computation modulo n when the result is not a root *)
Definition RSA_eay_mod_exp (k : rsa_key) (i : Z) : Z :=
  let m1 := BN_mod_exp 0 (i mod key_Q k) (key_DQ k) (key_Q k) in
  let r0 := BN_mod_exp 0 (i mod key_P k) (key_DP k) (key_P k) - m1 in
  let r0 := if r0 <? 0 then r0 + key_P k else r0 in
  let r0 := Z.rem (r0 * key_QP k) (key_P k) in
  let r0 := if r0 <? 0 then r0 + key_P k else r0 in
  let r0 := r0 * key_Q k + m1 in
  if (BN_mod_exp 0 r0 (key_E k) (key_N k) - i) mod key_N k =? 0 then r0
  else BN_mod_exp 0 i (key_D k) (key_N k).
(** RSA_private_decrypt(flen, from, to, rsa, RSA_NO_PADDING) (RSA_eay_private_decrypt), blinding being off (set_rsa_key,
    tdp_impl_openssl.cpp:119-130) *)
Definition RSA_private_decrypt (from to : bytes) (k : rsa_key) : outcome (Z * bytes) :=
  let num := RSA_size (key_pub k) in
  if num <? zlen from then Ok (-1, to)
  else if key_N k <=? be_decode from then Ok (-1, to)
  else
    to <- wr to 0 (be_encode (Z.to_nat num) (RSA_eay_mod_exp k (be_decode from))) ;;
    Ok (num, to).
(** RSAPublicKey_dup: the public part of the key *)
Definition RSAPublicKey_dup (k : rsa_pub) : rsa_pub := {| pub_N := pub_N k; pub_E := pub_E k |}.
(** PEM_write_bio_RSA_PUBKEY: a SubjectPublicKeyInfo *)
Definition PEM_write_RSA_PUBKEY (k : rsa_pub) : bytes := pem_public_key (pub_N k) (pub_E k).
(** PEM_write_bio_PKCS8PrivateKey without encryption: a PrivateKeyInfo (RFC 5208) labelled PRIVATE KEY *)
Definition der_pkcs8 (k : rsa_key) : bytes := der_sequence (der_integer 0 ++ der_rsa_algorithm ++ der_tlv 4 (der_private_key k)).
Definition label_pkcs8 : bytes := [80; 82; 73; 86; 65; 84; 69; 32; 75; 69; 89].
Definition PEM_write_PKCS8PrivateKey (k : rsa_key) : bytes := pem_text (pem_header label_pkcs8) (pem_footer label_pkcs8) (der_pkcs8 k).
(** The text of BIO_new_mem_buf(data, static_cast<int>(length)): a negative length means up to the first zero *)
Fixpoint upto_zero (s : bytes) : bytes :=
  match s with [] => [] | c :: s => if c =? 0 then [] else c :: upto_zero s end.
Definition BIO_text (s : bytes) : bytes :=
  let n := (zlen s + 2 ^ 31) mod 2 ^ 32 - 2 ^ 31 in
  if n <? 0 then upto_zero s else firstn (Z.to_nat n) s.

(** * TdpImpl_OpenSSL *)
(** TdpImpl_OpenSSL(const std::string&), tdp_impl_openssl.cpp:67-98; [read]: PEM_read_bio_RSA_PUBKEY *)
Definition ossl_from_public (read : bytes -> option rsa_pub) (pk : bytes) : outcome rsa_pub :=
  match read (BIO_text pk) with None => Throw RuntimeError | Some k => Ok k end.
(** The copy constructor, operator= (the new value of the object) and duplicate, tdp_impl_openssl.cpp:100-112, 335-338 *)
Definition ossl_copy (k : rsa_pub) : rsa_pub := RSAPublicKey_dup k.
Definition ossl_assign (self t : rsa_pub) : rsa_pub := RSAPublicKey_dup t.
(** TdpImpl_OpenSSL::public_key, tdp_impl_openssl.cpp:143-181 *)
Definition ossl_public_key (k : rsa_pub) : bytes := PEM_write_RSA_PUBKEY k.
(** [pos = kMessageSpaceSize - BN_num_bytes(y)], filling [pos] bytes with zeros and BN_bn2bin(y, out.data() + pos); the
    difference wraps around when y does not fit in the array *)
Definition put_bn (y : Z) : outcome bytes :=
  if kMessageSize <? BN_num_bytes y then UB
  else Ok (zeros (Z.to_nat (kMessageSize - BN_num_bytes y)) ++ BN_bn2bin y).
(** TdpImpl_OpenSSL::eval (array), tdp_impl_openssl.cpp:201-238; assert aborts *)
Definition ossl_eval (k : rsa_pub) (inp : bytes) : outcome bytes :=
  if negb (kMessageSize =? RSA_size k) then Throw RuntimeError
  else
    let y := BN_mod_exp 0 (be_decode inp) (pub_E k) (pub_N k) in
    if kMessageSize <? BN_num_bytes y then Abort else put_bn y.
(** TdpImpl_OpenSSL::eval (string), tdp_impl_openssl.cpp:183-199; the memcpy reads kMessageSpaceSize bytes *)
Definition ossl_eval_string (k : rsa_pub) (s : bytes) : outcome bytes :=
  if negb (zlen s =? RSA_size k) then Throw InvalidArgument
  else
    inp <- rd (str_data s) 0 kMessageSize ;;
    ossl_eval k inp.
(** TdpImpl_OpenSSL::sample_array, tdp_impl_openssl.cpp:248-273; [rnd]: BN_rand_range *)
Definition ossl_sample (k : rsa_pub) (rnd : Z -> option Z) : outcome bytes :=
  match rnd (pub_N k) with None => Throw RuntimeError | Some x => put_bn x end.
(** TdpImpl_OpenSSL::generate_array (Prf), tdp_impl_openssl.cpp:284-313; [H] is the hash function of the PRF, [gp], [r], [t] the
    uninitialised buffers of Prf::prf *)
Definition ossl_generate (H : bytes -> bytes) (ml : bool) (gp : Z -> bytes) (r t : bytes) (k : rsa_pub) (pk : vkey) (seed : bytes)
  : vkey * outcome bytes :=
  let '(pk, o) := prf_string H ml gp kRSAPrfSize pk seed r t in
  (pk, rnd <- o ;; put_bn (BN_rem 0 (be_decode rnd) (pub_N k))).
(** TdpImpl_OpenSSL::generate_array (Key), tdp_impl_openssl.cpp:325-332 *)
Definition ossl_generate_key (H : bytes -> bytes) (ml : bool) (gp : Z -> bytes) (r t : bytes) (k : rsa_pub) (key : vkey) (seed : bytes)
  : vkey * outcome bytes :=
  match prf_ctor key with
  | (key, Ok pk) => (key, snd (ossl_generate H ml gp r t k pk seed))
  | (key, Throw e) => (key, Throw e)
  | (key, _) => (key, UB)
  end.

(** * TdpInverseImpl_OpenSSL *)
(** The key and the members p_1_ and q_1_ (phi_ is not used) *)
Record ossl_inverse := { oi_key : rsa_key; oi_p_1 : Z; oi_q_1 : Z }.
(** tdp_impl_openssl.cpp:367-378 and 420-430 *)
Definition ossl_members (k : rsa_key) : ossl_inverse := {| oi_key := k; oi_p_1 := key_P k - 1; oi_q_1 := key_Q k - 1 |}.
(** TdpInverseImpl_OpenSSL(), tdp_impl_openssl.cpp:340-380; [gen bits e]: RSA_generate_key_ex *)
Definition ossl_new (gen : Z -> Z -> option rsa_key) : outcome ossl_inverse :=
  match gen RSA_MODULUS_SIZE RSA_PK with None => Throw RuntimeError | Some k => Ok (ossl_members k) end.
(** TdpInverseImpl_OpenSSL(const std::string&), tdp_impl_openssl.cpp:382-430; [read]: PEM_read_bio_PrivateKey; [Some None] is a
    key of another algorithm, for which EVP_PKEY_get1_RSA returns a null pointer, refused by set_rsa_key *)
Definition ossl_from_private (read : bytes -> option (option rsa_key)) (sk : bytes) : outcome ossl_inverse :=
  match read (BIO_text sk) with
  | None => Throw RuntimeError
  | Some None => Throw InvalidArgument
  | Some (Some k) => Ok (ossl_members k)
  end.
(** TdpInverseImpl_OpenSSL::private_key, tdp_impl_openssl.cpp:440-491 *)
Definition ossl_private_key (o : ossl_inverse) : bytes := PEM_write_PKCS8PrivateKey (oi_key o).
(** TdpInverseImpl_OpenSSL::invert (string), tdp_impl_openssl.cpp:494-520 *)
Definition ossl_invert_string (o : ossl_inverse) (g : bytes) (s : bytes) : outcome bytes :=
  if negb (zlen s =? kMessageSize) then Throw InvalidArgument
  else
    '(ret, out) <- RSA_private_decrypt s g (oi_key o) ;;
    if ret <? 0 then Throw RuntimeError else rd out 0 ret.
(** TdpInverseImpl_OpenSSL::invert (array), tdp_impl_openssl.cpp:522-534: the returned number is ignored *)
Definition ossl_invert (o : ossl_inverse) (g : bytes) (inp : bytes) : outcome bytes :=
  '(_, out) <- RSA_private_decrypt inp g (oi_key o) ;; Ok out.
(** TdpInverseImpl_OpenSSL::invert_mult (array), tdp_impl_openssl.cpp:536-598 *)
Definition ossl_invert_mult (o : ossl_inverse) (inp : bytes) (order : Z) : outcome bytes :=
  let k := oi_key o in
  if order =? 0 then Ok inp
  else if negb (kMessageSize =? RSA_size (key_pub k)) then Throw InvalidArgument
  else
    let d_p := BN_mod_exp 0 (key_D k) order (oi_p_1 o) in
    let d_q := BN_mod_exp 0 (key_D k) order (oi_q_1 o) in
    let x := be_decode inp in
    let y_p := BN_mod_exp 0 x d_p (key_P k) in
    let y_q := BN_mod_exp 0 x d_q (key_Q k) in
    let h := BN_mod_sub 0 y_p y_q (key_P k) in
    let h := BN_mod_mul h h (key_QP k) (key_P k) in
    put_bn (h * key_Q k + y_q).
(** TdpInverseImpl_OpenSSL::invert_mult (string), tdp_impl_openssl.cpp:600-611 *)
Definition ossl_invert_mult_string (o : ossl_inverse) (s : bytes) (order : Z) : outcome bytes :=
  inp <- rd (str_data s) 0 kMessageSize ;;
  ossl_invert_mult o inp order.
(** TdpInverse::serialize and deserialize (tdp.cpp:288-329) with this implementation *)
Definition ossl_serialize (o : ossl_inverse) (out : bytes) : outcome bytes := wr out 0 (ossl_private_key o).
Definition ossl_deserialize (read : bytes -> option (option rsa_key)) (buf : bytes) (in_size : Z) : outcome (ossl_inverse * Z) :=
  r <- strstrn buf in_size tdp_key_suffix tdp_suffix_size ;;
  match r with
  | None => Throw RuntimeError
  | Some pos =>
    if pos <=? 0 then Throw RuntimeError
    else
      let n := u64 (tdp_suffix_size + pos) in
      sk <- rd buf 0 (pos + tdp_suffix_size) ;;
      k <- ossl_from_private read sk ;;
      n <- (if n <? in_size then c <- rd1 buf n ;; Ok (if c =? 10 then u64 (n + 1) else n) else Ok n) ;;
      Ok (k, n)
  end.

(** * TdpMultPoolImpl_OpenSSL *)
(** The key of the base class and the keys of the array keys_; keys_count_ is its length *)
Record ossl_pool := { op_key : rsa_pub; op_keys : list rsa_pub }.
(** BN_mul_word(key->e, RSA_PK) on a copy of the key *)
Definition next_key (k : rsa_pub) : rsa_pub :=
  let k := RSAPublicKey_dup k in {| pub_N := pub_N k; pub_E := pub_E k * RSA_PK |}.
(** The [n] remaining iterations of the loop tdp_impl_openssl.cpp:628-631, [k] being keys_[i - 1] *)
Fixpoint ossl_pool_loop (n : nat) (k : rsa_pub) : list rsa_pub :=
  match n with O => [] | S n' => let k := next_key k in k :: ossl_pool_loop n' k end.
(** TdpMultPoolImpl_OpenSSL(const std::string&, uint8_t), tdp_impl_openssl.cpp:614-632, after the construction of the base class.
    keys_[0] is written whatever the length of the array. *)
Definition ossl_pool_new (k : rsa_pub) (size : Z) : outcome ossl_pool :=
  let keys_count := u8 (size - 1) in
  if size =? 0 then Throw InvalidArgument
  else if keys_count =? 0 then UB
  else
    let k0 := next_key k in
    Ok {| op_key := k; op_keys := k0 :: ossl_pool_loop (Z.to_nat (keys_count - 1)) k0 |}.
(** The copy constructor, tdp_impl_openssl.cpp:634-643; used by TdpMultPool's copy constructor and assignment (tdp.cpp:335-346) *)
Definition ossl_pool_copy (p : ossl_pool) : ossl_pool :=
  {| op_key := ossl_copy (op_key p); op_keys := map RSAPublicKey_dup (op_keys p) |}.
(** TdpMultPoolImpl_OpenSSL::operator=, tdp_impl_openssl.cpp:645-665 (this != &t): the base class is not assigned *)
Definition ossl_pool_assign (self t : ossl_pool) : ossl_pool :=
  {| op_key := op_key self; op_keys := map RSAPublicKey_dup (op_keys t) |}.
(** TdpMultPoolImpl_OpenSSL::maximum_order, tdp_impl_openssl.cpp:728-731 *)
Definition ossl_maximum_order (p : ossl_pool) : Z := u8 (zlen (op_keys p) + 1).
(** TdpMultPoolImpl_OpenSSL::eval_pool (array), tdp_impl_openssl.cpp:676-707: the number returned by RSA_public_encrypt is ignored;
    keys_[order - 2] outside of the array is undefined *)
Definition ossl_pool_eval (p : ossl_pool) (g : bytes) (inp : bytes) (order : Z) : outcome bytes :=
  key <- (if order =? 1 then Ok (op_key p)
          else if order <=? ossl_maximum_order p then
            if (0 <=? order - 2) && (order - 2 <? zlen (op_keys p)) then
              match nth_error (op_keys p) (Z.to_nat (order - 2)) with Some k => Ok k | None => UB end
            else UB
          else Throw InvalidArgument) ;;
  '(_, out) <- RSA_public_encrypt inp g key ;; Ok out.
(** TdpMultPoolImpl_OpenSSL::eval_pool (string), tdp_impl_openssl.cpp:709-726 *)
Definition ossl_pool_eval_string (p : ossl_pool) (g : bytes) (s : bytes) (order : Z) : outcome bytes :=
  if negb (zlen s =? RSA_size (op_key p)) then Throw InvalidArgument
  else
    inp <- rd (str_data s) 0 kMessageSize ;;
    ossl_pool_eval p g inp order.
