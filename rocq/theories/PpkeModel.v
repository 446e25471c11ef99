(** Model of the puncturable encryption: src/ppke/GMPpke.{hpp,cpp}, src/ppke/util.hpp, the parts of
    src/ppke/relic_wrapper/relic_api.{h,cpp} it uses, src/puncturable_enc.cpp and
    src/include/sse/crypto/puncturable_enc.hpp.  No proofs here.

    The RELIC library is not in the repository: its groups, its pairing, its extended gcd and its hash function are
    parameters (record [relic]).  RELIC is taken to be initialised (otherwise every constructor throws runtime_error,
    relic_api.cpp:17-27).  A RELIC read of bytes that encode no point ([rbin] = None) is undefined behaviour here: the
    wrapper does not look at RELIC's error state.  [bn_rand] is an argument of the functions that call it. *)
From Verif Require Import Base KeyVal HmacModel.

(** A RELIC group with its compressed encoding (g1_add/g1_mul/g1_size_bin/g1_write_bin/g1_read_bin and those of g2, gt):
    [wbin g] has as many bytes as g1_size_bin(g, 1) says. *)
Record cgroup := {
  car : Type;
  op : car -> car -> car;
  gunit : car;
  pow : car -> Z -> car;
  wbin : car -> bytes;
  rbin : bytes -> option car
}.

Record relic := {
  G1 : cgroup;
  G2 : cgroup;
  GT : cgroup;
  gt_inv : car GT -> car GT;
  pairing : car G1 -> car G2 -> car GT;
  gen1 : car G1;
  gen2 : car G2;
  genT : car GT;
  (** g1_get_ord *)
  order : Z;
  (** bn_gcd_ext(s, c, nullptr, a, order): the cofactor c *)
  gcd_ext : Z -> Z -> Z;
  (** SHA_FUNC *)
  sha : bytes -> bytes
}.

(** RLC_FP_BYTES: 32, forced by the static_asserts puncturable_enc.cpp:31-34. *)
Definition FP_BYTES : Z := 32.
(** kCompactByteSize of G1 relic_api.h (1 + RLC_FP_BYTES) and of G2 (1 + 2 * RLC_FP_BYTES). *)
Definition G1_SIZE : Z := 1 + FP_BYTES.
Definition G2_SIZE : Z := 1 + 2 * FP_BYTES.
(** kTagSize GMPpke.hpp:26, puncturable_enc.hpp:54. *)
Definition TAG_SIZE : Z := 16.
(** GmppkePrivateKeyShare::kByteSize GMPpke.hpp:105-106; kKeyShareSize puncturable_enc.hpp:59. *)
Definition SHARE_SIZE : Z := 3 * G2_SIZE + TAG_SIZE.
(** PartialGmmppkeCT::kByteSize GMPpke.hpp:211-212; kCTByteSize for T = uint64_t GMPpke.hpp:253-254; kCiphertextSize. *)
Definition PARTIAL_CT_SIZE : Z := 2 * G1_SIZE + TAG_SIZE.
Definition CT_SIZE : Z := PARTIAL_CT_SIZE + 8.
(** The 12 * RLC_FP_BYTES array of encrypt GMPpke.hpp:342. *)
Definition GT_SIZE : Z := 12 * FP_BYTES.

(** Gmppke::NULLTAG GMPpke.cpp:22-36: fifteen initialisers for sixteen bytes. *)
Definition NULLTAG : bytes := [0; 1; 2; 3; 4; 5; 6; 7; 8; 16; 17; 18; 19; 20; 21; 0].

(** std::to_string(size_t): decimal digits (at most twenty). *)
Fixpoint dec_digits (fuel : nat) (d : Z) : bytes :=
  match fuel with
  | O => []
  | S f => (if d <? 10 then [] else dec_digits f (d / 10)) ++ [48 + d mod 10]
  end.
Definition to_dec (d : Z) : bytes := dec_digits 20 d.

(** The seeds of GMPpke.cpp: "param_alpha", "param_beta", "param_ry", "param_r", "param_rho_", "param_l_", "param_r1_". *)
Definition S_param : bytes := [112; 97; 114; 97; 109; 95].
Definition S_alpha : bytes := S_param ++ [97; 108; 112; 104; 97].
Definition S_beta : bytes := S_param ++ [98; 101; 116; 97].
Definition S_ry : bytes := S_param ++ [114; 121].
Definition S_r : bytes := S_param ++ [114].
Definition S_rho (d : Z) : bytes := S_param ++ [114; 104; 111; 95] ++ to_dec d.
Definition S_l (d : Z) : bytes := S_param ++ [108; 95] ++ to_dec d.
Definition S_r1 (d : Z) : bytes := S_param ++ [114; 49; 95] ++ to_dec d.

(** ZR: an integer (bn_t).  The order is [n].  relic_api.cpp:85-145. *)
Section ZR.
  Variable n : Z.
  Variable gext : Z -> Z -> Z.
  (** operator+ relic_api.cpp:92-98 *)
  Definition zr_add (x y : Z) : Z := (x + y) mod n.
  (** operator-(x, y) relic_api.cpp:100-111: a negative difference is only shifted by the order. *)
  Definition zr_sub (x y : Z) : Z := let z := x - y in if z <? 0 then z + n else z mod n.
  (** unary operator- relic_api.cpp:113-121 *)
  Definition zr_neg (x : Z) : Z := let z := - x in if z <? 0 then z + n else z.
  (** operator* relic_api.cpp:124-135 *)
  Definition zr_mul (x y : Z) : Z := let z := x * y in if z <? 0 then z + n else z mod n.
  (** invertZR relic_api.cpp:28-39 *)
  Definition zr_inv (a : Z) : Z := let c := gext a n in if c <? 0 then c + n else c.
  (** operator/ relic_api.cpp:137-145; RelicDividByZero is a logic_error. *)
  Definition zr_div (x y : Z) : outcome Z := if y =? 0 then Throw LogicError else Ok (zr_mul x (zr_inv y)).

  (** The loop of LagrangeBasisCoefficients util.hpp:19-38 over the points [xs] starting at index [m]; the
      RelicDividByZero exception is turned into a logic_error. *)
  Fixpoint lagrange_loop (x xj : Z) (j m : nat) (xs : list Z) (prod : Z) : outcome Z :=
    match xs with
    | [] => Ok prod
    | xm :: xs' =>
      if Nat.eqb j m then lagrange_loop x xj j (S m) xs' prod
      else interim <- zr_div (zr_sub x xm) (zr_sub xj xm) ;;
           lagrange_loop x xj j (S m) xs' (zr_mul prod interim)
    end.
  (** LagrangeBasisCoefficients util.hpp:12-39 *)
  Definition lagrange_basis (j : nat) (x : Z) (xs : list Z) : outcome Z :=
    match nth_error xs j with
    | None => Throw OutOfRange
    | Some xj => lagrange_loop x xj j 0 xs 1
    end.

  (** LagrangeInterpInExponent util.hpp:47-63, from index [j] on. *)
  Fixpoint lagrange_exp (G : cgroup) (x : Z) (xs : list Z) (j : nat) (ys : list (car G)) (prod : car G) : outcome (car G) :=
    match ys with
    | [] => Ok prod
    | y :: ys' =>
      c <- lagrange_basis j x xs ;;
      lagrange_exp G x xs (S j) ys' (op G prod (pow G y c))
    end.
  Definition lagrange_interp (G : cgroup) (x : Z) (xs : list Z) (ys : list (car G)) : outcome (car G) :=
    lagrange_exp G x xs 0 ys (gunit G).
End ZR.

(** GmppkeSecretParameters GMPpke.hpp:184-205 *)
Record secret_params := { sp_alpha : Z; sp_beta : Z; sp_ry : Z }.

Section Ppke.
  Variable R : relic.
  (** Hash::hash (BLAKE2b, 64-byte digests, 128-byte blocks), and whether memory locking works. *)
  Variable H : bytes -> bytes.
  Variable ml : bool.
  (** Are asserts active? *)
  Variable dbg : bool.
  (** Content of the uninitialised buffers of hmac. *)
  Variable u1 u2 : bytes.

  Notation n := (order R).
  Notation add := (zr_add n).
  Notation sub := (zr_sub n).
  Notation mul := (zr_mul n).
  Notation exp1 := (pow (G1 R)).
  Notation exp2 := (pow (G2 R)).
  Notation expT := (pow (GT R)).

  (** hashToZR relic_api.cpp:162-183 (called by hashListToZR relic_api.h:694-699): reduced only when larger than the
      order. *)
  Definition hash_to_zr (b : bytes) : Z :=
    let z := be_decode (sha R (1 :: b)) in if n <? z then z mod n else z.

  (** randomZR relic_api.cpp:702-709; [t]: what bn_rand returns. *)
  Definition random_zr (t : Z) : Z := t mod n.
  (** pseudoRandomZR relic_api.cpp:711-721; [prf]: Prf<kPrfOutputSize>::prf of the key object. *)
  Definition pseudo_random_zr (prf : bytes -> bytes) (seed : bytes) : Z := be_decode (prf seed) mod n.

  (** GmppkePublicKey GMPpke.hpp:57-98 *)
  Record public_key := {
    pk_gG1 : car (G1 R); pk_gG2 : car (G2 R); pk_g2G1 : car (G1 R); pk_g2G2 : car (G2 R);
    pk_ppkeg1 : car (G2 R); pk_gqofxG1 : list (car (G1 R)); pk_gqofxG2 : list (car (G2 R)) }.
  (** GmppkePrivateKeyShare GMPpke.hpp:102-151; the private key (GMPpke.hpp:153-182) is the list of its shares. *)
  Record share := { sk1 : car (G2 R); sk2 : car (G2 R); sk3 : car (G2 R); sk4 : bytes }.
  (** PartialGmmppkeCT GMPpke.hpp:208-246 *)
  Record partial_ct := { ct2 : car (G1 R); ct3 : car (G1 R); ct_tag : bytes }.
  (** GmmppkeCT<uint64_t> GMPpke.hpp:249-288 *)
  Record ciphertext := { ct1 : Z; ct_partial : partial_ct }.

  (** isPuncturedOnTag GMPpke.cpp:44-51 *)
  Definition is_punctured_on_tag (sk : list share) (tag : bytes) : bool :=
    existsb (fun s => bytes_eqb (sk4 s) tag) sk.

  (** vx GMPpke.hpp:437-445 *)
  Definition vx (G : cgroup) (gqofx : list (car G)) (x : bytes) : outcome (car G) :=
    lagrange_interp n (gcd_ext R) G (hash_to_zr x) [0; 1] gqofx.

  (** The exponent beta + h * ry of skgen, sk0Gen, skShareGen and blind. *)
  Definition v_exponent (sp : secret_params) (h : Z) : Z := add (sp_beta sp) (mul h (sp_ry sp)).

  (** skgen GMPpke.cpp:204-237, both overloads: [r] random or pseudo-random. *)
  Definition skgen (sp : secret_params) (r : Z) : share :=
    let h := hash_to_zr NULLTAG in
    let s3 := exp2 (gen2 R) r in
    {| sk1 := exp2 (gen2 R) (mul (sp_beta sp) (add r (sp_alpha sp)));
       sk2 := exp2 s3 (v_exponent sp h); sk3 := s3; sk4 := NULLTAG |}.

  (** keygenPartial GMPpke.cpp:122-202 on the base key made by keygen: the public key. *)
  Definition make_pk (alpha beta ry : Z) : public_key :=
    let g2G1 := exp1 (gen1 R) beta in
    let g2G2 := exp2 (gen2 R) beta in
    {| pk_gG1 := gen1 R; pk_gG2 := gen2 R; pk_g2G1 := g2G1; pk_g2G2 := g2G2;
       pk_ppkeg1 := exp2 (gen2 R) alpha;
       pk_gqofxG1 := [g2G1; op (G1 R) (exp1 (gen1 R) ry) g2G1];
       pk_gqofxG2 := [g2G2; op (G2 R) (exp2 (gen2 R) ry) g2G2] |}.

  (** keygen(pk, sk, sp) GMPpke.cpp:53-75 with fresh objects; [ta tb ty tr]: the four bn_rand results in call order. *)
  Definition keygen_random (ta tb ty tr : Z) : public_key * list share * secret_params :=
    let alpha := random_zr ta in
    let beta := random_zr tb in
    let sp := {| sp_alpha := alpha; sp_beta := beta; sp_ry := random_zr ty |} in
    (make_pk alpha beta (sp_ry sp), [skgen sp (random_zr tr)], sp).

  (** paramgen GMPpke.cpp:113-119 *)
  Definition paramgen (prf : bytes -> bytes) : secret_params :=
    {| sp_alpha := pseudo_random_zr prf S_alpha; sp_beta := pseudo_random_zr prf S_beta;
       sp_ry := pseudo_random_zr prf S_ry |}.

  (** keygen(prf, pk, sk, sp) GMPpke.cpp:77-111 with fresh objects. *)
  Definition keygen_prf (prf : bytes -> bytes) : public_key * list share * secret_params :=
    let sp := paramgen prf in
    let alpha := pseudo_random_zr prf S_alpha in
    let beta := pseudo_random_zr prf S_beta in
    (make_pk alpha beta (sp_ry sp), [skgen sp (pseudo_random_zr prf S_r)], sp).

  (** sk0Gen GMPpke.cpp:239-278 *)
  Definition sk0_gen (prf : bytes -> bytes) (sp : secret_params) (d : Z) : share :=
    let h := hash_to_zr NULLTAG in
    if d =? 0 then
      let r := pseudo_random_zr prf (S_rho 0) in
      let s3 := exp2 (gen2 R) r in
      {| sk1 := exp2 (gen2 R) (mul (sp_beta sp) (add r (sp_alpha sp)));
         sk2 := exp2 s3 (v_exponent sp h); sk3 := s3; sk4 := NULLTAG |}
    else
      let rho_d := pseudo_random_zr prf (S_rho d) in
      let l_d := pseudo_random_zr prf (S_l d) in
      let s3 := exp2 (gen2 R) rho_d in
      {| sk1 := exp2 (gen2 R) (mul (sp_beta sp) (sub rho_d l_d));
         sk2 := exp2 s3 (v_exponent sp h); sk3 := s3; sk4 := NULLTAG |}.

  (** skShareGen GMPpke.cpp:280-308 *)
  Definition sk_share_gen (prf : bytes -> bytes) (sp : secret_params) (d : Z) (tag : bytes) : outcome share :=
    let h := hash_to_zr tag in
    cassert dbg (0 <? d) (
    cassert dbg (negb (bytes_eqb tag NULLTAG)) (
    let r1 := pseudo_random_zr prf (S_r1 d) in
    let l_d := pseudo_random_zr prf (S_l d) in
    let l_d_1 := if 1 <? d then pseudo_random_zr prf (S_l (d - 1)) else zr_neg n (sp_alpha sp) in
    let s3 := exp2 (gen2 R) r1 in
    Ok {| sk1 := exp2 (gen2 R) (mul (sp_beta sp) (add (sub l_d l_d_1) r1));
          sk2 := exp2 s3 (v_exponent sp h); sk3 := s3; sk4 := tag |})).

  (** puncture GMPpke.cpp:311-345; [t0 t1 tl]: the bn_rand results for r0, r1, lambda.  Returns the new share list. *)
  Definition puncture (pk : public_key) (sk : list share) (tag : bytes) (t0 t1 tl : Z) : outcome (list share) :=
    if bytes_eqb tag NULLTAG then Throw InvalidArgument else
    match sk with
    | [] => Throw OutOfRange
    | s0 :: rest =>
      let r0 := random_zr t0 in
      let r1 := random_zr t1 in
      let lambda := random_zr tl in
      cassert dbg (bytes_eqb (sk4 s0) NULLTAG) (
      vofx <- vx (G2 R) (pk_gqofxG2 pk) NULLTAG ;;
      vofx2 <- vx (G2 R) (pk_gqofxG2 pk) tag ;;
      let s0' := {| sk1 := op (G2 R) (sk1 s0) (exp2 (pk_g2G2 pk) (sub r0 lambda));
                    sk2 := op (G2 R) (sk2 s0) (exp2 vofx r0);
                    sk3 := op (G2 R) (sk3 s0) (exp2 (pk_gG2 pk) r0); sk4 := sk4 s0 |} in
      let sn := {| sk1 := exp2 (pk_g2G2 pk) (add r1 lambda); sk2 := exp2 vofx2 r1;
                   sk3 := exp2 (pk_gG2 pk) r1; sk4 := tag |} in
      Ok ((s0' :: rest) ++ [sn]))
    end.

  (** blind(pk, s, tag) GMPpke.cpp:347-363 *)
  Definition blind_pk (pk : public_key) (s : Z) (tag : bytes) : outcome partial_ct :=
    if bytes_eqb tag NULLTAG then Throw InvalidArgument else
    vofx <- vx (G1 R) (pk_gqofxG1 pk) tag ;;
    Ok {| ct2 := exp1 (pk_gG1 pk) s; ct3 := exp1 vofx s; ct_tag := tag |}.
  (** blind(sp, s, tag) GMPpke.cpp:365-384 *)
  Definition blind_sp (sp : secret_params) (s : Z) (tag : bytes) : outcome partial_ct :=
    if bytes_eqb tag NULLTAG then Throw InvalidArgument else
    let c2 := exp1 (gen1 R) s in
    let h := hash_to_zr tag in
    Ok {| ct2 := c2; ct3 := exp1 c2 (v_exponent sp h); ct_tag := tag |}.

  (** One iteration of recoverBlind GMPpke.cpp:401-421; [group.div] is operator/ on GT relic_api.cpp:532-546. *)
  Definition recover_one (ct : partial_ct) (s0 : share) : outcome (car (GT R)) :=
    let ctTag := hash_to_zr (ct_tag ct) in
    let currentTag := hash_to_zr (sk4 s0) in
    w0 <- lagrange_basis n (gcd_ext R) 0 0 [ctTag; currentTag] ;;
    wstar <- lagrange_basis n (gcd_ext R) 1 0 [ctTag; currentTag] ;;
    let ct3prod := op (G1 R) (gunit (G1 R)) (exp1 (ct3 ct) w0) in
    let denominator := op (GT R) (pairing R ct3prod (sk3 s0)) (pairing R (exp1 (ct2 ct) wstar) (sk2 s0)) in
    let nominator := pairing R (ct2 ct) (sk1 s0) in
    Ok (op (GT R) nominator (gt_inv R denominator)).
  Fixpoint recover_all (ct : partial_ct) (shares : list share) : outcome (list (car (GT R))) :=
    match shares with
    | [] => Ok []
    | s :: shares' => z <- recover_one ct s ;; zs <- recover_all ct shares' ;; Ok (z :: zs)
    end.
  (** recoverBlind GMPpke.cpp:387-429: the number of shares is kept in an unsigned int. *)
  Definition recover_blind (sk : list share) (ct : partial_ct) : outcome (car (GT R)) :=
    let numshares := u32 (zlen sk) in
    zs <- recover_all ct (firstn (Z.to_nat numshares) sk) ;;
    Ok (fold_left (op (GT R)) zs (gunit (GT R))).

  (** GT::getBytes(false, out_len, out) relic_api.cpp:611-623, and GT::getBytes(false) relic_api.cpp:601-609. *)
  Definition gt_get_bytes_n (g : car (GT R)) (out_len : Z) : bytes :=
    let data := wbin (GT R) g in
    firstn (Z.to_nat out_len) data ++ zeros (Z.to_nat (out_len - zlen data)).
  Definition gt_get_bytes (g : car (GT R)) : bytes := wbin (GT R) g.

  (** HMac<Hash, kTagSize> keyed with a copy of the tag, and the first sizeof(uint64_t) bytes of its output read as a
      (little-endian) integer: GMPpke.hpp:337-353, 364-379, 411-421. *)
  Definition compute_mask (tag gtb : bytes) : outcome Z :=
    mask <- snd (hmac H 128 64 ml TAG_SIZE (v_make ml tag) (Some gtb) (zlen gtb) (Some (zeros 8)) 0 8 u1 u2) ;;
    Ok (le_decode mask).

  (** encrypt(pk, M, tag) GMPpke.hpp:329-354; [t]: the bn_rand result. *)
  Definition encrypt_pk (pk : public_key) (m : Z) (tag : bytes) (t : Z) : outcome ciphertext :=
    let s := random_zr t in
    ct <- blind_pk pk s tag ;;
    mask <- compute_mask tag (gt_get_bytes_n (expT (pairing R (pk_g2G1 pk) (pk_ppkeg1 pk)) s) GT_SIZE) ;;
    Ok {| ct1 := Z.lxor mask m; ct_partial := ct |}.
  (** encrypt(sp, M, tag) GMPpke.hpp:356-380 *)
  Definition encrypt_sp (sp : secret_params) (m : Z) (tag : bytes) (t : Z) : outcome ciphertext :=
    let s := random_zr t in
    ct <- blind_sp sp s tag ;;
    mask <- compute_mask tag (gt_get_bytes_n (expT (genT R) (mul (mul (sp_alpha sp) (sp_beta sp)) s)) GT_SIZE) ;;
    Ok {| ct1 := Z.lxor mask m; ct_partial := ct |}.
  (** decrypt_unchecked GMPpke.hpp:403-422 *)
  Definition decrypt_unchecked (sk : list share) (ct : ciphertext) : outcome Z :=
    gt <- recover_blind sk (ct_partial ct) ;;
    mask <- compute_mask (ct_tag (ct_partial ct)) (gt_get_bytes gt) ;;
    Ok (Z.lxor mask (ct1 ct)).
  (** decrypt(sk, ct) GMPpke.hpp:382-391: PuncturedCiphertext is an invalid_argument. *)
  Definition decrypt_throwing (sk : list share) (ct : ciphertext) : outcome Z :=
    if is_punctured_on_tag sk (ct_tag (ct_partial ct)) then Throw InvalidArgument else decrypt_unchecked sk ct.
  (** decrypt(sk, ct, m) GMPpke.hpp:392-401: None for false. *)
  Definition decrypt (sk : list share) (ct : ciphertext) : outcome (option Z) :=
    if is_punctured_on_tag sk (ct_tag (ct_partial ct)) then Ok None
    else m <- decrypt_unchecked sk ct ;; Ok (Some m).

  (** G1::writeBytes relic_api.cpp:364-371 and G2::writeBytes relic_api.cpp:482-489, compressed; [size]: kCompactByteSize. *)
  Definition write_point (G : cgroup) (size : Z) (buf : bytes) (pos : Z) (g : car G) : outcome bytes :=
    let data := wbin G g in
    cassert dbg (zlen data =? size) (wr buf pos data).
  (** G1(bytes, true) relic_api.cpp:283-289, G2(bytes, true) relic_api.cpp:394-402 *)
  Definition read_point (G : cgroup) (size : Z) (buf : bytes) (pos : Z) : outcome (car G) :=
    b <- rd buf pos size ;;
    match rbin G b with Some g => Ok g | None => UB end.

  (** GmppkePrivateKeyShare::writeBytes GMPpke.hpp:131-138, into the array [buf]. *)
  Definition write_share (s : share) (buf : bytes) : outcome bytes :=
    buf <- write_point (G2 R) G2_SIZE buf 0 (sk1 s) ;;
    buf <- write_point (G2 R) G2_SIZE buf G2_SIZE (sk2 s) ;;
    buf <- write_point (G2 R) G2_SIZE buf (2 * G2_SIZE) (sk3 s) ;;
    wr buf (3 * G2_SIZE) (sk4 s).
  (** GmppkePrivateKeyShare(bytes) GMPpke.hpp:110-116 *)
  Definition read_share (b : bytes) : outcome share :=
    p1 <- read_point (G2 R) G2_SIZE b 0 ;;
    p2 <- read_point (G2 R) G2_SIZE b G2_SIZE ;;
    p3 <- read_point (G2 R) G2_SIZE b (2 * G2_SIZE) ;;
    t <- rd b (3 * G2_SIZE) TAG_SIZE ;;
    Ok {| sk1 := p1; sk2 := p2; sk3 := p3; sk4 := t |}.
  (** GmmppkeCT<uint64_t>::writeBytes GMPpke.hpp:267-271, PartialGmmppkeCT::writeBytes GMPpke.hpp:232-238 *)
  Definition write_ct (c : ciphertext) (buf : bytes) : outcome bytes :=
    buf <- wr buf 0 (le_encode 8 (ct1 c)) ;;
    buf <- write_point (G1 R) G1_SIZE buf 8 (ct2 (ct_partial c)) ;;
    buf <- write_point (G1 R) G1_SIZE buf (8 + G1_SIZE) (ct3 (ct_partial c)) ;;
    wr buf (8 + 2 * G1_SIZE) (ct_tag (ct_partial c)).
  (** GmmppkeCT<uint64_t>(bytes) GMPpke.hpp:258-262, PartialGmmppkeCT(bytes) GMPpke.hpp:216-221 *)
  Definition read_ct (b : bytes) : outcome ciphertext :=
    p2 <- read_point (G1 R) G1_SIZE b 8 ;;
    p3 <- read_point (G1 R) G1_SIZE b (8 + G1_SIZE) ;;
    t <- rd b (8 + 2 * G1_SIZE) TAG_SIZE ;;
    c1 <- rd b 0 8 ;;
    Ok {| ct1 := le_decode c1; ct_partial := {| ct2 := p2; ct3 := p3; ct_tag := t |} |}.

  (** PuncturableEncryption puncturable_enc.cpp:60-127; [prf]: the PRF keyed with the master key; [buf]: the
      uninitialised result array.  The secret parameters are those computed by the constructor (60-64). *)
  Definition penc_encrypt (prf : bytes -> bytes) (m : Z) (tag : bytes) (t : Z) (buf : bytes) : outcome bytes :=
    ct <- encrypt_sp (paramgen prf) m tag t ;;
    write_ct ct buf.
  Definition penc_initial_keyshare (prf : bytes -> bytes) (d : Z) (buf : bytes) : outcome bytes :=
    write_share (sk0_gen prf (paramgen prf) d) buf.
  Definition penc_inc_puncture (prf : bytes -> bytes) (d : Z) (tag : bytes) (buf : bytes) : outcome bytes :=
    ks <- sk_share_gen prf (paramgen prf) d tag ;;
    write_share ks buf.

  (** PuncturableDecryption puncturable_enc.cpp:144-179: the constructor's share vector, and decrypt. *)
  Fixpoint pdec_make (key : list bytes) : outcome (list share) :=
    match key with
    | [] => Ok []
    | b :: key' => s <- read_share b ;; ss <- pdec_make key' ;; Ok (s :: ss)
    end.
  Definition pdec_decrypt (sk : list share) (ct_bytes : bytes) : outcome (option Z) :=
    c <- read_ct ct_bytes ;;
    decrypt sk c.
End Ppke.

(** extract_tag of a key share puncturable_enc.hpp:79-84 and of a ciphertext puncturable_enc.hpp:88-93: the last
    kTagSize bytes of the array. *)
Definition extract_tag_share (ks : bytes) : outcome bytes := rd ks (SHARE_SIZE - TAG_SIZE) TAG_SIZE.
Definition extract_tag_ct (c : bytes) : outcome bytes := rd c (CT_SIZE - TAG_SIZE) TAG_SIZE.
