(** Model of what the functions of src/tdp_impl/tdp_impl_openssl.cpp allocate and release.

    A resource is an RSA structure, a BIGNUM, a BN_CTX, a BIO, an EVP_PKEY, a buffer of malloc or an array of new[].  RSA structures and EVP_PKEY count references.
    Using or releasing a resource that has been released, or one of another type, is [UB]; releasing a null pointer does nothing.  [nums] are the numbers that the memory of a resource holds:
    of an RSA structure n, e, d, p, q (or n, e), of a BIGNUM its value; those of the local variables of the functions on messages are left out, except d_p and d_q of invert_mult.
    RSA_free clears what it releases, BN_free does not (OpenSSL 1.0.2, crypto/rsa/rsa_lib.c and crypto/bn/bn_lib.c).  Allocations of OpenSSL, malloc and new[] succeed. *)
From Coq Require Import Zpow_facts.
From Verif Require Import Base.

Inductive kind := KRsa | KBn | KCtx | KBio | KEvp | KBuf | KArr.
Record cell := MkCell { kind_of : kind; refs : nat; nums : list Z }.
Definition heap := list cell.
Definition kind_eqb (a b : kind) : bool :=
  match a, b with KRsa, KRsa | KBn, KBn | KCtx, KCtx | KBio, KBio | KEvp, KEvp | KBuf, KBuf | KArr, KArr => true | _, _ => false end.
Definition set_nth {A} (l : list A) (i : nat) (x : A) : list A := firstn i l ++ x :: skipn (S i) l.
(** RSA_new, BN_new, BN_dup, BN_bin2bn, BN_CTX_new, BIO_new, EVP_PKEY_new, malloc, new[] *)
Definition new (k : kind) (ns : list Z) (h : heap) : heap * nat := (h ++ [MkCell k 1 ns], length h).
(** A resource is used *)
Definition use (k : kind) (h : heap) (i : nat) : outcome cell :=
  match nth_error h i with Some c => if kind_eqb (kind_of c) k && negb (refs c =? 0)%nat then Ok c else UB | None => UB end.
(** One reference less *)
Definition free (k : kind) (h : heap) (i : nat) : outcome heap :=
  c <- use k h i ;;
  Ok (set_nth h i (MkCell k (refs c - 1) (match k with KRsa => if (refs c =? 1)%nat then [] else nums c | _ => nums c end))).
(** One reference more: EVP_PKEY_get1_RSA and EVP_PKEY_set1_RSA *)
Definition share (h : heap) (i : nat) : outcome heap :=
  c <- use KRsa h i ;; Ok (set_nth h i (MkCell KRsa (S (refs c)) (nums c))).
Definition free_opt (k : kind) (h : heap) (p : option nat) : outcome heap := match p with Some i => free k h i | None => Ok h end.
(** EVP_PKEY_free, where [r] is the RSA structure in it *)
Definition EVP_PKEY_free (h : heap) (i : nat) (r : option nat) : outcome heap := h <- free KEvp h i ;; free_opt KRsa h r.
(** RSAPublicKey_dup *)
Definition dup (h : heap) (i : nat) : outcome (heap * nat) := c <- use KRsa h i ;; Ok (new KRsa (firstn 2 (nums c)) h).
Fixpoint free_all (k : kind) (h : heap) (l : list nat) : outcome heap :=
  match l with [] => Ok h | i :: l => h <- free k h i ;; free_all k h l end.
Fixpoint dup_all (h : heap) (l : list nat) : outcome (heap * list nat) :=
  match l with [] => Ok (h, []) | i :: l => '(h, j) <- dup h i ;; '(h, js) <- dup_all h l ;; Ok (h, j :: js) end.

(** Objects: rsa_key_, then the members of the derived classes *)
Inductive obj :=
| Dead
| Tdp (key : nat)
| Inv (key phi p_1 q_1 : nat)
| Pool (key arr : nat) (keys : list nat).
(** set_rsa_key, tdp_impl_openssl.cpp:119-130; the new value of rsa_key_ and whether an exception is thrown *)
Definition set_rsa_key (h : heap) (old k : option nat) : outcome (heap * option nat * bool) :=
  match k with
  | None => Ok (h, old, true)
  | Some k => h <- free_opt KRsa h old ;; _ <- use KRsa h k ;; Ok (h, Some k, false)
  end.
(** TdpImpl_OpenSSL(const std::string&), tdp_impl_openssl.cpp:67-98; [text]: the key that PEM_read_bio_RSA_PUBKEY reads.  None: an exception *)
Definition from_public (text : option (list Z)) (h : heap) : outcome (heap * option nat) :=
  let '(h, mem) := new KBio [] h in
  match text with
  | None => h <- free KBio h mem ;; Ok (h, None)
  | Some ns => let '(h, k) := new KRsa ns h in h <- free KBio h mem ;; Ok (h, Some k)
  end.
(** The copy constructor, tdp_impl_openssl.cpp:100-103 *)
Definition copy (h : heap) (k : nat) : outcome (heap * option nat * bool) :=
  '(h, j) <- dup h k ;; set_rsa_key h None (Some j).
Definition num_d (ns : list Z) := nth 2 ns 0.
Definition num_p (ns : list Z) := nth 3 ns 0.
Definition num_q (ns : list Z) := nth 4 ns 0.
(** tdp_impl_openssl.cpp:367-378 and 420-430 *)
Definition members (h : heap) (k : nat) : outcome (heap * obj) :=
  let '(h, phi) := new KBn [] h in
  c <- use KRsa h k ;;
  let '(h, p_1) := new KBn [num_p (nums c) - 1] h in
  let '(h, q_1) := new KBn [num_q (nums c) - 1] h in
  let '(h, ctx) := new KCtx [] h in
  h <- free KCtx h ctx ;;
  Ok (h, Inv k phi p_1 q_1).
(** TdpInverseImpl_OpenSSL(), tdp_impl_openssl.cpp:340-380; [word]: BN_set_word returns 1; [key]: the key that RSA_generate_key_ex puts into the structure, if it returns 1.
    After an exception the destructor of the base class runs. *)
Definition generated (word : bool) (key : option (list Z)) (h : heap) : outcome (heap * obj) :=
  let '(h, k) := new KRsa [] h in
  '(h, rsa, _) <- set_rsa_key h None (Some k) ;;
  let '(h, bne) := new KBn [65537] h in
  if negb word then h <- free KBn h bne ;; h <- free_opt KRsa h rsa ;; Ok (h, Dead)
  else
    match key with
    | None => h <- free KBn h bne ;; h <- free_opt KRsa h rsa ;; Ok (h, Dead)
    | Some ns =>
      c <- use KRsa h k ;;
      '(h, o) <- members (set_nth h k (MkCell KRsa (refs c) ns)) k ;;
      h <- free KBn h bne ;;
      Ok (h, o)
    end.
(** TdpInverseImpl_OpenSSL(const std::string&), tdp_impl_openssl.cpp:382-430; [text]: what PEM_read_bio_PrivateKey reads, [Some None] is a key of another algorithm *)
Definition from_private (text : option (option (list Z))) (h : heap) : outcome (heap * obj) :=
  let '(h, mem) := new KBio [] h in
  match text with
  | None => h <- free KBio h mem ;; Ok (h, Dead)
  | Some None =>
    let '(h, evp) := new KEvp [] h in
    '(h, rsa, thrown) <- set_rsa_key h None None ;;
    h <- free_opt KRsa h rsa ;;
    Ok (h, Dead)
  | Some (Some ns) =>
    let '(h, k) := new KRsa ns h in
    let '(h, evp) := new KEvp [] h in
    h <- share h k ;;
    '(h, _, _) <- set_rsa_key h None (Some k) ;;
    h <- EVP_PKEY_free h evp (Some k) ;;
    h <- free KBio h mem ;;
    members h k
  end.
(** TdpMultPoolImpl_OpenSSL(const std::string&, uint8_t), tdp_impl_openssl.cpp:614-632.  keys_[0] is written whatever the length of the array. *)
Fixpoint pool_keys (n : nat) (h : heap) (k : nat) : outcome (heap * list nat) :=
  match n with
  | O => Ok (h, [])
  | S n => '(h, j) <- dup h k ;; '(h, js) <- pool_keys n h j ;; Ok (h, j :: js)
  end.
Definition pool_new (text : option (list Z)) (size : Z) (h : heap) : outcome (heap * obj) :=
  '(h, k) <- from_public text h ;;
  match k with
  | None => Ok (h, Dead)
  | Some k =>
    if size =? 0 then h <- free KRsa h k ;; Ok (h, Dead)
    else if size =? 1 then UB
    else
      let '(h, arr) := new KArr [] h in
      '(h, js) <- pool_keys (Z.to_nat (size - 1)) h k ;;
      Ok (h, Pool k arr js)
  end.
(** Destructors, tdp_impl_openssl.cpp:137-141, 432-438, 667-673 *)
Definition destroy (o : obj) (h : heap) : outcome heap :=
  match o with
  | Dead => UB
  | Tdp k => free KRsa h k
  | Inv k phi p_1 q_1 => h <- free_all KBn h [phi; p_1; q_1] ;; free KRsa h k
  | Pool k arr js => h <- free_all KRsa h js ;; h <- free KArr h arr ;; free KRsa h k
  end.
Definition key_of (o : obj) : option nat := match o with Dead => None | Tdp k | Inv k _ _ _ | Pool k _ _ => Some k end.

(** Functions; the booleans say whether what they call succeeds *)
Inductive function :=
| FPublicKey (write read string : bool)       (* public_key, tdp_impl_openssl.cpp:143-181; [string]: the constructor of std::string has memory *)
| FEval (size : bool)                         (* eval, tdp_impl_openssl.cpp:201-238; [size]: the modulus has the right size *)
| FSample (ok : bool)                         (* sample_array, tdp_impl_openssl.cpp:248-273 *)
| FGenerate                                   (* generate_array, tdp_impl_openssl.cpp:284-313 *)
| FPrivateKey (set write read string : bool)  (* private_key, tdp_impl_openssl.cpp:440-491 *)
| FInvert (ok : bool)                         (* invert, tdp_impl_openssl.cpp:494-534 *)
| FInvertMult (order : Z) (size : bool)       (* invert_mult, tdp_impl_openssl.cpp:536-598 *)
| FEvalPool (order : Z).                      (* eval_pool, tdp_impl_openssl.cpp:676-707 *)
(** Reading the BIO into a std::string, tdp_impl_openssl.cpp:161-180 and 470-490; whether an exception is thrown *)
Definition bio_text (h : heap) (evp : option nat) (k bio : nat) (read string : bool) : outcome (heap * bool) :=
  let done h := (match evp with Some e => EVP_PKEY_free h e (Some k) | None => Ok h end) in
  let '(h, buf) := new KBuf [] h in
  if negb read then h <- done h ;; h <- free KBio h bio ;; h <- free KBuf h buf ;; Ok (h, true)
  else if negb string then Ok (h, true)
  else h <- done h ;; h <- free KBio h bio ;; h <- free KBuf h buf ;; Ok (h, false).
Definition call_function (o : obj) (f : function) (h : heap) : outcome (heap * bool) :=
  match key_of o with
  | None => UB
  | Some k =>
    c <- use KRsa h k ;;
    match f, o with
    | FPublicKey write read string, _ =>
      let '(h, bio) := new KBio [] h in
      if negb write then h <- free KBio h bio ;; Ok (h, true) else bio_text h None k bio read string
    | FEval size, _ =>
      if negb size then Ok (h, true)
      else
        let '(h, ctx) := new KCtx [] h in let '(h, x) := new KBn [] h in let '(h, y) := new KBn [] h in
        h <- free_all KBn h [y; x] ;; h <- free KCtx h ctx ;; Ok (h, false)
    | FSample ok, _ =>
      let '(h, rnd) := new KBn [] h in
      if negb ok then h <- free KBn h rnd ;; Ok (h, true) else h <- free KBn h rnd ;; Ok (h, false)
    | FGenerate, _ =>
      let '(h, ctx) := new KCtx [] h in let '(h, rnd_bn) := new KBn [] h in let '(h, rnd_mod) := new KBn [] h in
      h <- free_all KBn h [rnd_bn; rnd_mod] ;; h <- free KCtx h ctx ;; Ok (h, false)
    | FPrivateKey set write read string, Inv _ _ _ _ =>
      let '(h, evp) := new KEvp [] h in
      if negb set then h <- EVP_PKEY_free h evp None ;; Ok (h, true)
      else
        h <- share h k ;;
        let '(h, bio) := new KBio [] h in
        if negb write then h <- EVP_PKEY_free h evp (Some k) ;; h <- free KBio h bio ;; Ok (h, true)
        else bio_text h (Some evp) k bio read string
    | FInvert ok, Inv _ _ _ _ => Ok (h, negb ok)
    | FInvertMult order size, Inv _ _ p_1 q_1 =>
      if order =? 0 then Ok (h, false)
      else if negb size then Ok (h, true)
      else
        let '(h, ctx) := new KCtx [] h in let '(h, bn_order) := new KBn [] h in
        _ <- use KBn h p_1 ;; _ <- use KBn h q_1 ;;
        let '(h, d_p) := new KBn [Zpow_mod (num_d (nums c)) order (num_p (nums c) - 1)] h in
        let '(h, d_q) := new KBn [Zpow_mod (num_d (nums c)) order (num_q (nums c) - 1)] h in
        let '(h, x) := new KBn [] h in let '(h, y_p) := new KBn [] h in let '(h, y_q) := new KBn [] h in
        let '(h, hh) := new KBn [] h in let '(h, y) := new KBn [] h in
        h <- free_all KBn h [bn_order; d_p; d_q; y_p; y_q; hh; y; x] ;; h <- free KCtx h ctx ;; Ok (h, false)
    | FEvalPool order, Pool _ arr js =>
      if order =? 1 then Ok (h, false)
      else if order <=? Z.of_nat (length js) + 1 then
        _ <- use KArr h arr ;;
        if order <? 2 then UB
        else match nth_error js (Z.to_nat (order - 2)) with Some j => _ <- use KRsa h j ;; Ok (h, false) | None => UB end
      else Ok (h, true)
    | _, _ => UB
    end
  end.

(** Programs on numbered variables; the last component of a step says whether an exception is thrown.  A constructor is called for a variable that is not alive. *)
Inductive op :=
| OPublic (v : nat) (text : option (list Z))
| OCopy (v w : nat)
| OAssign (v w : nat)
| OGenerate (v : nat) (word : bool) (key : option (list Z))
| OPrivate (v : nat) (text : option (option (list Z)))
| OPool (v : nat) (text : option (list Z)) (size : Z)
| OPoolCopy (v w : nat)
| OPoolAssign (v w : nat)
| OCall (v : nat) (f : function)
| ODestroy (v : nat).
Definition put (os : list obj) (v : nat) (o : obj) : list obj := set_nth os v o.
Definition dead (os : list obj) (v : nat) : bool := match nth_error os v with Some Dead => true | _ => false end.
Definition is_dead (o : obj) : bool := match o with Dead => true | _ => false end.
Definition step (h : heap) (os : list obj) (p : op) : outcome (heap * list obj * bool) :=
  match p with
  | OPublic v text =>
    if negb (dead os v) then UB
    else '(h, k) <- from_public text h ;; Ok (match k with Some k => (h, put os v (Tdp k), false) | None => (h, os, true) end)
  | OCopy v w =>
    if negb (dead os v) then UB
    else match key_of (nth w os Dead) with
         | None => UB
         | Some k => '(h, j, _) <- copy h k ;; match j with Some j => Ok (h, put os v (Tdp j), false) | None => UB end
         end
  | OAssign v w =>  (* operator=, tdp_impl_openssl.cpp:105-112 *)
    match nth v os Dead, key_of (nth w os Dead) with
    | Tdp old, Some k =>
      if (v =? w)%nat then Ok (h, os, false)
      else
        '(h, j) <- dup h k ;;
        '(h, r, thrown) <- set_rsa_key h (Some old) (Some j) ;;
        match r with Some r => Ok (h, put os v (Tdp r), thrown) | None => UB end
    | _, _ => UB
    end
  | OGenerate v word key => if negb (dead os v) then UB else '(h, o) <- generated word key h ;; Ok (h, put os v o, is_dead o)
  | OPrivate v text => if negb (dead os v) then UB else '(h, o) <- from_private text h ;; Ok (h, put os v o, is_dead o)
  | OPool v text size => if negb (dead os v) then UB else '(h, o) <- pool_new text size h ;; Ok (h, put os v o, is_dead o)
  | OPoolCopy v w =>  (* tdp_impl_openssl.cpp:634-643 *)
    if negb (dead os v) then UB
    else match nth w os Dead with
         | Pool k arr js =>
           '(h, j, _) <- copy h k ;;
           match j with
           | None => UB
           | Some j =>
             let '(h, arr) := new KArr [] h in
             '(h, js) <- dup_all h js ;;
             Ok (h, put os v (Pool j arr js), false)
           end
         | _ => UB
         end
  | OPoolAssign v w =>  (* tdp_impl_openssl.cpp:645-665: the base class is not assigned *)
    match nth v os Dead, nth w os Dead with
    | Pool k arr js, Pool _ _ ks =>
      if (v =? w)%nat then Ok (h, os, false)
      else
        h <- free_all KRsa h js ;;
        '(h, arr) <- (if negb (length js =? length ks)%nat then h <- free KArr h arr ;; Ok (new KArr [] h) else Ok (h, arr)) ;;
        '(h, js) <- dup_all h ks ;;
        Ok (h, put os v (Pool k arr js), false)
    | _, _ => UB
    end
  | OCall v f => '(h, thrown) <- call_function (nth v os Dead) f h ;; Ok (h, os, thrown)
  | ODestroy v => h <- destroy (nth v os Dead) h ;; Ok (h, put os v Dead, false)
  end.
Fixpoint run (h : heap) (os : list obj) (ps : list op) : outcome (heap * list obj * list bool) :=
  match ps with
  | [] => Ok (h, os, [])
  | p :: ps => '(h, os, t) <- step h os p ;; '(h, os, ts) <- run h os ps ;; Ok (h, os, t :: ts)
  end.
