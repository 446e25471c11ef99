(** Model of src/aez/aez.c (AES-NI path, abytes = 0) and of the pointer versions of encrypt and decrypt in src/prp.cpp with the source and the
    destination in one memory [m]: the source starts at offset [sp], the destination at offset [dp], and they may overlap.
    The functions without source pointer (p2_group, p2_loop, feistel, aes, ...) are those of AezModel, which take an offset. *)
From Verif Require Import Base KeyVal AezModel PrpModel.

Section AezMem.
  Variable R : bytes -> bytes.
  (** The stores to dst + 0, 2, 4, ... of pass_one, aez.c:367-377; [pos]: the distance from the start of both buffers. *)
  Fixpoint m_p1_even (c : ctx) (os : list bytes) (sp dp pos : Z) (m : bytes) : outcome bytes :=
    match os with
    | [] => Ok m
    | o :: os' =>
      s1 <- load m (sp + (pos + 16)) ;; s0 <- load m (sp + pos) ;;
      m <- wr m (dp + pos) (aes4 R (vxor s1 o) (cJ0 c) (cI0 c) (cL c) s0) ;;
      m_p1_even c os' sp dp (pos + 32) m
    end.
  (** The stores to dst + 1, 3, 5, ... of pass_one and the sum, aez.c:378-401 *)
  Fixpoint m_p1_odd (c : ctx) (os : list bytes) (sp dp pos : Z) (m sum : bytes) : outcome (bytes * bytes) :=
    match os with
    | [] => Ok (m, sum)
    | _ :: os' =>
      d0 <- load m (dp + pos) ;; s1 <- load m (sp + (pos + 16)) ;;
      let tmp := aes4 R d0 (cJ0 c) (cI0 c) (cL c) s1 in
      m <- wr m (dp + (pos + 16)) tmp ;;
      m_p1_odd c os' sp dp (pos + 32) m (vxor sum tmp)
    end.
  (** One group of stores, aez.c:367-401 *)
  Definition m_p1_group (c : ctx) (os : list bytes) (sp dp pos : Z) (m sum : bytes) : outcome (bytes * bytes) :=
    m <- m_p1_even c os sp dp pos m ;; m_p1_odd c os sp dp pos m sum.
  (** The while loop, aez.c:357-404: position, remaining bytes, offset, memory and sum *)
  Fixpoint m_p1_loop (fuel : nat) (c : ctx) (sp dp pos bytes_ : Z) (dbl m sum : bytes) : outcome (Z * Z * bytes * bytes * bytes) :=
    match fuel with
    | O => Diverge
    | S fuel' =>
      if 256 <=? bytes_ then
        '(m, sum) <- m_p1_group c (offs8 c (bswap16 dbl)) sp dp pos m sum ;;
        m_p1_loop fuel' c sp dp (pos + 256) (bytes_ - 256) (double_block dbl) m sum
      else Ok (pos, bytes_, bswap16 dbl, m, sum)
    end.
  (** pass_one, aez.c:337-457: memory and sum *)
  Definition m_pass_one (c : ctx) (sp dp bytes_ : Z) (m : bytes) : outcome (bytes * bytes) :=
    let dbl := double_block (bswap16 (cI2 c)) in
    '(pos, bytes_, offset, m, sum) <- m_p1_loop (S (Z.to_nat (bytes_ / 256))) c sp dp 0 bytes_ dbl m zero ;;
    '(pos, bytes_, offset, m, sum) <-
      (if 128 <=? bytes_ then
         '(m, sum) <- m_p1_group c (offs4 c offset) sp dp pos m sum ;;
         Ok (pos + 128, bytes_ - 128, vxor offset (cI2 c), m, sum)
       else Ok (pos, bytes_, offset, m, sum)) ;;
    '(pos, bytes_, offset, m, sum) <-
      (if 64 <=? bytes_ then
         '(m, sum) <- m_p1_group c (offs2 c offset) sp dp pos m sum ;;
         Ok (pos + 64, bytes_ - 64, vxor offset (cI1 c), m, sum)
       else Ok (pos, bytes_, offset, m, sum)) ;;
    if negb (bytes_ =? 0) then m_p1_group c [offset] sp dp pos m sum else Ok (m, sum).

  (** pass_two, aez.c:461-606; positions are offsets in the memory *)
  Definition m_pass_two (c : ctx) (s : bytes) (dp bytes_ : Z) (m : bytes) : outcome (bytes * bytes) :=
    let dbl := double_block (bswap16 (cI2 c)) in
    '(pos, bytes_, offset, m, sum) <- p2_loop R (S (Z.to_nat (bytes_ / 256))) c s dp bytes_ dbl m zero ;;
    '(pos, bytes_, offset, m, sum) <-
      (if 128 <=? bytes_ then
         '(m, sum) <- p2_group R c s (offs4 c offset) pos m sum ;;
         Ok (pos + 128, bytes_ - 128, vxor offset (cI2 c), m, sum)
       else Ok (pos, bytes_, offset, m, sum)) ;;
    '(pos, bytes_, offset, m, sum) <-
      (if 64 <=? bytes_ then
         '(m, sum) <- p2_group R c s (offs2 c offset) pos m sum ;;
         Ok (pos + 64, bytes_ - 64, vxor offset (cI1 c), m, sum)
       else Ok (pos, bytes_, offset, m, sum)) ;;
    if negb (bytes_ =? 0) then p2_group R c s [offset] pos m sum else Ok (m, sum).

  (** cipher_aez_core, aez.c:610-698: return value and memory *)
  Definition m_cipher_aez_core (c : ctx) (t : bytes) (d : Z) (sp dp bytes_ : Z) (m : bytes) : outcome (Z * bytes) :=
    let I := cI0 c in let L := cL c in let J := cJ0 c in let I4 := cI2 c in
    let frag_bytes := bytes_ mod 32 in
    let initial_bytes := u32 (u32 (bytes_ - frag_bytes) - 32) in
    '(m, x) <- m_pass_one c sp dp initial_bytes m ;;
    '(frag0, frag1, x) <-
      (if 16 <=? frag_bytes then
         frag0 <- load m (sp + initial_bytes) ;;
         b <- load m (sp + (initial_bytes + 16)) ;;
         frag1 <- one_zero_pad b (32 - frag_bytes) ;;
         let x := aes4 R (vxor frag0 I4) J I L x in
         let x := vxor x (aes4 R (vxor (vxor frag1 I4) I) J I L zero) in
         Ok (frag0, frag1, x)
       else if negb (frag_bytes =? 0) then
         b <- load m (sp + initial_bytes) ;;
         frag0 <- one_zero_pad b (16 - frag_bytes) ;;
         Ok (frag0, zero, aes4 R (vxor frag0 I4) J I L x)
       else Ok (zero, zero, x)) ;;
    b <- load m (sp + (bytes_ - 32)) ;;
    let final0 := vxor (vxor b x) t in
    final1 <- load m (sp + (bytes_ - 32 + 16)) ;;
    let final0 := aes4 R (vxor final1 (cI c d)) J I L final0 in
    let final1 := vxor final1 (aes R c final0 (cJ c d)) in
    let s := vxor final0 final1 in
    let final0 := vxor final0 (aes R c final1 (cJ c (1 - d))) in
    p <- load pad 0 ;;
    if negb (d =? 0) && negb (is_zero (vandnot p final0)) then Ok (-1, m)
    else
      let final1 := aes4 R (vxor final0 (cI c (1 - d))) J I L final1 in
      '(m, y) <- m_pass_two c s dp initial_bytes m ;;
      '(m, y) <-
        (if 16 <=? frag_bytes then
           let frag0 := vxor frag0 (aes R c s (cJ2 c)) in
           let frag1 := vxor frag1 (aes R c s (vxor (cJ2 c) J)) in
           frag1 <- one_zero_pad frag1 (32 - frag_bytes) ;;
           let y := aes4 R (vxor frag0 I4) J I L y in
           let y := vxor y (aes4 R (vxor (vxor frag1 I4) I) J I L zero) in
           m <- wr m (dp + initial_bytes) frag0 ;;
           m <- wr m (dp + (initial_bytes + 16)) frag1 ;;
           Ok (m, y)
         else if negb (frag_bytes =? 0) then
           let frag0 := vxor frag0 (aes R c s (cJ2 c)) in
           frag0 <- one_zero_pad frag0 (16 - frag_bytes) ;;
           let y := aes4 R (vxor frag0 I4) J I L y in
           m <- wr m (dp + initial_bytes) frag0 ;;
           Ok (m, y)
         else Ok (m, y)) ;;
      m <- wr m (dp + (bytes_ - 32)) (vxor (vxor final1 y) t) ;;
      m <- wr m (dp + (bytes_ - 32 + 16)) final0 ;;
      Ok (0, m).

  (** cipher_aez_tiny, aez.c:702-819: return value and memory *)
  Definition m_cipher_aez_tiny (c : ctx) (t : bytes) (d : Z) (sp dp bytes_ : Z) (m : bytes) : outcome (Z * bytes) :=
    let I := cI0 c in let L := cL c in let J := cJ0 c in
    let t_orig := t in
    let half := bytes_ / 2 in
    let odd := negb (Z.land bytes_ 1 =? 0) in
    buf <-
      (if 16 <=? bytes_ then
         b0 <- load m sp ;; b1 <- load_partial m (sp + 16) (bytes_ - 16) ;; b1 <- zero_pad b1 (32 - bytes_) ;; Ok (b0 ++ b1)
       else b0 <- load_partial m sp bytes_ ;; b0 <- zero_pad b0 (16 - bytes_) ;; Ok (b0 ++ zero)) ;;
    l <- load buf 0 ;;
    r <- load buf half ;;
    mask_ff <- load pad (16 - half) ;;
    mask_10 <- load pad (32 - half) ;;
    '(mask_10, mask_ff, r) <-
      (if odd then
         mf <- wr mask_ff half [0xf0] ;;
         Ok (sll4 mask_10, mf, bswap16 (srl4 (bswap16 r)))
       else Ok (mask_10, mask_ff, r)) ;;
    let r := vor (vand r mask_ff) mask_10 in
    let '(t, rnds) :=
      if 16 <=? bytes_ then (vxor (vxor t (cI1 c)) (cI2 c), 8)
      else (vxor (vxor t (cI0 c)) (vxor (cI1 c) (cI2 c)),
            if 3 <=? bytes_ then 10 else if bytes_ =? 2 then 16 else 24) in
    '(one, rcon) <-
      (if d =? 0 then one <- zero_set_byte 1 15 ;; Ok (one, zero)
       else one <- zero_set_byte (-1) 15 ;; rcon <- zero_set_byte (rnds - 1) 15 ;; Ok (one, rcon)) ;;
    p80 <- load pad 32 ;;
    let l :=
      if negb (d =? 0) && (bytes_ <? 16) then
        let tmp := vor l p80 in
        let tmp := aes4 R (vxor (vxor tmp t_orig) (vxor (cI0 c) (cI1 c))) J I L zero in
        vxor l (vand tmp p80)
      else l in
    let (l, r) := feistel R (Z.to_nat (rnds / 2)) c t mask_ff mask_10 one l r rcon in
    buf <- wr buf 0 r ;;
    l <-
      (if odd then
         let l := bswap16 (sll4 (bswap16 l)) in
         b <- load buf half ;;
         mk <- zero_set_byte 0xf0 0 ;;
         Ok (vor l (vand b mk))
       else Ok l) ;;
    buf <- wr buf half l ;;
    buf <-
      (if (d =? 0) && (bytes_ <? 16) then
         b0 <- load buf 0 ;;
         z <- zero_pad b0 (16 - bytes_) ;;
         let tmp := vor z p80 in
         let tmp := aes4 R (vxor (vxor tmp t_orig) (vxor (cI0 c) (cI1 c))) J I L zero in
         wr buf 0 (vxor b0 (vand tmp p80))
       else Ok buf) ;;
    b <- rd buf 0 bytes_ ;;
    m <- wr m dp b ;;
    Ok (0, m).

  (** aez_encrypt, aez.c:823-843; the nonce [n] is in other memory *)
  Definition m_aez_encrypt (c : ctx) (n : bytes) (nbytes : Z) (sp bytes_ dp : Z) (m : bytes) : outcome bytes :=
    t <- aez_hash R c n nbytes ;;
    if bytes_ =? 0 then Ok m
    else if bytes_ <? 32 then '(_, m) <- m_cipher_aez_tiny c t 0 sp dp bytes_ m ;; Ok m
    else '(_, m) <- m_cipher_aez_core c t 0 sp dp bytes_ m ;; Ok m.
  (** aez_decrypt, aez.c:847-870 *)
  Definition m_aez_decrypt (c : ctx) (n : bytes) (nbytes : Z) (sp bytes_ dp : Z) (m : bytes) : outcome (Z * bytes) :=
    t <- aez_hash R c n nbytes ;;
    if bytes_ =? 0 then Ok (0, m)
    else if bytes_ <? 32 then m_cipher_aez_tiny c t 1 sp dp bytes_ m
    else m_cipher_aez_core c t 1 sp dp bytes_ m.

  (** encrypt(in, len, out), prp.cpp:168-199 *)
  Definition m_prp_encrypt (avail : bool) (k : vkey) (sp len dp : Z) (m : bytes) : vkey * outcome bytes :=
    if negb avail then (k, Throw RuntimeError)
    else match v_unlock_get k with
    | (k, Ok b) => (k, m_aez_encrypt (ctx_of b) (zeros 16) 16 sp len dp m)
    | (k, Throw e) => (k, Throw e)
    | (k, _) => (k, UB)
    end.
  (** decrypt(in, len, out), prp.cpp:229-263 *)
  Definition m_prp_decrypt (ml avail : bool) (k : vkey) (sp len dp : Z) (m : bytes) : vkey * outcome bytes :=
    if negb avail then (k, Throw RuntimeError)
    else match v_unlock_get k with
    | (k, Ok b) =>
      match m_aez_decrypt (ctx_of b) (zeros 16) 16 sp len dp m with
      | Ok (_, m) => (v_lock ml k, Ok m)
      | _ => (k, UB)
      end
    | (k, Throw e) => (k, Throw e)
    | (k, _) => (k, UB)
    end.
End AezMem.
