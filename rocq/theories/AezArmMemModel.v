(** src/aez/aez.c:337-872 with abytes = 0 and with the source and the destination in one memory, as in AezMemModel.v, but with the functions that depend on the
    processor as parameters, as in AezArchModel.v; then the ARM path (aez.c:132-219) and the pointer versions of encrypt and decrypt in src/prp.cpp. *)
From Verif Require Import Base KeyVal AezModel PrpModel AezArchModel.

Section Common.
  (** double_block, bswap16, sll4, srl4, is_zero, aes (the first argument is the context), aes4 *)
  Variables dblk bsw s4l s4r : bytes -> bytes.
  Variable isz : bytes -> bool.
  Variable aesf : ctx -> bytes -> bytes -> bytes.
  Variable aes4f : bytes -> bytes -> bytes -> bytes -> bytes -> bytes.

  (** The stores to dst + 0, 2, 4, ... of pass_one, aez.c:367-377; [pos]: the distance from the start of both buffers. *)
  Fixpoint m_p1_even_g (c : ctx) (os : list bytes) (sp dp pos : Z) (m : bytes) : outcome bytes :=
    match os with
    | [] => Ok m
    | o :: os' =>
      s1 <- load m (sp + (pos + 16)) ;; s0 <- load m (sp + pos) ;;
      m <- wr m (dp + pos) (aes4f (vxor s1 o) (cJ0 c) (cI0 c) (cL c) s0) ;;
      m_p1_even_g c os' sp dp (pos + 32) m
    end.
  (** The stores to dst + 1, 3, 5, ... of pass_one and the sum, aez.c:378-401 *)
  Fixpoint m_p1_odd_g (c : ctx) (os : list bytes) (sp dp pos : Z) (m sum : bytes) : outcome (bytes * bytes) :=
    match os with
    | [] => Ok (m, sum)
    | _ :: os' =>
      d0 <- load m (dp + pos) ;; s1 <- load m (sp + (pos + 16)) ;;
      let tmp := aes4f d0 (cJ0 c) (cI0 c) (cL c) s1 in
      m <- wr m (dp + (pos + 16)) tmp ;;
      m_p1_odd_g c os' sp dp (pos + 32) m (vxor sum tmp)
    end.
  (** One group of stores, aez.c:367-401 *)
  Definition m_p1_group_g (c : ctx) (os : list bytes) (sp dp pos : Z) (m sum : bytes) : outcome (bytes * bytes) :=
    m <- m_p1_even_g c os sp dp pos m ;; m_p1_odd_g c os sp dp pos m sum.
  (** The while loop, aez.c:357-404: position, remaining bytes, offset, memory and sum *)
  Fixpoint m_p1_loop_g (fuel : nat) (c : ctx) (sp dp pos bytes_ : Z) (dbl m sum : bytes) : outcome (Z * Z * bytes * bytes * bytes) :=
    match fuel with
    | O => Diverge
    | S fuel' =>
      if 256 <=? bytes_ then
        '(m, sum) <- m_p1_group_g c (offs8 c (bsw dbl)) sp dp pos m sum ;;
        m_p1_loop_g fuel' c sp dp (pos + 256) (bytes_ - 256) (dblk dbl) m sum
      else Ok (pos, bytes_, bsw dbl, m, sum)
    end.
  (** pass_one, aez.c:337-457: memory and sum *)
  Definition m_pass_one_g (c : ctx) (sp dp bytes_ : Z) (m : bytes) : outcome (bytes * bytes) :=
    let dbl := dblk (bsw (cI2 c)) in
    '(pos, bytes_, offset, m, sum) <- m_p1_loop_g (S (Z.to_nat (bytes_ / 256))) c sp dp 0 bytes_ dbl m zero ;;
    '(pos, bytes_, offset, m, sum) <-
      (if 128 <=? bytes_ then
         '(m, sum) <- m_p1_group_g c (offs4 c offset) sp dp pos m sum ;;
         Ok (pos + 128, bytes_ - 128, vxor offset (cI2 c), m, sum)
       else Ok (pos, bytes_, offset, m, sum)) ;;
    '(pos, bytes_, offset, m, sum) <-
      (if 64 <=? bytes_ then
         '(m, sum) <- m_p1_group_g c (offs2 c offset) sp dp pos m sum ;;
         Ok (pos + 64, bytes_ - 64, vxor offset (cI1 c), m, sum)
       else Ok (pos, bytes_, offset, m, sum)) ;;
    if negb (bytes_ =? 0) then m_p1_group_g c [offset] sp dp pos m sum else Ok (m, sum).

  (** pass_two, aez.c:461-606; positions are offsets in the memory *)
  Definition m_pass_two_g (c : ctx) (s : bytes) (dp bytes_ : Z) (m : bytes) : outcome (bytes * bytes) :=
    let dbl := dblk (bsw (cI2 c)) in
    '(pos, bytes_, offset, m, sum) <- p2_loop_g dblk bsw aes4f (S (Z.to_nat (bytes_ / 256))) c s dp bytes_ dbl m zero ;;
    '(pos, bytes_, offset, m, sum) <-
      (if 128 <=? bytes_ then
         '(m, sum) <- p2_group_g aes4f c s (offs4 c offset) pos m sum ;;
         Ok (pos + 128, bytes_ - 128, vxor offset (cI2 c), m, sum)
       else Ok (pos, bytes_, offset, m, sum)) ;;
    '(pos, bytes_, offset, m, sum) <-
      (if 64 <=? bytes_ then
         '(m, sum) <- p2_group_g aes4f c s (offs2 c offset) pos m sum ;;
         Ok (pos + 64, bytes_ - 64, vxor offset (cI1 c), m, sum)
       else Ok (pos, bytes_, offset, m, sum)) ;;
    if negb (bytes_ =? 0) then p2_group_g aes4f c s [offset] pos m sum else Ok (m, sum).

  (** cipher_aez_core, aez.c:610-698: return value and memory *)
  Definition m_core_g (c : ctx) (t : bytes) (d : Z) (sp dp bytes_ : Z) (m : bytes) : outcome (Z * bytes) :=
    let I := cI0 c in let L := cL c in let J := cJ0 c in let I4 := cI2 c in
    let frag_bytes := bytes_ mod 32 in
    let initial_bytes := u32 (u32 (bytes_ - frag_bytes) - 32) in
    '(m, x) <- m_pass_one_g c sp dp initial_bytes m ;;
    '(frag0, frag1, x) <-
      (if 16 <=? frag_bytes then
         frag0 <- load m (sp + initial_bytes) ;;
         b <- load m (sp + (initial_bytes + 16)) ;;
         frag1 <- one_zero_pad b (32 - frag_bytes) ;;
         let x := aes4f (vxor frag0 I4) J I L x in
         let x := vxor x (aes4f (vxor (vxor frag1 I4) I) J I L zero) in
         Ok (frag0, frag1, x)
       else if negb (frag_bytes =? 0) then
         b <- load m (sp + initial_bytes) ;;
         frag0 <- one_zero_pad b (16 - frag_bytes) ;;
         Ok (frag0, zero, aes4f (vxor frag0 I4) J I L x)
       else Ok (zero, zero, x)) ;;
    b <- load m (sp + (bytes_ - 32)) ;;
    let final0 := vxor (vxor b x) t in
    final1 <- load m (sp + (bytes_ - 32 + 16)) ;;
    let final0 := aes4f (vxor final1 (cI c d)) J I L final0 in
    let final1 := vxor final1 (aesf c final0 (cJ c d)) in
    let s := vxor final0 final1 in
    let final0 := vxor final0 (aesf c final1 (cJ c (1 - d))) in
    p <- load pad 0 ;;
    if negb (d =? 0) && negb (isz (vandnot p final0)) then Ok (-1, m)
    else
      let final1 := aes4f (vxor final0 (cI c (1 - d))) J I L final1 in
      '(m, y) <- m_pass_two_g c s dp initial_bytes m ;;
      '(m, y) <-
        (if 16 <=? frag_bytes then
           let frag0 := vxor frag0 (aesf c s (cJ2 c)) in
           let frag1 := vxor frag1 (aesf c s (vxor (cJ2 c) J)) in
           frag1 <- one_zero_pad frag1 (32 - frag_bytes) ;;
           let y := aes4f (vxor frag0 I4) J I L y in
           let y := vxor y (aes4f (vxor (vxor frag1 I4) I) J I L zero) in
           m <- wr m (dp + initial_bytes) frag0 ;;
           m <- wr m (dp + (initial_bytes + 16)) frag1 ;;
           Ok (m, y)
         else if negb (frag_bytes =? 0) then
           let frag0 := vxor frag0 (aesf c s (cJ2 c)) in
           frag0 <- one_zero_pad frag0 (16 - frag_bytes) ;;
           let y := aes4f (vxor frag0 I4) J I L y in
           m <- wr m (dp + initial_bytes) frag0 ;;
           Ok (m, y)
         else Ok (m, y)) ;;
      m <- wr m (dp + (bytes_ - 32)) (vxor (vxor final1 y) t) ;;
      m <- wr m (dp + (bytes_ - 32 + 16)) final0 ;;
      Ok (0, m).

  (** cipher_aez_tiny, aez.c:702-819: return value and memory *)
  Definition m_tiny_g (c : ctx) (t : bytes) (d : Z) (sp dp bytes_ : Z) (m : bytes) : outcome (Z * bytes) :=
    let I := cI0 c in let L := cL c in let J := cJ0 c in
    let t_orig := t in
    let half := bytes_ / 2 in
    let odd := negb (Z.land bytes_ 1 =? 0) in
    buf <-
      (if 16 <=? bytes_ then
         b0 <- load m sp ;; b1 <- load_partial m (sp + 16) (bytes_ - 16) ;; b1 <- zero_pad b1 (32 - bytes_) ;; Ok (b0 ++ b1)
       else b0 <- load_partial m sp bytes_ ;; b0 <- zero_pad b0 (16 - bytes_) ;; Ok (b0 ++ zero)) ;;
    l <- load buf 0 ;;
    r <- load buf half ;;
    mask_ff <- load pad (16 - half) ;;
    mask_10 <- load pad (32 - half) ;;
    '(mask_10, mask_ff, r) <-
      (if odd then
         mf <- wr mask_ff half [0xf0] ;;
         Ok (s4l mask_10, mf, bsw (s4r (bsw r)))
       else Ok (mask_10, mask_ff, r)) ;;
    let r := vor (vand r mask_ff) mask_10 in
    let '(t, rnds) :=
      if 16 <=? bytes_ then (vxor (vxor t (cI1 c)) (cI2 c), 8)
      else (vxor (vxor t (cI0 c)) (vxor (cI1 c) (cI2 c)),
            if 3 <=? bytes_ then 10 else if bytes_ =? 2 then 16 else 24) in
    '(one, rcon) <-
      (if d =? 0 then one <- zero_set_byte 1 15 ;; Ok (one, zero)
       else one <- zero_set_byte (-1) 15 ;; rcon <- zero_set_byte (rnds - 1) 15 ;; Ok (one, rcon)) ;;
    p80 <- load pad 32 ;;
    let l :=
      if negb (d =? 0) && (bytes_ <? 16) then
        let tmp := vor l p80 in
        let tmp := aes4f (vxor (vxor tmp t_orig) (vxor (cI0 c) (cI1 c))) J I L zero in
        vxor l (vand tmp p80)
      else l in
    let (l, r) := feistel_g aes4f (Z.to_nat (rnds / 2)) c t mask_ff mask_10 one l r rcon in
    buf <- wr buf 0 r ;;
    l <-
      (if odd then
         let l := bsw (s4l (bsw l)) in
         b <- load buf half ;;
         mk <- zero_set_byte 0xf0 0 ;;
         Ok (vor l (vand b mk))
       else Ok l) ;;
    buf <- wr buf half l ;;
    buf <-
      (if (d =? 0) && (bytes_ <? 16) then
         b0 <- load buf 0 ;;
         z <- zero_pad b0 (16 - bytes_) ;;
         let tmp := vor z p80 in
         let tmp := aes4f (vxor (vxor tmp t_orig) (vxor (cI0 c) (cI1 c))) J I L zero in
         wr buf 0 (vxor b0 (vand tmp p80))
       else Ok buf) ;;
    b <- rd buf 0 bytes_ ;;
    m <- wr m dp b ;;
    Ok (0, m).

  (** aez_encrypt, aez.c:823-843; the nonce [n] is in other memory *)
  Definition m_encrypt_g (c : ctx) (n : bytes) (nbytes : Z) (sp bytes_ dp : Z) (m : bytes) : outcome bytes :=
    t <- hash_g dblk bsw aes4f c n nbytes 0 ;;
    if bytes_ =? 0 then Ok m
    else if bytes_ <? 32 then '(_, m) <- m_tiny_g c t 0 sp dp bytes_ m ;; Ok m
    else '(_, m) <- m_core_g c t 0 sp dp bytes_ m ;; Ok m.
  (** aez_decrypt, aez.c:847-870 *)
  Definition m_decrypt_g (c : ctx) (n : bytes) (nbytes : Z) (sp bytes_ dp : Z) (m : bytes) : outcome (Z * bytes) :=
    t <- hash_g dblk bsw aes4f c n nbytes 0 ;;
    if bytes_ =? 0 then Ok (0, m)
    else if bytes_ <? 32 then m_tiny_g c t 1 sp dp bytes_ m
    else m_core_g c t 1 sp dp bytes_ m.

End Common.

Section Arm.
  (** vaesmcq_u8(vaeseq_u8(x, k)) after the addition of the key, as in AezArchModel.v *)
  Variable R : bytes -> bytes.
  (** aez_encrypt and aez_decrypt compiled for ARM, aez.c:823-870 *)
  Definition arm_m_encrypt := m_encrypt_g arm_double arm_bswap16 arm_sll4 arm_srl4 arm_is_zero (arm_aes R) (arm_aes4 R).
  Definition arm_m_decrypt := m_decrypt_g arm_double arm_bswap16 arm_sll4 arm_srl4 arm_is_zero (arm_aes R) (arm_aes4 R).
  (** Prp(Key<kKeySize>&&), prp.cpp:74-105; [old]: what the memory of the context contained.  With 48 bytes the hash function of aez_setup is not called. *)
  Definition arm_prp_make (ml avail : bool) (old : ctx) (k : vkey) : vkey * outcome vkey :=
    if negb avail then (k, Throw RuntimeError)
    else match v_unlock_get k with
    | (k, Ok b) =>
      match arm_setup (fun _ => zeros 48) b 48 old with
      | Ok c => (VEmpty, Ok (v_make ml (ctx_bytes c)))
      | _ => (k, UB)
      end
    | (k, Throw e) => (k, Throw e)
    | (k, _) => (k, UB)
    end.
  (** encrypt(in, len, out), prp.cpp:168-199 *)
  Definition arm_m_prp_encrypt (avail : bool) (k : vkey) (sp len dp : Z) (m : bytes) : vkey * outcome bytes :=
    if negb avail then (k, Throw RuntimeError)
    else match v_unlock_get k with
    | (k, Ok b) => (k, arm_m_encrypt (ctx_of b) (zeros 16) 16 sp len dp m)
    | (k, Throw e) => (k, Throw e)
    | (k, _) => (k, UB)
    end.
  (** decrypt(in, len, out), prp.cpp:229-263 *)
  Definition arm_m_prp_decrypt (ml avail : bool) (k : vkey) (sp len dp : Z) (m : bytes) : vkey * outcome bytes :=
    if negb avail then (k, Throw RuntimeError)
    else match v_unlock_get k with
    | (k, Ok b) =>
      match arm_m_decrypt (ctx_of b) (zeros 16) 16 sp len dp m with
      | Ok (_, m) => (v_lock ml k, Ok m)
      | _ => (k, UB)
      end
    | (k, Throw e) => (k, Throw e)
    | (k, _) => (k, UB)
    end.
End Arm.
