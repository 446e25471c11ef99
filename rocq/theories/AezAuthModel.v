(** src/aez/aez.c with authentication bytes: the functions of AezModel.v again, with their parameter abytes.
    (prp.cpp passes 0; C118_without_authenticator relates the two models.)  pass_one, pass_two and the block functions are those of AezModel.v. *)
From Verif Require Import Base AezModel.

Section Aez.
  Variable R : bytes -> bytes.
  Local Notation aes4 := (aes4 R). Local Notation aes := (aes R).

  (** aez_hash, aez.c:300-333 *)
  Definition aez_hash_a (c : ctx) (n : bytes) (nbytes abytes : Z) : outcome bytes :=
    let I := cI0 c in let L := cL c in let J := cJ0 c in
    let J8 := bswap16 (double_block (bswap16 (cJ2 c))) in
    let tmp := double_block (bswap16 L) in
    let L2 := bswap16 tmp in
    let L4 := bswap16 (double_block tmp) in
    let offset := vxor L J8 in
    tmp <- zero_set_byte (8 * abytes) 15 ;;
    let sum := aes4 (vxor offset tmp) J I L offset in
    let offset := if nbytes =? 16 then vxor L2 J8 else L2 in
    x <- load_partial n 0 nbytes ;;
    tmp <- one_zero_pad x (16 - nbytes) ;;
    let sum := vxor sum (aes4 (vxor offset tmp) J I L offset) in
    let offset := L4 in
    p <- load pad 32 ;;
    let delta3 := aes4 (vxor offset p) J I L offset in
    Ok (vxor sum delta3).

  (** cipher_aez_core, aez.c:610-698: return value and dst *)
  Definition core_a (c : ctx) (t : bytes) (d : Z) (src : bytes) (bytes_ abytes : Z) (dst : bytes) : outcome (Z * bytes) :=
    let I := cI0 c in let L := cL c in let J := cJ0 c in let I4 := cI2 c in
    let bytes_ := if d =? 0 then u32 (bytes_ + abytes) else bytes_ in
    let frag_bytes := bytes_ mod 32 in
    let initial_bytes := u32 (u32 (bytes_ - frag_bytes) - 32) in
    '(dst, x) <- pass_one R c src initial_bytes dst ;;
    '(frag0, frag1, x) <-
      (if 16 <=? frag_bytes then
         frag0 <- load src initial_bytes ;;
         b <- load src (initial_bytes + 16) ;;
         frag1 <- one_zero_pad b (32 - frag_bytes) ;;
         let x := aes4 (vxor frag0 I4) J I L x in
         let x := vxor x (aes4 (vxor (vxor frag1 I4) I) J I L zero) in
         Ok (frag0, frag1, x)
       else if negb (frag_bytes =? 0) then
         b <- load src initial_bytes ;;
         frag0 <- one_zero_pad b (16 - frag_bytes) ;;
         Ok (frag0, zero, aes4 (vxor frag0 I4) J I L x)
       else Ok (zero, zero, x)) ;;
    b <- load src (bytes_ - 32) ;;
    let final0 := vxor (vxor b x) t in
    b <- load src (bytes_ - 32 + 16) ;;
    final1 <- (if negb (d =? 0) || (abytes =? 0) then Ok b else zero_pad b abytes) ;;
    let final0 := aes4 (vxor final1 (cI c d)) J I L final0 in
    let final1 := vxor final1 (aes c final0 (cJ c d)) in
    let s := vxor final0 final1 in
    let final0 := vxor final0 (aes c final1 (cJ c (1 - d))) in
    p <- load pad abytes ;;
    if negb (d =? 0) && negb (is_zero (vandnot p final0)) then Ok (-1, dst)
    else
      let final1 := aes4 (vxor final0 (cI c (1 - d))) J I L final1 in
      '(dst, y) <- pass_two R c s initial_bytes dst ;;
      '(dst, y) <-
        (if 16 <=? frag_bytes then
           let frag0 := vxor frag0 (aes c s (cJ2 c)) in
           let frag1 := vxor frag1 (aes c s (vxor (cJ2 c) J)) in
           frag1 <- one_zero_pad frag1 (32 - frag_bytes) ;;
           let y := aes4 (vxor frag0 I4) J I L y in
           let y := vxor y (aes4 (vxor (vxor frag1 I4) I) J I L zero) in
           dst <- wr dst initial_bytes frag0 ;;
           dst <- wr dst (initial_bytes + 16) frag1 ;;
           Ok (dst, y)
         else if negb (frag_bytes =? 0) then
           let frag0 := vxor frag0 (aes c s (cJ2 c)) in
           frag0 <- one_zero_pad frag0 (16 - frag_bytes) ;;
           let y := aes4 (vxor frag0 I4) J I L y in
           dst <- wr dst initial_bytes frag0 ;;
           Ok (dst, y)
         else Ok (dst, y)) ;;
      dst <- wr dst (bytes_ - 32) (vxor (vxor final1 y) t) ;;
      (* aez.c:689-696; the loop copies 16 - abytes bytes *)
      dst <- (if (d =? 0) || (abytes =? 0) then wr dst (bytes_ - 32 + 16) final0
              else b <- rd final0 0 (u32 (16 - abytes)) ;; wr dst (bytes_ - 16) b) ;;
      Ok (0, dst).

  (** cipher_aez_tiny, aez.c:702-819: return value and dst *)
  Definition tiny_a (c : ctx) (t : bytes) (d : Z) (src : bytes) (bytes_ abytes : Z) (dst : bytes) : outcome (Z * bytes) :=
    let I := cI0 c in let L := cL c in let J := cJ0 c in
    let t_orig := t in
    buf <-
      (if 16 <=? bytes_ then
         b0 <- load src 0 ;; b1 <- load_partial src 16 (bytes_ - 16) ;; b1 <- zero_pad b1 (32 - bytes_) ;; Ok (b0 ++ b1)
       else b0 <- load_partial src 0 bytes_ ;; b0 <- zero_pad b0 (16 - bytes_) ;; Ok (b0 ++ zero)) ;;
    let bytes_ := if d =? 0 then u32 (bytes_ + abytes) else bytes_ in
    let half := bytes_ / 2 in
    let odd := negb (Z.land bytes_ 1 =? 0) in
    l <- load buf 0 ;;
    r <- load buf half ;;
    mask_ff <- load pad (16 - half) ;;
    mask_10 <- load pad (32 - half) ;;
    '(mask_10, mask_ff, r) <-
      (if odd then
         m <- wr mask_ff half [0xf0] ;;
         Ok (sll4 mask_10, m, bswap16 (srl4 (bswap16 r)))
       else Ok (mask_10, mask_ff, r)) ;;
    let r := vor (vand r mask_ff) mask_10 in
    let '(t, rnds) :=
      if 16 <=? bytes_ then (vxor (vxor t (cI1 c)) (cI2 c), 8)
      else (vxor (vxor t (cI0 c)) (vxor (cI1 c) (cI2 c)),
            if 3 <=? bytes_ then 10 else if bytes_ =? 2 then 16 else 24) in
    '(one, rcon) <-
      (if d =? 0 then one <- zero_set_byte 1 15 ;; Ok (one, zero)
       else one <- zero_set_byte (-1) 15 ;; rcon <- zero_set_byte (rnds - 1) 15 ;; Ok (one, rcon)) ;;
    p80 <- load pad 32 ;;
    let l :=
      if negb (d =? 0) && (bytes_ <? 16) then
        let tmp := vor l p80 in
        let tmp := aes4 (vxor (vxor tmp t_orig) (vxor (cI0 c) (cI1 c))) J I L zero in
        vxor l (vand tmp p80)
      else l in
    let (l, r) := feistel R (Z.to_nat (rnds / 2)) c t mask_ff mask_10 one l r rcon in
    buf <- wr buf 0 r ;;
    l <-
      (if odd then
         let l := bswap16 (sll4 (bswap16 l)) in
         b <- load buf half ;;
         m <- zero_set_byte 0xf0 0 ;;
         Ok (vor l (vand b m))
       else Ok l) ;;
    buf <- wr buf half l ;;
    (* aez.c:797-811: the authentication bytes; both ways of copying them give the same bytes *)
    if negb (d =? 0) then
      let bytes_ := u32 (bytes_ - abytes) in
      tmp <- load_partial buf bytes_ abytes ;;
      if negb (is_zero tmp) then Ok (-1, dst)
      else b <- rd buf 0 bytes_ ;; dst <- wr dst 0 b ;; Ok (0, dst)
    else
      buf <-
        (if bytes_ <? 16 then
           b0 <- load buf 0 ;;
           z <- zero_pad b0 (16 - bytes_) ;;
           let tmp := vor z p80 in
           let tmp := aes4 (vxor (vxor tmp t_orig) (vxor (cI0 c) (cI1 c))) J I L zero in
           wr buf 0 (vxor b0 (vand tmp p80))
         else Ok buf) ;;
      b <- rd buf 0 bytes_ ;;
      dst <- wr dst 0 b ;;
      Ok (0, dst).

  (** aez_encrypt, aez.c:823-843 *)
  Definition aez_encrypt_a (c : ctx) (n : bytes) (nbytes abytes : Z) (src : bytes) (bytes_ : Z) (dst : bytes) : outcome bytes :=
    t <- aez_hash_a c n nbytes abytes ;;
    if bytes_ =? 0 then
      let t := aes c t (vxor (cJ0 c) (cJ1 c)) in
      b <- rd t 0 abytes ;; wr dst 0 b
    else if u32 (bytes_ + abytes) <? 32 then '(_, dst) <- tiny_a c t 0 src bytes_ abytes dst ;; Ok dst
    else '(_, dst) <- core_a c t 0 src bytes_ abytes dst ;; Ok dst.

  (** aez_decrypt, aez.c:847-870: return value and dst *)
  Definition aez_decrypt_a (c : ctx) (n : bytes) (nbytes abytes : Z) (src : bytes) (bytes_ : Z) (dst : bytes) : outcome (Z * bytes) :=
    if bytes_ <? abytes then Ok (-1, dst)
    else
      t <- aez_hash_a c n nbytes abytes ;;
      if bytes_ =? abytes then
        x <- load_partial src 0 abytes ;;
        claimed <- zero_pad x (16 - abytes) ;;
        t <- zero_pad (aes c t (vxor (cJ0 c) (cJ1 c))) (16 - abytes) ;;
        Ok ((if is_zero (vandnot t claimed) then 1 else 0) - 1, dst)
      else if bytes_ <? 32 then tiny_a c t 1 src bytes_ abytes dst
      else core_a c t 1 src bytes_ abytes dst.

  (** aez_setup, aez.c:271-295, on the context [old]; [h key] are the 48 bytes of crypto_generichash_blake2b without a key, written over I[0], I[1], I[2]. *)
  Definition aez_setup_any (h : bytes -> bytes) (key : bytes) (keylen : Z) (old : ctx) : outcome ctx :=
    c <-
      (if keylen =? 48 then
         i0 <- load key 0 ;; j0 <- load key 16 ;; l <- load key 32 ;;
         Ok (mk_ctx i0 (cI1 old) (cI2 old) j0 (cJ1 old) (cJ2 old) l)
       else
         k <- rd key 0 keylen ;;
         b <- wr (ctx_bytes old) 0 (h k) ;;
         let c := ctx_of b in
         Ok (mk_ctx (cI0 c) (cI1 c) (cI2 c) (cI1 c) (cJ1 c) (cJ2 c) (cI2 c))) ;;
    let tmp1 := double_block (bswap16 (cI0 c)) in
    let tmp2 := double_block tmp1 in
    let tmp3 := double_block (bswap16 (cJ0 c)) in
    let tmp4 := double_block tmp3 in
    Ok (mk_ctx (cI0 c) (bswap16 tmp1) (bswap16 tmp2) (cJ0 c) (bswap16 tmp3) (bswap16 tmp4) (cL c)).
End Aez.
