(** src/aez/aez.c with the functions that depend on the processor as parameters: lines 226-872 are common to the AES-NI path (aez.c:48-130) and the ARM path
    (aez.c:132-219); the rest of this file is the ARM path.  The common functions are those of AezModel.v and AezAuthModel.v, word by word. *)
From Verif Require Import Base AezModel AezAuthModel.

Section Common.
  (** double_block, bswap16, sll4, srl4, is_zero, aes (the first argument is the context), aes4 *)
  Variables dblk bsw s4l s4r : bytes -> bytes.
  Variable isz : bytes -> bool.
  Variable aesf : ctx -> bytes -> bytes -> bytes.
  Variable aes4f : bytes -> bytes -> bytes -> bytes -> bytes -> bytes.

  (** aez_hash, aez.c:300-333 *)
  Definition hash_g (c : ctx) (n : bytes) (nbytes abytes : Z) : outcome bytes :=
    let I := cI0 c in let L := cL c in let J := cJ0 c in
    let J8 := bsw (dblk (bsw (cJ2 c))) in
    let tmp := dblk (bsw L) in
    let L2 := bsw tmp in
    let L4 := bsw (dblk tmp) in
    let offset := vxor L J8 in
    tmp <- zero_set_byte (8 * abytes) 15 ;;
    let sum := aes4f (vxor offset tmp) J I L offset in
    let offset := if nbytes =? 16 then vxor L2 J8 else L2 in
    x <- load_partial n 0 nbytes ;;
    tmp <- one_zero_pad x (16 - nbytes) ;;
    let sum := vxor sum (aes4f (vxor offset tmp) J I L offset) in
    let offset := L4 in
    p <- load pad 32 ;;
    let delta3 := aes4f (vxor offset p) J I L offset in
    Ok (vxor sum delta3).

  (** The stores to dst + 0, 2, 4, ... of pass_one_g, aez.c:367-377; [pos] is a byte offset in both buffers. *)
  Fixpoint p1_even_g (c : ctx) (os : list bytes) (src : bytes) (pos : Z) (dst : bytes) : outcome bytes :=
    match os with
    | [] => Ok dst
    | o :: os' =>
      s1 <- load src (pos + 16) ;; s0 <- load src pos ;;
      dst <- wr dst pos (aes4f (vxor s1 o) (cJ0 c) (cI0 c) (cL c) s0) ;;
      p1_even_g c os' src (pos + 32) dst
    end.
  (** The stores to dst + 1, 3, 5, ... of pass_one_g and the sum, aez.c:378-401; one iteration per offset. *)
  Fixpoint p1_odd_g (c : ctx) (os : list bytes) (src : bytes) (pos : Z) (dst sum : bytes) : outcome (bytes * bytes) :=
    match os with
    | [] => Ok (dst, sum)
    | _ :: os' =>
      d0 <- load dst pos ;; s1 <- load src (pos + 16) ;;
      let tmp := aes4f d0 (cJ0 c) (cI0 c) (cL c) s1 in
      dst <- wr dst (pos + 16) tmp ;;
      p1_odd_g c os' src (pos + 32) dst (vxor sum tmp)
    end.
  Definition p1_group_g (c : ctx) (os : list bytes) (src : bytes) (pos : Z) (dst sum : bytes) : outcome (bytes * bytes) :=
    dst <- p1_even_g c os src pos dst ;; p1_odd_g c os src pos dst sum.

  (** The while loop, aez.c:357-404; [dbl] is Ifordoubling, [offset] = bsw dbl.
      Returns the position, remaining bytes, offset, dst and sum. *)
  Fixpoint p1_loop_g (fuel : nat) (c : ctx) (src : bytes) (pos bytes_ : Z) (dbl dst sum : bytes)
      : outcome (Z * Z * bytes * bytes * bytes) :=
    match fuel with
    | O => Diverge
    | S fuel' =>
      if 256 <=? bytes_ then
        '(dst, sum) <- p1_group_g c (offs8 c (bsw dbl)) src pos dst sum ;;
        p1_loop_g fuel' c src (pos + 256) (bytes_ - 256) (dblk dbl) dst sum
      else Ok (pos, bytes_, bsw dbl, dst, sum)
    end.
  (** pass_one_g, aez.c:337-457: dst and sum *)
  Definition pass_one_g (c : ctx) (src : bytes) (bytes_ : Z) (dst : bytes) : outcome (bytes * bytes) :=
    let dbl := dblk (bsw (cI2 c)) in
    '(pos, bytes_, offset, dst, sum) <- p1_loop_g (S (Z.to_nat (bytes_ / 256))) c src 0 bytes_ dbl dst zero ;;
    '(pos, bytes_, offset, dst, sum) <-
      (if 128 <=? bytes_ then
         '(dst, sum) <- p1_group_g c (offs4 c offset) src pos dst sum ;;
         Ok (pos + 128, bytes_ - 128, vxor offset (cI2 c), dst, sum)
       else Ok (pos, bytes_, offset, dst, sum)) ;;
    '(pos, bytes_, offset, dst, sum) <-
      (if 64 <=? bytes_ then
         '(dst, sum) <- p1_group_g c (offs2 c offset) src pos dst sum ;;
         Ok (pos + 64, bytes_ - 64, vxor offset (cI1 c), dst, sum)
       else Ok (pos, bytes_, offset, dst, sum)) ;;
    if negb (bytes_ =? 0) then p1_group_g c [offset] src pos dst sum else Ok (dst, sum).

  (** pass_two_g: fs[k], tmp[k], sum and the stores to dst + 0, 2, 4, ..., aez.c:482-517: returns dst, the tmp array, sum.
      (The eight fs[k] are computed before; they do not depend on the memory.) *)
  Fixpoint p2_mix_g (c : ctx) (s : bytes) (os : list bytes) (pos : Z) (dst sum : bytes) : outcome (bytes * list bytes * bytes) :=
    match os with
    | [] => Ok (dst, [], sum)
    | o :: os' =>
      let fs := aes4f (vxor s o) (cL c) (cI0 c) (cJ0 c) (cL c) in
      d0 <- load dst pos ;;
      let tmp := vxor d0 fs in
      d1 <- load dst (pos + 16) ;;
      dst <- wr dst pos (vxor d1 fs) ;;
      '(dst, tmps, sum) <- p2_mix_g c s os' (pos + 32) dst (vxor sum tmp) ;;
      Ok (dst, tmp :: tmps, sum)
    end.
  (** aez.c:518-525 *)
  Fixpoint p2_odd_g (c : ctx) (tmps : list bytes) (pos : Z) (dst : bytes) : outcome bytes :=
    match tmps with
    | [] => Ok dst
    | tmp :: tmps' =>
      d0 <- load dst pos ;;
      dst <- wr dst (pos + 16) (aes4f d0 (cJ0 c) (cI0 c) (cL c) tmp) ;;
      p2_odd_g c tmps' (pos + 32) dst
    end.
  (** aez.c:526-536 *)
  Fixpoint p2_even_g (c : ctx) (os : list bytes) (pos : Z) (dst : bytes) : outcome bytes :=
    match os with
    | [] => Ok dst
    | o :: os' =>
      d1 <- load dst (pos + 16) ;; d0 <- load dst pos ;;
      dst <- wr dst pos (aes4f (vxor d1 o) (cJ0 c) (cI0 c) (cL c) d0) ;;
      p2_even_g c os' (pos + 32) dst
    end.
  Definition p2_group_g (c : ctx) (s : bytes) (os : list bytes) (pos : Z) (dst sum : bytes) : outcome (bytes * bytes) :=
    '(dst, tmps, sum) <- p2_mix_g c s os pos dst sum ;;
    dst <- p2_odd_g c tmps pos dst ;;
    dst <- p2_even_g c os pos dst ;;
    Ok (dst, sum).
  Fixpoint p2_loop_g (fuel : nat) (c : ctx) (s : bytes) (pos bytes_ : Z) (dbl dst sum : bytes)
      : outcome (Z * Z * bytes * bytes * bytes) :=
    match fuel with
    | O => Diverge
    | S fuel' =>
      if 256 <=? bytes_ then
        '(dst, sum) <- p2_group_g c s (offs8 c (bsw dbl)) pos dst sum ;;
        p2_loop_g fuel' c s (pos + 256) (bytes_ - 256) (dblk dbl) dst sum
      else Ok (pos, bytes_, bsw dbl, dst, sum)
    end.
  (** pass_two_g, aez.c:461-606 *)
  Definition pass_two_g (c : ctx) (s : bytes) (bytes_ : Z) (dst : bytes) : outcome (bytes * bytes) :=
    let dbl := dblk (bsw (cI2 c)) in
    '(pos, bytes_, offset, dst, sum) <- p2_loop_g (S (Z.to_nat (bytes_ / 256))) c s 0 bytes_ dbl dst zero ;;
    '(pos, bytes_, offset, dst, sum) <-
      (if 128 <=? bytes_ then
         '(dst, sum) <- p2_group_g c s (offs4 c offset) pos dst sum ;;
         Ok (pos + 128, bytes_ - 128, vxor offset (cI2 c), dst, sum)
       else Ok (pos, bytes_, offset, dst, sum)) ;;
    '(pos, bytes_, offset, dst, sum) <-
      (if 64 <=? bytes_ then
         '(dst, sum) <- p2_group_g c s (offs2 c offset) pos dst sum ;;
         Ok (pos + 64, bytes_ - 64, vxor offset (cI1 c), dst, sum)
       else Ok (pos, bytes_, offset, dst, sum)) ;;
    if negb (bytes_ =? 0) then p2_group_g c s [offset] pos dst sum else Ok (dst, sum).

  (** cipher_aez_core, aez.c:610-698: return value and dst *)
  Definition core_g (c : ctx) (t : bytes) (d : Z) (src : bytes) (bytes_ abytes : Z) (dst : bytes) : outcome (Z * bytes) :=
    let I := cI0 c in let L := cL c in let J := cJ0 c in let I4 := cI2 c in
    let bytes_ := if d =? 0 then u32 (bytes_ + abytes) else bytes_ in
    let frag_bytes := bytes_ mod 32 in
    let initial_bytes := u32 (u32 (bytes_ - frag_bytes) - 32) in
    '(dst, x) <- pass_one_g c src initial_bytes dst ;;
    '(frag0, frag1, x) <-
      (if 16 <=? frag_bytes then
         frag0 <- load src initial_bytes ;;
         b <- load src (initial_bytes + 16) ;;
         frag1 <- one_zero_pad b (32 - frag_bytes) ;;
         let x := aes4f (vxor frag0 I4) J I L x in
         let x := vxor x (aes4f (vxor (vxor frag1 I4) I) J I L zero) in
         Ok (frag0, frag1, x)
       else if negb (frag_bytes =? 0) then
         b <- load src initial_bytes ;;
         frag0 <- one_zero_pad b (16 - frag_bytes) ;;
         Ok (frag0, zero, aes4f (vxor frag0 I4) J I L x)
       else Ok (zero, zero, x)) ;;
    b <- load src (bytes_ - 32) ;;
    let final0 := vxor (vxor b x) t in
    b <- load src (bytes_ - 32 + 16) ;;
    final1 <- (if negb (d =? 0) || (abytes =? 0) then Ok b else zero_pad b abytes) ;;
    let final0 := aes4f (vxor final1 (cI c d)) J I L final0 in
    let final1 := vxor final1 (aesf c final0 (cJ c d)) in
    let s := vxor final0 final1 in
    let final0 := vxor final0 (aesf c final1 (cJ c (1 - d))) in
    p <- load pad abytes ;;
    if negb (d =? 0) && negb (isz (vandnot p final0)) then Ok (-1, dst)
    else
      let final1 := aes4f (vxor final0 (cI c (1 - d))) J I L final1 in
      '(dst, y) <- pass_two_g c s initial_bytes dst ;;
      '(dst, y) <-
        (if 16 <=? frag_bytes then
           let frag0 := vxor frag0 (aesf c s (cJ2 c)) in
           let frag1 := vxor frag1 (aesf c s (vxor (cJ2 c) J)) in
           frag1 <- one_zero_pad frag1 (32 - frag_bytes) ;;
           let y := aes4f (vxor frag0 I4) J I L y in
           let y := vxor y (aes4f (vxor (vxor frag1 I4) I) J I L zero) in
           dst <- wr dst initial_bytes frag0 ;;
           dst <- wr dst (initial_bytes + 16) frag1 ;;
           Ok (dst, y)
         else if negb (frag_bytes =? 0) then
           let frag0 := vxor frag0 (aesf c s (cJ2 c)) in
           frag0 <- one_zero_pad frag0 (16 - frag_bytes) ;;
           let y := aes4f (vxor frag0 I4) J I L y in
           dst <- wr dst initial_bytes frag0 ;;
           Ok (dst, y)
         else Ok (dst, y)) ;;
      dst <- wr dst (bytes_ - 32) (vxor (vxor final1 y) t) ;;
      (* aez.c:689-696; the loop copies 16 - abytes bytes *)
      dst <- (if (d =? 0) || (abytes =? 0) then wr dst (bytes_ - 32 + 16) final0
              else b <- rd final0 0 (u32 (16 - abytes)) ;; wr dst (bytes_ - 16) b) ;;
      Ok (0, dst).

  (** The Feistel loop, aez.c:766-771; [n] = rnds / 2 iterations. *)
  Fixpoint feistel_g (n : nat) (c : ctx) (t mask_ff mask_10 one l r rcon : bytes) : bytes * bytes :=
    match n with
    | O => (l, r)
    | S n' =>
      let l := vor (vand (aes4f (vxor (vxor t r) rcon) (cJ0 c) (cI0 c) (cL c) l) mask_ff) mask_10 in
      let rcon := vadd rcon one in
      let r := vor (vand (aes4f (vxor (vxor t l) rcon) (cJ0 c) (cI0 c) (cL c) r) mask_ff) mask_10 in
      let rcon := vadd rcon one in
      feistel_g n' c t mask_ff mask_10 one l r rcon
    end.

  (** cipher_aez_tiny, aez.c:702-819: return value and dst *)
  Definition tiny_g (c : ctx) (t : bytes) (d : Z) (src : bytes) (bytes_ abytes : Z) (dst : bytes) : outcome (Z * bytes) :=
    let I := cI0 c in let L := cL c in let J := cJ0 c in
    let t_orig := t in
    buf <-
      (if 16 <=? bytes_ then
         b0 <- load src 0 ;; b1 <- load_partial src 16 (bytes_ - 16) ;; b1 <- zero_pad b1 (32 - bytes_) ;; Ok (b0 ++ b1)
       else b0 <- load_partial src 0 bytes_ ;; b0 <- zero_pad b0 (16 - bytes_) ;; Ok (b0 ++ zero)) ;;
    let bytes_ := if d =? 0 then u32 (bytes_ + abytes) else bytes_ in
    let half := bytes_ / 2 in
    let odd := negb (Z.land bytes_ 1 =? 0) in
    l <- load buf 0 ;;
    r <- load buf half ;;
    mask_ff <- load pad (16 - half) ;;
    mask_10 <- load pad (32 - half) ;;
    '(mask_10, mask_ff, r) <-
      (if odd then
         m <- wr mask_ff half [0xf0] ;;
         Ok (s4l mask_10, m, bsw (s4r (bsw r)))
       else Ok (mask_10, mask_ff, r)) ;;
    let r := vor (vand r mask_ff) mask_10 in
    let '(t, rnds) :=
      if 16 <=? bytes_ then (vxor (vxor t (cI1 c)) (cI2 c), 8)
      else (vxor (vxor t (cI0 c)) (vxor (cI1 c) (cI2 c)),
            if 3 <=? bytes_ then 10 else if bytes_ =? 2 then 16 else 24) in
    '(one, rcon) <-
      (if d =? 0 then one <- zero_set_byte 1 15 ;; Ok (one, zero)
       else one <- zero_set_byte (-1) 15 ;; rcon <- zero_set_byte (rnds - 1) 15 ;; Ok (one, rcon)) ;;
    p80 <- load pad 32 ;;
    let l :=
      if negb (d =? 0) && (bytes_ <? 16) then
        let tmp := vor l p80 in
        let tmp := aes4f (vxor (vxor tmp t_orig) (vxor (cI0 c) (cI1 c))) J I L zero in
        vxor l (vand tmp p80)
      else l in
    let (l, r) := feistel_g (Z.to_nat (rnds / 2)) c t mask_ff mask_10 one l r rcon in
    buf <- wr buf 0 r ;;
    l <-
      (if odd then
         let l := bsw (s4l (bsw l)) in
         b <- load buf half ;;
         m <- zero_set_byte 0xf0 0 ;;
         Ok (vor l (vand b m))
       else Ok l) ;;
    buf <- wr buf half l ;;
    (* aez.c:797-811: the authentication bytes; both ways of copying them give the same bytes *)
    if negb (d =? 0) then
      let bytes_ := u32 (bytes_ - abytes) in
      tmp <- load_partial buf bytes_ abytes ;;
      if negb (isz tmp) then Ok (-1, dst)
      else b <- rd buf 0 bytes_ ;; dst <- wr dst 0 b ;; Ok (0, dst)
    else
      buf <-
        (if bytes_ <? 16 then
           b0 <- load buf 0 ;;
           z <- zero_pad b0 (16 - bytes_) ;;
           let tmp := vor z p80 in
           let tmp := aes4f (vxor (vxor tmp t_orig) (vxor (cI0 c) (cI1 c))) J I L zero in
           wr buf 0 (vxor b0 (vand tmp p80))
         else Ok buf) ;;
      b <- rd buf 0 bytes_ ;;
      dst <- wr dst 0 b ;;
      Ok (0, dst).

  (** aez_encrypt, aez.c:823-843 *)
  Definition encrypt_g (c : ctx) (n : bytes) (nbytes abytes : Z) (src : bytes) (bytes_ : Z) (dst : bytes) : outcome bytes :=
    t <- hash_g c n nbytes abytes ;;
    if bytes_ =? 0 then
      let t := aesf c t (vxor (cJ0 c) (cJ1 c)) in
      b <- rd t 0 abytes ;; wr dst 0 b
    else if u32 (bytes_ + abytes) <? 32 then '(_, dst) <- tiny_g c t 0 src bytes_ abytes dst ;; Ok dst
    else '(_, dst) <- core_g c t 0 src bytes_ abytes dst ;; Ok dst.

  (** aez_decrypt, aez.c:847-870: return value and dst *)
  Definition decrypt_g (c : ctx) (n : bytes) (nbytes abytes : Z) (src : bytes) (bytes_ : Z) (dst : bytes) : outcome (Z * bytes) :=
    if bytes_ <? abytes then Ok (-1, dst)
    else
      t <- hash_g c n nbytes abytes ;;
      if bytes_ =? abytes then
        x <- load_partial src 0 abytes ;;
        claimed <- zero_pad x (16 - abytes) ;;
        t <- zero_pad (aesf c t (vxor (cJ0 c) (cJ1 c))) (16 - abytes) ;;
        Ok ((if isz (vandnot t claimed) then 1 else 0) - 1, dst)
      else if bytes_ <? 32 then tiny_g c t 1 src bytes_ abytes dst
      else core_g c t 1 src bytes_ abytes dst.

  (** aez_setup, aez.c:271-295, on the context [old]; [h key] are the 48 bytes of crypto_generichash_blake2b without a key, written over I[0], I[1], I[2]. *)
  Definition setup_g (h : bytes -> bytes) (key : bytes) (keylen : Z) (old : ctx) : outcome ctx :=
    c <-
      (if keylen =? 48 then
         i0 <- load key 0 ;; j0 <- load key 16 ;; l <- load key 32 ;;
         Ok (mk_ctx i0 (cI1 old) (cI2 old) j0 (cJ1 old) (cJ2 old) l)
       else
         k <- rd key 0 keylen ;;
         b <- wr (ctx_bytes old) 0 (h k) ;;
         let c := ctx_of b in
         Ok (mk_ctx (cI0 c) (cI1 c) (cI2 c) (cI1 c) (cJ1 c) (cJ2 c) (cI2 c))) ;;
    let tmp1 := dblk (bsw (cI0 c)) in
    let tmp2 := dblk tmp1 in
    let tmp3 := dblk (bsw (cJ0 c)) in
    let tmp4 := dblk tmp3 in
    Ok (mk_ctx (cI0 c) (bsw tmp1) (bsw tmp2) (cJ0 c) (bsw tmp3) (bsw tmp4) (cL c)).
End Common.

(** * The ARM path, aez.c:132-219; registers are uint8x16_t, byte 0 first.  vadd, vand, vandnot, vor, vxor, zero are bytewise as before (aez.c:136-141). *)
(** vextq_u8(x, x, n) *)
Definition vext (x : bytes) (n : nat) : bytes := skipn n x ++ firstn n x.
(** vshrq_n_s8: arithmetic shift of bytes taken as signed numbers *)
Definition sshr (n : Z) (x : bytes) : bytes := map (fun b => u8 (Z.shiftr (if 128 <=? b then b - 256 else b) n)) x.
(** vshlq_n_u8, vshlq_n_s8, vshrq_n_u8 *)
Definition bshl (n : Z) (x : bytes) : bytes := map (fun b => u8 (Z.shiftl b n)) x.
Definition bshr (n : Z) (x : bytes) : bytes := map (fun b => Z.shiftr b n) x.
(** is_zero, aez.c:143-147: the two halves or-ed *)
Definition arm_is_zero (x : bytes) : bool := le_decode (vor (skipn 8 x) (firstn 8 x)) =? 0.
(** srl4, aez.c:149-155 *)
Definition arm_srl4 (x : bytes) : bytes := vxor (vand (sshr 4 (vext x 1)) (repeat 15 15 ++ [0])) (bshl 4 x).
(** sll4, aez.c:157-163 *)
Definition arm_sll4 (x : bytes) : bytes := vxor (bshl 4 (vand (vext x 15) (0 :: repeat 15 15))) (bshr 4 x).
(** bswap16, aez.c:165-168 *)
Definition arm_bswap16 (x : bytes) : bytes := x.
(** double_block, aez.c:170-178 *)
Definition arm_double (x : bytes) : bytes := vxor (vext (vand (sshr 7 x) (135 :: repeat 1 15)) 1) (bshl 1 x).

Section Arm.
  (** vaesmcq_u8(vaeseq_u8(x, k)): the round after the addition of the key *)
  Variable R : bytes -> bytes.
  Definition arm_round (x k : bytes) : bytes := R (vxor x k).
  (** aes, aez.c:180-193 *)
  Definition arm_aes (c : ctx) (x first_key : bytes) : bytes :=
    let x := arm_round x first_key in
    let x := arm_round x (cI0 c) in let x := arm_round x (cJ0 c) in let x := arm_round x (cL c) in
    let x := arm_round x (cI0 c) in let x := arm_round x (cJ0 c) in let x := arm_round x (cL c) in
    let x := arm_round x (cI0 c) in let x := arm_round x (cJ0 c) in let x := arm_round x (cL c) in
    vxor x (cI0 c).
  (** aes4, aez.c:195-206 *)
  Definition arm_aes4 (x a b c d : bytes) : bytes :=
    vxor (arm_round (arm_round (arm_round (arm_round x zero) a) b) c) d.

  Definition arm_encrypt := encrypt_g arm_double arm_bswap16 arm_sll4 arm_srl4 arm_is_zero arm_aes arm_aes4.
  Definition arm_decrypt := decrypt_g arm_double arm_bswap16 arm_sll4 arm_srl4 arm_is_zero arm_aes arm_aes4.
End Arm.
Definition arm_setup := setup_g arm_double arm_bswap16.
