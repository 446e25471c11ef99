(** Model of src/aez/aez.c (AES-NI path), for abytes = 0: the only caller (prp.cpp:192, 255) passes 0. *)
From Verif Require Import Base.

(** Blocks are lists of 16 bytes (the memory representation of __m128i). *)
Definition zipw (f : Z -> Z -> Z) : bytes -> bytes -> bytes :=
  fix go a b := match a, b with x :: a', y :: b' => f x y :: go a' b' | _, _ => [] end.

(** aez.c:58-63 *)
Definition zero : bytes := zeros 16.
Definition vadd : bytes -> bytes -> bytes := zipw (fun x y => (x + y) mod 256).
Definition vand : bytes -> bytes -> bytes := zipw Z.land.
Definition vandnot : bytes -> bytes -> bytes := zipw (fun x y => Z.land (Z.lxor x 255) y).
Definition vor : bytes -> bytes -> bytes := zipw Z.lor.
Definition vxor : bytes -> bytes -> bytes := xorb_list.
(** aez.c:65-68 *)
Definition is_zero (x : bytes) : bool := forallb (fun b => b =? 0) x.

(** The two 64-bit lanes; _mm_srli_epi64, _mm_slli_epi64, _mm_srli_si128(_, 8), _mm_slli_si128(_, 8). *)
Definition lanes2 (x : bytes) : Z * Z := (le_decode (firstn 8 x), le_decode (skipn 8 x)).
Definition of_lanes2 (p : Z * Z) : bytes := le_encode 8 (fst p) ++ le_encode 8 (snd p).
(** aez.c:70-73 *)
Definition sll4 (x : bytes) : bytes :=
  let (lo, hi) := lanes2 x in of_lanes2 (Z.lor (Z.shiftr lo 4) (u64 (Z.shiftl hi 60)), Z.lor (Z.shiftr hi 4) (u64 (Z.shiftl 0 60))).
(** aez.c:75-78 *)
Definition srl4 (x : bytes) : bytes :=
  let (lo, hi) := lanes2 x in of_lanes2 (Z.lor (u64 (Z.shiftl lo 4)) (Z.shiftr 0 60), Z.lor (u64 (Z.shiftl hi 4)) (Z.shiftr lo 60)).
(** aez.c:80-85 *)
Definition bswap16 (x : bytes) : bytes := rev x.
(** aez.c:87-95: four 32-bit lanes, lowest first; the carry of each lane goes to the next one, times 135 for the last. *)
Definition double_block (x : bytes) : bytes :=
  let w i := le_decode (firstn 4 (skipn (4 * i) x)) in
  let carry (v mask : Z) := if Z.testbit v 31 then mask else 0 in
  le_encode 4 (Z.lxor (u32 (Z.shiftl (w 0%nat) 1)) (carry (w 3%nat) 135)) ++
  le_encode 4 (Z.lxor (u32 (Z.shiftl (w 1%nat) 1)) (carry (w 0%nat) 1)) ++
  le_encode 4 (Z.lxor (u32 (Z.shiftl (w 2%nat) 1)) (carry (w 1%nat) 1)) ++
  le_encode 4 (Z.lxor (u32 (Z.shiftl (w 3%nat) 1)) (carry (w 2%nat) 1)).

(** aez.c:234-242 *)
Definition load (p : bytes) (pos : Z) : outcome bytes := rd p pos 16.
Definition load_partial (p : bytes) (pos n : Z) : outcome bytes := x <- rd p pos n ;; wr zero 0 x.
(** aez.c:244-248 *)
Definition pad : bytes := repeat 255 16 ++ zeros 16 ++ 128 :: zeros 15.
(** aez.c:250-253 *)
Definition zero_pad (x : bytes) (zero_bytes : Z) : outcome bytes := m <- load pad zero_bytes ;; Ok (vand x m).
(** aez.c:255-259 *)
Definition one_zero_pad (x : bytes) (n : Z) : outcome bytes :=
  m <- load pad n ;; p <- load pad (n + 16) ;; Ok (vor (vand x m) p).
(** aez.c:261-266 *)
Definition zero_set_byte (val idx : Z) : outcome bytes := wr zero idx [u8 val].

(** aez_ctx_t, aez.h:36-41: I[3], J[3], L *)
Record ctx := mk_ctx { cI0 : bytes; cI1 : bytes; cI2 : bytes; cJ0 : bytes; cJ1 : bytes; cJ2 : bytes; cL : bytes }.
Definition ctx_bytes (c : ctx) : bytes := cI0 c ++ cI1 c ++ cI2 c ++ cJ0 c ++ cJ1 c ++ cJ2 c ++ cL c.
Definition ctx_of (b : bytes) : ctx :=
  let w i := firstn 16 (skipn (16 * i) b) in mk_ctx (w 0%nat) (w 1%nat) (w 2%nat) (w 3%nat) (w 4%nat) (w 5%nat) (w 6%nat).
Definition cI (c : ctx) (d : Z) : bytes := if d =? 0 then cI0 c else cI1 c.
Definition cJ (c : ctx) (d : Z) : bytes := if d =? 0 then cJ0 c else cJ1 c.

(** aez_setup, aez.c:271-295, for keylen = 48 (the only value used, prp.cpp:70, 92) *)
Definition aez_setup (key : bytes) : outcome ctx :=
  i0 <- load key 0 ;; j0 <- load key 16 ;; l <- load key 32 ;;
  let tmp1 := double_block (bswap16 i0) in
  let tmp2 := double_block tmp1 in
  let tmp3 := double_block (bswap16 j0) in
  let tmp4 := double_block tmp3 in
  Ok (mk_ctx i0 (bswap16 tmp1) (bswap16 tmp2) j0 (bswap16 tmp3) (bswap16 tmp4) l).

Section Aez.
  (** The AES round without the addition of the round key: MixColumns (SubBytes (ShiftRows x)). *)
  Variable R : bytes -> bytes.
  (** _mm_aesenc_si128 *)
  Definition aesenc (x k : bytes) : bytes := vxor (R x) k.

  (** aez.c:97-111: key[0] = I[0], key[3] = J[0], key[6] = L *)
  Definition aes (c : ctx) (x first_key : bytes) : bytes :=
    let x := vxor x first_key in
    let x := aesenc x (cI0 c) in let x := aesenc x (cJ0 c) in let x := aesenc x (cL c) in
    let x := aesenc x (cI0 c) in let x := aesenc x (cJ0 c) in let x := aesenc x (cL c) in
    let x := aesenc x (cI0 c) in let x := aesenc x (cJ0 c) in let x := aesenc x (cL c) in
    aesenc x (cI0 c).
  (** aez.c:113-119 *)
  Definition aes4 (x a b c d : bytes) : bytes := aesenc (aesenc (aesenc (aesenc x a) b) c) d.

  (** aez_hash, aez.c:300-333, with abytes = 0 *)
  Definition aez_hash (c : ctx) (n : bytes) (nbytes : Z) : outcome bytes :=
    let I := cI0 c in let L := cL c in let J := cJ0 c in
    let J8 := bswap16 (double_block (bswap16 (cJ2 c))) in
    let tmp := double_block (bswap16 L) in
    let L2 := bswap16 tmp in
    let L4 := bswap16 (double_block tmp) in
    let offset := vxor L J8 in
    tmp <- zero_set_byte 0 15 ;;
    let sum := aes4 (vxor offset tmp) J I L offset in
    let offset := if nbytes =? 16 then vxor L2 J8 else L2 in
    x <- load_partial n 0 nbytes ;;
    tmp <- one_zero_pad x (16 - nbytes) ;;
    let sum := vxor sum (aes4 (vxor offset tmp) J I L offset) in
    let offset := L4 in
    p <- load pad 32 ;;
    let delta3 := aes4 (vxor offset p) J I L offset in
    Ok (vxor sum delta3).

  (** The offsets o0..o7, o0..o3, o0..o1, o0 of pass_one (aez.c:358-365, 405-408, 430-431, 447) and pass_two. *)
  Definition offs8 (c : ctx) (o0 : bytes) : list bytes :=
    let o1 := vxor o0 (cI0 c) in let o2 := vxor o0 (cI1 c) in let o3 := vxor o1 (cI1 c) in
    [o0; o1; o2; o3; vxor o0 (cI2 c); vxor o1 (cI2 c); vxor o2 (cI2 c); vxor o3 (cI2 c)].
  Definition offs4 (c : ctx) (o0 : bytes) : list bytes :=
    let o1 := vxor o0 (cI0 c) in let o2 := vxor o0 (cI1 c) in let o3 := vxor o1 (cI1 c) in [o0; o1; o2; o3].
  Definition offs2 (c : ctx) (o0 : bytes) : list bytes := [o0; vxor o0 (cI0 c)].

  (** The stores to dst + 0, 2, 4, ... of pass_one, aez.c:367-377; [pos] is a byte offset in both buffers. *)
  Fixpoint p1_even (c : ctx) (os : list bytes) (src : bytes) (pos : Z) (dst : bytes) : outcome bytes :=
    match os with
    | [] => Ok dst
    | o :: os' =>
      s1 <- load src (pos + 16) ;; s0 <- load src pos ;;
      dst <- wr dst pos (aes4 (vxor s1 o) (cJ0 c) (cI0 c) (cL c) s0) ;;
      p1_even c os' src (pos + 32) dst
    end.
  (** The stores to dst + 1, 3, 5, ... of pass_one and the sum, aez.c:378-401; one iteration per offset. *)
  Fixpoint p1_odd (c : ctx) (os : list bytes) (src : bytes) (pos : Z) (dst sum : bytes) : outcome (bytes * bytes) :=
    match os with
    | [] => Ok (dst, sum)
    | _ :: os' =>
      d0 <- load dst pos ;; s1 <- load src (pos + 16) ;;
      let tmp := aes4 d0 (cJ0 c) (cI0 c) (cL c) s1 in
      dst <- wr dst (pos + 16) tmp ;;
      p1_odd c os' src (pos + 32) dst (vxor sum tmp)
    end.
  Definition p1_group (c : ctx) (os : list bytes) (src : bytes) (pos : Z) (dst sum : bytes) : outcome (bytes * bytes) :=
    dst <- p1_even c os src pos dst ;; p1_odd c os src pos dst sum.

  (** The while loop, aez.c:357-404; [dbl] is Ifordoubling, [offset] = bswap16 dbl.
      Returns the position, remaining bytes, offset, dst and sum. *)
  Fixpoint p1_loop (fuel : nat) (c : ctx) (src : bytes) (pos bytes_ : Z) (dbl dst sum : bytes)
      : outcome (Z * Z * bytes * bytes * bytes) :=
    match fuel with
    | O => Diverge
    | S fuel' =>
      if 256 <=? bytes_ then
        '(dst, sum) <- p1_group c (offs8 c (bswap16 dbl)) src pos dst sum ;;
        p1_loop fuel' c src (pos + 256) (bytes_ - 256) (double_block dbl) dst sum
      else Ok (pos, bytes_, bswap16 dbl, dst, sum)
    end.
  (** pass_one, aez.c:337-457: dst and sum *)
  Definition pass_one (c : ctx) (src : bytes) (bytes_ : Z) (dst : bytes) : outcome (bytes * bytes) :=
    let dbl := double_block (bswap16 (cI2 c)) in
    '(pos, bytes_, offset, dst, sum) <- p1_loop (S (Z.to_nat (bytes_ / 256))) c src 0 bytes_ dbl dst zero ;;
    '(pos, bytes_, offset, dst, sum) <-
      (if 128 <=? bytes_ then
         '(dst, sum) <- p1_group c (offs4 c offset) src pos dst sum ;;
         Ok (pos + 128, bytes_ - 128, vxor offset (cI2 c), dst, sum)
       else Ok (pos, bytes_, offset, dst, sum)) ;;
    '(pos, bytes_, offset, dst, sum) <-
      (if 64 <=? bytes_ then
         '(dst, sum) <- p1_group c (offs2 c offset) src pos dst sum ;;
         Ok (pos + 64, bytes_ - 64, vxor offset (cI1 c), dst, sum)
       else Ok (pos, bytes_, offset, dst, sum)) ;;
    if negb (bytes_ =? 0) then p1_group c [offset] src pos dst sum else Ok (dst, sum).

  (** pass_two: fs[k], tmp[k], sum and the stores to dst + 0, 2, 4, ..., aez.c:482-517: returns dst, the tmp array, sum.
      (The eight fs[k] are computed before; they do not depend on the memory.) *)
  Fixpoint p2_mix (c : ctx) (s : bytes) (os : list bytes) (pos : Z) (dst sum : bytes) : outcome (bytes * list bytes * bytes) :=
    match os with
    | [] => Ok (dst, [], sum)
    | o :: os' =>
      let fs := aes4 (vxor s o) (cL c) (cI0 c) (cJ0 c) (cL c) in
      d0 <- load dst pos ;;
      let tmp := vxor d0 fs in
      d1 <- load dst (pos + 16) ;;
      dst <- wr dst pos (vxor d1 fs) ;;
      '(dst, tmps, sum) <- p2_mix c s os' (pos + 32) dst (vxor sum tmp) ;;
      Ok (dst, tmp :: tmps, sum)
    end.
  (** aez.c:518-525 *)
  Fixpoint p2_odd (c : ctx) (tmps : list bytes) (pos : Z) (dst : bytes) : outcome bytes :=
    match tmps with
    | [] => Ok dst
    | tmp :: tmps' =>
      d0 <- load dst pos ;;
      dst <- wr dst (pos + 16) (aes4 d0 (cJ0 c) (cI0 c) (cL c) tmp) ;;
      p2_odd c tmps' (pos + 32) dst
    end.
  (** aez.c:526-536 *)
  Fixpoint p2_even (c : ctx) (os : list bytes) (pos : Z) (dst : bytes) : outcome bytes :=
    match os with
    | [] => Ok dst
    | o :: os' =>
      d1 <- load dst (pos + 16) ;; d0 <- load dst pos ;;
      dst <- wr dst pos (aes4 (vxor d1 o) (cJ0 c) (cI0 c) (cL c) d0) ;;
      p2_even c os' (pos + 32) dst
    end.
  Definition p2_group (c : ctx) (s : bytes) (os : list bytes) (pos : Z) (dst sum : bytes) : outcome (bytes * bytes) :=
    '(dst, tmps, sum) <- p2_mix c s os pos dst sum ;;
    dst <- p2_odd c tmps pos dst ;;
    dst <- p2_even c os pos dst ;;
    Ok (dst, sum).
  Fixpoint p2_loop (fuel : nat) (c : ctx) (s : bytes) (pos bytes_ : Z) (dbl dst sum : bytes)
      : outcome (Z * Z * bytes * bytes * bytes) :=
    match fuel with
    | O => Diverge
    | S fuel' =>
      if 256 <=? bytes_ then
        '(dst, sum) <- p2_group c s (offs8 c (bswap16 dbl)) pos dst sum ;;
        p2_loop fuel' c s (pos + 256) (bytes_ - 256) (double_block dbl) dst sum
      else Ok (pos, bytes_, bswap16 dbl, dst, sum)
    end.
  (** pass_two, aez.c:461-606 *)
  Definition pass_two (c : ctx) (s : bytes) (bytes_ : Z) (dst : bytes) : outcome (bytes * bytes) :=
    let dbl := double_block (bswap16 (cI2 c)) in
    '(pos, bytes_, offset, dst, sum) <- p2_loop (S (Z.to_nat (bytes_ / 256))) c s 0 bytes_ dbl dst zero ;;
    '(pos, bytes_, offset, dst, sum) <-
      (if 128 <=? bytes_ then
         '(dst, sum) <- p2_group c s (offs4 c offset) pos dst sum ;;
         Ok (pos + 128, bytes_ - 128, vxor offset (cI2 c), dst, sum)
       else Ok (pos, bytes_, offset, dst, sum)) ;;
    '(pos, bytes_, offset, dst, sum) <-
      (if 64 <=? bytes_ then
         '(dst, sum) <- p2_group c s (offs2 c offset) pos dst sum ;;
         Ok (pos + 64, bytes_ - 64, vxor offset (cI1 c), dst, sum)
       else Ok (pos, bytes_, offset, dst, sum)) ;;
    if negb (bytes_ =? 0) then p2_group c s [offset] pos dst sum else Ok (dst, sum).

  (** cipher_aez_core, aez.c:610-698: return value and dst *)
  Definition cipher_aez_core (c : ctx) (t : bytes) (d : Z) (src : bytes) (bytes_ : Z) (dst : bytes) : outcome (Z * bytes) :=
    let I := cI0 c in let L := cL c in let J := cJ0 c in let I4 := cI2 c in
    let frag_bytes := bytes_ mod 32 in
    let initial_bytes := u32 (u32 (bytes_ - frag_bytes) - 32) in
    '(dst, x) <- pass_one c src initial_bytes dst ;;
    '(frag0, frag1, x) <-
      (if 16 <=? frag_bytes then
         frag0 <- load src initial_bytes ;;
         b <- load src (initial_bytes + 16) ;;
         frag1 <- one_zero_pad b (32 - frag_bytes) ;;
         let x := aes4 (vxor frag0 I4) J I L x in
         let x := vxor x (aes4 (vxor (vxor frag1 I4) I) J I L zero) in
         Ok (frag0, frag1, x)
       else if negb (frag_bytes =? 0) then
         b <- load src initial_bytes ;;
         frag0 <- one_zero_pad b (16 - frag_bytes) ;;
         Ok (frag0, zero, aes4 (vxor frag0 I4) J I L x)
       else Ok (zero, zero, x)) ;;
    b <- load src (bytes_ - 32) ;;
    let final0 := vxor (vxor b x) t in
    final1 <- load src (bytes_ - 32 + 16) ;;
    let final0 := aes4 (vxor final1 (cI c d)) J I L final0 in
    let final1 := vxor final1 (aes c final0 (cJ c d)) in
    let s := vxor final0 final1 in
    let final0 := vxor final0 (aes c final1 (cJ c (1 - d))) in
    p <- load pad 0 ;;
    if negb (d =? 0) && negb (is_zero (vandnot p final0)) then Ok (-1, dst)
    else
      let final1 := aes4 (vxor final0 (cI c (1 - d))) J I L final1 in
      '(dst, y) <- pass_two c s initial_bytes dst ;;
      '(dst, y) <-
        (if 16 <=? frag_bytes then
           let frag0 := vxor frag0 (aes c s (cJ2 c)) in
           let frag1 := vxor frag1 (aes c s (vxor (cJ2 c) J)) in
           frag1 <- one_zero_pad frag1 (32 - frag_bytes) ;;
           let y := aes4 (vxor frag0 I4) J I L y in
           let y := vxor y (aes4 (vxor (vxor frag1 I4) I) J I L zero) in
           dst <- wr dst initial_bytes frag0 ;;
           dst <- wr dst (initial_bytes + 16) frag1 ;;
           Ok (dst, y)
         else if negb (frag_bytes =? 0) then
           let frag0 := vxor frag0 (aes c s (cJ2 c)) in
           frag0 <- one_zero_pad frag0 (16 - frag_bytes) ;;
           let y := aes4 (vxor frag0 I4) J I L y in
           dst <- wr dst initial_bytes frag0 ;;
           Ok (dst, y)
         else Ok (dst, y)) ;;
      dst <- wr dst (bytes_ - 32) (vxor (vxor final1 y) t) ;;
      dst <- wr dst (bytes_ - 32 + 16) final0 ;;
      Ok (0, dst).

  (** The Feistel loop, aez.c:766-771; [n] = rnds / 2 iterations. *)
  Fixpoint feistel (n : nat) (c : ctx) (t mask_ff mask_10 one l r rcon : bytes) : bytes * bytes :=
    match n with
    | O => (l, r)
    | S n' =>
      let l := vor (vand (aes4 (vxor (vxor t r) rcon) (cJ0 c) (cI0 c) (cL c) l) mask_ff) mask_10 in
      let rcon := vadd rcon one in
      let r := vor (vand (aes4 (vxor (vxor t l) rcon) (cJ0 c) (cI0 c) (cL c) r) mask_ff) mask_10 in
      let rcon := vadd rcon one in
      feistel n' c t mask_ff mask_10 one l r rcon
    end.

  (** cipher_aez_tiny, aez.c:702-819: return value and dst *)
  Definition cipher_aez_tiny (c : ctx) (t : bytes) (d : Z) (src : bytes) (bytes_ : Z) (dst : bytes) : outcome (Z * bytes) :=
    let I := cI0 c in let L := cL c in let J := cJ0 c in
    let t_orig := t in
    let half := bytes_ / 2 in
    let odd := negb (Z.land bytes_ 1 =? 0) in
    buf <-
      (if 16 <=? bytes_ then
         b0 <- load src 0 ;; b1 <- load_partial src 16 (bytes_ - 16) ;; b1 <- zero_pad b1 (32 - bytes_) ;; Ok (b0 ++ b1)
       else b0 <- load_partial src 0 bytes_ ;; b0 <- zero_pad b0 (16 - bytes_) ;; Ok (b0 ++ zero)) ;;
    l <- load buf 0 ;;
    r <- load buf half ;;
    mask_ff <- load pad (16 - half) ;;
    mask_10 <- load pad (32 - half) ;;
    '(mask_10, mask_ff, r) <-
      (if odd then
         m <- wr mask_ff half [0xf0] ;;
         Ok (sll4 mask_10, m, bswap16 (srl4 (bswap16 r)))
       else Ok (mask_10, mask_ff, r)) ;;
    let r := vor (vand r mask_ff) mask_10 in
    let '(t, rnds) :=
      if 16 <=? bytes_ then (vxor (vxor t (cI1 c)) (cI2 c), 8)
      else (vxor (vxor t (cI0 c)) (vxor (cI1 c) (cI2 c)),
            if 3 <=? bytes_ then 10 else if bytes_ =? 2 then 16 else 24) in
    '(one, rcon) <-
      (if d =? 0 then one <- zero_set_byte 1 15 ;; Ok (one, zero)
       else one <- zero_set_byte (-1) 15 ;; rcon <- zero_set_byte (rnds - 1) 15 ;; Ok (one, rcon)) ;;
    p80 <- load pad 32 ;;
    let l :=
      if negb (d =? 0) && (bytes_ <? 16) then
        let tmp := vor l p80 in
        let tmp := aes4 (vxor (vxor tmp t_orig) (vxor (cI0 c) (cI1 c))) J I L zero in
        vxor l (vand tmp p80)
      else l in
    let (l, r) := feistel (Z.to_nat (rnds / 2)) c t mask_ff mask_10 one l r rcon in
    buf <- wr buf 0 r ;;
    l <-
      (if odd then
         let l := bswap16 (sll4 (bswap16 l)) in
         b <- load buf half ;;
         m <- zero_set_byte 0xf0 0 ;;
         Ok (vor l (vand b m))
       else Ok l) ;;
    buf <- wr buf half l ;;
    buf <-
      (if (d =? 0) && (bytes_ <? 16) then
         b0 <- load buf 0 ;;
         z <- zero_pad b0 (16 - bytes_) ;;
         let tmp := vor z p80 in
         let tmp := aes4 (vxor (vxor tmp t_orig) (vxor (cI0 c) (cI1 c))) J I L zero in
         wr buf 0 (vxor b0 (vand tmp p80))
       else Ok buf) ;;
    b <- rd buf 0 bytes_ ;;
    dst <- wr dst 0 b ;;
    Ok (0, dst).

  (** aez_encrypt, aez.c:823-843 *)
  Definition aez_encrypt (c : ctx) (n : bytes) (nbytes : Z) (src : bytes) (bytes_ : Z) (dst : bytes) : outcome bytes :=
    t <- aez_hash c n nbytes ;;
    if bytes_ =? 0 then Ok dst
    else if bytes_ <? 32 then '(_, dst) <- cipher_aez_tiny c t 0 src bytes_ dst ;; Ok dst
    else '(_, dst) <- cipher_aez_core c t 0 src bytes_ dst ;; Ok dst.

  (** aez_decrypt, aez.c:847-870 *)
  Definition aez_decrypt (c : ctx) (n : bytes) (nbytes : Z) (src : bytes) (bytes_ : Z) (dst : bytes) : outcome (Z * bytes) :=
    t <- aez_hash c n nbytes ;;
    if bytes_ =? 0 then Ok (0, dst)
    else if bytes_ <? 32 then cipher_aez_tiny c t 1 src bytes_ dst
    else cipher_aez_core c t 1 src bytes_ dst.
End Aez.
