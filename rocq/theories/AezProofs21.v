(** In-place operation of aez.c and Prp. *)
From Verif Require Import Base BaseFacts KeyVal AezModel PrpModel PrpSpec AesRound AezSpec AezMemModel AezMemSpec AezProofs AezProofs7 AezProofs9 AezProofs10 AezProofs11 AezProofs12 PrpProofs AezProofs19 AezProofs20.
From Coq Require Import Lia List.

Lemma split_at m p n : 0 <= p -> 0 <= n -> p + n <= zlen m -> m = firstn (Z.to_nat p) m ++ bytes_at m p n ++ skipn (Z.to_nat p + Z.to_nat n) m.
Proof.
  intros Hp Hn H. unfold bytes_at. rewrite <- (firstn_skipn (Z.to_nat p) m) at 1. f_equal. rewrite <- (firstn_skipn (Z.to_nat n) (skipn (Z.to_nat p) m)) at 1. f_equal.
  rewrite skipn_skipn_add. f_equal. lia.
Qed.
Lemma at_len m p n : 0 <= p -> 0 <= n -> p + n <= zlen m -> zlen (bytes_at m p n) = n.
Proof. intros. unfold bytes_at, zlen in *. rewrite firstn_length, skipn_length. lia. Qed.
Lemma at_bytes m p n : is_bytes m -> is_bytes (bytes_at m p n).
Proof. intros H. unfold bytes_at. apply is_bytes_firstn, is_bytes_skipn, H. Qed.
Lemma overlay_len m p x : 0 <= p -> p + zlen x <= zlen m -> zlen (overlay m p x) = zlen m.
Proof. intros. unfold overlay, zlen in *. rewrite !app_length, firstn_length, skipn_length. lia. Qed.
Lemma overlay_bytes m p x : is_bytes m -> is_bytes x -> is_bytes (overlay m p x).
Proof. intros. unfold overlay. rewrite !is_bytes_app. split; [|split]; [apply is_bytes_firstn| |apply is_bytes_skipn]; assumption. Qed.
Lemma overlay_at m p x : 0 <= p -> p + zlen x <= zlen m -> bytes_at (overlay m p x) p (zlen x) = x.
Proof.
  intros. unfold overlay, bytes_at, zlen in *. rewrite skipn_app, skipn_all2 by (rewrite firstn_length; lia). cbn [app].
  rewrite firstn_length. replace (Z.to_nat p - Nat.min (Z.to_nat p) (length m))%nat with 0%nat by lia. cbn [skipn]. rewrite Nat2Z.id.
  replace (length x) with (length x + 0)%nat at 1 by lia. rewrite firstn_app_2. cbn [firstn]. apply app_nil_r.
Qed.
Lemma overlay_back m p n x : 0 <= p -> 0 <= n -> p + n <= zlen m -> zlen x = n -> overlay (overlay m p x) p (bytes_at m p n) = m.
Proof.
  intros Hp Hn H Hx. pose proof (at_len m p n Hp Hn H) as HL. rewrite (split_at m p n Hp Hn H) at 3. unfold overlay, zlen in *.
  rewrite firstn_app, firstn_firstn, firstn_length. replace (Z.to_nat p - Nat.min (Z.to_nat p) (length m))%nat with 0%nat by lia. cbn [firstn]. rewrite app_nil_r, Nat.min_id. f_equal. f_equal.
  rewrite skipn_app, skipn_all2 by (rewrite firstn_length; lia). cbn [app]. rewrite firstn_length.
  replace (Z.to_nat p + length (bytes_at m p n) - Nat.min (Z.to_nat p) (length m))%nat with (length x) by lia.
  rewrite skipn_app, skipn_all, Nat.sub_diag. cbn [skipn app]. f_equal. lia.
Qed.
(** The simulation for a whole memory *)
Lemma mem_sim m sp dp n : 0 <= n -> regions m sp dp n ->
  let pre := firstn (Z.to_nat dp) m in let post := skipn (Z.to_nat dp + Z.to_nat n) m in
  m = pre ++ bytes_at m dp n ++ post /\ zlen pre = dp /\ sp + n <= zlen pre + n + zlen post /\
  sim sp pre post (bytes_at m sp n) n (bytes_at m dp n) (from 0) /\ (forall x, zlen x = n -> overlay m dp x = pre ++ x ++ post).
Proof.
  intros Hn (H1 & H2 & H3 & H4 & _) pre post. pose proof (split_at m dp n H3 Hn H4) as HM. split; [exact HM|].
  assert (zlen pre = dp) as HP by (unfold pre, zlen in *; rewrite firstn_length; lia). split; [exact HP|].
  split; [unfold post; unfold zlen in *; rewrite skipn_length; lia|]. split.
  - split; [apply at_len; assumption|]. intros i Hi _. fold pre post in HM. rewrite <- HM. unfold bytes_at.
    rewrite nth_error_firstn, nth_error_skipn by lia. f_equal. lia.
  - intros x Hx. unfold overlay, pre, post. f_equal. f_equal. f_equal. unfold zlen in Hx. lia.
Qed.

Section InPlace.
  Variable R : bytes -> bytes.
  Lemma mem_enc c N nb m sp dp n x : 0 <= n < 2 ^ 32 -> regions m sp dp n -> zlen x = n ->
    aez_encrypt R c N nb (bytes_at m sp n) n (bytes_at m dp n) = Ok x -> m_aez_encrypt R c N nb sp n dp m = Ok (overlay m dp x).
  Proof.
    intros Hn HR Hx E. destruct (mem_sim m sp dp n ltac:(lia) HR) as (A1 & A2 & A3 & A4 & A5). rewrite (A5 x Hx).
    destruct HR as (H1 & H2 & H3 & H4 & H5). pose proof (at_len m sp n H1 ltac:(lia) H2) as HL.
    revert A1 A2 A3 A4 E. generalize (firstn (Z.to_nat dp) m) as pre. generalize (skipn (Z.to_nat dp + Z.to_nat n) m) as post.
    generalize (bytes_at m dp n) as d. intros d post pre -> <- A3 A4 E. exact (enc_sim R sp pre post _ n H1 HL A3 H5 c N nb d x A4 ltac:(lia) E).
  Qed.
  Lemma mem_dec c N nb m sp dp n r x : 0 <= n < 2 ^ 32 -> regions m sp dp n -> zlen x = n ->
    aez_decrypt R c N nb (bytes_at m sp n) n (bytes_at m dp n) = Ok (r, x) -> m_aez_decrypt R c N nb sp n dp m = Ok (r, overlay m dp x).
  Proof.
    intros Hn HR Hx E. destruct (mem_sim m sp dp n ltac:(lia) HR) as (A1 & A2 & A3 & A4 & A5). rewrite (A5 x Hx).
    destruct HR as (H1 & H2 & H3 & H4 & H5). pose proof (at_len m sp n H1 ltac:(lia) H2) as HL.
    revert A1 A2 A3 A4 E. generalize (firstn (Z.to_nat dp) m) as pre. generalize (skipn (Z.to_nat dp + Z.to_nat n) m) as post.
    generalize (bytes_at m dp n) as d. intros d post pre -> <- A3 A4 E. exact (dec_sim R sp pre post _ n H1 HL A3 H5 c N nb d r x A4 ltac:(lia) E).
  Qed.
End InPlace.

Theorem mem_aez R I J L N : block_map R -> part I -> part J -> part L -> is_bytes N -> zlen N <= 16 -> exists c, aez_setup (I ++ J ++ L) = Ok c /\
  forall m sp dp n, is_bytes m -> 0 <= n <= UINT_MAX -> regions m sp dp n ->
    m_aez_encrypt R c N (zlen N) sp n dp m = Ok (overlay m dp (encipher R I J L [zeros 16; N; []] (bytes_at m sp n))) /\
    (forall y, is_bytes y -> zlen y = n -> bytes_at m sp n = encipher R I J L [zeros 16; N; []] y -> m_aez_decrypt R c N (zlen N) sp n dp m = Ok (0, overlay m dp y)).
Proof.
  intros HR HI HJ HL HN HN2. destruct (aez_any_nonce R I J L N HR HI HJ HL HN HN2) as (c & Ec & Hc). exists c. split; [exact Ec|].
  intros m sp dp n Hm Hn Hreg. pose proof Hreg as (H1 & H2 & H3 & H4 & H5). unfold UINT_MAX in *. 
  pose proof (at_len m sp n H1 ltac:(lia) H2) as HS. pose proof (at_len m dp n H3 ltac:(lia) H4) as HD.
  split.
  - apply mem_enc; [lia|exact Hreg| |].
    + destruct (encipher_perm R I J L N (bytes_at m sp n) (bytes_at m sp n) HR HI HJ HL HN HN2 (at_bytes _ _ _ Hm) (at_bytes _ _ _ Hm)) as (_ & P & _); [unfold UINT_MAX; lia|reflexivity|].
      rewrite P. exact HS.
    + rewrite <- HS at 2. apply (Hc (bytes_at m sp n) (bytes_at m dp n)); [apply at_bytes, Hm|lia|]. split; [apply at_bytes, Hm|lia].
  - intros y Hy Ly Ey. apply mem_dec; [lia|exact Hreg|exact Ly|]. rewrite <- HS at 2. rewrite Ey. apply (Hc y (bytes_at m dp n)); [exact Hy|lia|]. split; [apply at_bytes, Hm|lia].
Qed.

Theorem mem_prp R ml I J L l : block_map R -> part I -> part J -> part L -> exists b,
  prp_make ml true (VKey (I ++ J ++ L) l) = (VEmpty, Ok (VKey b ml)) /\
  forall l' m sp dp n, is_bytes m -> 0 <= n <= UINT_MAX -> regions m sp dp n ->
    m_prp_encrypt R true (VKey b l') sp n dp m = (VKey b false, Ok (overlay m dp (encipher R I J L [zeros 16; zeros 16; []] (bytes_at m sp n)))) /\
    (forall y, is_bytes y -> zlen y = n -> bytes_at m sp n = encipher R I J L [zeros 16; zeros 16; []] y ->
      m_prp_decrypt R ml true (VKey b l') sp n dp m = (VKey b ml, Ok (overlay m dp y))).
Proof.
  intros HR HI HJ HL. destruct (prp_is_aez R ml I J L l HR HI HJ HL) as (b & Eb & _). exists b. split; [exact Eb|].
  destruct (mem_aez R I J L (zeros 16) HR HI HJ HL ltac:(apply Forall_forall; intros z Hz; apply repeat_spec in Hz; subst z; split; [apply Z.le_refl|reflexivity]) ltac:(vm_compute; discriminate)) as (c & Ec & Hc).
  assert (ctx_of b = c) as Hb.
  { unfold prp_make in Eb. cbn [negb v_unlock_get] in Eb. rewrite Ec in Eb. unfold v_make in Eb. assert (b = ctx_bytes c) as -> by congruence.
    apply part_blk in HI, HJ, HL. destruct (setup_key I J L HI HJ HL) as (c' & Ec' & K). assert (c' = c) as -> by congruence. apply ctx_of_bytes. exact (key_ctx_ok _ _ _ _ K). }
  intros l' m sp dp n Hm Hn Hreg. destruct (Hc m sp dp n Hm Hn Hreg) as [A B]. split.
  - unfold m_prp_encrypt. cbn [negb v_unlock_get]. rewrite Hb. change 16 with (zlen (zeros 16)). rewrite A. reflexivity.
  - intros y Hy Ly Ey. unfold m_prp_decrypt. cbn [negb v_unlock_get]. rewrite Hb. change 16 with (zlen (zeros 16)). rewrite (B y Hy Ly Ey). reflexivity.
Qed.

Theorem mem_round_trip R ml I J L l : block_map R -> part I -> part J -> part L -> exists b,
  prp_make ml true (VKey (I ++ J ++ L) l) = (VEmpty, Ok (VKey b ml)) /\
  forall l' m p n, is_bytes m -> 0 <= n <= UINT_MAX -> 0 <= p -> p + n <= zlen m -> exists m',
    m_prp_encrypt R true (VKey b l') p n p m = (VKey b false, Ok m') /\ m_prp_decrypt R ml true (VKey b false) p n p m' = (VKey b ml, Ok m).
Proof.
  intros HR HI HJ HL. destruct (mem_prp R ml I J L l HR HI HJ HL) as (b & Eb & Hb). exists b. split; [exact Eb|].
  intros l' m p n Hm Hn Hp H.
  assert (is_bytes (zeros 16)) as HZ by apply is_bytes_zeros.
  pose proof (at_len m p n Hp ltac:(lia) H) as HA. pose proof (at_bytes m p n Hm) as HB.
  destruct (encipher_perm R I J L (zeros 16) (bytes_at m p n) (bytes_at m p n) HR HI HJ HL HZ ltac:(vm_compute; discriminate) HB HB ltac:(lia) eq_refl) as (P1 & P2 & _).
  destruct (Hb l' m p p n Hm Hn ltac:(unfold regions; lia)) as [A _]. eexists. split; [exact A|].
  assert (p + zlen (encipher R I J L [zeros 16; zeros 16; []] (bytes_at m p n)) <= zlen m) as HX by (rewrite P2, HA; exact H).
  destruct (Hb false (overlay m p (encipher R I J L [zeros 16; zeros 16; []] (bytes_at m p n))) p p n) as [_ B].
  - apply overlay_bytes; assumption.
  - exact Hn.
  - unfold regions. rewrite overlay_len by assumption. lia.
  - rewrite (B (bytes_at m p n) HB HA).
    + rewrite overlay_back; [reflexivity|lia|lia|lia|rewrite P2; exact HA].
    + pose proof (overlay_at m p _ Hp HX) as O. rewrite P2, HA in O. exact O.
Qed.
