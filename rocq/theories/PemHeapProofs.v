(** The buffers of pem.c: released, but with their contents. *)
From Coq Require Import Lia ZifyBool.
From Verif Require Import Base BaseFacts MpiModel Base64Model Base64Spec Base64Proofs Base64Proofs4 Base64Proofs5 PemModel PemSpec PemProofs PemProofs2 RsaKeyModel HeapModel PemHeapModel.

Lemma release_head h p b c : p <> 0 -> cells h = (p, b) :: c -> release h p = Ok (MkHeap c (next_addr h) (calls h) (b :: released h)).
Proof. intros Hp E. unfold release. replace (p =? 0) with false by lia. rewrite E. cbn [lookup remove]. rewrite Z.eqb_refl. reflexivity. Qed.
Lemma decode_some d l s n r m b : base64_decode (Some d) l s n = Ok (r, m, b) -> b <> None.
Proof.
  unfold base64_decode. intros E. destruct (dec_check (S (Z.to_nat n)) s n 0 0 0) as [x| | | |]; cbn [bind] in E; try discriminate. destruct x as [e|[[i k] j]]; [congruence|]. destruct (k =? 0); [congruence|]. cbv zeta in E. destruct (_ <? _); [congruence|].
  destruct (dec_loop _ _ _ _ _ _ _ _) as [[d' p]| | | |]; cbn [bind] in E; congruence.
Qed.
Section Ora.
Variable ora : nat -> bool.
(** What reading does, compared with the model that has no heap *)
Lemma read_sim h header footer data : 0 < next_addr h ->
  match pem_read_buffer (fun _ => ora (calls h)) header footer data with
  | Ok (inr (b, u)) => exists h' blk n, h_pem_read ora h header footer data = Ok (h', 0, (next_addr h, n)) /\ cells h' = (next_addr h, blk) :: cells h /\ firstn (Z.to_nat n) blk = b /\ released h' = released h
  | Ok (inl e) => exists h' r, h_pem_read ora h header footer data = Ok (h', e, pem_init) /\ cells h' = cells h /\ released h' = r ++ released h
  | _ => True
  end.
Proof.
  intros Hn. unfold pem_read_buffer, h_pem_read. destruct (c_strstr data header) as [r1| | | |]; cbn [bind]; try exact I. destruct r1 as [s1|]; [|exists h, []; repeat split].
  destruct (c_strstr data footer) as [r2| | | |]; cbn [bind]; try exact I. destruct r2 as [s2|]; [|exists h, []; repeat split].
  destruct (s2 <=? s1); [exists h, []; repeat split|]. cbv zeta.
  destruct (skip_if data (s1 + zlen header) chSP) as [p1| | | |]; cbn [bind]; try exact I. destruct (skip_if data p1 chCR) as [p2| | | |]; cbn [bind]; try exact I. destruct (rd1 data p2) as [x| | | |]; cbn [bind]; try exact I.
  destruct (negb (x =? chLF)); [exists h, []; repeat split|]. destruct (skip_if data (s2 + zlen footer) chSP) as [q1| | | |]; cbn [bind]; try exact I. destruct (skip_if data q1 chCR) as [q2| | | |]; cbn [bind]; try exact I. destruct (skip_if data q2 chLF) as [q3| | | |]; cbn [bind]; try exact I.
  destruct (if 22 <=? s2 - (p2 + 1) then w <- rd data (p2 + 1) 22;; Ok (bytes_eqb w proc_type) else Ok false) as [enc| | | |]; cbn [bind]; try exact I. destruct enc; [exists h, []; repeat split|].
  destruct (s2 <=? p2 + 1); [exists h, []; repeat split|]. destruct (rd data (p2 + 1) (s2 - (p2 + 1))) as [txt| | | |]; cbn [bind]; try exact I.
  destruct (base64_decode None 0 txt (s2 - (p2 + 1))) as [[[ret1 len] o]| | | |]; cbn [bind]; try exact I. destruct (ret1 =? ERR_BASE64_INVALID_CHARACTER); [exists h, []; repeat split|].
  unfold calloc. destruct (ora (calls h)); cbn [negb].
  2:{ change (0 =? 0) with true. cbn iota. eexists. exists []. repeat split. }
  replace (next_addr h =? 0) with false by lia. cbn [cells lookup]. rewrite Z.eqb_refl. change (repeat 0 (Z.to_nat len)) with (zeros (Z.to_nat len)). destruct (base64_decode (Some (zeros (Z.to_nat len))) len txt (s2 - (p2 + 1))) as [[[ret2 len2] b]| | | |] eqn:D; cbn [bind]; try exact I. unfold with_cells. cbn [cells next_addr calls released].
  cbn [store]. rewrite Z.eqb_refl. destruct (negb (ret2 =? 0)).
  - destruct b as [b|]; [|].
    + rewrite (release_head _ (next_addr h) b (cells h)) by (try reflexivity; lia). cbn [bind]. eexists. exists [b]. repeat split.
    + exfalso. apply decode_some in D. congruence.
  - destruct b as [b|]; [|exact I]. eexists. exists b, len2. repeat split.
Qed.
Lemma read_free h header footer data : 0 < next_addr h -> is_bytes data -> In 0 data -> zlen data < 2 ^ 63 ->
  exists h1 e c h2, h_pem_read ora h header footer data = Ok (h1, e, c) /\ h_pem_free h1 c = Ok (h2, pem_init) /\ cells h2 = cells h /\
    ((pem_read_buffer (fun _ => ora (calls h)) header footer data = err e /\ c = pem_init /\ cells h1 = cells h) \/
     (exists der u blk, pem_read_buffer (fun _ => ora (calls h)) header footer data = ret (der, u) /\ e = 0 /\ cells h1 = (fst c, blk) :: cells h /\ firstn (Z.to_nat (snd c)) blk = der /\
        released h2 = blk :: released h)).
Proof.
  intros Hn Hb H0 Hl. destruct (pem_read_total (fun _ => ora (calls h)) header footer data Hb H0 Hl) as (r & E & _). pose proof (read_sim h header footer data Hn) as R. rewrite E in *. destruct r as [e|[der u]].
  - destruct R as (h1 & rl & R & Hc & _). exists h1, e, pem_init, h1. split; [exact R|]. split; [reflexivity|]. split; [exact Hc|]. left. repeat split. exact Hc.
  - destruct R as (h1 & blk & n & R & Hc & Hf & Hr). exists h1, 0, (next_addr h, n), (MkHeap (cells h) (next_addr h1) (calls h1) (blk :: released h1)). split; [exact R|].
    unfold h_pem_free. cbn [fst snd]. rewrite (release_head h1 _ blk (cells h)) by (try exact Hc; lia). cbn [bind]. split; [reflexivity|]. split; [reflexivity|]. right. exists der, u, blk. rewrite <- Hr. repeat split; assumption.
Qed.
Lemma read_remains h header footer der tail r fr : 0 < next_addr h -> ora (calls h) = true -> is_bytes der -> der <> [] -> zlen der < 2 ^ 60 ->
  footer = 45 :: fr -> nonzero (header ++ footer ++ tail) ->
  (forall t, find_sub footer (header ++ 10 :: t) 0 = find_sub footer t (zlen header + 1)) ->
  exists h1 c h2 rest, h_pem_read ora h header footer (header ++ 10 :: wrap64 0 (b64 der) ++ footer ++ tail ++ 0 :: r) = Ok (h1, 0, c) /\ h_pem_free h1 c = Ok (h2, pem_init) /\
    cells h2 = cells h /\ released h2 = (der ++ rest) :: released h.
Proof.
  intros Hn Ha Hb Hd Hl Hf Nz Ff. destruct (pem_read_text (fun _ => ora (calls h)) header footer der tail r fr Hb Hd Hl Hf Nz Ff) as [u E]. set (data := header ++ 10 :: wrap64 0 (b64 der) ++ footer ++ tail ++ 0 :: r) in *. pose proof (read_sim h header footer data Hn) as R. rewrite E in R. cbv beta in R. rewrite Ha in R. unfold ret in R.
  destruct R as (h1 & blk & n & R & Hc & Hfi & Hr). exists h1, (next_addr h, n), (MkHeap (cells h) (next_addr h1) (calls h1) (blk :: released h1)), (skipn (Z.to_nat n) blk). split; [exact R|].
  unfold h_pem_free. cbn [fst snd]. rewrite (release_head h1 _ blk (cells h)) by (try exact Hc; lia). cbn [bind]. split; [reflexivity|]. split; [reflexivity|]. cbn [released]. rewrite Hr, <- Hfi, firstn_skipn. reflexivity.
Qed.
Lemma private_remains h der tail r : 0 < next_addr h -> ora (calls h) = true -> is_bytes der -> der <> [] -> zlen der < 2 ^ 60 -> Forall (fun x => x <> 0) tail ->
  exists h1 c h2 rest, h_pem_read ora h begin_rsa_private end_rsa_private (begin_rsa_private ++ 10 :: wrap64 0 (b64 der) ++ end_rsa_private ++ tail ++ 0 :: r) = Ok (h1, 0, c) /\ h_pem_free h1 c = Ok (h2, pem_init) /\
    cells h2 = cells h /\ released h2 = (der ++ rest) :: released h.
Proof.
  intros Hn Ha Hb Hd Hl Ht. apply (read_remains h begin_rsa_private end_rsa_private der tail r (tl end_rsa_private)); try assumption.
  - reflexivity.
  - unfold nonzero. rewrite app_assoc. apply Forall_app. split; [repeat constructor; discriminate|exact Ht].
  - intros t. reflexivity.
Qed.
Lemma encode_some d l s n r m b : base64_encode (Some d) l s n = Ok (r, m, b) -> b <> None.
Proof.
  unfold base64_encode. intros E. cbv zeta in E. destruct (n =? 0); [congruence|]. destruct (_ <? _); [congruence|]. destruct (_ <? _); [congruence|].
  destruct (enc_loop _ _ _ _ _) as [[[d1 i] p]| | | |]; cbn [bind] in E; try discriminate.
  match type of E with bind ?x _ = _ => destruct x as [[d2 q]| | | |]; cbn [bind] in E; try discriminate end.
  match type of E with bind ?x _ = _ => destruct x as [d3| | | |]; cbn [bind] in E; try discriminate end. congruence.
Qed.
Lemma write_sim h header footer der buf n :
  0 < next_addr h ->
  match pem_write_buffer (fun _ => ora (calls h)) header footer der buf n with
  | Ok (e, l, o) => exists h', h_pem_write ora h header footer der buf n = Ok (h', (e, l, o)) /\ cells h' = cells h /\
      (e = 0 -> exists r u v m enc, base64_encode None 0 der (zlen der) = Ok (r, u, v) /\ base64_encode (Some (zeros (Z.to_nat u))) u der (zlen der) = Ok (0, m, Some enc) /\ released h' = enc :: released h)
  | _ => True
  end.
Proof.
  intros Hn. unfold pem_write_buffer, h_pem_write. destruct (base64_encode None 0 der (zlen der)) as [[[r u] v]| | | |] eqn:E0; cbn [bind]; try exact I. cbv zeta.
  destruct (n <? _); [eexists; repeat split; discriminate|]. unfold calloc. destruct (ora (calls h)); cbn [negb].
  2:{ change (0 =? 0) with true. cbn iota. eexists. repeat split. discriminate. }
  replace (next_addr h =? 0) with false by lia. cbn [cells lookup]. rewrite Z.eqb_refl. change (repeat 0 (Z.to_nat u)) with (zeros (Z.to_nat u)). destruct (base64_encode (Some (zeros (Z.to_nat u))) u der (zlen der)) as [[[e1 m] b]| | | |] eqn:E1; cbn [bind]; try exact I.
  unfold with_cells. cbn [cells next_addr calls released store]. rewrite Z.eqb_refl. destruct (e1 =? 0) eqn:Z1; cbn [negb].
  - destruct b as [b|]; [|exact I]. destruct (wr buf 0 header) as [b1| | | |]; cbn [bind]; try exact I. destruct (pem_lines _ _ _ _ _ _) as [[b2 q]| | | |]; cbn [bind]; try exact I. destruct (wr b2 q footer) as [b3| | | |]; cbn [bind]; try exact I. destruct (wr b3 _ [0]) as [b4| | | |]; cbn [bind]; try exact I.
    rewrite (release_head _ (next_addr h) b (cells h)) by (try reflexivity; lia). cbn [bind]. eexists. split; [reflexivity|]. split; [reflexivity|]. intros _. exists r, u, v, m, b. repeat split. replace e1 with 0 in E1 by lia. exact E1.
  - destruct b as [b|]; [|apply encode_some in E1; congruence]. rewrite (release_head _ (next_addr h) b (cells h)) by (try reflexivity; lia). cbn [bind]. eexists. repeat split. lia.
Qed.
Lemma write_free h header footer der buf : 0 < next_addr h -> is_bytes der -> zlen der < 2 ^ 63 -> zlen header + zlen footer < 2 ^ 32 -> zlen buf < 2 ^ 64 ->
  exists h' e l o, h_pem_write ora h header footer der buf (zlen buf) = Ok (h', (e, l, o)) /\ pem_write_buffer (fun _ => ora (calls h)) header footer der buf (zlen buf) = Ok (e, l, o) /\ cells h' = cells h /\
    (e = 0 -> exists rest, released h' = (b64 der ++ rest) :: released h).
Proof.
  intros Hn Hb Hd Hh Hbuf. pose proof (write_sim h header footer der buf (zlen buf) Hn) as W. pose proof (b64_bound der Hd) as Bd. pose proof (zlen_nonneg (b64 der)).
  assert (exists e l o, pem_write_buffer (fun _ => ora (calls h)) header footer der buf (zlen buf) = Ok (e, l, o)) as (e & l & o & E).
  { destruct (pem_write_ok (fun _ => ora (calls h)) header footer der buf Hb Hd Hh Hbuf) as [[_ ->]|[(n & _ & ->)|[_ ->]]]; do 3 eexists; reflexivity. }
  rewrite E in W. destruct W as (h' & W & Hc & Hr). exists h', e, l, o. repeat split; try assumption. intros He. destruct (Hr He) as (r & u & v & m & enc & E0 & E1 & R). rewrite R. clear - E0 E1 Hb Hd Bd H.
  destruct der as [|a d]. { cbn in E0. injection E0 as <- <- <-. cbn in E1. injection E1 as <- <-. exists []. reflexivity. }
  assert (base64_encode None 0 (a :: d) (zlen (a :: d)) = Ok (ERR_BASE64_BUFFER_TOO_SMALL, zlen (b64 (a :: d)) + 1, None)) as E2 by (apply encode_announces; [discriminate|lia|left; reflexivity]).
  rewrite E2 in E0. assert (u = zlen (b64 (a :: d)) + 1) as -> by congruence.
  assert (exists z, base64_encode (Some (zeros (Z.to_nat (zlen (b64 (a :: d)) + 1)))) (zlen (b64 (a :: d)) + 1) (a :: d) (zlen (a :: d)) = Ok (0, zlen (b64 (a :: d)), Some (b64 (a :: d) ++ z))) as [z E3].
  { eexists. apply encode_is_b64; [assumption|discriminate|rewrite zlen_zeros; lia|lia]. }
  rewrite E3 in E1. exists z. congruence.
Qed.
End Ora.
