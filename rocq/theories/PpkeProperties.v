(** Properties C53-C56 and C73-C75: puncturable encryption, for every instance [R] of RELIC's groups that satisfies [relic_ok], every
    hash function with 64-byte digests, with and without locked memory.  [prf] is the PRF keyed with the master key. *)
From Verif Require Import Base BaseFacts PpkeModel PpkeSpec PpkeProofs PpkeProofs2 PpkeProofs3 PpkeProofs4 PpkeExample.

(** Computations whose type mentions the toy instance are compared through this *)
Definition is_ub {A} (x : outcome A) : bool := match x with UB => true | _ => false end.
Lemma is_ub_ok {A} (x : outcome A) : is_ub x = true -> x = UB.
Proof. destruct x; intros E; first [discriminate E|reflexivity]. Qed.

(** * C53 *)
(** Whatever has been punctured before: the bytes encrypt returns decrypt to the message.  The key and the ciphertext are those of the
    debug build, whose assertions exclude points at infinity; the other build returns the same bytes. *)
Theorem C53_unpunctured_tags_decrypt_partial : forall R, relic_ok R -> forall H ml u1 u2, env_ok H u1 u2 ->
  forall dbg prf bufs cbuf tags key tag m t ct,
  (forall i, zlen (bufs i) = 211) -> zlen cbuf = 90 -> Forall usable_tag tags -> zlen tags < 2 ^ 32 - 1 -> usable_tag tag ->
  (forall t', In t' (reserved_tag :: tags) -> tag_scalar R t' <> tag_scalar R tag) -> 0 <= m < 2 ^ 64 ->
  punctured_key R true prf bufs tags = Ok key -> penc_encrypt R H ml true u1 u2 prf m tag t cbuf = Ok ct ->
  punctured_key R dbg prf bufs tags = Ok key /\ penc_encrypt R H ml dbg u1 u2 prf m tag t cbuf = Ok ct /\
  exists sk, pdec_make R key = Ok sk /\ pdec_decrypt R H ml u1 u2 sk ct = Ok (Some m).
Proof. exact unpunctured_decrypts. Qed.
Print Assumptions C53_unpunctured_tags_decrypt_partial.
(** When the debug build encrypts: the random exponent and beta + h(tag) * r_y are not null *)
Theorem C53_encryption_succeeds : forall R, relic_ok R -> forall H ml u1 u2, env_ok H u1 u2 -> forall prf m tag t cbuf,
  usable_tag tag -> zlen cbuf = 90 ->
  (exists ct, penc_encrypt R H ml true u1 u2 prf m tag t cbuf = Ok ct) <->
  t mod order R <> 0 /\ (sp_beta (paramgen R prf) + tag_scalar R tag * sp_ry (paramgen R prf)) mod order R <> 0.
Proof. exact encrypt_debug_iff. Qed.
Print Assumptions C53_encryption_succeeds.
(** Not for a null random exponent: outside of debug builds the ciphertext holds bytes of the uninitialised result, and cannot be read back *)
Theorem C53_null_exponent_refuted : exists R H u1 u2 prf bufs cbuf tags tag m t ct key,
  relic_ok R /\ env_ok H u1 u2 /\ (forall i, zlen (bufs i) = 211) /\ zlen cbuf = 90 /\ Forall usable_tag tags /\ usable_tag tag /\
  (forall t', In t' (reserved_tag :: tags) -> tag_scalar R t' <> tag_scalar R tag) /\ 0 <= m < 2 ^ 64 /\
  punctured_key R false prf bufs tags = Ok key /\ penc_encrypt R H true false u1 u2 prf m tag t cbuf = Ok ct /\
  (sk <- pdec_make R key ;; pdec_decrypt R H true u1 u2 sk ct) = UB.
Proof.
  destruct (punctured_key toy false toy_prf toy_bufs [tag 1]) as [key| | | |] eqn:Ek; try (vm_compute in Ek; discriminate Ek).
  destruct (penc_encrypt toy toy_H true false toy_u1 toy_u2 toy_prf 12345 (tag 4) 0 toy_cbuf) as [ct| | | |] eqn:Ec; try (vm_compute in Ec; discriminate Ec).
  exists toy, toy_H, toy_u1, toy_u2, toy_prf, toy_bufs, toy_cbuf, [tag 1], (tag 4), 12345, 0, ct, key.
  split; [exact toy_ok|]. split; [exact toy_env|]. split; [intros i; reflexivity|]. split; [reflexivity|].
  split; [constructor; [apply tag_usable; lia|constructor]|]. split; [apply tag_usable; lia|].
  split; [intros t' [<-|[<-|[]]]; vm_compute; discriminate|]. split; [lia|]. split; [exact Ek|]. split; [exact Ec|].
  vm_compute in Ek, Ec. injection Ek as <-. injection Ec as <-. vm_compute. reflexivity.
Qed.
Print Assumptions C53_null_exponent_refuted.
(** Three punctures, one of them repeated; the message is recovered *)
Example C53_nontrivial : relic_ok toy /\ env_ok toy_H toy_u1 toy_u2 /\ Forall usable_tag (map tag [1; 2; 1]) /\ usable_tag (tag 4) /\
  (forall t', In t' (reserved_tag :: map tag [1; 2; 1]) -> tag_scalar toy t' <> tag_scalar toy (tag 4)) /\
  exists key ct, punctured_key toy true toy_prf toy_bufs (map tag [1; 2; 1]) = Ok key /\
    penc_encrypt toy toy_H true true toy_u1 toy_u2 toy_prf 123456789012345 (tag 4) 77 toy_cbuf = Ok ct /\
    (sk <- pdec_make toy key ;; pdec_decrypt toy toy_H true toy_u1 toy_u2 sk ct) = Ok (Some 123456789012345).
Proof.
  split; [exact toy_ok|]. split; [exact toy_env|]. split; [repeat (apply Forall_cons; [apply tag_usable; lia|]); apply Forall_nil|]. split; [apply tag_usable; lia|].
  split; [intros t' [<-|[<-|[<-|[<-|[]]]]]; vm_compute; discriminate|].
  destruct (punctured_key toy true toy_prf toy_bufs (map tag [1; 2; 1])) as [key| | | |] eqn:Ek; try (vm_compute in Ek; discriminate Ek).
  destruct (penc_encrypt toy toy_H true true toy_u1 toy_u2 toy_prf 123456789012345 (tag 4) 77 toy_cbuf) as [ct| | | |] eqn:Ec; try (vm_compute in Ec; discriminate Ec).
  exists key, ct. split; [reflexivity|]. split; [reflexivity|].
  vm_compute in Ek, Ec. injection Ek as <-. injection Ec as <-. vm_compute. reflexivity.
Qed.

(** * C54 *)
(** With any key shares and any ciphertext that can be read: false exactly when a share carries the tag of the ciphertext; when only the
    hashes of two tags agree, logic_error *)
Theorem C54_false_iff_a_share_carries_the_tag : forall R, relic_ok R -> forall H ml u1 u2, env_ok H u1 u2 -> forall key sk ct c,
  Forall (fun b => zlen b = 211) key -> zlen key < 2 ^ 32 -> zlen ct = 90 ->
  pdec_make R key = Ok sk -> read_ct R ct = Ok c ->
  (pdec_decrypt R H ml u1 u2 sk ct = Ok None <-> exists ks, In ks key /\ extract_tag_share ks = extract_tag_ct ct) /\
  (pdec_decrypt R H ml u1 u2 sk ct = Throw LogicError <->
     (~ exists ks, In ks key /\ extract_tag_share ks = extract_tag_ct ct) /\
     exists ks t t', In ks key /\ extract_tag_share ks = Ok t /\ extract_tag_ct ct = Ok t' /\ tag_scalar R t = tag_scalar R t') /\
  (pdec_decrypt R H ml u1 u2 sk ct = Ok None \/ pdec_decrypt R H ml u1 u2 sk ct = Throw LogicError \/
   exists m, pdec_decrypt R H ml u1 u2 sk ct = Ok (Some m)).
Proof. exact false_iff_punctured. Qed.
Print Assumptions C54_false_iff_a_share_carries_the_tag.
(** With the key a client builds, after any punctures: exactly the punctured tags (and the reserved one) *)
Theorem C54_false_iff_punctured : forall R, relic_ok R -> forall H ml u1 u2, env_ok H u1 u2 -> forall dbg prf bufs tags key ct c tag,
  (forall i, zlen (bufs i) = 211) -> Forall usable_tag tags -> zlen tags < 2 ^ 32 - 1 ->
  punctured_key R true prf bufs tags = Ok key ->
  zlen ct = 90 -> read_ct R ct = Ok c -> extract_tag_ct ct = Ok tag ->
  punctured_key R dbg prf bufs tags = Ok key /\
  exists sk, pdec_make R key = Ok sk /\
    (pdec_decrypt R H ml u1 u2 sk ct = Ok None <-> tag = reserved_tag \/ In tag tags).
Proof. exact api_punctured. Qed.
Print Assumptions C54_false_iff_punctured.
(** Punctured last of three, and two tags with the same hash *)
Example C54_nontrivial :
  (forall i m, In i [1; 2; 3] -> In m [5; 123456789] ->
    (key <- punctured_key toy true toy_prf toy_bufs (map tag [1; 2; 3]) ;; sk <- pdec_make toy key ;;
     ct <- penc_encrypt toy toy_H true true toy_u1 toy_u2 toy_prf m (tag i) 77 toy_cbuf ;; pdec_decrypt toy toy_H true toy_u1 toy_u2 sk ct) = Ok None) /\
  tag_scalar toy (tag 51) = tag_scalar toy (tag 3) /\
  (key <- punctured_key toy true toy_prf toy_bufs (map tag [1; 2; 3]) ;; sk <- pdec_make toy key ;;
   ct <- penc_encrypt toy toy_H true true toy_u1 toy_u2 toy_prf 5 (tag 51) 77 toy_cbuf ;; pdec_decrypt toy toy_H true toy_u1 toy_u2 sk ct) = Throw LogicError.
Proof.
  split; [|split; vm_compute; reflexivity].
  intros i m Hi Hm. repeat destruct Hi as [<-|Hi]; try destruct Hi; (repeat destruct Hm as [<-|Hm]; try destruct Hm; vm_compute; reflexivity).
Qed.

(** * C55 *)
(** Encrypting under the reserved tag, with either interface, and puncturing a key object on it, are refused in every build *)
Theorem C55_reserved_tag_refused_partial : forall R H ml u1 u2 dbg prf pk sk m t cbuf t0 t1 tl,
  penc_encrypt R H ml dbg u1 u2 prf m reserved_tag t cbuf = Throw InvalidArgument /\
  encrypt_pk R H ml u1 u2 pk m reserved_tag t = Throw InvalidArgument /\
  puncture R dbg pk sk reserved_tag t0 t1 tl = Throw InvalidArgument.
Proof. exact (fun R H ml u1 u2 dbg prf pk sk m t cbuf t0 t1 tl =>
  conj (encrypt_reserved R H ml u1 u2 dbg prf m t cbuf) (conj (encrypt_pk_reserved R H ml u1 u2 pk m t) (puncture_reserved R dbg pk sk t0 t1 tl))). Qed.
Print Assumptions C55_reserved_tag_refused_partial.
(** Other tags are not *)
Theorem C55_other_tags_accepted : forall R, relic_ok R -> forall H ml u1 u2, env_ok H u1 u2 -> forall prf m tag t cbuf,
  usable_tag tag -> zlen cbuf = 90 -> exists ct, penc_encrypt R H ml false u1 u2 prf m tag t cbuf = Ok ct.
Proof. exact encrypt_usable. Qed.
Print Assumptions C55_other_tags_accepted.
(** inc_puncture only asserts: debug builds stop, other builds return a share *)
Theorem C55_inc_puncture_only_asserts : forall R, relic_ok R -> forall prf d tag buf,
  is_tag tag -> zlen buf = 211 -> tag = reserved_tag \/ d = 0 ->
  penc_inc_puncture R true prf d tag buf = Abort /\
  exists b, penc_inc_puncture R false prf d tag buf = Ok b /\ extract_tag_share b = Ok tag.
Proof. exact inc_puncture_bad. Qed.
Print Assumptions C55_inc_puncture_only_asserts.
Theorem C55_inc_puncture_refuted : exists R prf d tag buf b, relic_ok R /\ is_tag tag /\ zlen buf = 211 /\ (tag = reserved_tag /\ 0 < d) /\
  penc_inc_puncture R false prf d tag buf = Ok b /\ penc_inc_puncture R true prf d tag buf = Abort.
Proof.
  destruct (penc_inc_puncture toy false toy_prf 3 reserved_tag (toy_bufs 0)) as [b| | | |] eqn:E; try (vm_compute in E; discriminate E).
  exists toy, toy_prf, 3, reserved_tag, (toy_bufs 0), b. split; [exact toy_ok|]. split; [split; [reflexivity|repeat constructor; discriminate]|].
  split; [reflexivity|]. split; [split; reflexivity|]. split; [exact E|vm_compute; reflexivity].
Qed.
Print Assumptions C55_inc_puncture_refuted.
Example C55_nontrivial : usable_tag (tag 1) /\ is_tag reserved_tag /\ zlen toy_cbuf = 90 /\ zlen (toy_bufs 3) = 211 /\
  (exists b, penc_encrypt toy toy_H true true toy_u1 toy_u2 toy_prf 5 (tag 1) 77 toy_cbuf = Ok b) /\
  (exists b, penc_inc_puncture toy false toy_prf 0 (tag 1) (toy_bufs 0) = Ok b) /\ penc_inc_puncture toy true toy_prf 0 (tag 1) (toy_bufs 0) = Abort.
Proof.
  split; [apply tag_usable; lia|]. split; [split; [reflexivity|repeat constructor; discriminate]|]. split; [reflexivity|]. split; [reflexivity|].
  split; [apply (encrypt_debug_iff toy toy_ok toy_H true toy_u1 toy_u2 toy_env); [apply tag_usable; lia|reflexivity|split; vm_compute; discriminate]|].
  split; [|vm_compute; reflexivity].
  destruct (inc_puncture_bad toy toy_ok toy_prf 0 (tag 1) (toy_bufs 0)) as [_ (b & E & _)];
    [apply tag_usable; lia|reflexivity|right; reflexivity|exists b; exact E].
Qed.

(** * C56 *)
(** Whatever the interface returns, in every build, has the documented size and ends with its tag *)
Theorem C56_tags_are_read_back : forall R, relic_ok R -> forall H ml u1 u2, env_ok H u1 u2 -> forall dbg prf d tag m t buf cbuf b c,
  zlen tag = 16 -> zlen buf = 211 -> zlen cbuf = 90 ->
  (penc_initial_keyshare R dbg prf d buf = Ok b -> zlen b = 211 /\ extract_tag_share b = Ok reserved_tag) /\
  (penc_inc_puncture R dbg prf d tag buf = Ok b -> zlen b = 211 /\ extract_tag_share b = Ok tag) /\
  (penc_encrypt R H ml dbg u1 u2 prf m tag t cbuf = Ok c -> zlen c = 90 /\ extract_tag_ct c = Ok tag).
Proof. exact (fun R RO H ml u1 u2 _ => api_tags R RO H ml u1 u2). Qed.
Print Assumptions C56_tags_are_read_back.
(** Without points at infinity, reading what was written gives the same components, in every build *)
Theorem C56_key_shares_are_read_back_partial : forall R, relic_ok R -> forall dbg s buf,
  in_g2 s -> finite_share s -> zlen (sk4 R s) = 16 -> zlen buf = 211 ->
  exists b, write_share R dbg s buf = Ok b /\ read_share R b = Ok s.
Proof. exact share_roundtrip. Qed.
Print Assumptions C56_key_shares_are_read_back_partial.
Theorem C56_ciphertexts_are_read_back_partial : forall R, relic_ok R -> forall dbg c buf,
  in_g1 c -> finite_ct c -> zlen (ct_tag R (ct_partial R c)) = 16 -> 0 <= ct1 R c < 2 ^ 64 -> zlen buf = 90 ->
  exists b, write_ct R dbg c buf = Ok b /\ read_ct R b = Ok c.
Proof. exact ct_roundtrip. Qed.
Print Assumptions C56_ciphertexts_are_read_back_partial.
(** A point at infinity is written on one byte: the 32 others are whatever the uninitialised array held *)
Theorem C56_points_at_infinity_leave_bytes : forall R, relic_ok R -> forall H ml u1 u2, env_ok H u1 u2 -> forall prf m tag t cbuf,
  usable_tag tag -> zlen cbuf = 90 -> t mod order R = 0 ->
  penc_encrypt R H ml true u1 u2 prf m tag t cbuf = Abort /\
  exists ct, penc_encrypt R H ml false u1 u2 prf m tag t cbuf = Ok ct /\
    window ct 9 32 = window cbuf 9 32 /\ window ct 42 32 = window cbuf 42 32.
Proof. exact infinity_leak. Qed.
Print Assumptions C56_points_at_infinity_leave_bytes.
Theorem C56_points_at_infinity_refuted : exists R c buf b, relic_ok R /\ in_g1 c /\ zlen (ct_tag R (ct_partial R c)) = 16 /\ 0 <= ct1 R c < 2 ^ 64 /\
  zlen buf = 90 /\ write_ct R false c buf = Ok b /\ read_ct R b = UB.
Proof.
  set (c := {| ct1 := 7; ct_partial := {| ct2 := 0 : car (G1 toy); ct3 := 5 : car (G1 toy); ct_tag := tag 1 |} |} : ciphertext toy).
  destruct (write_ct toy false c toy_cbuf) as [b| | | |] eqn:E; try (vm_compute in E; discriminate E).
  exists toy, c, toy_cbuf, b. split; [exact toy_ok|].
  split; [split; [exists 0|exists 5]; split; first [lia|reflexivity]|]. split; [reflexivity|]. split; [unfold c; cbn [ct1]; lia|].
  split; [reflexivity|]. split; [exact E|]. vm_compute in E. injection E as <-. apply is_ub_ok. vm_compute. reflexivity.
Qed.
Print Assumptions C56_points_at_infinity_refuted.
Example C56_nontrivial :
  (let s := {| sk1 := 3 : car (G2 toy); sk2 := 4 : car (G2 toy); sk3 := 100 : car (G2 toy); sk4 := tag 9 |} : share toy in
   in_g2 s /\ finite_share s /\ (b <- write_share toy true s (toy_bufs 5) ;; t <- extract_tag_share b ;; s' <- read_share toy b ;;
    Ok (t, sk1 toy s', sk2 toy s', sk3 toy s', sk4 toy s')) = Ok (tag 9, 3, 4, 100, tag 9)) /\
  (let c := {| ct1 := 2 ^ 64 - 2; ct_partial := {| ct2 := 1 : car (G1 toy); ct3 := 99 : car (G1 toy); ct_tag := tag 1 |} |} : ciphertext toy in
   in_g1 c /\ finite_ct c /\ (b <- write_ct toy true c toy_cbuf ;; t <- extract_tag_ct b ;; c' <- read_ct toy b ;;
    Ok (t, ct1 toy c', ct2 toy (ct_partial toy c'), ct3 toy (ct_partial toy c'), ct_tag toy (ct_partial toy c'))) = Ok (tag 1, 2 ^ 64 - 2, 1, 99, tag 1)).
Proof.
  cbv zeta. split.
  - split; [split; [exists 3|split; [exists 4|exists 100]]; split; first [lia|reflexivity]|].
    split; [repeat split; cbn; discriminate|vm_compute; reflexivity].
  - split; [split; [exists 1|exists 99]; split; first [lia|reflexivity]|].
    split; [repeat split; cbn; discriminate|vm_compute; reflexivity].
Qed.

(** * C73: key objects and public keys *)
Theorem C73_punctured_key_objects_decrypt : forall R, relic_ok R -> forall H ml u1 u2, env_ok H u1 u2 -> forall dbg pk sk sp ps tag m t,
  (exists ta tb ty tr, keygen_random R ta tb ty tr = (pk, sk, sp)) \/ (exists prf, keygen_prf R prf = (pk, sk, sp)) ->
  Forall (fun p => usable_tag (fst p)) ps -> zlen ps < 2 ^ 32 - 1 -> usable_tag tag ->
  exists sk' c, punctures R dbg pk sk ps = Ok sk' /\ encrypt_pk R H ml u1 u2 pk m tag t = Ok c /\ encrypt_sp R H ml u1 u2 sp m tag t = Ok c /\
    (In tag (map fst ps) -> decrypt R H ml u1 u2 sk' c = Ok None /\ decrypt_throwing R H ml u1 u2 sk' c = Throw InvalidArgument) /\
    ((forall t', In t' (reserved_tag :: map fst ps) -> tag_scalar R t' <> tag_scalar R tag) ->
      decrypt R H ml u1 u2 sk' c = Ok (Some m) /\ decrypt_throwing R H ml u1 u2 sk' c = Ok m).
Proof. exact pk_correct. Qed.
Print Assumptions C73_punctured_key_objects_decrypt.
Example C73_nontrivial :
  let ps := [(tag 1, (5, 6, 7)); (tag 2, (8, 9, 10)); (tag 3, (0, 11, 12))] in
  Forall (fun p => usable_tag (fst p)) ps /\ ~ In (tag 4) (map fst ps) /\
  (forall t', In t' (reserved_tag :: map fst ps) -> tag_scalar toy t' <> tag_scalar toy (tag 4)) /\
  (let '(pk, sk, sp) := keygen_random toy 1000 2000 3000 4000 in
   sk' <- punctures toy true pk sk ps ;; c <- encrypt_pk toy toy_H true toy_u1 toy_u2 pk 2024 (tag 4) 50 ;;
   c2 <- encrypt_pk toy toy_H true toy_u1 toy_u2 pk 2024 (tag 2) 50 ;;
   m <- decrypt toy toy_H true toy_u1 toy_u2 sk' c ;; m2 <- decrypt toy toy_H true toy_u1 toy_u2 sk' c2 ;; Ok (m, m2)) = Ok (Some 2024, None).
Proof.
  cbv zeta. split; [repeat (apply Forall_cons; [apply tag_usable; lia|]); apply Forall_nil|].
  split; [intros [X|[X|[X|[]]]]; discriminate X|].
  split; [intros t' [<-|[<-|[<-|[<-|[]]]]]; vm_compute; discriminate|].
  vm_compute. reflexivity.
Qed.

(** * C74 *)
(** With the same random number, encrypting with the public key gives the ciphertext of encrypting with the secret parameters *)
Theorem C74_both_encryptions_agree : forall R, relic_ok R -> forall H ml u1 u2 sp m tag t,
  0 <= sp_alpha sp < order R -> 0 <= sp_beta sp < order R -> 0 <= sp_ry sp < order R ->
  encrypt_pk R H ml u1 u2 (make_pk R (sp_alpha sp) (sp_beta sp) (sp_ry sp)) m tag t = encrypt_sp R H ml u1 u2 sp m tag t.
Proof. exact (fun R RO H ml u1 u2 sp m tag t Ha Hb Hr => encrypt_pk_sp R RO H ml u1 u2 sp m tag t (Build_sp_range R sp Ha Hb Hr)). Qed.
Print Assumptions C74_both_encryptions_agree.
Example C74_nontrivial : exists x,
  (c <- encrypt_sp toy toy_H true toy_u1 toy_u2 {| sp_alpha := 17; sp_beta := 23; sp_ry := 99 |} 77 (tag 3) 41 ;; Ok (ct1 toy c)) = Ok x /\ x <> 77.
Proof. eexists. split; [vm_compute; reflexivity|discriminate]. Qed.

(** * C75 *)
(** No two of the values derived from the master key share their seed, for all counts below 2^64 *)
Theorem C75_seeds_are_distinct : forall u v, index_ok u -> index_ok v -> seed_of u = seed_of v -> u = v.
Proof. exact seeds_distinct. Qed.
Print Assumptions C75_seeds_are_distinct.
Example C75_nontrivial : index_ok (Rho 18446744073709551615) /\ index_ok (R1 10) /\ seed_of (R1 10) <> seed_of (R1 1) /\
  seed_of (Rho 18446744073709551615) = [112; 97; 114; 97; 109; 95; 114; 104; 111; 95; 49; 56; 52; 52; 54; 55; 52; 52; 48; 55; 51; 55; 48; 57; 53; 53; 49; 54; 49; 53].
Proof. repeat split; try lia; vm_compute; first [reflexivity|discriminate]. Qed.
