From Verif Require Import BaseFacts KeyVal CipherModel CipherSpec PrgSpec.

(** RFC 8439-like constructions satisfy the laws, whatever the stream cipher and the MAC. *)
Lemma stream_mac_laws stream mac : (forall k n l, length (stream k n l) = l) -> (forall k n c, length (mac k n c) = 16%nat) ->
  aead_laws (stream_mac_enc stream mac) (stream_mac_dec stream mac).
Proof.
  intros Hs Hm. split.
  - intros. unfold stream_mac_enc. rewrite app_length, xorb_list_length, Hs, Hm. lia.
  - intros k n m. unfold stream_mac_enc, stream_mac_dec. set (c := xorb_list m _).
    assert (Hc : length c = length m) by (unfold c; rewrite xorb_list_length, Hs; lia).
    rewrite app_length, Hm, Hc. destruct (Nat.ltb_spec (length m + 16) 16); [lia|].
    replace (length m + 16 - 16)%nat with (length c) by lia.
    rewrite firstn_app, firstn_all, Nat.sub_diag, skipn_app, skipn_all, Nat.sub_diag. simpl. rewrite app_nil_r, bytes_eqb_refl.
    f_equal. rewrite Hc. apply xorb_list_cancel. rewrite Hs. lia.
  - intros k n c m. unfold stream_mac_enc, stream_mac_dec. destruct (Nat.ltb_spec (length c) 16); [discriminate|].
    destruct (bytes_eqb _ _) eqn:Eb; [|discriminate]. apply bytes_eqb_spec in Eb. intros [= <-].
    set (l := (length c - 16)%nat) in *.
    rewrite xorb_list_length, Hs, firstn_length. replace (Nat.min (Nat.min l (length c)) l) with l by lia.
    rewrite xorb_list_cancel by (rewrite Hs, firstn_length; lia). rewrite Eb. symmetry. apply firstn_skipn.
Qed.

Section P.
  Variable kdf : bytes -> bytes -> bytes.
  Variable enc : bytes -> bytes -> bytes -> bytes.
  Variable dec : bytes -> bytes -> bytes -> option bytes.
  Variable ml : bool.
  Variable HL : aead_laws enc dec.

  Notation ct := (CipherSpec.ct kdf enc).

  Lemma enc_zlen k n m : zlen (enc k n m) = zlen m + 16.
  Proof. unfold zlen. rewrite (A_len _ _ HL). lia. Qed.

  Lemma encrypt_ok kb l m rest out r : zlen r = 16 -> zlen m <= MESSAGEBYTES_MAX -> zlen m + 32 <= zlen out ->
    encrypt kdf enc ml (VKey kb l) (m ++ rest) (zlen m) out r = (VKey kb ml, Ok (prefix_replaced (ct kb r m) out)).
  Proof.
    intros Hr Hm Ho. unfold encrypt, NONCE_SIZE.
    destruct (zsplit out 16) as (a & o1 & -> & Ha & Ho1); [pose proof (zlen_nonneg m); lia|].
    rewrite wr_prefix by lia. rewrite rd_prefix by lia. cbn [derive_subkey v_unlock v_lock].
    rewrite rd_prefix by reflexivity. rewrite bind_Ok. destruct (Z.ltb_spec MESSAGEBYTES_MAX (zlen m)); [lia|].
    destruct (zsplit r 12) as (r1 & r2 & -> & Hr1 & Hr2); [lia|]. rewrite <- app_assoc, rd_prefix by lia. rewrite bind_Ok.
    rewrite app_assoc. rewrite wr_app_eq; [|lia|rewrite enc_zlen; lia].
    unfold prefix_replaced, CipherSpec.ct. do 2 f_equal.
    replace (firstn 12 (r1 ++ r2)) with r1.
    2:{ unfold zlen in Hr1. replace 12%nat with (length r1) by lia. rewrite firstn_app, firstn_all, Nat.sub_diag. simpl. rewrite app_nil_r. reflexivity. }
    rewrite <- (app_assoc (r1 ++ r2)). apply f_equal. apply f_equal.
    rewrite app_length. replace (length (r1 ++ r2)) with (length a) by (unfold zlen in *; lia).
    rewrite Nat.add_comm, <- skipn_skipn_add, skipn_app, skipn_all, Nat.sub_diag. reflexivity.
  Qed.

  Lemma encrypt_str_ok kb l m g r : zlen r = 16 -> 0 < zlen m <= MESSAGEBYTES_MAX -> zlen g = ciphertext_length (zlen m) ->
    encrypt_str kdf enc ml (VKey kb l) m g r = (VKey kb ml, Ok (ct kb r m)).
  Proof.
    intros Hr Hm Hg. unfold encrypt_str. destruct (Z.eqb_spec (zlen m) 0); [lia|].
    assert (Hg' : zlen g = zlen m + 32).
    { rewrite Hg. unfold ciphertext_length, u64, kCiphertextExpansion, MESSAGEBYTES_MAX in *. rewrite Z.mod_small; lia. }
    rewrite <- (app_nil_r m) at 1. rewrite encrypt_ok by lia. do 2 f_equal.
    unfold prefix_replaced. rewrite skipn_all2; [apply app_nil_r|].
    unfold CipherSpec.ct. rewrite app_length, (A_len _ _ HL). unfold zlen in *. lia.
  Qed.

  Lemma decrypt_gen kb l r c rest out : zlen r = 16 -> 16 <= zlen c -> zlen c <= 2 ^ 63 -> zlen c - 16 <= zlen out ->
    decrypt kdf dec ml (VKey kb l) (r ++ c ++ rest) (16 + zlen c) out =
      match dec (kdf kb r) (firstn 12 r) c with
      | Some m => (VKey kb ml, prefix_replaced m out, Ok tt)
      | None => (VKey kb ml, prefix_replaced (zeros (Z.to_nat (zlen c - 16))) out, Throw RuntimeError)
      end.
  Proof.
    intros Hr Hc Hcm Ho. unfold decrypt, NONCE_SIZE, ABYTES.
    change (ciphertext_length 0) with 32. destruct (Z.ltb_spec (16 + zlen c) 32); [lia|].
    rewrite rd_prefix by lia. cbn [derive_subkey v_unlock v_lock].
    rewrite rd_mid by lia.
    destruct (zsplit r 12) as (r1 & r2 & -> & Hr1 & Hr2); [lia|]. rewrite <- app_assoc, rd_prefix by lia.
    replace (firstn 12 (r1 ++ r2)) with r1.
    2:{ unfold zlen in Hr1. replace 12%nat with (length r1) by lia. rewrite firstn_app, firstn_all, Nat.sub_diag. simpl. rewrite app_nil_r. reflexivity. }
    destruct (dec _ r1 c) as [m|] eqn:Ed.
    - assert (Hm : zlen m <= zlen out).
      { apply (A_auth _ _ HL) in Ed. subst c. rewrite enc_zlen in *. lia. }
      pose proof (wr_app_eq [] out m 0 eq_refl Hm) as E. simpl app in E. rewrite E. reflexivity.
    - replace (16 + zlen c - 16 - 16) with (zlen c - 16) by lia.
      set (z := zeros _). assert (Hz : zlen z <= zlen out) by (unfold z; rewrite zlen_zeros; lia).
      pose proof (wr_app_eq [] out z 0 eq_refl Hz) as E. simpl app in E. rewrite E. reflexivity.
  Qed.

  Lemma roundtrip kb l' m rest out r : zlen r = 16 -> zlen m <= MESSAGEBYTES_MAX -> zlen m <= zlen out ->
    decrypt kdf dec ml (VKey kb l') (ct kb r m ++ rest) (zlen (ct kb r m)) out = (VKey kb ml, prefix_replaced m out, Ok tt).
  Proof.
    intros Hr Hm Ho.
    unfold CipherSpec.ct. rewrite <- app_assoc, zlen_app, Hr.
    unfold MESSAGEBYTES_MAX in Hm.
    pose proof (zlen_nonneg m).
    rewrite decrypt_gen; rewrite ?enc_zlen; try lia. rewrite (A_dec _ _ HL). reflexivity.
  Qed.

  (** decryption of an encryption *)
  Lemma buffers kb l l' m rest rest' out out' r o : zlen r = 16 -> zlen m <= MESSAGEBYTES_MAX -> zlen m + 32 <= zlen out -> zlen m <= zlen out' ->
    snd (encrypt kdf enc ml (VKey kb l) (m ++ rest) (zlen m) out r) = Ok o ->
    decrypt kdf dec ml (VKey kb l') (o ++ rest') (zlen m + 32) out' = (VKey kb ml, prefix_replaced m out', Ok tt).
  Proof.
    intros Hr Hm Ho Ho' E. rewrite encrypt_ok in E by assumption. injection E as <-.
    unfold prefix_replaced at 1. rewrite <- app_assoc.
    replace (zlen m + 32) with (zlen (ct kb r m)) by (unfold CipherSpec.ct; rewrite zlen_app, enc_zlen; lia).
    apply roundtrip; assumption.
  Qed.
  Lemma prefix_replaced_exact w b : length w = length b -> prefix_replaced w b = w.
  Proof. intros E. unfold prefix_replaced. rewrite skipn_all2 by lia. apply app_nil_r. Qed.
  Lemma strings kb l l' m g r c : zlen r = 16 -> zlen m <= MESSAGEBYTES_MAX -> zlen g = ciphertext_length (zlen m) ->
    encrypt_str kdf enc ml (VKey kb l) m g r = (VKey kb ml, Ok c) ->
    decrypt_str kdf dec ml (VKey kb l') c = (VKey kb ml, Ok m).
  Proof.
    intros Hr Hm Hg E.
    destruct (Z.eq_dec (zlen m) 0) as [E0|E0].
    { unfold encrypt_str in E. rewrite E0 in E. discriminate. }
    pose proof (zlen_nonneg m). rewrite encrypt_str_ok in E by (assumption || lia). injection E as <-.
    unfold decrypt_str, NONCE_SIZE, ABYTES.
    assert (Hct : zlen (ct kb r m) = zlen m + 32) by (unfold CipherSpec.ct; rewrite zlen_app, enc_zlen; lia).
    rewrite Hct. destruct (Z.leb_spec (zlen m + 32) (16 + 16)); [lia|].
    unfold plaintext_length, kCiphertextExpansion. destruct (Z.ltb_spec 32 (zlen m + 32)); [|lia].
    replace (zlen m + 32 - 32) with (zlen m) by lia. rewrite <- Hct.
    rewrite <- (app_nil_r (ct kb r m)) at 1.
    pose proof (roundtrip kb l' m [] (zeros (Z.to_nat (zlen m))) r Hr Hm) as R. rewrite zlen_zeros in R. specialize (R ltac:(lia)).
    rewrite R. rewrite prefix_replaced_exact; [reflexivity|]. rewrite zeros_length. unfold zlen; lia.
  Qed.

  (** C18 *)
  Lemma lengths n : 0 <= n -> n + 32 < 2 ^ 64 -> plaintext_length (ciphertext_length n) = n /\ ciphertext_length n = n + 32.
  Proof.
    intros Hn Hm. unfold ciphertext_length, plaintext_length, kCiphertextExpansion, u64. rewrite Z.mod_small by lia.
    destruct (Z.ltb_spec 32 (n + 32)); split; lia.
  Qed.
  Lemma enc_length kb l m g r c : zlen r = 16 -> zlen m <= MESSAGEBYTES_MAX -> zlen g = ciphertext_length (zlen m) ->
    encrypt_str kdf enc ml (VKey kb l) m g r = (VKey kb ml, Ok c) -> zlen c = ciphertext_length (zlen m).
  Proof.
    intros Hr Hm Hg E. destruct (Z.eq_dec (zlen m) 0) as [E0|E0].
    { unfold encrypt_str in E. rewrite E0 in E. discriminate. }
    pose proof (zlen_nonneg m). rewrite encrypt_str_ok in E by (assumption || lia). injection E as <-.
    unfold MESSAGEBYTES_MAX in Hm. rewrite (proj2 (lengths (zlen m) ltac:(lia) ltac:(lia))).
    unfold CipherSpec.ct. rewrite zlen_app, enc_zlen. lia.
  Qed.
  Lemma dec_length kb l c m : zlen c <= 2 ^ 63 -> snd (decrypt_str kdf dec ml (VKey kb l) c) = Ok m -> zlen m = plaintext_length (zlen c) /\ 0 < zlen m.
  Proof.
    intros Hc. unfold decrypt_str, NONCE_SIZE, ABYTES. destruct (Z.leb_spec (zlen c) (16 + 16)); [discriminate|].
    destruct (zsplit c 16) as (r & c' & -> & Hr & Hc'); [lia|]. rewrite zlen_app in *.
    unfold plaintext_length, kCiphertextExpansion. destruct (Z.ltb_spec 32 (zlen r + zlen c')); [|lia].
    pose proof (decrypt_gen kb l r c' [] (zeros (Z.to_nat (zlen r + zlen c' - 32))) Hr ltac:(lia) ltac:(lia)) as D.
    rewrite app_nil_r in D. rewrite Hr. rewrite Hr in D. rewrite D by (rewrite zlen_zeros; lia).
    destruct (dec _ _ c') as [m'|] eqn:Ed; [|discriminate]. intros [= <-].
    apply (A_auth _ _ HL) in Ed. subst c'. rewrite enc_zlen in *.
    rewrite prefix_replaced_exact; [lia|]. rewrite zeros_length. unfold zlen in *. lia.
  Qed.
  Lemma rejects k :
    (forall g r, encrypt_str kdf enc ml k [] g r = (k, Throw InvalidArgument)) /\
    (forall inp len out, len < 32 -> decrypt kdf dec ml k inp len out = (k, out, Throw InvalidArgument)) /\
    (forall c, zlen c <= 32 -> decrypt_str kdf dec ml k c = (k, Throw InvalidArgument)).
  Proof.
    split; [reflexivity|]. split.
    - intros inp len out Hl. unfold decrypt. change (ciphertext_length 0) with 32. destruct (Z.ltb_spec len 32); [reflexivity|lia].
    - intros c Hc. unfold decrypt_str, NONCE_SIZE, ABYTES. destruct (Z.leb_spec (zlen c) (16 + 16)); [reflexivity|lia].
  Qed.

  (** C19 *)
  Lemma authentic kb l c rest out k' out' o : 32 <= zlen c <= 2 ^ 63 -> zlen c - 32 <= zlen out ->
    decrypt kdf dec ml (VKey kb l) (c ++ rest) (zlen c) out = (k', out', o) ->
    (exists r m, o = Ok tt /\ zlen r = 16 /\ c = ct kb r m /\ out' = prefix_replaced m out) \/
    (o = Throw RuntimeError /\ (forall r m, zlen r = 16 -> c <> ct kb r m) /\ out' = prefix_replaced (zeros (Z.to_nat (zlen c - 32))) out).
  Proof.
    intros Hc Ho. destruct (zsplit c 16) as (r & c' & -> & Hr & Hc'); [lia|]. rewrite zlen_app in *.
    rewrite <- app_assoc, Hr. rewrite decrypt_gen by lia.
    destruct (dec _ _ c') as [m|] eqn:Ed.
    - intros [= <- <- <-]. left. exists r, m. split; [reflexivity|]. split; [assumption|]. split; [|reflexivity].
      apply (A_auth _ _ HL) in Ed. subst c'. reflexivity.
    - intros [= <- <- <-]. right. split; [reflexivity|]. split.
      + intros r' m Hr' Eq. unfold CipherSpec.ct in Eq. apply app_inj_len in Eq as [-> ->].
        * rewrite (A_dec _ _ HL) in Ed. discriminate.
        * unfold zlen in *; lia.
      + f_equal. f_equal. lia.
  Qed.
  Lemma authentic_str kb l c : zlen c <= 2 ^ 63 ->
    (exists r m, zlen r = 16 /\ 0 < zlen m /\ c = ct kb r m /\ decrypt_str kdf dec ml (VKey kb l) c = (VKey kb ml, Ok m)) \/
    ((forall r m, zlen r = 16 -> 0 < zlen m -> c <> ct kb r m) /\
      exists e, snd (decrypt_str kdf dec ml (VKey kb l) c) = Throw e).
  Proof.
    intros Hc. unfold decrypt_str, NONCE_SIZE, ABYTES. destruct (Z.leb_spec (zlen c) (16 + 16)) as [Hs|Hs].
    { right. split; [|eexists; reflexivity]. intros r m Hr Hm ->. unfold CipherSpec.ct in Hs. rewrite zlen_app, enc_zlen in Hs. lia. }
    set (out := zeros _). assert (Hout : zlen out = zlen c - 32).
    { unfold out. rewrite zlen_zeros. unfold plaintext_length, kCiphertextExpansion. destruct (Z.ltb_spec 32 (zlen c)); lia. }
    destruct (decrypt kdf dec ml (VKey kb l) c (zlen c) out) as [[k' out'] o] eqn:E.
    pose proof E as E'. rewrite <- (app_nil_r c) in E' at 1.
    assert (Hk : forall u, o = Ok u -> k' = VKey kb ml).
    { destruct (zsplit c 16) as (r & c' & -> & Hr & Hc'); [lia|]. rewrite zlen_app in *. rewrite Hr in *.
      pose proof (decrypt_gen kb l r c' [] out Hr ltac:(lia) ltac:(lia) ltac:(lia)) as D. rewrite app_nil_r in D.
      rewrite D in E. intros u ->. destruct (dec _ _ c'); congruence. }
    apply authentic in E' as [(r & m & -> & Hr & Hct & ->)|(-> & Hno & ->)]; [| |lia|lia].
    - left. exists r, m. rewrite (Hk tt eq_refl).
      assert (Hm : zlen m = zlen out). { rewrite Hout, Hct. unfold CipherSpec.ct. rewrite zlen_app, enc_zlen. lia. }
      split; [assumption|]. split; [lia|]. split; [assumption|].
      rewrite prefix_replaced_exact; [reflexivity|]. unfold zlen in Hm. lia.
    - right. split; [intros r m Hr _; apply Hno; assumption|]. eexists; reflexivity.
  Qed.

  Lemma cipher_roundtrip kb l rest n0 : zlen kb = 32 -> 0 <= n0 -> n0 + 32 < 2 ^ 64 ->
    cipher_serialize ml (VKey kb l) = (VKey kb ml, Ok kb) /\
    cipher_deserialize ml (kb ++ rest) (zlen (kb ++ rest)) n0 = Ok (VKey kb ml, zeros 32 ++ rest, n0 + 32).
  Proof.
    intros Hk Hn Hn'. split; [reflexivity|]. unfold cipher_deserialize, cipher_kKeySize.
    rewrite zlen_app. pose proof (zlen_nonneg rest). destruct (Z.ltb_spec (zlen kb + zlen rest) 32); [lia|].
    rewrite rd_prefix by lia. rewrite bind_Ok. rewrite wr_prefix by (rewrite zlen_zeros; lia).
    rewrite bind_Ok. unfold u64. rewrite Z.mod_small by lia. reflexivity.
  Qed.

  (** the key is locked again after every call *)
  Lemma derive_keeps k n k' o : v_protected ml k -> derive_subkey kdf ml k n = (k', o) -> k' = k.
  Proof.
    intros Hk. unfold derive_subkey. destruct k as [|b l]; simpl; intros [= <- _]; [reflexivity|]. rewrite <- Hk. reflexivity.
  Qed.
  Lemma encrypt_keeps_key k inp len out r : v_protected ml k -> fst (encrypt kdf enc ml k inp len out r) = k.
  Proof.
    intros Hk. unfold encrypt. destruct (wr out 0 r); try reflexivity. destruct (rd _ _ _); try reflexivity.
    destruct (derive_subkey _ _ _ _) as [k' o] eqn:E. apply derive_keeps in E; [|assumption]. subst k'. destruct o; reflexivity.
  Qed.
  Lemma decrypt_keeps_key k inp len out : v_protected ml k -> fst (fst (decrypt kdf dec ml k inp len out)) = k.
  Proof.
    intros Hk. unfold decrypt. destruct (_ <? _); [reflexivity|]. destruct (rd inp 0 _); try reflexivity.
    destruct (derive_subkey _ _ _ _) as [k' o] eqn:E. apply derive_keeps in E; [|assumption]. subst k'.
    destruct o; try reflexivity.
    destruct (rd inp _ (len - _)); try reflexivity. destruct (rd inp 0 12); try reflexivity.
    destruct (dec _ _ _); (destruct (wr _ _ _); reflexivity).
  Qed.
End P.

Lemma encrypt_longer kdf enc ml kb l m rest out r : zlen r = 16 -> 64 * (2 ^ 32 - 1) < zlen m -> 16 <= zlen out ->
  snd (encrypt kdf enc ml (VKey kb l) (m ++ rest) (zlen m) out r) = Abort.
Proof.
  intros Hr Hm Ho. unfold encrypt, NONCE_SIZE. destruct (zsplit out 16) as (a & o1 & -> & Ha & Ho1); [lia|].
  rewrite wr_prefix by lia. rewrite rd_prefix by lia. cbn [derive_subkey v_unlock v_lock snd].
  rewrite rd_prefix by reflexivity. rewrite bind_Ok. destruct (Z.ltb_spec MESSAGEBYTES_MAX (zlen m)) as [_|H]; [reflexivity|unfold MESSAGEBYTES_MAX in H; lia].
Qed.
