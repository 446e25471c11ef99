From Verif Require Import BaseFacts KeyVal HmacModel PrgSpec PrgProofs HmacSpec.

Lemma map_lxor_repeat (l : bytes) c : map (fun x => Z.lxor x c) l = xorb_list l (repeat c (length l)).
Proof. induction l as [|x l IH]; simpl; [reflexivity|rewrite IH; reflexivity]. Qed.

Section HmacP.
  Variable H : bytes -> bytes.
  Variables B D : Z.
  Variable ml : bool.
  Hypothesis HD : forall x, zlen (H x) = D.
  Hypothesis HB0 : 0 < B.

  Let Dpos : 0 <= D.
  Proof. rewrite <- (HD []). apply zlen_nonneg. Qed.

  Lemma xor_const_ok p rest c : zlen p = B ->
    xor_const B (p ++ rest) c = Ok (xorb_list p (repeat c (Z.to_nat B)) ++ rest).
  Proof.
    intros Hp. unfold xor_const. rewrite rd_prefix by (symmetry; assumption). rewrite bind_Ok.
    rewrite wr_prefix by (unfold zlen; rewrite map_length; reflexivity).
    rewrite map_lxor_repeat. unfold zlen in Hp. replace (Z.to_nat B) with (length p) by lia. reflexivity.
  Qed.

  (** Loading the padded key at the beginning of a buffer. *)
  Lemma load_key N kb g c : zlen kb = N -> N <= B -> B <= zlen g ->
    exists rest, zlen rest = zlen g - B /\
    (buf <- wr g 0 kb ;;
     buf <- (if N <? B then wr buf N (zeros (Z.to_nat (B - N))) else Ok buf) ;;
     xor_const B buf c) = Ok (xorb_list (rfc_key H (Z.to_nat B) kb) (repeat c (Z.to_nat B)) ++ rest).
  Proof.
    intros HN HNB Hg. pose proof (zlen_nonneg kb).
    destruct (zsplit g N) as (a & g' & -> & Ha & Hg'); [lia|].
    destruct (zsplit g' (B - N)) as (b & rest & -> & Hb & Hr); [lia|].
    exists rest. rewrite !zlen_app in *. split; [lia|].
    rewrite wr_prefix by lia. rewrite bind_Ok.
    assert (Hrk : rfc_key H (Z.to_nat B) kb = kb ++ zeros (Z.to_nat (B - N))).
    { unfold rfc_key. destruct (Nat.leb_spec (length kb) (Z.to_nat B)) as [Hle|Hle]; unfold zlen in *; [|lia].
      do 2 f_equal. lia. }
    rewrite Hrk.
    destruct (Z.ltb_spec N B) as [Hlt|Hge].
    - rewrite wr_mid; [|lia|rewrite zlen_zeros; lia]. rewrite bind_Ok, app_assoc.
      rewrite xor_const_ok; [reflexivity|]. rewrite zlen_app, zlen_zeros. lia.
    - assert (b = []) as -> by (destruct b; [reflexivity|]; rewrite zlen_cons in Hb; pose proof (zlen_nonneg b); lia).
      replace (Z.to_nat (B - N)) with 0%nat by lia. simpl zeros. rewrite app_nil_r. simpl app. rewrite bind_Ok.
      rewrite xor_const_ok; [reflexivity|lia].
  Qed.

  Lemma rfc_key_length kb : zlen kb <= B -> length (rfc_key H (Z.to_nat B) kb) = Z.to_nat B.
  Proof.
    intros Hk. unfold rfc_key, zlen in *. destruct (Nat.leb_spec (length kb) (Z.to_nat B)); [|lia].
    rewrite app_length, zeros_length. lia.
  Qed.

  Lemma hmac_core_ok N kb inp length out opos out_len g1 g2 :
    zlen kb = N -> N <= B -> 0 <= length -> B + length < 2 ^ 64 -> length <= zlen inp ->
    zlen g1 = buffer_len B D length -> zlen g2 = tmp_len B D ->
    0 <= out_len <= D -> 0 <= opos -> opos + out_len <= zlen out ->
    hmac_core H B D N kb inp length out opos out_len g1 g2 =
      wr out opos (firstn (Z.to_nat out_len) (rfc_hmac H (Z.to_nat B) kb (firstn (Z.to_nat length) inp))).
  Proof.
    intros HN HNB Hl Hov Hin Hg1 Hg2 Hol Hop Hout. unfold hmac_core.
    pose proof (zlen_nonneg kb).
    rewrite rd_all by lia. rewrite !bind_Ok.
    unfold buffer_len in Hg1. unfold tmp_len in Hg2.
    assert (Hil : u64 (B + length) = B + length) by (apply Z.mod_small; lia). rewrite Hil in *.
    destruct (load_key N kb g1 0x36 HN HNB) as (rest1 & Hr1 & E1).
    { rewrite Hg1. destruct (D <? B + length) eqn:E; lia. }
    unfold bind in E1 |- * at 1.
    destruct (wr g1 0 kb) as [b1| | | |]; try discriminate. 
    destruct (if N <? B then wr b1 N (zeros (Z.to_nat (B - N))) else Ok b1) as [b2| | | |]; try discriminate.
    rewrite bind_Ok. rewrite E1, bind_Ok.
    set (ipad := xorb_list (rfc_key H (Z.to_nat B) kb) (repeat 54 (Z.to_nat B))) in *.
    assert (Hipad : zlen ipad = B).
    { unfold ipad, zlen. rewrite xorb_list_length, repeat_length, rfc_key_length by lia. lia. }
    destruct (zsplit inp length) as (m & inp' & -> & Hm & _); [lia|].
    rewrite rd_prefix by lia. rewrite bind_Ok. rewrite firstn_zlen_app by lia.
    destruct (zsplit rest1 length) as (r1 & r2 & -> & Hr1' & Hr2).
    { rewrite Hr1, Hg1. destruct (D <? B + length) eqn:E; lia. }
    rewrite wr_mid by lia. rewrite bind_Ok. rewrite app_assoc.
    rewrite rd_prefix by (rewrite zlen_app; lia). rewrite bind_Ok.
    set (inner := H (ipad ++ m)).
    assert (Hinner : zlen inner = D) by apply HD.
    destruct (zsplit ((ipad ++ m) ++ r2) D) as (d1 & d2 & Hd & Hd1 & _).
    { rewrite !zlen_app. rewrite !zlen_app in Hr1, Hr2. destruct (D <? B + length) eqn:E; lia. }
    rewrite Hd. rewrite wr_prefix by lia. rewrite bind_Ok.
    rewrite bind_Ok.
    destruct (load_key N kb g2 0x5c HN HNB) as (rest2 & Hr3 & E2); [lia|].
    unfold bind in E2 |- * at 1.
    destruct (wr g2 0 kb) as [c1| | | |]; try discriminate. 
    destruct (if N <? B then wr c1 N (zeros (Z.to_nat (B - N))) else Ok c1) as [c2| | | |]; try discriminate.
    rewrite bind_Ok. rewrite E2, bind_Ok.
    set (opad := xorb_list (rfc_key H (Z.to_nat B) kb) (repeat 92 (Z.to_nat B))) in *.
    assert (Hopad : zlen opad = B).
    { unfold opad, zlen. rewrite xorb_list_length, repeat_length, rfc_key_length by lia. lia. }
    rewrite rd_prefix by lia. rewrite bind_Ok.
    rewrite wr_suffix by lia. rewrite bind_Ok.
    rewrite rd_all by (rewrite zlen_app; lia). rewrite bind_Ok.
    rewrite wr_prefix by (rewrite HD; lia). rewrite bind_Ok.
    change (rfc_hmac H (Z.to_nat B) kb m) with (H (opad ++ inner)).
    set (r := H (opad ++ inner)). assert (Hr : zlen r = D) by apply HD.
    destruct (zsplit r out_len) as (x & y & Hxy & Hx & _); [lia|]. rewrite Hxy.
    rewrite <- app_assoc, rd_prefix by lia. rewrite bind_Ok, firstn_zlen_app by lia. reflexivity.
  Qed.

  Lemma hmac_ok N kb l inp length out opos out_len g1 g2 :
    zlen kb = N -> N <= B -> 0 <= length -> B + length < 2 ^ 64 -> length <= zlen inp ->
    zlen g1 = buffer_len B D length -> zlen g2 = tmp_len B D ->
    0 <= out_len <= D -> 0 <= opos -> opos + out_len <= zlen out ->
    exists o, wr out opos (firstn (Z.to_nat out_len) (rfc_hmac H (Z.to_nat B) kb (firstn (Z.to_nat length) inp))) = Ok o /\
    hmac H B D ml N (VKey kb l) (Some inp) length (Some out) opos out_len g1 g2 = (VKey kb ml, Ok o).
  Proof.
    intros. unfold hmac. destruct (Z.ltb_spec D out_len); [lia|]. simpl v_unlock. cbv iota beta.
    rewrite hmac_core_ok by assumption.
    rewrite wr_ok; [|lia|].
    - eexists; split; [reflexivity|]. reflexivity.
    - unfold zlen in *. rewrite firstn_length. lia.
  Qed.
End HmacP.

Section PrfP.
  Variable H : bytes -> bytes.
  Variable ml : bool.
  Variable g : Z -> bytes.
  Hypothesis HD : forall x, zlen (H x) = 64.
  Hypothesis Hg : forall n, 0 <= n -> zlen (g n) = n.

  Notation hm kb := (rfc_hmac H 128 kb).

  Lemma hm_length kb x : length (hm kb x) = 64%nat.
  Proof using HD. clear Hg g ml. unfold rfc_hmac. match goal with |- length (H ?y) = _ => pose proof (HD y) end. unfold zlen in *; lia. Qed.

  Lemma base_hmac_ok kb l inp length out opos out_len :
    zlen kb = 32 -> 0 <= length -> 128 + length < 2 ^ 64 -> length <= zlen inp ->
    0 <= out_len <= 64 -> 0 <= opos -> opos + out_len <= zlen out ->
    exists o, wr out opos (firstn (Z.to_nat out_len) (hm kb (firstn (Z.to_nat length) inp))) = Ok o /\
    base_hmac H ml g (VKey kb l) (Some inp) length (Some out) opos out_len = (VKey kb ml, Ok o).
  Proof.
    intros. unfold base_hmac, prf_kKeySize.
    apply (hmac_ok H 128 64 ml HD); try lia; try assumption; apply Hg.
    - unfold buffer_len. destruct (_ <? _) eqn:E; [|lia]. unfold u64 in *. lia.
    - unfold tmp_len; lia.
  Qed.


  (** [j] blocks have been produced. *)
  Definition blocks kb x (j : nat) : bytes := concat (map (fun i => hm kb (x ++ [i mod 256])) (zseq 0 j)).
  Lemma blocks_length kb x j : zlen (blocks kb x j) = 64 * Z.of_nat j.
  Proof using HD. clear Hg g ml.
    unfold blocks. generalize 0 at 1. induction j as [|j IH]; intros z; simpl; [reflexivity|].
    rewrite zlen_app, IH. unfold zlen. rewrite hm_length. lia.
  Qed.
  Lemma blocks_snoc kb x j : blocks kb x (S j) = blocks kb x j ++ hm kb (x ++ [Z.of_nat j mod 256]).
  Proof using. clear HD Hg.
    unfold blocks. replace (S j) with (j + 1)%nat by lia. rewrite zseq_app, map_app, concat_app. simpl. rewrite app_nil_r. reflexivity.
  Qed.

  Lemma prf_loop_ok NB kb x : zlen kb = 32 -> 0 < NB <= 65472 -> 128 + (zlen x + 1) < 2 ^ 64 ->
    forall fuel j tl c rest,
    (64 * Z.of_nat j < NB + 64) -> (Z.to_nat ((NB + 63) / 64) - j < fuel)%nat ->
    64 * Z.of_nat j + zlen rest = NB \/ (NB <= 64 * Z.of_nat j /\ rest = []) ->
    (0 < j)%nat \/ zlen tl = 1 -> zlen tl = 1 ->
    prf_loop H ml g fuel NB (VKey kb c) (x ++ tl) (zlen x) (64 * Z.of_nat j) (Z.of_nat j mod 256)
        (firstn (Z.to_nat NB) (blocks kb x j) ++ rest)
    = (VKey kb (if NB <=? 64 * Z.of_nat j then c else ml), Ok (firstn (Z.to_nat NB) (blocks kb x (Z.to_nat ((NB + 63) / 64))))).
  Proof.
    intros Hk HNB Hx. induction fuel as [|fuel IH]; intros j tl c rest Hj Hfuel Hrest _ Htl; [lia|].
    cbn [prf_loop].
    destruct (Z.ltb_spec (64 * Z.of_nat j) NB) as [Hlt|Hge].
    - destruct Hrest as [Hrest|[Hr _]]; [|lia].
      assert (Hb : firstn (Z.to_nat NB) (blocks kb x j) = blocks kb x j).
      { apply firstn_all2. pose proof (blocks_length kb x j) as HL. unfold zlen in HL. lia. }
      rewrite Hb.
      rewrite wr_suffix; [|reflexivity|rewrite Htl; reflexivity].
      set (n := if 64 <=? NB - 64 * Z.of_nat j then 64 else NB - 64 * Z.of_nat j).
      assert (Hn : n = Z.min 64 (NB - 64 * Z.of_nat j)) by (subst n; destruct (Z.leb_spec 64 (NB - 64 * Z.of_nat j)); lia).
      clearbody n.
      pose proof (blocks_length kb x j) as HL.
      pose proof (zlen_nonneg x) as Hxn.
      destruct (base_hmac_ok kb c (x ++ [Z.of_nat j mod 256]) (zlen x + 1) (blocks kb x j ++ rest) (64 * Z.of_nat j) n) as (o & Ho & Hh);
        try lia; [rewrite zlen_app; simpl; change (zlen [Z.of_nat j mod 256]) with 1; lia|rewrite zlen_app; lia|].
      cbv beta iota zeta.
      lazymatch goal with |- context [base_hmac H ml g ?a ?b ?c ?d ?e ?f] =>
        replace (base_hmac H ml g a b c d e f) with (VKey kb ml, Ok o) by (symmetry; exact Hh) end.
      cbv iota beta.
      replace (firstn (Z.to_nat (zlen x + 1)) (x ++ [Z.of_nat j mod 256])) with (x ++ [Z.of_nat j mod 256]) in Ho.
      2:{ symmetry. apply firstn_all2. rewrite app_length. simpl. unfold zlen. lia. }
      rewrite wr_app_eq in Ho; [|lia|].
      2:{ unfold zlen. rewrite firstn_length, hm_length. unfold zlen in *; lia. }
      inversion Ho; subst o; clear Ho.
      replace (u16 (64 * Z.of_nat j + 64)) with (64 * Z.of_nat (S j)) by (unfold u16; rewrite Z.mod_small; lia).
      replace (u8 (Z.of_nat j mod 256 + 1)) with (Z.of_nat (S j) mod 256) by (unfold u8; lia).
      assert (Hlen : length (firstn (Z.to_nat n) (hm kb (x ++ [Z.of_nat j mod 256]))) = Z.to_nat n).
      { rewrite firstn_length, hm_length. lia. }
      rewrite Hlen.
      replace (blocks kb x j ++ firstn (Z.to_nat n) (hm kb (x ++ [Z.of_nat j mod 256])) ++ skipn (Z.to_nat n) rest)
        with (firstn (Z.to_nat NB) (blocks kb x (S j)) ++ skipn (Z.to_nat n) rest).
      2:{ rewrite blocks_snoc, firstn_app, Hb, <- app_assoc. f_equal.
          unfold zlen in HL.
          destruct (Z.leb_spec 64 (NB - 64 * Z.of_nat j)).
          - f_equal. rewrite !firstn_all2; [reflexivity|rewrite hm_length; lia|rewrite hm_length; lia].
          - do 2 f_equal. lia. }
      rewrite IH; [|lia|lia| |lia|reflexivity].
      { f_equal. f_equal. destruct (Z.leb_spec NB (64 * Z.of_nat j)); [lia|]. destruct (NB <=? 64 * Z.of_nat (S j)); reflexivity. }
      unfold zlen in *. rewrite skipn_length.
      destruct (Z.leb_spec 64 (NB - 64 * Z.of_nat j)); [left; lia|].
      right. split; [lia|]. apply skipn_all2. lia.
    - destruct Hrest as [Hrest|[_ ->]].
      + assert (rest = []) as -> by (destruct rest; [reflexivity|]; rewrite zlen_cons in Hrest; pose proof (zlen_nonneg rest); lia).
        rewrite app_nil_r. destruct (Z.leb_spec NB (64 * Z.of_nat j)); [|lia].
        replace (Z.to_nat ((NB + 63) / 64)) with j by lia. reflexivity.
      + rewrite app_nil_r. destruct (Z.leb_spec NB (64 * Z.of_nat j)); [|lia].
        replace (Z.to_nat ((NB + 63) / 64)) with j by lia. reflexivity.
  Qed.

  Lemma ctr_mode_blocks kb x NB : 64 < NB ->
    ctr_mode (hm kb) x (Z.to_nat NB) = firstn (Z.to_nat NB) (blocks kb x (Z.to_nat ((NB + 63) / 64))).
  Proof using HD. clear Hg g ml.
    intros HN. unfold ctr_mode. fold (blocks kb x (Z.to_nat NB / 64 + 1)).
    set (a := Z.to_nat ((NB + 63) / 64)). 
    assert (exists d, Z.to_nat NB / 64 + 1 = a + d)%nat as [d ->].
    { exists (Z.to_nat NB / 64 + 1 - a)%nat. subst a. 
      assert (Z.of_nat (Z.to_nat NB / 64) = NB / 64) by (rewrite Nat2Z.inj_div; rewrite Z2Nat.id by lia; reflexivity). lia. }
    unfold blocks. rewrite zseq_app, map_app, concat_app, firstn_app.
    fold (blocks kb x a). pose proof (blocks_length kb x a) as HL. unfold zlen in HL.
    replace (Z.to_nat NB - length (blocks kb x a))%nat with 0%nat by (subst a; lia).
    simpl. rewrite app_nil_r. reflexivity.
  Qed.

  Lemma prf_ok NB kb l inp length r t :
    zlen kb = 32 -> 0 < NB <= 65472 -> 0 <= length -> 128 + (length + 1) < 2 ^ 64 -> length <= zlen inp ->
    zlen r = NB -> zlen t = length + 1 ->
    prf H ml g NB (VKey kb l) (Some inp) length r t =
      (VKey kb ml, Ok (if 64 <? NB then ctr_mode (hm kb) (firstn (Z.to_nat length) inp) (Z.to_nat NB)
                       else firstn (Z.to_nat NB) (hm kb (firstn (Z.to_nat length) inp)))).
  Proof.
    intros Hk HNB Hl Hov Hin Hr Ht. unfold prf. destruct (Z.ltb_spec 64 NB) as [Hbig|Hsmall].
    - destruct (zsplit inp length) as (m & inp' & -> & Hm & _); [lia|].
      rewrite rd_prefix by lia. rewrite bind_Ok, firstn_zlen_app by lia.
      destruct (zsplit t length) as (t1 & t2 & -> & Ht1 & Ht2); [lia|].
      rewrite zlen_app in Ht. rewrite wr_prefix by lia. rewrite <- Hm.
      pose proof (prf_loop_ok NB kb m Hk HNB ltac:(lia) prf_fuel 0 t2 l r ltac:(lia)) as HL.
      change (64 * Z.of_nat 0) with 0 in HL. change (Z.of_nat 0 mod 256) with 0 in HL.
      change (blocks kb m 0) with (@nil Z) in HL. rewrite firstn_nil, app_nil_l in HL.
      destruct (Z.leb_spec NB 0); [lia|].
      rewrite HL; [|unfold prf_fuel; lia|left; lia|right; lia|lia].
      rewrite ctr_mode_blocks by lia. reflexivity.
    - destruct (base_hmac_ok kb l inp length r 0 NB) as (o & Ho & Hh); try lia.
      etransitivity; [exact Hh|]. f_equal. rewrite wr_all in Ho; [congruence|].
      unfold zlen. rewrite firstn_length, hm_length. unfold zlen in Hr. lia.
  Qed.

End PrfP.
