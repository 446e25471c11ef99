From Verif Require Import BaseFacts KeyVal HmacModel PrgSpec PrgProofs HmacSpec HmacProofs.

Lemma firstn_Z_app_len (a b : bytes) : firstn (length a) (a ++ b) = a.
Proof. rewrite firstn_app, firstn_all, Nat.sub_diag. simpl. apply app_nil_r. Qed.

(** ** Memory accesses neither throw nor abort *)
Definition mem_only {A} (o : outcome A) : Prop := (exists a, o = Ok a) \/ o = UB.
Lemma mem_rd b p n : mem_only (rd b p n).
Proof. unfold rd, mem_only. destruct (_ && _); eauto. Qed.
Lemma mem_wr b p d : mem_only (wr b p d).
Proof. unfold wr, mem_only. destruct (_ && _); eauto. Qed.
Lemma mem_Ok {A} (a : A) : mem_only (Ok a).
Proof. left; eauto. Qed.
Lemma mem_bind {A B} (x : outcome A) (f : A -> outcome B) : mem_only x -> (forall a, mem_only (f a)) -> mem_only (bind x f).
Proof. intros [[a ->]| ->] Hf; [apply Hf|right; reflexivity]. Qed.
Lemma mem_xor B b c : mem_only (xor_const B b c).
Proof. unfold xor_const. apply mem_bind; [apply mem_rd|intros; apply mem_wr]. Qed.
Lemma hmac_core_mem H B D N kb inp len out opos out_len g1 g2 :
  mem_only (hmac_core H B D N kb inp len out opos out_len g1 g2).
Proof.
  unfold hmac_core.
  repeat (first [apply mem_bind; [first [apply mem_rd|apply mem_wr|apply mem_xor|destruct (_ <? _); [apply mem_wr|apply mem_Ok]]|intros ?]|apply mem_wr]).
Qed.

(** Key protection after hmac/prf. *)
Lemma hmac_keeps_key H B D ml N kb inp len out opos out_len g1 g2 k' r :
  hmac H B D ml N (VKey kb ml) inp len out opos out_len g1 g2 = (k', r) -> r <> UB -> k' = VKey kb ml.
Proof.
  unfold hmac. destruct (_ <? _); [intros [= <- <-]; reflexivity|].
  destruct inp as [inp|]; [|intros [= <- <-]; reflexivity].
  destruct out as [out|]; [|intros [= <- <-]; reflexivity]. simpl v_unlock. cbv iota beta.
  destruct (hmac_core_mem H B D N kb inp len out opos out_len g1 g2) as [[o ->]| ->].
  - intros [= <- <-] _. reflexivity.
  - intros [= <- <-] Hr. congruence.
Qed.
Lemma prf_loop_keeps_key H ml g NB kb fuel : forall tmp len pos i res k' r,
  prf_loop H ml g fuel NB (VKey kb ml) tmp len pos i res = (k', r) -> r <> UB -> k' = VKey kb ml.
Proof.
  induction fuel as [|fuel IH]; intros tmp len pos i res k' r; cbn [prf_loop].
  - intros [= <- <-]; reflexivity.
  - destruct (pos <? NB); [|intros [= <- <-]; reflexivity].
    destruct (mem_wr tmp len [i]) as [[t ->]| ->]; [|intros [= <- <-] Hr; congruence].
    cbv zeta. 
    match goal with |- context [base_hmac H ml g ?a ?b ?c ?d ?e ?f] => destruct (base_hmac H ml g a b c d e f) as [k1 r1] eqn:E end.
    pose proof (fun Hr => hmac_keeps_key _ _ _ _ _ _ _ _ _ _ _ _ _ _ _ E Hr) as HK.
    destruct r1 as [o|e| | |].
    + rewrite HK by discriminate. apply IH.
    + intros [= <- <-] _. apply HK. discriminate.
    + intros [= <- <-] Hr. congruence.
    + intros [= <- <-] _. apply HK. discriminate.
    + intros [= <- <-] _. apply HK. discriminate.
Qed.
Lemma prf_keeps_key H ml g NB kb inp len r0 t k' r :
  prf H ml g NB (VKey kb ml) inp len r0 t = (k', r) -> r <> UB -> k' = VKey kb ml.
Proof.
  unfold prf. destruct inp as [x|]; [|intros [= <- <-]; reflexivity].
  destruct (64 <? NB).
  - assert (Hm : mem_only (m <- rd x 0 len;; wr t 0 m)) by (apply mem_bind; [apply mem_rd|intros; apply mem_wr]).
    destruct Hm as [[o ->]| ->]; [apply prf_loop_keeps_key|intros [= <- <-] Hr; congruence].
  - apply hmac_keeps_key.
Qed.

(** ** Keys longer than the block *)
Section Long.
  Variable H : bytes -> bytes.
  Variables B D : Z.
  Hypothesis HD : forall x, zlen (H x) = D.
  Hypothesis HB0 : 0 < B.
  Let Dpos : 0 <= D.
  Proof. rewrite <- (HD []). apply zlen_nonneg. Qed.

  Lemma hmac_core_long_ub N kb inp len out opos out_len g1 g2 :
    zlen kb = N -> zlen g1 = buffer_len B D len -> zlen g2 = tmp_len B D ->
    (B + D < N \/ buffer_len B D len < N) ->
    hmac_core H B D N kb inp len out opos out_len g1 g2 = UB.
  Proof.
    intros HN Hg1 Hg2 Hbig. unfold hmac_core.
    pose proof (zlen_nonneg kb).
    assert (Hu : forall g, zlen g < N -> wr g 0 kb = UB).
    { intros gg Hgg. unfold wr. destruct (Z.leb_spec (0 + zlen kb) (zlen gg)); [lia|]. rewrite andb_false_r. reflexivity. }
    rewrite rd_all by lia. rewrite !bind_Ok.
    destruct Hbig as [Hbig|Hbig]; [|rewrite Hu by lia; reflexivity].
    destruct (mem_wr g1 0 kb) as [[b1 ->]| ->]; [|reflexivity]. rewrite bind_Ok.
    match goal with |- bind ?x _ = _ => assert (Hm : mem_only x) by (destruct (_ <? _); [apply mem_wr|apply mem_Ok]);
      destruct Hm as [[b2 ->]| ->]; [rewrite bind_Ok|reflexivity] end.
    destruct (mem_xor B b2 0x36) as [[b3 ->]| ->]; [|reflexivity]. rewrite bind_Ok.
    destruct (mem_rd inp 0 len) as [[m ->]| ->]; [|reflexivity]. rewrite bind_Ok.
    destruct (mem_wr b3 B m) as [[b4 ->]| ->]; [|reflexivity]. rewrite bind_Ok.
    destruct (mem_rd b4 0 (u64 (B + len))) as [[dd ->]| ->]; [|reflexivity]. rewrite bind_Ok.
    destruct (mem_wr b4 0 (H dd)) as [[b5 ->]| ->]; [|reflexivity]. rewrite !bind_Ok.
    rewrite Hu; [reflexivity|]. unfold tmp_len in Hg2. lia.
  Qed.

  Lemma load_long k1 k2 g c : zlen k1 = B -> 0 < zlen k2 -> B + zlen k2 <= zlen g ->
    exists rest, zlen rest = zlen g - B /\
    (buf <- wr g 0 (k1 ++ k2) ;;
     buf <- (if B + zlen k2 <? B then wr buf (B + zlen k2) (zeros (Z.to_nat (B - (B + zlen k2)))) else Ok buf) ;;
     xor_const B buf c) = Ok (xorb_list k1 (repeat c (Z.to_nat B)) ++ rest).
  Proof.
    intros H1 H2 Hg. destruct (zsplit g (B + zlen k2)) as (a & b & -> & Ha & Hb); [lia|].
    exists (k2 ++ b). rewrite !zlen_app in *. split; [lia|].
    rewrite wr_prefix by (rewrite zlen_app; lia). rewrite bind_Ok.
    destruct (Z.ltb_spec (B + zlen k2) B); [lia|]. rewrite bind_Ok, <- app_assoc.
    apply (xor_const_ok H B D HD HB0); assumption.
  Qed.

  (** a longer key is cut after its first block *)
  Lemma hmac_core_long k1 k2 inp length out opos out_len g1 g2 :
    zlen k1 = B -> 0 < zlen k2 -> B + zlen k2 <= B + D -> B + zlen k2 <= buffer_len B D length ->
    0 <= length -> B + length < 2 ^ 64 -> length <= zlen inp ->
    zlen g1 = buffer_len B D length -> zlen g2 = tmp_len B D ->
    0 <= out_len <= D -> 0 <= opos -> opos + out_len <= zlen out ->
    hmac_core H B D (B + zlen k2) (k1 ++ k2) inp length out opos out_len g1 g2 =
      wr out opos (firstn (Z.to_nat out_len) (rfc_hmac H (Z.to_nat B) k1 (firstn (Z.to_nat length) inp))).
  Proof.
    intros HN Hk2 HND HNb Hl Hov Hin Hg1 Hg2 Hol Hop Hout. unfold hmac_core.
    rewrite rd_all by (rewrite zlen_app; lia). rewrite !bind_Ok.
    rewrite <- Hg1 in HNb.
    unfold buffer_len in Hg1. unfold tmp_len in Hg2.
    assert (Hil : u64 (B + length) = B + length) by (apply Z.mod_small; lia). rewrite Hil in *.
    assert (Hrk : rfc_key H (Z.to_nat B) k1 = k1).
    { unfold rfc_key. unfold zlen in HN. destruct (Nat.leb_spec (List.length k1) (Z.to_nat B)); [|lia].
      replace (Z.to_nat B - List.length k1)%nat with 0%nat by lia. simpl. apply app_nil_r. }
    destruct (load_long k1 k2 g1 0x36 HN Hk2 HNb) as (rest1 & Hr1 & E1).
    unfold bind in E1 |- * at 1.
    destruct (wr g1 0 (k1 ++ k2)) as [b1| | | |]; try discriminate. 
    destruct (if B + zlen k2 <? B then wr b1 (B + zlen k2) (zeros (Z.to_nat (B - (B + zlen k2)))) else Ok b1) as [b2| | | |]; try discriminate.
    rewrite bind_Ok. rewrite E1, bind_Ok.
    set (ipad := xorb_list k1 (repeat 54 (Z.to_nat B))) in *.
    assert (Hipad : zlen ipad = B).
    { unfold ipad, zlen. rewrite xorb_list_length, repeat_length. unfold zlen in *; lia. }
    destruct (zsplit inp length) as (m & inp' & -> & Hm & _); [lia|].
    rewrite rd_prefix by lia. rewrite bind_Ok. rewrite firstn_zlen_app by lia.
    destruct (zsplit rest1 length) as (r1 & r2 & -> & Hr1' & Hr2).
    { rewrite Hr1, Hg1. destruct (D <? B + length) eqn:E; lia. }
    rewrite wr_mid by lia. rewrite bind_Ok. rewrite app_assoc.
    rewrite rd_prefix by (rewrite zlen_app; lia). rewrite bind_Ok.
    set (inner := H (ipad ++ m)).
    assert (Hinner : zlen inner = D) by apply HD.
    destruct (zsplit ((ipad ++ m) ++ r2) D) as (d1 & d2 & Hd & Hd1 & _).
    { rewrite !zlen_app. rewrite !zlen_app in Hr1, Hr2. destruct (D <? B + length) eqn:E; lia. }
    rewrite Hd. rewrite wr_prefix by lia. rewrite !bind_Ok.
    destruct (load_long k1 k2 g2 0x5c HN Hk2) as (rest2 & Hr3 & E2); [lia|].
    unfold bind in E2 |- * at 1.
    destruct (wr g2 0 (k1 ++ k2)) as [c1| | | |]; try discriminate. 
    destruct (if B + zlen k2 <? B then wr c1 (B + zlen k2) (zeros (Z.to_nat (B - (B + zlen k2)))) else Ok c1) as [c2| | | |]; try discriminate.
    rewrite bind_Ok. rewrite E2, bind_Ok.
    set (opad := xorb_list k1 (repeat 92 (Z.to_nat B))) in *.
    assert (Hopad : zlen opad = B).
    { unfold opad, zlen. rewrite xorb_list_length, repeat_length. unfold zlen in *; lia. }
    rewrite rd_prefix by lia. rewrite bind_Ok.
    rewrite wr_suffix by lia. rewrite bind_Ok.
    rewrite rd_all by (rewrite zlen_app; lia). rewrite bind_Ok.
    rewrite wr_prefix by (rewrite HD; lia). rewrite bind_Ok.
    replace (rfc_hmac H (Z.to_nat B) k1 m) with (H (opad ++ inner)) by (unfold rfc_hmac; rewrite Hrk; reflexivity).
    set (r := H (opad ++ inner)). assert (Hr : zlen r = D) by apply HD.
    destruct (zsplit r out_len) as (x & y & Hxy & Hx & _); [lia|]. rewrite Hxy.
    rewrite <- app_assoc, rd_prefix by lia. rewrite bind_Ok, firstn_zlen_app by lia. reflexivity.
  Qed.
End Long.

(** ** Statements used by HmacProperties *)
Lemma hmac_rfc H B D ml kb l msg rest out : (forall x, zlen (H x) = D) -> 0 < B -> zlen kb <= B -> B + zlen msg < 2 ^ 64 ->
  forall n g1 g2, zlen g1 = buffer_len B D (zlen msg) -> zlen g2 = tmp_len B D -> 0 <= n <= D -> n <= zlen out ->
  hmac H B D ml (zlen kb) (VKey kb l) (Some (msg ++ rest)) (zlen msg) (Some out) 0 n g1 g2 =
    (VKey kb ml, Ok (prefix_replaced (firstn (Z.to_nat n) (rfc_hmac H (Z.to_nat B) kb msg)) out)).
Proof.
  intros HD HB Hk Hm n g1 g2 Hg1 Hg2 Hn Ho.
  pose proof (zlen_nonneg msg).
  destruct (hmac_ok H B D ml HD HB (zlen kb) kb l (msg ++ rest) (zlen msg) out 0 n g1 g2) as (o & Hw & Hh); try lia.
  { rewrite zlen_app. pose proof (zlen_nonneg rest). lia. }
  etransitivity; [exact Hh|]. f_equal. rewrite <- Hw. rewrite firstn_zlen_app by lia.
  set (w := firstn _ _). assert (Hwl : zlen w <= zlen out).
  { unfold w, zlen in *. rewrite firstn_length. lia. }
  pose proof (wr_app_eq [] out w 0 eq_refl Hwl) as E. simpl app in E. rewrite E. reflexivity.
Qed.
Lemma hmac_overloads H B D ml kb l msg r g1 g2 : (forall x, zlen (H x) = D) -> 0 < B -> zlen kb <= B -> B + zlen msg < 2 ^ 64 ->
  zlen r = D -> zlen g1 = buffer_len B D (zlen msg) -> zlen g2 = tmp_len B D ->
  (forall rest, hmac_array H B D ml (zlen kb) (VKey kb l) (Some (msg ++ rest)) (zlen msg) r g1 g2 = (VKey kb ml, Ok (rfc_hmac H (Z.to_nat B) kb msg))) /\
  hmac_string H B D ml (zlen kb) (VKey kb l) msg r g1 g2 = (VKey kb ml, Ok (rfc_hmac H (Z.to_nat B) kb msg)).
Proof.
  intros HD HB Hk Hm Hr Hg1 Hg2.
  assert (forall rest, hmac_array H B D ml (zlen kb) (VKey kb l) (Some (msg ++ rest)) (zlen msg) r g1 g2 = (VKey kb ml, Ok (rfc_hmac H (Z.to_nat B) kb msg))) as E.
  { intros rest. unfold hmac_array. rewrite hmac_rfc; try assumption; try lia.
    - f_equal. f_equal. unfold prefix_replaced.
      set (h := rfc_hmac _ _ _ _). assert (Hh : zlen h = D) by apply HD. unfold zlen in Hh, Hr.
      rewrite firstn_all2 by lia. rewrite skipn_all2 by lia. apply app_nil_r.
    - pose proof (HD []). pose proof (zlen_nonneg (H [])). lia. }
  split; [exact E|]. unfold hmac_string. rewrite <- (E []) , app_nil_r. reflexivity.
Qed.
Lemma hmac_bad_args H B D ml N k inp len out opos n g1 g2 : D < n \/ inp = None \/ out = None ->
  hmac H B D ml N k inp len out opos n g1 g2 = (k, Throw InvalidArgument).
Proof.
  unfold hmac. destruct (Z.ltb_spec D n); [reflexivity|]. intros [Hn|[->| ->]]; [lia|reflexivity|].
  destruct inp; reflexivity.
Qed.

(** C13 *)
Lemma hmac_long_ub H B D ml kb l inp len out opos n g1 g2 : (forall x, zlen (H x) = D) -> 0 < B ->
  0 <= n <= D -> zlen g1 = buffer_len B D len -> zlen g2 = tmp_len B D ->
  B + D < zlen kb \/ buffer_len B D len < zlen kb ->
  snd (hmac H B D ml (zlen kb) (VKey kb l) (Some inp) len (Some out) opos n g1 g2) = UB.
Proof.
  intros HD HB Hn Hg1 Hg2 Hk. unfold hmac. destruct (Z.ltb_spec D n); [lia|]. simpl v_unlock. cbv iota beta.
  rewrite (hmac_core_long_ub H B D HD); auto.
Qed.
Lemma hmac_long_trunc H B D ml k1 k2 l msg r g1 g2 : (forall x, zlen (H x) = D) -> 0 < B -> 
  zlen k1 = B -> 0 < zlen k2 <= D -> zlen k2 <= zlen msg -> B + zlen msg < 2 ^ 64 ->
  zlen r = D -> zlen g1 = buffer_len B D (zlen msg) -> zlen g2 = tmp_len B D ->
  snd (hmac_string H B D ml (zlen (k1 ++ k2)) (VKey (k1 ++ k2) l) msg r g1 g2) = Ok (rfc_hmac H (Z.to_nat B) k1 msg).
Proof.
  intros HD HB Hk1 Hk2 Hkm Hm Hr Hg1 Hg2. unfold hmac_string, hmac_array, hmac.
  destruct (Z.ltb_spec D D); [lia|]. simpl v_unlock. cbv iota beta.
  rewrite zlen_app, Hk1.
  assert (HDp : 0 <= D) by lia.
  rewrite (hmac_core_long H B D HD HB); try assumption; try lia.
  - set (h := rfc_hmac _ _ _ _).
    replace h with (rfc_hmac H (Z.to_nat B) k1 msg).
    2:{ unfold h. f_equal. symmetry. apply firstn_all2. unfold zlen; lia. }
    assert (Hh : zlen (rfc_hmac H (Z.to_nat B) k1 msg) = D) by apply HD.
    rewrite firstn_all2 by (unfold zlen in Hh; lia).
    rewrite wr_all by lia. reflexivity.
  - unfold buffer_len. unfold u64. rewrite Z.mod_small by lia. destruct (_ <? _) eqn:E; lia.
Qed.

(** C15 *)
Lemma ctr_window H kb x NB i : (forall y, zlen (H y) = 64) -> 0 <= i -> 64 < NB -> 64 * i + 64 <= NB ->
  window (ctr_mode (rfc_hmac H 128 kb) x (Z.to_nat NB)) (Z.to_nat (64 * i)) 64 = rfc_hmac H 128 kb (x ++ [i mod 256]).
Proof.
  intros HD Hi HN Hw. 
  rewrite ctr_mode_blocks by assumption.
  set (j := Z.to_nat i).
  assert (exists d, Z.to_nat ((NB + 63) / 64) = S j + d)%nat as [d ->].
  { exists (Z.to_nat ((NB + 63) / 64) - S j)%nat. lia. }
  unfold blocks. rewrite zseq_app, map_app, concat_app. fold (blocks H kb x (S j)).
  pose proof (blocks_length H HD kb x j) as HL. unfold zlen in HL.
  pose proof (hm_length H HD kb (x ++ [i mod 256])) as Hh.
  rewrite blocks_snoc, <- app_assoc.
  replace (Z.of_nat j mod 256) with (i mod 256) by (subst j; rewrite Z2Nat.id by lia; reflexivity).
  rewrite firstn_app, firstn_all2 by lia. rewrite firstn_app.
  rewrite (firstn_all2 (rfc_hmac _ _ _ _)) by lia.
  replace (Z.to_nat (64 * i)) with (length (blocks H kb x j)) by lia.
  revert Hh. generalize (rfc_hmac H 128 kb (x ++ [i mod 256])). intros h Hh.
  match goal with |- window ?l ?o ?n = _ => replace n with (length h) by exact Hh end.
  apply window_app_mid.
Qed.
Lemma ctr_mode_length H kb x NB : (forall y, zlen (H y) = 64) -> 64 < NB ->
  zlen (ctr_mode (rfc_hmac H 128 kb) x (Z.to_nat NB)) = NB.
Proof.
  intros HD HN. rewrite ctr_mode_blocks by assumption. unfold zlen. rewrite firstn_length.
  pose proof (blocks_length H HD kb x (Z.to_nat ((NB + 63) / 64))) as HL. unfold zlen in HL. lia.
Qed.

(** [prf] has no precondition on its input besides sizes. *)
Definition sized (g : Z -> bytes) : Prop := forall n, 0 <= n -> zlen (g n) = n.
Lemma prf_ctr H ml g kb l msg rest r t NB : (forall y, zlen (H y) = 64) -> sized g -> zlen kb = 32 ->
  0 < NB <= 65472 -> zlen msg < 2 ^ 63 -> zlen r = NB -> zlen t = zlen msg + 1 ->
  prf H ml g NB (VKey kb l) (Some (msg ++ rest)) (zlen msg) r t =
    (VKey kb ml, Ok (if NB <=? 64 then firstn (Z.to_nat NB) (rfc_hmac H 128 kb msg)
                     else ctr_mode (rfc_hmac H 128 kb) msg (Z.to_nat NB))).
Proof.
  intros HD Hg Hk HN Hm Hr Ht. pose proof (zlen_nonneg msg).
  rewrite (prf_ok H ml g HD Hg NB kb l); try lia.
  - rewrite firstn_zlen_app by lia. destruct (Z.ltb_spec 64 NB), (Z.leb_spec NB 64); try lia; reflexivity.
  - rewrite zlen_app. pose proof (zlen_nonneg rest). lia.
Qed.

Definition prf_inputs (x : bytes) (n : nat) : list bytes := map (fun i => x ++ [i mod 256]) (zseq 0 n).
Lemma zseq_inputs_NoDup x n : (n <= 256)%nat -> NoDup (prf_inputs x n).
Proof.
  intros Hn. unfold prf_inputs.
  assert (forall n o, 0 <= o -> o + Z.of_nat n <= 256 -> NoDup (map (fun i => x ++ [i mod 256]) (zseq o n))) as G.
  { clear. induction n as [|n IH]; intros o Ho Hn; simpl; constructor.
    - intros (i & Hi & Hin)%in_map_iff. apply zseq_In in Hin. apply app_inv_head in Hi. injection Hi as Hi. lia.
    - apply IH; lia. }
  apply G; lia.
Qed.
Lemma prf_blocks_distinct H ml g kb l msg rest r t NB : (forall y, zlen (H y) = 64) -> sized g -> zlen kb = 32 ->
  0 < NB <= 16384 -> zlen msg < 2 ^ 63 -> zlen r = NB -> zlen t = zlen msg + 1 ->
  exists inputs, NoDup inputs /\
    snd (prf H ml g NB (VKey kb l) (Some (msg ++ rest)) (zlen msg) r t) =
      Ok (firstn (Z.to_nat NB) (concat (map (rfc_hmac H 128 kb) inputs))).
Proof.
  intros HD Hg Hk HN Hm Hr Ht. rewrite prf_ctr by (assumption || lia). simpl snd.
  destruct (Z.leb_spec NB 64).
  - exists [msg]. split; [constructor; [intros []|constructor]|]. simpl. rewrite app_nil_r. reflexivity.
  - exists (prf_inputs msg (Z.to_nat ((NB + 63) / 64))). split; [apply zseq_inputs_NoDup; lia|].
    rewrite ctr_mode_blocks by (assumption || lia). unfold blocks, prf_inputs. rewrite map_map. reflexivity.
Qed.
Lemma prf_blocks_repeat H ml g kb l msg rest r t NB : (forall y, zlen (H y) = 64) -> sized g -> zlen kb = 32 ->
  16448 <= NB <= 65472 -> zlen msg < 2 ^ 63 -> zlen r = NB -> zlen t = zlen msg + 1 ->
  exists o, snd (prf H ml g NB (VKey kb l) (Some (msg ++ rest)) (zlen msg) r t) = Ok o /\
    window o (Z.to_nat 16384) 64 = window o 0 64.
Proof.
  intros HD Hg Hk HN Hm Hr Ht. rewrite prf_ctr by (assumption || lia). simpl snd.
  destruct (Z.leb_spec NB 64); [lia|]. eexists; split; [reflexivity|].
  change 16384 with (64 * 256). rewrite ctr_window by (assumption || lia).
  change 0%nat with (Z.to_nat (64 * 0)). rewrite ctr_window by (assumption || lia). reflexivity.
Qed.
Lemma prf_loop_diverges H ml g NB kb x : (forall y, zlen (H y) = 64) -> sized g -> zlen kb = 32 -> 65472 < NB <= 65535 -> 128 + (zlen x + 1) < 2 ^ 64 ->
  forall fuel tl c res j i, zlen tl = 1 -> zlen res = NB -> 0 <= j <= 1023 ->
  snd (prf_loop H ml g fuel NB (VKey kb c) (x ++ tl) (zlen x) (64 * j) i res) = Diverge.
Proof.
  intros HD Hg Hk HNB Hx. induction fuel as [|fuel IH]; intros tl c res j i Htl Hres Hj; [reflexivity|].
  cbn [prf_loop]. destruct (Z.ltb_spec (64 * j) NB); [|lia].
  rewrite wr_suffix; [|reflexivity|rewrite Htl; reflexivity].
  set (n := if 64 <=? NB - 64 * j then 64 else NB - 64 * j).
  assert (Hn : n = Z.min 64 (NB - 64 * j)) by (subst n; destruct (Z.leb_spec 64 (NB - 64 * j)); lia).
  clearbody n. pose proof (zlen_nonneg x).
  destruct (base_hmac_ok H ml g HD Hg kb c (x ++ [i]) (zlen x + 1) res (64 * j) n) as (o & Ho & Hh); try lia.
  { rewrite zlen_app. change (zlen [i]) with 1. lia. }
  cbv beta iota zeta.
  lazymatch goal with |- context [base_hmac H ml g ?a ?b ?c ?d ?e ?f] =>
    replace (base_hmac H ml g a b c d e f) with (VKey kb ml, Ok o) by (symmetry; exact Hh) end.
  cbv iota beta.
  assert (Hlo : zlen o = NB) by (apply wr_length in Ho; unfold zlen in *; lia).
  replace (u16 (64 * j + 64)) with (64 * ((j + 1) mod 1024)) by (unfold u16; lia).
  apply IH; [reflexivity|assumption|lia].
Qed.
Lemma prf_diverges H ml g kb l msg rest r t NB : (forall y, zlen (H y) = 64) -> sized g -> zlen kb = 32 ->
  65472 < NB <= 65535 -> zlen msg < 2 ^ 63 -> zlen r = NB -> zlen t = zlen msg + 1 ->
  snd (prf H ml g NB (VKey kb l) (Some (msg ++ rest)) (zlen msg) r t) = Diverge /\
  (* the loop really never ends: no number of iterations is enough *)
  forall fuel tl, zlen tl = 1 -> snd (prf_loop H ml g fuel NB (VKey kb l) (msg ++ tl) (zlen msg) 0 0 r) = Diverge.
Proof.
  intros HD Hg Hk HN Hm Hr Ht. pose proof (zlen_nonneg msg).
  assert (forall fuel tl, zlen tl = 1 -> snd (prf_loop H ml g fuel NB (VKey kb l) (msg ++ tl) (zlen msg) 0 0 r) = Diverge) as G.
  { intros fuel tl Htl. change (prf_loop H ml g fuel NB (VKey kb l) (msg ++ tl) (zlen msg) 0 0 r)
      with (prf_loop H ml g fuel NB (VKey kb l) (msg ++ tl) (zlen msg) (64 * 0) 0 r).
    apply prf_loop_diverges; (assumption || lia). }
  split; [|exact G]. unfold prf. destruct (Z.ltb_spec 64 NB); [|lia].
  rewrite rd_prefix by reflexivity. rewrite bind_Ok.
  destruct (zsplit t (zlen msg)) as (t1 & t2 & -> & Ht1 & Ht2); [lia|].
  rewrite zlen_app in Ht. rewrite wr_prefix by lia. apply G. lia.
Qed.

(** C14: overloads *)
Lemma prf_overloads H ml g kb l msg r t NB : (forall y, zlen (H y) = 64) -> sized g -> zlen kb = 32 ->
  0 < NB <= 65472 -> zlen msg < 2 ^ 63 -> zlen r = NB -> zlen t = zlen msg + 1 ->
  exists o, zlen o = NB /\
    (forall rest, prf H ml g NB (VKey kb l) (Some (msg ++ rest)) (zlen msg) r t = (VKey kb ml, Ok o)) /\
    prf_string H ml g NB (VKey kb l) msg r t = (VKey kb ml, Ok o) /\
    (forall rest, prf_derive_key H ml g NB (VKey kb l) (Some (msg ++ rest)) (zlen msg) r t = (VKey kb ml, Ok (VKey o ml))).
Proof.
  intros HD Hg Hk HN Hm Hr Ht. eexists. split; [|split; [intros rest; apply prf_ctr; assumption|split]].
  - destruct (Z.leb_spec NB 64).
    + pose proof (hm_length H HD kb msg). unfold zlen. rewrite firstn_length. lia.
    + apply ctr_mode_length; (assumption || lia).
  - unfold prf_string. rewrite <- (app_nil_r msg) at 1. apply prf_ctr; assumption.
  - intros rest. unfold prf_derive_key. rewrite prf_ctr by assumption. reflexivity.
Qed.
Lemma prf_null H ml g NB k len r t : prf H ml g NB k None len r t = (k, Throw InvalidArgument) /\
  prf_derive_key H ml g NB k None len r t = (k, Throw InvalidArgument).
Proof. split; reflexivity. Qed.

(** C16 *)
Lemma hash_full H msg rest out : (forall y, zlen (H y) = 64) -> 64 <= zlen out ->
  hash H (Some (msg ++ rest)) (zlen msg) (Some out) = Ok (prefix_replaced (H msg) out).
Proof.
  intros HD Ho. unfold hash. rewrite rd_prefix by reflexivity. rewrite bind_Ok.
  assert (Hwl : zlen (H msg) <= zlen out) by (rewrite HD; assumption).
  pose proof (wr_app_eq [] out (H msg) 0 eq_refl Hwl) as E. simpl app in E. exact E.
Qed.
Lemma prefix_replaced_all w b : length w = length b -> prefix_replaced w b = w.
Proof. intros E. unfold prefix_replaced. rewrite skipn_all2 by lia. apply app_nil_r. Qed.
Lemma hash_prefix H msg rest n out d : (forall y, zlen (H y) = 64) -> 0 <= n <= 64 -> n <= zlen out -> zlen d = 64 ->
  hash_trunc H (Some (msg ++ rest)) (zlen msg) n (Some out) d = Ok (prefix_replaced (firstn (Z.to_nat n) (H msg)) out) /\
  hash_str_trunc H msg n d = Ok (firstn (Z.to_nat n) (H msg)) /\
  hash_str H msg d = Ok (H msg).
Proof.
  intros HD Hn Ho Hd. assert (Hl : length (H msg) = length d) by (specialize (HD msg); unfold zlen in *; lia).
  assert (E : forall rest, hash H (Some (msg ++ rest)) (zlen msg) (Some d) = Ok (H msg)).
  { intros. rewrite hash_full by (assumption || lia). rewrite prefix_replaced_all by assumption. reflexivity. }
  specialize (HD msg) as HDm.
  assert (R : rd (H msg) 0 n = Ok (firstn (Z.to_nat n) (H msg))).
  { rewrite rd_ok by lia. reflexivity. }
  split; [|split].
  - unfold hash_trunc, kDigestSize. destruct (Z.ltb_spec 64 n); [lia|]. rewrite E, bind_Ok, R, bind_Ok.
    assert (Hwl : zlen (firstn (Z.to_nat n) (H msg)) <= zlen out) by (unfold zlen in *; rewrite firstn_length; lia).
    pose proof (wr_app_eq [] out _ 0 eq_refl Hwl) as E'. simpl app in E'. exact E'.
  - unfold hash_str_trunc, kDigestSize. destruct (Z.ltb_spec 64 n); [lia|].
    rewrite <- (app_nil_r msg) at 1. rewrite E, bind_Ok. exact R.
  - unfold hash_str, kDigestSize. rewrite <- (app_nil_r msg) at 1. rewrite E, bind_Ok. apply rd_all. symmetry; assumption.
Qed.
Lemma hash_rejects H inp len n out d : 64 < n \/ inp = None \/ out = None ->
  hash_trunc H inp len n out d = Throw InvalidArgument /\
  (64 < n -> forall s, hash_str_trunc H s n d = Throw InvalidArgument) /\
  (inp = None \/ out = None -> hash H inp len out = Throw InvalidArgument).
Proof.
  intros Hc. unfold hash_trunc, hash_str_trunc, hash, kDigestSize. repeat split.
  - destruct (Z.ltb_spec 64 n); [reflexivity|]. destruct Hc as [?|[->| ->]]; [lia|reflexivity|destruct inp; reflexivity].
  - intros Hn s. destruct (Z.ltb_spec 64 n); [reflexivity|lia].
  - intros [->| ->]; [reflexivity|destruct inp; reflexivity].
Qed.

(** C60 *)
Lemma prf_roundtrip ml kb l rest : zlen kb = 32 ->
  prf_serialize ml (VKey kb l) = (VKey kb ml, Ok kb) /\
  prf_deserialize ml (kb ++ rest) (zlen (kb ++ rest)) = Ok (VKey kb ml, zeros 32 ++ rest, 32).
Proof.
  intros Hk. split; [reflexivity|]. unfold prf_deserialize, prf_kKeySize.
  rewrite zlen_app. pose proof (zlen_nonneg rest). destruct (Z.ltb_spec (zlen kb + zlen rest) 32); [lia|].
  rewrite rd_prefix by lia. rewrite bind_Ok. rewrite wr_prefix by (rewrite zlen_zeros; lia). reflexivity.
Qed.
Lemma prf_deser_short ml buf n : n < 32 -> prf_deserialize ml buf n = Throw InvalidArgument.
Proof. intros. unfold prf_deserialize, prf_kKeySize. destruct (Z.ltb_spec n 32); [reflexivity|lia]. Qed.
Lemma public_context_be NB : 0 <= NB < 2 ^ 16 -> prf_public_context NB = be_encode 2 NB.
Proof.
  intros HN. unfold prf_public_context, be_encode. cbn [le_encode rev app].
  change 255 with (Z.ones 8). rewrite !Z.land_ones, Z.shiftr_div_pow2 by lia. reflexivity.
Qed.
Lemma public_context_inj a b : 0 <= a < 2 ^ 16 -> 0 <= b < 2 ^ 16 -> prf_public_context a = prf_public_context b -> a = b.
Proof.
  intros Ha Hb E. rewrite !public_context_be in E by assumption.
  apply (f_equal be_decode) in E. rewrite !be_decode_encode in E by lia. exact E.
Qed.
