(** Facts about Base.v *)
From Coq Require Export Lia ZifyBool ZifyNat ZifyN.
From Verif Require Export Base.
Global Ltac Zify.zify_post_hook ::= Z.div_mod_to_equations.

Lemma zlen_nonneg {A} (l : list A) : 0 <= zlen l.
Proof. unfold zlen; lia. Qed.
Lemma zlen_nil {A} : zlen (@nil A) = 0.
Proof. reflexivity. Qed.
Lemma zlen_cons {A} (x : A) l : zlen (x :: l) = 1 + zlen l.
Proof. unfold zlen; simpl length; lia. Qed.
Lemma zlen_app {A} (a b : list A) : zlen (a ++ b) = zlen a + zlen b.
Proof. unfold zlen; rewrite app_length; lia. Qed.

Lemma bytes_eqb_spec a b : bytes_eqb a b = true <-> a = b.
Proof.
  revert b; induction a as [|x a IH]; intros [|y b]; simpl; try (split; congruence).
  rewrite andb_true_iff, Z.eqb_eq, IH. split; [intros [-> ->]; reflexivity|intros H; inversion H; auto].
Qed.
Lemma bytes_eqb_refl a : bytes_eqb a a = true.
Proof. apply bytes_eqb_spec; reflexivity. Qed.
Lemma bytes_eqb_neq a b : bytes_eqb a b = false <-> a <> b.
Proof.
  destruct (bytes_eqb a b) eqn:E.
  - apply bytes_eqb_spec in E. split; congruence.
  - split; [|reflexivity]. intros _ H. apply bytes_eqb_spec in H. congruence.
Qed.

Lemma xorb_list_length a b : length (xorb_list a b) = Nat.min (length a) (length b).
Proof. revert b; induction a as [|x a IH]; intros [|y b]; simpl; auto. Qed.

Lemma xorb_list_cancel a b : (length a <= length b)%nat -> xorb_list (xorb_list a b) b = a.
Proof.
  revert b; induction a as [|x a IH]; intros [|y b] Hl; simpl in *; try reflexivity; try lia.
  rewrite IH by lia. f_equal. rewrite Z.lxor_assoc, Z.lxor_nilpotent, Z.lxor_0_r; reflexivity.
Qed.
Lemma xorb_list_comm a b : xorb_list a b = xorb_list b a.
Proof.
  revert b; induction a as [|x a IH]; intros [|y b]; simpl; try reflexivity.
  rewrite IH, Z.lxor_comm; reflexivity.
Qed.
Lemma xorb_list_assoc a b c : xorb_list (xorb_list a b) c = xorb_list a (xorb_list b c).
Proof.
  revert b c; induction a as [|x a IH]; intros [|y b] [|z c]; simpl; try reflexivity.
  rewrite IH, Z.lxor_assoc; reflexivity.
Qed.
Lemma xorb_list_app a b c d : length a = length c -> xorb_list (a ++ b) (c ++ d) = xorb_list a c ++ xorb_list b d.
Proof.
  revert c; induction a as [|x a IH]; intros [|y c] Hl; simpl in *; try discriminate; [reflexivity|].
  rewrite IH by lia; reflexivity.
Qed.
Lemma xorb_list_firstn n a b : firstn n (xorb_list a b) = xorb_list (firstn n a) (firstn n b).
Proof.
  revert a b; induction n as [|n IH]; intros [|x a] [|y b]; simpl; try reflexivity.
  rewrite IH; reflexivity.
Qed.
Lemma xorb_list_skipn n a b : skipn n (xorb_list a b) = xorb_list (skipn n a) (skipn n b).
Proof.
  revert a b; induction n as [|n IH]; intros [|x a] [|y b]; simpl; try reflexivity.
  - destruct (skipn n a); reflexivity.
  - apply IH.
Qed.
Lemma xorb_list_zeros_l n b : (length b <= n)%nat -> xorb_list (zeros n) b = b.
Proof.
  revert b; induction n as [|n IH]; intros [|y b] Hl; simpl in *; try reflexivity; try lia.
  unfold zeros in IH. rewrite IH by lia. reflexivity.
Qed.
Lemma xorb_list_zeros_r n b : (length b <= n)%nat -> xorb_list b (zeros n) = b.
Proof. intros; rewrite xorb_list_comm; apply xorb_list_zeros_l; assumption. Qed.

Lemma is_byte_lxor a b : is_byte a -> is_byte b -> is_byte (Z.lxor a b).
Proof.
  unfold is_byte; intros Ha Hb.
  assert (0 <= Z.lxor a b) by (apply Z.lxor_nonneg; lia).
  split; [assumption|].
  destruct (Z.eq_dec (Z.lxor a b) 0) as [->|Hne]; [lia|].
  apply (proj2 (Z.log2_lt_pow2 (Z.lxor a b) 8 ltac:(lia))).
  pose proof (Z.log2_lxor a b ltac:(lia) ltac:(lia)).
  assert (forall x, 0 <= x < 256 -> Z.log2 x < 8) as Hlog.
  { intros x Hx. destruct (Z.eq_dec x 0) as [->|]; [reflexivity|].
    apply Z.log2_lt_pow2; simpl; lia. }
  pose proof (Hlog a Ha); pose proof (Hlog b Hb); lia.
Qed.
Lemma xorb_list_bytes a b : is_bytes a -> is_bytes b -> is_bytes (xorb_list a b).
Proof.
  unfold is_bytes; revert b; induction a as [|x a IH]; intros [|y b] Ha Hb; simpl; try constructor.
  - inversion Ha; inversion Hb; apply is_byte_lxor; assumption.
  - inversion Ha; inversion Hb; apply IH; assumption.
Qed.

Lemma is_bytes_app a b : is_bytes (a ++ b) <-> is_bytes a /\ is_bytes b.
Proof. apply Forall_app. Qed.
Lemma is_bytes_firstn n a : is_bytes a -> is_bytes (firstn n a).
Proof. unfold is_bytes; rewrite <- (firstn_skipn n a) at 1; rewrite Forall_app; tauto. Qed.
Lemma is_bytes_skipn n a : is_bytes a -> is_bytes (skipn n a).
Proof. unfold is_bytes; rewrite <- (firstn_skipn n a) at 1; rewrite Forall_app; tauto. Qed.
Lemma is_bytes_zeros n : is_bytes (zeros n).
Proof. unfold is_bytes, zeros; apply Forall_forall; intros x Hx; apply repeat_spec in Hx; subst; unfold is_byte; lia. Qed.
Lemma zeros_length n : length (zeros n) = n.
Proof. apply repeat_length. Qed.
Lemma zeros_app n m : zeros (n + m) = zeros n ++ zeros m.
Proof. apply repeat_app. Qed.

(** windows *)
Lemma window_length {A} (l : list A) o n : length (window l o n) = Nat.min n (length l - o).
Proof. unfold window; rewrite firstn_length, skipn_length; reflexivity. Qed.
Lemma window_all {A} (l : list A) n : (length l <= n)%nat -> window l 0 n = l.
Proof. intros; unfold window; simpl; apply firstn_all2; assumption. Qed.
Lemma skipn_skipn_add {A} n m (l : list A) : skipn n (skipn m l) = skipn (n + m) l.
Proof.
  revert l; induction m as [|m IH]; intros l; simpl.
  - rewrite Nat.add_0_r; reflexivity.
  - destruct l as [|x l]; [rewrite !skipn_nil; reflexivity|].
    rewrite Nat.add_succ_r; simpl; apply IH.
Qed.
Lemma window_app_split {A} (l : list A) o n m : window l o (n + m) = window l o n ++ window l (o + n) m.
Proof.
  unfold window. rewrite (Nat.add_comm o n), <- skipn_skipn_add.
  generalize (skipn o l) as k; clear l o. intros k; revert k.
  induction n as [|n IH]; intros k; simpl; [reflexivity|].
  destruct k as [|x k]; [rewrite firstn_nil; reflexivity|]. simpl. rewrite <- IH. reflexivity.
Qed.
Lemma window_window {A} (l : list A) o n o' n' : (o' + n' <= n)%nat ->
  window (window l o n) o' n' = window l (o + o') n'.
Proof.
  intros Hle. unfold window.
  rewrite skipn_firstn_comm, firstn_firstn, skipn_skipn_add.
  rewrite Nat.min_l by lia. rewrite Nat.add_comm; reflexivity.
Qed.
Lemma window_app_l {A} (a b : list A) o n : (o + n <= length a)%nat -> window (a ++ b) o n = window a o n.
Proof.
  intros; unfold window. rewrite skipn_app, firstn_app.
  rewrite skipn_length. replace (n - (length a - o))%nat with O by lia.
  simpl; rewrite app_nil_r; reflexivity.
Qed.
Lemma window_app_r {A} (a b : list A) o n : (length a <= o)%nat -> window (a ++ b) o n = window b (o - length a) n.
Proof.
  intros; unfold window. rewrite skipn_app, skipn_all2 by lia. reflexivity.
Qed.
Lemma window_app_mid {A} (a b c : list A) : window (a ++ b ++ c) (length a) (length b) = b.
Proof.
  rewrite window_app_r by lia. rewrite Nat.sub_diag. unfold window; simpl.
  rewrite firstn_app, firstn_all, Nat.sub_diag; simpl; apply app_nil_r.
Qed.

(** bounds-checked accesses *)
Lemma rd_ok buf pos n : 0 <= pos -> 0 <= n -> pos + n <= zlen buf ->
  rd buf pos n = Ok (window buf (Z.to_nat pos) (Z.to_nat n)).
Proof. intros; unfold rd. replace (_ && _) with true by lia. reflexivity. Qed.
Lemma wr_ok buf pos data : 0 <= pos -> pos + zlen data <= zlen buf ->
  wr buf pos data = Ok (firstn (Z.to_nat pos) buf ++ data ++ skipn (Z.to_nat pos + length data) buf).
Proof. intros; unfold wr. replace (_ && _) with true by lia. reflexivity. Qed.
Lemma wr_length buf pos data buf' : wr buf pos data = Ok buf' -> length buf' = length buf.
Proof.
  unfold wr. destruct (_ && _) eqn:E; [|discriminate]. intros H; inversion H; subst; clear H.
  unfold zlen in E. rewrite !app_length, firstn_length, skipn_length. lia.
Qed.
Lemma rd1_ok buf pos : 0 <= pos < zlen buf -> exists b, rd1 buf pos = Ok b /\ nth_error buf (Z.to_nat pos) = Some b.
Proof.
  intros H; unfold rd1. replace (_ && _) with true by lia.
  destruct (nth_error buf (Z.to_nat pos)) as [b|] eqn:E; [eauto|].
  exfalso. apply nth_error_None in E. unfold zlen in H. lia.
Qed.
Lemma rd1_nth buf pos b : rd1 buf pos = Ok b -> 0 <= pos < zlen buf /\ nth_error buf (Z.to_nat pos) = Some b.
Proof.
  unfold rd1. destruct (_ && _) eqn:E; [|discriminate].
  destruct (nth_error _ _) eqn:E2; [|discriminate]. intros H; inversion H; subst. split; [lia|reflexivity].
Qed.
Lemma is_bytes_nth buf i b : is_bytes buf -> nth_error buf i = Some b -> is_byte b.
Proof. intros Hb Hn. apply nth_error_In in Hn. unfold is_bytes in Hb. rewrite Forall_forall in Hb. auto. Qed.

(** integer encodings *)
Lemma le_encode_length n x : length (le_encode n x) = n.
Proof. revert x; induction n as [|n IH]; intros x; simpl; [reflexivity|rewrite IH; reflexivity]. Qed.
Lemma le_encode_bytes n x : is_bytes (le_encode n x).
Proof.
  revert x; induction n as [|n IH]; intros x; simpl; constructor; [unfold is_byte; lia|apply IH].
Qed.
Lemma le_decode_encode n x : 0 <= x < 256 ^ Z.of_nat n -> le_decode (le_encode n x) = x.
Proof.
  revert x; induction n as [|n IH]; intros x Hx; simpl.
  - change (Z.of_nat 0) with 0 in Hx. rewrite Z.pow_0_r in Hx. lia.
  - rewrite IH; [lia|].
    rewrite Nat2Z.inj_succ, Z.pow_succ_r in Hx by lia.
    split; [lia|]. apply Z.div_lt_upper_bound; lia.
Qed.
Lemma le_decode_mod n x : le_decode (le_encode n x) = x mod 256 ^ Z.of_nat n.
Proof.
  revert x; induction n as [|n IH]; intros x; simpl.
  - change (Z.of_nat 0) with 0. rewrite Z.pow_0_r, Z.mod_1_r. reflexivity.
  - rewrite IH. rewrite Nat2Z.inj_succ, Z.pow_succ_r by lia.
    assert (0 < 256 ^ Z.of_nat n) by (apply Z.pow_pos_nonneg; lia).
    rewrite (Z.rem_mul_r x 256) by lia. reflexivity.
Qed.
Lemma le_decode_range l : is_bytes l -> 0 <= le_decode l < 256 ^ zlen l.
Proof.
  induction l as [|b l IH]; intros Hb; simpl.
  - unfold zlen; simpl. lia.
  - inversion Hb; subst. rewrite zlen_cons. rewrite Z.pow_add_r by (pose proof (zlen_nonneg l); lia).
    specialize (IH ltac:(assumption)). unfold is_byte in *. lia.
Qed.
Lemma le_encode_decode l : is_bytes l -> le_encode (length l) (le_decode l) = l.
Proof.
  induction l as [|b l IH]; intros Hb; simpl; [reflexivity|].
  inversion Hb; subst. unfold is_byte in *.
  replace ((b + 256 * le_decode l) mod 256) with b by lia.
  replace ((b + 256 * le_decode l) / 256) with (le_decode l) by lia.
  rewrite IH by assumption; reflexivity.
Qed.
Lemma is_bytes_rev l : is_bytes l -> is_bytes (rev l).
Proof. unfold is_bytes; intros H; apply Forall_rev; assumption. Qed.
Lemma be_encode_length n x : length (be_encode n x) = n.
Proof. unfold be_encode; rewrite rev_length; apply le_encode_length. Qed.
Lemma be_encode_bytes n x : is_bytes (be_encode n x).
Proof. apply is_bytes_rev, le_encode_bytes. Qed.
Lemma be_decode_encode n x : 0 <= x < 256 ^ Z.of_nat n -> be_decode (be_encode n x) = x.
Proof. intros; unfold be_decode, be_encode; rewrite rev_involutive; apply le_decode_encode; assumption. Qed.
Lemma be_encode_decode l : is_bytes l -> be_encode (length l) (be_decode l) = l.
Proof.
  intros; unfold be_decode, be_encode. rewrite <- (rev_length l).
  rewrite le_encode_decode by (apply is_bytes_rev; assumption). apply rev_involutive.
Qed.
Lemma be_decode_range l : is_bytes l -> 0 <= be_decode l < 256 ^ zlen l.
Proof.
  intros; unfold be_decode. pose proof (le_decode_range (rev l) (is_bytes_rev _ H)) as Hr.
  unfold zlen in *. rewrite rev_length in Hr. assumption.
Qed.

(** reads and writes of a part of a concatenation *)
Lemma rd_mid a b c n pos : pos = zlen a -> n = zlen b -> rd (a ++ b ++ c) pos n = Ok b.
Proof.
  intros -> ->. rewrite rd_ok; [|apply zlen_nonneg|apply zlen_nonneg|rewrite !zlen_app; pose proof (zlen_nonneg c); lia].
  unfold zlen. rewrite !Nat2Z.id, window_app_mid. reflexivity.
Qed.
Lemma wr_mid a b c d pos : pos = zlen a -> zlen d = zlen b -> wr (a ++ b ++ c) pos d = Ok (a ++ d ++ c).
Proof.
  intros -> Hd. rewrite wr_ok; [|apply zlen_nonneg|rewrite !zlen_app, Hd; pose proof (zlen_nonneg c); lia].
  unfold zlen in *. assert (length d = length b) as Hl by lia. rewrite Nat2Z.id, Hl.
  rewrite firstn_app, firstn_all, Nat.sub_diag. simpl firstn. rewrite app_nil_r.
  rewrite skipn_app, skipn_all2 by lia.
  replace (length a + length b - length a)%nat with (length b) by lia.
  rewrite skipn_app, skipn_all, Nat.sub_diag. reflexivity.
Qed.
Lemma rd_prefix b c n : n = zlen b -> rd (b ++ c) 0 n = Ok b.
Proof. intros H. apply (rd_mid [] b c n 0 eq_refl H). Qed.
Lemma wr_prefix b c d : zlen d = zlen b -> wr (b ++ c) 0 d = Ok (d ++ c).
Proof. intros H. apply (wr_mid [] b c d 0 eq_refl H). Qed.
Lemma rd_suffix a b n pos : pos = zlen a -> n = zlen b -> rd (a ++ b) pos n = Ok b.
Proof. intros. rewrite <- (app_nil_r b) at 1. apply rd_mid; assumption. Qed.
Lemma wr_suffix a b d pos : pos = zlen a -> zlen d = zlen b -> wr (a ++ b) pos d = Ok (a ++ d).
Proof. intros. rewrite <- (app_nil_r b). rewrite (wr_mid a b [] d) by assumption. rewrite app_nil_r; reflexivity. Qed.
Lemma rd_all b n : n = zlen b -> rd b 0 n = Ok b.
Proof. intros. rewrite <- (app_nil_r b) at 1. apply rd_prefix; assumption. Qed.
Lemma wr_all b d : zlen d = zlen b -> wr b 0 d = Ok d.
Proof. intros. rewrite <- (app_nil_r b). rewrite wr_prefix by assumption. rewrite app_nil_r; reflexivity. Qed.
Lemma zlen_zeros n : zlen (zeros n) = Z.of_nat n.
Proof. unfold zlen; rewrite zeros_length; reflexivity. Qed.
Lemma zsplit {A} (l : list A) n : 0 <= n <= zlen l -> exists a b, l = a ++ b /\ zlen a = n /\ zlen b = zlen l - n.
Proof.
  intros H. exists (firstn (Z.to_nat n) l), (skipn (Z.to_nat n) l).
  unfold zlen in *. rewrite firstn_skipn, firstn_length, skipn_length. split; [reflexivity|lia].
Qed.
Lemma firstn_zlen_app (a b : bytes) n : n = zlen a -> firstn (Z.to_nat n) (a ++ b) = a.
Proof.
  intros ->. unfold zlen. rewrite Nat2Z.id, firstn_app, firstn_all, Nat.sub_diag. simpl. apply app_nil_r.
Qed.
Lemma bind_Ok {A B} (a : A) (f : A -> outcome B) : bind (Ok a) f = f a.
Proof. reflexivity. Qed.
Lemma wr_app_eq a b d pos : pos = zlen a -> zlen d <= zlen b ->
    wr (a ++ b) pos d = Ok (a ++ d ++ skipn (length d) b).
  Proof.
    intros Hp Hd. destruct (zsplit b (zlen d)) as (x & y & -> & Hx & _); [pose proof (zlen_nonneg d); lia|].
    rewrite wr_mid by lia. do 3 f_equal. rewrite skipn_app.
    unfold zlen in Hx. rewrite skipn_all2 by lia. replace (length d - length x)%nat with 0%nat by lia. reflexivity.
  Qed.
Lemma app_inj_len {A} (a b c d : list A) : length a = length c -> a ++ b = c ++ d -> a = c /\ b = d.
Proof.
  revert c. induction a as [|x a IH]; intros [|y c] Hl E; simpl in *; try discriminate; [auto|].
  injection Hl as Hl. injection E as -> E. destruct (IH c Hl E) as [-> ->]. auto.
Qed.
