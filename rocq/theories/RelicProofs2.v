(** Proofs about printing, integer functions, handles and the initialisation of the library. *)
From Coq Require Import Lia Znumtheory.
From Verif Require Import Base BaseFacts PpkeModel PpkeSpec RelicModel RelicSpec RelicProofs.

(** Printing *)
Lemma put_hex_flags st v : st_flags (put_hex (std_hex st) v) = st_flags (std_hex st).
Proof. reflexivity. Qed.
Lemma print_loop_ok data l st : Forall (fun i => 0 <= i < zlen data) l -> exists st', print_loop data l st = Ok st'.
Proof.
  revert st. induction l as [|i l IH]; intros st H; [eexists; reflexivity|]. inversion H as [|? ? Hi Hl]; subst. cbn [print_loop].
  destruct (nth_error data (Z.to_nat i)) as [v|] eqn:E; [apply IH; exact Hl|]. apply nth_error_None in E. unfold zlen in Hi. lia.
Qed.
Lemma print_loop_inv data l st st' : Forall is_byte l -> print_loop data l st = Ok st' -> Forall (fun i => 0 <= i < zlen data) l.
Proof.
  intros B. revert st. induction B as [|i l Hi _ IH]; intros st E; [constructor|]. cbn [print_loop] in E.
  destruct (nth_error data (Z.to_nat i)) as [v|] eqn:N; [|discriminate].
  assert (L : (Z.to_nat i < length data)%nat) by (apply nth_error_Some; rewrite N; discriminate).
  constructor; [unfold is_byte, zlen in *; lia|]. eapply IH. exact E.
Qed.
Lemma print_loop_text data l st st' : print_loop data l st = Ok st' -> fl_showbase (st_flags st) = false -> fl_upper (st_flags st) = false ->
  st_text st' = st_text st ++ flat_map hex_byte (map (look data) l).
Proof.
  revert st. induction l as [|i l IH]; intros st E S U; cbn [print_loop] in E.
  - injection E as <-. cbn [map flat_map]. rewrite app_nil_r. reflexivity.
  - destruct (nth_error data (Z.to_nat i)) as [v|] eqn:N; [|discriminate]. rewrite (IH _ E) by assumption.
    cbn [map flat_map]. unfold look at 2. rewrite (nth_error_nth _ _ _ N), app_assoc. f_equal.
    unfold put_hex, st_put, std_hex, st_set, hex_byte. cbn [st_flags st_text fl_showbase fl_upper]. rewrite S, U. reflexivity.
Qed.

Lemma print_defined data st : is_bytes data ->
  ((exists st', print_element data st = Ok st') <-> Forall (fun i => i < zlen data) data).
Proof.
  intros B. unfold print_element. split.
  - intros [st' E]. destruct (print_loop data data (st_put st [48; 120])) as [s| | | |] eqn:L; try discriminate.
    apply print_loop_inv in L; [|exact B]. revert L. apply Forall_impl. intros i H. apply H.
  - intros F. destruct (print_loop_ok data data (st_put st [48; 120])) as [s L].
    + unfold is_bytes in B. rewrite Forall_forall in *. intros i Hi. specialize (F i Hi). specialize (B i Hi). unfold is_byte in B. lia.
    + rewrite L. eexists. reflexivity.
Qed.
Lemma print_undefined data st : is_bytes data -> (exists i, In i data /\ zlen data <= i) -> print_element data st = UB.
Proof.
  intros B [i [Hi L]]. unfold print_element. enough (E : print_loop data data (st_put st [48; 120]) = UB) by (rewrite E; reflexivity).
  generalize (st_put st [48; 120]). intros s. revert s. assert (G : forall l s, In i l -> Forall is_byte l -> print_loop data l s = UB).
  { induction l as [|j l IH]; intros s Hin F; [destruct Hin|]. inversion F as [|? ? Hj Hl]; subst. cbn [print_loop].
    destruct (nth_error data (Z.to_nat j)) as [v|] eqn:N; [|reflexivity]. destruct Hin as [->|Hin]; [|apply IH; assumption].
    assert (Lt : (Z.to_nat i < length data)%nat) by (apply nth_error_Some; rewrite N; discriminate).
    unfold is_byte, zlen in *. lia. }
  intros s. apply G; assumption.
Qed.
Lemma print_text data st' : print_element data new_stream = Ok st' ->
  st_flags st' = st_flags new_stream /\ st_text st' = hex_text (map (look data) data).
Proof.
  unfold print_element. destruct (print_loop data data (st_put new_stream [48; 120])) as [s| | | |] eqn:L; try discriminate.
  intros [= <-]. cbn [st_set st_put st_flags st_text]. split; [reflexivity|].
  rewrite (print_loop_text _ _ _ _ L) by reflexivity. unfold hex_text. cbn [st_put new_stream st_text app]. reflexivity.
Qed.
Lemma print_flags data st st' : print_element data st = Ok st' -> st_flags st' = st_flags st.
Proof. unfold print_element. destruct (print_loop _ _ _); try discriminate. intros [= <-]. reflexivity. Qed.

(** Functions on int *)
Definition is_int (x : Z) : Prop := INT_MIN <= x <= INT_MAX.
Lemma c_int_ok x : is_int x -> c_int x = Ok x.
Proof.
  unfold is_int, c_int. intros H. destruct (INT_MIN <=? x) eqn:E1; [|apply Z.leb_gt in E1; lia]. destruct (x <=? INT_MAX) eqn:E2; [reflexivity|apply Z.leb_gt in E2; lia].
Qed.
Lemma c_int_iff x r : c_int x = Ok r <-> r = x /\ INT_MIN <= x <= INT_MAX.
Proof.
  split.
  - unfold c_int. destruct (INT_MIN <=? x) eqn:E1; [|discriminate]. destruct (x <=? INT_MAX) eqn:E2; [|discriminate].
    intros [= <-]. apply Z.leb_le in E1, E2. auto.
  - intros [-> H]. apply c_int_ok. exact H.
Qed.
Lemma int_div_iff g h r : int_div g h = Ok r <-> h <> 0 /\ r = Z.quot g h /\ INT_MIN <= Z.quot g h <= INT_MAX.
Proof.
  unfold int_div. destruct (h =? 0) eqn:E.
  - apply Z.eqb_eq in E. split; [discriminate|]. intros [H _]. contradiction.
  - apply Z.eqb_neq in E. rewrite c_int_iff. tauto.
Qed.
Lemma int_div_overflow g h : INT_MIN <= g <= INT_MAX -> INT_MIN <= h <= INT_MAX -> h <> 0 ->
  int_div g h = UB <-> g = INT_MIN /\ h = -1.
Proof.
  intros Hg Hh Hz. unfold int_div. destruct (h =? 0) eqn:E; [apply Z.eqb_eq in E; contradiction|].
  split.
  - intros U. destruct (Z.eq_dec h (-1)) as [->|N].
    + split; [|reflexivity]. assert (Q : Z.quot g (-1) = - g) by (change (-1) with (Z.opp 1); rewrite Z.quot_opp_r, Z.quot_1_r by discriminate; reflexivity). rewrite Q in U.
      destruct (Z.eq_dec g INT_MIN) as [->|Ng]; [reflexivity|]. rewrite c_int_ok in U; [discriminate|]. unfold is_int, INT_MIN, INT_MAX in *. lia.
    + exfalso. rewrite c_int_ok in U; [discriminate|]. unfold is_int.
      destruct (Z.eq_dec h 1) as [->|N1]; [rewrite Z.quot_1_r; exact Hg|].
      assert (A : Z.abs (Z.quot g h) * 2 <= Z.abs g).
      { rewrite <- Z.quot_abs by exact Hz. pose proof (Z.mul_quot_le (Z.abs g) (Z.abs h) ltac:(lia) ltac:(lia)) as Q.
        pose proof (Z.quot_pos (Z.abs g) (Z.abs h) ltac:(lia) ltac:(lia)). nia. }
      unfold INT_MIN, INT_MAX in *. lia.
  - intros [-> ->]. reflexivity.
Qed.

(** Powers *)
Lemma gt_power_ok R a zr : relic_ok R -> 0 <= a -> -1 <= zr ->
  gt_power (gt_inv R) (pow (GT R)) (pow (GT R) (genT R) a) zr = pow (GT R) (genT R) ((a * zr) mod order R).
Proof.
  intros RO Ha Hz. unfold gt_power, zr_eq. destruct (zr =? -1) eqn:E.
  - apply Z.eqb_eq in E. subst zr. rewrite (ok_inv R RO) by exact Ha. f_equal. f_equal. ring.
  - apply Z.eqb_neq in E. pose proof (ok_GT R RO) as Ge. rewrite (gen_pow _ _ _ Ge) by lia. symmetry.
    apply (gen_mod _ _ _ Ge). nia.
Qed.

(** Handles *)
Lemma handle_new_starts c e : relic_starts e ->
  handle_new true e c = match c with None => (Ok true, Some true) | Some b => (Ok false, Some b) end.
Proof. intros [H1 H2]. unfold handle_new. rewrite H1, H2. destruct c; reflexivity. Qed.
(** Only the oldest handle alive is the one that started RELIC. *)
Definition hgood (s : hstate) : Prop :=
  match fst s with [] => snd s = None | _ => snd s = Some true /\ exists k, fst s = repeat false k ++ [true] end.
Lemma hstep_good s o : scoped o -> hgood s -> hgood (hstep s o).
Proof.
  destruct s as [l c]. destruct o as [e|k]; cbn [scoped]; intros Sc G; unfold hstep; cbn [fst snd].
  - rewrite handle_new_starts by exact Sc. unfold hgood in *. cbn [fst snd] in *. destruct l as [|h l].
    + subst c. cbn [fst snd]. split; [reflexivity|]. exists 0%nat. reflexivity.
    + destruct G as [-> [k ->]]. cbn [fst snd]. split; [reflexivity|]. exists (S k). reflexivity.
  - subst k. unfold hgood in *. cbn [fst snd] in *. destruct l as [|h l]; cbn [nth_error]; [exact G|]. destruct G as [-> [k K]].
    cbn [fst snd remove_nth]. destruct k as [|k]; cbn [repeat app] in K.
    + injection K as -> ->. reflexivity.
    + injection K as -> ->. cbn [handle_delete]. destruct (repeat false k ++ [true]) eqn:E; [destruct k; discriminate|].
      split; [reflexivity|]. exists k. rewrite E. reflexivity.
Qed.
Lemma hrun_good l : Forall scoped l -> hgood (hrun l).
Proof.
  unfold hrun. assert (G0 : hgood ([], None)) by reflexivity. revert G0. generalize (@nil bool, @None bool).
  intros s G F. revert s G. induction F as [|o l Ho _ IH]; intros s G; cbn [fold_left]; [exact G|]. apply IH. apply hstep_good; assumption.
Qed.
Lemma scoped_alive l : Forall scoped l -> (fst (hrun l) <> [] <-> snd (hrun l) = Some true) /\ (fst (hrun l) = [] <-> snd (hrun l) = None).
Proof.
  intros F. pose proof (hrun_good l F) as G. unfold hgood in G. destruct (fst (hrun l)) as [|h t].
  - rewrite G. split; split; try discriminate; try reflexivity. intros N. contradiction.
  - destruct G as [-> _]. split; split; try discriminate; reflexivity.
Qed.

(** The library *)
Section LibProofs.
  Context (ossl : bool).
  Lemma init_good e s : good_env e ->
    init_crypto_lib ossl e s =
      (Ok tt, {| l_core := match l_core s with None => Some true | c => c end;
                 l_handle := Some (match l_core s with None => true | Some _ => false end);
                 l_lost := match l_handle s with Some h0 => h0 :: l_lost s | None => l_lost s end;
                 l_locks := if ossl then true else l_locks s;
                 l_lost_locks := if ossl && l_locks s then l_lost_locks s + 1 else l_lost_locks s;
                 l_callbacks := if ossl then true else l_callbacks s;
                 l_misuse := true; l_prp := Some (e_aesni e) |}).
  Proof.
    intros [RS [Hn [Hm Hs]]]. unfold init_crypto_lib, init_locks. rewrite Hn, Hm, handle_new_starts by exact RS.
    assert (Sn : e_sodium e <? 0 = false) by (apply Z.ltb_ge; exact Hs). rewrite Sn.
    destruct s as [c h l lk ll cb ms pr]. destruct ossl, c as [b|]; reflexivity.
  Qed.

  Lemma init_ready e s : good_env e -> released s ->
    fst (init_crypto_lib ossl e s) = Ok tt /\
    let s' := snd (init_crypto_lib ossl e s) in
    l_core s' = Some true /\ error_if_relic_not_init (l_core s') = Ok tt /\ l_callbacks s' = ossl /\ take_lock s' = Ok tt /\ l_misuse s' = true /\
    l_prp s' = Some (e_aesni e) /\ released (cleanup_crypto_lib ossl s').
  Proof.
    intros Ge [C [Hh [L [Lk [LL Cb]]]]]. rewrite init_good by exact Ge. cbn [fst snd]. split; [reflexivity|].
    cbv zeta. unfold take_lock, cleanup_crypto_lib, kill_locks, released.
    cbn [l_core l_handle l_lost l_locks l_lost_locks l_callbacks l_misuse l_prp]. rewrite C, Hh, L, Lk, LL, Cb.
    destruct ossl; cbn; repeat split; reflexivity.
  Qed.

  Lemma pairs_released es s : Forall good_env es -> released s -> released (fold_left (lstep ossl) (pairs es) s).
  Proof.
    intros F. revert s. induction F as [|e es He _ IH]; intros s R; cbn [pairs fold_left]; [exact R|]. apply IH. cbn [lstep].
    apply (init_ready e s He R).
  Qed.

  Lemma cleanup_twice s : cleanup_crypto_lib ossl (cleanup_crypto_lib ossl s) = cleanup_crypto_lib ossl s.
  Proof. unfold cleanup_crypto_lib, kill_locks. destruct ossl, (l_locks s); reflexivity. Qed.

  (** Locks *)
  Definition linv (s : lib) : Prop := l_callbacks s = true -> l_locks s = true.
  Lemma cleanup_linv s : linv s -> linv (cleanup_crypto_lib ossl s).
  Proof.
    unfold linv, cleanup_crypto_lib, kill_locks. intros I. destruct ossl; cbn; [|exact I]. destruct (l_locks s); cbn; [discriminate|exact I].
  Qed.
  Lemma init_linv e s : (l_locks s = true -> e_malloc e = true) -> linv s ->
    linv (snd (init_crypto_lib ossl e s)) /\ (l_locks (snd (init_crypto_lib ossl e s)) = true -> ossl = true /\ e_malloc e = true \/ ossl = false).
  Proof.
    unfold linv. intros M I.
    assert (I' : (l_callbacks (init_locks ossl e s) = true -> l_locks (init_locks ossl e s) = true) /\ (l_locks (init_locks ossl e s) = true -> ossl = true /\ e_malloc e = true \/ ossl = false)).
    { unfold init_locks. destruct ossl; [|split; [exact I|tauto]]. cbn [l_callbacks l_locks]. destruct (e_malloc e); [tauto|]. split; [|discriminate]. intros Q. specialize (M (I Q)). discriminate M. }
    unfold init_crypto_lib. cbv zeta. set (s0 := init_locks ossl e s) in *. clearbody s0. destruct (negb (e_new e)); [exact I'|].
    destruct (handle_new true e (l_core s0)) as [[h| | | |] c]; try exact I'. destruct (e_sodium e <? 0); exact I'.
  Qed.
  Lemma no_locks e s : ossl = false -> l_locks s = false -> l_locks (snd (init_crypto_lib ossl e s)) = false.
  Proof. intros -> H. unfold init_crypto_lib, init_locks. cbv zeta. destruct (negb (e_new e)); [exact H|]. destruct (handle_new true e (l_core s)) as [[h| | | |] c]; try exact H. destruct (e_sodium e <? 0); exact H. Qed.
  Lemma locks_again l : mallocs_again false l -> take_lock (lrun ossl l) = Ok tt.
  Proof.
    intros F. assert (I : linv (lrun ossl l)).
    { unfold lrun. assert (I0 : linv fresh) by discriminate. assert (L0 : l_locks fresh = true -> ossl = true /\ false = true) by discriminate. revert F I0 L0. generalize false fresh.
      induction l as [|o l IH]; intros b s F I0 L0; cbn [fold_left]; [exact I0|]. destruct o as [e|]; cbn [lstep mallocs_again] in *.
      - destruct F as [F1 F2]. destruct (init_linv e s) as [I1 L1]; [intros Q; apply F1, (L0 Q)|exact I0|]. apply (IH (e_malloc e)); [exact F2|exact I1|]. intros Q. destruct (L1 Q) as [Q1|Q1]; [exact Q1|]. rewrite (no_locks e s Q1) in Q; [discriminate Q|]. destruct (l_locks s); [destruct (L0 eq_refl); congruence|reflexivity].
      - apply (IH false); [exact F|apply cleanup_linv; exact I0|]. unfold cleanup_crypto_lib, kill_locks. cbn [l_locks]. destruct (l_locks s) eqn:Q; [|rewrite Bool.andb_false_r; cbn [l_locks]; discriminate]. destruct (L0 eq_refl) as [-> _]. cbn. discriminate. }
    unfold take_lock. destruct (l_callbacks _) eqn:E; [|reflexivity]. rewrite (I E). reflexivity.
  Qed.
  Lemma mallocs_mallocs l : Forall mallocs l -> forall b, mallocs_again b l.
  Proof. induction 1 as [|[e|] l H _ IH]; intros b; cbn [mallocs_again mallocs] in *; [exact I|split; [intros _; exact H|apply IH]|apply IH]. Qed.

  (** Who holds RELIC *)
  Definition holders (s : lib) : list bool := match l_handle s with Some h => h :: l_lost s | None => l_lost s end.
  Definition cinv (s : lib) : Prop :=
    match l_core s with
    | Some b => b = true /\ count_occ bool_dec (holders s) true = 1%nat
    | None => count_occ bool_dec (holders s) true = 0%nat
    end.
  Lemma cleanup_cinv s : cinv s -> cinv (cleanup_crypto_lib ossl s).
  Proof.
    intros I. assert (J : forall lk ll cb ms pr, cinv {| l_core := match l_handle s with Some h => handle_delete h (l_core s) | None => l_core s end;
         l_handle := None; l_lost := l_lost s; l_locks := lk; l_lost_locks := ll; l_callbacks := cb; l_misuse := ms; l_prp := pr |}).
    { intros. unfold cinv, holders in *. cbn [l_core l_handle l_lost]. destruct (l_handle s) as [h|].
      - destruct h; cbn [count_occ handle_delete] in *.
        + destruct (bool_dec true true); [|contradiction]. destruct (l_core s) as [b|]; [destruct I as [_ I]; lia|discriminate].
        + destruct (bool_dec false true); [discriminate|]. exact I.
      - exact I. }
    unfold cleanup_crypto_lib, kill_locks. destruct ossl; cbn [andb]; [|apply J]. cbn [l_locks].
    destruct (l_locks s); apply J.
  Qed.
  Lemma init_cinv e s : relic_starts e -> cinv s -> cinv (snd (init_crypto_lib ossl e s)).
  Proof.
    intros RS I. assert (I' : cinv (init_locks ossl e s)) by (unfold init_locks; destruct ossl; exact I).
    unfold init_crypto_lib. cbv zeta. set (s0 := init_locks ossl e s) in *. clearbody s0. destruct (negb (e_new e)); [exact I'|].
    rewrite handle_new_starts by exact RS. unfold cinv, holders in *. destruct (l_core s0) as [b|].
    - destruct I' as [-> I']. destruct (e_sodium e <? 0); cbn [snd l_core l_handle l_lost count_occ]; (destruct (bool_dec false true); [discriminate|]); split; try reflexivity; exact I'.
    - destruct (e_sodium e <? 0); cbn [snd l_core l_handle l_lost count_occ]; (destruct (bool_dec true true); [|contradiction]); rewrite I'; split; reflexivity.
  Qed.
  Lemma core_held l : Forall starts l -> cinv (lrun ossl l).
  Proof.
    intros F. unfold lrun. assert (I0 : cinv fresh) by reflexivity. revert I0. generalize fresh.
    induction F as [|o l Ho _ IH]; intros s I0; cbn [fold_left]; [exact I0|].
    apply IH. destruct o as [e|]; cbn [lstep starts] in *; [apply init_cinv; assumption|apply cleanup_cinv; exact I0].
  Qed.
  Lemma core_iff l : Forall starts l ->
    l_core (lrun ossl l) <> None <-> l_handle (lrun ossl l) = Some true \/ In true (l_lost (lrun ossl l)).
  Proof.
    intros F. pose proof (core_held l F) as I. unfold cinv, holders in I.
    assert (E : l_handle (lrun ossl l) = Some true \/ In true (l_lost (lrun ossl l)) <-> In true (match l_handle (lrun ossl l) with Some h => h :: l_lost (lrun ossl l) | None => l_lost (lrun ossl l) end)).
    { destruct (l_handle (lrun ossl l)) as [h|]; cbn [In]; split.
      - intros [H|H]; [injection H as ->|]; auto.
      - intros [->|H]; auto.
      - intros [H|H]; [discriminate|exact H].
      - auto. }
    rewrite E. rewrite (count_occ_In bool_dec). destruct (l_core (lrun ossl l)) as [b|].
    - destruct I as [_ ->]. split; [lia|discriminate].
    - rewrite I. split; [contradiction|lia].
  Qed.
End LibProofs.
