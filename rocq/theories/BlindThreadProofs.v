(** Threads that share a blinding pair. *)
From Coq Require Import Znumtheory Zpow_facts Lia List.
From Verif Require Import Base BaseFacts MpiModel MpiProofs RsaKeyModel RsaKeySpec TdpKeyModel TdpModel TdpSpec FermatProofs RsaMathProofs TdpProofs TdpProofs2 BlindThreadModel BlindThreadSpec.

Lemma nth_put_eq {A} (l : list A) i x : (i < length l)%nat -> nth_error (put l i x) i = Some x.
Proof. intros H. unfold put. rewrite nth_error_app2; rewrite firstn_length; [|lia]. replace (i - Nat.min i (length l))%nat with 0%nat by lia. reflexivity. Qed.
Lemma nth_put_ne {A} (l : list A) i j x : (i < length l)%nat -> i <> j -> nth_error (put l i x) j = nth_error l j.
Proof.
  intros H N. unfold put. destruct (Nat.lt_ge_cases j i) as [L|L].
  - rewrite nth_error_app1 by (rewrite firstn_length; lia). rewrite <- (firstn_skipn i l) at 2. rewrite nth_error_app1 by (rewrite firstn_length; lia). reflexivity.
  - rewrite nth_error_app2 by (rewrite firstn_length; lia). rewrite firstn_length. replace (j - Nat.min i (length l))%nat with (S (j - S i)) by lia. cbn [nth_error].
    rewrite <- (firstn_skipn (S i) l) at 2. rewrite nth_error_app2 by (rewrite firstn_length; lia). rewrite firstn_length. f_equal. lia.
Qed.
Lemma put_length {A} (l : list A) i x : (i < length l)%nat -> length (put l i x) = length l.
Proof. intros H. unfold put. rewrite app_length, firstn_length. cbn [length]. rewrite skipn_length. lia. Qed.
Lemma nth_below {A} (l : list A) i x : nth_error l i = Some x -> (i < length l)%nat.
Proof. intros H. apply nth_error_Some. congruence. Qed.

Section Key.
  Context (k : rsa_key) (HK : tdp_key k).
  Notation N := (key_N k).
  Lemma facts : key_facts k /\ rsa_factor (key_P k) /\ rsa_factor (key_Q k) /\ bits2048 N.
  Proof using HK. exact (tdp_key_facts k HK). Qed.
  Lemma len256 : rsa_len (key_pub k) = 256.
  Proof using HK. destruct (bits2048_facts _ (proj2 (proj2 (proj2 facts)))) as (L & _). exact L. Qed.
  Lemma N1 : 1 < N.
  Proof using HK. apply N_gt1, facts. Qed.

  (** The computation between blinding and unblinding *)
  Lemma power_ok c vi i : rng_ok (fst c) -> exists y, blind_and_power k c vi i = ret y /\ root k (snd c * vi) y.
  Proof using HK.
    intros Hr. pose proof facts as (F & FP & FQ & _). pose proof N1 as HN. pose proof F as F'. destruct F' as [kP kQ kN oP oQ kE kR kqp kDP kDQ].
    pose proof (odd_ge3 _ kP oP). pose proof (odd_ge3 _ kQ oQ).
    unfold blind_and_power. rewrite mod_ok by lia. rewrite bindr_ret. set (T0 := (snd c * vi) mod N).
    destruct (Hr i RSA_EXPONENT_BLINDING ltac:(unfold RSA_EXPONENT_BLINDING; lia)) as [R1 _].
    destruct (Hr (S i) RSA_EXPONENT_BLINDING ltac:(unfold RSA_EXPONENT_BLINDING; lia)) as [R2 _].
    set (r1 := fst c i RSA_EXPONENT_BLINDING) in *. set (r2 := fst c (S i) RSA_EXPONENT_BLINDING) in *.
    destruct kDP as [D1 D2]. destruct kDQ as [D3 D4].
    pose proof (blinded_exponent (key_DP k) (key_P k) r1 (key_E k) (proj1 D1) ltac:(lia) R1 D2) as [A1 A2].
    pose proof (blinded_exponent (key_DQ k) (key_Q k) r2 (key_E k) (proj1 D3) ltac:(lia) R2 D4) as [B1 B2].
    set (dp := (key_P k - 1) * r1 + key_DP k) in *. set (dq := (key_Q k - 1) * r2 + key_DQ k) in *.
    cbn zeta. rewrite exp_mod_ok by (first [assumption|lia]). rewrite bindr_ret.
    rewrite exp_mod_ok by (first [assumption|lia]). rewrite bindr_ret.
    rewrite mod_ok by lia. rewrite bindr_ret. eexists; split; [reflexivity|].
    pose proof (crt_root k F FP FQ T0 dp dq A1 B1 A2 B2) as [Bs Hs]. cbn zeta in Bs, Hs. split; [exact Bs|]. rewrite Hs. unfold T0. apply Zmod_mod.
  Qed.
  (** Unblinding, whatever the pair *)
  Lemma unblind_root T vi vf y : root k (T * vi) y -> root k (T * vi * vf ^ key_E k) ((y * vf) mod N).
  Proof using HK.
    intros [B E]. pose proof N1 as HN. pose proof facts as (F & _). destruct F as [kP kQ kN oP oQ kE kR kqp kDP kDQ]. split; [apply Z.mod_pos_bound; lia|].
    rewrite (pow_mod_base ((y * vf) mod N) (y * vf)) by (first [apply Zmod_mod|lia]). rewrite Z.pow_mul_l. rewrite Zmult_mod, E, <- Zmult_mod. reflexivity.
  Qed.
  Lemma root_mod T T' y : T mod N = T' mod N -> root k T y -> root k T' y.
  Proof using. intros E [B H]. split; [exact B|congruence]. Qed.
  Lemma pair_mul T vi vf : pair_ok k vi vf -> (T * vi * vf ^ key_E k) mod N = T mod N.
  Proof using.
    intros H. replace (T * vi * vf ^ key_E k) with (T * (vi * vf ^ key_E k)) by ring. rewrite Zmult_mod. unfold pair_ok in H. rewrite H, Z.mul_1_r. now rewrite Zmod_mod.
  Qed.
  Lemma pair_mod vi vf vi' vf' : vi mod N = vi' mod N -> vf mod N = vf' mod N -> pair_ok k vi vf -> pair_ok k vi' vf'.
  Proof using HK.
    intros E1 E2 H. pose proof N1. pose proof facts as (F & _). destruct F as [kP kQ kN oP oQ kE kR kqp kDP kDQ]. unfold pair_ok in *. rewrite <- H. symmetry. apply mul_mod_eq; [exact E1|].
    apply pow_mod_base; [lia|lia|exact E2].
  Qed.
  Lemma pair_squared vi vf : pair_ok k vi vf -> pair_ok k (vi * vi) (vf * vf).
  Proof using HK.
    intros H. pose proof facts as (F & _). apply (pair_mod ((vi * vi) mod N) ((vf * vf) mod N)); [apply Zmod_mod..|]. apply pair_square; assumption.
  Qed.

  Definition pok (s : shared) : Prop := exists vf, Vf s = Some vf /\ pair_ok k (Vi s) vf.
  Definition sok (s : shared) : Prop := Vf s = None \/ pok s.
  Definition later (c : call) (n i : nat) : Prop := exists j, (i <= j < i + n)%nat /\ Z.gcd (fst c j 255) N = 1.
  Definition ready (c : call) (s : shared) (p : place) : Prop :=
    match p with
    | Start => sok s
    | SquareVi => pok s /\ snd c < N
    | ReduceVi | SquareVf => (exists vf, Vf s = Some vf /\ pair_ok k (Vi s) (vf * vf)) /\ snd c < N
    | ReduceVf => pok s /\ snd c < N
    | Fill n i => later c n i /\ snd c < N
    | Gcd n i => (exists vf, Vf s = Some vf /\ (Z.gcd vf N = 1 \/ later c n i)) /\ snd c < N
    | Test n i => (exists vf, Vf s = Some vf /\ Vi s = Z.gcd vf N /\ (Z.gcd vf N = 1 \/ later c n i)) /\ snd c < N
    | Invert i => (exists vf, Vf s = Some vf /\ Z.gcd vf N = 1) /\ snd c < N
    | Power i => (exists vf, Vf s = Some vf /\ (vf * Vi s) mod N = 1) /\ snd c < N
    | Blind i => pok s /\ snd c < N
    | Unblind y => pok s /\ root k (snd c * Vi s) y /\ snd c < N
    | Done r => sok s /\ right k (c, r)
    end.
  Definition weight (p : place) : nat :=
    match p with
    | Start => 41 | SquareVi => 7 | ReduceVi => 6 | SquareVf => 5 | ReduceVf => 4
    | Fill n _ => 6 + 3 * n | Gcd n _ => 8 + 3 * n | Test n _ => 7 + 3 * n | Invert _ => 5 | Power _ => 4 | Blind _ => 3 | Unblind _ => 2 | Done _ => 1
    end%nat.
  Definition good_one (c : call) : Prop := rng_good N (fst c) /\ 0 <= snd c.
  Lemma place_ok c s p : good_one c -> ready c s p -> (forall r, p <> Done r) -> exists s' p', place_step k c s p = Ok (s', p') /\ ready c s' p' /\ (weight p' < weight p)%nat.
  Proof using HK.
    intros [[Hr (j & Hj & Hg)] HT] R ND. pose proof N1 as HN. pose proof facts as (F & _). pose proof (N_odd k F) as HO.
    destruct p as [| | | | |n i|n i|n i|i|i|i|y|r]; cbn [place_step ready] in *.
    - destruct (Z.leb_spec N (snd c)) as [L|L]; [eexists _, _; split; [reflexivity|]; split; [split; [exact R|exact L]|cbn; lia]|].
      destruct R as [E|(vf & E & P)]; rewrite E; (eexists _, _; split; [reflexivity|]; split; [|cbn; lia]); cbn [ready].
      + split; [exists j; split; [lia|exact Hg]|exact L].
      + split; [exists vf; auto|exact L].
    - destruct R as [(vf & E & P) L]. eexists _, _. split; [reflexivity|]. split; [|cbn; lia]. cbn [ready Vi Vf]. split; [|exact L]. exists vf. split; [exact E|]. apply pair_squared, P.
    - destruct R as [(vf & E & P) L]. unfold chk. rewrite mod_ok by lia. cbn [bind ret]. eexists _, _. split; [reflexivity|]. split; [|cbn; lia]. cbn [ready Vi Vf]. split; [|exact L]. exists vf. split; [exact E|].
      apply (pair_mod (Vi s) (vf * vf)); [symmetry; apply Zmod_mod|reflexivity|exact P].
    - destruct R as [(vf & E & P) L]. eexists _, _. split; [reflexivity|]. split; [|cbn; lia]. cbn [ready Vi Vf]. split; [|exact L]. rewrite E. cbn [value]. exists (vf * vf). split; [reflexivity|exact P].
    - destruct R as [(vf & E & P) L]. unfold chk. rewrite E. cbn [value]. rewrite mod_ok by lia. cbn [bind ret]. eexists _, _. split; [reflexivity|]. split; [|cbn; lia]. cbn [ready Vi Vf]. split; [|exact L].
      exists (vf mod N). split; [reflexivity|]. apply (pair_mod (Vi s) vf); [reflexivity|symmetry; apply Zmod_mod|exact P].
    - destruct R as [(j' & Hj' & Hg') L]. destruct n as [|n]; [lia|]. eexists _, _. split; [reflexivity|]. split; [|cbn; lia]. cbn [ready Vi Vf]. split; [|exact L]. rewrite len256. change (256 - 1) with 255.
      eexists. split; [reflexivity|]. destruct (Nat.eq_dec i j') as [->|Ne]; [left; exact Hg'|right; exists j'; split; [lia|exact Hg']].
    - destruct R as [(vf & E & D) L]. eexists _, _. split; [reflexivity|]. split; [|cbn; lia]. cbn [ready Vi Vf]. split; [|exact L]. rewrite E. cbn [value]. exists vf. split; [reflexivity|]. split; [|exact D].
      unfold mpi_gcd. rewrite (proj2 (Z.eqb_neq N 0)) by lia. reflexivity.
    - destruct R as [(vf & E & Ev & D) L]. eexists _, _. split; [reflexivity|]. destruct (Z.eqb_spec (Vi s) 1) as [E1|E1].
      + split; [|cbn; lia]. cbn [ready]. split; [|exact L]. exists vf. split; [exact E|congruence].
      + split; [|cbn; lia]. cbn [ready]. split; [|exact L]. destruct D as [D|D]; [congruence|exact D].
    - destruct R as [(vf & E & G) L]. rewrite E. cbn [value]. unfold chk. destruct (inv_mod_ok vf N HN G) as (v & -> & Bv & Ev). cbn [bind ret]. eexists _, _. split; [reflexivity|]. split; [|cbn; lia].
      cbn [ready Vi Vf]. split; [|exact L]. exists vf. auto.
    - destruct R as [(vf & E & G) L]. unfold chk. assert (0 < key_E k) as HE by (destruct F as [kP kQ kN oP oQ kE kR kqp kDP kDQ]; lia). rewrite exp_mod_ok by (first [exact HO|lia]). cbn [bind ret].
      eexists _, _. split; [reflexivity|]. split; [|cbn; lia]. cbn [ready Vi Vf]. split; [|exact L]. exists vf. split; [exact E|]. unfold pair_ok. cbn [Vi].
      rewrite (mul_mod_eq _ (Vi s ^ key_E k) _ (vf ^ key_E k)) by (first [reflexivity|apply Zmod_mod]).
      rewrite <- Z.pow_mul_l. rewrite Zpower_mod by lia. rewrite (Z.mul_comm (Vi s)), G. rewrite Z.pow_1_l by lia. apply Z.mod_small. lia.
    - destruct R as [P L]. unfold chk. destruct (power_ok c (Vi s) i Hr) as (y & -> & Ry). cbn [bind ret]. eexists _, _. split; [reflexivity|]. split; [|cbn; lia]. cbn [ready]. auto.
    - destruct R as [P [Ry L]]. pose proof P as (vf & E & Pv). unfold chk. rewrite E. cbn [value]. rewrite mod_ok by lia. cbn [bind ret]. eexists _, _. split; [reflexivity|]. split; [|cbn; lia]. cbn [ready].
      split; [right; exact P|]. unfold right. cbn [fst snd]. split; [exact L|]. apply (unblind_root (snd c) (Vi s) vf) in Ry. apply (root_mod _ (snd c)) in Ry; [|apply pair_mul, Pv]. destruct Ry as [By Ey].
      split; [exact By|]. rewrite Ey. apply Z.mod_small. lia.
    - destruct (ND r eq_refl).
  Qed.

  (** Threads with a mutex *)
  Definition calls_of (th : thread) : list call := rev (map fst (results th)) ++ (match current th with Some (c, _) => [c] | None => [] end) ++ todo th.
  Definition place_of (s : shared) (h : option nat) (t : nat) (th : thread) : Prop :=
    (current th = None /\ h <> Some t) \/ (h = Some t /\ exists c p, current th = Some (c, p) /\ good_one c /\ ready c s p).
  Record binv (css : list (list call)) (s : shared) (h : option nat) (ths : list thread) : Prop := {
    b_thr : forall t th, nth_error ths t = Some th -> place_of s h t th;
    b_res : forall t th, nth_error ths t = Some th -> Forall (right k) (results th) /\ good_calls k (todo th);
    b_free : h = None -> sok s;
    b_hold : forall t, h = Some t -> (t < length ths)%nat;
    b_all : map calls_of ths = css }.
  Definition tweight (th : thread) : nat := (42 * length (todo th) + match current th with Some (_, p) => weight p | None => 0 end)%nat.
  Definition total (ths : list thread) : nat := list_sum (map tweight ths).
  Lemma total_put ths t th th' : nth_error ths t = Some th -> (tweight th' < tweight th)%nat -> (total (put ths t th') < total ths)%nat.
  Proof using.
    intros E L. apply nth_error_split in E as (l1 & l2 & -> & Hl). subst t. unfold total, put. rewrite firstn_app, firstn_all, Nat.sub_diag. cbn [firstn]. rewrite app_nil_r.
    replace (skipn (S (length l1)) (l1 ++ th :: l2)) with l2.
    - rewrite !map_app. cbn [map]. unfold list_sum. rewrite !fold_right_app. cbn [fold_right]. generalize (fold_right Nat.add 0%nat (map tweight l2)). intros m.
      induction (map tweight l1) as [|a l IH]; cbn [fold_right]; lia.
    - replace (S (length l1)) with (length (l1 ++ [th])) by (rewrite app_length; cbn; lia). replace (l1 ++ th :: l2) with ((l1 ++ [th]) ++ l2) by (rewrite <- app_assoc; reflexivity).
      rewrite skipn_app, skipn_all, Nat.sub_diag. reflexivity.
  Qed.
  Lemma map_put ths t th th' : nth_error ths t = Some th -> calls_of th' = calls_of th -> map calls_of (put ths t th') = map calls_of ths.
  Proof using.
    intros E C. apply nth_error_split in E as (l1 & l2 & -> & Hl). subst t. unfold put. rewrite firstn_app, firstn_all, Nat.sub_diag. cbn [firstn]. rewrite app_nil_r.
    replace (skipn (S (length l1)) (l1 ++ th :: l2)) with l2; [rewrite !map_app; cbn [map]; congruence|].
    replace (S (length l1)) with (length (l1 ++ [th])) by (rewrite app_length; cbn; lia). replace (l1 ++ th :: l2) with ((l1 ++ [th]) ++ l2) by (rewrite <- app_assoc; reflexivity).
    rewrite skipn_app, skipn_all, Nat.sub_diag. reflexivity.
  Qed.
  (** One thread changes, the others do not hold the mutex. *)
  Lemma change css s h ths t th s' h' th' : binv css s h ths -> nth_error ths t = Some th -> (h = None \/ h = Some t) -> (h' = None \/ h' = Some t) ->
    place_of s' h' t th' -> Forall (right k) (results th') -> good_calls k (todo th') -> (h' = None -> sok s') -> calls_of th' = calls_of th -> binv css s' h' (put ths t th').
  Proof using.
    intros [B1 B2 B3 B4 B5] E Hh Hh' P' R' T' Fr C. pose proof (nth_below _ _ _ E) as Lt. constructor.
    - intros u x Ex. destruct (Nat.eq_dec t u) as [<-|Ne].
      + rewrite nth_put_eq in Ex by exact Lt. injection Ex as <-. exact P'.
      + rewrite nth_put_ne in Ex by assumption. destruct (B1 u x Ex) as [[C1 C2]|[C1 _]].
        * left. split; [exact C1|]. destruct Hh' as [-> | ->]; congruence.
        * exfalso. destruct Hh as [-> | ->]; congruence.
    - intros u x Ex. destruct (Nat.eq_dec t u) as [<-|Ne].
      + rewrite nth_put_eq in Ex by exact Lt. injection Ex as <-. auto.
      + rewrite nth_put_ne in Ex by assumption. exact (B2 u x Ex).
    - exact Fr.
    - intros u Hu. rewrite put_length by exact Lt. destruct Hh' as [-> | ->]; [discriminate Hu|]. injection Hu as <-. exact Lt.
    - rewrite (map_put ths t th th' E C). exact B5.
  Qed.
  (** A step of a thread keeps the invariant; the thread that holds the mutex, or one with something to do if it is free, makes progress. *)
  Lemma thread_ok css s h ths t : binv css s h ths -> exists s' h' ths', thread_step true k (s, h, ths) t = Ok (s', h', ths') /\ binv css s' h' ths' /\
    ((h = Some t \/ (h = None /\ exists th, nth_error ths t = Some th /\ todo th <> [])) -> (total ths' < total ths)%nat).
  Proof using HK.
    intros I. pose proof I as [B1 B2 B3 B4 B5]. unfold thread_step. destruct (nth_error ths t) as [th|] eqn:E.
    2:{ exists s, h, ths. split; [reflexivity|]. split; [exact I|]. apply nth_error_None in E. intros [H|(_ & th & H & _)]; [apply B4 in H; lia|congruence]. }
    destruct (B2 t th E) as [R G]. destruct (B1 t th E) as [[C H]|(H & c & p & C & Gc & Rd)]; rewrite C.
    - destruct (todo th) as [|c cs] eqn:T; [exists s, h, ths; split; [reflexivity|]; split; [exact I|]; intros [H'|(_ & th' & E' & N')]; congruence|].
      destruct h as [u|]; [exists s, (Some u), ths; split; [reflexivity|]; split; [exact I|]; intros [H'|[H' _]]; congruence|].
      inversion G as [|? ? Gc G']; subst. eexists _, _, _. split; [reflexivity|]. split.
      + eapply (change _ s None ths t th); [exact I|exact E|auto|auto| |exact R|exact G'|discriminate|].
        * right. split; [reflexivity|]. exists c, Start. cbn. split; [reflexivity|]. split; [exact Gc|]. apply B3. reflexivity.
        * unfold calls_of. cbn. rewrite C, T. reflexivity.
      + intros _. apply (total_put ths t th _ E). unfold tweight. cbn [todo current weight]. rewrite C, T. cbn [length]. lia.
    - assert ((exists r, p = Done r) \/ forall r, p <> Done r) as [[r ->]|ND] by (destruct p; first [left; eexists; reflexivity | right; intros; discriminate]).
      + destruct Rd as [So Ri]. eexists _, _, _. split; [reflexivity|]. split.
        * eapply (change _ s h ths t th); [exact I|exact E|auto|auto| |apply Forall_cons; [exact Ri|exact R]|exact G|intros _; exact So|].
          -- left. split; [reflexivity|discriminate].
          -- unfold calls_of. cbn. rewrite C, <- app_assoc. reflexivity.
        * intros _. apply (total_put ths t th _ E). unfold tweight. cbn [todo current weight]. rewrite C. cbn [weight]. lia.
      + destruct (place_ok c s p Gc Rd ND) as (s' & p' & Es & Rd' & W).
        assert (exists s' h' ths', ('(s, p) <- place_step k c s p ;; Ok (s, h, put ths t {| todo := todo th; current := Some (c, p); results := results th |})) = Ok (s', h', ths') /\ binv css s' h' ths' /\
          ((h = Some t \/ (h = None /\ exists th, nth_error ths t = Some th /\ todo th <> [])) -> (total ths' < total ths)%nat)) as Q.
        { rewrite Es. cbn [bind]. eexists _, _, _. split; [reflexivity|]. split.
          - eapply (change _ s h ths t th); [exact I|exact E|auto|auto| |exact R|exact G| |].
            + right. split; [exact H|]. exists c, p'. auto.
            + rewrite H. discriminate.
            + unfold calls_of. cbn. rewrite C. reflexivity.
          - intros _. apply (total_put ths t th _ E). unfold tweight. cbn [todo current]. rewrite C. lia. }
        rewrite E in Q. destruct p; try exact Q. exact (False_ind _ (ND _ eq_refl)).
  Qed.
  Lemma threads_ok css ts : forall s h ths, binv css s h ths -> exists s' h' ths', run_threads true k (s, h, ths) ts = Ok (s', h', ths') /\ binv css s' h' ths'.
  Proof using HK.
    induction ts as [|t ts IH]; intros s h ths I; [exists s, h, ths; auto|]. cbn [run_threads]. destruct (thread_ok css s h ths t I) as (s1 & h1 & ths1 & E & I1 & _). rewrite E. cbn [bind]. apply IH, I1.
  Qed.
  Lemma not_ended ths : Forall ended ths \/ exists t th, nth_error ths t = Some th /\ ~ ended th.
  Proof using.
    induction ths as [|th ths IH]; [left; apply Forall_nil|]. assert (ended th \/ ~ ended th) as [D|D].
    { unfold ended. destruct (todo th); [|right; intros [H _]; discriminate H]. destruct (current th); [right; intros [_ H]; discriminate H|left; auto]. }
    - destruct IH as [H|(t & x & E & H)]; [left; apply Forall_cons; assumption|right; exists (S t), x; auto].
    - right. exists 0%nat, th. auto.
  Qed.
  Lemma finishes css w : forall s h ths, binv css s h ths -> (total ths < w)%nat -> exists us s' h' ths', run_threads true k (s, h, ths) us = Ok (s', h', ths') /\ Forall ended ths' /\ binv css s' h' ths'.
  Proof using HK.
    induction w as [|w IH]; intros s h ths I L; [lia|]. destruct (not_ended ths) as [D|(t & th & E & D)]; [exists [], s, h, ths; auto|].
    assert (exists u, h = Some u \/ (h = None /\ exists th, nth_error ths u = Some th /\ todo th <> [])) as (u & Hu).
    { destruct h as [u|]; [exists u; auto|]. exists t. right. split; [reflexivity|]. exists th. split; [exact E|]. intros T. apply D. split; [exact T|].
      destruct (b_thr _ _ _ _ I t th E) as [[C _]|[C _]]; [exact C|discriminate C]. }
    destruct (thread_ok css s h ths u I) as (s1 & h1 & ths1 & E1 & I1 & W). specialize (W Hu). destruct (IH s1 h1 ths1 I1 ltac:(lia)) as (us & s2 & h2 & ths2 & E2 & D2 & I2).
    exists (u :: us), s2, h2, ths2. cbn [run_threads]. rewrite E1. auto.
  Qed.
  Lemma start_ok css : Forall (good_calls k) css -> binv css fresh_object None (map starting css).
  Proof using.
    intros G. constructor.
    - intros t th E. left. apply nth_error_In, in_map_iff in E as (cs & <- & _). split; [reflexivity|discriminate].
    - intros t th E. apply nth_error_In, in_map_iff in E as (cs & <- & H). rewrite Forall_forall in G. split; [apply Forall_nil|exact (G cs H)].
    - intros _. left. reflexivity.
    - discriminate.
    - rewrite map_map. rewrite <- map_id. apply map_ext. reflexivity.
  Qed.
  Lemma run_threads_app m ts us : forall x, run_threads m k x (ts ++ us) = (y <- run_threads m k x ts ;; run_threads m k y us).
  Proof using. induction ts as [|t ts IH]; intros x; [reflexivity|]. cbn [run_threads app]. destruct (thread_step m k x t); cbn [bind]; [apply IH|reflexivity..]. Qed.
End Key.

Theorem invert_mutex k css ts : tdp_key k -> Forall (good_calls k) css -> exists s h ths,
  run_threads true k (fresh_object, None, map starting css) ts = Ok (s, h, ths) /\ Forall (fun th => Forall (right k) (results th)) ths.
Proof.
  intros HK G. destruct (threads_ok k HK css ts _ _ _ (start_ok k css G)) as (s & h & ths & E & I). exists s, h, ths. split; [exact E|].
  apply Forall_forall. intros th H. apply In_nth_error in H as (t & Et). exact (proj1 (b_res _ _ _ _ _ I t th Et)).
Qed.
Theorem invert_mutex_finishes k css ts : tdp_key k -> Forall (good_calls k) css -> exists us s h ths,
  run_threads true k (fresh_object, None, map starting css) (ts ++ us) = Ok (s, h, ths) /\ Forall ended ths /\
  Forall2 (fun cs th => map fst (rev (results th)) = cs /\ Forall (right k) (results th)) css ths.
Proof.
  intros HK G. destruct (threads_ok k HK css ts _ _ _ (start_ok k css G)) as (s & h & ths & E & I). destruct (finishes k HK css _ s h ths I (Nat.lt_succ_diag_r _)) as (us & s' & h' & ths' & E' & D' & I').
  exists us, s', h', ths'. split; [rewrite run_threads_app, E; exact E'|]. split; [exact D'|]. rewrite <- (b_all _ _ _ _ _ I').
  assert (Forall (fun th => Forall (right k) (results th)) ths') as R by (apply Forall_forall; intros th H; apply In_nth_error in H as (t & Et); exact (proj1 (b_res _ _ _ _ _ I' t th Et))).
  clear - D' R. induction D' as [|th ths [T C] _ IH]; [constructor|]. inversion R as [|? ? R1 R2]; subst. cbn [map]. constructor; [|exact (IH R2)]. split; [|exact R1].
  unfold calls_of. rewrite T, C. cbn [app]. rewrite app_nil_r, map_rev. reflexivity.
Qed.

(** Without a mutex: thread 1 squares Vi between the two squarings of thread 0. *)
Definition two (i : nat) (n : Z) : Z := if n <=? 0 then 0 else 2.
Lemma two_odd n : Z.odd n = true -> Z.gcd 2 n = 1.
Proof.
  intros O. apply Zgcd_1_rel_prime. destruct (rel_prime_dec 2 n) as [R|R]; [exact R|]. exfalso. apply R. apply prime_rel_prime; [exact prime_2|]. intros D.
  destruct D as [q ->]. rewrite Z.odd_mul in O. cbn in O. rewrite Bool.andb_false_r in O. discriminate O.
Qed.
Lemma two_good k : tdp_key k -> rng_good (key_N k) two.
Proof.
  intros HK. split.
  - intros i n H. unfold two. destruct (Z.leb_spec n 0) as [L|L]; [replace n with 0 by lia; cbn; lia|]. split; [lia|]. pose proof (Z.pow_le_mono_r 256 1 n ltac:(lia) ltac:(lia)). lia.
  - exists 0%nat. split; [lia|]. change (two 0 255) with 2. pose proof (N_odd k (proj1 (facts k HK))) as O. apply two_odd, O.
Qed.
Lemma run_cons m k x t y ts z : thread_step m k x t = Ok y -> run_threads m k y ts = z -> run_threads m k x (t :: ts) = z.
Proof. intros E H. cbn [run_threads]. rewrite E. exact H. Qed.
Lemma begin_step k s h ths t th c cs : nth_error ths t = Some th -> current th = None -> todo th = c :: cs ->
  thread_step false k (s, h, ths) t = Ok (s, Some t, put ths t {| todo := cs; current := Some (c, Start); results := results th |}).
Proof. intros E C T. unfold thread_step. rewrite E, C, T. reflexivity. Qed.
Lemma call_step m k s h ths t th c p s' p' : nth_error ths t = Some th -> current th = Some (c, p) -> (forall r, p <> Done r) -> place_step k c s p = Ok (s', p') ->
  thread_step m k (s, h, ths) t = Ok (s', h, put ths t {| todo := todo th; current := Some (c, p'); results := results th |}).
Proof. intros E C ND H. unfold thread_step. rewrite E, C. destruct p; try (rewrite H; reflexivity). exact (False_ind _ (ND _ eq_refl)). Qed.
Lemma end_step m k s h ths t th c r : nth_error ths t = Some th -> current th = Some (c, Done r) ->
  thread_step m k (s, h, ths) t = Ok (s, None, put ths t {| todo := todo th; current := None; results := (c, r) :: results th |}).
Proof. intros E C. unfold thread_step. rewrite E, C. reflexivity. Qed.
Definition schedule : list nat := [0; 0; 0; 0; 0; 0; 0; 0; 0; 0; 0; 0; 0; 0; 1; 1; 1; 1; 0; 0; 0; 0; 0]%nat.
Lemma shared_wrong k : tdp_key k -> exists s h th0 th1 y, run_threads false k (fresh_object, None, map starting [[(two, 1); (two, 1)]; [(two, 1)]]) schedule = Ok (s, h, [th0; th1]) /\
  hd_error (results th0) = Some ((two, 1), inr y) /\ ~ right k ((two, 1), inr y).
Proof.
  intros HK. pose proof (N1 k HK) as HN. pose proof (facts k HK) as (F & FP & FQ & HB). destruct (two_good k HK) as [Hr _]. assert (4 < key_N k) as H4.
  { destruct (bits2048_facts _ HB) as (_ & N2 & _). unfold bits2048 in HB. pose proof (Z.pow_le_mono_r 2 3 2047 ltac:(lia) ltac:(lia)). lia. }
  assert (Z.gcd 2 (key_N k) = 1) as G by (apply two_odd, (N_odd k F)).
  assert (0 < key_E k) as HE by (destruct F as [kP kQ kN oP oQ kE kR kqp kDP kDQ]; lia).
  destruct (inv_mod_ok 2 (key_N k) HN G) as (v & Ev & Bv & Hv). set (vi := v ^ key_E k mod key_N k).
  assert (pair_ok k vi 2) as P.
  { unfold pair_ok, vi. rewrite (mul_mod_eq _ (v ^ key_E k) _ (2 ^ key_E k)) by (first [reflexivity|apply Zmod_mod]). rewrite <- Z.pow_mul_l. rewrite Zpower_mod by lia. rewrite (Z.mul_comm v), Hv.
    rewrite Z.pow_1_l by lia. apply Z.mod_small. lia. }
  destruct (power_ok k HK (two, 1) vi 1 Hr) as (y1 & E1 & R1). set (vi2 := (vi * vi) mod key_N k). set (vi4 := (vi2 * vi2) mod key_N k).
  destruct (power_ok k HK (two, 1) vi4 0 Hr) as (y2 & E2 & R2). cbn [snd] in *.
  assert (forall s, place_step k (two, 1) s Start = Ok (s, match Vf s with Some _ => SquareVi | None => Fill 11 0 end)) as St by (intros s; cbn [place_step snd]; rewrite (proj2 (Z.leb_gt _ _)) by lia; reflexivity).
  assert (forall a b, chk a (mpi_mod b (key_N k)) = chk a (ret (b mod key_N k))) as Mo by (intros a b; rewrite mod_ok by lia; reflexivity).
  pose proof (N_odd k F) as HO.
  eexists _, _, _, _, ((y2 * 4) mod key_N k). split.
  { unfold schedule. cbn [map starting].
    eapply run_cons; [eapply begin_step; reflexivity|]. cbn [put firstn skipn app results].
    eapply run_cons; [eapply call_step; [reflexivity|reflexivity|discriminate|apply St]|]. cbn [put firstn skipn app results todo Vf fresh_object].
    eapply run_cons; [eapply call_step; [reflexivity|reflexivity|discriminate|cbn [place_step fst]; rewrite (len256 k HK); change (two 0 (256 - 1)) with 2; reflexivity]|]. cbn [put firstn skipn app results todo Vi].
    eapply run_cons; [eapply call_step; [reflexivity|reflexivity|discriminate|cbn [place_step Vf value]; unfold mpi_gcd; rewrite (proj2 (Z.eqb_neq (key_N k) 0)), G by lia; reflexivity]|]. cbn [put firstn skipn app results todo Vf].
    eapply run_cons; [eapply call_step; [reflexivity|reflexivity|discriminate|reflexivity]|]. cbn [put firstn skipn app results todo Vi Vf Z.eqb Pos.eqb].
    eapply run_cons; [eapply call_step; [reflexivity|reflexivity|discriminate|cbn [place_step Vf value]; rewrite Ev; reflexivity]|]. cbn [put firstn skipn app results todo Vi Vf].
    eapply run_cons; [eapply call_step; [reflexivity|reflexivity|discriminate|cbn [place_step Vi Vf value]; rewrite exp_mod_ok by (first [exact HO|lia]); reflexivity]|]. cbn [put firstn skipn app results todo Vi Vf]. fold vi.
    eapply run_cons; [eapply call_step; [reflexivity|reflexivity|discriminate|cbn [place_step Vi Vf value]; rewrite E1; reflexivity]|]. cbn [put firstn skipn app results todo Vi Vf].
    eapply run_cons; [eapply call_step; [reflexivity|reflexivity|discriminate|cbn [place_step Vi Vf value]; rewrite Mo; reflexivity]|]. cbn [put firstn skipn app results todo Vi Vf].
    eapply run_cons; [eapply end_step; reflexivity|]. cbn [put firstn skipn app results todo].
    eapply run_cons; [eapply begin_step; reflexivity|]. cbn [put firstn skipn app results].
    eapply run_cons; [eapply call_step; [reflexivity|reflexivity|discriminate|apply St]|]. cbn [put firstn skipn app results todo Vf].
    eapply run_cons; [eapply call_step; [reflexivity|reflexivity|discriminate|reflexivity]|]. cbn [put firstn skipn app results todo Vi Vf].
    eapply run_cons; [eapply call_step; [reflexivity|reflexivity|discriminate|cbn [place_step Vi Vf value]; rewrite Mo; reflexivity]|]. cbn [put firstn skipn app results todo Vi Vf]. fold vi2.
    eapply run_cons; [eapply begin_step; reflexivity|]. cbn [put firstn skipn app results].
    eapply run_cons; [eapply call_step; [reflexivity|reflexivity|discriminate|apply St]|]. cbn [put firstn skipn app results todo Vf].
    eapply run_cons; [eapply call_step; [reflexivity|reflexivity|discriminate|reflexivity]|]. cbn [put firstn skipn app results todo Vi Vf].
    eapply run_cons; [eapply call_step; [reflexivity|reflexivity|discriminate|cbn [place_step Vi Vf value]; rewrite Mo; reflexivity]|]. cbn [put firstn skipn app results todo Vi Vf]. fold vi4.
    eapply run_cons; [eapply call_step; [reflexivity|reflexivity|discriminate|reflexivity]|]. cbn [put firstn skipn app results todo Vi Vf value]. change (2 * 2) with 4.
    eapply run_cons; [eapply call_step; [reflexivity|reflexivity|discriminate|cbn [place_step Vi Vf value]; rewrite Mo; reflexivity]|]. cbn [put firstn skipn app results todo Vi Vf]. rewrite (Z.mod_small 4) by lia.
    eapply run_cons; [eapply call_step; [reflexivity|reflexivity|discriminate|cbn [place_step Vi Vf value]; rewrite E2; reflexivity]|]. cbn [put firstn skipn app results todo Vi Vf].
    eapply run_cons; [eapply call_step; [reflexivity|reflexivity|discriminate|cbn [place_step Vi Vf value]; rewrite Mo; reflexivity]|]. cbn [put firstn skipn app results todo Vi Vf].
    eapply run_cons; [eapply end_step; reflexivity|]. cbn [put firstn skipn app results todo]. reflexivity. }
  split; [reflexivity|]. intros (_ & By & Ey). cbn [fst snd] in Ey.
  apply (unblind_root k HK 1 vi4 4) in R2. destruct R2 as [_ R2]. rewrite Ey in R2.
  (* the result is the root of vi * vi *)
  assert ((1 * vi4 * 4 ^ key_E k) mod key_N k = (vi * vi) mod key_N k) as Q.
  { rewrite (mul_mod_eq _ (vi * vi * (vi * vi)) _ (2 ^ key_E k * 2 ^ key_E k)).
    - replace (vi * vi * (vi * vi) * (2 ^ key_E k * 2 ^ key_E k)) with (vi * vi * ((vi * 2 ^ key_E k) * (vi * 2 ^ key_E k))) by ring.
      rewrite Zmult_mod, (Zmult_mod (vi * 2 ^ key_E k)). unfold pair_ok in P. rewrite P. change (1 * 1) with 1. rewrite (Z.mod_small 1), Z.mul_1_r by lia. apply Zmod_mod.
    - rewrite Z.mul_1_l. unfold vi4, vi2. rewrite Zmod_mod. symmetry. apply Zmult_mod.
    - change 4 with (2 * 2). rewrite Z.pow_mul_l. reflexivity. }
  rewrite Q in R2. assert (root k 1 4) as R4.
  { split; [lia|]. change 4 with (2 * 2). rewrite Z.pow_mul_l. transitivity ((vi * vi * (2 ^ key_E k * 2 ^ key_E k)) mod key_N k).
    - rewrite (Zmult_mod (vi * vi)), <- R2, Z.mul_1_l, Zmod_mod. reflexivity.
    - replace (vi * vi * (2 ^ key_E k * 2 ^ key_E k)) with ((vi * 2 ^ key_E k) * (vi * 2 ^ key_E k)) by ring. rewrite Zmult_mod. unfold pair_ok in P. rewrite P. reflexivity. }
  assert (root k 1 1) as R1' by (split; [lia|rewrite Z.pow_1_l by lia; reflexivity]). pose proof (root_unique k F FP FQ 1 4 1 R4 R1'). lia.
Qed.
