(** The generation of keys on limbs *)
From Coq Require Import Lia Znumtheory.
From Verif Require Import Base BaseFacts MpiModel MpiProofs LimbModel LimbModel2 LimbSpec LimbSpec2 LimbSpec3 LimbProofs LimbProofs2 LimbProofs3 LimbProofs4 LimbProofs5 LimbProofs6 LimbProofs9 LimbProofs11 LimbProofs12 LimbProofs13 LimbProofs14 LimbProofs16 LimbProofs17 LimbProofs18 LimbProofs19 LimbProofs20 LimbProofs21 LimbProofs22 LimbProofs24 RsaKeyModel TdpKeyModel TdpModel TdpProofs RsaKeySpec LimbRsaModel LimbRsaSpec.

Lemma private_sane k : private_ok k -> key_sane k.
Proof.
  intros ((NO & EO & NB & EB) & P1 & Q1 & NPQ & _ & _ & DP & DQ & _). cbn [key_pub pub_N pub_E] in *.
  assert (Z.odd (key_P k) = true /\ Z.odd (key_Q k) = true) as [PO QO] by (rewrite NPQ, Z.odd_mul in NO; now apply andb_prop in NO).
  assert (1 < key_N k) as N1 by (rewrite NPQ; clear - P1 Q1; nia).
  assert (1 <= mpi_size (key_N k) <= 1024) as SZ. { split; [apply size_pos; lia|]. apply size_le; [lia | lia|]. change (256 ^ 1024) with (2 ^ 8192). exact (proj2 NB). }
  assert (3 <= key_P k) by (destruct (Z.eq_dec (key_P k) 2) as [E|]; [rewrite E in PO; discriminate | lia]).
  assert (3 <= key_Q k) by (destruct (Z.eq_dec (key_Q k) 2) as [E|]; [rewrite E in QO; discriminate | lia]).
  clear NB. unfold key_sane. split; [exact N1|]. split; [exact NO|]. split; [exact SZ|]. split; [lia|]. split; [lia|]. split; [exact PO|]. split; [lia|]. split; [exact QO|].
  rewrite DP, DQ. split; apply Z.mod_pos_bound; lia.
Qed.

(** * Primes: how long they are *)
Lemma gen_loop_len f m fuel : forall X c X' c', mpi_ok X -> 0 < mval X -> mlen X <= 128 -> (m <= 128)%nat -> mval X + 2 * Z.of_nat fuel < LB ^ Z.of_nat m ->
  LimbModel2.gen_loop fuel f X c = Ok (inr X', c') -> mlen X' <= 128 /\ mval X <= mval X' /\ mpi_ok X'.
Proof.
  induction fuel as [|fuel IH]; intros X c X' c' HX PX LX M B H; [discriminate|]. cbn [LimbModel2.gen_loop] in H. destruct (l_is_prime f X c) as [[r c1]| | | |]; try discriminate. cbn [bind fst snd] in H. destruct r as [e|[]].
  - destruct (e =? ERR_MPI_NOT_ACCEPTABLE); [|discriminate]. destruct (add_two X HX PX ltac:(lia)) as (X1 & E1 & O1 & M1 & L1). unfold rm_bind, rm_lift in H. rewrite E1 in H. cbn [bind fst snd ret] in H.
    assert (sig (mp X1) <= m)%nat as S1. { apply sig_abs_bound; [exact O1|]. rewrite M1. lia. }
    destruct (IH X1 c1 X' c' O1 ltac:(lia) ltac:(unfold mlen, zlen in *; lia) M ltac:(lia) H) as (L & G & O). split; [exact L|]. split; [lia | exact O].
  - injection H as <- _. split; [exact LX|]. split; [lia | exact HX].
Qed.
(** One number from mbedtls_mpi_gen_prime *)
Lemma gen_prime_step f pf nbits X c : rng_ok f -> mpi_ok X -> mlen X <= 128 -> 3 <= nbits <= 8000 -> Z.of_nat pf <= 2 ^ 8000 ->
  l_gen_prime pf f X nbits c = Diverge \/ exists r c', l_gen_prime pf f X nbits c = Ok (r, c') /\
    match r with
    | inl e => e = ERR_MPI_BAD_INPUT_DATA \/ exists sz, rng_fails f sz c c' e
    | inr X' => mpi_ok X' /\ mlen X' <= 128 /\ 1 < mval X' /\ candidate f nbits (mval X')
    end.
Proof.
  intros Hf HX LX BN FB. assert (Z.of_nat pf <= LB ^ 128) as FB'. { eapply Z.le_trans; [exact FB|]. change (LB ^ 128) with (2 ^ 8192). apply Z.pow_le_mono_r; lia. }
  destruct (gen_prime_ok f X nbits Hf HX LX ltac:(lia) pf c FB') as [D | (r & c' & E & H)]; [now left|]. right. exists r, c'. split; [exact E|]. destruct r as [e|X']; [exact H|].
  destruct (gen_found_f f X nbits pf c Hf HX LX ltac:(lia) X' c' FB' E) as (O & OD & GE & (c1 & C1 & EP) & _).
  assert (2 ^ 2 <= 2 ^ (nbits - 1)) as P2 by (apply Z.pow_le_mono_r; lia). change (2 ^ 2) with 4 in P2.
  split; [exact O|]. split; [|split; [lia|]; split; [exact OD|]; split; [exact GE|]; exists X', c1, c'; split; [exact O|]; split; [reflexivity | exact EP]].
  pose proof (gen_prepare f X nbits Hf HX LX ltac:(lia) pf c) as GP. pose proof (Hf c (gen_bytes nbits)) as Hb. destruct (f c (gen_bytes nbits)) as [e|b]; [rewrite GP in E; discriminate|].
  destruct GP as (Y & EY & OY & MY & LY). rewrite EY in E. destruct (start_range nbits (be_decode b) ltac:(lia) (proj1 (be_decode_range b (proj1 Hb)))) as [SB _]. rewrite <- MY in SB.
  apply (gen_loop_len f 128 pf Y (S c) X' c' OY ltac:(lia)) in E; [apply E | unfold mlen, zlen; lia | lia|].
  assert (2 ^ nbits <= 2 ^ 8000) as NB by (apply Z.pow_le_mono_r; lia). change (Z.of_nat 128) with 128. assert (3 * 2 ^ 8000 < LB ^ 128) as BB by (apply Z.ltb_lt; vm_compute; reflexivity).
  revert FB NB BB SB. generalize (2 ^ 8000) (LB ^ 128) (2 ^ nbits) (2 ^ (nbits - 1)). lia.
Qed.

Lemma s_dec X A : mpi_ok X -> mpi_ok A -> mlen X < 10000 -> mlen A < 10000 -> 0 < mval A ->
  wp (l_sub_int false X A 1) (fun R => mpi_ok R /\ mval R = mval A - 1 /\ mlen R <= Z.max 1 (Z.max (mlen X) (mlen A))).
Proof.
  intros HX HA LX LA P. unfold l_sub_int. destruct (sint_ok 1 ltac:(lia)) as (B & EB & OB & MB & LB'). rewrite EB. cbn [bind].
  eapply wp_mono; [apply sub_ok; [exact HX | exact HA | exact OB | discriminate | discriminate | exact LX | exact LA | unfold mlen, zlen; rewrite LB'; lia]|].
  cbv beta. intros R (O & M & L & _). split; [exact O|]. rewrite MB in M. split; [exact M|]. pose proof (abs_lt_len A (mlen A) HA ltac:(lia)) as BA.
  assert (Z.of_nat (sig (mp R)) <= mlen A) by (apply zsig; [exact O | apply mlen_nonneg | lia]). unfold mlen, zlen in *. lia.
Qed.

(** * The loop *)
Definition gen_inv (s : gen_st) : Prop :=
  mpi_ok (g_P s) /\ mpi_ok (g_Q s) /\ mpi_ok (g_N s) /\ mpi_ok (g_P1 s) /\ mpi_ok (g_Q1 s) /\ mpi_ok (g_H s) /\ mpi_ok (g_G s) /\
  mlen (g_P s) <= 128 /\ mlen (g_Q s) <= 128 /\ mlen (g_N s) <= 256 /\ mlen (g_P1 s) <= 129 /\ mlen (g_Q1 s) <= 129 /\ mlen (g_H s) <= 258 /\ mlen (g_G s) <= 258.
(** What the loop leaves when it ends *)
Definition gen_done (s : gen_st) (N P Q H : Z) : Prop :=
  mval (g_N s) = N /\ mval (g_P s) = P /\ mval (g_Q s) = Q /\ mval (g_P1 s) = P - 1 /\ mval (g_Q1 s) = Q - 1 /\ mval (g_H s) = H /\
  N = P * Q /\ 1 < P /\ 1 < Q /\ H = (P - 1) * (Q - 1) /\ 1 <= mlen (g_N s).
Definition steps (nbits e : Z) (p q : Z) : option (Z * Z * Z * Z) :=
  if p =? q then None else if negb (mpi_bitlen (p * q) =? nbits) then None
  else let '(p', q') := if p <? q then (q, p) else (p, q) in if mpi_gcd e ((p' - 1) * (q' - 1)) =? 1 then Some (p * q, p', q', (p' - 1) * (q' - 1)) else None.
Lemma gen_loop_cons p q cand nbits e : TdpModel.gen_loop ((p, q) :: cand) nbits e = match steps nbits e p q with Some r => Ok r | None => TdpModel.gen_loop cand nbits e end.
Proof.
  cbn [TdpModel.gen_loop]. unfold steps. destruct (p =? q); [reflexivity|]. destruct (negb _); [reflexivity|]. destruct (p <? q); destruct (_ =? 1); reflexivity.
Qed.
Ltac inv_tac := unfold gen_inv; cbn [g_P g_Q g_N g_P1 g_Q1 g_H g_G]; repeat (split; [assumption || lia|]); (assumption || lia).
Section Key.
  Context (f : rng) (pf : nat) (nbits : Z) (E : mpi) (e : Z).
  Hypothesis Hf : rng_ok f.
  Hypothesis BN : 128 <= nbits <= 8192.
  Hypothesis FB : Z.of_nat pf <= 2 ^ 8000.
  Hypothesis OE : mpi_ok E. Hypothesis ME : mval E = e. Hypothesis LE : mlen E <= 1.
  Notation from_rng := (from_rng f).
  Lemma half : 3 <= nbits / 2 <= 8000.
  Proof using BN. clear - BN. assert (64 <= nbits / 2) by (apply Z.div_le_lower_bound; lia). assert (nbits / 2 < 4097) by (apply Z.div_lt_upper_bound; lia). lia. Qed.
  Lemma fails_le c1 c2 c1' c2' er : (c1' <= c1)%nat -> (c2 <= c2')%nat -> from_rng c1 c2 er -> from_rng c1' c2' er.
  Proof. intros A B [H | (sz & i & I & H)]; [now left | right; exists sz, i; split; [lia | exact H]]. Qed.
  Lemma gen_step_ok s c : gen_inv s ->
    gen_step pf f nbits E s c = Diverge \/ exists r c', gen_step pf f nbits E s c = Ok (r, c') /\
      match r with
      | inl er => exists c0, from_rng c0 c' er
      | inr s' => gen_inv s' /\ exists p q, candidate f (nbits / 2) p /\ candidate f (nbits / 2) q /\
          match steps nbits e p q with
          | Some (N, P, Q, H) => mval (g_G s') = 1 /\ gen_done s' N P Q H
          | None => mval (g_G s') = mval (g_G s) \/ mval (g_G s') <> 1
          end
      end.
  Proof using All.
    intros (O1 & O2 & O3 & O4 & O5 & O6 & O7 & L1 & L2 & L3 & L4 & L5 & L6 & L7). pose proof half as HB. remember (gen_step pf f nbits E s c) as L eqn:HL. unfold gen_step in HL.
    destruct (gen_prime_step f pf (nbits / 2) (g_P s) c Hf O1 L1 HB FB) as [D | (r & c1 & EP & HP)]; [left; unfold rm_bind at 1 in HL; rewrite D in HL; exact HL|]. unfold rm_bind at 1 in HL. rewrite EP in HL. cbn [bind fst snd] in HL. clear EP.
    destruct r as [er|P]; [right; exists (inl er), c1; split; [exact HL | exists c; exact HP]|]. destruct HP as (OP & LP & P1 & CP).
    destruct (gen_prime_step f pf (nbits / 2) (g_Q s) c1 Hf O2 L2 HB FB) as [D | (r & c2 & EQ & HQ)]; [left; unfold rm_bind at 1 in HL; rewrite D in HL; exact HL|]. unfold rm_bind at 1 in HL. rewrite EQ in HL. cbn [bind fst snd] in HL. clear EQ.
    destruct r as [er|Q]; [right; exists (inl er), c2; split; [exact HL | exists c1; exact HQ]|]. destruct HQ as (OQ & LQ & Q1 & CQ).
    clear FB. right. unfold rm_bind at 1, rm_lifto at 1 in HL. rewrite cmp_ok in HL by assumption. cbn [bind fst snd] in HL. rewrite cmp3_eq, cmp3_lt in HL.
    assert (forall s', gen_inv s' -> match steps nbits e (mval P) (mval Q) with Some (N, P, Q, H) => mval (g_G s') = 1 /\ gen_done s' N P Q H | None => mval (g_G s') = mval (g_G s) \/ mval (g_G s') <> 1 end ->
      gen_inv s' /\ exists p q, candidate f (nbits / 2) p /\ candidate f (nbits / 2) q /\ match steps nbits e p q with Some (N, P, Q, H) => mval (g_G s') = 1 /\ gen_done s' N P Q H | None => mval (g_G s') = mval (g_G s) \/ mval (g_G s') <> 1 end) as WRAP.
    { intros s' I H. split; [exact I|]. exists (mval P), (mval Q). split; [exact CP|]. split; [exact CQ | exact H]. }
    destruct (Z.compare_spec (mval P) (mval Q)) as [C|C|C].
    - eexists; exists c2. split; [exact HL|]. apply WRAP; [inv_tac|]. unfold steps. rewrite C, Z.eqb_refl. now left.
    - set (sw := true). destruct (s_mul false false (g_N s) P Q O3 OP OQ ltac:(discriminate) ltac:(discriminate) ltac:(lia)) as (N & EN & ON & MN & LN & _). pose proof (zsig_len P) as Z1. pose proof (zsig_len Q) as Z2.
      assert (1 <= mlen N <= 256) as KN by (clear - LN Z1 Z2 LP LQ L3; lia). clear LN Z1 Z2.
      unfold rm_bind at 1, rm_lift at 1 in HL. rewrite EN in HL. cbn [bind fst snd ret] in HL. unfold rm_bind at 1, rm_lifto at 1 in HL. rewrite s_bitlen in HL by exact ON. cbn [bind fst snd] in HL. rewrite MN in HL.
      destruct (Z.eqb_spec (mpi_bitlen (mval P * mval Q)) nbits) as [B|B]; cbn [negb] in HL.
      2: { eexists; exists c2. split; [exact HL|]. apply WRAP; [inv_tac|]. unfold steps. destruct (Z.eqb_spec (mval P) (mval Q)); [lia|]. destruct (Z.eqb_spec (mpi_bitlen (mval P * mval Q)) nbits); [contradiction|]. now left. }
      destruct (s_dec (g_P1 s) Q O4 OQ ltac:(lia) ltac:(lia) ltac:(lia)) as (A & EA & OA & MA & LA). assert (mlen A <= 129) as KA by (clear - LA LQ L4; lia). clear LA.
      destruct (s_dec (g_Q1 s) P O5 OP ltac:(lia) ltac:(lia) ltac:(lia)) as (B' & EB & OB & MB & LB'). assert (mlen B' <= 129) as KB by (clear - LB' LP L5; lia). clear LB'.
      destruct (s_mul false false (g_H s) A B' O6 OA OB ltac:(discriminate) ltac:(discriminate) ltac:(lia)) as (H & EH & OH & MH & LH & _). pose proof (zsig_len A) as Z1. pose proof (zsig_len B') as Z2. assert (1 <= mlen H <= 258) as KH by (clear - LH Z1 Z2 KA KB L6; lia). clear LH Z1 Z2.
      destruct (gcd_ok (g_G s) E H O7 OE OH ltac:(lia) ltac:(lia)) as (G & EG & OG & MG & LG). assert (mlen G <= 258) as KG by (clear - LG KH L7; lia). clear LG. rewrite gcd_mpi, ME in MG.
      unfold rm_bind at 1, rm_lift at 1 in HL. rewrite EA in HL. cbn [bind fst snd ret] in HL. unfold rm_bind at 1, rm_lift at 1 in HL. rewrite EB in HL. cbn [bind fst snd ret] in HL. unfold rm_bind at 1, rm_lift at 1 in HL. rewrite EH in HL. cbn [bind fst snd ret] in HL. unfold rm_bind at 1, rm_lift at 1 in HL. rewrite EG in HL. cbn [bind fst snd ret] in HL.
      eexists; exists c2. split; [exact HL|]. apply WRAP; [inv_tac|]. unfold steps. destruct (Z.eqb_spec (mval P) (mval Q)); [lia|]. destruct (Z.eqb_spec (mpi_bitlen (mval P * mval Q)) nbits); [|contradiction]. cbn [negb].
      destruct (Z.ltb_spec (mval P) (mval Q)); [|lia]. rewrite MA, MB in MH. rewrite MH in MG. destruct (Z.eqb_spec (mpi_gcd e ((mval Q - 1) * (mval P - 1))) 1) as [G1|G1]; cbn [g_G]; [|right; rewrite MG; exact G1].
      split; [now rewrite MG|]. unfold gen_done. cbn [g_N g_P g_Q g_P1 g_Q1 g_H]. rewrite MN. repeat (split; [assumption || reflexivity || lia|]). lia.
    - set (sw := false). destruct (s_mul false false (g_N s) P Q O3 OP OQ ltac:(discriminate) ltac:(discriminate) ltac:(lia)) as (N & EN & ON & MN & LN & _). pose proof (zsig_len P) as Z1. pose proof (zsig_len Q) as Z2.
      assert (1 <= mlen N <= 256) as KN by (clear - LN Z1 Z2 LP LQ L3; lia). clear LN Z1 Z2.
      unfold rm_bind at 1, rm_lift at 1 in HL. rewrite EN in HL. cbn [bind fst snd ret] in HL. unfold rm_bind at 1, rm_lifto at 1 in HL. rewrite s_bitlen in HL by exact ON. cbn [bind fst snd] in HL. rewrite MN in HL.
      destruct (Z.eqb_spec (mpi_bitlen (mval P * mval Q)) nbits) as [B|B]; cbn [negb] in HL.
      2: { eexists; exists c2. split; [exact HL|]. apply WRAP; [inv_tac|]. unfold steps. destruct (Z.eqb_spec (mval P) (mval Q)); [lia|]. destruct (Z.eqb_spec (mpi_bitlen (mval P * mval Q)) nbits); [contradiction|]. now left. }
      destruct (s_dec (g_P1 s) P O4 OP ltac:(lia) ltac:(lia) ltac:(lia)) as (A & EA & OA & MA & LA). assert (mlen A <= 129) as KA by (clear - LA LP L4; lia). clear LA.
      destruct (s_dec (g_Q1 s) Q O5 OQ ltac:(lia) ltac:(lia) ltac:(lia)) as (B' & EB & OB & MB & LB'). assert (mlen B' <= 129) as KB by (clear - LB' LQ L5; lia). clear LB'.
      destruct (s_mul false false (g_H s) A B' O6 OA OB ltac:(discriminate) ltac:(discriminate) ltac:(lia)) as (H & EH & OH & MH & LH & _). pose proof (zsig_len A) as Z1. pose proof (zsig_len B') as Z2. assert (1 <= mlen H <= 258) as KH by (clear - LH Z1 Z2 KA KB L6; lia). clear LH Z1 Z2.
      destruct (gcd_ok (g_G s) E H O7 OE OH ltac:(lia) ltac:(lia)) as (G & EG & OG & MG & LG). assert (mlen G <= 258) as KG by (clear - LG KH L7; lia). clear LG. rewrite gcd_mpi, ME in MG.
      unfold rm_bind at 1, rm_lift at 1 in HL. rewrite EA in HL. cbn [bind fst snd ret] in HL. unfold rm_bind at 1, rm_lift at 1 in HL. rewrite EB in HL. cbn [bind fst snd ret] in HL. unfold rm_bind at 1, rm_lift at 1 in HL. rewrite EH in HL. cbn [bind fst snd ret] in HL. unfold rm_bind at 1, rm_lift at 1 in HL. rewrite EG in HL. cbn [bind fst snd ret] in HL.
      eexists; exists c2. split; [exact HL|]. apply WRAP; [inv_tac|]. unfold steps. destruct (Z.eqb_spec (mval P) (mval Q)); [lia|]. destruct (Z.eqb_spec (mpi_bitlen (mval P * mval Q)) nbits); [|contradiction]. cbn [negb].
      destruct (Z.ltb_spec (mval P) (mval Q)); [lia|]. rewrite MA, MB in MH. rewrite MH in MG. destruct (Z.eqb_spec (mpi_gcd e ((mval P - 1) * (mval Q - 1))) 1) as [G1|G1]; cbn [g_G]; [|right; rewrite MG; exact G1].
      split; [now rewrite MG|]. unfold gen_done. cbn [g_N g_P g_Q g_P1 g_Q1 g_H]. rewrite MN. repeat (split; [assumption || reflexivity || lia|]). lia.
  Qed.
  Lemma gen_steps_ok fuel : forall s c, gen_inv s -> mval (g_G s) <> 1 ->
    gen_steps fuel pf f nbits E s c = Diverge \/ exists r c', gen_steps fuel pf f nbits E s c = Ok (r, c') /\
      match r with
      | inl er => exists c0, from_rng c0 c' er
      | inr s' => gen_inv s' /\ exists cand N P Q H, Forall (fun pq => candidate f (nbits / 2) (fst pq) /\ candidate f (nbits / 2) (snd pq)) cand /\
          TdpModel.gen_loop cand nbits e = Ok (N, P, Q, H) /\ gen_done s' N P Q H
      end.
  Proof using All.
    induction fuel as [|fuel IH]; intros s c I G; [now left|]. remember (gen_steps (S fuel) pf f nbits E s c) as L eqn:HL. cbn [gen_steps] in HL. unfold rm_bind at 1 in HL.
    pose proof (gen_step_ok s c I) as ST. destruct ST as [D | (r & c1 & ES & H)]; [left; rewrite D in HL; exact HL|]. rewrite ES in HL. cbn [bind fst snd] in HL. clear ES.
    destruct r as [er|s1]; [right; exists (inl er), c1; split; [exact HL | exact H]|]. destruct H as (I1 & p & q & CP & CQ & H).
    pose proof I1 as (_ & _ & _ & _ & _ & _ & OG & _). unfold rm_bind at 1, rm_lifto at 1 in HL. rewrite cmp_int_ok in HL by (exact OG || lia). cbn [bind fst snd] in HL. rewrite cmp3_eq in HL.
    destruct (steps nbits e p q) as [[[[N P] Q] HH]|] eqn:SP.
    - destruct H as [G1 DN]. rewrite G1 in HL. cbn [Z.compare Pos.compare Pos.compare_cont] in HL. right. exists (inr s1), c1. split; [exact HL|]. split; [exact I1|]. exists [(p, q)], N, P, Q, HH.
      split; [constructor; [split; assumption | constructor]|]. split; [rewrite gen_loop_cons, SP; reflexivity | exact DN].
    - assert (mval (g_G s1) <> 1) as G1 by (destruct H; congruence). assert (L = gen_steps fuel pf f nbits E s1 c1) as HL2 by (destruct (Z.compare_spec (mval (g_G s1)) 1) as [Q|Q|Q]; [contradiction | exact HL | exact HL]). rewrite HL2.
      destruct (IH s1 c1 I1 G1) as [D | (r & c' & ER & HR)]; [now left|]. right. exists r, c'. split; [exact ER|]. destruct r as [er|s']; [exact HR|].
      destruct HR as (I' & cand & N & P & Q' & HH & FA & EG & DN). split; [exact I'|]. exists ((p, q) :: cand), N, P, Q', HH. split; [constructor; [split; assumption | exact FA]|]. split; [rewrite gen_loop_cons, SP; exact EG | exact DN].
  Qed.
End Key.

(** The whole function *)
Lemma gen_key_ok fuel pf f nbits exponent n : rng_ok f -> nbits <= 8192 -> Z.of_nat pf <= 2 ^ 8000 -> exponent < 2 ^ 31 ->
  l_rsa_gen_key fuel pf f nbits exponent n = Diverge \/ exists r n', l_rsa_gen_key fuel pf f nbits exponent n = Ok (r, n') /\
    match r with
    | inl er => (n' = n /\ forall cand, rsa_gen_key cand nbits exponent = err er) \/ (exists c0 e, from_rng f c0 n' e /\ er = ERR_RSA_KEY_GEN_FAILED + e) \/
        exists cand, Forall (fun pq => candidate f (nbits / 2) (fst pq) /\ candidate f (nbits / 2) (snd pq)) cand /\ rsa_gen_key cand nbits exponent = err er
    | inr c => exists cand k, Forall (fun pq => candidate f (nbits / 2) (fst pq) /\ candidate f (nbits / 2) (snd pq)) cand /\ rsa_gen_key cand nbits exponent = ret k /\ ctx_priv c k None
    end.
Proof.
  intros Hf BN FB BE. remember (l_rsa_gen_key fuel pf f nbits exponent n) as L eqn:HL. unfold l_rsa_gen_key in HL.
  destruct ((nbits <? 128) || (exponent <? 3)) eqn:C1.
  { right. exists (inl ERR_RSA_BAD_INPUT_DATA), n. split; [exact HL|]. left. split; [reflexivity|]. intros cand. unfold rsa_gen_key. rewrite C1. reflexivity. }
  destruct (negb (nbits mod 2 =? 0)) eqn:C2'.
  { right. exists (inl ERR_RSA_BAD_INPUT_DATA), n. split; [exact HL|]. left. split; [reflexivity|]. intros cand. unfold rsa_gen_key. rewrite C1, C2'. reflexivity. }
  apply orb_false_iff in C1. destruct C1 as [N1 E3]. apply Z.ltb_ge in N1, E3.
  destruct (lset_ok l_init exponent init_ok ltac:(split; [|eapply Z.lt_trans; [exact BE|]; reflexivity]; lia)) as (E & EE & OE & ME & PE & _). cbn [l_init mp length Nat.sub repeat] in PE.
  assert (mlen E = 1) as LE by (unfold mlen; rewrite PE; reflexivity).
  unfold rm_err_add in HL. unfold rm_bind at 1, rm_lift at 1 in HL. rewrite EE in HL. cbn [bind fst snd ret] in HL.
  assert (gen_inv (MkGen l_init l_init l_init l_init l_init l_init l_init)) as I0. { unfold gen_inv. cbn [g_P g_Q g_N g_P1 g_Q1 g_H g_G]. change (mlen l_init) with 0. repeat (split; [exact init_ok || lia|]). lia. }
  destruct (gen_steps_ok f pf nbits E exponent Hf (conj N1 BN) FB OE ME ltac:(lia) fuel _ n I0 ltac:(discriminate)) as [D | (r & c1 & ES & H)].
  { left. unfold rm_bind at 1 in HL. rewrite D in HL. exact HL. }
  unfold rm_bind at 1 in HL. rewrite ES in HL. cbn [bind fst snd] in HL. clear ES FB. right. destruct r as [e|s].
  { cbn [bind fst snd] in HL. exists (inl (ERR_RSA_KEY_GEN_FAILED + e)), c1. split; [exact HL|]. right. left. destruct H as (c0 & H). exists c0, e. split; [exact H | reflexivity]. }
  destruct H as ((O1 & O2 & O3 & O4 & O5 & O6 & O7 & L1 & L2 & L3 & L4 & L5 & L6 & L7) & cand & N & P & Q & HH & FA & EG & (D1 & D2 & D3 & D4 & D5 & D6 & D7 & D8 & D9 & D10 & D11)).
  assert (agrees (D <-? l_inv_mod l_init E (g_H s) ;; DP <-? l_mod false l_init D (g_P1 s) ;; DQ <-? l_mod false l_init D (g_Q1 s) ;; QP <-? l_inv_mod l_init (g_Q s) (g_P s) ;; bn <- l_bitlen (g_N s) ;;
      ret (MkCtx (Z.shiftr (bn + 7) 3) (g_N s) E D (g_P s) (g_Q s) DP DQ QP l_init l_init l_init l_init l_init))
    (D <-? mpi_inv_mod exponent HH ;; DP <-? mpi_mod D (P - 1) ;; DQ <-? mpi_mod D (Q - 1) ;; QP <-? mpi_inv_mod Q P ;;
      ret {| key_N := N; key_E := exponent; key_D := D; key_P := P; key_Q := Q; key_DP := DP; key_DQ := DQ; key_QP := QP |}) (fun c k => ctx_priv c k None)) as AG.
  { assert (mlen l_init = 0) as L0 by reflexivity. rewrite <- ME, <- D6. eapply agrees_bind; [apply (agrees_inv _ _ _ 259); [exact init_ok | exact OE | exact O6 | lia | lia | lia | lia]|]. intros D d ((OD & MD & LD) & ND). specialize (mlen_nonneg D) as LD0. apply mlen_nonnil in ND.
    rewrite <- MD, <- D4. eapply agrees_bind; [apply (agrees_mod _ _ _ _ 259); [exact init_ok | exact OD | exact O4 | discriminate | lia | lia | lia | lia | lia]|]. intros DP dp ((ODP & MDP & LDP) & NDP).
    rewrite <- D5. eapply agrees_bind; [apply (agrees_mod _ _ _ _ 259); [exact init_ok | exact OD | exact O5 | discriminate | lia | lia | lia | lia | lia]|]. intros DQ dq ((ODQ & MDQ & LDQ) & NDQ).
    rewrite <- D2, <- D3. pose proof (agrees_inv l_init (g_Q s) (g_P s) 259 init_ok O2 O1 ltac:(lia) ltac:(lia) ltac:(lia) ltac:(lia)) as AQ. eapply agrees_bind; [exact AQ|]. intros QP qp ((OQP & MQP & LQP) & NQP). apply mlen_nonnil in NQP.
    rewrite s_bitlen by exact O3. cbn [bind]. unfold agrees, ret. eexists. split; [reflexivity|].
    assert (1 <= mlen DP) as NDP1 by (apply mlen_nonnil, NDP, mlen_nonnil, ND). assert (1 <= mlen DQ) as NDQ1 by (apply mlen_nonnil, NDQ, mlen_nonnil, ND).
    assert (1 <= mlen (g_P s)) as NP by (apply mlen_nonnil, nonnil_val; lia). assert (1 <= mlen (g_Q s)) as NQ by (apply mlen_nonnil, nonnil_val; lia).
    assert (forall X, cache_ok X (Some l_init)) as CI by (intros X; split; [exact init_ok|]; split; [cbn; lia | now left]).
    unfold ctx_priv, ctx_pub, holds, holds_blinding. cbn [c_len c_N c_E c_D c_P c_Q c_DP c_DQ c_QP c_RN c_RP c_RQ c_Vi c_Vf key_pub pub_N pub_E key_N key_E key_D key_P key_Q key_DP key_DQ key_QP rsa_len].
    change (mlen l_init) with 0. unfold rsa_len, mpi_size. cbn [pub_N]. rewrite D1, Z.shiftr_div_pow2 by lia. change (2 ^ 3) with 8.
    repeat match goal with |- _ /\ _ => split | |- _ => first [reflexivity | apply CI | assumption | exact init_ok | lia] end. }
  unfold agrees in AG. remember (D <-? mpi_inv_mod exponent HH ;; DP <-? mpi_mod D (P - 1) ;; DQ <-? mpi_mod D (Q - 1) ;; QP <-? mpi_inv_mod Q P ;;
      ret {| key_N := N; key_E := exponent; key_D := D; key_P := P; key_Q := Q; key_DP := DP; key_DQ := DQ; key_QP := QP |}) as ti eqn:TI.
  assert (rsa_gen_key cand nbits exponent = err_add ERR_RSA_KEY_GEN_FAILED ti) as RG. { unfold rsa_gen_key. destruct (Z.ltb_spec nbits 128); [lia|]. destruct (Z.ltb_spec exponent 3); [lia|]. cbn [orb]. rewrite C2', EG. cbn [bind]. rewrite TI. reflexivity. }
  assert (L = match (D <-? l_inv_mod l_init E (g_H s) ;; DP <-? l_mod false l_init D (g_P1 s) ;; DQ <-? l_mod false l_init D (g_Q1 s) ;; QP <-? l_inv_mod l_init (g_Q s) (g_P s) ;; bn <- l_bitlen (g_N s) ;;
      ret (MkCtx (Z.shiftr (bn + 7) 3) (g_N s) E D (g_P s) (g_Q s) DP DQ QP l_init l_init l_init l_init l_init)) with Ok (inl e) => Ok (inl (ERR_RSA_KEY_GEN_FAILED + e), c1) | Ok (inr c) => Ok (inr c, c1) | Throw x => Throw x | UB => UB | Abort => Abort | Diverge => Diverge end) as HL2.
  { rewrite HL. unfold rm_bind, rm_lift, rm_lifto, bindr. destruct (l_inv_mod l_init E (g_H s)) as [[e|D]| | | |]; try reflexivity. cbn [bind fst snd]. destruct (l_mod false l_init D (g_P1 s)) as [[e|DP]| | | |]; try reflexivity. cbn [bind fst snd].
    destruct (l_mod false l_init D (g_Q1 s)) as [[e|DQ]| | | |]; try reflexivity. cbn [bind fst snd]. destruct (l_inv_mod l_init (g_Q s) (g_P s)) as [[e|QP]| | | |]; try reflexivity. cbn [bind fst snd]. destruct (l_bitlen (g_N s)); reflexivity. }
  clear HL TI. destruct ti as [[e|k]| | | |]; try contradiction.
  - rewrite AG in HL2. exists (inl (ERR_RSA_KEY_GEN_FAILED + e)), c1. split; [exact HL2|]. right. right. exists cand. split; [exact FA | exact RG].
  - destruct AG as (c & AC & AP). rewrite AC in HL2. exists (inr c), c1. split; [exact HL2|]. exists cand, k. split; [exact FA|]. split; [exact RG | exact AP].
Qed.
