(** Sequences of calls on an object of limbs *)
From Coq Require Import Lia ZifyBool Znumtheory.
From Verif Require Import Base BaseFacts MpiModel MpiProofs LimbModel LimbModel2 LimbSpec LimbSpec2 LimbProofs LimbProofs2 LimbProofs3 LimbProofs19 LimbProofs20 LimbProofs21 LimbProofs23 LimbProofs24 LimbProofs25 LimbProofs26 LimbProofs27 LimbProofs28 LimbProofs29
  RsaKeyModel RsaKeySpec AsnProofs5 RsaKeyProofs TdpKeyModel TdpModel TdpSpec TdpProofs TdpProofs2 TdpProofs3 TdpProofs4 LimbRsaModel LimbRsaSpec LimbKeyModel.

Lemma random_same f n : random_bytes f n -> same_random f n (rnd_of f n).
Proof. intros R i k _. destruct (R i k) as (bs & E & B & L). exists bs. unfold rnd_of. rewrite Nat2Z.id, E. now repeat split. Qed.
Lemma random_ok f n : random_bytes f n -> rng_ok (rnd_of f n).
Proof.
  intros R i k K. unfold rnd_of. destruct (R i (Z.to_nat k)) as (bs & -> & B & L). pose proof (be_decode_range bs B) as H. unfold zlen in H. rewrite L, Z2Nat.id in H by exact K. exact H.
Qed.
Lemma eval_set c g inp c' y : l_tdp_eval c g inp = Ok (c', y) -> exists RN, c' = set_R c RN (c_RP c) (c_RQ c).
Proof.
  intros H. unfold l_tdp_eval in H. destruct (negb _); [discriminate|]. destruct (throw_if_err (l_read_binary l_init inp)) as [x| | | |]; try discriminate. cbn [bind] in H. destruct (throw_if_err (l_mod true x x (c_N c))) as [x1| | | |]; try discriminate. cbn [bind] in H.
  destruct (throw_if_err (l_exp_mod true x1 x1 (c_E c) (c_N c) (Some (c_RN c)))) as [xr| | | |]; try discriminate. cbn [bind] in H. destruct (l_write_array (fst xr) g); try discriminate. injection H as <- _. now eexists.
Qed.
Lemma eval_priv c k bl g inp c' y : ctx_priv c k bl -> is_bytes inp -> zlen inp <= 8000 -> l_tdp_eval c g inp = Ok (c', y) -> ctx_priv c' k bl.
Proof.
  intros (C1 & C2) B L H. pose proof (proj2 (eval_refines c _ g inp C1 B L) c' y H) as C1'. destruct (eval_set _ _ _ _ _ H) as (RN & ->). split; [exact C1'|]. exact C2.
Qed.
Section Obj.
  Variable k : rsa_key.
  Hypothesis PK : private_ok k.
  Variables P1 Q1 : mpi.
  Hypothesis R1 : rep 1001 P1 (key_P k - 1).
  Hypothesis R2 : rep 1001 Q1 (key_Q k - 1).
  Lemma do_refines c bl o : ctx_priv c k bl -> op_ok o -> snd (l_do P1 Q1 c o) = snd (k_do k bl o) /\ ctx_priv (fst (l_do P1 Q1 c o)) k (fst (k_do k bl o)).
  Proof using PK R1 R2.
    intros C OK. destruct o as [g inp|f n g inp|inp order|f n|prf]; cbn [l_do k_do op_ok] in *.
    - destruct OK as [B L]. destruct (eval_refines c (key_pub k) g inp (proj1 C) B L) as [E _]. unfold after. cbn [fst snd]. split; [exact E|]. destruct (l_tdp_eval c g inp) as [[c' y]| | | |] eqn:EE; try exact C. now apply (eval_priv c k bl g inp c' y).
    - destruct OK as [B R]. apply invert_refines; [exact C | now apply private_sane | now apply random_same | exact B].
    - destruct OK as [B L]. destruct (invert_mult_rep c k bl P1 Q1 inp order C PK R1 R2 B L) as [E K]. unfold after. cbn [fst snd]. split; [exact E|]. destruct (l_tdp_invert_mult c P1 Q1 inp order) as [[c' y]| | | |] eqn:EE; try exact C. now apply (K c' y).
    - cbn [fst snd]. split; [|exact C]. apply sample_refines; [apply C | now apply random_same].
    - cbn [fst snd]. split; [|exact C]. destruct OK as [B L]. now apply (generate_refines c (key_pub k) prf (proj1 C)).
  Qed.
  Lemma run_refines : forall os c bl, ctx_priv c k bl -> Forall op_ok os -> snd (run (l_do P1 Q1) c os) = snd (run (k_do k) bl os) /\ ctx_priv (fst (run (l_do P1 Q1) c os)) k (fst (run (k_do k) bl os)).
  Proof using PK R1 R2.
    induction os as [|o os IH]; intros c bl C F; [split; [reflexivity | exact C]|]. apply Forall_cons_iff in F. destruct F as [OK F]. cbn [run]. destruct (do_refines c bl o C OK) as [E C'].
    destruct (l_do P1 Q1 c o) as [c1 r1], (k_do k bl o) as [bl1 r1']. cbn [fst snd] in E, C'. subst r1'. specialize (IH c1 bl1 C' F). destruct (run (l_do P1 Q1) c1 os) as [c2 r2], (run (k_do k) bl1 os) as [bl2 r2']. cbn [fst snd] in *. destruct IH as [-> C2]. now split.
  Qed.
End Obj.
(** The blinding pair after a sequence *)
Definition inverts (os : list l_op) : list tdp_call :=
  flat_map (fun o => match o with OpInvert f n g inp => [{| call_string := false; call_rnd := rnd_of f n; call_buf := g; call_input := inp |}] | _ => [] end) os.
Lemma run_inverts k : forall os bl, fst (run (k_do k) bl os) = tdp_run k bl (inverts os).
Proof.
  induction os as [|o os IH]; intros bl; [reflexivity|]. cbn [run]. destruct o as [g inp|f n g inp|inp order|f n|prf]; cbn [k_do inverts flat_map app tdp_run].
  2: { unfold tdp_do at 1. cbn [call_string call_rnd call_buf call_input]. destruct (tdp_invert k (rnd_of f n) g bl inp) as [bl' r]. cbn [fst]. specialize (IH bl'). destruct (run (k_do k) bl' os). exact IH. }
  all: specialize (IH bl); destruct (run (k_do k) bl os); exact IH.
Qed.
Lemma inverts_good k : forall os, Forall op_ok os -> Forall (op_good k) os -> Forall (good_call (key_N k)) (inverts os).
Proof.
  induction os as [|o os IH]; intros F G; [constructor|]. apply Forall_cons_iff in F, G. destruct F as [F1 F], G as [G1 G]. specialize (IH F G). destruct o as [g inp|f n g inp|inp order|f n|prf]; cbn [inverts flat_map app]; try exact IH.
  destruct F1 as [B R], G1 as (L1 & L2 & I). constructor; [|exact IH]. split; [split; [now apply random_ok | exact I]|]. split; [exact L1|]. split; [exact B|]. intros _. exact L2.
Qed.
Section Text.
  Variable alloc : Z -> bool.
  Lemma text_run s k os : is_bytes s -> zlen s <= 7999 -> tdp_from_private alloc s = Ok k -> Forall op_ok os ->
    exists c P1 Q1, l_tdp_from_private alloc s = Ok (c, (P1, Q1)) /\ snd (run (l_do P1 Q1) c os) = snd (run (k_do k) None os).
  Proof.
    intros B L E F. pose proof (from_private_refines alloc s B L) as H. rewrite E in H. destruct H as (c & P1 & Q1 & E1 & E2 & C & _ & PK). exists c, P1, Q1. split; [exact E1|].
    pose proof PK as (_ & P & Q & _). destruct (p1_q1_ok c k None C P Q) as (P1' & Q1' & E3 & R1 & R2). rewrite E2 in E3. injection E3 as <- <-. now apply (run_refines k PK P1 Q1 R1 R2 os c None C F).
  Qed.
  Lemma text_inverse s k os f n g g' x : is_bytes s -> zlen s <= 7999 -> tdp_from_private alloc s = Ok k -> tdp_key k -> Forall op_ok os -> Forall (op_good k) os ->
    random_bytes f n -> (exists i, (i < 11)%nat /\ Z.gcd (rnd_of f n i 255) (key_N k) = 1) -> zlen g = 256 -> zlen g' = 256 -> 0 <= x < key_N k ->
    exists c P1 Q1 c1 y c2, l_tdp_from_private alloc s = Ok (c, (P1, Q1)) /\ fst (run (l_do P1 Q1) c os) = c1 /\
      y = message (x ^ key_E k mod key_N k) /\ l_tdp_eval c1 g (message x) = Ok (c2, y) /\ snd (l_tdp_invert c2 f n g' y) = Ok (message x).
  Proof.
    intros B L E TK F G R I Lg Lg' X. pose proof (from_private_refines alloc s B L) as H. rewrite E in H. destruct H as (c & P1 & Q1 & E1 & E2 & C & _ & PK).
    pose proof PK as (_ & P & Q & _). destruct (p1_q1_ok c k None C P Q) as (P1' & Q1' & E3 & R1 & R2). rewrite E2 in E3. injection E3 as <- <-. destruct (run_refines k PK P1 Q1 R1 R2 os c None C F) as [_ C1]. rewrite run_inverts in C1.
    pose proof (invert_eval k TK (inverts os) (rnd_of f n) g g' x (inverts_good k os F G) (conj (random_ok f n R) I) Lg Lg' X) as (y & EV & INV).
    destruct (eval_refines _ (key_pub k) g (message x) (proj1 C1) (message_bytes x) ltac:(rewrite message_len; lia)) as [EE _]. rewrite EV in EE.
    destruct (l_tdp_eval (fst (run (l_do P1 Q1) c os)) g (message x)) as [[c2 y']| | | |] eqn:EL; try discriminate. cbn [drop] in EE. injection EE as ->.
    pose proof (eval_priv _ k _ g (message x) c2 y C1 (message_bytes x) ltac:(rewrite message_len; lia) EL) as C2.
    rewrite eval_key in EV by (first [exact TK|apply message_bytes|apply message_len|assumption]). rewrite message_decode in EV by (destruct (key_small k TK); lia). injection EV as EV.
    exists c, P1, Q1, (fst (run (l_do P1 Q1) c os)), y, c2. split; [exact E1|]. split; [reflexivity|]. split; [symmetry; exact EV|]. split; [exact EL|].
    destruct (invert_refines c2 k _ f n (rnd_of f n) g' y C2 (private_sane k PK) (random_same f n R) ltac:(rewrite <- EV; apply message_bytes)) as [-> _]. exact INV.
  Qed.
End Text.
