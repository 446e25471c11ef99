(** Lists of named data: entries and blocks. *)
From Coq Require Import Lia ZifyBool Permutation.
From Verif Require Import Base BaseFacts HeapModel HeapProofs NamedModel NamedSpec.

Definition wf0 (h : heap) : Prop := NoDup (map fst (cells h)) /\ Forall (fun c => 0 < fst c < next_addr h) (cells h) /\ 0 < next_addr h.
Lemma in_lookup h a l : wf0 h -> In (a, l) (cells h) -> lookup (cells h) a = Some l.
Proof. intros [N _] H. apply lookup_in; assumption. Qed.
Lemma null_lookup h : wf0 h -> lookup (cells h) 0 = None.
Proof.
  intros [_ [A _]]. induction (cells h) as [|[x l] c IH]; [reflexivity|]. inversion A; subst. cbn [lookup fst] in *. replace (x =? 0) with false by lia. apply IH. assumption.
Qed.
Lemma ld h a l n : wf0 h -> In (a, l) (cells h) -> (n <= length l)%nat -> load h a n = Ok (firstn n l).
Proof. intros W H L. unfold load. rewrite (in_lookup h a l W H). apply Nat.leb_le in L. rewrite L. reflexivity. Qed.
Lemma perm_in {A} (c : list A) x rest : Permutation c (x :: rest) -> In x c.
Proof. intros P. eapply Permutation_in; [apply Permutation_sym; exact P|left; reflexivity]. Qed.
Lemma sv h a l rest d : wf0 h -> Permutation (cells h) ((a, l) :: rest) -> (length d <= length l)%nat ->
  exists h', save h a d = Ok h' /\ wf0 h' /\ Permutation (cells h') ((a, d ++ skipn (length d) l) :: rest) /\ calls h' = calls h.
Proof.
  intros [N [A Q]] P L. unfold save. rewrite (lookup_perm _ _ _ _ N P). apply Nat.leb_le in L. rewrite L.
  pose proof (store_perm _ _ _ (d ++ skipn (length d) l) _ N P) as P2. eexists. split; [reflexivity|]. split; [|repeat split; exact P2]. unfold wf0. cbn.
  split; [|split; [|assumption]].
  - apply (perm_nodup ((a, d ++ skipn (length d) l) :: rest)); [apply Permutation_sym; exact P2|]. apply (perm_nodup _ _ P) in N. exact N.
  - eapply Permutation_Forall; [apply Permutation_sym; exact P2|]. apply (Permutation_Forall P) in A. inversion A; subst. constructor; assumption.
Qed.
Lemma rl h a l rest : wf0 h -> Permutation (cells h) ((a, l) :: rest) ->
  exists h', release h a = Ok h' /\ wf0 h' /\ Permutation (cells h') rest /\ calls h' = calls h.
Proof.
  intros [N [A Q]] P. assert (a <> 0) as Ha. { apply (Permutation_Forall P) in A. inversion A; subst. cbn [fst] in *. lia. }
  unfold release. replace (a =? 0) with false by lia. rewrite (lookup_perm _ _ _ _ N P). pose proof (remove_perm _ _ _ _ N P) as P2.
  eexists. split; [reflexivity|]. split; [|repeat split; exact P2]. unfold wf0. cbn. apply (perm_nodup _ _ P) in N. cbn [map fst] in N. inversion N as [|? ? N1 N2]; subst. apply (Permutation_Forall P) in A. inversion A; subst.
  split; [|split; [|assumption]].
  - apply (perm_nodup rest); [apply Permutation_sym; exact P2|exact N2].
  - eapply Permutation_Forall; [apply Permutation_sym; exact P2|assumption].
Qed.
Section Ora.
Variable ora : nat -> bool.
Lemma cl h n rest : wf0 h -> Permutation (cells h) rest ->
  exists h', calls h' = S (calls h) /\ wf0 h' /\
    ((ora (calls h) = true /\ exists p, p <> 0 /\ calloc ora h n = (p, h') /\ Permutation (cells h') ((p, repeat 0 n) :: rest)) \/
     (ora (calls h) = false /\ calloc ora h n = (0, h') /\ Permutation (cells h') rest)).
Proof.
  intros [N [A Q]] P. unfold calloc. destruct (ora (calls h)).
  - eexists (MkHeap _ _ _ _). split; [|split; [|left; split; [reflexivity|]; exists (next_addr h); split; [lia|]; split; [reflexivity|]; cbn; constructor; exact P]]; [reflexivity|].
    unfold wf0. cbn. split; [|split; [|lia]].
    + constructor; [|exact N]. intros H. apply in_map_iff in H. destruct H as [[x l] [E1 H]]. cbn in E1. subst x. rewrite Forall_forall in A. specialize (A _ H). cbn in A. lia.
    + constructor; [cbn; lia|]. eapply Forall_impl; [|exact A]. cbn. intros; lia.
  - eexists (MkHeap _ _ _ _). split; [|split; [|right; split; [reflexivity|]; split; [reflexivity|]; exact P]]; [reflexivity|]. unfold wf0. cbn. repeat split; assumption.
Qed.
End Ora.
Lemma gf h a f i : wf0 h -> In (a, f) (cells h) -> length f = 5%nat -> get_field h a i = Ok (nth i f 0).
Proof. intros W H L. unfold get_field. rewrite (ld h a f 5 W H) by lia. cbn [bind]. rewrite firstn_all2 by lia. reflexivity. Qed.
Lemma sf h a f rest i v : wf0 h -> Permutation (cells h) ((a, f) :: rest) -> length f = 5%nat -> (i < 5)%nat ->
  exists h', set_field h a i v = Ok h' /\ wf0 h' /\ Permutation (cells h') ((a, firstn i f ++ v :: skipn (S i) f) :: rest) /\ calls h' = calls h.
Proof.
  intros W P L Hi. unfold set_field. rewrite (ld h a f 5 W (perm_in _ _ _ P)) by lia. cbn [bind]. rewrite (firstn_all2 f) by lia.
  assert (length (firstn i f ++ v :: skipn (S i) f) = 5%nat) as L2 by (rewrite app_length, firstn_length; cbn [length]; rewrite skipn_length; lia).
  destruct (sv h a f rest (firstn i f ++ v :: skipn (S i) f) W P) as (h' & E & W' & P' & C'); [lia|]. exists h'. rewrite L2 in P'. rewrite (@skipn_all2 Z 5 f) in P' by lia. rewrite app_nil_r in P'. split; [exact E|]. split; [exact W'|]. split; assumption.
Qed.

(** * Lists *)
Record ent := MkEnt { ea : Z; eop : Z; eoid : bytes; evp : Z; evl : bytes }.
Definition headof (es : list ent) (nxt : Z) : Z := match es with e :: _ => ea e | [] => nxt end.
Definition node (e : ent) (nxt : Z) : list Z := [zlen (eoid e); eop e; zlen (evl e); evp e; nxt].
Fixpoint blocks (es : list ent) (nxt : Z) : list (Z * list Z) :=
  match es with
  | [] => []
  | e :: es => (ea e, node e (headof es nxt)) :: (eop e, eoid e) :: (evp e, evl e) :: blocks es nxt
  end.
Definition pair_of (e : ent) : bytes * bytes := (eoid e, evl e).
Definition inv (h : heap) (head : Z) (es : list ent) : Prop := wf0 h /\ Permutation (cells h) (blocks es 0) /\ head = headof es 0 /\ NoDup (map eoid es).
Lemma blocks_app a b n : blocks (a ++ b) n = blocks a (headof b n) ++ blocks b n.
Proof. induction a as [|e a IH]; [reflexivity|]. cbn [app blocks]. rewrite IH. replace (headof (a ++ b) n) with (headof a (headof b n)) by (destruct a; reflexivity). reflexivity. Qed.
Lemma blocks_length es n : length (blocks es n) = (3 * length es)%nat.
Proof. induction es as [|e es IH]; [reflexivity|]. cbn [blocks length]. rewrite IH. lia. Qed.
Definition among (h : heap) (es : list ent) : Prop := forall x, In x (blocks es 0) -> In x (cells h).
Lemma among_inv h head es : inv h head es -> among h es.
Proof. intros (_ & P & _) x H. eapply Permutation_in; [apply Permutation_sym; exact P|exact H]. Qed.
Lemma inv_length h head es : inv h head es -> length (cells h) = (3 * length es)%nat.
Proof. intros (_ & P & _). rewrite (Permutation_length P). apply blocks_length. Qed.
Lemma among_tl h e es : among h (e :: es) -> among h es.
Proof. intros A x H. apply A. cbn [blocks]. right. right. right. exact H. Qed.
Lemma among_hd h e es : among h (e :: es) -> In (ea e, node e (headof es 0)) (cells h) /\ In (eop e, eoid e) (cells h) /\ In (evp e, evl e) (cells h).
Proof. intros A. split; [|split]; apply A; cbn [blocks In]; auto. Qed.
Lemma addr_pos h a l : wf0 h -> In (a, l) (cells h) -> a <> 0.
Proof. intros [_ [A _]] H. rewrite Forall_forall in A. specialize (A _ H). cbn in A. lia. Qed.
Lemma entries_ok h : wf0 h -> forall es fuel, (length es <= fuel)%nat -> among h es -> entries fuel h (headof es 0) = map pair_of es.
Proof.
  intros W. induction es as [|e es IH]; intros fuel L A.
  - cbn [headof]. destruct fuel; cbn [entries]; [reflexivity|]. rewrite (null_lookup h W). reflexivity.
  - destruct fuel as [|fuel]; [cbn in L; lia|]. destruct (among_hd _ _ _ A) as (A1 & A2 & A3). cbn [headof entries]. rewrite (in_lookup h _ _ W A1). unfold node. rewrite (in_lookup h _ _ W A2), (in_lookup h _ _ W A3).
    cbn [map]. f_equal. apply IH; [cbn in L; lia|exact (among_tl _ _ _ A)].
Qed.
Lemma contents_ok h head es : inv h head es -> contents h head = map pair_of es.
Proof.
  intros I. pose proof (inv_length _ _ _ I) as L. pose proof (among_inv _ _ _ I) as A. destruct I as (W & P & -> & N). unfold contents. apply entries_ok; [exact W|lia|exact A].
Qed.
(** Finding *)
Fixpoint lookfor (es : list ent) (oid : bytes) : Z := match es with [] => 0 | e :: es => if bytes_eqb (eoid e) oid then ea e else lookfor es oid end.
Lemma find_ok h oid : wf0 h -> forall es fuel, (length es < fuel)%nat -> among h es -> nd_find fuel h (headof es 0) oid = Ok (lookfor es oid).
Proof.
  intros W. induction es as [|e es IH]; intros fuel L A; (destruct fuel as [|fuel]; [cbn in L; lia|]); [reflexivity|].
  destruct (among_hd _ _ _ A) as (A1 & A2 & A3). cbn [headof nd_find lookfor]. pose proof (addr_pos h _ _ W A1). replace (ea e =? 0) with false by lia.
  rewrite (gf h _ _ f_oid_len W A1 eq_refl), (gf h _ _ f_oid_p W A1 eq_refl), (gf h _ _ f_next W A1 eq_refl). cbn [bind nth node f_oid_len f_oid_p f_next].
  destruct (bytes_eqb (eoid e) oid) eqn:B.
  - apply bytes_eqb_spec in B. rewrite B, Z.eqb_refl, (ld h _ _ _ W A2) by (rewrite B; lia). cbn [bind]. rewrite B, firstn_all. replace (bytes_eqb oid oid) with true by (symmetry; apply bytes_eqb_spec; reflexivity). reflexivity.
  - destruct (Z.eqb_spec (zlen (eoid e)) (zlen oid)) as [Z1|Z1].
    + assert (length oid = length (eoid e)) as Z2 by (unfold zlen in Z1; lia). rewrite (ld h _ _ _ W A2) by lia. cbn [bind]. rewrite Z2, firstn_all, B. apply IH; [cbn in L; lia|exact (among_tl _ _ _ A)].
    + cbn [bind]. apply IH; [cbn in L; lia|exact (among_tl _ _ _ A)].
Qed.
(** Freeing *)
Lemma free_list_ok : forall es h fuel rest, (length es < fuel)%nat -> wf0 h -> Permutation (cells h) (blocks es 0 ++ rest) -> exists h', nd_free_list fuel h (headof es 0) = Ok (h', 0) /\ wf0 h' /\ Permutation (cells h') rest.
Proof.
  induction es as [|e es IH]; intros h fuel rest L W P; (destruct fuel as [|fuel]; [cbn in L; lia|]).
  - exists h. split; [reflexivity|]. split; assumption.
  - cbn [headof nd_free_list]. cbn [blocks app] in P. pose proof (perm_in _ _ _ P) as A1. pose proof (addr_pos h _ _ W A1). replace (ea e =? 0) with false by lia. rewrite (gf h _ _ f_next W A1 eq_refl). cbn [bind nth node f_next].
    unfold nd_free. replace (ea e =? 0) with false by lia. rewrite (gf h _ _ f_oid_p W A1 eq_refl). cbn [bind nth node f_oid_p].
    destruct (rl h (eop e) (eoid e) ((ea e, node e (headof es 0)) :: (evp e, evl e) :: blocks es 0 ++ rest) W) as (h1 & E1 & W1 & P1 & _); [rewrite P; apply perm_swap|]. rewrite E1. cbn [bind].
    rewrite (gf h1 _ _ f_val_p W1 (perm_in _ _ _ P1) eq_refl). cbn [bind nth node f_val_p].
    destruct (rl h1 (evp e) (evl e) ((ea e, node e (headof es 0)) :: blocks es 0 ++ rest) W1) as (h2 & E2 & W2 & P2 & _); [rewrite P1; apply perm_swap|]. rewrite E2. cbn [bind].
    destruct (sv h2 _ _ _ (repeat 0 5) W2 P2) as (h3 & E3 & W3 & P3 & _); [cbn; lia|]. rewrite E3. cbn [bind].
    destruct (rl h3 _ _ _ W3 P3) as (h4 & E4 & W4 & P4 & _). rewrite E4. cbn [bind]. apply IH; [cbn in L; lia|exact W4|exact P4].
Qed.
