(** Lists of named data: storing. *)
From Coq Require Import Lia ZifyBool Permutation.
From Verif Require Import Base BaseFacts HeapModel HeapSpec HeapProofs NamedModel NamedSpec NamedProofs.

Definition over (v : option bytes) (n : nat) (room : bytes) : bytes := match v with Some d => firstn n d ++ skipn n room | None => room end.
Lemma write_ok h cur f vp room rest v n : wf0 h -> Permutation (cells h) ((cur, f) :: (vp, room) :: rest) -> length f = 5%nat -> nth f_val_p f 0 = vp -> (Z.to_nat n <= length room)%nat -> store_ok (@nil Z, v, n) ->
  exists h', match v with Some d => d <- rd d 0 n ;; p <- get_field h cur f_val_p ;; save h p d | None => Ok h end = Ok h' /\ wf0 h' /\ Permutation (cells h') ((cur, f) :: (vp, over v (Z.to_nat n) room) :: rest) /\ calls h' = calls h.
Proof.
  intros W P L Ef Hn [H0 Hv]. destruct v as [d|]; [|exists h; split; [reflexivity|]; split; [exact W|]; split; [exact P|reflexivity]].
  rewrite (rd_ok d 0 n) by lia. cbn [bind]. rewrite (gf h cur f f_val_p W (perm_in _ _ _ P) L), Ef. cbn [bind]. unfold window. cbn [Z.to_nat skipn].
  assert (length (firstn (Z.to_nat n) d) = Z.to_nat n) as Ld by (apply firstn_length_le; unfold zlen in Hv; lia).
  destruct (sv h vp room ((cur, f) :: rest) (firstn (Z.to_nat n) d) W) as (h' & E & W' & P' & C'); [rewrite P; apply perm_swap|lia|]. exists h'. split; [exact E|]. split; [exact W'|]. split; [|exact C']. rewrite P', Ld. apply perm_swap.
Qed.
Lemma beq_refl x : bytes_eqb x x = true.
Proof. apply bytes_eqb_spec. reflexivity. Qed.
Lemma split_oid oid : forall es,
  (value_of (map pair_of es) oid = None /\ lookfor es oid = 0 /\ ~ In oid (map eoid es)) \/
  exists es1 e es2, es = es1 ++ e :: es2 /\ eoid e = oid /\ lookfor es oid = ea e /\ value_of (map pair_of es) oid = Some (evl e) /\
    forall e', eoid e' = oid -> map pair_of (es1 ++ e' :: es2) = set_value (map pair_of es) oid (evl e') /\ lookfor (es1 ++ e' :: es2) oid = ea e'.
Proof.
  induction es as [|e es IH]; [left; repeat split; intros []|]. cbn [map value_of pair_of lookfor set_value]. destruct (bytes_eqb (eoid e) oid) eqn:B.
  - right. exists [], e, es. pose proof B as B2. apply bytes_eqb_spec in B2. split; [reflexivity|]. split; [exact B2|]. split; [reflexivity|]. split; [reflexivity|]. intros e' E. cbn [app map lookfor]. rewrite E, beq_refl. split; [|reflexivity]. unfold pair_of at 1. rewrite E, B2. reflexivity.
  - destruct IH as [(V & L & N)|(es1 & e0 & es2 & E & Eo & L & V & F)].
    + left. split; [exact V|]. split; [exact L|]. intros [H|H]; [|exact (N H)]. rewrite H, beq_refl in B. discriminate B.
    + right. exists (e :: es1), e0, es2. split; [rewrite E; reflexivity|]. split; [exact Eo|]. split; [exact L|]. split; [exact V|]. intros e' E'. destruct (F e' E') as [F1 F2]. cbn [app map lookfor]. rewrite B, F1. split; [reflexivity|exact F2].
Qed.
Lemma blocks_split es1 e es2 : Permutation (blocks (es1 ++ e :: es2) 0) ((ea e, node e (headof es2 0)) :: (evp e, evl e) :: (eop e, eoid e) :: blocks es1 (ea e) ++ blocks es2 0).
Proof.
  rewrite blocks_app. cbn [blocks headof]. set (a := (ea e, _)). set (b := (eop e, eoid e)). set (c := (evp e, evl e)). set (X := blocks es1 (ea e)). set (Y := blocks es2 0).
  apply Permutation_sym. apply Permutation_cons_app. rewrite perm_swap. apply Permutation_cons_app. apply Permutation_cons_app. reflexivity.
Qed.
Section Ora.
Variable ora : nat -> bool.
Lemma none_failed h h' : calls h' = calls h -> ~ alloc_failed ora h h'.
Proof. intros E (k & K & _). lia. Qed.
Lemma inv_same h h' head es : inv h head es -> wf0 h' -> Permutation (cells h') (cells h) -> inv h' head es.
Proof. intros (W & P & E & N) W' P'. split; [exact W'|]. split; [rewrite P'; exact P|]. split; assumption. Qed.
Lemma store_found h head es oid v n es1 e es2 : inv h head es -> store_ok (oid, v, n) -> es = es1 ++ e :: es2 -> eoid e = oid ->
  exists h' cur e', (len <- get_field h (ea e) f_val_len ;;
    if len <? n then
      let '(p, h) := calloc ora h (Z.to_nat n) in
      if p =? 0 then Ok (h, head, 0)
      else
        old <- get_field h (ea e) f_val_p ;; h <- release h old ;;
        h <- set_field h (ea e) f_val_p p ;;
        h <- set_field h (ea e) f_val_len n ;;
        h <- match v with Some d => d <- rd d 0 n ;; p <- get_field h (ea e) f_val_p ;; save h p d | None => Ok h end ;; Ok (h, head, ea e)
    else h <- match v with Some d => d <- rd d 0 n ;; p <- get_field h (ea e) f_val_p ;; save h p d | None => Ok h end ;; Ok (h, head, ea e)) = Ok (h', head, cur) /\
    inv h' head (es1 ++ e' :: es2) /\ eoid e' = oid /\ ea e' = ea e /\
    ((cur = 0 /\ alloc_failed ora h h' /\ e' = e) \/ (cur = ea e /\ ~ alloc_failed ora h h' /\ evl e' = new_value (Some (evl e)) v (Z.to_nat n))).
Proof.
  intros I [H0 Hv] -> Eo. destruct I as (W & P & Eh & N). rewrite blocks_split in P. set (R := blocks es1 (ea e) ++ blocks es2 0) in *. pose proof (perm_in _ _ _ P) as A1. pose proof (addr_pos h _ _ W A1).
  assert (forall h' e', wf0 h' -> Permutation (cells h') ((ea e', node e' (headof es2 0)) :: (evp e', evl e') :: (eop e', eoid e') :: R) -> eoid e' = oid -> ea e' = ea e -> inv h' head (es1 ++ e' :: es2)) as Fin.
  { intros h' e' W' P' Eo' Ea'. split; [exact W'|]. split; [rewrite blocks_split, Ea', <- Ea'; rewrite P', Ea'; unfold R; reflexivity|]. split; [rewrite Eh; destruct es1; [symmetry; exact Ea'|reflexivity]|].
    rewrite map_app in *. cbn [map] in *. rewrite Eo', <- Eo. exact N. }
  rewrite (gf h _ _ f_val_len W A1 eq_refl). cbn [bind nth node f_val_len]. unfold new_value. fold (over v (Z.to_nat n) (if (length (evl e) <? Z.to_nat n)%nat then repeat 0 (Z.to_nat n) else evl e)).
  destruct (Z.ltb_spec (zlen (evl e)) n) as [L|L].
  - replace (length (evl e) <? Z.to_nat n)%nat with true by (unfold zlen in L; lia).
    destruct (cl ora h (Z.to_nat n) _ W P) as (h1 & C1 & W1 & [(Or & p & Hp & E1 & P1)|(Or & E1 & P1)]); rewrite E1.
    + replace (p =? 0) with false by lia. assert (In (ea e, node e (headof es2 0)) (cells h1)) as A2 by (eapply Permutation_in; [symmetry; exact P1|right; left; reflexivity]).
      rewrite (gf h1 _ _ f_val_p W1 A2 eq_refl). cbn [bind nth node f_val_p].
      destruct (rl h1 (evp e) (evl e) ((ea e, node e (headof es2 0)) :: (p, repeat 0 (Z.to_nat n)) :: (eop e, eoid e) :: R) W1) as (h2 & E2 & W2 & P2 & C2).
      { rewrite P1. rewrite (perm_swap (p, repeat 0 (Z.to_nat n))). rewrite (perm_swap (evp e, evl e)). constructor. }
      rewrite E2. cbn [bind]. destruct (sf h2 _ _ _ f_val_p p W2 P2 eq_refl ltac:(unfold f_val_p; lia)) as (h3 & E3 & W3 & P3 & C3). rewrite E3. cbn [bind]. cbn [node f_val_p firstn skipn app] in P3.
      destruct (sf h3 _ _ _ f_val_len n W3 P3 eq_refl ltac:(unfold f_val_len; lia)) as (h4 & E4 & W4 & P4 & C4). rewrite E4. cbn [bind]. cbn [f_val_len firstn skipn app] in P4.
      destruct (write_ok h4 _ _ p _ _ v n W4 P4 eq_refl eq_refl) as (h5 & E5 & W5 & P5 & C5); [rewrite repeat_length; lia|split; assumption|]. rewrite E5. cbn [bind].
      exists h5, (ea e), (MkEnt (ea e) (eop e) (eoid e) p (over v (Z.to_nat n) (repeat 0 (Z.to_nat n)))). split; [reflexivity|]. split; [|split; [exact Eo|split; [reflexivity|right; split; [reflexivity|split; [|reflexivity]]]]].
      * apply Fin; [exact W5| |exact Eo|reflexivity]. cbn [ea eop eoid evp evl]. unfold node. cbn [ea eop eoid evp evl]. replace (zlen (over v (Z.to_nat n) (repeat 0 (Z.to_nat n)))) with n; [exact P5|].
        destruct v as [d|]; cbn [over]; unfold zlen; [rewrite app_length, firstn_length_le, skipn_length, repeat_length by (unfold zlen in Hv; lia); lia|rewrite repeat_length; lia].
      * intros (k & K & Ok0). assert (k = calls h) as -> by lia. congruence.
    + change (0 =? 0) with true. cbn iota. exists h1, 0, e. split; [reflexivity|]. split; [apply Fin; [exact W1|exact P1|exact Eo|reflexivity]|]. split; [exact Eo|]. split; [reflexivity|]. left. split; [reflexivity|]. split; [|reflexivity]. exists (calls h). split; [lia|exact Or].
  - replace (length (evl e) <? Z.to_nat n)%nat with false by (unfold zlen in L; lia).
    destruct (write_ok h _ _ (evp e) (evl e) _ v n W P eq_refl eq_refl) as (h5 & E5 & W5 & P5 & C5); [unfold zlen in L; lia|split; assumption|]. rewrite E5. cbn [bind].
    exists h5, (ea e), (MkEnt (ea e) (eop e) (eoid e) (evp e) (over v (Z.to_nat n) (evl e))). split; [reflexivity|]. split; [|split; [exact Eo|split; [reflexivity|right; split; [reflexivity|split; [apply none_failed; exact C5|reflexivity]]]]].
    apply Fin; [exact W5| |exact Eo|reflexivity]. cbn [ea eop eoid evp evl]. unfold node. cbn [ea eop eoid evp evl]. replace (zlen (over v (Z.to_nat n) (evl e))) with (zlen (evl e)); [exact P5|].
    destruct v as [d|]; cbn [over]; [|reflexivity]. unfold zlen in *. rewrite app_length, firstn_length_le, skipn_length by lia. lia.
Qed.
End Ora.
