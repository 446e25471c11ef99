(** Lists of named data: all calls. *)
From Coq Require Import Lia ZifyBool Permutation.
From Verif Require Import Base BaseFacts HeapModel HeapSpec HeapProofs NamedModel NamedSpec NamedProofs NamedProofs2.

Section Ora.
Variable ora : nat -> bool.
Lemma store_new h head es oid v n : inv h head es -> store_ok (oid, v, n) -> ~ In oid (map eoid es) ->
  exists h' head' cur es', (let '(cur, h) := calloc ora h 5 in
    if cur =? 0 then Ok (h, head, 0)
    else
      h <- set_field h cur f_oid_len (zlen oid) ;;
      let '(p, h) := calloc ora h (length oid) in
      h <- set_field h cur f_oid_p p ;;
      if p =? 0 then h <- release h cur ;; Ok (h, head, 0)
      else
        h <- save h p oid ;;
        h <- set_field h cur f_val_len n ;;
        let '(q, h) := calloc ora h (Z.to_nat n) in
        h <- set_field h cur f_val_p q ;;
        if q =? 0 then
          p <- get_field h cur f_oid_p ;; h <- release h p ;;
          h <- release h cur ;; Ok (h, head, 0)
        else
          h <- set_field h cur f_next head ;;
          h <- match v with Some d => d <- rd d 0 n ;; p <- get_field h cur f_val_p ;; save h p d | None => Ok h end ;; Ok (h, cur, cur)) = Ok (h', head', cur) /\
    inv h' head' es' /\
    ((cur = 0 /\ alloc_failed ora h h' /\ es' = es) \/ (cur <> 0 /\ ~ alloc_failed ora h h' /\ exists e, es' = e :: es /\ ea e = cur /\ pair_of e = (oid, new_value None v (Z.to_nat n)))).
Proof.
  intros I [H0 Hv] Nin. destruct I as (W & P & Eh & N).
  assert (forall h', wf0 h' -> Permutation (cells h') (blocks es 0) -> inv h' head es) as Back by (intros h' W' P'; split; [exact W'|]; split; [exact P'|]; split; assumption).
  destruct (cl ora h 5 _ W P) as (h1 & C1 & W1 & [(O1 & cur & Hc & E1 & P1)|(O1 & E1 & P1)]); rewrite E1; cbn iota.
  2:{ change (0 =? 0) with true. cbn iota. exists h1, head, 0, es. split; [reflexivity|]. split; [apply Back; assumption|]. left. split; [reflexivity|]. split; [|reflexivity]. exists (calls h). split; [lia|exact O1]. }
  replace (cur =? 0) with false by lia. destruct (sf h1 _ _ _ f_oid_len (zlen oid) W1 P1 eq_refl ltac:(unfold f_oid_len; lia)) as (h2 & E2 & W2 & P2 & C2). rewrite E2. cbn [bind]. cbn [repeat f_oid_len firstn skipn app] in P2.
  destruct (cl ora h2 (length oid) _ W2 P2) as (h3 & C3 & W3 & [(O3 & p & Hp & E3 & P3)|(O3 & E3 & P3)]); rewrite E3; cbn iota.
  2:{ destruct (sf h3 _ _ _ f_oid_p 0 W3 P3 eq_refl ltac:(unfold f_oid_p; lia)) as (h4 & E4 & W4 & P4 & C4). rewrite E4. cbn [bind]. change (0 =? 0) with true. cbn iota.
      destruct (rl h4 _ _ _ W4 P4) as (h5 & E5 & W5 & P5 & C5). rewrite E5. cbn [bind]. exists h5, head, 0, es. split; [reflexivity|]. split; [apply Back; assumption|]. left. split; [reflexivity|]. split; [|reflexivity]. exists (calls h2). split; [lia|exact O3]. }
  rewrite perm_swap in P3. destruct (sf h3 _ _ _ f_oid_p p W3 P3 eq_refl ltac:(unfold f_oid_p; lia)) as (h4 & E4 & W4 & P4 & C4). rewrite E4. cbn [bind]. cbn [f_oid_p firstn skipn app] in P4. replace (p =? 0) with false by lia.
  rewrite perm_swap in P4. destruct (sv h4 _ _ _ oid W4 P4) as (h5 & E5 & W5 & P5 & C5); [rewrite repeat_length; lia|]. rewrite E5. cbn [bind]. rewrite skipn_all2, app_nil_r in P5 by (rewrite repeat_length; lia).
  rewrite perm_swap in P5. destruct (sf h5 _ _ _ f_val_len n W5 P5 eq_refl ltac:(unfold f_val_len; lia)) as (h6 & E6 & W6 & P6 & C6). rewrite E6. cbn [bind]. cbn [f_val_len firstn skipn app] in P6.
  destruct (cl ora h6 (Z.to_nat n) _ W6 P6) as (h7 & C7 & W7 & [(O7 & q & Hq & E7 & P7)|(O7 & E7 & P7)]); rewrite E7; cbn iota.
  2:{ destruct (sf h7 _ _ _ f_val_p 0 W7 P7 eq_refl ltac:(unfold f_val_p; lia)) as (h8 & E8 & W8 & P8 & C8). rewrite E8. cbn [bind]. cbn [f_val_p firstn skipn app] in P8. change (0 =? 0) with true. cbn iota.
      rewrite (gf h8 _ _ f_oid_p W8 (perm_in _ _ _ P8) eq_refl). cbn [bind nth f_oid_p]. rewrite perm_swap in P8. destruct (rl h8 _ _ _ W8 P8) as (h9 & E9 & W9 & P9 & C9). rewrite E9. cbn [bind].
      destruct (rl h9 _ _ _ W9 P9) as (h10 & E10 & W10 & P10 & C10). rewrite E10. cbn [bind]. exists h10, head, 0, es. split; [reflexivity|]. split; [apply Back; assumption|]. left. split; [reflexivity|]. split; [|reflexivity]. exists (calls h6). split; [lia|exact O7]. }
  rewrite perm_swap in P7. destruct (sf h7 _ _ _ f_val_p q W7 P7 eq_refl ltac:(unfold f_val_p; lia)) as (h8 & E8 & W8 & P8 & C8). rewrite E8. cbn [bind]. cbn [f_val_p firstn skipn app] in P8. replace (q =? 0) with false by lia.
  destruct (sf h8 _ _ _ f_next head W8 P8 eq_refl ltac:(unfold f_next; lia)) as (h9 & E9 & W9 & P9 & C9). rewrite E9. cbn [bind]. cbn [f_next firstn skipn app] in P9.
  destruct (write_ok h9 _ _ q _ _ v n W9 P9 eq_refl eq_refl) as (h10 & E10 & W10 & P10 & C10); [rewrite repeat_length; lia|split; assumption|]. rewrite E10. cbn [bind].
  exists h10, cur, cur, (MkEnt cur p oid q (over v (Z.to_nat n) (repeat 0 (Z.to_nat n))) :: es). split; [reflexivity|]. split; [|right; split; [exact Hc|]; split].
  - split; [exact W10|]. split; [|split; [reflexivity|cbn [map eoid]; constructor; assumption]]. cbn [blocks headof ea eop eoid evp evl]. unfold node. cbn [ea eop eoid evp evl]. rewrite <- Eh.
    replace (zlen (over v (Z.to_nat n) (repeat 0 (Z.to_nat n)))) with n; [rewrite P10; constructor; apply perm_swap|].
    destruct v as [d|]; cbn [over]; unfold zlen in *; [rewrite app_length, firstn_length_le, skipn_length, repeat_length by lia; lia|rewrite repeat_length; lia].
  - intros (k & K & F). assert (k = calls h \/ k = calls h2 \/ k = calls h6) as [-> | [-> | ->]] by lia; congruence.
  - eexists. split; [reflexivity|]. split; reflexivity.
Qed.
Lemma store_step h head es oid v n : inv h head es -> store_ok (oid, v, n) ->
  exists h' head' cur es', nd_store ora h head oid v n = Ok (h', head', cur) /\ inv h' head' es' /\
    ((cur = 0 /\ alloc_failed ora h h' /\ es' = es) \/
     (cur <> 0 /\ ~ alloc_failed ora h h' /\ map pair_of es' = stored (map pair_of es) oid v (Z.to_nat n) /\ lookfor es' oid = cur)).
Proof.
  intros I Hs. pose proof (inv_length _ _ _ I) as Ln. pose proof (among_inv _ _ _ I) as Am. pose proof I as (W & P & Eh & N). unfold nd_store, stored. assert (nd_find (S (length (cells h))) h head oid = Ok (lookfor es oid)) as Fo by (rewrite Eh; apply find_ok; try assumption; lia). rewrite Fo. cbn [bind].
  destruct (split_oid oid es) as [(V & L & Nin)|(es1 & e & es2 & E & Eo & L & V & F)]; rewrite L, V.
  - change (0 =? 0) with true. cbn iota. destruct (store_new h head es oid v n I Hs Nin) as (h' & head' & cur & es' & Ex & I' & D). exists h', head', cur, es'. split; [exact Ex|]. split; [exact I'|].
    destruct D as [D|(D1 & D2 & e & -> & De & Dp)]; [left; exact D|right]. split; [exact D1|]. split; [exact D2|]. cbn [map lookfor]. rewrite Dp. split; [reflexivity|]. unfold pair_of in Dp. injection Dp as -> _. rewrite beq_refl. exact De.
  - assert (ea e <> 0) as Hn. { destruct (among_hd h e es2) as [A _]; [|exact (addr_pos _ _ _ W A)]. intros x Hx. apply Am. rewrite E, blocks_app. apply in_or_app. right. exact Hx. }
    replace (ea e =? 0) with false by lia. destruct (store_found ora h head es oid v n es1 e es2 I Hs E Eo) as (h' & cur & e' & Ex & I' & Eo' & Ea' & D). exists h', head, cur, (es1 ++ e' :: es2). split; [exact Ex|]. split; [exact I'|].
    destruct D as [(D1 & D2 & ->)|(D1 & D2 & D3)]; [left; split; [exact D1|]; split; [exact D2|symmetry; exact E]|right]. destruct (F e' Eo') as [F1 F2]. split; [congruence|]. split; [exact D2|]. rewrite F1, D3. split; [reflexivity|congruence].
Qed.
Lemma run_inv : forall cs h head es, inv h head es -> Forall store_ok cs -> exists h' head' es', nd_run ora cs h head = Ok (h', head') /\ inv h' head' es'.
Proof.
  induction cs as [|[[oid v] n] cs IH]; intros h head es I Hc; [exists h, head, es; split; [reflexivity|exact I]|]. inversion Hc; subst. destruct (store_step h head es oid v n I) as (h1 & head1 & cur & es1 & E & I1 & _); [assumption|]. cbn [nd_run]. rewrite E. cbn [bind]. apply (IH h1 head1 es1 I1). assumption.
Qed.
Lemma inv_empty : inv empty_heap 0 [].
Proof. split; [split; [constructor|]; split; [constructor|cbn; lia]|]. split; [constructor|]. split; [reflexivity|constructor]. Qed.
Lemma history cs : Forall store_ok cs -> exists h head, nd_run ora cs empty_heap 0 = Ok (h, head) /\ NoDup (map fst (contents h head)) /\ length (cells h) = (3 * length (contents h head))%nat.
Proof.
  intros Hc. destruct (run_inv cs _ _ _ inv_empty Hc) as (h & head & es & E & I). exists h, head. split; [exact E|]. rewrite (contents_ok _ _ _ I), map_map, map_length. split; [apply I|exact (inv_length _ _ _ I)].
Qed.
Lemma history_store cs h head oid v n : Forall store_ok cs -> store_ok (oid, v, n) -> nd_run ora cs empty_heap 0 = Ok (h, head) ->
  exists h' head' cur, nd_store ora h head oid v n = Ok (h', head', cur) /\
    ((cur = 0 /\ alloc_failed ora h h' /\ contents h' head' = contents h head) \/
     (cur <> 0 /\ ~ alloc_failed ora h h' /\ contents h' head' = stored (contents h head) oid v (Z.to_nat n) /\ nd_find (S (length (cells h'))) h' head' oid = Ok cur)).
Proof.
  intros Hc Hs E. destruct (run_inv cs _ _ _ inv_empty Hc) as (h0 & head0 & es & E0 & I). rewrite E0 in E. injection E as -> ->. destruct (store_step h head es oid v n I Hs) as (h' & head' & cur & es' & Ex & I' & D). exists h', head', cur. split; [exact Ex|].
  rewrite (contents_ok _ _ _ I), (contents_ok _ _ _ I'). destruct D as [(D1 & D2 & ->)|(D1 & D2 & D3 & D4)]; [left; repeat split; assumption|right]. repeat split; try assumption. pose proof (inv_length _ _ _ I') as Ln. pose proof (among_inv _ _ _ I') as Am. destruct I' as (W & P & -> & N). rewrite (find_ok h' oid W es') by (try exact Am; lia). congruence.
Qed.
Lemma lookfor_found oid : forall es, lookfor es oid = 0 \/ exists e es1 es2, es = es1 ++ e :: es2 /\ lookfor es oid = ea e /\ value_of (map pair_of es) oid = Some (evl e).
Proof. intros es. destruct (split_oid oid es) as [(_ & L & _)|(es1 & e & es2 & E & _ & L & V & _)]; [left; exact L|right]. exists e, es1, es2. repeat split; assumption. Qed.
(** Finding: the null pointer, or an entry with the value *)
Lemma history_find cs h head oid : Forall store_ok cs -> nd_run ora cs empty_heap 0 = Ok (h, head) ->
  exists cur, nd_find (S (length (cells h))) h head oid = Ok cur /\
    match value_of (contents h head) oid with
    | None => cur = 0
    | Some w => cur <> 0 /\ (p <- get_field h cur f_val_p ;; n <- get_field h cur f_val_len ;; load h p (Z.to_nat n)) = Ok w /\ get_field h cur f_val_len = Ok (zlen w)
    end.
Proof.
  intros Hc E. destruct (run_inv cs _ _ _ inv_empty Hc) as (h0 & head0 & es & E0 & I). rewrite E0 in E. injection E as -> ->. exists (lookfor es oid). rewrite (contents_ok _ _ _ I). pose proof (inv_length _ _ _ I) as Ln. pose proof (among_inv _ _ _ I) as Am. destruct I as (W & P & -> & N).
  split; [apply find_ok; try assumption; lia|]. destruct (split_oid oid es) as [(V & L & Nin)|(es1 & e & es2 & Es & Eo & L & V & F)]; rewrite V, L; [reflexivity|].
  assert (among h (e :: es2)) as Am2 by (intros x Hx; apply Am; rewrite Es, blocks_app; apply in_or_app; right; exact Hx). destruct (among_hd _ _ _ Am2) as (A1 & _ & A3). split; [exact (addr_pos _ _ _ W A1)|].
  rewrite (gf h _ _ f_val_p W A1 eq_refl), (gf h _ _ f_val_len W A1 eq_refl). cbn [bind nth node f_val_p f_val_len]. rewrite (ld h _ _ _ W A3) by (unfold zlen; lia). split; [|reflexivity]. f_equal. apply firstn_all2. unfold zlen. lia.
Qed.
Lemma history_free cs h head : Forall store_ok cs -> nd_run ora cs empty_heap 0 = Ok (h, head) -> exists h', nd_free_list (S (length (cells h))) h head = Ok (h', 0) /\ cells h' = [].
Proof.
  intros Hc E. destruct (run_inv cs _ _ _ inv_empty Hc) as (h0 & head0 & es & E0 & I). rewrite E0 in E. injection E as -> ->. pose proof (inv_length _ _ _ I) as Ln. destruct I as (W & P & -> & N).
  destruct (free_list_ok es h (S (length (cells h))) [] ltac:(lia) W) as (h' & E' & _ & P'); [rewrite app_nil_r; exact P|]. exists h'. split; [exact E'|]. apply Permutation_nil. symmetry. exact P'.
Qed.
End Ora.
(** What the list of pairs says about single values *)
Lemma value_set l oid v x : value_of (set_value l oid v) x = if bytes_eqb oid x then (match value_of l oid with Some _ => Some v | None => None end) else value_of l x.
Proof.
  induction l as [|[o w] l IH]; cbn [set_value value_of]; [destruct (bytes_eqb oid x); reflexivity|]. destruct (bytes_eqb o oid) eqn:B.
  - apply bytes_eqb_spec in B. subst o. cbn [value_of]. destruct (bytes_eqb oid x); reflexivity.
  - cbn [value_of]. rewrite IH. destruct (bytes_eqb o x) eqn:B2; [|reflexivity]. destruct (bytes_eqb oid x) eqn:B3; [|reflexivity]. apply bytes_eqb_spec in B2, B3. subst. rewrite beq_refl in B. discriminate B.
Qed.
Lemma stored_value l oid d x : (forall w, value_of l oid = Some w -> (length w <= length d)%nat) -> value_of (stored l oid (Some d) (length d)) x = if bytes_eqb oid x then Some d else value_of l x.
Proof.
  intros H. unfold stored. destruct (value_of l oid) as [w|] eqn:V.
  - rewrite value_set, V. destruct (bytes_eqb oid x); [|reflexivity]. f_equal. unfold new_value. rewrite firstn_all. specialize (H w eq_refl).
    destruct (length w <? length d)%nat; rewrite skipn_all2, app_nil_r; rewrite ?repeat_length; try reflexivity; lia.
  - cbn [value_of]. destruct (bytes_eqb oid x); [|reflexivity]. f_equal. unfold new_value. rewrite firstn_all, skipn_all2, app_nil_r; [reflexivity|rewrite repeat_length; lia].
Qed.
