(** The value functions of KeyVal.v are the steps of the Key specification (KeySpec.v). *)
From Verif Require Import BaseFacts KeyModel KeySpec KeyVal.

Definition to_s (k : vkey) : sobj := match k with VEmpty => SEmpty | VKey b l => SKey b l end.
Definition good_env (e : env) : Prop := e_alloc e = true /\ e_mpfail e = false.

Lemma bridge : forall c N e k, good_env e ->
  (* lock flags are only ever set when memory locking is on *)
  (match k with VKey _ l => memlock c = false -> l = false | VEmpty => True end) ->
  s_step c N [to_s k] (e, OUnlockGet 0) =
    ([to_s (fst (v_unlock_get k))], match snd (v_unlock_get k) with Ok b => Ok (VPtr (Some b)) | Throw x => Throw x | _ => UB end) /\
  s_step c N [to_s k] (e, OUnlock 0) = ([to_s (v_unlock k)], Ok VUnit) /\
  s_step c N [to_s k] (e, OLock 0) = ([to_s (v_lock (memlock c) k)], Ok VUnit) /\
  s_step c N [to_s k] (e, OIsEmpty 0) = ([to_s k], Ok (VBool (v_is_empty k))) /\
  s_step c N [to_s k] (e, OSerialize 0) =
    ([to_s k], match v_serialize k with Ok b => Ok (VBytes b) | Throw x => Throw x | _ => UB end) /\
  s_step c N [to_s k] (e, OMove 0) = ([SEmpty; to_s k], Ok VUnit) /\
  (forall b, s_step c N [] (e, OCallback (Some b)) = ([to_s (v_make (memlock c) b)], Ok VUnit)) /\
  (forall b, s_step c N [] (e, OFromBuf (Some b)) =
     ([to_s (v_make (memlock c) (firstn N b))], Ok (VBuf (zeros N ++ skipn N b)))).
Proof.
  intros c N e k [Ha Hf] Hl.
  destruct k as [|b l]; unfold s_step, s_ctor, s_get; simpl; rewrite ?Ha, ?Hf, ?andb_false_r;
    destruct (memlock c) eqn:Em; try destruct l; simpl; repeat split; auto;
    try (specialize (Hl eq_refl); discriminate).
Qed.
