From Verif Require Import Base BaseFacts KeyVal PrpModel WrapperModel WrapperInst2 WrapperSpec.
From Coq Require Import Lia.

Lemma prp_serializes ml b l : zlen b = 112 -> serializes (PrpC ml) (VKey b l) b /\
  w_deser (PrpC ml) b (zlen b) = Ok (VKey b ml, zeros 112, zlen b).
Proof.
  intros Hb.
  assert (D : w_deser (PrpC ml) b (zlen b) = Ok (VKey b ml, zeros 112, zlen b)).
  { cbn [w_deser PrpC]. unfold prp_deserialize, prp_kContextSize. rewrite Hb. cbn [negb]. change (112 <? 112) with false. cbv iota.
    rewrite rd_all by lia. cbn [bind]. rewrite wr_all by (rewrite zlen_zeros; lia). reflexivity. }
  split; [|exact D]. unfold serializes. split; [rewrite Hb; reflexivity|]. split; [unfold STREAM_MAX; lia|]. split; [eexists; reflexivity|].
  exists (VKey b ml), (zeros 112). split; [exact D|reflexivity].
Qed.
From Verif Require Import WrapperInst.
Lemma types_distinct ml N M :
  NoDup [w_type (CipherC ml); w_type (PrfC ml N); w_type (PrgC ml); w_type (PrpC ml); w_type (RCPrfC ml M)].
Proof. cbn [w_type CipherC PrfC PrgC PrpC RCPrfC]. repeat (constructor; [cbn [In]; intros H; repeat (destruct H as [H|H]; [discriminate|]); exact H|]). constructor. Qed.
