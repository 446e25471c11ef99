From Verif Require Import Base BaseFacts RsaKeyModel RsaKeySpec TdpKeyModel RsaKeyProofs2 WrapperModel WrapperInst WrapperInst2 WrapperInst3 WrapperSpec.
From Coq Require Import Lia.

Lemma tdp_serializes alloc : (forall n, alloc n = true) -> forall der buf k,
  private_ok k -> key_N k < 2 ^ 2048 -> 0 <= key_D k < key_N k -> zlen der = RSA_PRV_DER_MAX_BYTES -> zlen buf = 5000 ->
  exists s, serializes (TdpC alloc der buf) k s /\ w_deser (TdpC alloc der buf) s (zlen s) = Ok (k, s, zlen s).
Proof.
  intros Ha der buf k Hk Hm HD Hd Hb. exists (pem_private_key k).
  pose proof (private_key_ok alloc Ha der buf k Hk Hm HD Hd Hb) as W.
  pose proof (private_text_len k (private_tiny k Hk Hm HD)) as L.
  assert (w_deser (TdpC alloc der buf) (pem_private_key k) (zlen (pem_private_key k)) = Ok (k, pem_private_key k, zlen (pem_private_key k))) as D.
  { cbn [w_deser TdpC]. pose proof (deserialize_ok alloc Ha k [] Hk Hm HD) as D. rewrite app_nil_r in D. rewrite D by lia. reflexivity. }
  assert (w_size (TdpC alloc der buf) k = Ok (zlen (pem_private_key k))) as S1 by (cbn [w_size TdpC]; unfold tdp_serialized_size; rewrite W; reflexivity).
  assert (w_ser (TdpC alloc der buf) k = (k, Ok (pem_private_key k))) as S2.
  { cbn [w_ser w_size TdpC] in *. rewrite S1. cbn [bind]. unfold tdp_serialize. rewrite W. cbn [bind]. rewrite wr_all; [reflexivity|]. rewrite zlen_zeros. unfold zlen. lia. }
  split; [|exact D]. unfold serializes. split; [exact S1|]. split.
  - unfold STREAM_MAX. split; [|lia]. unfold pem_private_key, PemSpec.pem_text. rewrite zlen_app. change (zlen (pem_header label_private)) with 32. pose proof (zlen_nonneg (PemSpec.wrap64 0 (Base64Spec.b64 (der_private_key k)) ++ pem_footer label_private)). lia.
  - split; [eexists; exact S2|]. exists k, (pem_private_key k). split; [exact D|]. rewrite S2. reflexivity.
Qed.
Lemma types_distinct_tdp ml N M alloc der buf :
  NoDup [w_type (CipherC ml); w_type (PrfC ml N); w_type (PrgC ml); w_type (PrpC ml); w_type (RCPrfC ml M); w_type (TdpC alloc der buf)].
Proof. cbn [w_type CipherC PrfC PrgC PrpC RCPrfC TdpC]. repeat (constructor; [cbn [In]; intros H; repeat (destruct H as [H|H]; [discriminate|]); exact H|]). constructor. Qed.
