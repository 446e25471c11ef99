(** C124: the buffers of pem.c.  See properties.jsonl and DESIGN.md. *)
From Verif Require Import Base MpiModel Base64Spec PemModel PemSpec RsaKeyModel HeapModel HeapSpec PemHeapModel PemHeapProofs.

(** Reading any text that ends and freeing the context: nothing undefined happens and no block is left or missing; if reading fails, the context is
    unchanged and no block is left even without freeing; if it succeeds, the context points to a new block with the decoded bytes. *)
Theorem C124_read_no_leak : forall ora h header footer data, 0 < next_addr h -> is_bytes data -> In 0 data -> zlen data < 2 ^ 63 ->
  exists h1 e c h2, h_pem_read ora h header footer data = Ok (h1, e, c) /\ h_pem_free h1 c = Ok (h2, pem_init) /\ cells h2 = cells h /\
    ((pem_read_buffer (fun _ => ora (calls h)) header footer data = err e /\ c = pem_init /\ cells h1 = cells h) \/
     (exists der u blk, pem_read_buffer (fun _ => ora (calls h)) header footer data = ret (der, u) /\ e = 0 /\ cells h1 = (fst c, blk) :: cells h /\ firstn (Z.to_nat (snd c)) blk = der /\
        released h2 = blk :: released h)).
Proof. exact read_free. Qed.
Print Assumptions C124_read_no_leak.
(** Writing: no block is left, whether or not there was memory. *)
Theorem C124_write_no_leak : forall ora h header footer der buf, 0 < next_addr h -> is_bytes der -> zlen der < 2 ^ 63 -> zlen header + zlen footer < 2 ^ 32 -> zlen buf < 2 ^ 64 ->
  exists h' e l o, h_pem_write ora h header footer der buf (zlen buf) = Ok (h', (e, l, o)) /\ pem_write_buffer (fun _ => ora (calls h)) header footer der buf (zlen buf) = Ok (e, l, o) /\ cells h' = cells h /\
    (e = 0 -> exists rest, released h' = (b64 der ++ rest) :: released h).
Proof. exact write_free. Qed.
Print Assumptions C124_write_no_leak.
(** The text of a private key: after reading and freeing, the decoded key stands in the released block, whatever the key is. *)
Theorem C124_key_remains : forall ora h der tail r, 0 < next_addr h -> ora (calls h) = true -> is_bytes der -> der <> [] -> zlen der < 2 ^ 60 -> Forall (fun x => x <> 0) tail ->
  exists h1 c h2 rest, h_pem_read ora h begin_rsa_private end_rsa_private (begin_rsa_private ++ 10 :: wrap64 0 (b64 der) ++ end_rsa_private ++ tail ++ 0 :: r) = Ok (h1, 0, c) /\ h_pem_free h1 c = Ok (h2, pem_init) /\
    cells h2 = cells h /\ released h2 = (der ++ rest) :: released h.
Proof. exact private_remains. Qed.
Print Assumptions C124_key_remains.
(** So the memory of a freed context is not wiped; neither is that of the writer. *)
Theorem C124_wiped_refuted : exists data h1 c h2, h_pem_read (fun _ => true) empty_heap begin_rsa_private end_rsa_private data = Ok (h1, 0, c) /\ h_pem_free h1 c = Ok (h2, pem_init) /\ released h2 = [[48; 3; 2; 1; 42]] /\ ~ wiped h2.
Proof.
  exists (begin_rsa_private ++ [10; 77; 65; 77; 67; 65; 83; 111; 61; 10] ++ end_rsa_private ++ [10; 0]). do 3 eexists. split; [vm_compute; reflexivity|]. split; [vm_compute; reflexivity|]. split; [reflexivity|].
  intros W. unfold wiped in W. cbn [released] in W. apply Forall_inv in W. apply Forall_inv in W. discriminate W.
Qed.
Print Assumptions C124_wiped_refuted.

(** A text is read with memory, and without *)
Example C124_example : let data := [1; 10; 77; 65; 77; 67; 65; 83; 111; 61; 10; 45; 2; 0] in
  is_bytes data /\ In 0 data /\
  h_pem_read (fun _ => true) empty_heap [1] [45; 2] data = Ok (MkHeap [(1, [48; 3; 2; 1; 42])] 2 1 [], 0, (1, 5)) /\
  h_pem_read (fun _ => false) empty_heap [1] [45; 2] data = Ok (MkHeap [] 1 1 [], ERR_PEM_ALLOC_FAILED, (0, 0)) /\
  h_pem_write (fun _ => true) empty_heap [1] [45; 2] [48; 3] (repeat 0 12) 12 = Ok (MkHeap [] 2 1 [[77; 65; 77; 61; 0]], (0, 9, [1; 77; 65; 77; 61; 10; 45; 2; 0; 0; 0; 0])).
Proof. cbv zeta. split; [repeat constructor; discriminate|]. split; [repeat (try (left; reflexivity); right)|]. split; [|split]; vm_compute; reflexivity. Qed.
