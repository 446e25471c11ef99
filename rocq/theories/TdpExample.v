(** Example keys for the theorems on the trapdoor permutation.  The factors of [tkey] are Carmichael numbers, since the primality of
    their small factors is cheap to check by trial division (see [rsa_factor]). *)
From Coq Require Import Znumtheory Lia.
From Verif Require Import Base MpiModel RsaKeyModel RsaKeySpec RsaKeyProofs3 TdpSpec.

Definition factors_P : list Z := [
  79; 113; 137; 157; 199; 229; 397; 421; 571; 937; 1483; 1873; 2143; 2161; 2341; 2377; 2521; 2927; 2971; 3041; 3361; 3433; 4561;
   4621; 6121; 6841; 7411; 8209; 8737; 9521; 10099; 12377; 12853; 13339; 15913; 16831; 18481; 20593; 22573; 25841; 27361; 28081;
   29921; 30097; 30941; 31123; 34273; 40699; 47521; 55441; 58787; 59671; 63649; 77521; 105337; 117041; 131041; 135661; 148513;
   177841; 269281; 270271; 279073; 291721; 342343; 351121; 377911; 388961; 471241; 652081; 733591; 782497; 816817; 1027027].
Definition factors_Q : list Z := [
  37; 41; 89; 103; 127; 131; 191; 271; 353; 409; 433; 443; 463; 919; 1021; 1093; 1531; 2003; 2017; 2281; 2861; 3121; 3511; 3571;
   4523; 4591; 5281; 7393; 7753; 8009; 8581; 8779; 10711; 12241; 13567; 16381; 17443; 19891; 20021; 21737; 23869; 24571; 35569;
   36721; 39313; 42841; 43891; 46817; 52361; 63841; 65521; 78541; 87517; 97813; 100981; 108109; 116689; 131671; 186733; 196561;
   209441; 216217; 235621; 251941; 287281; 432433; 456457; 461891; 511633; 526681; 565489; 612613; 656371; 697681].
Definition tkey : rsa_key := {|
  key_N := 0xdd9c804246b9fb0cb1cef36d547b6e0537c93687eb20dfcbaa48df5b812612a06cfd9fc7415b4483e1f3a22c0a15cf3d512084b2b65e8050bda3f8baf551e1cce85f02abf2a75af14d4c703b0a557c7f0876d51a7673fd9033b1de2f00f0613e8361d5bf735d3018e49cfdff3a0addc9b7e30ec3781ce7c121b23833fbe6d1bc24f67d4f2707c5257d2578edbf0a34b931984e7762ada07030970348c854b491b2bdb18f063e873ba07327eab123a6aa551ee0d6594fec1939054542009684f77da4dd5c61c15da37869246a1868c9089f157502240b74722a5a44bade3ffcae6fdf65e0340c682fc0656d384c770b30e09fa87f5f632287b4ef621f49501221;
  key_E := 65537;
  key_D := 0x20c7574e2ceb5519cf5037b665ff6ef0065369be0b61c604438841ea83920fd9ab5d20086bbac96a818fee25e895747d72d4eff81126d1d6fb4a86e0600165e36a3d279e1d9b218b6d5453dabc4a300b943b5ef32fa87c9ec33a8420348dcfe11b3f3bc79b9060c7975dfc2d9268e3a84cdbbc01f469e6aa576df5ffa3278036523be10f173276928764ce7d9e50634bece51ac8e080249dda59ccc4bcc39fc0e64cba812a16d8eba035055f42e9fc8084c1134368f3dfdb911e574a1f0d76b14e9ddafe1e12179181c23ca38c282f966caffcbb6558896e852a3efa80b0d73f91c56352ce4059ec0cc78f499e3eb6097e9d8f7de43df970df6243841;
  key_P := 0x143f49c059fe768f9a70e5ed196aa402e1a5acc6e2d05483b10c0a5b02f0c4e4ef5a7c7bb837214dcb9da298d8387b23b6582ba8e68017e4fb75f95e9eb811041abb966de52be7116ea6038c0a5555fd801c83f02b5da8f0d10394131d0837c88fb0f05b4fc628d22e651a1fd7ae3a954d9fb4cb4593d1ba0a6b082ac06ef57fb2e1;
  key_Q := 0xaf1fd6239b926c264632aceb788797da106093a7df89753855ac799858ba7c7cb1fb70c96a3b1be116a3d98872b4d032c502ea98579da3fb48818aa2b69b1d6da508317010125b90ef156b48bb9bc70b4dc1ed998ccf8f1d3ebb1ab0889d0f162f1dcfd9a1f10b28bd53849ecce10540aa7d47a0f55039702c7bcad6f8741;
  key_DP := 0x129ef6042a8025a80280cc655797c509455f6a5c6ba2efe741bff2122bcd2537eb8dcba8b90e32d9ea66aa706982e07542b12a4e26d72da29145b9b734bfd21e753b8aa8bd38b84546fef58a28c2bcd7eca7cd0be7c636a66b841ffdc81893bd27b1b20c387ce5740fe939b289589a564fd28ea2d7f58fcfcadf0edecaa601b094e1;
  key_DQ := 0x3af13237e5e2d077c964c102b81c9b25902191510d51cc9c5b69a3bb7d11b75898e7123d187e3091fff6c1fec4eccaae6bd4e174c8f88bfac59aa438c3d14d845be9780a49be84073211397ccf784cf42705c09ccfe2043f499fdc09d2d15a0493732b440ad7807403d51a6c0075343961a8acf525dc0c990ebfd3b3ab081;
  key_QP := 0xbe48645ef864560c936a830b7794e529600f930ce59eb9fe5d0cec77d455d8d7f8be11f08a1ed2ae17eef8f10bc11916f9e5760599823bfcdc06fc34bd1844ca299314ee40e84885515a3bc2f559f78c27a99136a747a2f0cbac4a3c1af3dc0096c03c8e924c14f99893d48f9020e030cc0e9f8d8700c5f0010f9cd37ac83edf046 |}.

(** Trial division by the odd numbers *)
Fixpoint no_divisor (fuel : nat) (d n : Z) : bool :=
  match fuel with
  | O => false
  | S f => if n <? d * d then true else if n mod d =? 0 then false else no_divisor f (d + 2) n
  end.
Definition primeb (n : Z) : bool := Z.odd n && (3 <=? n) && no_divisor 600 3 n.
Fixpoint increasing (l : list Z) : bool :=
  match l with x :: (y :: _) as l' => (x <? y) && increasing l' | _ => true end.
Definition factorb (P : Z) (rs : list Z) : bool :=
  (P =? fold_right Z.mul 1 rs) && increasing rs && forallb (fun r => primeb r && ((P - 1) mod (r - 1) =? 0)) rs.

Lemma no_divisor_ok n : 3 <= n -> forall fuel d, 3 <= d -> Z.odd d = true -> no_divisor fuel d n = true ->
  (forall x, 1 < x < d -> ~ (x | n)) -> prime n.
Proof.
  intros Hn. induction fuel as [|f IH]; intros d Hd Od H Hx; [discriminate|]. cbn [no_divisor] in H.
  destruct (n <? d * d) eqn:C.
  - apply Z.ltb_lt in C. apply prime_alt. split; [lia|]. intros x Hxn [y Hy].
    assert (0 < y) by nia. assert (1 < y < n) by nia.
    destruct (Z.lt_ge_cases x d) as [Lx|Lx]; [apply (Hx x); [lia|exists y; lia]|].
    destruct (Z.lt_ge_cases y d) as [Ly|Ly]; [apply (Hx y); [lia|exists x; lia]|]. nia.
  - destruct (n mod d =? 0) eqn:M; [discriminate|]. apply Z.eqb_neq in M.
    apply (IH (d + 2)); [lia|rewrite Z.odd_add, Od; reflexivity|exact H|].
    intros x Bx D. destruct (Z.eq_dec x d) as [->|]; [apply M; now apply Zdivide_mod|].
    destruct (Z.eq_dec x (d + 1)) as [->|]; [|apply (Hx x); [lia|exact D]].
    assert (2 | n) as D2. { apply Z.divide_trans with (d + 1); [|exact D]. apply Z.odd_spec in Od. destruct Od as [z Hz]. exists (z + 1). lia. }
    apply (Hx 2); [lia|exact D2].
Qed.
Lemma primeb_ok n : primeb n = true -> prime n.
Proof.
  unfold primeb. rewrite !andb_true_iff, Z.leb_le. intros [[O L] H]. apply (no_divisor_ok n L 600 3 ltac:(discriminate) eq_refl H).
  intros x Bx [y Hy]. assert (x = 2) as -> by lia. rewrite Hy, Z.odd_mul, andb_false_r in O. discriminate.
Qed.
Lemma increasing_lt : forall l x, increasing (x :: l) = true -> Forall (fun y => x < y) l.
Proof.
  induction l as [|y l IH]; intros x H; [constructor|]. cbn [increasing] in H. apply andb_true_iff in H. destruct H as [A B].
  apply Z.ltb_lt in A. constructor; [exact A|]. eapply Forall_impl; [|apply IH; exact B]. cbn. intros. lia.
Qed.
Lemma increasing_NoDup : forall l, increasing l = true -> NoDup l.
Proof.
  induction l as [|x l IH]; intros H; [constructor|]. constructor.
  - intros I. pose proof (increasing_lt l x H) as F. rewrite Forall_forall in F. specialize (F x I). lia.
  - apply IH. cbn [increasing] in H. destruct l; [reflexivity|]. apply andb_true_iff in H. apply H.
Qed.
Lemma factorb_ok P rs : factorb P rs = true -> rsa_factor P.
Proof.
  unfold factorb. rewrite !andb_true_iff, Z.eqb_eq. intros [[A B] C]. exists rs. split; [exact A|]. split; [now apply increasing_NoDup|].
  apply Forall_forall. intros r Hr. rewrite forallb_forall in C. specialize (C r Hr). apply andb_true_iff in C. destruct C as [C1 C2].
  apply primeb_ok in C1. split; [exact C1|]. apply Z.eqb_eq in C2. pose proof (prime_ge_2 r C1).
  apply Zmod_divide; [|exact C2]. lia.
Qed.
Lemma tkey_ok : tdp_key tkey.
Proof.
  split; [apply private_okb_ok; vm_compute; reflexivity|]. split; [split; [vm_compute; discriminate|vm_compute; reflexivity]|].
  split; [apply factorb_ok with factors_P|apply factorb_ok with factors_Q]; vm_compute; reflexivity.
Qed.
