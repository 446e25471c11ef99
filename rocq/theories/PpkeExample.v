(** A toy instance of the parameters of the puncturable encryption, for the examples: the three groups are the integers
    modulo 101, the pairing is the product.  It satisfies [relic_ok]. *)
From Coq Require Import Znumtheory Zpow_facts.
From Verif Require Import Base BaseFacts PpkeModel PpkeSpec FermatProofs TdpExample HmacSpec.
Local Ltac Zify.zify_post_hook ::= idtac.

Definition toy_p : Z := 101.
Lemma toy_prime : prime toy_p.
Proof. apply primeb_ok. vm_compute. reflexivity. Qed.

(** Points: zero is the byte 0; others 2 followed by the number *)
Definition toy_wbin (len : nat) (a : Z) : bytes := if a =? 0 then [0] else 2 :: be_encode len a.
Definition toy_rbin (len : nat) (b : bytes) : option Z :=
  match b with
  | [0] => Some 0
  | 2 :: r => if Nat.eqb (length r) len then Some (be_decode r) else None
  | _ => None
  end.
Definition toy_group (w : Z -> bytes) (r : bytes -> option Z) : cgroup :=
  {| car := Z; op := fun a b => (a + b) mod toy_p; gunit := 0; pow := fun a k => (a * k) mod toy_p; wbin := w; rbin := r |}.
(** One byte of digest *)
Definition toy_sha (b : bytes) : bytes := [fold_left (fun a x => (31 * a + x + 1) mod 251) b 7].
Definition toy : relic :=
  {| G1 := toy_group (toy_wbin 32) (toy_rbin 32);
     G2 := toy_group (toy_wbin 64) (toy_rbin 64);
     GT := toy_group (be_encode 384) (fun b => Some (be_decode b));
     gt_inv := fun a => (- a) mod toy_p;
     pairing := fun a b => (a * b) mod toy_p;
     gen1 := 1; gen2 := 1; genT := 1;
     order := toy_p;
     (** a negative cofactor *)
     gcd_ext := fun a n => a ^ (n - 2) mod n - n;
     sha := toy_sha |}.

Lemma toy_generates w r : generates (toy_group w r) 1 toy_p.
Proof.
  assert (P : toy_p <> 0) by discriminate.
  split; cbn [car pow op gunit toy_group]; intros.
  - rewrite !Z.mul_1_l. apply Zmod_mod.
  - reflexivity.
  - rewrite !Z.mul_1_l. symmetry. apply Zplus_mod.
  - rewrite !Z.mul_1_l. apply Zmult_mod_idemp_l.
Qed.
Lemma toy_encodes len r : (1 <= len)%nat -> r = toy_rbin len -> encodes (toy_group (toy_wbin len) r) 1 toy_p (1 + Z.of_nat len).
Proof.
  intros Hlen -> a Ha Hz. cbn [car pow wbin rbin toy_group]. rewrite Z.mul_1_l. unfold toy_wbin.
  destruct (a mod toy_p =? 0) eqn:E; [apply Z.eqb_eq in E; contradiction|].
  pose proof (Z.mod_pos_bound a toy_p eq_refl) as B. split.
  - unfold zlen. cbn [length]. rewrite be_encode_length. lia.
  - cbn [toy_rbin]. rewrite be_encode_length, Nat.eqb_refl, be_decode_encode; [reflexivity|]. split; [apply B|].
    apply Z.lt_le_trans with (256 ^ 1); [unfold toy_p in *; lia|]. apply Z.pow_le_mono_r; lia.
Qed.
Lemma toy_ok : relic_ok toy.
Proof.
  split; cbn [G1 G2 GT gen1 gen2 genT order gt_inv pairing gcd_ext sha toy].
  - exact toy_prime.
  - apply toy_generates.
  - apply toy_generates.
  - apply toy_generates.
  - intros a Ha. cbn [pow toy_group]. rewrite !Z.mul_1_l, Zmod_mod. rewrite <- !Z.sub_0_l. apply Zminus_mod_idemp_r.
  - intros a b Ha Hb. cbn [pow toy_group]. rewrite !Z.mul_1_l. symmetry. apply Zmult_mod.
  - intros a Ha. pose proof (Z.mod_pos_bound (a ^ (toy_p - 2)) toy_p eq_refl) as B. split; [lia|].
    rewrite Z.mul_sub_distr_l. rewrite Zminus_mod, (Z.mod_mul a toy_p), Z.sub_0_r, Zmod_mod by discriminate.
    rewrite Zmult_mod_idemp_r. replace (a * a ^ (toy_p - 2)) with (a ^ (toy_p - 1)).
    + apply fermat_1; [exact toy_prime|]. intros D. apply Z.divide_pos_le in D; lia.
    + change (toy_p - 1) with (Z.succ (toy_p - 2)). apply Z.pow_succ_r. discriminate.
  - intros b. unfold toy_sha. constructor; [|constructor].
    assert (X : forall l x, 0 <= x < 251 -> 0 <= fold_left (fun a x => (31 * a + x + 1) mod 251) l x < 251).
    { induction l as [|y l IH]; intros x Hx; [exact Hx|]. cbn [fold_left]. apply IH. apply Z.mod_pos_bound. reflexivity. }
    assert (7 < 251) by reflexivity. specialize (X b 7 ltac:(lia)). unfold is_byte. lia.
  - apply (toy_encodes 32); [repeat constructor|reflexivity].
  - apply (toy_encodes 64); [repeat constructor|reflexivity].
  - reflexivity.
  - reflexivity.
  - intros g. cbn [wbin toy_group]. unfold zlen. rewrite be_encode_length. reflexivity.
Qed.

(** A hash function with 64-byte digests, and scratch buffers *)
Definition toy_H (x : bytes) : bytes :=
  let a := fold_left (fun a b => (31 * a + b + 1) mod 65521) x 7 in le_encode 8 (a * a * a * a) ++ repeat (a mod 256) 56.
Definition toy_u1 : bytes := repeat 170 512.
Definition toy_u2 : bytes := repeat 170 192.
Lemma toy_env : env_ok toy_H toy_u1 toy_u2.
Proof.
  split.
  - intros x. unfold toy_H, zlen. cbv zeta. rewrite app_length, le_encode_length, repeat_length. reflexivity.
  - intros x. unfold toy_H. cbv zeta. apply is_bytes_app. split; [apply le_encode_bytes|]. apply Forall_forall. intros y Hy. apply repeat_spec in Hy. subst y.
    pose proof (Z.mod_pos_bound (fold_left (fun a b => (31 * a + b + 1) mod 65521) x 7) 256 eq_refl). unfold is_byte. lia.
  - reflexivity.
  - reflexivity.
Qed.
(** The PRF of the master key: three bytes suffice for the examples *)
Definition toy_prf (x : bytes) : bytes := firstn 3 (toy_H (9 :: x)).
Definition tag (i : Z) : bytes := i :: repeat 5 15.
Lemma tag_usable i : 0 <= i < 256 -> usable_tag (tag i).
Proof.
  intros Hi. split; [split; [reflexivity|]|].
  - constructor; [exact Hi|]. apply Forall_forall. intros y Hy. apply repeat_spec in Hy. subst y. unfold is_byte. lia.
  - intros E. unfold tag, reserved_tag in E. discriminate E.
Qed.
Definition toy_bufs (i : Z) : bytes := repeat (i + 160) 211.
Definition toy_cbuf : bytes := repeat 171 90.
