(** What the properties of the puncturable encryption assume of RELIC, and the vocabulary they are stated with. *)
From Coq Require Import Znumtheory.
From Verif Require Import Base PpkeModel HmacSpec.

(** The powers of the generator [g] of a group of order [n] behave like integers modulo [n]. *)
Record generates (G : cgroup) (g : car G) (n : Z) : Prop := {
  gen_mod : forall a, 0 <= a -> pow G g (a mod n) = pow G g a;
  gen_unit : gunit G = pow G g 0;
  gen_op : forall a b, 0 <= a -> 0 <= b -> op G (pow G g a) (pow G g b) = pow G g (a + b);
  gen_pow : forall a b, 0 <= a -> 0 <= b -> pow G (pow G g a) b = pow G g (a * b)
}.

(** Powers of the generator other than the point at infinity are encoded on [size] bytes, and decoded correctly. *)
Definition encodes (G : cgroup) (g : car G) (n size : Z) : Prop :=
  forall a, 0 <= a -> a mod n <> 0 ->
  zlen (wbin G (pow G g a)) = size /\ rbin G (wbin G (pow G g a)) = Some (pow G g a).

Record relic_ok (R : relic) : Prop := {
  ok_prime : prime (order R);
  ok_G1 : generates (G1 R) (gen1 R) (order R);
  ok_G2 : generates (G2 R) (gen2 R) (order R);
  ok_GT : generates (GT R) (genT R) (order R);
  ok_inv : forall a, 0 <= a -> gt_inv R (pow (GT R) (genT R) a) = pow (GT R) (genT R) ((- a) mod order R);
  ok_pairing : forall a b, 0 <= a -> 0 <= b ->
    pairing R (pow (G1 R) (gen1 R) a) (pow (G2 R) (gen2 R) b) = pow (GT R) (genT R) (a * b);
  (** bn_gcd_ext returns a Bezout cofactor no larger than the order *)
  ok_gcd_ext : forall a, 0 < a < order R -> - order R <= gcd_ext R a (order R) /\ (a * gcd_ext R a (order R)) mod order R = 1;
  ok_sha : forall b, is_bytes (sha R b);
  ok_enc1 : encodes (G1 R) (gen1 R) (order R) 33;
  ok_enc2 : encodes (G2 R) (gen2 R) (order R) 65;
  (** at the point at infinity the encodings are a single byte *)
  ok_inf1 : zlen (wbin (G1 R) (gunit (G1 R))) = 1;
  ok_inf2 : zlen (wbin (G2 R) (gunit (G2 R))) = 1;
  ok_encT : forall g, zlen (wbin (GT R) g) = 384
}.

(** The tag hash as an element of the scalar field: the digest of the byte 1 and the tag, modulo the order. *)
Definition tag_scalar (R : relic) (tag : bytes) : Z := be_decode (sha R (1 :: tag)) mod order R.

(** The reserved tag, as documented (puncturable_enc.hpp:172-174), zero-padded to sixteen bytes. *)
Definition reserved_tag : bytes := [0x00; 0x01; 0x02; 0x03; 0x04; 0x05; 0x06; 0x07; 0x08; 0x10; 0x11; 0x12; 0x13; 0x14; 0x15; 0x00].

(** A tag: sixteen bytes. *)
Definition is_tag (t : bytes) : Prop := zlen t = 16 /\ is_bytes t.
(** A tag a caller may use. *)
Definition usable_tag (t : bytes) : Prop := is_tag t /\ t <> reserved_tag.

(** The hash the model calls is one with 64-byte digests, and its scratch buffers have the right sizes. *)
Record env_ok (H : bytes -> bytes) (u1 u2 : bytes) : Prop := {
  ok_digest : forall x, zlen (H x) = 64;
  ok_digest_bytes : forall x, is_bytes (H x);
  ok_u1 : zlen u1 = 128 + 384;
  ok_u2 : zlen u2 = 128 + 64
}.

(** The points of a share, of a ciphertext, are powers of the generator. *)
Definition in_g2 {R : relic} (s : share R) : Prop :=
  (exists a, 0 <= a /\ sk1 R s = pow (G2 R) (gen2 R) a) /\ (exists a, 0 <= a /\ sk2 R s = pow (G2 R) (gen2 R) a) /\
  (exists a, 0 <= a /\ sk3 R s = pow (G2 R) (gen2 R) a).
Definition in_g1 {R : relic} (c : ciphertext R) : Prop :=
  (exists a, 0 <= a /\ ct2 R (ct_partial R c) = pow (G1 R) (gen1 R) a) /\
  (exists a, 0 <= a /\ ct3 R (ct_partial R c) = pow (G1 R) (gen1 R) a).
(** None of the three points of a share is the point at infinity. *)
Definition finite_share {R : relic} (s : share R) : Prop :=
  sk1 R s <> gunit (G2 R) /\ sk2 R s <> gunit (G2 R) /\ sk3 R s <> gunit (G2 R).
(** Neither point of a ciphertext is the point at infinity. *)
Definition finite_ct {R : relic} (c : ciphertext R) : Prop :=
  ct2 R (ct_partial R c) <> gunit (G1 R) /\ ct3 R (ct_partial R c) <> gunit (G1 R).

(** The share of the [i]-th puncture (from 1), for the list of punctured tags [tags] starting at puncture [i]; [bufs i]:
    the uninitialised array the call returns its result in. *)
Fixpoint puncture_shares (R : relic) (dbg : bool) (prf : bytes -> bytes) (bufs : Z -> bytes) (i : Z) (tags : list bytes)
  : outcome (list bytes) :=
  match tags with
  | [] => Ok []
  | t :: tags' =>
    s <- penc_inc_puncture R dbg prf i t (bufs i) ;;
    ss <- puncture_shares R dbg prf bufs (i + 1) tags' ;;
    Ok (s :: ss)
  end.
(** The punctured key as a client builds it: initial_keyshare(d), inc_puncture(1, t1), ..., inc_puncture(d, td). *)
Definition punctured_key (R : relic) (dbg : bool) (prf : bytes -> bytes) (bufs : Z -> bytes) (tags : list bytes)
  : outcome (list bytes) :=
  s0 <- penc_initial_keyshare R dbg prf (zlen tags) (bufs 0) ;;
  ss <- puncture_shares R dbg prf bufs 1 tags ;;
  Ok (s0 :: ss).

(** The same key as objects. *)
Fixpoint puncture_objects (R : relic) (dbg : bool) (prf : bytes -> bytes) (sp : secret_params) (i : Z) (tags : list bytes)
  : outcome (list (share R)) :=
  match tags with
  | [] => Ok []
  | t :: tags' =>
    s <- sk_share_gen R dbg prf sp i t ;;
    ss <- puncture_objects R dbg prf sp (i + 1) tags' ;;
    Ok (s :: ss)
  end.

(** A sequence of calls of Gmppke::puncture on one key; each with its three random numbers. *)
Fixpoint punctures (R : relic) (dbg : bool) (pk : public_key R) (sk : list (share R)) (ps : list (bytes * (Z * Z * Z)))
  : outcome (list (share R)) :=
  match ps with
  | [] => Ok sk
  | (t, (t0, t1, tl)) :: ps' => sk' <- puncture R dbg pk sk t t0 t1 tl ;; punctures R dbg pk sk' ps'
  end.

(** The values a key derives from its master key, and the seed of each. *)
Inductive derived := Alpha | Beta | Ry | R_ | Rho (d : Z) | L (d : Z) | R1 (d : Z).
Definition seed_of (v : derived) : bytes :=
  match v with
  | Alpha => S_alpha | Beta => S_beta | Ry => S_ry | R_ => S_r | Rho d => S_rho d | L d => S_l d | R1 d => S_r1 d
  end.
Definition index_ok (v : derived) : Prop :=
  match v with Rho d | L d | R1 d => 0 <= d < 2 ^ 64 | _ => True end.

(** The group element hiding the message, encoded, and the mask made of it: the first eight bytes of HMAC (RFC 2104) keyed
    with the tag. *)
Definition expected_mask (H : bytes -> bytes) (tag gtb : bytes) : Z :=
  le_decode (firstn 8 (rfc_hmac H 128 tag gtb)).
