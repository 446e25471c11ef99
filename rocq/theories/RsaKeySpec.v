(** RSA keys and their DER encodings (ITU-T X.690, RFC 8017, RFC 5280), independently of the model. *)
From Verif Require Import Base Base64Spec PemSpec MpiModel RsaKeyModel.

(** * DER *)
(** Number of bytes of a positive number *)
Definition nbytes (x : Z) : Z := Z.log2 x / 8 + 1.
(** Definite-form length *)
Definition der_length (n : Z) : bytes :=
  if n <? 128 then [n] else (128 + nbytes n) :: be_encode (Z.to_nat (nbytes n)) n.
Definition der_tlv (tag : Z) (content : bytes) : bytes := tag :: der_length (zlen content) ++ content.
(** INTEGER, for a non-negative number: the shortest two's complement encoding, so that the first bit is zero *)
Definition der_integer (x : Z) : bytes :=
  der_tlv 2 (be_encode (Z.to_nat (if x =? 0 then 1 else (Z.log2 x + 1) / 8 + 1)) x).
Definition der_sequence (content : bytes) : bytes := der_tlv 48 content.
(** AlgorithmIdentifier { rsaEncryption, NULL }; rsaEncryption is 1.2.840.113549.1.1.1 *)
Definition der_rsa_algorithm : bytes :=
  der_sequence (der_tlv 6 [40 * 1 + 2; 128 + 840 / 128; 840 mod 128; 128 + 113549 / 128 ^ 2; 128 + 113549 / 128 mod 128; 113549 mod 128; 1; 1; 1]
                ++ der_tlv 5 []).
(** RSAPublicKey in a SubjectPublicKeyInfo *)
Definition der_public_key (n e : Z) : bytes :=
  der_sequence (der_rsa_algorithm ++ der_tlv 3 (0 :: der_sequence (der_integer n ++ der_integer e))).
(** RSAPrivateKey *)
Definition der_private_key (k : rsa_key) : bytes :=
  der_sequence (der_integer 0 ++ der_integer (key_N k) ++ der_integer (key_E k) ++ der_integer (key_D k) ++ der_integer (key_P k)
    ++ der_integer (key_Q k) ++ der_integer (key_DP k) ++ der_integer (key_DQ k) ++ der_integer (key_QP k)).

(** * Keys *)
(** An RSA public key: an odd modulus of 128 to 8192 bits and an odd exponent between 3 and the modulus *)
Definition public_ok (k : rsa_pub) : Prop :=
  Z.odd (pub_N k) = true /\ Z.odd (pub_E k) = true /\ 2 ^ 127 <= pub_N k < 2 ^ 8192 /\ 3 <= pub_E k < pub_N k.
(** The numbers of a private key fit together (this does not say that P and Q are prime) *)
Definition private_ok (k : rsa_key) : Prop :=
  public_ok (key_pub k) /\ 1 < key_P k /\ 1 < key_Q k /\ key_N k = key_P k * key_Q k /\
  (key_D k * key_E k) mod (Z.lcm (key_P k - 1) (key_Q k - 1)) = 1 /\
  Z.gcd (key_E k) ((key_P k - 1) * (key_Q k - 1)) = 1 /\
  key_DP k = key_D k mod (key_P k - 1) /\ key_DQ k = key_D k mod (key_Q k - 1) /\
  0 <= key_QP k < key_P k /\ (key_Q k * key_QP k) mod key_P k = 1.

(** The lines around the text *)
Definition dashes : bytes := [45; 45; 45; 45; 45].
Definition pem_header (label : bytes) : bytes := dashes ++ [66; 69; 71; 73; 78; 32] ++ label ++ dashes ++ [10].
Definition pem_footer (label : bytes) : bytes := dashes ++ [69; 78; 68; 32] ++ label ++ dashes ++ [10].
(** PUBLIC KEY and RSA PRIVATE KEY *)
Definition label_public : bytes := [80; 85; 66; 76; 73; 67; 32; 75; 69; 89].
Definition label_private : bytes := [82; 83; 65; 32; 80; 82; 73; 86; 65; 84; 69; 32; 75; 69; 89].
Definition pem_public_key (n e : Z) : bytes := pem_text (pem_header label_public) (pem_footer label_public) (der_public_key n e).
Definition pem_private_key (k : rsa_key) : bytes := pem_text (pem_header label_private) (pem_footer label_private) (der_private_key k).
