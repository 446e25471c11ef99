(** What calls of invert from several threads must return. *)
From Verif Require Import Base MpiModel RsaKeyModel RsaKeySpec TdpModel TdpSpec BlindThreadModel.

(** The result of a call: the number whose power is the input, or an error for an input that is not below the modulus *)
Definition right (k : rsa_key) (x : call * (Z + Z)) : Prop :=
  match snd x with
  | inr y => snd (fst x) < key_N k /\ 0 <= y < key_N k /\ y ^ key_E k mod key_N k = snd (fst x)
  | inl _ => key_N k <= snd (fst x)
  end.
(** Calls with good generators and inputs that are not negative *)
Definition good_calls (k : rsa_key) (cs : list call) : Prop := Forall (fun c => rng_good (key_N k) (fst c) /\ 0 <= snd c) cs.
(** All calls have returned. *)
Definition ended (th : thread) : Prop := todo th = [] /\ current th = None.

(** The shared numbers of an object with a blinding pair *)
Definition shared_of (bl : blinding) : shared := match bl with Some (vi, vf) => {| Vi := vi; Vf := Some vf |} | None => fresh_object end.
(** A result as mbedtls_rsa_private writes it: an error, or the number in as many bytes as the modulus *)
Definition written (k : rsa_key) (out : bytes) (r : Z + Z) : res bytes :=
  match r with
  | inl e => Ok (inl e)
  | inr y => err_add ERR_RSA_PRIVATE_FAILED (bs <-? mpi_write_binary y (rsa_len (key_pub k)) ;; out <- wr out 0 bs ;; ret out)
  end.
