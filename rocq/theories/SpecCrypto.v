(** Specification vocabulary for keys and algorithms. *)
From Verif Require Import Base Crypto.

(** HTTP Signature Algorithms registry (RFC 9421 section 6.2.2) *)
Definition registered : list (str * alg) :=
  [ (lit "hmac-sha256", HmacSha256);
    (lit "ecdsa-p256-sha256", EcdsaP256Sha256);
    (lit "ecdsa-p384-sha384", EcdsaP384Sha384);
    (lit "ed25519", Ed25519) ].
Definition registered_rsa : list (str * alg) :=
  [ (lit "rsa-v1_5-sha256", RsaV1_5Sha256); (lit "rsa-pss-sha512", RsaPssSha512) ].

(** the object identifiers a key file must carry for an algorithm: RFC 5480 (id-ecPublicKey with secp256r1 or
    secp384r1), RFC 8410 (id-Ed25519), RFC 8017 (rsaEncryption) *)
Definition oids_of (a : alg) (oid : str) (params : option str) : Prop :=
  match a with
  | HmacSha256 => False
  | EcdsaP256Sha256 => oid = lit "1.2.840.10045.2.1" /\ params = Some (lit "1.2.840.10045.3.1.7")
  | EcdsaP384Sha384 => oid = lit "1.2.840.10045.2.1" /\ params = Some (lit "1.3.132.0.34")
  | Ed25519 => oid = lit "1.3.101.112"
  | RsaV1_5Sha256 | RsaPssSha512 => oid = lit "1.2.840.113549.1.1.1"
  end.
(** the kind of key in memory *)
Definition secret_kind {P} (k : secret_key P) : alg :=
  match k with
  | SkP256 _ => EcdsaP256Sha256 | SkP384 _ => EcdsaP384Sha384 | SkEd25519 _ => Ed25519
  | SkRsa15 _ => RsaV1_5Sha256 | SkPss _ => RsaPssSha512
  end.
Definition public_kind {P} (k : public_key P) : alg :=
  match k with
  | PkP256 _ => EcdsaP256Sha256 | PkP384 _ => EcdsaP384Sha384 | PkEd25519 _ => Ed25519
  | PkRsa15 _ => RsaV1_5Sha256 | PkPss _ => RsaPssSha512
  end.
(** the algorithm is compiled in *)
Definition enabled (rsa : bool) (a : alg) : Prop := match a with RsaV1_5Sha256 | RsaPssSha512 => rsa = true | _ => True end.

(** the secret key that key octets denote, and the public key *)
Definition secret_octets (P : prims) (k : secret_key P) (b : bytes) : Prop :=
  match k with
  | SkP256 s => List.length b = 32%nat /\ p256_sk P b = Some s
  | SkP384 s => List.length b = 48%nat /\ p384_sk P b = Some s
  | SkEd25519 s => List.length b = 32%nat /\ s = ed_sk P b
  | SkRsa15 s | SkPss s => rsa_sk P b = Some s
  end.
Definition public_octets (P : prims) (k : public_key P) (b : bytes) : Prop :=
  match k with
  | PkP256 s => p256_pk P b = Some s
  | PkP384 s => p384_pk P b = Some s
  | PkEd25519 s => ed_pk P b = Some s
  | PkRsa15 s | PkPss s => rsa_pk P b = Some s
  end.
(** the key octets inside a PKCS#8 file: SEC1 structure for EC, OCTET STRING header of two bytes for Ed25519 *)
Definition file_octets (P : prims) (a : alg) (key b : bytes) : Prop :=
  match a with
  | HmacSha256 => False
  | EcdsaP256Sha256 | EcdsaP384Sha384 => d_ec P key = Some b
  | Ed25519 => exists x y, key = x :: y :: b
  | RsaV1_5Sha256 | RsaPssSha512 => key = b
  end.

(** Correct primitives: a public key accepts what its secret key signs, signatures have the right form. *)
Record correct (P : prims) : Prop := {
  cor_p256 : forall k d, List.length (p256_sign P k d) = 64%nat /\ p256_sig_ok P (p256_sign P k d) = true
                         /\ p256_verify P (p256_pub P k) d (p256_sign P k d) = true;
  cor_p384 : forall k d, List.length (p384_sign P k d) = 96%nat /\ p384_sig_ok P (p384_sign P k d) = true
                         /\ p384_verify P (p384_pub P k) d (p384_sign P k d) = true;
  cor_ed : forall r k d, ed_sig_ok P (ed_sign P r k d) = true
                         /\ ed_verify P (ed_pub P k) d (ed_sign P r k d) = true;
  cor_rsa : forall a r k d, rsa_sig_ok P a (rsa_sign P a r k d) = true
                         /\ rsa_verify P a (rsa_pub P k) d (rsa_sign P a r k d) = true }.
(** Signatures are octet strings. *)
Record octet_output (P : prims) : Prop := {
  oct_hmac : forall k d, Forall (fun b => b < 256) (p_hmac256 P k d);
  oct_p256 : forall k d, Forall (fun b => b < 256) (p256_sign P k d);
  oct_p384 : forall k d, Forall (fun b => b < 256) (p384_sign P k d);
  oct_ed : forall r k d, Forall (fun b => b < 256) (ed_sign P r k d);
  oct_rsa : forall a r k d, Forall (fun b => b < 256) (rsa_sign P a r k d) }.
