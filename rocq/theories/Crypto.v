(** httpsig/src/crypto/*.rs. The cryptographic primitives and the DER/PEM decoders are the fields of [prims];
    nothing is assumed about them here. [rsa] is the cargo feature "rsa-signature". *)
From Verif Require Import Base Base64 Component.

(** crypto/mod.rs:11-20 *)
Inductive alg := HmacSha256 | EcdsaP256Sha256 | EcdsaP384Sha384 | Ed25519 | RsaV1_5Sha256 | RsaPssSha512.

(** crypto/mod.rs:22-35, [as_str] *)
Definition alg_str (a : alg) : str :=
  match a with
  | HmacSha256 => lit "hmac-sha256"
  | EcdsaP256Sha256 => lit "ecdsa-p256-sha256"
  | EcdsaP384Sha384 => lit "ecdsa-p384-sha384"
  | Ed25519 => lit "ed25519"
  | RsaV1_5Sha256 => lit "rsa-v1_5-sha256"
  | RsaPssSha512 => lit "rsa-pss-sha512"
  end.

(** crypto/mod.rs:43-59, [FromStr] *)
Definition alg_of_str (rsa : bool) (s : str) : result err alg :=
  if str_eqb s (lit "hmac-sha256") then Ok HmacSha256
  else if str_eqb s (lit "ecdsa-p256-sha256") then Ok EcdsaP256Sha256
  else if str_eqb s (lit "ecdsa-p384-sha384") then Ok EcdsaP384Sha384
  else if str_eqb s (lit "ed25519") then Ok Ed25519
  else if rsa && str_eqb s (lit "rsa-v1_5-sha256") then Ok RsaV1_5Sha256
  else if rsa && str_eqb s (lit "rsa-pss-sha512") then Ok RsaPssSha512
  else Err InvalidAlgorithmName.

Definition alg_eqb (a b : alg) : bool := str_eqb (alg_str a) (alg_str b).

(** crypto/mod.rs:61-66, trait SigningKey. Signing may use randomness: the first argument of [sk_sign]. *)
Record signing_key := mkSigning {
  sk_sign : N -> bytes -> result err bytes;
  sk_key_id : str;
  sk_alg : alg }.
(** crypto/mod.rs:68-73, trait VerifyingKey *)
Record verifying_key := mkVerifying {
  vk_verify : bytes -> bytes -> result err unit;
  vk_key_id : str;
  vk_alg : alg }.

(** A decoded PKCS#8 PrivateKeyInfo: algorithm OID, parameters OID if there is one, key octets. *)
Record key_info := mkKeyInfo { ki_oid : str; ki_params : option str; ki_key : bytes }.
(** A decoded SubjectPublicKeyInfo; the key is [None] when the bit string has unused bits. *)
Record spk_info := mkSpkInfo { si_oid : str; si_params : option str; si_key : option bytes }.

(** The primitives of the crates sha2, hmac, ecdsa/p256/p384, ed25519-compact, rsa, pkcs8, spki, sec1. *)
Record prims := mkPrims {
  p_sha256 : bytes -> bytes;
  p_hmac256 : bytes -> bytes -> bytes;
  (* NIST P-256 and P-384 *)
  Sk256 : Type; Pk256 : Type;
  p256_sk : bytes -> option Sk256;             (* SecretKey::from_bytes, 32 bytes *)
  p256_pub : Sk256 -> Pk256;                   (* public_key *)
  p256_pk : bytes -> option Pk256;             (* from_sec1_bytes *)
  p256_point : Pk256 -> bytes;                 (* to_encoded_point(true).as_bytes() *)
  p256_sign : Sk256 -> bytes -> bytes;         (* SHA-256, sign_digest (deterministic), to_bytes *)
  p256_sig_ok : bytes -> bool;                 (* Signature::from_bytes of 64 bytes *)
  p256_verify : Pk256 -> bytes -> bytes -> bool;
  Sk384 : Type; Pk384 : Type;
  p384_sk : bytes -> option Sk384;
  p384_pub : Sk384 -> Pk384;
  p384_pk : bytes -> option Pk384;
  p384_point : Pk384 -> bytes;
  p384_sign : Sk384 -> bytes -> bytes;
  p384_sig_ok : bytes -> bool;
  p384_verify : Pk384 -> bytes -> bytes -> bool;
  (* Ed25519 *)
  SkEd : Type; PkEd : Type;
  ed_sk : bytes -> SkEd;                       (* KeyPair::from_seed(..).sk, 32 bytes *)
  ed_pub : SkEd -> PkEd;
  ed_pk : bytes -> option PkEd;                (* PublicKey::from_slice *)
  ed_bytes : PkEd -> bytes;
  ed_sign : N -> SkEd -> bytes -> bytes;       (* sign with random noise *)
  ed_sig_ok : bytes -> bool;                   (* Signature::from_slice *)
  ed_verify : PkEd -> bytes -> bytes -> bool;
  (* RSA *)
  SkRsa : Type; PkRsa : Type;
  rsa_sk : bytes -> option SkRsa;              (* from_pkcs1_der *)
  rsa_pub : SkRsa -> PkRsa;
  rsa_pk : bytes -> option PkRsa;
  rsa_der : PkRsa -> option bytes;             (* to_pkcs1_der *)
  rsa_sign : alg -> N -> SkRsa -> bytes -> bytes;   (* sign_with_rng, PKCS#1 v1.5 or PSS *)
  rsa_sig_ok : alg -> bytes -> bool;           (* Signature::try_from *)
  rsa_verify : alg -> PkRsa -> bytes -> bytes -> bool;
  (* file formats *)
  d_pem : str -> option (str * bytes);         (* Document::from_pem: label and document *)
  d_pki : bytes -> option key_info;            (* PrivateKeyInfo::from_der *)
  d_spki : bytes -> option spk_info;           (* SubjectPublicKeyInfoRef::from_der *)
  d_ec : bytes -> option bytes                 (* sec1::EcPrivateKey::try_from(..).private_key *)
}.

(** crypto/symmetric.rs:13-19 *)
Inductive shared_key := ShHmacSha256 (k : bytes).

(** crypto/symmetric.rs:23-33, [SharedKey::from_base64] *)
Definition shared_from_base64 (a : alg) (k : str) : result err shared_key :=
  let* kb := ok_or (b64_decode false k) Base64DecodeError in
  match a with
  | HmacSha256 => Ok (ShHmacSha256 kb)
  | _ => Err InvalidAlgorithmName
  end.

(** crypto/symmetric.rs:38-47; HMAC accepts keys of any length, so [new_from_slice(..).unwrap()] cannot fail *)
Definition shared_sign (P : prims) (k : shared_key) (data : bytes) : result err bytes :=
  match k with ShHmacSha256 kb => Ok (p_hmac256 P kb data) end.

Definition bytes_eqb : bytes -> bytes -> bool := list_eqb N.eqb.

(** crypto/symmetric.rs:61-72; [verify_slice] compares the whole MAC *)
Definition shared_verify (P : prims) (k : shared_key) (data mac : bytes) : result err unit :=
  match k with
  | ShHmacSha256 kb => if bytes_eqb (p_hmac256 P kb data) mac then Ok tt else Err InvalidSignature
  end.

(** crypto/symmetric.rs:75-84, 86-90 *)
Definition shared_key_id (P : prims) (k : shared_key) : str :=
  match k with ShHmacSha256 kb => b64_encode (p_sha256 P kb) end.
Definition shared_alg (k : shared_key) : alg := match k with ShHmacSha256 _ => HmacSha256 end.

(** impl SigningKey / VerifyingKey for SharedKey (crypto/symmetric.rs:36-91) *)
Definition shared_signing (P : prims) (k : shared_key) : signing_key :=
  mkSigning (fun _ => shared_sign P k) (shared_key_id P k) (shared_alg k).
Definition shared_verifying (P : prims) (k : shared_key) : verifying_key :=
  mkVerifying (shared_verify P k) (shared_key_id P k) (shared_alg k).

(** crypto/asymmetric.rs:27-43, OIDs *)
Definition oid_ec : str := lit "1.2.840.10045.2.1".
Definition oid_ed25519 : str := lit "1.3.101.112".
Definition oid_rsa : str := lit "1.2.840.113549.1.1.1".
Definition oid_p256 : str := lit "1.2.840.10045.3.1.7".
Definition oid_p384 : str := lit "1.3.132.0.34".

(** crypto/asymmetric.rs:49-61 *)
Inductive secret_key (P : prims) :=
| SkP384 (k : Sk384 P) | SkP256 (k : Sk256 P) | SkEd25519 (k : SkEd P) | SkRsa15 (k : SkRsa P) | SkPss (k : SkRsa P).
Arguments SkP384 {P} k. Arguments SkP256 {P} k. Arguments SkEd25519 {P} k.
Arguments SkRsa15 {P} k. Arguments SkPss {P} k.
(** crypto/asymmetric.rs:243-256 *)
Inductive public_key (P : prims) :=
| PkP256 (k : Pk256 P) | PkP384 (k : Pk384 P) | PkEd25519 (k : PkEd P) | PkRsa15 (k : PkRsa P) | PkPss (k : PkRsa P).
Arguments PkP384 {P} k. Arguments PkP256 {P} k. Arguments PkEd25519 {P} k.
Arguments PkRsa15 {P} k. Arguments PkPss {P} k.

Definition has_len (n : nat) (b : bytes) : bool := Nat.eqb (List.length b) n.

(** crypto/asymmetric.rs:65-100, [SecretKey::from_bytes]: slices of the wrong length panic for EC and Ed25519 *)
Definition secret_from_bytes (P : prims) (rsa : bool) (a : alg) (b : bytes) : result err (secret_key P) :=
  match a with
  | EcdsaP256Sha256 =>
      if has_len 32 b then rmap SkP256 (ok_or (p256_sk P b) ParsePrivateKeyError) else Panic PArrayLen
  | EcdsaP384Sha384 =>
      if has_len 48 b then rmap SkP384 (ok_or (p384_sk P b) ParsePrivateKeyError) else Panic PArrayLen
  | Ed25519 => if has_len 32 b then Ok (SkEd25519 (ed_sk P b)) else Panic PArrayLen
  | RsaV1_5Sha256 =>
      if rsa then rmap SkRsa15 (ok_or (rsa_sk P b) ParsePrivateKeyError) else Err ParsePrivateKeyError
  | RsaPssSha512 =>
      if rsa then rmap SkPss (ok_or (rsa_sk P b) ParsePrivateKeyError) else Err ParsePrivateKeyError
  | HmacSha256 => Err ParsePrivateKeyError
  end.

(** crypto/asymmetric.rs:113-117, 313-317 *)
Definition curve_alg (o : str) : option alg :=
  if str_eqb o oid_p256 then Some EcdsaP256Sha256 else if str_eqb o oid_p384 then Some EcdsaP384Sha384 else None.

Definition is_rsa_alg (a : alg) : bool := match a with RsaV1_5Sha256 | RsaPssSha512 => true | _ => false end.

(** crypto/asymmetric.rs:103-149, [SecretKey::from_der] *)
Definition secret_from_der (P : prims) (rsa : bool) (a : alg) (der : bytes) : result err (secret_key P) :=
  let* pki := ok_or (d_pki P der) ParsePrivateKeyError in
  let* sk_bytes :=
    if str_eqb (ki_oid pki) oid_ec then
      let* param := ok_or (ki_params pki) ParsePrivateKeyError in
      let* an := ok_or (curve_alg param) ParsePrivateKeyError in
      if negb (alg_eqb an a) then Err ParsePrivateKeyError
      else ok_or (d_ec P (ki_key pki)) ParsePrivateKeyError
    else if str_eqb (ki_oid pki) oid_ed25519 then
      if negb (alg_eqb Ed25519 a) then Err ParsePrivateKeyError
      else if Nat.ltb (List.length (ki_key pki)) 2 then Panic PSlice
      else Ok (skipn 2 (ki_key pki))
    else if rsa && str_eqb (ki_oid pki) oid_rsa then
      if negb (is_rsa_alg a) then Err ParsePrivateKeyError else Ok (ki_key pki)
    else Err ParsePrivateKeyError in
  secret_from_bytes P rsa a sk_bytes.

(** crypto/asymmetric.rs:152-158, [SecretKey::from_pem] *)
Definition secret_from_pem (P : prims) (rsa : bool) (a : alg) (pem : str) : result err (secret_key P) :=
  let* (tag, doc) := ok_or (d_pem P pem) ParsePrivateKeyError in
  if negb (str_eqb tag (lit "PRIVATE KEY")) then Err ParsePrivateKeyError
  else secret_from_der P rsa a doc.

(** crypto/asymmetric.rs:161-171, [SecretKey::public_key] *)
Definition secret_public {P} (k : secret_key P) : public_key P :=
  match k with
  | SkP256 k => PkP256 (p256_pub P k)
  | SkP384 k => PkP384 (p384_pub P k)
  | SkEd25519 k => PkEd25519 (ed_pub P k)
  | SkRsa15 k => PkRsa15 (rsa_pub P k)
  | SkPss k => PkPss (rsa_pub P k)
  end.

(** crypto/asymmetric.rs:176-212, [SecretKey::sign]; [seed] is the randomness of Ed25519 noise and RSA *)
Definition secret_sign {P} (k : secret_key P) (seed : N) (data : bytes) : result err bytes :=
  match k with
  | SkP256 k => Ok (p256_sign P k data)
  | SkP384 k => Ok (p384_sign P k data)
  | SkEd25519 k => Ok (ed_sign P seed k data)
  | SkRsa15 k => Ok (rsa_sign P RsaV1_5Sha256 seed k data)
  | SkPss k => Ok (rsa_sign P RsaPssSha512 seed k data)
  end.

(** crypto/asymmetric.rs:260-293, [PublicKey::from_bytes] *)
Definition public_from_bytes (P : prims) (rsa : bool) (a : alg) (b : bytes) : result err (public_key P) :=
  match a with
  | EcdsaP256Sha256 => rmap PkP256 (ok_or (p256_pk P b) ParsePublicKeyError)
  | EcdsaP384Sha384 => rmap PkP384 (ok_or (p384_pk P b) ParsePublicKeyError)
  | Ed25519 => rmap PkEd25519 (ok_or (ed_pk P b) ParsePublicKeyError)
  | RsaV1_5Sha256 => if rsa then rmap PkRsa15 (ok_or (rsa_pk P b) ParsePublicKeyError) else Err ParsePublicKeyError
  | RsaPssSha512 => if rsa then rmap PkPss (ok_or (rsa_pk P b) ParsePublicKeyError) else Err ParsePublicKeyError
  | HmacSha256 => Err ParsePublicKeyError
  end.

(** crypto/asymmetric.rs:297-353, [PublicKey::from_pem] *)
Definition public_from_pem (P : prims) (rsa : bool) (a : alg) (pem : str) : result err (public_key P) :=
  let* (tag, doc) := ok_or (d_pem P pem) ParsePublicKeyError in
  if negb (str_eqb tag (lit "PUBLIC KEY")) then Err ParsePublicKeyError
  else
    let* spki := ok_or (d_spki P doc) ParsePublicKeyError in
    let* pk_bytes :=
      if str_eqb (si_oid spki) oid_ec then
        let* param := ok_or (si_params spki) ParsePublicKeyError in
        let* an := ok_or (curve_alg param) ParsePublicKeyError in
        if negb (alg_eqb an a) then Err ParsePublicKeyError
        else ok_or (si_key spki) ParsePublicKeyError
      else if str_eqb (si_oid spki) oid_ed25519 then
        if negb (alg_eqb Ed25519 a) then Err ParsePublicKeyError
        else ok_or (si_key spki) ParsePublicKeyError
      else if rsa && str_eqb (si_oid spki) oid_rsa then
        if negb (is_rsa_alg a) then Err ParsePublicKeyError else ok_or (si_key spki) ParsePublicKeyError
      else Err ParsePublicKeyError in
    public_from_bytes P rsa a pk_bytes.

(** crypto/asymmetric.rs:358-402, [PublicKey::verify]: [signature.into()] panics unless the slice has
    exactly 64 (P-256) or 96 (P-384) bytes *)
Definition public_verify {P} (k : public_key P) (data sig : bytes) : result err unit :=
  let check (ok : bool) (v : bool) : result err unit :=
    if negb ok then Err ParseSignatureError else if v then Ok tt else Err InvalidSignature in
  match k with
  | PkP256 k => if has_len 64 sig then check (p256_sig_ok P sig) (p256_verify P k data sig) else Panic PArrayLen
  | PkP384 k => if has_len 96 sig then check (p384_sig_ok P sig) (p384_verify P k data sig) else Panic PArrayLen
  | PkEd25519 k => check (ed_sig_ok P sig) (ed_verify P k data sig)
  | PkRsa15 k => check (rsa_sig_ok P RsaV1_5Sha256 sig) (rsa_verify P RsaV1_5Sha256 k data sig)
  | PkPss k => check (rsa_sig_ok P RsaPssSha512 sig) (rsa_verify P RsaPssSha512 k data sig)
  end.

(** crypto/asymmetric.rs:408-432, [PublicKey::key_id] *)
Definition public_bytes {P} (k : public_key P) : bytes :=
  let der (o : option bytes) := match o with Some b => b | None => lit "rsa-der-serialization-failed" end in
  match k with
  | PkP256 k => p256_point P k
  | PkP384 k => p384_point P k
  | PkEd25519 k => ed_bytes P k
  | PkRsa15 k => der (rsa_der P k)
  | PkPss k => der (rsa_der P k)
  end.
Definition public_key_id {P} (k : public_key P) : str := b64_encode (p_sha256 P (public_bytes k)).

(** crypto/asymmetric.rs:435-445, [PublicKey::alg] *)
Definition public_alg {P} (k : public_key P) : alg :=
  match k with
  | PkP256 _ => EcdsaP256Sha256
  | PkP384 _ => EcdsaP384Sha384
  | PkEd25519 _ => Ed25519
  | PkRsa15 _ => RsaV1_5Sha256
  | PkPss _ => RsaPssSha512
  end.

(** impl SigningKey for SecretKey (crypto/asymmetric.rs:174-223), impl VerifyingKey for SecretKey (225-237),
    impl VerifyingKey for PublicKey (356-446) *)
Definition secret_signing {P} (k : secret_key P) : signing_key :=
  mkSigning (secret_sign k) (public_key_id (secret_public k)) (public_alg (secret_public k)).
Definition secret_verifying {P} (k : secret_key P) : verifying_key :=
  mkVerifying (public_verify (secret_public k)) (public_key_id (secret_public k)) (public_alg (secret_public k)).
Definition public_verifying {P} (k : public_key P) : verifying_key :=
  mkVerifying (public_verify k) (public_key_id k) (public_alg k).
