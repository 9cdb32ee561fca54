(** Specification vocabulary for key files: how they are written (X.690 DER; RFC 5958, RFC 5280, RFC 5915, RFC 8410, RFC 5480). *)
From Verif Require Import Base Crypto SpecSfv.

(** ** DER *)
(** the octets of a length, as few as possible *)
Definition len_octets (n : N) : bytes :=
  if n <? 128 then [n] else if n <? 256 then [129; n] else if n <? 65536 then [130; n / 256; n mod 256]
  else if n <? 16777216 then [131; n / 65536; n / 256 mod 256; n mod 256] else [132; n / 16777216; n / 65536 mod 256; n / 256 mod 256; n mod 256].
(** an element: tag, length, value *)
Definition elem (t : N) (c : bytes) : bytes := t :: len_octets (N.of_nat (List.length c)) ++ c.
Definition small (b : bytes) : Prop := N.of_nat (List.length b) < 268435456.
(** tags: one octet; of the universal class those in use *)
Definition tag (t : N) : Prop :=
  t < 256 /\ t mod 32 <> 31 /\ (64 <= t \/ In t [1; 2; 3; 4; 5; 6; 9; 10; 12; 18; 19; 20; 21; 22; 23; 24; 26; 29; 30; 48; 49]).
Definition element (e : bytes) : Prop := exists t c, tag t /\ e = elem t c.
Definition tSequence : N := 48. Definition tInteger : N := 2. Definition tOctets : N := 4. Definition tBits : N := 3. Definition tOid : N := 6.

(** ** object identifiers *)
(** one number in base 128: all octets but the last have the high bit, no zeros in front, less than 2^32 *)
Definition arc_value (a : bytes) : N := fold_left (fun n d => n * 128 + d mod 128) a 0.
Definition arc (a : bytes) : Prop :=
  exists p x, a = p ++ [x] /\ Forall (fun d => 128 <= d < 256) p /\ x < 128 /\ (forall q, p <> 128 :: q) /\ arc_value a < 4294967296.
Definition oid (o : bytes) : Prop := exists x l, o = x :: concat l /\ x < 120 /\ Forall arc l /\ (3 <= List.length o <= 39)%nat.
Definition id_ec : bytes := [42; 134; 72; 206; 61; 2; 1].
Definition id_p256 : bytes := [42; 134; 72; 206; 61; 3; 1; 7].
Definition id_p384 : bytes := [43; 129; 4; 0; 34].
Definition id_ed25519 : bytes := [43; 101; 112].
Definition id_rsa : bytes := [42; 134; 72; 134; 247; 13; 1; 1; 1].
(** the AlgorithmIdentifier of an algorithm: EC names the curve; for the others the parameters are not looked at *)
Definition algorithm (a : alg) (b : bytes) : Prop :=
  match a with
  | HmacSha256 => False
  | EcdsaP256Sha256 => b = elem tSequence (elem tOid id_ec ++ elem tOid id_p256)
  | EcdsaP384Sha384 => b = elem tSequence (elem tOid id_ec ++ elem tOid id_p384)
  | Ed25519 => exists ps, (ps = [] \/ element ps) /\ b = elem tSequence (elem tOid id_ed25519 ++ ps)
  | RsaV1_5Sha256 | RsaPssSha512 => exists ps, (ps = [] \/ element ps) /\ b = elem tSequence (elem tOid id_rsa ++ ps)
  end.

(** ** PKCS#8 *)
(** a context-specific element with number 0 (attributes) *)
Definition attribute (e : bytes) : Prop := exists t c, (t = 128 \/ t = 160) /\ e = elem t c.
(** a constructed context-specific element with one element in it *)
Definition extension (e : bytes) : Prop := exists t c, 160 <= t <= 190 /\ element c /\ e = elem t c.
(** what may follow the private key: attributes, in version 1 the public key, extensions *)
Definition pki_tail (v : N) (b : bytes) : Prop :=
  exists xs pub es, Forall attribute xs /\ Forall extension es /\ b = concat xs ++ pub ++ concat es
  /\ (v = 0 /\ pub = [] /\ (forall e r, es = e :: r -> 161 < hd 0 e) \/ v = 1 /\ exists k, pub = elem 129 (0 :: k)).
(** a PKCS#8 document with this algorithm identifier and key octets *)
Definition pki_file (b ai key : bytes) : Prop :=
  exists v t, pki_tail v t /\ b = elem tSequence (elem tInteger [v] ++ ai ++ elem tOctets key ++ t) /\ small b.

(** ** EC private keys (RFC 5915): any named curve and the public key may follow the private key *)
Definition ec_tail (b : bytes) : Prop :=
  exists ps xs pub, b = ps ++ concat xs ++ pub /\ Forall attribute xs
  /\ (ps = [] /\ xs = [] \/ exists o, oid o /\ ps = elem 160 (elem tOid o))
  /\ (pub = [] \/ exists k, pub = elem 161 (elem tBits (0 :: k))).
Definition ec_file (b key : bytes) : Prop :=
  exists t, ec_tail t /\ b = elem tSequence (elem tInteger [1] ++ elem tOctets key ++ t) /\ small b.

(** ** public keys (RFC 5280) *)
Definition spki_file (b ai key : bytes) : Prop := b = elem tSequence (ai ++ elem tBits (0 :: key)) /\ small b.

(** ** the octets of the secret key in the key octets of a PKCS#8 document *)
Definition inner_octets (a : alg) (key s : bytes) : Prop :=
  match a with
  | HmacSha256 => False
  | EcdsaP256Sha256 | EcdsaP384Sha384 => ec_file key s
  | Ed25519 => exists x y, key = x :: y :: s
  | RsaV1_5Sha256 | RsaPssSha512 => key = s
  end.
(** key octets in a document that do not have the length of a secret key *)
Definition wrong_key_length (a : alg) (key : bytes) : Prop :=
  match a with
  | EcdsaP256Sha256 => exists s, ec_file key s /\ List.length s <> 32%nat
  | EcdsaP384Sha384 => exists s, ec_file key s /\ List.length s <> 48%nat
  | Ed25519 => List.length key <> 34%nat
  | _ => False
  end.
(** the algorithms of a file differ at most in the way RSA keys are used *)
Definition same_file_algorithm (a a' : alg) : Prop :=
  a = a' \/ (a = RsaV1_5Sha256 \/ a = RsaPssSha512) /\ (a' = RsaV1_5Sha256 \/ a' = RsaPssSha512).

(** ** the documents of the standards *)
(** RFC 8410, section 7: no parameters; the key octets are an octet string with the 32 octets of the seed *)
Definition ed25519_document (b seed : bytes) : Prop :=
  List.length seed = 32%nat /\ pki_file b (elem tSequence (elem tOid id_ed25519)) (elem tOctets seed).
(** RFC 5915: the curve is that of the algorithm identifier *)
Definition curve_oid (a : alg) : bytes := match a with EcdsaP256Sha256 => id_p256 | _ => id_p384 end.
Definition scalar_length (a : alg) : nat := match a with EcdsaP256Sha256 => 32 | _ => 48 end.
Definition ec_document (a : alg) (b s pub : bytes) : Prop :=
  List.length s = scalar_length a
  /\ exists ps key, (ps = [] \/ ps = elem 160 (elem tOid (curve_oid a)))
     /\ key = elem tSequence (elem tInteger [1] ++ elem tOctets s ++ ps ++ elem 161 (elem tBits (0 :: pub)))
     /\ pki_file b (elem tSequence (elem tOid id_ec ++ elem tOid (curve_oid a))) key.
