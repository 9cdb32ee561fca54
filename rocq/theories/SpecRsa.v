(** Specification vocabulary for RSA keys: PKCS#1 (RFC 8017, appendix A.1). *)
From Verif Require Import Base Crypto SpecSfv SpecDer.

(** the content of an INTEGER that is not negative (X.690, 8.3): big endian, the first bit is clear, no zero octet in front that is not needed *)
Definition number (c : bytes) (n : N) : Prop :=
  c <> [] /\ Forall octet c /\ fold_left (fun a d => a * 256 + d) c 0 = n /\ hd 0 c < 128 /\ (forall y r, c = 0 :: y :: r -> 128 <= y).
(** RSAPublicKey: modulus, public exponent *)
Definition rsa_public_octets (b : bytes) (n e : N) : Prop :=
  exists cn ce, number cn n /\ number ce e /\ b = elem tSequence (elem tInteger cn ++ elem tInteger ce) /\ small b.
(** RSAPrivateKey of two primes: version 0, modulus, public exponent, private exponent, primes, exponents, coefficient *)
Definition rsa_private_octets (b : bytes) (l : list N) : Prop :=
  exists cs, Forall2 number cs l /\ List.length l = 8%nat /\ b = elem tSequence (elem tInteger [0] ++ concat (map (elem tInteger) cs)) /\ small b.
Definition rsa_algorithm (a : alg) : Prop := a = RsaV1_5Sha256 \/ a = RsaPssSha512.
