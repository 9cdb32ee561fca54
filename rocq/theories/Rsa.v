(** The files of RSA keys inside PKCS#8 and SubjectPublicKeyInfo: PKCS#1, crates pkcs1 and rsa as far as
    httpsig/src/crypto/asymmetric.rs:84-97, 277-290 and 415-426 use them. Which numbers the crate rsa accepts and what it computes with them
    is not modelled ([rsa_crate]). Written from the documentation of the crates. *)
From Verif Require Import Base Crypto Der.

(** UintRef: numbers without sign, in the shortest form *)
Definition uint (c : bytes) : option N :=
  match c with
  | [] => None
  | [x] => if x <? 128 then Some x else None
  | x :: y :: _ => if (128 <=? x) || ((x =? 0) && (y <? 128)) then None else Some (big_endian c)
  end.
(** [k] integers one after the other, and what follows *)
Fixpoint read_uints (k : nat) (b : bytes) : option (list N * bytes) :=
  match k with
  | O => Some ([], b)
  | S k => match read_tag 2 b with
           | None => None
           | Some (c, r) =>
               match uint c, read_uints k r with
               | Some n, Some (l, r) => Some (n :: l, r)
               | _, _ => None
               end
           end
  end.
(** pkcs1::RsaPublicKey *)
Definition pkcs1_public (b : bytes) : option (N * N) :=
  match read_doc b with
  | None => None
  | Some c => match read_uints 2 c with Some ([n; e], []) => Some (n, e) | _ => None end
  end.
(** pkcs1::RsaPrivateKey of two primes: modulus, public exponent, private exponent, the primes, exponents and coefficient of the
    Chinese remainder theorem. Keys of more primes (version 1) are refused by the crate rsa. *)
Definition pkcs1_private (b : bytes) : option (list N) :=
  match read_doc b with
  | None => None
  | Some c =>
      match read_tag 2 c with
      | Some ([0], r) => match read_uints 8 r with Some (l, []) => Some l | _ => None end
      | _ => None
      end
  end.

(** the octets of a number, without leading zeros *)
Fixpoint octets_be (fuel : nat) (n : N) (acc : bytes) : bytes :=
  match fuel with
  | O => acc
  | S f => if n =? 0 then acc else octets_be f (n / 256) (n mod 256 :: acc)
  end.
Definition octets (n : N) : bytes := octets_be (N.to_nat (N.size n)) n [].
Definition write_uint (n : N) : bytes :=
  match octets n with
  | [] => [0]
  | x :: r => if 128 <=? x then 0 :: x :: r else x :: r
  end.
Definition write_elem (t : N) (c : bytes) : bytes :=
  let n := N.of_nat (List.length c) in
  t :: (if n <? 128 then [n] else 128 + N.of_nat (List.length (octets n)) :: octets n) ++ c.
(** [to_pkcs1_der] of a public key *)
Definition write_pkcs1_public (k : N * N) : option bytes :=
  let b := write_elem 48 (write_elem 2 (write_uint (fst k)) ++ write_elem 2 (write_uint (snd k))) in
  if 268435455 <? N.of_nat (List.length b) then None else Some b.

Record rsa_crate := {
  R_public : N * N -> bool;                          (* modulus and exponent make a public key *)
  R_private : list N -> bool;                        (* the numbers make a private key *)
  R_sign : alg -> N -> list N -> bytes -> bytes;
  R_sig_ok : alg -> bytes -> bool;
  R_verify : alg -> N * N -> bytes -> bytes -> bool }.
Definition only_if {A} (f : A -> bool) (o : option A) : option A :=
  match o with Some x => if f x then Some x else None | None => None end.
(** any primitives, with RSA keys of this kind *)
Definition with_rsa (R : rsa_crate) (P : prims) : prims := {|
  p_sha256 := p_sha256 P; p_hmac256 := p_hmac256 P;
  Sk256 := Sk256 P; Pk256 := Pk256 P; p256_sk := p256_sk P; p256_pub := p256_pub P; p256_pk := p256_pk P; p256_point := p256_point P;
  p256_sign := p256_sign P; p256_sig_ok := p256_sig_ok P; p256_verify := p256_verify P;
  Sk384 := Sk384 P; Pk384 := Pk384 P; p384_sk := p384_sk P; p384_pub := p384_pub P; p384_pk := p384_pk P; p384_point := p384_point P;
  p384_sign := p384_sign P; p384_sig_ok := p384_sig_ok P; p384_verify := p384_verify P;
  SkEd := SkEd P; PkEd := PkEd P; ed_sk := ed_sk P; ed_pub := ed_pub P; ed_pk := ed_pk P; ed_bytes := ed_bytes P;
  ed_sign := ed_sign P; ed_sig_ok := ed_sig_ok P; ed_verify := ed_verify P;
  SkRsa := list N; PkRsa := N * N;
  rsa_sk := fun b => only_if (R_private R) (pkcs1_private b);
  rsa_pub := fun l => (nth 0 l 0, nth 1 l 0);
  rsa_pk := fun b => only_if (R_public R) (pkcs1_public b);
  rsa_der := write_pkcs1_public;
  rsa_sign := R_sign R; rsa_sig_ok := R_sig_ok R; rsa_verify := R_verify R;
  d_pem := d_pem P; d_pki := d_pki P; d_spki := d_spki P; d_ec := d_ec P |}.
