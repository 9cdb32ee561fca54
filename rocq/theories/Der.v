(** The DER structures of key files: crates der 0.7, const-oid 0.9, pkcs8 0.10, spki 0.7 and sec1 0.7 as far as
    httpsig/src/crypto/asymmetric.rs:103-149 and 297-353 use them. All decoding errors become the same error variant there,
    so a decoder is a partial function. Written from the documentation of the crates. *)
From Verif Require Import Base Crypto.

(** [Tag::try_from]: single octet tags; the numbers of the universal class are those the crate knows *)
Definition known_tag (t : N) : bool :=
  negb (t mod 32 =? 31)
  && (((64 <=? t) && (t <? 256)) || existsb (N.eqb t) [1; 2; 3; 4; 5; 6; 9; 10; 12; 18; 19; 20; 21; 22; 23; 24; 26; 29; 30; 48; 49]).

Definition big_endian (l : bytes) : N := fold_left (fun a b => a * 256 + b) l 0.
(** [Length::decode]: at most four octets, the shortest form only, less than 256 MiB *)
Definition read_len (b : bytes) : option (N * bytes) :=
  match b with
  | [] => None
  | x :: r =>
      if x <? 128 then Some (x, r)
      else let k := N.to_nat (x - 128) in
           if (x =? 128) || (132 <? x) || Nat.ltb (List.length r) k then None
           else let n := big_endian (firstn k r) in
                if (n <? (if Nat.eqb k 1 then 128 else 256 ^ (x - 129))) || (268435455 <? n) then None else Some (n, skipn k r)
  end.
(** [AnyRef::decode]: tag, value and what follows *)
Definition read_any (b : bytes) : option (N * bytes * bytes) :=
  match b with
  | [] => None
  | t :: r => if known_tag t then
                match read_len r with
                | Some (n, r') => if N.of_nat (List.length r') <? n then None else Some (t, firstn (N.to_nat n) r', skipn (N.to_nat n) r')
                | None => None
                end
              else None
  end.
Definition read_tag (t : N) (b : bytes) : option (bytes * bytes) :=
  match read_any b with
  | Some (t', c, r) => if t' =? t then Some (c, r) else None
  | None => None
  end.
(** a value that is all there is *)
Definition read_only (t : N) (b : bytes) : option bytes :=
  match read_tag t b with Some (c, []) => Some c | _ => None end.

(** [Decode::from_der] of a sequence: the document is not longer than a length can be *)
Definition read_doc (b : bytes) : option bytes := if 268435455 <? N.of_nat (List.length b) then None else read_only 48 b.

(** [ObjectIdentifier::from_bytes] and [Display]: arcs in base 128, none with leading zeros *)
Fixpoint arcs (fresh : bool) (acc : N) (b : bytes) : option (list N) :=
  match b with
  | [] => if fresh then Some [] else None
  | x :: r =>
      if fresh && (x =? 128) then None
      else let acc' := acc * 128 + x mod 128 in
           if 128 <=? x then arcs false acc' r
           else if 4294967295 <? acc' then None
           else match arcs true 0 r with Some l => Some (acc' :: l) | None => None end
  end.
Definition oid_text (b : bytes) : option str :=
  match b with
  | x :: _ :: _ :: _ =>
      if (119 <? x) || Nat.ltb 39 (List.length b) then None
      else match arcs true 0 (tl b) with Some l => Some (join (lit ".") (map dec (x / 40 :: x mod 40 :: l))) | None => None end
  | _ => None
  end.

(** spki::AlgorithmIdentifierRef: OID and optional parameters of any type; [parameters_oid] wants an OID *)
Definition read_algorithm (b : bytes) : option (str * option str * bytes) :=
  match read_tag 48 b with
  | None => None
  | Some (c, r) =>
      match read_tag 6 c with
      | None => None
      | Some (o, ps) =>
          match oid_text o with
          | None => None
          | Some name =>
              match ps with
              | [] => Some (name, None, r)
              | _ => match read_any ps with
                     | Some (t, p, []) => Some (name, if t =? 6 then oid_text p else None, r)
                     | _ => None
                     end
              end
          end
      end
  end.

(** BitStringRef: the number of unused bits of the last octet, and the octets *)
Definition bit_string (c : bytes) : option (N * bytes) :=
  match c with
  | [] => None
  | u :: b => if (7 <? u) || (negb (u =? 0) && is_empty b) then None else Some (u, b)
  end.
Definition whole_octets (c : bytes) : option bytes :=
  match bit_string c with Some (0, b) => Some b | _ => None end.

(** [Reader::context_specific]: elements with a smaller context-specific number are skipped. The result is the element with that
    number (tag and value), if there is one, and what follows. [fuel] bounds the number of elements. *)
Fixpoint context (fuel : nat) (k : N) (b : bytes) : option (option (N * bytes) * bytes) :=
  match fuel, b with
  | _, [] => Some (None, [])
  | O, _ => None
  | S f, t :: _ =>
      if negb (known_tag t) then None
      else if negb (t / 64 =? 2) || (k <? t mod 32) then Some (None, b)
      else match read_any b with
           | None => None
           | Some (t', c, r) => if t mod 32 =? k then Some (Some (t', c), r) else context f k r
           end
  end.
(** further extensions: each a constructed context-specific element with one element inside *)
Fixpoint extensions (fuel : nat) (b : bytes) : bool :=
  match fuel, b with
  | _, [] => true
  | O, _ => false
  | S f, _ => match read_any b with
              | Some (t, c, r) => (160 <=? t) && (t <? 192) && match read_any c with Some (_, _, []) => true | _ => false end && extensions f r
              | None => false
              end
  end.

(** pkcs8::PrivateKeyInfo: version 0 without and version 1 with a public key *)
Definition der_pki (b : bytes) : option key_info :=
  match read_doc b with
  | None => None
  | Some c =>
      match read_tag 2 c with
      | Some ([v], r) =>
          match read_algorithm r with
          | None => None
          | Some (o, p, r) =>
              match read_tag 4 r with
              | None => None
              | Some (key, r) =>
                  let info := mkKeyInfo o p key in
                  match context (List.length r) 1 r with
                  | Some (None, r) => if (v =? 0) && extensions (List.length r) r then Some info else None
                  | Some (Some (t, c), r) =>
                      if (v =? 1) && (t =? 129) && is_some (whole_octets c) && extensions (List.length r) r then Some info else None
                  | None => None
                  end
              end
          end
      | _ => None
      end
  end.

(** spki::SubjectPublicKeyInfoRef; [as_bytes] of the key is [None] when there are unused bits *)
Definition der_spki (b : bytes) : option spk_info :=
  match read_doc b with
  | None => None
  | Some c =>
      match read_algorithm c with
      | None => None
      | Some (o, p, r) =>
          match read_only 3 r with
          | None => None
          | Some k => match bit_string k with
                      | Some (u, key) => Some (mkSpkInfo o p (if u =? 0 then Some key else None))
                      | None => None
                      end
          end
      end
  end.

(** sec1::EcPrivateKey, its field private_key *)
Definition der_ec (b : bytes) : option bytes :=
  match read_doc b with
  | None => None
  | Some c =>
      match read_tag 2 c with
      | Some ([1], r) =>
          match read_tag 4 r with
          | None => None
          | Some (key, r) =>
              match context (List.length r) 0 r with
              | None => None
              | Some (ps, r) =>
                  if match ps with
                     | None => true
                     | Some (t, c) => (t =? 160) && match read_only 6 c with Some o => is_some (oid_text o) | None => false end
                     end
                  then match context (List.length r) 1 r with
                       | Some (None, []) => Some key
                       | Some (Some (t, c), []) =>
                           if (t =? 161) && match read_only 3 c with Some k => is_some (whole_octets k) | None => false end then Some key else None
                       | _ => None
                       end
                  else None
              end
          end
      | _ => None
      end
  end.

(** any primitives, with these decoders *)
Definition with_der (P : prims) : prims := {|
  p_sha256 := p_sha256 P; p_hmac256 := p_hmac256 P;
  Sk256 := Sk256 P; Pk256 := Pk256 P; p256_sk := p256_sk P; p256_pub := p256_pub P; p256_pk := p256_pk P; p256_point := p256_point P;
  p256_sign := p256_sign P; p256_sig_ok := p256_sig_ok P; p256_verify := p256_verify P;
  Sk384 := Sk384 P; Pk384 := Pk384 P; p384_sk := p384_sk P; p384_pub := p384_pub P; p384_pk := p384_pk P; p384_point := p384_point P;
  p384_sign := p384_sign P; p384_sig_ok := p384_sig_ok P; p384_verify := p384_verify P;
  SkEd := SkEd P; PkEd := PkEd P; ed_sk := ed_sk P; ed_pub := ed_pub P; ed_pk := ed_pk P; ed_bytes := ed_bytes P;
  ed_sign := ed_sign P; ed_sig_ok := ed_sig_ok P; ed_verify := ed_verify P;
  SkRsa := SkRsa P; PkRsa := PkRsa P; rsa_sk := rsa_sk P; rsa_pub := rsa_pub P; rsa_pk := rsa_pk P; rsa_der := rsa_der P;
  rsa_sign := rsa_sign P; rsa_sig_ok := rsa_sig_ok P; rsa_verify := rsa_verify P;
  d_pem := d_pem P; d_pki := der_pki; d_spki := der_spki; d_ec := der_ec |}.
