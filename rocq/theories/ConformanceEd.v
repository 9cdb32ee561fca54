(** The test vector of RFC 9421 B.2.6, as in httpsig/src/lib.rs:32-75, with the arithmetic of Ed25519. *)
From Verif Require Import Base Utf8 Base64 Sfv Component Crypto Params SigBase Http Hyper Sha2 Toy Der Curve25519 Conformance.

(** ** lib.rs:32-161 with the arithmetic of Ed25519: RFC 9421 B.2.6 *)
Definition real_ed : prims := with_der {|
  p_sha256 := sha256; p_hmac256 := hmac256;
  Sk256 := Sk256 toy; Pk256 := Pk256 toy; p256_sk := p256_sk toy; p256_pub := p256_pub toy; p256_pk := p256_pk toy; p256_point := p256_point toy;
  p256_sign := p256_sign toy; p256_sig_ok := p256_sig_ok toy; p256_verify := p256_verify toy;
  Sk384 := Sk384 toy; Pk384 := Pk384 toy; p384_sk := p384_sk toy; p384_pub := p384_pub toy; p384_pk := p384_pk toy; p384_point := p384_point toy;
  p384_sign := p384_sign toy; p384_sig_ok := p384_sig_ok toy; p384_verify := p384_verify toy;
  SkEd := bytes; PkEd := bytes; ed_sk := fun seed => seed; ed_pub := ed_public_key; ed_pk := fun b => if Nat.eqb (List.length b) 32 then Some b else None; ed_bytes := fun b => b;
  ed_sign := fun _ k d => ed_signature k d; ed_sig_ok := fun s => Nat.eqb (List.length s) 64; ed_verify := ed_valid;
  SkRsa := SkRsa toy; PkRsa := PkRsa toy; rsa_sk := rsa_sk toy; rsa_pub := rsa_pub toy; rsa_pk := rsa_pk toy; rsa_der := rsa_der toy;
  rsa_sign := rsa_sign toy; rsa_sig_ok := rsa_sig_ok toy; rsa_verify := rsa_verify toy;
  d_pem := pem_doc; d_pki := d_pki toy; d_spki := d_spki toy; d_ec := d_ec toy |}.
Definition b26_public_pem : str := pem_text [lit "-----BEGIN PUBLIC KEY-----"; lit "MCowBQYDK2VwAyEAJrQLj5P/89iXES9+vFgrIy29clF9CC/oPPsw3c5D0bs="; lit "-----END PUBLIC KEY-----"] ++ nl.
(** test_using_test_vector_ed25519, for the whole message of the RFC as it is received *)
Definition b26_received : msg := MReq (mkReq (lit "POST") (mkUri (Some (lit "https")) (Some (lit "example.com")) (lit "/foo") (Some (lit "param=Value&Pet=dog")))
  (rq_headers rfc_request ++ [(lit "signature-input", lit "sig-b26=" ++ b26_params); (lit "signature", lit "sig-b26=" ++ b26_value)]) (rq_body rfc_request)).
Definition b26_verify : result herr str :=
  match public_from_pem real_ed false Ed25519 b26_public_pem with
  | Ok pk => verify_message_signature (fun _ _ => now) b26_received None (public_verifying pk) (Some (lit "test-key-ed25519"))
  | _ => Err HInvalidSignature
  end.
(** the other checks (the signature is the one that is made without noise, another path is rejected) take a kernel without compiled reduction too long *)
Example rfc_b26 : b26_verify = Ok (lit "sig-b26").
Proof. run. Qed.
