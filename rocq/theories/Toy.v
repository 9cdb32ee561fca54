(** A toy instance of the cryptographic primitives. It only shows that the hypotheses of the theorems can be met
    (signing is padding, keys are byte strings); nothing here models cryptography. *)
From Verif Require Import Base Base64 Component Crypto.

Definition pad (n : nat) (b : bytes) : bytes := firstn n (b ++ repeat 0 n).
Definition oct (b : bytes) : bytes := map (fun x => x mod 256) b.
Definition toy : prims := {|
  p_sha256 := fun b => pad 32 b;
  p_hmac256 := fun k d => oct (k ++ d);
  Sk256 := bytes; Pk256 := bytes;
  p256_sk := Some; p256_pub := fun k => k; p256_pk := Some; p256_point := fun k => 2 :: k;
  p256_sign := fun k d => pad 64 (oct (k ++ d)); p256_sig_ok := fun _ => true;
  p256_verify := fun k d s => bytes_eqb s (pad 64 (oct (k ++ d)));
  Sk384 := bytes; Pk384 := bytes;
  p384_sk := Some; p384_pub := fun k => k; p384_pk := Some; p384_point := fun k => 3 :: k;
  p384_sign := fun k d => pad 96 (oct (k ++ d)); p384_sig_ok := fun _ => true;
  p384_verify := fun k d s => bytes_eqb s (pad 96 (oct (k ++ d)));
  SkEd := bytes; PkEd := bytes;
  ed_sk := fun b => b; ed_pub := fun k => k; ed_pk := Some; ed_bytes := fun k => k;
  ed_sign := fun r k d => r mod 256 :: oct (k ++ d); ed_sig_ok := fun s => negb (is_empty s);
  ed_verify := fun k d s => bytes_eqb (tl s) (oct (k ++ d));
  SkRsa := bytes; PkRsa := bytes;
  rsa_sk := Some; rsa_pub := fun k => k; rsa_pk := Some; rsa_der := Some;
  rsa_sign := fun a r k d => r mod 256 :: oct (alg_str a ++ k ++ d); rsa_sig_ok := fun _ s => negb (is_empty s);
  rsa_verify := fun a k d s => bytes_eqb (tl s) (oct (alg_str a ++ k ++ d));
  d_pem := fun s => split_once cColon s;
  d_pki := fun b => match b with
                    | 1 :: r => Some (mkKeyInfo (lit "1.2.840.10045.2.1") (Some (lit "1.2.840.10045.3.1.7")) r)
                    | 2 :: r => Some (mkKeyInfo (lit "1.2.840.10045.2.1") (Some (lit "1.3.132.0.34")) r)
                    | 3 :: r => Some (mkKeyInfo (lit "1.3.101.112") None r)
                    | 4 :: r => Some (mkKeyInfo (lit "1.2.840.113549.1.1.1") None r)
                    | _ => None
                    end;
  d_spki := fun b => match b with
                    | 1 :: r => Some (mkSpkInfo (lit "1.2.840.10045.2.1") (Some (lit "1.2.840.10045.3.1.7")) (Some r))
                    | 2 :: r => Some (mkSpkInfo (lit "1.2.840.10045.2.1") (Some (lit "1.3.132.0.34")) (Some r))
                    | 3 :: r => Some (mkSpkInfo (lit "1.3.101.112") None (Some r))
                    | 4 :: r => Some (mkSpkInfo (lit "1.2.840.113549.1.1.1") None (Some r))
                    | _ => None
                    end;
  d_ec := Some |}.
