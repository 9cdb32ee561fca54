(** C27-C31, C62: algorithms and keys. *)
From Verif Require Import Base BaseFacts Base64 Base64Facts Component Crypto SpecSfv SpecSfvProofs SpecCrypto Toy CryptoProofs.

(** ** C27 *)
Theorem C27_names_exact : forall rsa s a,
  alg_of_str rsa s = Ok a <-> In (s, a) (registered ++ if rsa then registered_rsa else []).
Proof. exact alg_of_str_spec. Qed.
Print Assumptions C27_names_exact.
Theorem C27_refusal : forall (rsa : bool) s,
  (forall a, ~ In (s, a) (registered ++ if rsa then registered_rsa else [])) -> alg_of_str rsa s = Err InvalidAlgorithmName.
Proof.
  intros rsa s H. destruct (alg_of_str_total rsa s) as [[a Ha]|E]; [|exact E].
  apply alg_of_str_spec in Ha. exfalso. exact (H a Ha).
Qed.
Print Assumptions C27_refusal.
Theorem C27_to_string : forall a, In (alg_str a, a) (registered ++ registered_rsa).
Proof. exact alg_str_spec. Qed.
Print Assumptions C27_to_string.
Theorem C27_round_trip : forall rsa a, enabled rsa a -> alg_of_str rsa (alg_str a) = Ok a.
Proof. exact alg_round. Qed.
Print Assumptions C27_round_trip.
Theorem C27_distinct : forall a b, alg_str a = alg_str b -> a = b.
Proof. exact alg_str_inj. Qed.
Print Assumptions C27_distinct.
Example C27_example : alg_of_str false (lit "ed25519") = Ok Ed25519 /\ alg_of_str true (lit "rsa-pss-sha512") = Ok RsaPssSha512
  /\ alg_of_str false (lit "rsa-pss-sha512") = Err InvalidAlgorithmName /\ alg_of_str true (lit "Ed25519") = Err InvalidAlgorithmName.
Proof. repeat split; reflexivity. Qed.

(** ** C28 *)
Theorem C28_verify_exact : forall P k d m, shared_verify P k d m = Ok tt <-> shared_sign P k d = Ok m.
Proof. exact shared_verify_exact. Qed.
Print Assumptions C28_verify_exact.
Theorem C28_verify_otherwise : forall P k d m, shared_sign P k d <> Ok m -> shared_verify P k d m = Err InvalidSignature.
Proof. exact shared_verify_else. Qed.
Print Assumptions C28_verify_otherwise.
Theorem C28_mac : forall P a t k d, shared_from_base64 a t = Ok k ->
  a = HmacSha256 /\ shared_alg k = HmacSha256
  /\ exists kb, t = b64_text kb /\ Forall octet kb /\ shared_sign P k d = Ok (p_hmac256 P kb d).
Proof.
  intros P a t k d. unfold shared_from_base64. destruct (b64_decode false t) as [b|] eqn:E; cbn [ok_or bind]; [|discriminate].
  intro H. assert (Hb := b64_decode_bytes _ _ _ E). apply b64_strict_canonical in E. destruct a; inv H.
  split; [reflexivity|]. split; [reflexivity|]. exists b. rewrite <- b64_text_spec by exact Hb. auto.
Qed.
Print Assumptions C28_mac.
Example C28_example : exists k, shared_from_base64 HmacSha256 (lit "Zm9v") = Ok k
  /\ shared_sign toy k (lit "data") = Ok (lit "foodata") /\ shared_verify toy k (lit "data") (lit "foodata") = Ok tt
  /\ shared_verify toy k (lit "data") (lit "foodat") = Err InvalidSignature.
Proof. exists (ShHmacSha256 (lit "foo")). repeat split; reflexivity. Qed.

(** ** C29 *)
Theorem C29_secret_der : forall P rsa a der k, secret_from_der P rsa a der = Ok k <->
  exists pki b, d_pki P der = Some pki /\ oids_of a (ki_oid pki) (ki_params pki) /\ file_octets P a (ki_key pki) b
    /\ enabled rsa a /\ secret_kind k = a /\ secret_octets P k b.
Proof. exact secret_from_der_iff. Qed.
Print Assumptions C29_secret_der.
Theorem C29_secret_pem : forall P rsa a pem k, secret_from_pem P rsa a pem = Ok k <->
  exists doc, d_pem P pem = Some (lit "PRIVATE KEY", doc) /\ secret_from_der P rsa a doc = Ok k.
Proof. exact secret_from_pem_iff. Qed.
Print Assumptions C29_secret_pem.
Theorem C29_public_pem : forall P rsa a pem k, public_from_pem P rsa a pem = Ok k <->
  exists doc, d_pem P pem = Some (lit "PUBLIC KEY", doc) /\ exists s b,
    d_spki P doc = Some s /\ oids_of a (si_oid s) (si_params s) /\ si_key s = Some b
    /\ enabled rsa a /\ public_kind k = a /\ public_octets P k b.
Proof.
  intros. split; [apply public_from_pem_sound|]. intros (doc & Hd & Hs). exact (public_from_pem_complete P rsa a pem k doc Hd Hs).
Qed.
Print Assumptions C29_public_pem.
Theorem C29_reported_algorithm : forall P rsa a der pem k pk,
  (secret_from_der P rsa a der = Ok k -> sk_alg (secret_signing k) = a /\ vk_alg (secret_verifying k) = a)
  /\ (secret_from_pem P rsa a pem = Ok k -> sk_alg (secret_signing k) = a /\ vk_alg (secret_verifying k) = a)
  /\ (public_from_pem P rsa a pem = Ok pk -> vk_alg (public_verifying pk) = a).
Proof.
  intros P rsa a der pem k pk. cbn [sk_alg vk_alg secret_signing secret_verifying public_verifying].
  rewrite secret_kind_alg, public_kind_alg. split; [|split].
  - intro H. apply secret_from_der_sound in H as (? & ? & _ & _ & _ & _ & H & _). auto.
  - intro H. apply secret_from_pem_iff in H as (doc & _ & H). apply secret_from_der_sound in H as (? & ? & _ & _ & _ & _ & H & _). auto.
  - intro H. apply public_from_pem_sound in H as (? & _ & ? & ? & _ & _ & _ & _ & H & _). exact H.
Qed.
Print Assumptions C29_reported_algorithm.
Theorem C29_hmac_refused : forall P rsa der pem,
  secret_from_der P rsa HmacSha256 der = Err ParsePrivateKeyError
  /\ secret_from_pem P rsa HmacSha256 pem = Err ParsePrivateKeyError
  /\ public_from_pem P rsa HmacSha256 pem = Err ParsePublicKeyError.
Proof. intros. split; [apply hmac_der|]. split; [apply hmac_pem|apply hmac_pub]. Qed.
Print Assumptions C29_hmac_refused.
Example C29_example :
  secret_from_pem toy false EcdsaP256Sha256 (lit "PRIVATE KEY:" ++ 1 :: repeat 7 32) = Ok (SkP256 (repeat 7 32 : Sk256 toy))
  /\ secret_from_pem toy false EcdsaP384Sha384 (lit "PRIVATE KEY:" ++ 1 :: repeat 7 32) = Err ParsePrivateKeyError
  /\ public_from_pem toy true RsaPssSha512 (lit "PUBLIC KEY:" ++ [4; 9]) = Ok (PkPss ([9] : PkRsa toy)).
Proof. repeat split; reflexivity. Qed.

(** ** C30 *)
(** the bytes that identify a public key: compressed SEC1 point, Ed25519 bytes, PKCS#1 DER *)
Definition identity_bytes {P} (k : public_key P) (b : bytes) : Prop :=
  match k with
  | PkP256 k => b = p256_point P k
  | PkP384 k => b = p384_point P k
  | PkEd25519 k => b = ed_bytes P k
  | PkRsa15 k | PkPss k => rsa_der P k = Some b
  end.
Theorem C30_halves_agree : forall P (k : secret_key P),
  sk_key_id (secret_signing k) = vk_key_id (public_verifying (secret_public k))
  /\ vk_key_id (secret_verifying k) = vk_key_id (public_verifying (secret_public k))
  /\ sk_alg (secret_signing k) = secret_kind k
  /\ vk_alg (secret_verifying k) = secret_kind k
  /\ vk_alg (public_verifying (secret_public k)) = secret_kind k
  /\ forall d s, vk_verify (secret_verifying k) d s = vk_verify (public_verifying (secret_public k)) d s.
Proof. intros P k. repeat split; apply secret_kind_alg. Qed.
Print Assumptions C30_halves_agree.
Theorem C30_key_id : forall P (k : public_key P) b, identity_bytes k b -> Forall octet (p_sha256 P b) ->
  vk_key_id (public_verifying k) = b64_text (p_sha256 P b).
Proof.
  intros P k b Hb Ho. cbn [vk_key_id public_verifying]. unfold public_key_id. rewrite <- b64_text_spec by exact Ho.
  destruct k; cbn [identity_bytes] in Hb; subst; cbn [public_bytes]; try rewrite Hb; reflexivity.
Qed.
Print Assumptions C30_key_id.
Theorem C30_shared : forall P kb, Forall octet (p_sha256 P kb) ->
  sk_key_id (shared_signing P (ShHmacSha256 kb)) = b64_text (p_sha256 P kb)
  /\ vk_key_id (shared_verifying P (ShHmacSha256 kb)) = b64_text (p_sha256 P kb)
  /\ sk_alg (shared_signing P (ShHmacSha256 kb)) = HmacSha256
  /\ vk_alg (shared_verifying P (ShHmacSha256 kb)) = HmacSha256.
Proof. intros P kb H. rewrite <- b64_text_spec by exact H. repeat split. Qed.
Print Assumptions C30_shared.
Example C30_example : vk_key_id (public_verifying (PkP256 ([1; 2; 3] : Pk256 toy)))
  = lit "AgECAwAAAAAAAAAAAAAAAAAAAAAAAAAAAAAAAAAAAAA=".
Proof. vm_compute. reflexivity. Qed.

(** ** C31 *)
(** false as stated: an ECDSA key panics on a signature of another length *)
Theorem C31_refuted : exists (P : prims) (k : public_key P) d s p, correct P /\ public_verify k d s = Panic p.
Proof. exists toy, (PkP256 ([1] : Pk256 toy)), (lit "data"), [0], PArrayLen. split; [apply toy_correct|reflexivity]. Qed.
Print Assumptions C31_refuted.
(** exactly these signatures panic *)
Theorem C31_panics_exactly : forall P (k : public_key P) d s, (exists p, vk_verify (public_verifying k) d s = Panic p) <->
  match k with
  | PkP256 _ => List.length s <> 64%nat
  | PkP384 _ => List.length s <> 96%nat
  | _ => False
  end.
Proof. intros. apply public_verify_panic. Qed.
Print Assumptions C31_panics_exactly.
Theorem C31_shared_never_panics : forall P k d s p, vk_verify (shared_verifying P k) d s <> Panic p.
Proof. intros P k d s p. destruct k. cbn. destruct (bytes_eqb _ _); discriminate. Qed.
Print Assumptions C31_shared_never_panics.
Example C31_example : exists p, vk_verify (secret_verifying (SkP384 ([1] : Sk384 toy))) (lit "data") (repeat 0 95) = Panic p.
Proof. eexists. reflexivity. Qed.

(** ** C62 *)
Theorem C62_sign_then_verify : forall P (k : secret_key P) seed d, correct P ->
  exists s, sk_sign (secret_signing k) seed d = Ok s
    /\ vk_verify (public_verifying (secret_public k)) d s = Ok tt
    /\ vk_verify (secret_verifying k) d s = Ok tt.
Proof. intros P k r d H. destruct (sign_verify P k r d H) as (s & H1 & H2). exists s. auto. Qed.
Print Assumptions C62_sign_then_verify.
Theorem C62_shared : forall P k seed d, exists s, sk_sign (shared_signing P k) seed d = Ok s /\ vk_verify (shared_verifying P k) d s = Ok tt.
Proof.
  intros P k seed d. destruct k as [kb]. exists (p_hmac256 P kb d). split; [reflexivity|]. apply shared_verify_exact. reflexivity.
Qed.
Print Assumptions C62_shared.
Example C62_example : correct toy /\ exists s, sk_sign (secret_signing (SkPss ([5] : SkRsa toy))) 3 (lit "x") = Ok s /\ s <> [].
Proof. split; [apply toy_correct|]. eexists. split; [reflexivity|discriminate]. Qed.
