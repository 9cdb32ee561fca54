(** C67-C69: lengths of MACs and digests, safe key ids; SHA-256, SHA-512 and HMAC-SHA256 are those of Sha2.v. *)
From Verif Require Import Base BaseFacts Utf8 Base64 Base64Facts Sfv SfvFacts SfvRound TextFacts SpecSfv SpecSfvProofs SpecGrammar GrammarProofs SpecCanon CanonProofs Component Crypto SpecCrypto CryptoProofs Params SigBase Http Hyper Digest Sha2 Sha2Proofs SpecId IdProofs SpecParams ParamsProofs SpecValue ValueProofs SpecBase BaseProofs SpecIdText IdTextProofs SpecMsg HeaderProofs MsgProofs VerifyProofs SpecExtract ExtractProofs TamperProofs SpecSign SignProofs SpecDigest DigestProofs Decide Toy Props_Crypto Props_Params Props_Verify Props_Sign Props_Digest.

(** the hash functions of the library; nothing is assumed about the other primitives *)
Definition standard_hashes (P : prims) : Prop := (forall b, p_sha256 P b = sha256 b) /\ (forall k d, p_hmac256 P k d = hmac256 k d).
(** the toy primitives with these hash functions *)
Definition toy_sha : prims := {|
  p_sha256 := sha256; p_hmac256 := hmac256;
  Sk256 := Sk256 toy; Pk256 := Pk256 toy; p256_sk := p256_sk toy; p256_pub := p256_pub toy; p256_pk := p256_pk toy; p256_point := p256_point toy;
  p256_sign := p256_sign toy; p256_sig_ok := p256_sig_ok toy; p256_verify := p256_verify toy;
  Sk384 := Sk384 toy; Pk384 := Pk384 toy; p384_sk := p384_sk toy; p384_pub := p384_pub toy; p384_pk := p384_pk toy; p384_point := p384_point toy;
  p384_sign := p384_sign toy; p384_sig_ok := p384_sig_ok toy; p384_verify := p384_verify toy;
  SkEd := SkEd toy; PkEd := PkEd toy; ed_sk := ed_sk toy; ed_pub := ed_pub toy; ed_pk := ed_pk toy; ed_bytes := ed_bytes toy;
  ed_sign := ed_sign toy; ed_sig_ok := ed_sig_ok toy; ed_verify := ed_verify toy;
  SkRsa := SkRsa toy; PkRsa := PkRsa toy; rsa_sk := rsa_sk toy; rsa_pub := rsa_pub toy; rsa_pk := rsa_pk toy; rsa_der := rsa_der toy;
  rsa_sign := rsa_sign toy; rsa_sig_ok := rsa_sig_ok toy; rsa_verify := rsa_verify toy;
  d_pem := d_pem toy; d_pki := d_pki toy; d_spki := d_spki toy; d_ec := d_ec toy |}.
Lemma toy_sha_standard : standard_hashes toy_sha.
Proof. split; reflexivity. Qed.
Lemma toy_sha_correct : correct toy_sha.
Proof. destruct toy_correct as [H1 H2 H3 H4]. split; [exact H1|exact H2|exact H3|exact H4]. Qed.
Lemma toy_sha_octets : octet_output toy_sha.
Proof. destruct toy_octets as [_ H1 H2 H3 H4]. split; [exact hmac256_octet|exact H1|exact H2|exact H3|exact H4]. Qed.

(** ** C67 *)
Theorem C67_length : forall P k d mac, standard_hashes P -> vk_verify (shared_verifying P k) d mac = Ok tt -> List.length mac = 32%nat.
Proof.
  intros P [kb] d mac [_ Hh] H. cbn [shared_verifying vk_verify] in H. apply shared_verify_exact in H. cbn in H. inv H. rewrite Hh. apply hmac256_length.
Qed.
Print Assumptions C67_length.
Theorem C67_rejected : forall P k d mac, standard_hashes P -> List.length mac <> 32%nat -> vk_verify (shared_verifying P k) d mac = Err InvalidSignature.
Proof.
  intros P [kb] d mac [_ Hh] H. cbn. destruct (bytes_eqb _ _) eqn:E; [|reflexivity]. apply bytes_eqb_eq in E. subst. rewrite Hh in H. destruct H. apply hmac256_length.
Qed.
Print Assumptions C67_rejected.
(** no proper prefix and no extension of a valid MAC is one *)
Theorem C67_truncated : forall P k seed d mac x, standard_hashes P -> x <> [] ->
  vk_verify (shared_verifying P k) d (mac ++ x) = Ok tt \/ sk_sign (shared_signing P k) seed d = Ok (mac ++ x) -> vk_verify (shared_verifying P k) d mac = Err InvalidSignature.
Proof.
  intros P k seed d mac x Hh Hx H. apply C67_rejected; [assumption|]. intro El.
  assert (Hl : List.length (mac ++ x) = 32%nat).
  { destruct H as [H|H]; [exact (C67_length _ _ _ _ Hh H)|]. destruct k. cbn in H. injection H as <-. rewrite (proj2 Hh). apply hmac256_length. }
  rewrite app_length in Hl. destruct x; [contradiction|]. cbn in Hl. lia.
Qed.
Print Assumptions C67_truncated.
(** for messages: the signature that verification names has 32 bytes *)
Theorem C67_message : forall P k clk m rfp kid n, standard_hashes P -> verify_message_signature clk m rfp (shared_verifying P k) kid = Ok n ->
  exists l h, received m l /\ In (n, h) l /\ List.length (sh_sig h) = 32%nat.
Proof.
  intros P k clk m rfp kid n Hh H. apply C36_accepts in H as (l & cs & j & t & h & Hl & Hc & _ & Hj & Ha & _). exists l, h. split; [assumption|]. split.
  - apply nth_error_In in Hj. clear -Hc Hj. induction Hc as [|n' h' t' l cs _ _ Hc IH|n' h' l cs _ Hc IH]; [destruct Hj| |right; apply IH, Hj].
    destruct Hj as [E|Hj]; [injection E as <- <- <-; left; reflexivity|right; apply IH, Hj].
  - eapply C67_length; [exact Hh|]. apply Ha.
Qed.
Print Assumptions C67_message.
Example C67_example : exists mac, sk_sign (shared_signing toy_sha (ShHmacSha256 (lit "Jefe"))) 0 (lit "what do ya want for nothing?") = Ok mac
  /\ vk_verify (shared_verifying toy_sha (ShHmacSha256 (lit "Jefe"))) (lit "what do ya want for nothing?") mac = Ok tt
  /\ vk_verify (shared_verifying toy_sha (ShHmacSha256 (lit "Jefe"))) (lit "what do ya want for nothing?") (firstn 31 mac) = Err InvalidSignature
  /\ vk_verify (shared_verifying toy_sha (ShHmacSha256 (lit "Jefe"))) (lit "what do ya want for nothing?") [] = Err InvalidSignature
  /\ vk_verify (shared_verifying toy_sha (ShHmacSha256 (lit "Jefe"))) (lit "what do ya want for nothing?") (mac ++ [0]) = Err InvalidSignature.
Proof. eexists. split; [vm_compute; reflexivity|]. repeat match goal with |- _ /\ _ => split end; vm_compute; reflexivity. Qed.

(** ** C68 *)
Definition digest_length (t : cdtype) : nat := match t with Sha256 => 32 | Sha512 => 64 end.
Lemma hash_length t x : List.length (hash sha2 t x) = digest_length t.
Proof. destruct t; [apply sha256_length|apply sha512_length]. Qed.
Theorem C68_length : forall m m', verify_content_digest sha2 m = Ok m' ->
  exists v r t d, field_lines (msg_headers m) (lit "content-digest") = v :: r /\ digest_line v (type_name t) d /\ List.length d = digest_length t.
Proof.
  intros m m' H. apply C50_accepts in H as (v & r & n & d & b & E & Hv & _ & [[-> ->]|[-> ->]] & _).
  - exists v, r, Sha256. eexists. split; [exact E|]. split; [exact Hv|]. apply sha256_length.
  - exists v, r, Sha512. eexists. split; [exact E|]. split; [exact Hv|]. apply sha512_length.
Qed.
Print Assumptions C68_length.
Theorem C68_rejected : forall m v r t d, field_lines (msg_headers m) (lit "content-digest") = v :: r -> digest_line v (type_name t) d ->
  readable (msg_body m) -> List.length d <> digest_length t -> verify_content_digest sha2 m = Err InvalidContentDigest.
Proof.
  intros m v r t d E Hv Hr Hd. apply (verify_content_mismatch sha2 m v r _ d t E Hv Hr eq_refl). intros ->. apply Hd, hash_length.
Qed.
Print Assumptions C68_rejected.
(** the header line that is set has 54 or 98 characters *)
Theorem C68_line : forall m t m', set_content_digest sha2 m t = Ok m' ->
  exists v, field_lines (msg_headers m') (lit "content-digest") = [v] /\ List.length v = match t with Sha256 => 54%nat | Sha512 => 98%nat end.
Proof.
  intros m t m' H. eexists. split; [exact (C49_line _ _ _ _ sha2_octet H)|]. unfold digest_value. rewrite !app_length, <- b64_text_spec, b64_length, hash_length by (destruct t; [apply sha256_octet|apply sha512_octet]).
  destruct t; reflexivity.
Qed.
Print Assumptions C68_line.
Example C68_example : verify_content_digest sha2 (with_digest (lit "sha-256=:X48E9qOokqqrvdts8nOJRJN3OWDUoyWxBf7kbu9DBPE=:") [FData (lit "{""hello"": ""world""}")])
    = Ok (with_digest (lit "sha-256=:X48E9qOokqqrvdts8nOJRJN3OWDUoyWxBf7kbu9DBPE=:") [FData (lit "{""hello"": ""world""}")])
  /\ verify_content_digest sha2 (with_digest (lit "sha-256=:X48E9qOokqqrvdts8nOJRJN3OWDUoyWxBf7kbu9DBA==:") [FData (lit "{""hello"": ""world""}")]) = Err InvalidContentDigest
  /\ verify_content_digest sha2 (with_digest (lit "sha-256=::") [FData (lit "{""hello"": ""world""}")]) = Err InvalidContentDigest.
Proof. repeat match goal with |- _ /\ _ => split end; vm_compute; reflexivity. Qed.

(** ** C69 *)
(** the pairs of keys of the library *)
Inductive key_pair (P : prims) : signing_key -> verifying_key -> Prop :=
| kp_shared k : key_pair P (shared_signing P k) (shared_verifying P k)
| kp_public (k : secret_key P) : key_pair P (secret_signing k) (public_verifying (secret_public k))
| kp_secret (k : secret_key P) : key_pair P (secret_signing k) (secret_verifying k).
Theorem C69_key_id : forall P sk vk, standard_hashes P -> key_pair P sk vk ->
  sk_key_id sk = vk_key_id vk /\ List.length (sk_key_id sk) = 44%nat /\ plain (Some (sk_key_id sk)).
Proof.
  intros P sk vk [Hs _] H. assert (G : exists b, sk_key_id sk = b64_encode (sha256 b) /\ vk_key_id vk = b64_encode (sha256 b)).
  { destruct H as [[kb]|k|k]; cbn [shared_signing shared_verifying secret_signing secret_verifying public_verifying sk_key_id vk_key_id]; unfold public_key_id, shared_key_id; rewrite Hs; eexists; split; reflexivity. }
  destruct G as (b & -> & ->). split; [reflexivity|]. split; [rewrite b64_length, sha256_length; reflexivity|]. apply b64_plain, sha256_octet.
Qed.
Print Assumptions C69_key_id.
(** the calls with library keys, random nonces and times of at most 15 digits: no text of the caller's *)
Definition safe_setter (P : prims) (s : setter) : Prop :=
  match s with
  | SetCreated n | SetExpires n => n <= 999999999999999
  | SetKeyInfo k => exists vk, key_pair P k vk
  | SetAlg _ => True
  | SetRandomNonce r => Forall octet r
  | SetNonce _ | SetKeyid _ | SetTag _ => False
  end.
Lemma safe_plain P s : standard_hashes P -> safe_setter P s -> plain_setter s.
Proof. intros Hs H. destruct s; cbn in *; try tauto. destruct H as [vk H]. apply (C69_key_id _ _ _ Hs H). Qed.
Lemma key_pair_matching P sk vk : correct P -> octet_output P -> key_pair P sk vk -> matching sk vk.
Proof. intros Hc Ho [k|k|k]; [apply C32_keys|apply C32_keys|apply C32_keys]; assumption. Qed.
Lemma made_writable P now ids p l : standard_hashes P -> now <= 999999999999999 -> Forall (fun i => exists s, cid_of_str s = Ok i) ids -> Forall clean_id ids ->
  sp_try_new now ids = Ok p -> Forall (safe_setter P) l -> writable (fold_left call l p).
Proof.
  intros Hs Hn Hv Hc Hp Hl. apply (built_writable now ids); try assumption. eapply Forall_impl; [|exact Hl]. intros s. apply safe_plain, Hs.
Qed.
Lemma covered_kept l : forall p, sp_covered (fold_left call l p) = sp_covered p.
Proof. induction l as [|s l IH]; intro p; [reflexivity|]. cbn [fold_left]. rewrite IH. destruct s; reflexivity. Qed.
(** parameters made this way, used to sign any message, verify with the other key of the pair *)
Theorem C69_workflow : forall P sk vk now ids p l m rfp seed name m' kid clk, standard_hashes P -> correct P -> octet_output P -> key_pair P sk vk ->
  now <= 999999999999999 -> Forall (fun i => exists s, cid_of_str s = Ok i) ids -> Forall clean_id ids -> Forall not_signature ids ->
  sp_try_new now ids = Ok p -> Forall (safe_setter P) l -> let p' := fold_left call l p in
  (match m with MReq _ => rfp = None | MRes _ => True end) ->
  field_lines (msg_headers m) (lit "signature") = [] -> field_lines (msg_headers m) (lit "signature-input") = [] ->
  (name = None \/ exists s, name = Some s /\ key_text s) ->
  set_message_signature m rfp (mkJob p' sk name seed) = (m', Ok tt) ->
  (kid = None \/ kid = sp_keyid p') -> (forall e, sp_expires p' = Some e -> clk 0%nat 0%nat <= e) ->
  verify_message_signature clk m' rfp vk kid = Ok (job_name (mkJob p' sk name seed)).
Proof.
  intros P sk vk now ids p l m rfp seed name m' kid clk Hs Hc Ho Hk Hn Hi Hcl Hns Hp Hl p' Hm H1 H2 Hname Hset Hkid Hexp.
  assert (Hw : writable p') by (eapply made_writable; eassumption).
  assert (Hco : sp_covered p' = ids).
  { unfold p'. rewrite covered_kept. unfold sp_try_new in Hp. destruct (has_unique_elements ids); [|discriminate]. cbn in Hp. inv Hp. reflexivity. }
  assert (Hkt : key_text (job_name (mkJob p' sk name seed))).
  { destruct Hname as [->|(s & -> & Hk')]; [|exact Hk']. apply key_text_spec. split; vm_compute; reflexivity. }
  destruct m as [r|x].
  - subst rfp. eapply C32_request; [exact H1|exact H2|exact Hset|eapply key_pair_matching; eassumption|exact Hw|exact Hkt|cbn; rewrite Hco; exact Hns|exact Hkid|exact Hexp].
  - eapply C33_response; [exact H1|exact H2|exact Hset|eapply key_pair_matching; eassumption|exact Hw|exact Hkt|cbn; rewrite Hco; exact Hns|exact Hkid|exact Hexp].
Qed.
Print Assumptions C69_workflow.
(** a receiver that looks for the key id of its own key finds the signature, if set_key_info was called last *)
Theorem C69_by_key_id : forall P sk vk now ids p l m rfp seed name m' clk, standard_hashes P -> correct P -> octet_output P -> key_pair P sk vk ->
  now <= 999999999999999 -> Forall (fun i => exists s, cid_of_str s = Ok i) ids -> Forall clean_id ids -> Forall not_signature ids ->
  sp_try_new now ids = Ok p -> Forall (safe_setter P) l -> let p' := set_key_info (fold_left call l p) sk in
  (match m with MReq _ => rfp = None | MRes _ => True end) ->
  field_lines (msg_headers m) (lit "signature") = [] -> field_lines (msg_headers m) (lit "signature-input") = [] ->
  (name = None \/ exists s, name = Some s /\ key_text s) ->
  set_message_signature m rfp (mkJob p' sk name seed) = (m', Ok tt) ->
  (forall e, sp_expires p' = Some e -> clk 0%nat 0%nat <= e) ->
  verify_message_signature clk m' rfp vk (Some (vk_key_id vk)) = Ok (job_name (mkJob p' sk name seed)).
Proof.
  intros P sk vk now ids p l m rfp seed name m' clk Hs Hc Ho Hk Hn Hi Hcl Hns Hp Hl p' Hm H1 H2 Hname Hset Hexp.
  assert (Ep : p' = fold_left call (l ++ [SetKeyInfo sk]) p) by (rewrite fold_left_app; reflexivity).
  rewrite Ep in Hset, Hexp |- *. clear Ep p'. eapply C69_workflow; try eassumption.
  - apply Forall_app. split; [assumption|]. constructor; [|constructor]. exists vk. exact Hk.
  - right. rewrite fold_left_app. cbn. f_equal. symmetry. apply (C69_key_id _ _ _ Hs Hk).
Qed.
Print Assumptions C69_by_key_id.
Definition sha_pair : secret_key toy_sha := @SkEd25519 toy_sha (repeat 7 32).
Definition sha_ids : list cid := [mkCid (Derived Method) []; mkCid (Derived Path) []; mkCid (HttpField (lit "date")) []; mkCid (HttpField (lit "host")) []].
Definition sha_params : sparams := set_key_info (fold_left call [SetAlg HmacSha256; SetExpires 1700000000; SetRandomNonce (map N.of_nat (seq 0 32))] (mkSparams (Some 1618884473) None None None None None sha_ids)) (secret_signing sha_pair).
Definition sha_signed : msg := fst (set_message_signature (MReq ex_req) None (mkJob sha_params (secret_signing sha_pair) None 3)).
Example C69_example : sp_try_new 1618884473 sha_ids = Ok (mkSparams (Some 1618884473) None None None None None sha_ids)
  /\ snd (set_message_signature (MReq ex_req) None (mkJob sha_params (secret_signing sha_pair) None 3)) = Ok tt
  /\ verify_message_signature (fun _ _ => 1650000000) sha_signed None (public_verifying (secret_public sha_pair)) (Some (vk_key_id (public_verifying (secret_public sha_pair)))) = Ok (lit "sig").
Proof. repeat match goal with |- _ /\ _ => split end; vm_compute; reflexivity. Qed.
