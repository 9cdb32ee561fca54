(** C85-C89: exactly which error each operation reports. *)
From Verif Require Import Base BaseFacts Utf8 Base64 Base64Facts Sfv Component Crypto Params SigBase Http Hyper Digest Toy SpecSfv SpecSfvProofs SpecGrammar SpecCanon SpecId IdProofs SpecParams SpecIdText IdTextProofs SpecValue SpecBase BaseProofs SpecMsg MsgProofs VerifyProofs
  SpecExtract ExtractProofs SpecSign SignProofs SpecLabels LabelProofs SpecDigest DigestProofs SpecCrypto CryptoProofs SpecErrors ErrorProofs Props_Params Props_Verify Props_Sign Props_Digest.

(** ** C85 *)
Theorem C85_verify : forall H m e, verify_content_digest H m = Err e <-> digest_error H m e.
Proof. exact digest_error_spec. Qed.
Print Assumptions C85_verify.
Theorem C85_set : forall H m t e, octet_hashes H -> (set_content_digest H m t = Err e <-> e = HttpBodyError /\ ~ readable (msg_body m)).
Proof.
  intros H m t e Ho. destruct (set_content_spec H m t Ho) as [H1 H2]. split.
  - intro E. destruct (into_bytes (msg_body m)) as [x|] eqn:Eb.
    + apply into_bytes_spec in Eb as [Hr _]. destruct (H1 Hr) as (b & _ & E'). congruence.
    + apply into_bytes_none in Eb. rewrite (H2 Eb) in E. injection E as <-. auto.
  - intros [-> Hr]. exact (H2 Hr).
Qed.
Print Assumptions C85_set.
Theorem C85_algorithm : forall s e, cdtype_of_str s = Err e <-> e = InvalidContentDigestType /\ s <> lit "sha-256" /\ s <> lit "sha-512".
Proof.
  intros s e. unfold cdtype_of_str. destruct (str_eqb s (lit "sha-256")) eqn:E1.
  - apply str_eqb_eq in E1. split; [discriminate|]. intros (_ & H & _). contradiction.
  - destruct (str_eqb s (lit "sha-512")) eqn:E2.
    + apply str_eqb_eq in E2. split; [discriminate|]. intros (_ & _ & H). contradiction.
    + split; [|intros (-> & _); reflexivity]. intro H. injection H as <-. split; [reflexivity|]. split; intros ->; discriminate.
Qed.
Print Assumptions C85_algorithm.
Example C85_example :
  digest_error toy_hashes (MReq ex_req) NoDigestHeader
  /\ digest_error toy_hashes (with_digest (lit "sha-256=:AA==:" ++ [200]) []) FailedToStrDigestHeader
  /\ digest_error toy_hashes (with_digest (lit "md5=:AA==:") [FError]) DInvalidHeaderValue
  /\ digest_error toy_hashes (with_digest hello_digest [FData (lit "hello"); FError]) HttpBodyError
  /\ digest_error toy_hashes (with_digest hello_digest [FData (lit "hallo")]) InvalidContentDigest.
Proof. repeat split; apply C85_verify; vm_compute; reflexivity. Qed.

(** ** C86 *)
Theorem C86_headers : forall sig input e, try_parse sig input = Err e <-> headers_error sig input e.
Proof. exact headers_error_spec. Qed.
Print Assumptions C86_headers.
Ltac same := let H := fresh in split; intro H; first [discriminate H | injection H as ->; reflexivity].
Lemma extract_signatures_err m rfp e : extract_signatures m rfp = Err e <-> message_error m e.
Proof.
  rewrite <- message_error_spec. unfold extract_signatures. destruct (extract_signature_headers_with_name m) as [l|e'|q]; cbn [bind]; [|same|same].
  destruct (first_panic _); split; discriminate.
Qed.
Theorem C86_message : forall rsa m e,
  (extract_signature_headers_with_name m = Err e <-> message_error m e)
  /\ (get_alg_key_ids rsa m = Err e <-> message_error m e) /\ (get_signature_params m = Err e <-> message_error m e).
Proof.
  intros rsa m e. split; [apply message_error_spec|]. rewrite <- !message_error_spec. unfold get_alg_key_ids, get_signature_params.
  destruct (extract_signature_headers_with_name m) as [l|e'|q]; cbn [bind]; split; same.
Qed.
Print Assumptions C86_message.
Theorem C86_verify_all : forall clk m rfp keys e, verify_message_signatures clk m rfp keys = Err e <-> message_error m e.
Proof.
  intros clk m rfp keys e. rewrite verify_unfold, <- (extract_signatures_err m rfp). destruct (extract_signatures m rfp) as [l|e'|q]; cbn [bind]; [|same|same].
  unfold verify_message_signatures_inner, join_all. destruct (first_panic _); split; discriminate.
Qed.
Print Assumptions C86_verify_all.
Theorem C86_verify : forall clk m rfp key kid e, verify_message_signature clk m rfp key kid = Err e <-> verification_error (clk 0%nat) m rfp key kid e.
Proof. exact verification_error_spec. Qed.
Print Assumptions C86_verify.
(** the error is determined by the message *)
Theorem C86_unique : forall m e e', message_error m e -> message_error m e' -> e = e'.
Proof. intros m e e'. rewrite <- !message_error_spec. congruence. Qed.
Print Assumptions C86_unique.
Definition with_headers (sig input : str) : msg := MReq (mkReq (lit "GET") (rq_uri ex_req) [(lit "signature", sig); (lit "signature-input", input)] []).
Example C86_example :
  message_error (MReq ex_req) NoSignatureHeaders
  /\ message_error (with_headers (lit "a=:AA==:" ++ [200]) (lit "a=()")) FailedToStrSignatureHeaders
  /\ message_error (with_headers (lit "a=:AA==:,") (lit "a=()")) (HttpSigError ParseSFVError)
  /\ message_error (with_headers (lit "a=:AA==:") (lit "b=()")) (HttpSigError BuildSignatureHeaderError)
  /\ message_error (with_headers (lit "a=1") (lit "a=(1)")) (HttpSigError BuildSignatureHeaderError)
  /\ message_error (with_headers (lit "a=:AA==:") (lit "a=1")) (HttpSigError BuildSignatureHeaderError)
  /\ message_error (with_headers (lit "a=:AA==:, b=::") (lit "b=(""date"" 1;a=""""), a=(""date"" ""date"")")) (HttpSigError InvalidComponentName)
  /\ message_error (with_headers (lit "a=:AA==:, b=::") (lit "b=(), a=(""date"" ""date"")")) (HttpSigError InvalidSignatureParams)
  /\ verification_error (fun _ => 0) ex_signed None toy_vk (Some (lit "z")) NoSignatureHeaders
  /\ verification_error (fun _ => 1618884700) ex_signed None (shared_verifying toy (ShHmacSha256 (lit "other"))) None HInvalidSignature.
Proof.
  repeat split; try (apply message_error_spec; vm_compute; reflexivity).
  - apply (C86_verify (fun _ _ => 0)). vm_compute. reflexivity.
  - apply (C86_verify (fun _ _ => 1618884700)). vm_compute. reflexivity.
Qed.

(** ** C87 *)
Theorem C87_component : forall m rfp i e, component_line m rfp i = Err e <-> component_error m rfp i e.
Proof. exact component_error_spec. Qed.
Print Assumptions C87_component.
Theorem C87_text : forall m rfp p e, build_signature_base m p rfp = Err e <-> text_error m rfp p e.
Proof. exact text_error_spec. Qed.
Print Assumptions C87_text.
Theorem C87_sign : forall m rfp jobs e, (forall j, In j jobs -> octets (j_key j)) ->
  (snd (set_message_signatures m rfp jobs) = Err e
   <-> signing_error m rfp jobs e \/ e = InvalidHeaderValue /\ exists l s, Forall2 (made m rfp) jobs l /\ In s l /\ ~ header_bytes (input_line s)).
Proof.
  intros m rfp jobs e Ho. rewrite <- signing_error_spec. unfold set_message_signatures.
  destruct (make_signatures m rfp jobs) as [l|e'|q] eqn:E.
  - apply make_spec in E. destruct (append_spec l (msg_headers m) (made_all_octets _ _ _ _ E Ho)) as (k & Hk). cbv zeta in Hk.
    destruct Hk as [(-> & Hh & ->)|(s & Hs & Hb & ->)]; cbn [snd].
    + split; [discriminate|]. intros [H|(_ & l' & s & Hl & Hi & Hn)]; [discriminate H|]. rewrite (made_fun_all _ _ _ _ _ Hl E) in Hi. rewrite Forall_forall in Hh. destruct (Hn (Hh s Hi)).
    + split; [|intros [H|[-> _]]; [discriminate H|reflexivity]]. intro H. injection H as <-. right. split; [reflexivity|]. exists l, s. split; [assumption|]. split; [eapply nth_error_In; exact Hs|assumption].
  - cbn [snd]. split; [intro H; injection H as ->; left; reflexivity|]. intros [H|(_ & l & s & Hl & _)]; [injection H as ->; reflexivity|]. apply make_spec in Hl. congruence.
  - cbn [snd]. split; [discriminate|]. intros [H|(_ & l & s & Hl & _)]; [discriminate H|]. apply make_spec in Hl. congruence.
Qed.
Print Assumptions C87_sign.
(** signing panics only if a key does *)
Theorem C87_sign_panics : forall m rfp jobs, (exists q, snd (set_message_signatures m rfp jobs) = Panic q) <->
  exists ts j t q, Forall2 (fun j t => signed_text m rfp (j_params j) t) jobs ts /\ In (j, t) (combine jobs ts) /\ sk_sign (j_key j) (j_seed j) (utf8 t) = Panic q.
Proof.
  intros m rfp jobs. rewrite <- signing_panic_spec. unfold set_message_signatures. destruct (make_signatures m rfp jobs) as [l|e|q]; cbn [snd]; [|split; intros [q H]; discriminate H|split; intros [q' H]; exists q; reflexivity].
  split; [|intros [q H]; discriminate H]. intros [q H]. exfalso. destruct (append_signatures (msg_headers m) l) as [h r] eqn:E. cbn [snd] in H. subst r. revert E. generalize (msg_headers m).
  induction l as [|s l IH]; intros h0 E; cbn [append_signatures] in E; [discriminate E|]. destruct (header_value (signature_input_header_value s)); [|discriminate E].
  destruct (header_value (signature_header_value s)); [|discriminate E]. exact (IH _ E).
Qed.
Print Assumptions C87_sign_panics.
Definition bare_id (n : cname) (ps : cparams) : sparams := mkSparams None None None None None None [mkCid n ps].
Example C87_example :
  component_error (MReq ex_req) None (mkCid (Derived Status) []) HInvalidComponentName
  /\ component_error (MReq ex_req) None (mkCid (Derived Method) [Req]) HInvalidComponentParam
  /\ component_error (MReq ex_req) None (mkCid (Derived Method) [Sf]) HInvalidComponentParam
  /\ component_error (MReq ex_req) None (mkCid (Derived QueryParam) []) (HttpSigError InvalidComponent)
  /\ component_error (MReq ex_req) None (mkCid (HttpField (lit "date")) [Bs]) (HttpSigError NotYetImplemented)
  /\ component_error (MReq (mkReq (lit "GET") (rq_uri ex_req) [(lit "x", lit "a,")] [])) None (mkCid (HttpField (lit "x")) [Sf; Bs]) (HttpSigError InvalidComponentParam)
  /\ component_error (MReq (mkReq (lit "GET") (rq_uri ex_req) [(lit "x", [200])] [])) None (mkCid (HttpField (lit "x")) [Bs]) FailedToStrSignatureHeaders
  /\ component_error (MRes (mkRes 200 [] [])) None (mkCid (Derived Method) []) HInvalidComponentName
  /\ component_error (MRes (mkRes 200 [] [])) None (mkCid (Derived Method) [Req]) HInvalidComponentParam
  /\ component_error (MRes (mkRes 200 [] [])) (Some ex_req) (mkCid (Derived Status) [Req]) HInvalidComponentName
  /\ signing_error (MReq ex_req) None [ex_job; mkJob (bare_id (HttpField (lit "x")) [Tr]) toy_key None 0; mkJob (bare_id (Derived Status) []) toy_key None 0] (HttpSigError NotYetImplemented).
Proof.
  repeat split; try (apply C87_component; vm_compute; reflexivity). apply signing_error_spec. vm_compute. reflexivity.
Qed.

(** ** C88 *)
Theorem C88_identifier : forall s e, cid_of_str s = Err e <-> id_error s e.
Proof. exact id_error_spec. Qed.
Print Assumptions C88_identifier.
Theorem C88_params : forall t e, sparams_of_str t = Err e <-> params_text_error t e.
Proof. exact params_text_error_spec. Qed.
Print Assumptions C88_params.
(** lines: the value is everything after the first colon, and the text before it must be quoted *)
Theorem C88_line : forall s c, comp_of_str s = Ok c <-> exists t v, halves s t v /\ quoted t /\ id_spelling (co_id c) t /\ co_value c = VString v.
Proof. exact line_read_spec. Qed.
Print Assumptions C88_line.
Theorem C88_line_refused : forall s e, comp_of_str s = Err e <-> line_error s e.
Proof. exact line_error_spec. Qed.
Print Assumptions C88_line_refused.
Example C88_example :
  id_error (lit "") ParseSFVError /\ id_error (lit "a b""") ParseSFVError /\ id_error (lit """x"";bs;") ParseSFVError
  /\ id_error (lit "1;""") ParseSFVError /\ id_error (lit "5;a=""""") InvalidComponentName
  /\ id_error (lit """x"";foo") InvalidComponentParam /\ id_error (lit """x"";key=1;name=""a""") InvalidComponentParam
  /\ id_error (lit """x"";name=""a""") InvalidComponentId /\ id_error (lit """@method"";bs") InvalidComponentId
  /\ params_text_error (lit "(""x"" ") ParseSFVError /\ params_text_error (lit "1") InvalidSignatureParams /\ params_text_error (lit "(), ()") InvalidSignatureParams
  /\ params_text_error (lit "(""x"" ""x"")") InvalidSignatureParams /\ params_text_error (lit "(""x"";bs=2 1;a="""" ""x"";foo)") InvalidComponentName
  /\ line_error (lit """x"" value") InvalidComponent /\ line_error (lit "x: value") InvalidComponentId /\ line_error (lit """x"";foo: value") InvalidComponentParam.
Proof.
  repeat split; first [apply C88_identifier; vm_compute; reflexivity | apply C88_params; vm_compute; reflexivity | apply C88_line_refused; vm_compute; reflexivity].
Qed.

(** ** C89 *)
(** keys from plain octets; a length is demanded of these three kinds of secret keys *)
Definition wrong_length (a : alg) (b : bytes) : Prop :=
  match a with EcdsaP256Sha256 | Ed25519 => List.length b <> 32%nat | EcdsaP384Sha384 => List.length b <> 48%nat | _ => False end.
Theorem C89_secret_octets : forall P rsa a b,
  (forall k, secret_from_bytes P rsa a b = Ok k <-> enabled rsa a /\ secret_kind k = a /\ secret_octets P k b)
  /\ (forall e, secret_from_bytes P rsa a b = Err e <-> e = ParsePrivateKeyError /\ ~ wrong_length a b /\ (forall k, enabled rsa a -> secret_kind k = a -> ~ secret_octets P k b))
  /\ ((exists q, secret_from_bytes P rsa a b = Panic q) <-> wrong_length a b).
Proof.
  intros P rsa a b. split; [intro k; apply secret_from_bytes_spec|]. split; [|apply secret_bytes_panic]. intro e. split.
  - intro H. split; [eapply secret_bytes_err; exact H|]. split; [intro Hw; apply (secret_bytes_panic P rsa a b) in Hw as [q Hq]; congruence|].
    intros k H1 H2 H3. assert (Hk : secret_from_bytes P rsa a b = Ok k) by (apply secret_from_bytes_spec; auto). congruence.
  - intros (-> & Hw & Hn). destruct (secret_from_bytes P rsa a b) as [k|e|q] eqn:E.
    + apply secret_from_bytes_spec in E as (H1 & H2 & H3). destruct (Hn k H1 H2 H3).
    + f_equal. eapply secret_bytes_err. exact E.
    + exfalso. apply Hw. apply (secret_bytes_panic P rsa a b). eauto.
Qed.
Print Assumptions C89_secret_octets.
Theorem C89_public_octets : forall P rsa a b,
  (forall k, public_from_bytes P rsa a b = Ok k <-> enabled rsa a /\ public_kind k = a /\ public_octets P k b)
  /\ (forall e, public_from_bytes P rsa a b = Err e <-> e = ParsePublicKeyError /\ (forall k, enabled rsa a -> public_kind k = a -> ~ public_octets P k b))
  /\ (forall q, public_from_bytes P rsa a b <> Panic q).
Proof.
  intros P rsa a b. split; [intro k; apply public_from_bytes_spec|].
  assert (He : (exists k, public_from_bytes P rsa a b = Ok k) \/ public_from_bytes P rsa a b = Err ParsePublicKeyError).
  { unfold public_from_bytes. destruct a; try (right; reflexivity); try (destruct rsa; [|right; reflexivity]);
      match goal with |- context [ok_or ?x _] => destruct x as [y|] end; cbn [ok_or rmap]; try (right; reflexivity); left; eexists; reflexivity. }
  split; [|intros q Hq; destruct He as [[k He]|He]; congruence]. intro e. split.
  - intro H. split; [destruct He as [[k He]|He]; congruence|]. intros k H1 H2 H3.
    assert (Hk : public_from_bytes P rsa a b = Ok k) by (apply public_from_bytes_spec; auto). congruence.
  - intros [-> Hn]. destruct He as [[k He]|He]; [|exact He]. apply public_from_bytes_spec in He as (H1 & H2 & H3). destruct (Hn k H1 H2 H3).
Qed.
Print Assumptions C89_public_octets.
Theorem C89_secret : forall P rsa a der pem e,
  (secret_from_der P rsa a der = Err e -> e = ParsePrivateKeyError) /\ (secret_from_pem P rsa a pem = Err e -> e = ParsePrivateKeyError).
Proof.
  intros P rsa a der pem e. split; [apply der_error|]. unfold secret_from_pem. destruct (d_pem P pem) as [[tag doc]|]; cbn [ok_or bind]; [|intro H; injection H as <-; reflexivity].
  destruct (negb _); [intro H; injection H as <-; reflexivity|apply der_error].
Qed.
Print Assumptions C89_secret.
(** exactly these files of secret keys panic *)
Theorem C89_secret_panics : forall P rsa a der, (exists q, secret_from_der P rsa a der = Panic q) <->
  exists pki, d_pki P der = Some pki /\ oids_of a (ki_oid pki) (ki_params pki) /\ bad_key_length P a (ki_key pki).
Proof. exact der_panic. Qed.
Print Assumptions C89_secret_panics.
Theorem C89_secret_pem_panics : forall P rsa a pem, (exists q, secret_from_pem P rsa a pem = Panic q) <->
  exists doc pki, d_pem P pem = Some (lit "PRIVATE KEY", doc) /\ d_pki P doc = Some pki /\ oids_of a (ki_oid pki) (ki_params pki) /\ bad_key_length P a (ki_key pki).
Proof.
  intros P rsa a pem. unfold secret_from_pem. destruct (d_pem P pem) as [[tag doc]|]; cbn [ok_or bind]; [|split; [intros [q H]; discriminate H|intros (? & ? & H & _); discriminate H]].
  destruct (str_eqb tag (lit "PRIVATE KEY")) eqn:E; cbn [negb].
  - apply str_eqb_eq in E. subst tag. rewrite der_panic. split; [intros (pki & H); exists doc, pki; tauto|]. intros (doc' & pki & H & Hr). injection H as <-. eauto.
  - split; [intros [q H]; discriminate H|]. intros (doc' & pki & H & _). injection H as -> _. rewrite str_eqb_refl in E. discriminate E.
Qed.
Print Assumptions C89_secret_pem_panics.
Theorem C89_public : forall P rsa a pem, (forall e, public_from_pem P rsa a pem = Err e -> e = ParsePublicKeyError) /\ (forall q, public_from_pem P rsa a pem <> Panic q).
Proof. intros P rsa a pem. split; [intro e; apply public_pem_error|intro q; apply public_pem_panic]. Qed.
Print Assumptions C89_public.
(** shared keys: the text is looked at before the algorithm *)
Theorem C89_shared : forall a t,
  (forall k, shared_from_base64 a t = Ok k <-> a = HmacSha256 /\ exists kb, Forall octet kb /\ t = b64_text kb /\ k = ShHmacSha256 kb)
  /\ (forall e, shared_from_base64 a t = Err e <->
      e = Base64DecodeError /\ (forall kb, Forall octet kb -> t <> b64_text kb)
      \/ e = InvalidAlgorithmName /\ a <> HmacSha256 /\ exists kb, Forall octet kb /\ t = b64_text kb)
  /\ (forall q, shared_from_base64 a t <> Panic q).
Proof.
  intros a t.
  assert (Hd : forall kb, b64_decode false t = Some kb <-> Forall octet kb /\ t = b64_text kb).
  { intro kb. split.
    - intro E. assert (Hb := b64_decode_bytes _ _ _ E). apply b64_strict_canonical in E. split; [exact Hb|]. rewrite <- b64_text_spec by exact Hb. exact E.
    - intros [Hb ->]. rewrite <- b64_text_spec by exact Hb. apply b64_roundtrip. exact Hb. }
  unfold shared_from_base64. destruct (b64_decode false t) as [kb|] eqn:E; cbn [ok_or bind].
  - pose proof (proj1 (Hd kb) eq_refl) as Hkb. split; [|split].
    + intro k. split.
      * intro H. destruct a; try discriminate H. injection H as <-. split; [reflexivity|]. exists kb. tauto.
      * intros (-> & kb' & Ho & Ht & ->). rewrite (proj2 (Hd kb') (conj Ho Ht)) in E || idtac. assert (H : Some kb = Some kb') by (apply Hd; auto). injection H as ->. reflexivity.
    + intro e. split.
      * intro H. right. destruct a; try discriminate H; injection H as <-; (split; [reflexivity|]; split; [discriminate|]; exists kb; tauto).
      * intros [[_ H]|(-> & Ha & _)]; [destruct (H kb); tauto|]. destruct a; try reflexivity. congruence.
    + intros q H. destruct a; discriminate H.
  - assert (Hn : forall kb, Forall octet kb -> t <> b64_text kb) by (intros kb Ho Ht; assert (H : None = Some kb) by (apply Hd; auto); discriminate H). split; [|split].
    + intro k. split; [discriminate|]. intros (_ & kb & Ho & Ht & _). destruct (Hn kb Ho Ht).
    + intro e. split; [intro H; injection H as <-; left; auto|]. intros [[-> _]|(_ & _ & kb & Ho & Ht)]; [reflexivity|destruct (Hn kb Ho Ht)].
    + discriminate.
Qed.
Print Assumptions C89_shared.
Theorem C89_verify : forall P (k : public_key P) d s e, vk_verify (public_verifying k) d s = Err e <->
  signature_length k s /\ (e = ParseSignatureError /\ ~ signature_form k s \/ e = InvalidSignature /\ signature_form k s /\ ~ signature_right k d s).
Proof. intros. apply public_verify_error. Qed.
Print Assumptions C89_verify.
Example C89_example :
  secret_from_pem toy true Ed25519 (lit "PRIVATE KEY:" ++ 1 :: repeat 7 32) = Err ParsePrivateKeyError
  /\ (exists q, secret_from_pem toy false EcdsaP256Sha256 (lit "PRIVATE KEY:" ++ 1 :: repeat 7 31) = Panic q)
  /\ public_from_pem toy true Ed25519 (lit "PRIVATE KEY:" ++ 1 :: repeat 7 32) = Err ParsePublicKeyError
  /\ (exists q, secret_from_bytes toy false Ed25519 (repeat 7 33) = Panic q) /\ public_from_bytes toy false RsaPssSha512 [9] = Err ParsePublicKeyError
  /\ shared_from_base64 Ed25519 (lit "!") = Err Base64DecodeError /\ shared_from_base64 Ed25519 (lit "AA==") = Err InvalidAlgorithmName
  /\ shared_from_base64 HmacSha256 (lit "AA==") = Ok (ShHmacSha256 [0]).
Proof. split; [vm_compute; reflexivity|]. split; [eexists; vm_compute; reflexivity|]. split; [vm_compute; reflexivity|].
  split; [eexists; vm_compute; reflexivity|]. repeat split; vm_compute; reflexivity. Qed.
