(** Specification: which error is reported. *)
From Verif Require Import Base Utf8 Sfv Component Crypto Params SigBase Http Hyper Digest SpecSfv SpecGrammar SpecCanon SpecId SpecParams SpecIdText SpecValue SpecMsg SpecExtract SpecDigest.

(** ** component identifiers *)
(** the structured item that a text is read as: quotes are put around a text that has none *)
Definition id_item_text (s : str) (it : item) : Prop :=
  exists t, stripped s t /\ ((t = [] \/ In 34 t) /\ item_field it t \/ t <> [] /\ ~ In 34 t /\ item_field it (lit """" ++ t ++ lit """")).
Inductive id_error (s : str) : err -> Prop :=
| ie_text : (forall it, ~ id_item_text s it) -> id_error s ParseSFVError
| ie_name it : id_item_text s it -> (forall n, it_bare it <> BStr n) -> id_error s InvalidComponentName
| ie_param it n nm kv : id_item_text s it -> it_bare it = BStr n -> name_meaning n nm ->
    In kv (it_params it) -> (forall p, ~ param_meaning kv p) -> id_error s InvalidComponentParam
| ie_combination it n nm ps p : id_item_text s it -> it_bare it = BStr n -> name_meaning n nm ->
    Forall2 param_meaning (it_params it) ps -> In p ps -> ~ allowed nm p -> id_error s InvalidComponentId.

(** ** signature parameters: the first identifier that is not read decides *)
Definition item_error (it : item) (e : err) : Prop := exists t, canon_item it t /\ id_error t e.
Inductive params_error (l : inner) : err -> Prop :=
| pe_item a it b ids e : in_items l = a ++ it :: b -> Forall2 item_denotes a ids -> item_error it e -> params_error l e
| pe_twice ids : Forall2 item_denotes (in_items l) ids -> ~ no_duplicate ids -> params_error l InvalidSignatureParams.
Inductive params_text_error (t : str) : err -> Prop :=
| pt_text : (forall l, ~ list_field l t) -> params_text_error t ParseSFVError
| pt_shape l : list_field l t -> (forall x, l <> [EInner x]) -> params_text_error t InvalidSignatureParams
| pt_params l e : list_field [EInner l] t -> params_error l e -> params_text_error t e.

(** ** the signature headers *)
Inductive headers_error (sig input : str) : err -> Prop :=
| he_text : (forall d, ~ dict_field d sig) \/ (forall d, ~ dict_field d input) -> headers_error sig input ParseSFVError
| he_names ds di k : dict_field ds sig -> dict_field di input -> ~ (In k (map fst ds) <-> In k (map fst di)) ->
    headers_error sig input BuildSignatureHeaderError
| he_signature ds di k e : dict_field ds sig -> dict_field di input -> In (k, e) ds -> (forall x ps, e <> EItem (mkItem (BBytes x) ps)) ->
    headers_error sig input BuildSignatureHeaderError
| he_input ds di k i : dict_field ds sig -> dict_field di input -> In (k, EItem i) di -> headers_error sig input BuildSignatureHeaderError
| he_params ds di a k l b e : dict_field ds sig -> dict_field di input -> (forall k, In k (map fst ds) <-> In k (map fst di)) ->
    (forall k e, In (k, e) ds -> exists x ps, e = EItem (mkItem (BBytes x) ps)) -> (forall k e, In (k, e) di -> exists x, e = EInner x) ->
    di = a ++ (k, EInner l) :: b -> (forall k' x, In (k', EInner x) a -> exists p, params_meaning x p) -> params_error l e ->
    headers_error sig input e.
(** a message whose signatures cannot be read *)
Inductive message_error (m : msg) : herr -> Prop :=
| me_none : ~ signed m -> message_error m NoSignatureHeaders
| me_illegible n v : signed m -> n = lit "signature" \/ n = lit "signature-input" -> In v (field_lines (msg_headers m) n) -> ~ legible v ->
    message_error m FailedToStrSignatureHeaders
| me_headers e : signed m -> Forall legible (field_lines (msg_headers m) (lit "signature")) -> Forall legible (field_lines (msg_headers m) (lit "signature-input")) ->
    headers_error (comma_join (field_lines (msg_headers m) (lit "signature"))) (comma_join (field_lines (msg_headers m) (lit "signature-input"))) e ->
    message_error m (HttpSigError e).

(** ** components *)
(** the parameters from left to right; the first one that cannot be applied decides *)
Inductive process_error : list cparam -> list str -> err -> Prop :=
| pr_unsupported p ps vs : p = Bs \/ p = Tr \/ (exists n, p = Name n) -> process_error (p :: ps) vs NotYetImplemented
| pr_not_sf ps vs : (forall vs', ~ Forall2 canonical vs vs') -> process_error (Sf :: ps) vs InvalidComponentParam
| pr_not_key k ps vs : (forall vs', ~ member_texts k vs vs') -> process_error (Key k :: ps) vs InvalidComponentParam
| pr_after_sf ps vs vs' e : Forall2 canonical vs vs' -> process_error ps vs' e -> process_error (Sf :: ps) vs e
| pr_after_key k ps vs vs' e : member_texts k vs vs' -> process_error ps vs' e -> process_error (Key k :: ps) vs e
| pr_after_req ps vs e : process_error ps vs e -> process_error (Req :: ps) vs e.
(** parameters that a derived component of the message may have, and derived components that the message has *)
Definition fitting (m : msg) (d : derived) (p : cparam) : Prop :=
  match p with Req => exists r, m = MReq r | Name _ => d = QueryParam | _ => False end.
Definition applicable (m : msg) (d : derived) : Prop :=
  match m with MReq _ => d <> Status | MRes _ => d = Status \/ d = SignatureParams end.
Inductive own_error (m : msg) (i : cid) : herr -> Prop :=
| oe_illegible n ls : id_name i = HttpField n -> has_lines (msg_headers m) n ls -> ~ Forall legible ls -> own_error m i FailedToStrSignatureHeaders
| oe_field n ls e : id_name i = HttpField n -> has_lines (msg_headers m) n ls -> Forall legible ls -> process_error (id_params i) ls e -> own_error m i (HttpSigError e)
| oe_param d p : id_name i = Derived d -> In p (id_params i) -> ~ fitting m d p -> own_error m i HInvalidComponentParam
| oe_name d : id_name i = Derived d -> (forall p, In p (id_params i) -> fitting m d p) -> ~ applicable m d -> own_error m i HInvalidComponentName
| oe_value d : id_name i = Derived d -> (forall p, In p (id_params i) -> fitting m d p) -> applicable m d -> (forall v, ~ own_value m i v) ->
    own_error m i (HttpSigError InvalidComponent).
Inductive component_error (m : msg) (rfp : option request) (i : cid) : herr -> Prop :=
| ce_own e : ~ In Req (id_params i) -> own_error m i e -> component_error m rfp i e
| ce_no_request : In Req (id_params i) -> (exists r, m = MReq r) \/ rfp = None -> component_error m rfp i HInvalidComponentParam
| ce_request x r e : In Req (id_params i) -> m = MRes x -> rfp = Some r -> own_error (MReq r) i e -> component_error m rfp i e.
(** the first covered component without a value decides *)
Definition text_error (m : msg) (rfp : option request) (p : sparams) (e : herr) : Prop :=
  exists a i b vs, sp_covered p = a ++ i :: b /\ Forall2 (message_value m rfp) a vs /\ component_error m rfp i e.

(** ** signing: first all texts, then all signatures, then the header lines *)
Inductive signing_error (m : msg) (rfp : option request) (jobs : list job) : herr -> Prop :=
| se_text a j b e : jobs = a ++ j :: b -> Forall (fun j' => exists t, signed_text m rfp (j_params j') t) a -> text_error m rfp (j_params j) e ->
    signing_error m rfp jobs e
| se_key ts a j b t e : Forall2 (fun j t => signed_text m rfp (j_params j) t) jobs ts ->
    Forall2 (fun j t => forall q, sk_sign (j_key j) (j_seed j) (utf8 t) <> Panic q) jobs ts ->
    combine jobs ts = a ++ (j, t) :: b -> Forall (fun jt => exists s, sk_sign (j_key (fst jt)) (j_seed (fst jt)) (utf8 (snd jt)) = Ok s) a ->
    sk_sign (j_key j) (j_seed j) (utf8 t) = Err e -> signing_error m rfp jobs (HttpSigError e).

(** ** content digests *)
Inductive digest_error (H : hashes) (m : msg) : derr -> Prop :=
| de_none : field_lines (msg_headers m) (lit "content-digest") = [] -> digest_error H m NoDigestHeader
| de_illegible v r : field_lines (msg_headers m) (lit "content-digest") = v :: r -> ~ legible v -> digest_error H m FailedToStrDigestHeader
| de_line v r : field_lines (msg_headers m) (lit "content-digest") = v :: r -> legible v ->
    (forall n d, n = lit "sha-256" \/ n = lit "sha-512" -> ~ digest_line v n d) -> digest_error H m DInvalidHeaderValue
| de_body v r n d : field_lines (msg_headers m) (lit "content-digest") = v :: r -> n = lit "sha-256" \/ n = lit "sha-512" -> digest_line v n d ->
    ~ readable (msg_body m) -> digest_error H m HttpBodyError
| de_differs v r n d : field_lines (msg_headers m) (lit "content-digest") = v :: r -> n = lit "sha-256" \/ n = lit "sha-512" -> digest_line v n d ->
    readable (msg_body m) -> ~ digest_of H n (data_of (msg_body m)) d -> digest_error H m InvalidContentDigest.

(** ** lines of a signature base *)
(** [t] begins with a double quote and either ends with one or has a quote followed by a semicolon after the first character *)
Definition quoted (t : str) : Prop :=
  exists r, t = lit """" ++ r /\ (r = [] \/ (exists x, r = x ++ lit """") \/ exists x y, r = x ++ lit """;" ++ y).
(** the text before the first colon, without white space around it, and the text after it *)
Definition halves (s t v : str) : Prop := exists i w, s = i ++ lit ":" ++ w /\ ~ In 58 i /\ stripped i t /\ stripped w v.
Inductive line_error (s : str) : err -> Prop :=
| le_colon : ~ In 58 s -> line_error s InvalidComponent
| le_quotes t v : halves s t v -> ~ quoted t -> line_error s InvalidComponentId
| le_id t v e : halves s t v -> quoted t -> id_error t e -> line_error s e.

(** ** verification of a message with one key *)
Inductive verification_error (now : nat -> N) (m : msg) (rfp : option request) (key : verifying_key) (kid : option str) : herr -> Prop :=
| ve_message e : message_error m e -> verification_error now m rfp key kid e
| ve_nothing l : received m l -> checked m rfp kid l [] -> verification_error now m rfp key kid NoSignatureHeaders
| ve_refused l cs : received m l -> checked m rfp kid l cs -> cs <> [] ->
    (forall i n t h, nth_error cs i = Some (n, (t, h)) -> ~ panics (now i) key t h /\ ~ accepts (now i) key t h) ->
    verification_error now m rfp key kid HInvalidSignature.

(** ** keys *)
(** key octets that the file formats allow but that have not the length of a secret key *)
Definition bad_key_length (P : prims) (a : alg) (key : bytes) : Prop :=
  match a with
  | EcdsaP256Sha256 => exists b, d_ec P key = Some b /\ List.length b <> 32%nat
  | EcdsaP384Sha384 => exists b, d_ec P key = Some b /\ List.length b <> 48%nat
  | Ed25519 => List.length key <> 34%nat
  | _ => False
  end.
(** octets that are a signature in the format of the algorithm, and signatures that belong to the key and the data *)
Definition signature_form {P} (k : public_key P) (s : bytes) : Prop :=
  match k with
  | PkP256 _ => p256_sig_ok P s = true | PkP384 _ => p384_sig_ok P s = true | PkEd25519 _ => ed_sig_ok P s = true
  | PkRsa15 _ => rsa_sig_ok P RsaV1_5Sha256 s = true | PkPss _ => rsa_sig_ok P RsaPssSha512 s = true
  end.
Definition signature_right {P} (k : public_key P) (d s : bytes) : Prop :=
  match k with
  | PkP256 k => p256_verify P k d s = true | PkP384 k => p384_verify P k d s = true | PkEd25519 k => ed_verify P k d s = true
  | PkRsa15 k => rsa_verify P RsaV1_5Sha256 k d s = true | PkPss k => rsa_verify P RsaPssSha512 k d s = true
  end.
Definition signature_length {P} (k : public_key P) (s : bytes) : Prop :=
  match k with PkP256 _ => List.length s = 64%nat | PkP384 _ => List.length s = 96%nat | _ => True end.
