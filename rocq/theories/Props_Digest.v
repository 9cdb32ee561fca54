(** C49-C54: content digests *)
From Verif Require Import Base BaseFacts Utf8 Base64 Sfv SfvFacts SfvRound TextFacts SpecSfv SpecSfvProofs SpecGrammar GrammarProofs SpecCanon CanonProofs Component Crypto SpecCrypto CryptoProofs Params SigBase Http Hyper Digest SpecId IdProofs SpecParams ParamsProofs SpecValue ValueProofs SpecBase BaseProofs SpecIdText IdTextProofs SpecMsg HeaderProofs MsgProofs VerifyProofs SpecExtract ExtractProofs TamperProofs SpecSign SignProofs SpecDigest DigestProofs Decide Toy Props_Params Props_Verify Props_Base Props_Sign Props_Frame.

(** toy hash functions for the examples *)
Definition toy_hashes : hashes := mkHashes (fun b => pad 32 (oct b)) (fun b => pad 64 (oct b)).
Lemma toy_hashes_octets : octet_hashes toy_hashes.
Proof.
  assert (Hp : forall n b, Forall octet b -> Forall octet (pad n b)).
  { intros n b Hb. unfold pad. assert (Hall : Forall octet (b ++ repeat 0 n)).
    { apply Forall_app. split; [assumption|]. apply Forall_forall. intros x Hx. apply repeat_spec in Hx. subst. unfold octet. lia. }
    apply Forall_forall. intros x Hx. rewrite Forall_forall in Hall. apply Hall. rewrite <- (firstn_skipn n). apply in_or_app. left. assumption. }
  assert (Ho : forall b, Forall octet (oct b)).
  { intro b. apply Forall_forall. intros x Hx. apply in_map_iff in Hx as (y & <- & _). unfold octet. pose proof (N.mod_lt y 256). lia. }
  intro x. split; apply Hp, Ho.
Qed.

(** ** C49 *)
Theorem C49_round_trip : forall H m t, octet_hashes H -> readable (msg_body m) ->
  exists m', set_content_digest H m t = Ok m' /\ verify_content_digest H m' = Ok m'.
Proof.
  intros H m t Ho Hr. destruct (proj1 (set_content_spec H m t Ho) Hr) as (b & Hb & E). eexists. split; [exact E|].
  pose proof (sent_on_data _ _ Hb) as [Ed Hrb]. apply verify_content_spec. destruct (digest_value_line H t (data_of (msg_body m)) Ho) as [_ Hl].
  exists (digest_value H t (data_of (msg_body m))), [], (type_name t), (hash H t (data_of (msg_body m))), b. rewrite content_headers, content_body, content_twice.
  split; [rewrite insert_lines; destruct (list_eq_dec N.eq_dec _ _); [reflexivity|contradiction]|]. split; [assumption|]. split; [assumption|]. split.
  - rewrite Ed. unfold digest_of. destruct t; auto.
  - split; [|reflexivity]. unfold sent_on in *. rewrite Ed. destruct Hb as [[-> ->]|[Hn ->]]; auto.
Qed.
Print Assumptions C49_round_trip.
(** a body that cannot be read is the only reason to fail, and nothing panics *)
Theorem C49_fails : forall H m t, octet_hashes H -> ~ readable (msg_body m) -> set_content_digest H m t = Err HttpBodyError.
Proof. intros H m t Ho. apply set_content_spec. assumption. Qed.
Print Assumptions C49_fails.
(** the header line has the form of RFC 9530 *)
Theorem C49_line : forall H m t m', octet_hashes H -> set_content_digest H m t = Ok m' ->
  field_lines (msg_headers m') (lit "content-digest") = [digest_value H t (data_of (msg_body m))].
Proof.
  intros H m t m' Ho E. apply set_content_ok in E as [_ (b & _ & ->)]; [|assumption]. rewrite content_headers, insert_lines. destruct (list_eq_dec N.eq_dec _ _); [reflexivity|contradiction].
Qed.
Print Assumptions C49_line.
Definition chunked : request := mkReq (lit "POST") ex_uri [(lit "host", lit "example.com"); (lit "content-digest", lit "old"); (lit "date", lit "x"); (lit "content-digest", lit "older")]
  [FData (lit "hel"); FData []; FData (lit "lo"); FTrailers []].
Example C49_example : readable (rq_body chunked) /\ exists m', set_content_digest toy_hashes (MReq chunked) Sha256 = Ok m'
  /\ msg_headers m' = [(lit "host", lit "example.com"); (lit "content-digest", lit "sha-256=:aGVsbG8AAAAAAAAAAAAAAAAAAAAAAAAAAAAAAAAAAAA=:"); (lit "date", lit "x")] /\ msg_body m' = [FData (lit "hello")].
Proof.
  split; [unfold readable; cbn; intros [E|[E|[E|[E|[]]]]]; discriminate|]. eexists. split; [vm_compute; reflexivity|]. split; vm_compute; reflexivity.
Qed.

(** ** C50 *)
Theorem C50_accepts : forall H m m', verify_content_digest H m = Ok m' <->
  exists v r n d b, field_lines (msg_headers m) (lit "content-digest") = v :: r /\ digest_line v n d /\ readable (msg_body m) /\ digest_of H n (data_of (msg_body m)) d
  /\ sent_on (msg_body m) b /\ m' = with_content m (msg_headers m) b.
Proof. exact verify_content_spec. Qed.
Print Assumptions C50_accepts.
Theorem C50_no_panic : forall H m q, verify_content_digest H m <> Panic q.
Proof. exact verify_content_no_panic. Qed.
Print Assumptions C50_no_panic.
(** the returned message has the same headers and data *)
Theorem C50_same_message : forall H m m', verify_content_digest H m = Ok m' ->
  msg_headers m' = msg_headers m /\ data_of (msg_body m') = data_of (msg_body m) /\ readable (msg_body m')
  /\ match m, m' with
     | MReq q, MReq q' => rq_method q' = rq_method q /\ rq_uri q' = rq_uri q
     | MRes x, MRes x' => rs_status x' = rs_status x
     | _, _ => False
     end.
Proof.
  intros H m m' E. apply verify_content_spec in E as (v & r & n & d & b & _ & _ & _ & _ & Hb & ->). rewrite content_headers, content_body. apply sent_on_data in Hb as [E1 E2].
  split; [reflexivity|]. split; [assumption|]. split; [assumption|]. destruct m; cbn; auto.
Qed.
Print Assumptions C50_same_message.
(** verifying again gives the same *)
Theorem C50_again : forall H m m', verify_content_digest H m = Ok m' -> verify_content_digest H m' = Ok m'.
Proof.
  intros H m m' E. apply verify_content_spec in E as (v & r & n & d & b & E1 & E2 & E3 & E4 & E5 & ->). apply verify_content_spec. exists v, r, n, d, b.
  rewrite content_headers, content_body, content_twice. pose proof (sent_on_data _ _ E5) as [Ed Er]. rewrite Ed. split; [assumption|]. split; [assumption|]. split; [assumption|]. split; [assumption|].
  split; [|reflexivity]. unfold sent_on in *. rewrite Ed. destruct E5 as [[-> ->]|[Hn ->]]; auto.
Qed.
Print Assumptions C50_again.
Definition with_digest (v : str) (b : body) : msg := MRes (mkRes 200 [(lit "content-digest", v)] b).
Definition hello_digest : str := lit "sha-256=:aGVsbG8AAAAAAAAAAAAAAAAAAAAAAAAAAAAAAAAAAAA=:".
Example C50_example :
  verify_content_digest toy_hashes (with_digest hello_digest [FData (lit "he"); FData (lit "llo")]) = Ok (with_digest hello_digest [FData (lit "hello")])
  /\ verify_content_digest toy_hashes (with_digest hello_digest [FData (lit "hello!")]) = Err InvalidContentDigest
  /\ verify_content_digest toy_hashes (with_digest (hello_digest ++ lit ", sha-512=:AA==:") [FData (lit "hello")]) = Err DInvalidHeaderValue
  /\ verify_content_digest toy_hashes (with_digest (lit "md5=:AA==:") [FData (lit "hello")]) = Err DInvalidHeaderValue
  /\ verify_content_digest toy_hashes (with_digest (lit "sha-256=:AA==:") [FData (lit "hello")]) = Err InvalidContentDigest
  /\ verify_content_digest toy_hashes (with_digest hello_digest [FData (lit "hello"); FError]) = Err HttpBodyError
  /\ verify_content_digest toy_hashes (MReq ex_req) = Err NoDigestHeader.
Proof. repeat split; vm_compute; reflexivity. Qed.

(** ** C51 *)
Theorem C51_detects : forall H m t m' b, octet_hashes H -> set_content_digest H m t = Ok m' -> readable b ->
  hash H t (data_of b) <> hash H t (data_of (msg_body m)) -> verify_content_digest H (set_body m' b) = Err InvalidContentDigest.
Proof.
  intros H m t m' b Ho E Hb Hd. pose proof (C49_line H m t m' Ho E) as El.
  assert (Eh : msg_headers (set_body m' b) = msg_headers m') by (destruct m'; reflexivity). assert (Eb : msg_body (set_body m' b) = b) by (destruct m'; reflexivity).
  destruct (digest_value_line H t (data_of (msg_body m)) Ho) as [_ Hl].
  eapply (verify_content_mismatch H (set_body m' b) _ [] (type_name t) (hash H t (data_of (msg_body m))) t); rewrite ?Eh, ?Eb; eauto.
Qed.
Print Assumptions C51_detects.
(** and a body with the same hash is accepted, so this is exact *)
Theorem C51_exact : forall H m t m' b, octet_hashes H -> set_content_digest H m t = Ok m' -> readable b ->
  ((exists m'', verify_content_digest H (set_body m' b) = Ok m'') <-> hash H t (data_of b) = hash H t (data_of (msg_body m))).
Proof.
  intros H m t m' b Ho E Hb. split.
  - intros [m'' E']. destruct (list_eq_dec N.eq_dec (hash H t (data_of b)) (hash H t (data_of (msg_body m)))) as [|Hd]; [assumption|].
    rewrite (C51_detects H m t m' b Ho E Hb Hd) in E'. discriminate.
  - intro Hd. pose proof (C49_line H m t m' Ho E) as El.
    assert (Eh : msg_headers (set_body m' b) = msg_headers m') by (destruct m'; reflexivity). assert (Eb : msg_body (set_body m' b) = b) by (destruct m'; reflexivity).
    destruct (digest_value_line H t (data_of (msg_body m)) Ho) as [_ Hl]. eexists. apply verify_content_spec. rewrite Eh, Eb. eexists _, [], (type_name t), (hash H t (data_of b)), (full (data_of b)).
    split; [exact El|]. split; [rewrite Hd; exact Hl|]. split; [assumption|]. split; [unfold digest_of; destruct t; auto|]. split; [apply full_spec|reflexivity].
Qed.
Print Assumptions C51_exact.
Example C51_example : readable [FData (lit "hallo")] /\ hash toy_hashes Sha256 (lit "hallo") <> hash toy_hashes Sha256 (lit "hello").
Proof. split; [unfold readable; cbn; intros [E|[]]; discriminate|]. vm_compute. discriminate. Qed.

(** ** C52 *)
Theorem C52_local : forall H m t m', octet_hashes H -> set_content_digest H m t = Ok m' ->
  (exists v, field_lines (msg_headers m') (lit "content-digest") = [v])
  /\ (forall n, n <> lit "content-digest" -> field_lines (msg_headers m') n = field_lines (msg_headers m) n)
  /\ data_of (msg_body m') = data_of (msg_body m)
  /\ match m, m' with
     | MReq q, MReq q' => rq_method q' = rq_method q /\ rq_uri q' = rq_uri q
     | MRes x, MRes x' => rs_status x' = rs_status x
     | _, _ => False
     end.
Proof.
  intros H m t m' Ho E. split; [eexists; eapply C49_line; eassumption|]. apply set_content_ok in E as [_ (b & Hb & ->)]; [|assumption]. rewrite content_headers, content_body. split; [|split].
  - intros n Hn. rewrite insert_lines. destruct (list_eq_dec N.eq_dec _ _) as [<-|]; [contradiction|reflexivity].
  - apply sent_on_data, Hb.
  - destruct m; cbn; auto.
Qed.
Print Assumptions C52_local.
Theorem C52_idempotent : forall H m t m', octet_hashes H -> set_content_digest H m t = Ok m' -> set_content_digest H m' t = Ok m'.
Proof.
  intros H m t m' Ho E. apply set_content_ok in E as [Hr (b & Hb & ->)]; [|assumption]. pose proof (sent_on_data _ _ Hb) as [Ed Hrb].
  apply set_content_ok; [assumption|]. rewrite content_body, content_headers. split; [assumption|]. exists b. rewrite Ed, insert_twice, content_twice. split; [|reflexivity].
  unfold sent_on in *. rewrite Ed. destruct Hb as [[-> ->]|[Hn ->]]; auto.
Qed.
Print Assumptions C52_idempotent.
(** of any sequence of calls only the last one counts *)
Theorem C52_history : forall H m ts t m', octet_hashes H -> digest_history H m (ts ++ [t]) m' -> set_content_digest H m t = Ok m'.
Proof.
  intros H m ts t m' Ho. revert m. induction ts as [|u ts IH]; intros m Hh; cbn [app] in Hh; inversion Hh as [|? ? m1 ? ? E1 E2]; subst; [inversion E2; subst; assumption|].
  apply IH in E2. apply set_content_ok in E1 as [Hr (b & Hb & ->)]; [|assumption]. apply set_content_ok in E2 as [_ (b' & Hb' & ->)]; [|assumption].
  rewrite content_headers, content_body, content_twice, insert_twice in *. pose proof (sent_on_data _ _ Hb) as [Ed _]. rewrite Ed.
  apply set_content_ok; [assumption|]. split; [assumption|]. exists b'. split; [|reflexivity]. rewrite <- (sent_on_same _ _ _ Hb Hb'). assumption.
Qed.
Print Assumptions C52_history.
Example C52_example : exists m1 m2, digest_history toy_hashes (MReq chunked) [Sha256; Sha512; Sha256] m2 /\ set_content_digest toy_hashes (MReq chunked) Sha512 = Ok m1 /\ m1 <> m2.
Proof.
  eexists. eexists. split; [|split].
  - eapply dh_call; [vm_compute; reflexivity|]. eapply dh_call; [vm_compute; reflexivity|]. eapply dh_call; [vm_compute; reflexivity|]. constructor.
  - vm_compute. reflexivity.
  - intro E. discriminate E.
Qed.

(** ** C53 *)
(** only the first line is read: a message is accepted although its second line disagrees with the body *)
Theorem C53_refuted : exists m m' v w d, verify_content_digest toy_hashes m = Ok m' /\ field_lines (msg_headers m) (lit "content-digest") = [v; w]
  /\ digest_line w (lit "sha-256") d /\ ~ digest_of toy_hashes (lit "sha-256") (data_of (msg_body m)) d.
Proof.
  exists (MRes (mkRes 200 [(lit "content-digest", hello_digest); (lit "content-digest", lit "sha-256=:AA==:")] [FData (lit "hello")])).
  eexists. exists hello_digest, (lit "sha-256=:AA==:"), [0]. split; [vm_compute; reflexivity|]. split; [reflexivity|]. split.
  - split; [eapply Forall_impl; [|apply (lit_print (lit "sha-256=:AA==:")); reflexivity]; cbn; lia|]. eexists. apply parse_dict_spec. vm_compute. reflexivity.
  - intros [[_ E]|[E _]]; vm_compute in E; discriminate E.
Qed.
Print Assumptions C53_refuted.
(** also dangerous together with signatures: joined into one line, the same lines have the same signed value but another meaning (of members
    with the same name the last one counts), so that two messages with different bodies pass with the same signed bytes *)
Definition two_lines : msg := MRes (mkRes 200 [(lit "content-digest", hello_digest); (lit "content-digest", lit "sha-256=:aGFsbG8AAAAAAAAAAAAAAAAAAAAAAAAAAAAAAAAAAAA=:")] [FData (lit "hello")]).
Definition one_joined : msg := MRes (mkRes 200 [(lit "content-digest", hello_digest ++ lit ", " ++ lit "sha-256=:aGFsbG8AAAAAAAAAAAAAAAAAAAAAAAAAAAAAAAAAAAA=:")] [FData (lit "hallo")]).
Theorem C53_signed_refuted : exists m m' t,
  (exists x, verify_content_digest toy_hashes m = Ok x) /\ (exists x, verify_content_digest toy_hashes m' = Ok x)
  /\ signed_text m None (mkSparams None None None None None None [digest_id]) t /\ signed_text m' None (mkSparams None None None None None None [digest_id]) t
  /\ h256 toy_hashes (data_of (msg_body m)) <> h256 toy_hashes (data_of (msg_body m')).
Proof.
  exists two_lines, one_joined. eexists. split; [eexists; vm_compute; reflexivity|]. split; [eexists; vm_compute; reflexivity|].
  split; [apply signed_text_spec; eexists; split; [vm_compute; reflexivity|reflexivity]|]. split; [apply signed_text_spec; eexists; split; [vm_compute; reflexivity|vm_compute; reflexivity]|].
  vm_compute. discriminate.
Qed.
Print Assumptions C53_signed_refuted.
(** with a single line, every line is checked *)
Theorem C53_single_line_partial : forall H m m', verify_content_digest H m = Ok m' -> length (field_lines (msg_headers m) (lit "content-digest")) = 1%nat ->
  Forall (fun v => exists n d, digest_line v n d /\ digest_of H n (data_of (msg_body m)) d) (field_lines (msg_headers m) (lit "content-digest")).
Proof.
  intros H m m' E Hl. apply verify_content_spec in E as (v & r & n & d & b & E1 & E2 & E3 & E4 & _). rewrite E1 in *. destruct r; [|discriminate]. constructor; [eauto|constructor].
Qed.
Print Assumptions C53_single_line_partial.

(** ** C54 *)
(** a signature that covers a content-digest line without commas fixes the line, in any message with the same signed bytes *)
Theorem C54_line : forall H m m' rfp rfp' p l' n' h' t t' v x, proper m rfp -> proper m' rfp' -> writable p -> In digest_id (sp_covered p) ->
  field_lines (msg_headers m) (lit "content-digest") = [v] -> ~ In 44 v ->
  received m' l' -> In (n', h') l' -> signed_text m rfp p t -> signed_text m' rfp' (sh_params h') t' -> utf8 t = utf8 t' ->
  verify_content_digest H m' = Ok x -> field_lines (msg_headers m') (lit "content-digest") = [v].
Proof.
  intros H m m' rfp rfp' p l' n' h' t t' v x Hm Hm' Hp Hi Hv Hc Hl Hh Ht Ht' E Hx.
  apply (digest_covered m m' rfp rfp' p (sh_params h') t t' v); try assumption; [apply writable_printable, Hp|eapply received_printable; eassumption|].
  apply verify_content_spec in Hx as (w & r & n & d & b & E1 & _). rewrite E1. discriminate.
Qed.
Print Assumptions C54_line.
(** so the bodies of two such messages that pass have the same hash *)
Theorem C54_same_hash : forall H m m' rfp rfp' p l' n' h' t t' v x x', proper m rfp -> proper m' rfp' -> writable p -> In digest_id (sp_covered p) ->
  field_lines (msg_headers m) (lit "content-digest") = [v] -> ~ In 44 v ->
  received m' l' -> In (n', h') l' -> signed_text m rfp p t -> signed_text m' rfp' (sh_params h') t' -> utf8 t = utf8 t' ->
  verify_content_digest H m = Ok x -> verify_content_digest H m' = Ok x' ->
  exists a d, digest_line v (type_name a) d /\ hash H a (data_of (msg_body m)) = d /\ hash H a (data_of (msg_body m')) = d.
Proof.
  intros H m m' rfp rfp' p l' n' h' t t' v x x' Hm Hm' Hp Hi Hv Hc Hl Hh Ht Ht' E Hx Hx'.
  pose proof (C54_line H m m' rfp rfp' p l' n' h' t t' v x' Hm Hm' Hp Hi Hv Hc Hl Hh Ht Ht' E Hx') as Hv'.
  apply verify_content_spec in Hx as (w & r & n & d & b & E1 & [Hg [ps E2]] & _ & E4 & _). apply verify_content_spec in Hx' as (w' & r' & k & d' & b' & E1' & [_ [ps' E2']] & _ & E4' & _).
  rewrite Hv in E1. injection E1 as <- <-. rewrite Hv' in E1'. injection E1' as <- <-. pose proof (conj Hg (ex_intro _ ps E2) : digest_line v n d) as Hd. apply parse_dict_spec in E2, E2'. rewrite E2 in E2'. injection E2' as <- <- _.
  destruct E4 as [[Hn Ed]|[Hn Ed]], E4' as [[Hn' Ed']|[Hn' Ed']]; try (rewrite Hn in Hn'; discriminate); [exists Sha256, d|exists Sha512, d]; cbn [hash type_name]; rewrite Hn in Hd; (split; [exact Hd|]); split; congruence.
Qed.
Print Assumptions C54_same_hash.
(** end to end: a sender sets the digest and signs it; whatever message a receiver accepts with this key, if its digest passes too, then its body has
    the hash of the sender's, unless the key accepts the received signature for another text than the one signed *)
Theorem C54_end_to_end : forall H m t m1 rfp j m2 m' rfp' clk key kid n' l' h' x, octet_hashes H ->
  set_content_digest H m t = Ok m1 -> set_message_signature m1 rfp j = (m2, Ok tt) -> writable (j_params j) -> In digest_id (sp_covered (j_params j)) -> proper m1 rfp ->
  verify_message_signature clk m' rfp' key kid = Ok n' -> received m' l' -> In (n', h') l' -> proper m' rfp' -> verify_content_digest H m' = Ok x ->
  exists s s', signed_text m1 rfp (j_params j) s /\ signed_text m' rfp' (sh_params h') s' /\ vk_verify key (utf8 s') (sh_sig h') = Ok tt
  /\ (utf8 s = utf8 s' -> hash H t (data_of (msg_body m)) = hash H t (data_of (msg_body m'))).
Proof.
  intros H m t m1 rfp j m2 m' rfp' clk key kid n' l' h' x Ho E1 E2 Hw Hi Hm1 Hv Hl Hh Hm' Hx.
  destruct (C19_signed_bytes _ _ _ _ E2) as (s & _ & Hs & _).
  assert (Hacc : exists s', signed_text m' rfp' (sh_params h') s' /\ vk_verify key (utf8 s') (sh_sig h') = Ok tt) by (eapply accepted_text; eassumption).
  destruct Hacc as (s' & Hs' & Hk). exists s, s'. split; [assumption|]. split; [assumption|]. split; [assumption|]. intro E.
  pose proof (C49_line H m t m1 Ho E1) as Hv1. pose proof (digest_value_comma H t (data_of (msg_body m)) Ho) as Hc.
  pose proof (C54_line H m1 m' rfp rfp' (j_params j) l' n' h' s s' _ x Hm1 Hm' Hw Hi Hv1 Hc Hl Hh Hs Hs' E Hx) as Hv'.
  apply verify_content_spec in Hx as (w & r & n & d & b & F1 & [_ [ps F2]] & _ & F4 & _). rewrite Hv' in F1. injection F1 as <- <-.
  destruct (digest_value_line H t (data_of (msg_body m)) Ho) as [_ [_ [ps' F2']]]. apply parse_dict_spec in F2, F2'. rewrite F2 in F2'. injection F2' as Hn <- _.
  destruct F4 as [[Hn' Ed]|[Hn' Ed]]; destruct t; cbn [type_name hash] in *; try congruence; rewrite Hn in Hn'; discriminate.
Qed.
Print Assumptions C54_end_to_end.
Definition digest_params : sparams := mkSparams (Some 1618884473) None None None (Some (lit "k")) None [mkCid (Derived Method) []; digest_id].
Definition digest_job : job := mkJob digest_params toy_key (Some (lit "sig1")) 0.
Example C54_example : exists m1 m2 x l h, set_content_digest toy_hashes (MReq chunked) Sha512 = Ok m1 /\ set_message_signature m1 None digest_job = (m2, Ok tt)
  /\ writable digest_params /\ In digest_id (sp_covered digest_params) /\ proper m1 None /\ proper m2 None
  /\ verify_message_signature (fun _ _ => 0) m2 None toy_vk None = Ok (lit "sig1") /\ received m2 l /\ In (lit "sig1", h) l /\ verify_content_digest toy_hashes m2 = Ok x.
Proof.
  assert (P : forall h b, proper (MReq (mkReq (lit "POST") ex_uri h b)) None).
  { intros h b. split; [|exact I]. unfold proper_request. cbn [rq_method rq_uri]. repeat split; cbn [maybe u_scheme u_auth u_path u_query ex_uri]. all: apply (line_lit (lit _)); reflexivity. }
  assert (E1 : exists h b, set_content_digest toy_hashes (MReq chunked) Sha512 = Ok (MReq (mkReq (lit "POST") ex_uri h b))) by (eexists; eexists; vm_compute; reflexivity).
  destruct E1 as (h1 & b1 & E1). exists (MReq (mkReq (lit "POST") ex_uri h1 b1)).
  assert (E2 : exists h b, rmap (fun m => set_message_signature m None digest_job) (set_content_digest toy_hashes (MReq chunked) Sha512) = Ok (MReq (mkReq (lit "POST") ex_uri h b), Ok tt)
    /\ verify_message_signature (fun _ _ => 0) (MReq (mkReq (lit "POST") ex_uri h b)) None toy_vk None = Ok (lit "sig1")
    /\ (exists x, verify_content_digest toy_hashes (MReq (mkReq (lit "POST") ex_uri h b)) = Ok x)
    /\ exists l s, extract_signature_headers_with_name (MReq (mkReq (lit "POST") ex_uri h b)) = Ok l /\ In (lit "sig1", s) l).
  { eexists. eexists. split; [vm_compute; reflexivity|]. split; [vm_compute; reflexivity|]. split; [eexists; vm_compute; reflexivity|]. eexists. eexists. split; [vm_compute; reflexivity|]. left. reflexivity. }
  destruct E2 as (h2 & b2 & E2 & E3 & (x & E4) & l & s & E5 & E6). rewrite E1 in E2. injection E2 as E2. exists (MReq (mkReq (lit "POST") ex_uri h2 b2)), x, l, s.
  split; [exact E1|]. split; [exact E2|]. split; [apply writableb_ok; vm_compute; reflexivity|]. split; [right; left; reflexivity|]. split; [apply P|]. split; [apply P|].
  split; [exact E3|]. split; [apply extract_spec, E5|]. split; [exact E6|exact E4].
Qed.
