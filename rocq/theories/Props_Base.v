(** C19-C21, C23, C24, C37, C58 and the parts of C13 and C57 about signature bases. *)
From Verif Require Import Base BaseFacts Utf8 Base64 Sfv SfvFacts SfvRound SpecSfv SpecSfvProofs SpecGrammar GrammarProofs SpecCanon CanonProofs Component Crypto SpecCrypto CryptoProofs Params SigBase Http Hyper SpecId IdProofs SpecParams ParamsProofs SpecValue ValueProofs SpecBase BaseProofs SpecIdText IdTextProofs SpecMsg HeaderProofs MsgProofs VerifyProofs SpecExtract ExtractProofs TamperProofs Decide Toy Props_Value Props_Params Props_Verify.

(** ** C19 *)
Theorem C19_layout : forall b, base_str b = base_text (map (fun c => (id_text (co_id c), cvalue_str (co_value c))) (sb_lines b)) (params_text (sb_params b))
  /\ base_bytes b = utf8 (base_str b).
Proof. intro b. split; [apply base_text_spec|reflexivity]. Qed.
Print Assumptions C19_layout.
(** at the level of messages: what is signed and verified is exactly the text of RFC 9421, or nothing if a covered component has no value *)
Theorem C19_message : forall m rfp p t, (exists b, build_signature_base m p rfp = Ok b /\ base_str b = t) <-> signed_text m rfp p t.
Proof. exact signed_text_spec. Qed.
Print Assumptions C19_message.
(** the value of a single component; there is at most one *)
Theorem C19_component : forall m rfp i v, (exists c, component_line m rfp i = Ok c /\ as_component_value (co_value c) = v) <-> message_value m rfp i v.
Proof. exact message_value_spec. Qed.
Print Assumptions C19_component.
Theorem C19_deterministic : forall m rfp p t t', signed_text m rfp p t -> signed_text m rfp p t' -> t = t'.
Proof. exact signed_text_fun. Qed.
Print Assumptions C19_deterministic.
(** signing signs the bytes of this text *)
Theorem C19_signed_bytes : forall m rfp j m', set_message_signature m rfp j = (m', Ok tt) ->
  exists t s, signed_text m rfp (j_params j) t /\ sk_sign (j_key j) (j_seed j) (utf8 t) = Ok s.
Proof.
  intros m rfp j m' H. unfold set_message_signature, set_message_signatures, make_signatures in H. cbn [collect] in H.
  destruct (build_signature_base m (j_params j) rfp) as [b|e|q] eqn:E; cbn [rmap bind] in H; try discriminate.
  exists (base_str b). cbn [map fst snd join_all first_panic] in H. unfold build_signature_headers, build_raw_signature in H.
  destruct (sk_sign (j_key j) (j_seed j) (base_bytes b)) as [s|e|q] eqn:Es; cbn in H; try discriminate.
  exists s. split; [|exact Es]. apply signed_text_spec. eauto.
Qed.
Print Assumptions C19_signed_bytes.
Example C19_example : signed_text (MReq ex_req) None ex_params
  (lit """@method"": POST" ++ [10] ++ lit """date"": Tue, 20 Apr 2021 02:07:55 GMT" ++ [10] ++ lit """@path"": /foo" ++ [10]
   ++ lit """@signature-params"": (""@method"" ""date"" ""@path"");created=1618884473;expires=1618884773;keyid=""k""").
Proof. apply signed_text_spec. eexists. split; [vm_compute; reflexivity|]. vm_compute. reflexivity. Qed.

(** ** C20 *)
Theorem C20_unambiguous : forall b1 b2,
  map (fun c => id_text (co_id c)) (sb_lines b1) = map id_text (sp_covered (sb_params b1)) ->
  map (fun c => id_text (co_id c)) (sb_lines b2) = map id_text (sp_covered (sb_params b2)) ->
  Forall (fun c => one_line (id_text (co_id c)) /\ one_line (as_component_value (co_value c))) (sb_lines b1) ->
  Forall (fun c => one_line (id_text (co_id c)) /\ one_line (as_component_value (co_value c))) (sb_lines b2) ->
  one_line (params_text (sb_params b1)) -> one_line (params_text (sb_params b2)) ->
  base_str b1 = base_str b2 ->
  map (fun c => id_text (co_id c)) (sb_lines b1) = map (fun c => id_text (co_id c)) (sb_lines b2)
  /\ map (fun c => as_component_value (co_value c)) (sb_lines b1) = map (fun c => as_component_value (co_value c)) (sb_lines b2)
  /\ params_text (sb_params b1) = params_text (sb_params b2).
Proof.
  intros b1 b2 H1 H2 H3 H4 H5 H6 E. destruct (base_inj b1 b2 H1 H2 H3 H4 H5 H6 E) as [El Ep].
  assert (Hf : forall l, map (fun c => id_text (co_id c)) l = map fst (map line_of l)) by (intro l; rewrite map_map; reflexivity).
  assert (Hs : forall l, map (fun c => as_component_value (co_value c)) l = map snd (map line_of l)) by (intro l; rewrite map_map; reflexivity).
  rewrite !Hf, !Hs, El. auto.
Qed.
Print Assumptions C20_unambiguous.
(** also when the identifiers of the lines are only equal as sets of parameters, if they have no double quotes *)
Theorem C20_unquoted : forall b1 b2,
  Forall (fun c => lacks 34 (co_id c)) (sb_lines b1) -> Forall (fun c => lacks 34 (co_id c)) (sb_lines b2) ->
  Forall (fun c => one_line (id_text (co_id c)) /\ one_line (as_component_value (co_value c))) (sb_lines b1) ->
  Forall (fun c => one_line (id_text (co_id c)) /\ one_line (as_component_value (co_value c))) (sb_lines b2) ->
  one_line (params_text (sb_params b1)) -> one_line (params_text (sb_params b2)) ->
  base_str b1 = base_str b2 ->
  map (fun c => id_text (co_id c)) (sb_lines b1) = map (fun c => id_text (co_id c)) (sb_lines b2)
  /\ map (fun c => as_component_value (co_value c)) (sb_lines b1) = map (fun c => as_component_value (co_value c)) (sb_lines b2)
  /\ params_text (sb_params b1) = params_text (sb_params b2).
Proof.
  intros b1 b2 H1 H2 H3 H4 H5 H6 E. destruct (base_inj_unquoted b1 b2 H1 H2 H3 H4 H5 H6 E) as [El Ep].
  assert (Hf : forall l, map (fun c => id_text (co_id c)) l = map fst (map line_of l)) by (intro l; rewrite map_map; reflexivity).
  assert (Hs : forall l, map (fun c => as_component_value (co_value c)) l = map snd (map line_of l)) by (intro l; rewrite map_map; reflexivity).
  rewrite !Hf, !Hs, El. auto.
Qed.
Print Assumptions C20_unquoted.
(** bases built from messages always satisfy the first condition *)
Theorem C20_built : forall m p rfp b, build_signature_base m p rfp = Ok b ->
  map (fun c => id_text (co_id c)) (sb_lines b) = map id_text (sp_covered (sb_params b)) /\ sb_params b = p.
Proof. intros m p rfp b H. apply build_base_ids in H as [H1 ->]. rewrite <- H1, map_map. auto. Qed.
Print Assumptions C20_built.
(** a newline in a value would break it *)
Example C20_newline_needed : exists b1 b2, base_str b1 = base_str b2 /\ length (sb_lines b1) <> length (sb_lines b2)
  /\ sb_lines b1 = [mkComp (mkCid (HttpField (lit "a")) []) (VString (lit "1" ++ [10] ++ lit """@signature-params"": (""a"")"))] .
Proof.
  exists (mkBase [mkComp (mkCid (HttpField (lit "a")) []) (VString (lit "1" ++ [10] ++ lit """@signature-params"": (""a"")"))] (mkSparams None None None None None None [])).
  exists (mkBase [mkComp (mkCid (HttpField (lit "a")) []) (VString (lit "1")); mkComp (mkCid (Derived SignatureParams) []) (VString (lit "(""a"")"))] (mkSparams None None None None None None [])).
  split; [vm_compute; reflexivity|]. split; [discriminate|reflexivity].
Qed.

(** ** C21 *)
Theorem C21_try_new : forall lines p b, Forall valid_id (sp_covered p) -> Forall (fun c => valid_id (co_id c)) lines ->
  (base_try_new lines p = Ok b <-> Forall2 (fun c i => same_id (co_id c) i) lines (sp_covered p) /\ b = mkBase lines p).
Proof. exact base_try_new_spec. Qed.
Print Assumptions C21_try_new.
Theorem C21_error : forall lines p, (exists b, base_try_new lines p = Ok b) \/ base_try_new lines p = Err BuildSignatureBaseError.
Proof. exact base_try_new_err. Qed.
Print Assumptions C21_error.
Example C21_example :
  let i := mkCid (HttpField (lit "a")) [Sf; Req] in let i' := mkCid (HttpField (lit "a")) [Req; Sf] in
  let p := mkSparams None None None None None None [i; mkCid (Derived Method) []] in
  (exists b, base_try_new [mkComp i' (VString (lit "x")); mkComp (mkCid (Derived Method) []) (VString (lit "GET"))] p = Ok b)
  /\ base_try_new [mkComp (mkCid (Derived Method) []) (VString (lit "GET")); mkComp i' (VString (lit "x"))] p = Err BuildSignatureBaseError
  /\ base_try_new [mkComp i' (VString (lit "x"))] p = Err BuildSignatureBaseError.
Proof. cbn. split; [eexists; vm_compute; reflexivity|]. split; vm_compute; reflexivity. Qed.

(** ** C23 *)
Theorem C23_pairs : forall sig input l, try_parse sig input = Ok l <->
  exists ds di, dict_field ds sig /\ dict_field di input /\ (forall k, In k (map fst ds) <-> In k (map fst di)) /\ Forall2 (joins ds) di l.
Proof. intros sig input l. rewrite try_parse_spec. apply header_texts_spec. Qed.
Print Assumptions C23_pairs.
Theorem C23_names : forall sig input l, try_parse sig input = Ok l ->
  exists di, dict_field di input /\ map fst l = map fst di /\ Forall (fun r => sh_name (snd r) = fst r) l.
Proof.
  intros sig input l H. apply try_parse_spec in H as (ds & di & Es & Ei & _ & Hf). exists di. split; [apply parse_dict_spec; assumption|].
  split; [eapply paired_keys; exact Hf|]. clear Ei. induction Hf as [|kv r di l (H1 & H2 & _) Hf IH]; constructor; [congruence|assumption].
Qed.
Print Assumptions C23_names.
Theorem C23_unparseable : forall sig input, (forall d, ~ dict_field d sig) \/ (forall d, ~ dict_field d input) -> try_parse sig input = Err ParseSFVError.
Proof.
  intros sig input H. rewrite !no_dict_field in H. destruct H as [H|H]; unfold try_parse; rewrite H; [destruct (parse_dict input)|]; reflexivity.
Qed.
Print Assumptions C23_unparseable.
Theorem C23_names_differ : forall sig input ds di k, dict_field ds sig -> dict_field di input ->
  ~ (In k (map fst ds) <-> In k (map fst di)) -> try_parse sig input = Err BuildSignatureHeaderError.
Proof. intros sig input ds di k Hs Hi. apply parse_dict_spec in Hs, Hi. apply (try_parse_names_differ _ _ _ _ _ Hs Hi). Qed.
Print Assumptions C23_names_differ.
Theorem C23_kinds : forall sig input ds di, dict_field ds sig -> dict_field di input ->
  (exists k e, In (k, e) ds /\ forall b ps, e <> EItem (mkItem (BBytes b) ps)) \/ (exists k i, In (k, EItem i) di) ->
  try_parse sig input = Err BuildSignatureHeaderError.
Proof.
  intros sig input ds di Hs Hi H. apply parse_dict_spec in Hs, Hi. eapply try_parse_bad_kind; try eassumption. destruct H as [(k & e & H & Hb)|(k & i & H)]; [left|right].
  - exists (k, e). split; [assumption|]. cbn. destruct e as [[b ps]|]; [|reflexivity]. destruct b; try reflexivity. destruct (Hb _ _ eq_refl).
  - exists (k, EItem i). split; [assumption|reflexivity].
Qed.
Print Assumptions C23_kinds.
Example C23_example :
  let input := lit "b=(""date"");keyid=""1"", a=();created=5" in
  (exists pa pb, try_parse (lit "a=:AQ==:, b=:AgM=:") input = Ok [(lit "b", mkSh (lit "b") [2; 3] pb); (lit "a", mkSh (lit "a") [1] pa)]
     /\ sp_keyid pb = Some (lit "1") /\ sp_created pa = Some 5)
  /\ try_parse (lit "a=:AQ==:, c=:AgM=:") input = Err BuildSignatureHeaderError
  /\ try_parse (lit "a=:AQ==:, b=12") input = Err BuildSignatureHeaderError.
Proof. cbn zeta. split; [eexists; eexists; split; [vm_compute; reflexivity|]; split; reflexivity|]. split; vm_compute; reflexivity. Qed.

(** ** C24 *)
Theorem C24_parse_back : forall l, Forall sendable l -> NoDup (map sh_name l) ->
  try_parse (comma_join (map signature_header_value l)) (comma_join (map signature_input_header_value l)) = Ok (map (fun h => (sh_name h, h)) l).
Proof. exact headers_parse_back. Qed.
Print Assumptions C24_parse_back.
Example C24_example : Forall sendable [mkSh (lit "sig1") [0; 255] p1; mkSh (lit "*s-2") [] p0].
Proof.
  assert (Hk : forall k, SfvFacts.wf_key k -> key_text k) by (intros k H; apply key_text_spec, H).
  constructor; [|constructor; [|constructor]]; (split; [apply Hk; split; reflexivity|]).
  - split; [constructor; [|constructor; [|constructor]]; unfold octet; cbn; lia|]. apply writableb_ok. vm_compute. reflexivity.
  - split; [constructor|]. apply writableb_ok. vm_compute. reflexivity.
Qed.

(** ** C13: signature bases *)
(** two received signatures whose signed bytes agree have the same identifiers, times and component values, even with escaped quotes *)
Theorem C13_base_partial : forall m m' rfp rfp' l l' n n' h h' t t', proper m rfp -> proper m' rfp' ->
  received m l -> received m' l' -> In (n, h) l -> In (n', h') l' ->
  signed_text m rfp (sh_params h) t -> signed_text m' rfp' (sh_params h') t' -> utf8 t = utf8 t' ->
  map id_text (sp_covered (sh_params h)) = map id_text (sp_covered (sh_params h'))
  /\ sp_created (sh_params h) = sp_created (sh_params h') /\ sp_expires (sh_params h) = sp_expires (sh_params h')
  /\ (unquoted (sh_params h) -> unquoted (sh_params h') -> sh_params h = sh_params h').
Proof.
  intros m m' rfp rfp' l l' n n' h h' t t' Hm Hm' Hl Hl' Hi Hi' Ht Ht' E.
  destruct (same_bytes _ _ _ _ _ _ _ _ Hm Hm' (received_printable _ _ _ _ Hl Hi) (received_printable _ _ _ _ Hl' Hi') Ht Ht' E) as (E1 & E2 & _).
  destruct (params_text_times _ _ E1 E2) as (E3 & E4 & _). split; [assumption|]. split; [assumption|]. split; [assumption|].
  intros U U'. apply sparams_str_inj; auto.
  - apply (received_wellformed _ _ _ _ Hl Hi).
  - apply (received_wellformed _ _ _ _ Hl' Hi').
  - rewrite !params_text_spec. assumption.
Qed.
Print Assumptions C13_base_partial.

(** ** C37 *)
Theorem C37_same_bytes_same_values : forall m m' rfp rfp' l l' n n' h h' t t', proper m rfp -> proper m' rfp' ->
  received m l -> received m' l' -> In (n, h) l -> In (n', h') l' -> sh_params h = sh_params h' ->
  signed_text m rfp (sh_params h) t -> signed_text m' rfp' (sh_params h') t' -> utf8 t = utf8 t' ->
  forall i v, In i (sp_covered (sh_params h)) -> (message_value m rfp i v <-> message_value m' rfp' i v).
Proof.
  intros m m' rfp rfp' l l' n n' h h' t t' Hm Hm' Hl Hl' Hi Hi' Hp Ht Ht' E.
  destruct (same_bytes _ _ _ _ _ _ _ _ Hm Hm' (received_printable _ _ _ _ Hl Hi) (received_printable _ _ _ _ Hl' Hi') Ht Ht' E) as (_ & _ & vs & V & V').
  rewrite <- Hp in V'. clear -V V'. intros i v Hi. revert V'. induction V as [|j w is vs Hw V IH]; intro V'; [destruct Hi|].
  inversion V' as [|? ? ? ? Hw' V'']; subst. destruct Hi as [->|Hi]; [|auto].
  split; intro H; [rewrite (message_value_fun _ _ _ _ _ H Hw)|rewrite (message_value_fun _ _ _ _ _ H Hw')]; assumption.
Qed.
Print Assumptions C37_same_bytes_same_values.
Lemma accepted_text key clk m rfp kid n l h : verify_message_signature clk m rfp key kid = Ok n -> received m l -> In (n, h) l ->
  exists t, signed_text m rfp (sh_params h) t /\ vk_verify key (utf8 t) (sh_sig h) = Ok tt.
Proof.
  intros H Hl Hi. apply verify_ok_iff in H as (l' & cs & j & b & h' & Hl' & Hcd & _ & Hj & [_ Ha] & _).
  rewrite (received_fun _ _ _ Hl' Hl) in *. apply nth_error_In in Hj. eapply candidates_in in Hj as (Hin & Hb & _); [|exact Hcd].
  assert (h' = h).
  { destruct (received_names _ _ Hl) as [Hn _]. clear -Hi Hin Hn. induction l as [|[n' x] l IH]; [destruct Hi|]. inversion Hn as [|? ? Hx Hn']; subst.
    destruct Hi as [Hi|Hi], Hin as [Hin|Hin]; try (inv Hi); try (inv Hin); auto.
    - exfalso. apply Hx. apply (in_map fst) in Hin. exact Hin.
    - exfalso. apply Hx. apply (in_map fst) in Hi. exact Hi. }
  subst h'. exists (base_str b). split; [apply signed_text_spec; eauto|exact Ha].
Qed.
(** so a key that accepts one signature for two messages with a different covered value accepts it for two different byte strings *)
Theorem C37_forgery : forall clk clk' m m' rfp rfp' key kid kid' n n' l l' h h' i v,
  proper m rfp -> proper m' rfp' ->
  verify_message_signature clk m rfp key kid = Ok n -> verify_message_signature clk' m' rfp' key kid' = Ok n' ->
  received m l -> received m' l' -> In (n, h) l -> In (n', h') l' -> sh_params h = sh_params h' -> sh_sig h = sh_sig h' ->
  In i (sp_covered (sh_params h)) -> message_value m rfp i v -> ~ message_value m' rfp' i v ->
  exists t t', signed_text m rfp (sh_params h) t /\ signed_text m' rfp' (sh_params h) t' /\ utf8 t <> utf8 t'
  /\ vk_verify key (utf8 t) (sh_sig h) = Ok tt /\ vk_verify key (utf8 t') (sh_sig h) = Ok tt.
Proof.
  intros clk clk' m m' rfp rfp' key kid kid' n n' l l' h h' i v Hm Hm' H H' Hl Hl' Hi Hi' Hp Hs Hc Hv Hv'.
  destruct (accepted_text _ _ _ _ _ _ _ _ H Hl Hi) as (t & Ht & Ha). destruct (accepted_text _ _ _ _ _ _ _ _ H' Hl' Hi') as (t' & Ht' & Ha').
  exists t, t'. rewrite <- Hs in Ha'. split; [exact Ht|]. split; [rewrite Hp; exact Ht'|]. split; [|auto]. intro E. apply Hv'.
  apply (C37_same_bytes_same_values m m' rfp rfp' l l' n n' h h' t t'); assumption.
Qed.
Print Assumptions C37_forgery.
(** messages as HTTP libraries make them are proper *)
Lemma ex_signed_req : exists h, ex_signed = MReq (mkReq (lit "POST") ex_uri h [FData (lit "hello")]).
Proof. eexists. unfold ex_signed. vm_compute. reflexivity. Qed.
Example C37_example : proper ex_signed None
  /\ exists l h t, received ex_signed l /\ In (lit "sig1", h) l /\ signed_text ex_signed None (sh_params h) t.
Proof.
  split.
  - destruct ex_signed_req as [h ->]. split; [|exact I]. unfold proper_request. cbn [rq_method rq_uri]. repeat split; cbn [maybe u_scheme u_auth u_path u_query ex_uri].
    all: apply (line_lit (lit _)); reflexivity.
  - destruct C36_example as (l & h & Hl & E & Hp & _). subst l. exists [(lit "sig1", h)], h. eexists. split; [assumption|]. split; [left; reflexivity|].
    rewrite Hp. apply signed_text_spec. eexists. split; [vm_compute; reflexivity|reflexivity].
Qed.

(** ** C57: the label cannot be exchanged without a new signature *)
Theorem C57_bound_partial : forall m m' rfp rfp' l l' n n' h h' t t', proper m rfp -> proper m' rfp' ->
  received m l -> received m' l' -> In (n, h) l -> In (n', h') l' -> unquoted (sh_params h) -> unquoted (sh_params h') ->
  signed_text m rfp (sh_params h) t -> signed_text m' rfp' (sh_params h') t' ->
  sp_alg (sh_params h) <> sp_alg (sh_params h') -> utf8 t <> utf8 t'.
Proof.
  intros m m' rfp rfp' l l' n n' h h' t t' Hm Hm' Hl Hl' Hi Hi' U U' Ht Ht' Ha E. apply Ha.
  destruct (C13_base_partial _ _ _ _ _ _ _ _ _ _ _ _ Hm Hm' Hl Hl' Hi Hi' Ht Ht' E) as (_ & _ & _ & H). rewrite (H U U'). reflexivity.
Qed.
Print Assumptions C57_bound_partial.

(** ** C58 *)
(** a missing field has a value, and it is the value of a field that is present and empty *)
Theorem C58_refuted : exists h h' n,
  field_lines h n = [] /\ field_lines h' n = [[]]
  /\ exists c, component_line (MReq (mkReq (lit "GET") example_uri h [])) None (mkCid (HttpField n) []) = Ok c
  /\ component_line (MReq (mkReq (lit "GET") example_uri h' [])) None (mkCid (HttpField n) []) = Ok c.
Proof.
  exists [], [(lit "x", [])], (lit "x"). split; [reflexivity|]. split; [reflexivity|]. eexists. split; vm_compute; reflexivity.
Qed.
Print Assumptions C58_refuted.
Theorem C58_refuted_key : exists h c, component_line (MReq (mkReq (lit "GET") example_uri h [])) None (mkCid (HttpField (lit "d")) [Key (lit "b")]) = Ok c
  /\ co_value c = VString [] /\ field_lines h (lit "d") = [lit "a=1"].
Proof. exists [(lit "d", lit "a=1")]. eexists. split; [vm_compute; reflexivity|]. split; reflexivity. Qed.
Print Assumptions C58_refuted_key.
(** nothing else is confused with a missing field: an empty value means no line, or one empty line and no parameter, or no member with the key *)
Lemma line_string m rfp n ps c : ~ In Req ps -> component_line m rfp (mkCid (HttpField n) ps) = Ok c -> exists s, co_value c = VString s.
Proof.
  intros Hr H. unfold component_line in H. cbn [id_params] in H. destruct (set_contains ps Req) eqn:E; [apply set_contains_Req in E; contradiction|].
  unfold extract_http_message_component, extract_http_field in H. cbn [id_name] in H. destruct (header_strings _ _) as [vs| |]; try discriminate. cbn [bind] in H.
  rewrite (comp_of_values_field _ n) in H by reflexivity. destruct (field_params _ vs) as [o| |]; try discriminate. injection H as <-. eexists. reflexivity.
Qed.
Lemma field_value m rfp n ps c : ~ In Req ps -> component_line m rfp (mkCid (HttpField n) ps) = Ok c ->
  exists ls out, has_lines (msg_headers m) n ls /\ processed ps ls out /\ co_value c = VString (comma_join out).
Proof.
  intros Hr H. destruct (proj1 (C19_component m rfp (mkCid (HttpField n) ps) _) (ex_intro _ c (conj H eq_refl))) as [[_ Hv]|[Hi _]]; [|contradiction].
  destruct Hv as (ls & out & Hl & _ & Hp & Ev). exists ls, out. split; [assumption|]. split; [assumption|].
  apply line_string in H as [s Es]; [|assumption]. rewrite Es in Ev |- *. cbn [as_component_value] in Ev. congruence.
Qed.
Lemma comma_join_nil vs : comma_join vs = [] <-> vs = [] \/ vs = [[]].
Proof.
  split; [|intros [->| ->]; reflexivity]. destruct vs as [|x [|y vs]]; [auto| |].
  - cbn. rewrite app_nil_r. intros ->. auto.
  - cbn. destruct x; discriminate.
Qed.
Lemma ser_entry_ne e : wf_entry e -> ser_entry e <> [].
Proof.
  intros H E. pose proof (parse_list_round [e] (Forall_cons _ H (Forall_nil _))) as P. cbn [map join] in P. rewrite E in P. discriminate P.
Qed.
Lemma canonical_ne v v' : canonical v v' -> v' <> [].
Proof.
  intro H. apply canonical_reser in H as [(l & Hl & Hp & Hs)|(_ & d & Hd & Hp & Hs)]; intros ->.
  - apply parse_list_wf, parse_list_round in Hp. assert (Hs' : ser_list l = Some (join [cComma; cSP] (map ser_entry l))) by (destruct l; [congruence|reflexivity]).
    assert (E : join [cComma; cSP] (map ser_entry l) = []) by congruence. rewrite E in Hp. destruct l; [congruence|discriminate Hp].
  - apply parse_dict_wf, parse_dict_round in Hp. assert (Hs' : ser_dict d = Some (join [cComma; cSP] (map ser_member d))) by (destruct d; [congruence|reflexivity]).
    assert (E : join [cComma; cSP] (map ser_member d) = []) by congruence. rewrite E in Hp. destruct d; [congruence|discriminate Hp].
Qed.
Theorem C58_empty_means_missing_or_empty_partial : forall m rfp n c, component_line m rfp (mkCid (HttpField n) []) = Ok c ->
  exists ls, has_lines (msg_headers m) n ls /\ (co_value c = VString [] <-> ls = [] \/ ls = [[]]).
Proof.
  intros m rfp n c H. apply field_value in H as (ls & out & Hl & Hp & ->); [|intros []]. exists ls. split; [assumption|]. inversion Hp; subst.
  rewrite <- comma_join_nil. split; [intro E; injection E as E; exact E|intros ->; reflexivity].
Qed.
Print Assumptions C58_empty_means_missing_or_empty_partial.
Theorem C58_sf_partial : forall m rfp n c, component_line m rfp (mkCid (HttpField n) [Sf]) = Ok c ->
  exists ls, has_lines (msg_headers m) n ls /\ (co_value c = VString [] <-> ls = []).
Proof.
  intros m rfp n c H. apply field_value in H as (ls & out & Hl & Hp & ->); [|intros [E|[]]; discriminate E]. exists ls. split; [assumption|].
  inversion Hp as [| |? ? vs' ? Hf Hq|]; subst. inversion Hq; subst. split.
  - intro E. injection E as E. apply comma_join_nil in E as [->| ->].
    + inversion Hf. reflexivity.
    + inversion Hf as [|? ? ? ? Hc]; subst. apply canonical_ne in Hc. congruence.
  - intros ->. inversion Hf. reflexivity.
Qed.
Print Assumptions C58_sf_partial.
Theorem C58_key_partial : forall m rfp n k c, component_line m rfp (mkCid (HttpField n) [Key k]) = Ok c ->
  exists ls, has_lines (msg_headers m) n ls /\ Forall (fun v => exists d, dict_field d v) ls
  /\ (co_value c = VString [] <-> forall v d, In v ls -> dict_field d v -> ~ In k (map fst d)).
Proof.
  intros m rfp n k c H. apply field_value in H as (ls & out & Hl & Hp & ->); [|intros [E|[]]; discriminate E].
  inversion Hp as [| | |? ? ? vs' ? Hs Hq]; subst. inversion Hq; subst. exists ls. split; [assumption|].
  split; [clear -Hs; induction Hs; constructor; eauto|].
  assert (Ho : out = [] <-> forall v d, In v ls -> dict_field d v -> ~ In k (map fst d)).
  { clear -Hs. induction Hs as [|v d e t ls out Hd He Ht Hs IH|v d ls out Hd He Hs IH].
    - split; [intros _ v d []|reflexivity].
    - split; [discriminate|]. intro H. exfalso. apply (H v d (or_introl eq_refl) Hd). apply (in_map fst) in He. exact He.
    - rewrite IH. split; intros H x y Hx Hy; [|exact (H x y (or_intror Hx) Hy)]. destruct Hx as [<-|Hx]; [|eauto].
      apply parse_dict_spec in Hd, Hy. assert (y = d) by congruence. subst y. assumption. }
  rewrite <- Ho. split; [|intros ->; reflexivity]. intro E. injection E as E. apply comma_join_nil in E as [E| ->]; [assumption|]. exfalso.
  assert (Hn : Forall (fun o => o <> []) [@nil N]); [|inversion Hn; congruence].
  clear -Hs. induction Hs as [|v d e t ls out Hd He Ht Hs IH|v d ls out Hd He Hs IH]; [constructor| |assumption]. constructor; [|assumption].
  apply field_dict_value in Hd as [Hd _]. rewrite Forall_forall in Hd. specialize (Hd _ He) as [_ Hv]. cbn [snd] in Hv.
  apply canon_entry_spec in Ht; [|exact Hv]. subst t. apply ser_entry_ne, entry_value_spec, Hv.
Qed.
Print Assumptions C58_key_partial.
Example C58_example : exists c, component_line (MReq (mkReq (lit "GET") example_uri [(lit "x", lit "a"); (lit "x", [])] [])) None (mkCid (HttpField (lit "x")) []) = Ok c
  /\ co_value c = VString (lit "a, ").
Proof. eexists. split; vm_compute; reflexivity. Qed.
