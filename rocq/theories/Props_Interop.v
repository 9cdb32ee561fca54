(** C102: signatures of other implementations. *)
From Verif Require Import Base BaseFacts Utf8 Sfv SfvFacts SfvRound SpecSfv SpecSfvProofs SpecGrammar GrammarProofs SpecCanon CanonProofs Component Crypto Params SigBase SpecId IdProofs SpecParams ParamsProofs SpecIdText IdTextProofs SpecValue Http Hyper SpecBase BaseProofs SpecMsg MsgProofs SpecExtract ExtractProofs LabelProofs SpecForge ForgeProofs SpecInterop Toy Props_Crypto Props_Verify Props_Exact Props_Canon Props_Forge.

Lemma written_once p l l' : params_written p l -> params_written p l' -> l = l'.
Proof.
  intros [H1 E1] [H2 E2]. destruct l as [is ps], l' as [is' ps']. cbn [in_items in_params] in *. subst. f_equal.
  assert (Hn : forall n s s', name_meaning s n -> name_meaning s' n -> s = s').
  { intros n s s' H H'. inversion H as [|? ? Hd]; subst; inversion H' as [|? ? Hd']; subst; [reflexivity|]. cbn [In] in Hd, Hd'.
    repeat (destruct Hd as [Hd|Hd]; [injection Hd as <- <-; repeat (destruct Hd' as [Hd'|Hd']; [try discriminate Hd'; injection Hd' as <-; reflexivity|]); destruct Hd'|]). destruct Hd. }
  assert (Hp : forall ps qs qs', Forall2 param_written ps qs -> Forall2 param_written ps qs' -> qs = qs').
  { intros ps qs qs' H. revert qs'. induction H as [|a b ps qs Hab H IH]; intros qs' H'; inversion H' as [|? b' ? qs1 Hab' H1']; subst; [reflexivity|]. f_equal; [|auto].
    inversion Hab; subst; inversion Hab'; subst; reflexivity. }
  revert is' H2. induction H1 as [|i it ids is (s & Hb & Hs & Hps) H1 IH]; intros is' H2; inversion H2 as [|? it' ? is1 (s' & Hb' & Hs' & Hps') H2']; subst; [reflexivity|].
  f_equal; [|auto]. destruct it as [b q], it' as [b' q']. cbn [it_bare it_params] in *. subst. rewrite (Hn _ _ _ Hs Hs'), (Hp _ _ _ Hps Hps'). reflexivity.
Qed.
(** exactly when the library verifies the text that the RFC wants: no double quotes and backslashes in texts, no other parameters, all in the library's order *)
Theorem C102_exactly_partial : forall m rfp l p b, entry_value (EInner l) -> sparams_of_entry (EInner l) = Ok p -> build_signature_base m p rfp = Ok b ->
  (rfc_text m rfp l (base_str b) <-> writable p /\ params_written p l).
Proof.
  intros m rfp l p b Hv He Hb0. pose proof (proj2 (entry_value_spec (EInner l)) Hv) as Hw. cbn [wf_entry] in Hw. pose proof (proj1 (params_meaning_spec l p Hw) He) as Hm.
  assert (Ht : signed_text m rfp p (base_str b)) by (apply signed_text_spec; eauto). revert Ht. generalize (base_str b). clear b Hb0. intros t Ht. split.
  - intros (p' & vs & s & Hm' & Hvs & Hc & E). apply (params_meaning_spec l p' Hw) in Hm'. assert (p' = p) by congruence. subst p'.
    assert (Hs : signed_text m rfp p (base_text (combine (map id_text (sp_covered p)) vs) (params_text p))) by (exists vs; auto).
    apply signed_text_spec in Ht as (b & Hb & Eb). apply signed_text_spec in Hs as (b' & Hb' & Eb'). assert (b' = b) by congruence. subst b'. rewrite <- Eb, Eb' in E.
    unfold base_text in E. apply app_inv_head in E. apply app_inv_head in E. rewrite <- params_text_spec in E. subst s.
    apply canon_inner_spec in Hc; [|apply Hv|apply Hv].
    assert (Hp : parse_list (sparams_str p) = Some [EInner l]).
    { rewrite <- Hc. change (ser_inner l) with (join [cComma; cSP] (map ser_entry [EInner l])). apply parse_list_round. constructor; [exact Hw|constructor]. }
    assert (Hr : writable p) by (apply C76_exactly; unfold sparams_of_str; rewrite Hp; exact He). split; [exact Hr|].
    pose proof (sparams_str_parse p Hr) as Hp'. rewrite Hp in Hp'. injection Hp' as ->. apply inner_written, Hr.
  - intros [Hr Hwr]. assert (E : l = params_inner p) by (eapply written_once; [exact Hwr|apply inner_written, Hr]). destruct Ht as (vs & Hvs & Et).
    exists p, vs, (sparams_str p). split; [exact Hm|]. split; [exact Hvs|]. split; [|rewrite params_text_spec; exact Et].
    apply canon_inner_spec; [apply Hv|apply Hv|]. rewrite E. symmetry. apply sparams_str_inner; apply Hr.
Qed.
Print Assumptions C102_exactly_partial.
(** lines for Signature-Input that mean the same are not told apart *)
Theorem C102_unnoticed : forall m rfp l t, received m l -> received (with_input m t) l -> (forall k s, In (k, s) l -> Forall not_signature (sp_covered (sh_params s))) ->
  forall clk key kid, verify_message_signature clk (with_input m t) rfp key kid = verify_message_signature clk m rfp key kid.
Proof.
  intros m rfp l t Hl Hl' Hc clk key kid. apply (C100_view kid m rfp (with_input m t) rfp l l Hl Hl').
  - clear. induction l as [|r l IH]; constructor; [unfold seen_alike; auto 8|exact IH].
  - intros k s i Hin Hcv. apply agree_resigned.
    + intros x Hx Hx'. pose proof (other_lines m t x Hx') as E. unfold with_input in E. destruct m; exact E.
    + specialize (Hc k s Hin). rewrite Forall_forall in Hc. auto.
Qed.
Print Assumptions C102_unnoticed.
(** the parameters of RFC 9421 B.2.1 have the key id before the nonce *)
Definition b21_params : str := lit "();created=1618884473;keyid=""test-key-rsa-pss"";nonce=""b3k2pp5k7z-50gnwp.yemd""".
Definition b21_text : str := lit """@signature-params"": " ++ b21_params.
Definition b21_signature : bytes := match sk_sign toy_key 0 (utf8 b21_text) with Ok s => s | _ => [] end.
Definition b21_message : msg := MReq (mkReq (lit "POST") ex_uri [(lit "signature-input", lit "sig-b21=" ++ b21_params); (lit "signature", lit "sig-b21=:" ++ Base64.b64_encode b21_signature ++ lit ":")] []).
Theorem C102_refuted : exists l d, dict_field d (lit "sig-b21=" ++ b21_params) /\ d = [(lit "sig-b21", EInner l)] /\ rfc_text b21_message None l b21_text
  /\ vk_verify toy_vk (utf8 b21_text) b21_signature = Ok tt
  /\ (exists h, received b21_message [(lit "sig-b21", h)] /\ sh_sig h = b21_signature)
  /\ forall clk, verify_message_signature clk b21_message None toy_vk None = Err HInvalidSignature.
Proof.
  eexists. eexists. split; [apply parse_dict_spec; vm_compute; reflexivity|]. split; [reflexivity|]. split.
  - exists (mkSparams (Some 1618884473) None (Some (lit "b3k2pp5k7z-50gnwp.yemd")) None (Some (lit "test-key-rsa-pss")) None []), [], b21_params. split; [|split; [|split; [|reflexivity]]].
    + apply params_meaning_spec; [|vm_compute; reflexivity]. apply (entry_value_spec (EInner _)). split; [constructor|]. split; [|repeat constructor; cbn; intuition discriminate].
      repeat constructor; try (apply key_text_spec; split; reflexivity); try (apply print_spec; reflexivity); cbn; lia.
    + constructor.
    + apply canon_inner_text; [constructor| |vm_compute; reflexivity]. repeat constructor; try (apply print_spec; reflexivity); cbn; lia.
  - split; [vm_compute; reflexivity|]. split.
    + eexists. split; [apply extract_spec; vm_compute; reflexivity|reflexivity].
    + intro clk. vm_compute. reflexivity.
Qed.
Print Assumptions C102_refuted.
(** reordered and additional parameters, and flags with a value, are not noticed *)
Definition other_line : str := lit "sig1=( ""@method""  ""date"" ""@path"");keyid=""k"";foo=?0;expires=1618884773; created=1618884473;alg=7;a".
Example C102_example : exists l h, received ex_signed l /\ received (with_input ex_signed other_line) l /\ l = [(lit "sig1", h)]
  /\ (forall clk key kid, verify_message_signature clk (with_input ex_signed other_line) None key kid = verify_message_signature clk ex_signed None key kid)
  /\ writable ex_params /\ params_written ex_params (params_inner ex_params).
Proof.
  assert (Hl : exists l h, received ex_signed l /\ received (with_input ex_signed other_line) l /\ l = [(lit "sig1", h)] /\ forall k s, In (k, s) l -> Forall not_signature (sp_covered (sh_params s))).
  { do 2 eexists. split; [apply extract_spec; vm_compute; reflexivity|]. split; [apply extract_spec; vm_compute; reflexivity|]. split; [reflexivity|].
    intros k s [H|[]]. injection H as <- <-. constructor; [right; discriminate|]. constructor; [right; split; discriminate|]. constructor; [right; discriminate|constructor]. }
  destruct Hl as (l & h & H1 & H2 & H3 & H4). exists l, h. split; [exact H1|]. split; [exact H2|]. split; [exact H3|]. split; [intros; eapply C102_unnoticed; eassumption|].
  assert (Hw : writable ex_params) by (apply C76_exactly; vm_compute; reflexivity). split; [exact Hw|]. apply inner_written, Hw.
Qed.
