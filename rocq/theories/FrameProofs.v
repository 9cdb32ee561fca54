(** What verification depends on *)
From Coq Require Import ZifyBool ZifyNat ZifyN.
From Verif Require Import Base BaseFacts Utf8 Sfv SfvFacts SpecSfv SpecSfvProofs SpecGrammar GrammarProofs SpecCanon CanonProofs Component Crypto Params SigBase SpecId IdProofs SpecParams ParamsProofs SpecValue ValueProofs Http Hyper SpecBase BaseProofs SpecIdText IdTextProofs SpecMsg HeaderProofs MsgProofs VerifyProofs SpecExtract ExtractProofs TamperProofs.

Lemma comma_join_legible_iff l : legible (comma_join l) <-> Forall legible l.
Proof.
  split; [|apply comma_join_legible]. destruct l as [|x l]; [constructor|]. cbn [comma_join]. intro H. apply Forall_app in H as [H1 H2]. constructor; [assumption|].
  induction l as [|y l IH]; [constructor|]. cbn [flat_map] in H2. apply Forall_app in H2 as [H2 H3]. apply Forall_app in H2 as [_ H2]. constructor; auto.
Qed.
Lemma header_strings_same h h' n : hm_get_all h n = hm_get_all h' n -> header_strings h n = header_strings h' n.
Proof. intro H. unfold header_strings. rewrite H. reflexivity. Qed.
Lemma field_same m m' i x : id_name i = HttpField x ->
  (field_name x -> field_lines (msg_headers m) (lower x) = field_lines (msg_headers m') (lower x)
    \/ (forall p, In p (id_params i) -> p = Req) /\ comma_join (field_lines (msg_headers m) (lower x)) = comma_join (field_lines (msg_headers m') (lower x))) ->
  extract_http_message_component m i = extract_http_message_component m' i.
Proof.
  intros Hi H. unfold extract_http_message_component, extract_http_field. rewrite Hi.
  assert (He : hm_get_all (msg_headers m) x = hm_get_all (msg_headers m') x \/
     (forall p, In p (id_params i) -> p = Req) /\ comma_join (hm_get_all (msg_headers m) x) = comma_join (hm_get_all (msg_headers m') x)).
  { destruct (header_name_cases x) as [[Hx E]|[Hx E]].
    - rewrite !(hm_lines _ x _ E). auto.
    - left. unfold hm_get_all. rewrite E. reflexivity. }
  destruct He as [He|[Hp He]]; [rewrite (header_strings_same _ _ _ He); reflexivity|].
  assert (Hl : Forall legible (hm_get_all (msg_headers m) x) <-> Forall legible (hm_get_all (msg_headers m') x)) by (rewrite <- !comma_join_legible_iff, He; reflexivity).
  destruct (header_strings_cases (msg_headers m) x) as [[-> H1]|[-> H1]], (header_strings_cases (msg_headers m') x) as [[-> H2]|[-> H2]]; try tauto; cbn [bind].
  rewrite !(comp_of_values_field _ x) by assumption. rewrite !field_params_req by assumption. cbn [rmap]. rewrite He. reflexivity.
Qed.
Lemma extract_same m m' i : agree_on i m m' -> extract_http_message_component m i = extract_http_message_component m' i.
Proof.
  intros [Hk H]. destruct (id_name i) as [x|d] eqn:Hi; [apply (field_same _ _ _ x); assumption|].
  unfold extract_http_message_component, extract_derived_component. rewrite Hi.
  assert (Hp : forall ps, try_for_each (check_derived_param m d) ps = try_for_each (check_derived_param m' d) ps).
  { intro ps. induction ps as [|p ps IH]; [reflexivity|]. cbn [try_for_each]. rewrite IH. f_equal. unfold check_derived_param. rewrite Hk. reflexivity. }
  assert (Hn : check_derived_name m i d = check_derived_name m' i d) by (destruct m, m'; try discriminate Hk; reflexivity).
  assert (Hv : derived_values m d = derived_values m' d).
  { destruct m as [r|x], m' as [r'|x']; try discriminate Hk; destruct d; cbn [derived_values msg_method msg_uri msg_status request_of status_of option_map bind] in *;
      try reflexivity; try (injection H as ->; reflexivity); try (rewrite !hm_input, H; reflexivity).
    destruct H as [H1 H2]. injection H1 as ->. injection H2 as ->. reflexivity. }
  rewrite Hp, Hn, Hv. reflexivity.
Qed.
Lemma line_same m rfp m' rfp' i : agree i m rfp m' rfp' -> component_line m rfp i = component_line m' rfp' i.
Proof.
  intros (Hk & H1 & H2). unfold component_line. destruct (set_contains (id_params i) Req) eqn:E.
  - apply set_contains_Req in E. specialize (H2 E). rewrite Hk. destruct (is_request m'); [reflexivity|].
    destruct rfp, rfp'; try destruct H2; [|reflexivity]. apply extract_same. split; assumption.
  - apply extract_same, H1. intro Hr. apply set_contains_Req in Hr. congruence.
Qed.
Lemma base_same m rfp m' rfp' p : (forall i, In i (sp_covered p) -> agree i m rfp m' rfp') -> build_signature_base m p rfp = build_signature_base m' p rfp'.
Proof.
  intro H. unfold build_signature_base. f_equal. generalize (sp_covered p), H. clear H. intros is H. induction is as [|i is IH]; [reflexivity|].
  cbn [collect]. rewrite (line_same _ _ _ _ i (H i (or_introl eq_refl))), IH; [reflexivity|]. intros j Hj. apply H. right. assumption.
Qed.
Lemma headers_same m m' : same_joined (msg_headers m) (msg_headers m') (lit "signature") -> same_joined (msg_headers m) (msg_headers m') (lit "signature-input") ->
  extract_signature_headers_with_name m = extract_signature_headers_with_name m'.
Proof.
  intros [J1 N1] [J2 N2].
  assert (Hs : signed m <-> signed m') by (unfold signed; tauto).
  assert (L1 : Forall legible (field_lines (msg_headers m) (lit "signature")) <-> Forall legible (field_lines (msg_headers m') (lit "signature"))) by (rewrite <- !comma_join_legible_iff, J1; reflexivity).
  assert (L2 : Forall legible (field_lines (msg_headers m) (lit "signature-input")) <-> Forall legible (field_lines (msg_headers m') (lit "signature-input"))) by (rewrite <- !comma_join_legible_iff, J2; reflexivity).
  destruct (extract_cases m) as [[H ->]|[(H & Hn & ->)|(H & H1 & H2 & ->)]].
  - symmetry. apply extract_unsigned. tauto.
  - destruct (extract_cases m') as [[H' ->]|[(H' & Hn' & ->)|(H' & H1 & H2 & _)]]; [tauto|reflexivity|]. exfalso. tauto.
  - destruct (extract_cases m') as [[H' ->]|[(H' & Hn' & _)|(H' & _ & _ & ->)]]; [tauto|tauto|]. rewrite J1, J2. reflexivity.
Qed.
Lemma signatures_same m rfp m' rfp' :
  same_joined (msg_headers m) (msg_headers m') (lit "signature") -> same_joined (msg_headers m) (msg_headers m') (lit "signature-input") ->
  (forall l n h i, received m l -> In (n, h) l -> In i (sp_covered (sh_params h)) -> agree i m rfp m' rfp') ->
  extract_signatures m rfp = extract_signatures m' rfp'.
Proof.
  intros H1 H2 H. unfold extract_signatures. rewrite <- (headers_same m m' H1 H2). destruct (extract_signature_headers_with_name m) as [l|e|q] eqn:E; cbn [bind]; try reflexivity.
  apply extract_spec in E.
  assert (Hb : forall nh, In nh l -> build_signature_base m (sh_params (snd nh)) rfp = build_signature_base m' (sh_params (snd nh)) rfp').
  { intros [n h] Hi. apply base_same. intros i Hc. eapply H; eassumption. }
  rewrite (map_ext_in _ _ _ Hb). destruct (first_panic _); [reflexivity|]. do 2 f_equal. clear -Hb.
  induction l as [|nh l IH]; [reflexivity|]. cbn [filter_map]. rewrite (Hb nh (or_introl eq_refl)). rewrite IH; [reflexivity|]. intros x Hx. apply Hb. right. assumption.
Qed.
Lemma verify_same clk keys m rfp m' rfp' : extract_signatures m rfp = extract_signatures m' rfp' ->
  verify_message_signatures clk m rfp keys = verify_message_signatures clk m' rfp' keys.
Proof. intro H. rewrite !verify_unfold, H. reflexivity. Qed.
