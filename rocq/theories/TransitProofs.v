(** Requests in transit *)
From Verif Require Import Base BaseFacts Utf8 Sfv Component Crypto Params SigBase Http Hyper SpecSfv SpecId SpecParams SpecValue ValueProofs SpecIdText IdTextProofs SpecMsg HeaderProofs MsgProofs VerifyProofs SpecExtract ExtractProofs FrameProofs SpecTransit.

Lemma base_lines m rfp m' rfp' p : (forall i, In i (sp_covered p) -> component_line m rfp i = component_line m' rfp' i) ->
  build_signature_base m p rfp = build_signature_base m' p rfp'.
Proof.
  intro H. unfold build_signature_base. f_equal. generalize (sp_covered p), H. clear H. intros is H. induction is as [|i is IH]; [reflexivity|].
  cbn [collect]. rewrite (H i (or_introl eq_refl)), IH; [reflexivity|]. intros j Hj. apply H. right. assumption.
Qed.
Lemma signatures_lines m rfp m' rfp' :
  same_joined (msg_headers m) (msg_headers m') (lit "signature") -> same_joined (msg_headers m) (msg_headers m') (lit "signature-input") ->
  (forall l n h i, received m l -> In (n, h) l -> In i (sp_covered (sh_params h)) -> component_line m rfp i = component_line m' rfp' i) ->
  extract_signatures m rfp = extract_signatures m' rfp'.
Proof.
  intros H1 H2 H. unfold extract_signatures. rewrite <- (headers_same m m' H1 H2). destruct (extract_signature_headers_with_name m) as [l|e|q] eqn:E; cbn [bind]; try reflexivity.
  apply extract_spec in E.
  assert (Hb : forall nh, In nh l -> build_signature_base m (sh_params (snd nh)) rfp = build_signature_base m' (sh_params (snd nh)) rfp').
  { intros [n h] Hi. apply base_lines. intros i Hc. eapply H; eassumption. }
  rewrite (map_ext_in _ _ _ Hb). destruct (first_panic _); [reflexivity|]. do 2 f_equal. clear -Hb.
  induction l as [|nh l IH]; [reflexivity|]. cbn [filter_map]. rewrite (Hb nh (or_introl eq_refl)). rewrite IH; [reflexivity|]. intros x Hx. apply Hb. right. assumption.
Qed.
Lemma extract_transit r r' i : transit r r' -> transportable i -> extract_http_message_component (MReq r) i = extract_http_message_component (MReq r') i.
Proof.
  intros T Hi. unfold transportable in Hi. destruct T as [m s a p q h h' b Hm Hs Ha Hp Hh Ho]. destruct (id_name i) as [x|d] eqn:E.
  - apply (field_same _ _ _ x); [assumption|]. intros _. left. cbn [msg_headers rq_headers]. symmetry. apply Ho. assumption.
  - unfold extract_http_message_component, extract_derived_component. rewrite E.
    assert (Hv : derived_values (MReq (mkReq m (absolute s a p q) h b)) d = derived_values (MReq (mkReq m (origin (nonempty_path p) q) h' b)) d).
    { destruct Hi as (H1 & H2 & H3). unfold derived_values, msg_method, msg_uri, msg_headers, absolute, origin. destruct d; try congruence; cbn [bind rq_method rq_uri rq_headers u_query]; try reflexivity.
      - apply str_eqb_neq in Hm. rewrite Hm. destruct (str_eqb m (lit "OPTIONS")); [reflexivity|]. do 2 f_equal. unfold uri_path_and_query, pq_data. cbn [u_scheme u_auth u_path u_query is_some orb negb or_empty].
        destruct Hp as [->|(t & ->)]; [destruct q; reflexivity|reflexivity].
      - do 2 f_equal. unfold uri_path, pq_data. cbn [u_scheme u_auth u_path u_query is_some]. destruct Hp as [->|(t & ->)]; [destruct q; reflexivity|reflexivity].
      - rewrite !hm_input, Ho by discriminate. reflexivity. }
    rewrite Hv. reflexivity.
Qed.
Lemma line_transit_req r r' rfp i : transit r r' -> transportable i -> component_line (MReq r) rfp i = component_line (MReq r') rfp i.
Proof. intros T Hi. unfold component_line. destruct (set_contains _ _); [reflexivity|]. apply extract_transit; assumption. Qed.
Lemma line_transit_res x r r' i : transit r r' -> (In Req (id_params i) -> transportable i) -> component_line (MRes x) (Some r) i = component_line (MRes x) (Some r') i.
Proof.
  intros T Hi. unfold component_line. destruct (set_contains (id_params i) Req) eqn:E; [|reflexivity]. cbn [is_request]. apply extract_transit; [assumption|]. apply Hi, set_contains_Req, E.
Qed.
