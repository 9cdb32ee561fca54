(** C07-C11, C41, C42, C59: component values. *)
From Verif Require Import Base BaseFacts Sfv SfvFacts SpecSfv SpecGrammar GrammarProofs SpecCanon CanonProofs Component Crypto Params SigBase Http Hyper SpecId IdProofs SpecValue ValueProofs.

(** ** C07 *)
Theorem C07_plain : forall n ps vs, (forall p, In p ps -> p = Req) ->
  comp_of_values (mkCid (HttpField n) ps) vs = Ok (mkComp (mkCid (HttpField n) ps) (VString (comma_join vs))).
Proof. intros n ps vs H. rewrite (comp_of_values_field _ n) by reflexivity. cbn [id_params]. rewrite field_params_req by assumption. reflexivity. Qed.
Print Assumptions C07_plain.
(** bs, tr and name are never accepted on a field; the error says so unless an earlier sf or key failed *)
Theorem C07_unsupported : forall n a p b vs, p = Bs \/ p = Tr \/ (exists v, p = Name v) ->
  comp_of_values (mkCid (HttpField n) (a ++ p :: b)) vs = Err NotYetImplemented
  \/ (comp_of_values (mkCid (HttpField n) (a ++ p :: b)) vs = Err InvalidComponentParam /\ exists q, In q a /\ (q = Sf \/ exists k, q = Key k)).
Proof.
  intros n a p b vs Hp. rewrite (comp_of_values_field _ n) by reflexivity. cbn [id_params].
  destruct (field_params_unsupported a p b) with (vs := vs) as [->|[-> (q & Hq & Ht)]]; [|left; reflexivity|right; split; [reflexivity|]].
  - destruct Hp as [->|[->|[v ->]]]; exact I.
  - exists q. split; [assumption|]. destruct q; try destruct Ht; eauto.
Qed.
Print Assumptions C07_unsupported.
Example C07_example : comp_of_values (mkCid (HttpField (lit "cache-control")) [Req]) [lit "max-age=60"; lit "must-revalidate"]
  = Ok (mkComp (mkCid (HttpField (lit "cache-control")) [Req]) (VString (lit "max-age=60, must-revalidate")))
  /\ comp_of_values (mkCid (HttpField (lit "x")) [Bs]) [lit "a"] = Err NotYetImplemented
  /\ comp_of_values (mkCid (HttpField (lit "x")) [Sf; Tr]) [lit "?"] = Err InvalidComponentParam.
Proof. repeat split; vm_compute; reflexivity. Qed.

(** ** C08 *)
Theorem C08_canonical_values : forall n ps1 ps2 vs c, (forall p, In p (ps1 ++ ps2) -> p = Req) ->
  (comp_of_values (mkCid (HttpField n) (ps1 ++ Sf :: ps2)) vs = Ok c
   <-> exists vs', Forall2 canonical vs vs' /\ c = mkComp (mkCid (HttpField n) (ps1 ++ Sf :: ps2)) (VString (comma_join vs'))).
Proof.
  intros n ps1 ps2 vs c H. rewrite (comp_of_values_field _ n) by reflexivity. cbn [id_params].
  assert (E : field_params (ps1 ++ Sf :: ps2) vs = handle_params_sf vs).
  { induction ps1 as [|p ps1 IH].
    - cbn [app field_params]. destruct (handle_params_sf vs); cbn [bind]; try reflexivity. apply field_params_req. exact H.
    - assert (p = Req) by (apply H; left; reflexivity). subst p. cbn [app field_params]. apply IH. intros; apply H; right; assumption. }
  rewrite E. split.
  - destruct (handle_params_sf vs) as [o|e|p] eqn:Eo; cbn [rmap]; try discriminate. intro Hc. inv Hc. exists o. split; [|reflexivity].
    apply handle_sf_spec. assumption.
  - intros (vs' & Hf & ->). apply handle_sf_spec in Hf. rewrite Hf. reflexivity.
Qed.
Print Assumptions C08_canonical_values.
Theorem C08_failure : forall n ps vs v, In v vs -> (forall t, ~ canonical v t) ->
  comp_of_values (mkCid (HttpField n) (Sf :: ps)) vs = Err InvalidComponentParam.
Proof.
  intros n ps vs v Hv Hc. rewrite (comp_of_values_field _ n) by reflexivity. cbn [id_params field_params].
  destruct (handle_sf_err vs) as [[o Ho]| ->]; [|reflexivity]. exfalso. apply handle_sf_spec in Ho.
  induction Ho as [|a b va vb Hab Ho IH]; [destruct Hv|]. destruct Hv as [<-|Hv]; [exact (Hc b Hab)|auto].
Qed.
Print Assumptions C08_failure.
(** the canonical text exists exactly for nonempty lists and, failing that, for dictionaries *)
Theorem C08_when : forall v, (exists t, canonical v t) <->
  (exists l, l <> [] /\ list_field l v) \/ ((forall l, ~ list_field l v) /\ exists d, dict_field d v).
Proof. exact canonical_exists. Qed.
Print Assumptions C08_when.
Theorem C08_same_value : forall v t, canonical v t ->
  (exists l, list_field l v /\ list_field l t) \/ (exists d, dict_field d v /\ dict_field d t).
Proof. exact canonical_same_value. Qed.
Print Assumptions C08_same_value.
Theorem C08_idempotent : forall v t, canonical v t -> canonical t t /\ forall t', canonical t t' -> t' = t.
Proof.
  intros v t H. apply canonical_idem in H. split; [assumption|]. intros t' Ht. exact (canonical_fun _ _ _ Ht H).
Qed.
Print Assumptions C08_idempotent.
Theorem C08_twice : forall vs vs', handle_params_sf vs = Ok vs' -> handle_params_sf vs' = Ok vs' /\ length vs' = length vs.
Proof.
  intros vs vs' H. apply handle_sf_spec in H. split; [apply handle_sf_spec|].
  - induction H; constructor; [|assumption]. eapply canonical_idem; eassumption.
  - induction H; cbn; congruence.
Qed.
Print Assumptions C08_twice.
Example C08_example : canonical (lit "  a=1 ,b;x=?1;y=2.50,	c=( ""q""   tok ) ") (lit "a=1, b;x;y=2.5, c=(""q"" tok)")
  /\ canonical (lit "a,  b") (lit "a, b")
  /\ comp_of_values (mkCid (HttpField (lit "d")) [Sf]) [lit "a,  b"; lit " a=1 ,b"] = Ok (mkComp (mkCid (HttpField (lit "d")) [Sf]) (VString (lit "a, b, a=1, b"))).
Proof. split; [|split]; [apply sf_line_spec; vm_compute; reflexivity|apply sf_line_spec; vm_compute; reflexivity|vm_compute; reflexivity]. Qed.

(** ** C09 *)
Theorem C09_members : forall n k ps vs c, (forall p, In p ps -> p = Req) ->
  (comp_of_values (mkCid (HttpField n) (Key k :: ps)) vs = Ok c
   <-> exists out, member_texts k vs out /\ c = mkComp (mkCid (HttpField n) (Key k :: ps)) (VString (comma_join out))).
Proof.
  intros n k ps vs c H. rewrite (comp_of_values_field _ n) by reflexivity. cbn [id_params field_params].
  assert (E : (let* vs' := handle_params_key_into vs k in field_params ps vs') = handle_params_key_into vs k).
  { destruct (handle_params_key_into vs k); cbn [bind]; try reflexivity. apply field_params_req. exact H. }
  rewrite E. split.
  - destruct (handle_params_key_into vs k) as [o|e|p] eqn:Eo; cbn [rmap]; try discriminate. intro Hc. inv Hc.
    apply handle_key_spec in Eo. exists o. auto.
  - intros (out & Ho & ->). apply handle_key_spec in Ho. rewrite Ho. reflexivity.
Qed.
Print Assumptions C09_members.
Theorem C09_failure : forall n k ps vs v, In v vs -> (forall d, ~ dict_field d v) ->
  comp_of_values (mkCid (HttpField n) (Key k :: ps)) vs = Err InvalidComponentParam.
Proof.
  intros n k ps vs v Hv Hp. rewrite (comp_of_values_field _ n) by reflexivity. cbn [id_params field_params].
  destruct (handle_key_err vs k) as [[o Ho]| ->]; [|reflexivity]. exfalso. apply handle_key_spec in Ho.
  induction Ho as [|a d e t vs ts Ha _ _ _ IH|a d vs ts Ha _ _ IH]; [destruct Hv| |]; (destruct Hv as [<-|Hv]; [exact (Hp d Ha)|auto]).
Qed.
Print Assumptions C09_failure.
(** it always succeeds on dictionaries *)
Theorem C09_success : forall n k vs ds, Forall2 (fun v d => dict_field d v) vs ds ->
  exists out, member_texts k vs out /\ comp_of_values (mkCid (HttpField n) [Key k]) vs = Ok (mkComp (mkCid (HttpField n) [Key k]) (VString (comma_join out))).
Proof.
  intros n k vs ds H. destruct (selected_total k ds) as [out Ho]. assert (Hm : member_texts k vs out) by (apply member_texts_spec; exists ds; split; [apply dict_fields_spec, H|exact Ho]).
  exists out. split; [assumption|]. apply C09_members; [intros p []|]. eauto.
Qed.
Print Assumptions C09_success.
Theorem C09_other_members : forall n k ps vs vs' ds ds', (forall p, In p ps -> p = Req) ->
  Forall2 (fun v d => dict_field d v) vs ds -> Forall2 (fun v d => dict_field d v) vs' ds' ->
  Forall2 (fun d d' : sdict => forall e, In (k, e) d <-> In (k, e) d') ds ds' ->
  comp_of_values (mkCid (HttpField n) (Key k :: ps)) vs = comp_of_values (mkCid (HttpField n) (Key k :: ps)) vs'.
Proof.
  intros n k ps vs vs' ds ds' Hp H H' Hd. destruct (selected_total k ds) as [out Ho].
  transitivity (@Ok err _ (mkComp (mkCid (HttpField n) (Key k :: ps)) (VString (comma_join out)))); [|symmetry].
  - apply C09_members; [assumption|]. exists out. split; [|reflexivity]. apply member_texts_spec. exists ds. split; [apply dict_fields_spec, H|exact Ho].
  - apply C09_members; [assumption|]. exists out. split; [|reflexivity]. apply member_texts_spec. exists ds'. split; [apply dict_fields_spec, H'|]. eapply selected_indep; eassumption.
Qed.
Print Assumptions C09_other_members.
Example C09_example : comp_of_values (mkCid (HttpField (lit "d")) [Key (lit "b")]) [lit "a=1, b=2;x"; lit "c=3"; lit "b=(1 2), b=5"]
  = Ok (mkComp (mkCid (HttpField (lit "d")) [Key (lit "b")]) (VString (lit "2;x, 5")))
  /\ comp_of_values (mkCid (HttpField (lit "d")) [Key (lit "b")]) [lit "zz=9, b=2;x"; lit "c=3"; lit "b=5"]
  = Ok (mkComp (mkCid (HttpField (lit "d")) [Key (lit "b")]) (VString (lit "2;x, 5"))).
Proof. split; vm_compute; reflexivity. Qed.

(** ** C10 *)
(** on the request itself, and on a response with the parameter req *)
Theorem C10_absolute : forall m s a p q h b rfp d v,
  (d = RequestTarget -> m <> lit "CONNECT" /\ m <> lit "OPTIONS") -> p = [] \/ slash_path p ->
  derived_value m s a (nonempty_path p) q d = Some v ->
  let r := mkReq m (absolute s a p q) h b in
  component_line (MReq r) rfp (mkCid (Derived d) []) = Ok (mkComp (mkCid (Derived d) []) (VString v))
  /\ forall x, component_line (MRes x) (Some r) (mkCid (Derived d) [Req]) = Ok (mkComp (mkCid (Derived d) [Req]) (VString v)).
Proof.
  intros m s a p q h b rfp d v H2 H3 H4 r. split; [|intro x].
  - rewrite line_request. apply derived_absolute; try assumption. apply nil_req.
  - rewrite line_bound. apply derived_absolute; try assumption. apply one_req.
Qed.
Print Assumptions C10_absolute.
(** requests in origin form: the library has neither scheme nor authority, the URI text is path and query *)
Theorem C10_origin : forall m p q h b rfp d v,
  (d = RequestTarget -> m <> lit "CONNECT" /\ m <> lit "OPTIONS") -> slash_path p -> derived_value m [] [] p q d = Some v ->
  let r := mkReq m (origin p q) h b in
  component_line (MReq r) rfp (mkCid (Derived d) [])
  = Ok (mkComp (mkCid (Derived d) []) (VString (match d with TargetUri => p ++ query_part q | _ => v end))).
Proof. intros. rewrite line_request. apply derived_origin; try assumption. apply nil_req. Qed.
Print Assumptions C10_origin.
(** the authority form, as in CONNECT requests: only an authority; the request target of other methods is empty *)
Theorem C10_authority_form : forall m a h b rfp d v,
  In (d, v) [(Method, upper m); (TargetUri, a); (Authority, lower a); (Scheme, []); (Path, lit "/"); (Query, lit "?")]
  \/ d = RequestTarget /\ (m = lit "CONNECT" /\ v = a \/ m = lit "OPTIONS" /\ v = lit "*" \/ m <> lit "CONNECT" /\ m <> lit "OPTIONS" /\ v = []) ->
  component_line (MReq (mkReq m (mkUri None (Some a) [] None) h b)) rfp (mkCid (Derived d) []) = Ok (mkComp (mkCid (Derived d) []) (VString v)).
Proof. intros. rewrite line_request. apply derived_authority. assumption. Qed.
Print Assumptions C10_authority_form.
(** the asterisk form, as in OPTIONS requests *)
Theorem C10_asterisk_form : forall m h b rfp d v,
  In (d, v) [(Method, upper m); (TargetUri, lit "*"); (Authority, []); (Scheme, []); (Path, lit "*"); (Query, lit "?")]
  \/ d = RequestTarget /\ (m = lit "CONNECT" /\ v = [] \/ m <> lit "CONNECT" /\ v = lit "*") ->
  component_line (MReq (mkReq m (mkUri None None (lit "*") None) h b)) rfp (mkCid (Derived d) []) = Ok (mkComp (mkCid (Derived d) []) (VString v)).
Proof. intros. rewrite line_request. apply derived_asterisk. assumption. Qed.
Print Assumptions C10_asterisk_form.
Theorem C10_connect_and_options : forall u h b rfp,
  component_line (MReq (mkReq (lit "CONNECT") u h b)) rfp (mkCid (Derived RequestTarget) [])
    = Ok (mkComp (mkCid (Derived RequestTarget) []) (VString (match u_auth u with Some a => a | None => [] end)))
  /\ component_line (MReq (mkReq (lit "OPTIONS") u h b)) rfp (mkCid (Derived RequestTarget) [])
    = Ok (mkComp (mkCid (Derived RequestTarget) []) (VString (lit "*"))).
Proof. intros. rewrite !line_request. split; [apply target_connect|apply target_options]; apply nil_req. Qed.
Print Assumptions C10_connect_and_options.
Theorem C10_status : forall s h b rfp, 100 <= s < 1000 ->
  component_line (MRes (mkRes s h b)) rfp (mkCid (Derived Status) [])
  = Ok (mkComp (mkCid (Derived Status) []) (VString [48 + s / 100; 48 + s / 10 mod 10; 48 + s mod 10])).
Proof. exact status_line. Qed.
Print Assumptions C10_status.
Definition example_uri : uri := absolute (lit "HTTPS") (lit "Example.COM:443") (lit "/a/b") (Some (lit "x=1&y=2&x=3&z&x")).
Definition example_req : request := mkReq (lit "POST") example_uri [] [].
Example C10_example : map (fun d => component_line (MReq example_req) None (mkCid (Derived d) []))
   [Method; TargetUri; Authority; Scheme; RequestTarget; Path; Query]
  = map (fun dv => Ok (mkComp (mkCid (Derived (fst dv)) []) (VString (snd dv))))
   [(Method, lit "POST"); (TargetUri, lit "HTTPS://Example.COM:443/a/b?x=1&y=2&x=3&z&x"); (Authority, lit "example.com:443");
    (Scheme, lit "https"); (RequestTarget, lit "/a/b?x=1&y=2&x=3&z&x"); (Path, lit "/a/b"); (Query, lit "?x=1&y=2&x=3&z&x")]
  /\ slash_path (lit "/a/b").
Proof. split; [vm_compute; reflexivity|]. eexists. reflexivity. Qed.

(** ** C11 *)
Theorem C11_values : forall m u h b rfp n pieces out,
  u_query u = Some (query_text pieces) -> Forall (fun x => ~ In 38 x) pieces -> (exists x, In x pieces /\ x <> []) ->
  qvalues n pieces out ->
  component_line (MReq (mkReq m u h b)) rfp (mkCid (Derived QueryParam) [Name n])
  = Ok (mkComp (mkCid (Derived QueryParam) [Name n]) (VString (comma_join out))).
Proof.
  intros m u h b rfp n pieces out H1 H2 H3 H4.
  change (component_line (MReq (mkReq m u h b)) rfp (mkCid (Derived QueryParam) [Name n]))
    with (extract_derived_component (MReq (mkReq m u h b)) (mkCid (Derived QueryParam) [Name n])).
  eapply query_param_line; try eassumption. left. reflexivity.
Qed.
Print Assumptions C11_values.
(** the specification names exactly one list of values for every query *)
Theorem C11_total : forall n pieces, exists out, qvalues n pieces out /\ forall out', qvalues n pieces out' -> out' = out.
Proof.
  intros n ps. destruct (qvalues_total n ps) as [out H]. exists out. split; [assumption|]. intros o H'.
  apply qvalues_spec in H. apply qvalues_spec in H'. congruence.
Qed.
Print Assumptions C11_total.
(** without any parameter in the query there is no component *)
Theorem C11_empty_query : forall m u h b rfp n,
  (match u_query u with None => True | Some q => forallb (fun c => c =? 38) q = true end) ->
  component_line (MReq (mkReq m u h b)) rfp (mkCid (Derived QueryParam) [Name n]) = Err (HttpSigError InvalidComponent).
Proof.
  intros m u h b rfp n H.
  change (component_line (MReq (mkReq m u h b)) rfp (mkCid (Derived QueryParam) [Name n]))
    with (extract_derived_component (MReq (mkReq m u h b)) (mkCid (Derived QueryParam) [Name n])).
  apply query_param_none with (n := n); [assumption|]. left. reflexivity.
Qed.
Print Assumptions C11_empty_query.
Example C11_example : qvalues (lit "x") [lit "x=1"; lit "y=2"; lit "x=3=4"; lit "z"; lit "x"; []] [lit "1"; lit "3=4"]
  /\ query_text [lit "x=1"; lit "y=2"; lit "x=3=4"; lit "z"; lit "x"; []] = lit "x=1&y=2&x=3=4&z&x&"
  /\ component_line (MReq (mkReq (lit "GET") (origin (lit "/") (Some (lit "x=1&y=2&x=3=4&z&x&"))) [] [])) None (mkCid (Derived QueryParam) [Name (lit "x")])
     = Ok (mkComp (mkCid (Derived QueryParam) [Name (lit "x")]) (VString (lit "1, 3=4"))).
Proof. split; [apply qvalues_spec; vm_compute; reflexivity|]. split; vm_compute; reflexivity. Qed.

(** ** C41 *)
Theorem C41_request : forall r rfp i, In Req (id_params i) -> component_line (MReq r) rfp i = Err HInvalidComponentParam.
Proof. intros r rfp i H. apply set_contains_Req in H. unfold component_line. rewrite H. reflexivity. Qed.
Print Assumptions C41_request.
Theorem C41_response_without_request : forall x i, In Req (id_params i) -> component_line (MRes x) None i = Err HInvalidComponentParam.
Proof. intros r i H. apply set_contains_Req in H. unfold component_line. rewrite H. reflexivity. Qed.
Print Assumptions C41_response_without_request.
(** with the request: exactly what the request itself has for the identifier without req, errors included *)
Theorem C41_value_of_the_request : forall x r i, In Req (id_params i) ->
  component_line (MRes x) (Some r) i
  = rmap (fun c => mkComp i (co_value c))
      (component_line (MReq r) None (mkCid (id_name i) (filter (fun p => match p with Req => false | _ => true end) (id_params i)))).
Proof. exact line_req_value. Qed.
Print Assumptions C41_value_of_the_request.
Theorem C41_no_req_no_request : forall m rfp rfp' i, ~ In Req (id_params i) -> component_line m rfp i = component_line m rfp' i.
Proof.
  intros m rfp rfp' i H. unfold component_line. destruct (set_contains (id_params i) Req) eqn:E; [|reflexivity].
  apply set_contains_Req in E. contradiction.
Qed.
Print Assumptions C41_no_req_no_request.
Example C41_example : component_line (MRes (mkRes 200 [] [])) (Some example_req) (mkCid (Derived Method) [Req])
  = Ok (mkComp (mkCid (Derived Method) [Req]) (VString (lit "POST")))
  /\ component_line (MRes (mkRes 200 [] [])) (Some (mkReq (lit "GET") example_uri [(lit "d", lit "a=1, b=2")] [])) (mkCid (HttpField (lit "d")) [Req; Key (lit "b")])
  = Ok (mkComp (mkCid (HttpField (lit "d")) [Req; Key (lit "b")]) (VString (lit "2"))).
Proof. split; vm_compute; reflexivity. Qed.

(** ** C42 *)
Theorem C42_status_not_on_requests : forall r rfp i c, id_name i = Derived Status -> component_line (MReq r) rfp i <> Ok c.
Proof. intros. apply line_status. assumption. Qed.
Print Assumptions C42_status_not_on_requests.
Theorem C42_status_not_from_request : forall x r i c, id_name i = Derived Status -> In Req (id_params i) -> component_line (MRes x) (Some r) i <> Ok c.
Proof. intros. apply line_status_req; assumption. Qed.
Print Assumptions C42_status_not_from_request.
Theorem C42_responses : forall x rfp i d c, id_name i = Derived d -> ~ In Req (id_params i) -> component_line (MRes x) rfp i = Ok c ->
  d = Status \/ d = SignatureParams.
Proof. intros x rfp i d c H1 H2 H3. eapply line_derived_response; eassumption. Qed.
Print Assumptions C42_responses.
Theorem C42_parameters : forall m rfp i d c p, id_name i = Derived d -> component_line m rfp i = Ok c -> In p (id_params i) ->
  p = Req \/ (d = QueryParam /\ exists n, p = Name n).
Proof. exact line_derived_params. Qed.
Print Assumptions C42_parameters.
(** extracting a component never panics *)
Theorem C42_no_panic : forall m rfp i p, component_line m rfp i <> Panic p.
Proof. exact line_panic. Qed.
Print Assumptions C42_no_panic.
Example C42_example : component_line (MReq example_req) None (mkCid (Derived Status) []) = Err HInvalidComponentName
  /\ component_line (MRes (mkRes 404 [] [])) None (mkCid (Derived Method) []) = Err HInvalidComponentName
  /\ component_line (MRes (mkRes 404 [] [])) None (mkCid (Derived Status) []) = Ok (mkComp (mkCid (Derived Status) []) (VString (lit "404")))
  /\ component_line (MReq example_req) None (mkCid (Derived Method) [Sf]) = Err HInvalidComponentParam
  /\ component_line (MReq example_req) None (mkCid (Derived Method) [Name (lit "x")]) = Err HInvalidComponentParam.
Proof. repeat split; vm_compute; reflexivity. Qed.

(** ** C59 *)
Theorem C59_refuted_target : exists p p' c, slash_path p /\ slash_path p' /\ ~ In 63 p /\ ~ In 63 p' /\ p <> p'
  /\ component_line (MReq (mkReq (lit "OPTIONS") (origin p None) [] [])) None (mkCid (Derived RequestTarget) []) = Ok c
  /\ component_line (MReq (mkReq (lit "OPTIONS") (origin p' None) [] [])) None (mkCid (Derived RequestTarget) []) = Ok c.
Proof.
  exists (lit "/a"), (lit "/b"). eexists. split; [eexists; reflexivity|]. split; [eexists; reflexivity|]. do 2 (split; [cbn; intuition discriminate|]).
  split; [discriminate|]. split; vm_compute; reflexivity.
Qed.
Print Assumptions C59_refuted_target.
Theorem C59_refuted_method : exists m m' c, m <> m'
  /\ component_line (MReq (mkReq m example_uri [] [])) None (mkCid (Derived Method) []) = Ok c
  /\ component_line (MReq (mkReq m' example_uri [] [])) None (mkCid (Derived Method) []) = Ok c.
Proof. exists (lit "get"), (lit "GET"). eexists. split; [discriminate|]. split; vm_compute; reflexivity. Qed.
Print Assumptions C59_refuted_method.
(** upper-case methods, and targets of methods other than CONNECT and OPTIONS, are told apart *)
Theorem C59_method_partial : forall m m' u u' h h' b b' c, upper_case m -> upper_case m' ->
  component_line (MReq (mkReq m u h b)) None (mkCid (Derived Method) []) = Ok c ->
  component_line (MReq (mkReq m' u' h' b')) None (mkCid (Derived Method) []) = Ok c -> m = m'.
Proof.
  intros m m' u u' h h' b b' c Hm Hm' H H'.
  change (component_line (MReq (mkReq m u h b)) None (mkCid (Derived Method) [])) with (@Ok herr _ (mkComp (mkCid (Derived Method) []) (VString (to_upper m)))) in H.
  change (component_line (MReq (mkReq m' u' h' b')) None (mkCid (Derived Method) [])) with (@Ok herr _ (mkComp (mkCid (Derived Method) []) (VString (to_upper m')))) in H'.
  rewrite to_upper_id in H, H' by assumption. congruence.
Qed.
Print Assumptions C59_method_partial.
Theorem C59_target_partial : forall m m' s s' a a' p p' q q' h h' b b' c, 
  m <> lit "CONNECT" -> m <> lit "OPTIONS" -> m' <> lit "CONNECT" -> m' <> lit "OPTIONS" ->
  slash_path p -> slash_path p' -> ~ In 63 p -> ~ In 63 p' ->
  component_line (MReq (mkReq m (absolute s a p q) h b)) None (mkCid (Derived RequestTarget) []) = Ok c ->
  component_line (MReq (mkReq m' (absolute s' a' p' q') h' b')) None (mkCid (Derived RequestTarget) []) = Ok c ->
  p = p' /\ q = q'.
Proof.
  intros m m' s s' a a' p p' q q' h h' b b' c N1 N2 N3 N4 Hp Hp' Hn Hn' H H'.
  rewrite line_request in H, H'.
  assert (Ep : nonempty_path p = p) by (destruct Hp as [r ->]; reflexivity).
  assert (Ep' : nonempty_path p' = p') by (destruct Hp' as [r ->]; reflexivity).
  rewrite (derived_absolute m s a p q h b RequestTarget [] (p ++ query_part q)) in H; try tauto; [| |apply nil_req].
  2:{ rewrite Ep. reflexivity. }
  rewrite (derived_absolute m' s' a' p' q' h' b' RequestTarget [] (p' ++ query_part q')) in H'; try tauto; [| |apply nil_req].
  2:{ rewrite Ep'. reflexivity. }
  assert (E : p ++ query_part q = p' ++ query_part q') by congruence. clear -E Hn Hn'.
  assert (Hs : forall p q, ~ In 63 p -> split_once 63 (p ++ query_part q) = match q with Some x => Some (p, x) | None => None end).
  { clear. intros p q Hn. destruct q as [x|].
    - apply split_once_iff. split; [reflexivity|assumption].
    - apply split_once_iff_none. cbn. rewrite app_nil_r. assumption. }
  pose proof (Hs p q Hn) as H1. rewrite E, Hs in H1 by assumption. destruct q as [x|], q' as [x'|]; try discriminate.
  - injection H1 as -> ->. auto.
  - cbn in E. rewrite !app_nil_r in E. auto.
Qed.
Print Assumptions C59_target_partial.
Example C59_example : upper_case (lit "POST") /\ ~ In 63 (lit "/a/b") /\ slash_path (lit "/a/b")
  /\ component_line (MReq example_req) None (mkCid (Derived RequestTarget) []) <> component_line (MReq (mkReq (lit "POST") (absolute (lit "https") (lit "x") (lit "/a/b") (Some (lit "x=2"))) [] [])) None (mkCid (Derived RequestTarget) []).
Proof. split; [repeat constructor; cbn; intros [H1 H2]; compute in H1, H2; congruence|]. split; [|split]; [intro H; apply contains_In in H; discriminate H|eexists; reflexivity|vm_compute; discriminate]. Qed.
