(** C103: signatures of requests that arrive in origin form. *)
From Verif Require Import Base BaseFacts Utf8 Sfv Component Crypto Params SigBase Http Hyper SpecSfv SpecId SpecParams SpecValue ValueProofs SpecIdText IdTextProofs SpecMsg HeaderProofs MsgProofs VerifyProofs SpecExtract ExtractProofs FrameProofs SpecTransit TransitProofs Toy Props_Verify Props_Value Props_Frame.

(** if no signature needs the scheme or the authority, the server gets the result that the client would get *)
Theorem C103_request_partial : forall r r' rfp, transit r r' ->
  (forall l n h i, received (MReq r) l -> In (n, h) l -> In i (sp_covered (sh_params h)) -> transportable i) ->
  forall clk key kid, verify_message_signature clk (MReq r') rfp key kid = verify_message_signature clk (MReq r) rfp key kid.
Proof.
  intros r r' rfp T H clk key kid. rewrite !verify_single. f_equal. symmetry.
  apply signatures_lines; [| |intros l n h i Hl Hi Hc; apply line_transit_req; [exact T|eapply H; eassumption]].
  - destruct T as [m s a p q h h' b Hm Hs Ha Hp Hh Ho]. unfold same_joined. cbn [msg_headers rq_headers]. rewrite Ho by discriminate. split; reflexivity.
  - destruct T as [m s a p q h h' b Hm Hs Ha Hp Hh Ho]. unfold same_joined. cbn [msg_headers rq_headers]. rewrite Ho by discriminate. split; reflexivity.
Qed.
Print Assumptions C103_request_partial.
(** the same for the components of the request in the signatures of its response *)
Theorem C103_response_partial : forall r r' x, transit r r' ->
  (forall l n h i, received (MRes x) l -> In (n, h) l -> In i (sp_covered (sh_params h)) -> In Req (id_params i) -> transportable i) ->
  forall clk key kid, verify_message_signature clk (MRes x) (Some r') key kid = verify_message_signature clk (MRes x) (Some r) key kid.
Proof.
  intros r r' x T H clk key kid. rewrite !verify_single. f_equal. symmetry.
  apply signatures_lines; [split; reflexivity|split; reflexivity|]. intros l n h i Hl Hi Hc. apply line_transit_res; [exact T|]. intro Hr. eapply H; eassumption.
Qed.
Print Assumptions C103_response_partial.
(** these components, and no other derived ones, keep their value *)
Theorem C103_exactly_partial : forall r r' d, transit r r' ->
  (component_line (MReq r) None (mkCid (Derived d) []) = component_line (MReq r') None (mkCid (Derived d) []) <-> in_request_line d).
Proof.
  intros r r' d T. split; [|intro H; apply line_transit_req; [exact T|exact H]].
  intro H. destruct T as [m s a p q h h' b Hm Hs Ha Hp Hh Ho].
  assert (Hn : slash_path (nonempty_path p)) by (destruct Hp as [->|(t & ->)]; [exists []; reflexivity|exists t; reflexivity]).
  assert (Hl : forall y, lower y = [] -> y = []) by (intros [|c y]; [reflexivity|discriminate]).
  split; [|split]; intros ->.
  - rewrite (proj1 (C10_absolute m s a p q h b None Authority (lower a) ltac:(discriminate) Hp eq_refl)) in H.
    rewrite (C10_origin m (nonempty_path p) q h' b None Authority [] ltac:(discriminate) Hn eq_refl) in H. apply Ha, Hl. congruence.
  - rewrite (proj1 (C10_absolute m s a p q h b None Scheme (lower s) ltac:(discriminate) Hp eq_refl)) in H.
    rewrite (C10_origin m (nonempty_path p) q h' b None Scheme [] ltac:(discriminate) Hn eq_refl) in H. apply Hs, Hl. congruence.
  - rewrite (proj1 (C10_absolute m s a p q h b None TargetUri _ ltac:(discriminate) Hp eq_refl)) in H.
    rewrite (C10_origin m (nonempty_path p) q h' b None TargetUri _ ltac:(discriminate) Hn eq_refl) in H.
    assert (E : s ++ lit "://" ++ a ++ nonempty_path p ++ query_part q = nonempty_path p ++ query_part q) by congruence.
    apply (f_equal (@length N)) in E. rewrite !app_length in E. change (length (lit "://")) with 3%nat in E. lia.
Qed.
Print Assumptions C103_exactly_partial.

(** ** examples *)
(** what the request becomes on its way *)
Definition arrive (m : msg) : request :=
  match m with
  | MReq r => mkReq (rq_method r) (origin (nonempty_path (u_path (rq_uri r))) (u_query (rq_uri r))) (rq_headers r) (rq_body r)
  | MRes _ => mkReq [] (origin [] None) [] []
  end.
Definition auth_params : sparams := mkSparams (Some 1618884473) None None None (Some (lit "k")) None [mkCid (Derived Method) []; mkCid (Derived Authority) []].
Definition auth_signed : msg := fst (set_message_signatures (MReq ex_req) None [mkJob auth_params toy_key (Some (lit "sig1")) 0]).
Lemma transit_example r : rq_uri r = ex_uri -> rq_method r = lit "POST" -> field_lines (rq_headers r) (lit "host") = [lit "example.com"] -> transit r (arrive (MReq r)).
Proof.
  destruct r as [m u h b]. cbn [rq_uri rq_method rq_headers]. intros -> -> H. apply (tr_origin (lit "POST") (lit "https") (lit "example.com") (lit "/foo") (Some (lit "a=b")) h h b); try discriminate.
  - right. exists (lit "foo"). reflexivity.
  - rewrite H. discriminate.
  - reflexivity.
Qed.
(** the signature over the authority that a client makes is rejected by the server *)
Theorem C103_refuted : exists r r', transit r r'
  /\ set_message_signatures (MReq ex_req) None [mkJob auth_params toy_key (Some (lit "sig1")) 0] = (MReq r, Ok tt)
  /\ verify_message_signature (fun _ _ => 1618884700) (MReq r) None toy_vk (Some (lit "k")) = Ok (lit "sig1")
  /\ verify_message_signature (fun _ _ => 1618884700) (MReq r') None toy_vk (Some (lit "k")) = Err HInvalidSignature.
Proof.
  assert (H : exists r, set_message_signatures (MReq ex_req) None [mkJob auth_params toy_key (Some (lit "sig1")) 0] = (MReq r, Ok tt)
     /\ rq_uri r = ex_uri /\ rq_method r = lit "POST" /\ field_lines (rq_headers r) (lit "host") = [lit "example.com"]
     /\ verify_message_signature (fun _ _ => 1618884700) (MReq r) None toy_vk (Some (lit "k")) = Ok (lit "sig1")
     /\ verify_message_signature (fun _ _ => 1618884700) (MReq (arrive (MReq r))) None toy_vk (Some (lit "k")) = Err HInvalidSignature).
  { eexists. split; [vm_compute; reflexivity|]. repeat split; vm_compute; reflexivity. }
  destruct H as (r & H1 & H2 & H3 & H4 & H5 & H6). exists r, (arrive (MReq r)). split; [apply transit_example; assumption|]. auto.
Qed.
Print Assumptions C103_refuted.
(** a signature over method, date and path arrives *)
Example C103_example : exists r l, ex_signed = MReq r /\ transit r (arrive ex_signed) /\ received (MReq r) l /\ l <> []
  /\ (forall n h i, In (n, h) l -> In i (sp_covered (sh_params h)) -> transportable i)
  /\ verify_message_signature (fun _ _ => 1618884700) (MReq (arrive ex_signed)) None toy_vk (Some (lit "k")) = Ok (lit "sig1").
Proof.
  assert (H : exists r, ex_signed = MReq r /\ rq_uri r = ex_uri /\ rq_method r = lit "POST" /\ field_lines (rq_headers r) (lit "host") = [lit "example.com"]).
  { eexists. split; [vm_compute; reflexivity|]. repeat split; vm_compute; reflexivity. }
  destruct H as (r & E & H2 & H3 & H4).
  assert (Hl : exists l, received ex_signed l /\ l <> [] /\ forall n h i, In (n, h) l -> In i (sp_covered (sh_params h)) -> transportable i).
  { eexists. split; [apply extract_spec; vm_compute; reflexivity|]. split; [discriminate|]. intros n h i [H|[]] Hi. injection H as <- <-.
    destruct Hi as [<-|[<-|[<-|[]]]]; vm_compute; repeat split; discriminate. }
  destruct Hl as (l & L1 & L2 & L3). exists r, l. rewrite E in *. split; [reflexivity|]. split; [apply transit_example; assumption|]. split; [assumption|]. split; [assumption|]. split; [assumption|].
  rewrite <- E. vm_compute. reflexivity.
Qed.
(** a server signs with the request as it got it, the client verifies with the request as it made it *)
Definition req_job (d : derived) : job := mkJob (mkSparams (Some 1618884473) None None None (Some (lit "k")) None [mkCid (Derived Status) []; mkCid (Derived d) [Req]]) toy_key (Some (lit "sig1")) 0.
Example C103_response_example : transit ex_req (arrive (MReq ex_req))
  /\ verify_message_signature (fun _ _ => 1618884700) (fst (set_message_signatures (MRes (mkRes 200 [] [])) (Some (arrive (MReq ex_req))) [req_job Path])) (Some ex_req) toy_vk None = Ok (lit "sig1")
  /\ verify_message_signature (fun _ _ => 1618884700) (fst (set_message_signatures (MRes (mkRes 200 [] [])) (Some (arrive (MReq ex_req))) [req_job Authority])) (Some ex_req) toy_vk None = Err HInvalidSignature.
Proof. split; [apply transit_example; reflexivity|]. split; vm_compute; reflexivity. Qed.
