(** C01-C06: component identifiers. *)
From Verif Require Import Base BaseFacts Sfv SpecSfv SpecSfvProofs SpecGrammar SpecCanon Component Crypto Params SpecId IdProofs SpecParams SpecIdText IdTextProofs.

(** ** C01 *)
(** identifiers without double quote and backslash round-trip *)
Theorem C01_round_trip_partial : forall s i, cid_of_str s = Ok i -> clean_id i -> cid_of_str (cid_str i) = Ok i.
Proof. intros s i H. apply cid_round. exact (cid_of_str_valid s i H). Qed.
Print Assumptions C01_round_trip_partial.
(** the same for every valid identifier, however it was made *)
Theorem C01_round_trip_valid_partial : forall i, valid_id i -> clean_id i -> cid_of_str (cid_str i) = Ok i.
Proof. exact cid_round. Qed.
Print Assumptions C01_round_trip_valid_partial.
(** not for all identifiers: the printed text is not escaped, and can even be another identifier *)
Theorem C01_refuted : exists s i, cid_of_str s = Ok i /\ cid_of_str (cid_str i) <> Ok i.
Proof.
  exists (lit """a\\\\b"""), (mkCid (HttpField (lit "a\\b")) []). split; [vm_compute; reflexivity|]. vm_compute. discriminate.
Qed.
Print Assumptions C01_refuted.
(** worse: the text of one identifier is the text of another one *)
Theorem C01_refuted_ambiguous : exists s t i j, cid_of_str s = Ok i /\ cid_of_str t = Ok j /\ ~ same_id i j /\ cid_str i = cid_str j.
Proof.
  exists (lit """a"";key=""b"""), (lit """a\"";key=\""b"""), (mkCid (HttpField (lit "a")) [Key (lit "b")]),
    (mkCid (HttpField (lit "a"";key=""b")) []).
  repeat split; try (vm_compute; reflexivity). intros [H _]. discriminate H.
Qed.
Print Assumptions C01_refuted_ambiguous.
Example C01_example : exists i, cid_of_str (lit """cache-control"";key=""max-age"";req") = Ok i /\ clean_id i
  /\ id_params i = [Key (lit "max-age"); Req].
Proof.
  exists (mkCid (HttpField (lit "cache-control")) [Key (lit "max-age"); Req]). split; [vm_compute; reflexivity|]. split; [|reflexivity].
  split; [|split].
  - intros s H. inv H. split; intro H; apply contains_In in H; discriminate H.
  - intros v [H|[H|[]]]; inv H. split; intro H; apply contains_In in H; discriminate H.
  - intros v [H|[H|[]]]; inv H.
Qed.

(** ** C02 *)
Theorem C02_parsed_ids_are_valid : forall s i, cid_of_str s = Ok i -> valid_id i.
Proof. exact cid_of_str_valid. Qed.
Print Assumptions C02_parsed_ids_are_valid.
(** and every valid identifier can be obtained *)
Theorem C02_every_valid_id_parses : forall i, valid_id i -> exists s, cid_of_str s = Ok i.
Proof. intros i H. exists (ser_item (id_item i)). apply cid_of_ser_item. exact H. Qed.
Print Assumptions C02_every_valid_id_parses.
Example C02_example : exists i, cid_of_str (lit """@query-param"";name=""n"";req") = Ok i
  /\ cid_of_str (lit """date"";name=""n""") = Err InvalidComponentId /\ cid_of_str (lit """@method"";sf") = Err InvalidComponentId
  /\ cid_of_str (lit """date"";foo") = Err InvalidComponentParam /\ cid_of_str (lit """@foo""") = Panic PDerivedName.
Proof. eexists. repeat split; vm_compute; reflexivity. Qed.

(** ** C03 *)
Theorem C03_unquoted : forall s, ~ In 34 s -> no_space_at_ends s -> s <> [] -> cid_of_str (34 :: s ++ [34]) = cid_of_str s.
Proof. intros s Hq Ht Hn. apply cid_of_str_quotes; [exact Hq| |exact Hn]. apply no_space_spec. exact Ht. Qed.
Print Assumptions C03_unquoted.
Theorem C03_whitespace : forall w1 w2 s, Forall unicode_space w1 -> Forall unicode_space w2 -> cid_of_str (w1 ++ s ++ w2) = cid_of_str s.
Proof. intros w1 w2 s H1 H2. apply cid_of_str_pad; apply unicode_spaces; assumption. Qed.
Print Assumptions C03_whitespace.
(** the two excluded cases really differ *)
Theorem C03_limits : cid_of_str [] <> cid_of_str (lit """""") /\ cid_of_str (lit " date") <> cid_of_str (lit """ date""").
Proof. split; vm_compute; discriminate. Qed.
Print Assumptions C03_limits.
Example C03_example : cid_of_str (lit "date") = Ok (mkCid (HttpField (lit "date")) [])
  /\ cid_of_str (lit "  ""date"" ") = Ok (mkCid (HttpField (lit "date")) [])
  /\ cid_of_str (lit "@method") = Ok (mkCid (Derived Method) []).
Proof. repeat split; vm_compute; reflexivity. Qed.

(** ** C04 *)
Theorem C04_equality_is_set_equality : forall s t a b, cid_of_str s = Ok a -> cid_of_str t = Ok b ->
  (cid_eqb a b = true <-> same_id a b).
Proof. intros s t a b Ha Hb. apply cid_eqb_spec; eapply cid_of_str_valid; eassumption. Qed.
Print Assumptions C04_equality_is_set_equality.
Theorem C04_equivalence : forall a b c, valid_id a -> valid_id b -> valid_id c ->
  cid_eqb a a = true /\ cid_eqb a b = cid_eqb b a /\ (cid_eqb a b = true -> cid_eqb b c = true -> cid_eqb a c = true).
Proof.
  intros a b c Ha Hb Hc. split; [|split].
  - apply cid_eqb_spec; [assumption|assumption|]. apply same_id_refl.
  - destruct (cid_eqb b a) eqn:E.
    + apply cid_eqb_spec in E; [|assumption|assumption]. apply cid_eqb_spec; [assumption|assumption|]. apply same_id_sym, E.
    + destruct (cid_eqb a b) eqn:E2; [|reflexivity]. apply cid_eqb_spec in E2; [|assumption|assumption].
      apply same_id_sym in E2. apply (cid_eqb_spec b a) in E2; [congruence|assumption|assumption].
  - intros H1 H2. apply cid_eqb_spec in H1; [|assumption|assumption]. apply cid_eqb_spec in H2; [|assumption|assumption].
    apply cid_eqb_spec; [assumption|assumption|]. exact (same_id_trans _ _ _ H1 H2).
Qed.
Print Assumptions C04_equivalence.
Theorem C04_hash : forall a b, valid_id a -> valid_id b -> cid_eqb a b = true -> cid_hash a = cid_hash b.
Proof. intros a b Ha Hb H. apply cid_hash_eq; [assumption|assumption|]. apply cid_eqb_spec; assumption. Qed.
Print Assumptions C04_hash.
Example C04_example : exists a b, cid_of_str (lit """x"";sf;req;key=""k""") = Ok a /\ cid_of_str (lit """x"";key=""k"";sf;req") = Ok b
  /\ a <> b /\ cid_eqb a b = true /\ cid_hash a = cid_hash b.
Proof. eexists. eexists. split; [vm_compute; reflexivity|]. split; [vm_compute; reflexivity|]. split; [discriminate|]. split; reflexivity. Qed.

(** ** C05 *)
Theorem C05_try_new : forall now ids, Forall valid_id ids ->
  (no_duplicate ids -> exists p, sp_try_new now ids = Ok p /\ sp_covered p = ids /\ sp_created p = Some now
     /\ sp_expires p = None /\ sp_nonce p = None /\ sp_alg p = None /\ sp_keyid p = None /\ sp_tag p = None)
  /\ (~ no_duplicate ids -> sp_try_new now ids = Err InvalidSignatureParams).
Proof.
  intros now ids H. unfold sp_try_new. destruct (has_unique_elements ids) eqn:E; cbn [negb].
  - apply has_unique_spec in E; [|assumption]. split; [|contradiction]. intros _. eexists. split; [reflexivity|]. repeat split.
  - split; [|reflexivity]. intro Hd. apply has_unique_spec in Hd; [congruence|assumption].
Qed.
Print Assumptions C05_try_new.
Theorem C05_parsed_inner_list : forall l ids, Forall item_value (in_items l) -> Forall2 item_denotes (in_items l) ids ->
  (~ no_duplicate ids -> sparams_of_entry (EInner l) = Err InvalidSignatureParams)
  /\ (no_duplicate ids -> forall e, sparams_of_entry (EInner l) <> Err e).
Proof.
  intros l ids Hi H. apply items_denote in H; [|eapply Forall_impl; [|exact Hi]; intros i; apply item_value_spec]. apply collect_ok in H. assert (Hv : Forall valid_id ids).
  { apply collect_ok in H. clear -H. induction H; constructor; [|assumption]. eapply cid_of_str_valid; eassumption. }
  cbn [sparams_of_entry]. rewrite H. cbn [bind]. destruct (has_unique_elements ids) eqn:E; cbn [negb].
  - apply has_unique_spec in E; [|assumption]. split; [contradiction|]. intros _ e.
    set (p := mkSparams None None None None None None ids). clearbody p. clear. revert p.
    induction (in_params l) as [|[k v] r IH]; intro p; cbn [sp_set_params]; [discriminate|].
    assert (Hp : (exists q, sp_set_param p (k, v) = Ok q) \/ exists q, sp_set_param p (k, v) = Panic q).
    { unfold sp_set_param, as_u64. repeat destr; cbn [bind]; eauto. }
    destruct Hp as [[q ->]|[q ->]]; cbn [bind]; [apply IH|discriminate].
  - split; [reflexivity|]. intro Hd. apply has_unique_spec in Hd; [congruence|assumption].
Qed.
Print Assumptions C05_parsed_inner_list.
(** parameters merely reordered *)
Example C05_example : exists a b, cid_of_str (lit """x"";sf;req") = Ok a /\ cid_of_str (lit """x"";req;sf") = Ok b
  /\ sp_try_new 0 [a; b] = Err InvalidSignatureParams
  /\ sparams_of_str (lit "(""x"";sf;req ""x"";req;sf)") = Err InvalidSignatureParams
  /\ exists p, sparams_of_str (lit "(""x"";sf;req ""x"";req)") = Ok p.
Proof. eexists. eexists. repeat split; try (vm_compute; reflexivity). eexists. vm_compute. reflexivity. Qed.

(** ** C06 *)
Theorem C06_line_round_trip_partial : forall c s, cid_of_str s = Ok (co_id c) -> clean_id (co_id c) -> lacks 58 (co_id c) ->
  exists t, stripped (cvalue_str (co_value c)) t /\ comp_of_str (comp_str c) = Ok (mkComp (co_id c) (VString t)).
Proof.
  intros c s H Hc Hl. exists (trim (cvalue_str (co_value c))). split; [apply trim_spec; reflexivity|]. apply comp_round; [exact (cid_of_str_valid s _ H)|assumption|assumption].
Qed.
Print Assumptions C06_line_round_trip_partial.
(** an identifier with a colon: the line is split too early *)
Theorem C06_refuted : exists s c, cid_of_str s = Ok (co_id c) /\ clean_id (co_id c)
  /\ forall c', comp_of_str (comp_str c) = Ok c' -> co_id c' <> co_id c.
Proof.
  exists (lit """a:b"""), (mkComp (mkCid (HttpField (lit "a:b")) []) (VString (lit "v"))). split; [vm_compute; reflexivity|]. split.
  - split; [|split; intros v []]. intros s H. inv H. split; intro H; apply contains_In in H; discriminate H.
  - intros c' H. vm_compute in H. discriminate H.
Qed.
Print Assumptions C06_refuted.
Example C06_example : comp_of_str (lit """x"";key=""k"":   a: b  ") =
  Ok (mkComp (mkCid (HttpField (lit "x")) [Key (lit "k")]) (VString (lit "a: b"))).
Proof. vm_compute. reflexivity. Qed.
