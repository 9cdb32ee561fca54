(** C82, C83: canonical texts. *)
From Verif Require Import Base BaseFacts Sfv SfvFacts SfvRound SpecSfv SpecSfvProofs SpecGrammar GrammarProofs SpecCanon CanonProofs Component Crypto Params SigBase Http Hyper Digest
  SpecId IdProofs SpecValue ValueProofs SpecParams ParamsProofs SpecBase SpecMsg HeaderProofs SpecIdText IdTextProofs SpecDigest DigestProofs MsgProofs Toy Decide Props_Value Props_Grammar Props_Digest.

(** ** C82 *)
Theorem C82_item : forall i t, item_value i -> (ser_item i = t <-> canon_item i t).
Proof. intros i t H. symmetry. apply canon_item_spec. exact H. Qed.
Print Assumptions C82_item.
Theorem C82_list : forall l t, list_value l -> (ser_list l = Some t <-> canon_list l t).
Proof. intros l t H. symmetry. apply canon_list_spec. exact H. Qed.
Print Assumptions C82_list.
Theorem C82_dictionary : forall d t, dict_value d -> (ser_dict d = Some t <-> canon_dict d t).
Proof. intros d t H. symmetry. apply canon_dict_spec. exact H. Qed.
Print Assumptions C82_dictionary.
(** a value has exactly one canonical text, which denotes this value; so two values with the same canonical text are the same *)
Theorem C82_unique : forall l, list_value l -> l <> [] -> exists t, canon_list l t /\ list_field l t /\ forall t', canon_list l t' -> t' = t.
Proof.
  intros l Hl Hn. destruct (ser_list l) as [t|] eqn:E; [|destruct l; [congruence|discriminate]]. exists t. pose proof (proj2 (canon_list_spec l t Hl) E) as Hc.
  split; [exact Hc|]. split.
  - apply parse_list_spec. assert (Et : t = join [cComma; cSP] (map ser_entry l)) by (destruct l; [congruence|injection E as <-; reflexivity]). rewrite Et.
    apply parse_list_round. apply list_value_spec, Hl.
  - intros t' Ht. apply canon_list_spec in Ht; [|assumption]. congruence.
Qed.
Print Assumptions C82_unique.
Theorem C82_unique_dictionary : forall d, dict_value d -> d <> [] -> exists t, canon_dict d t /\ dict_field d t /\ forall t', canon_dict d t' -> t' = t.
Proof.
  intros l Hl Hn. destruct (ser_dict l) as [t|] eqn:E; [|destruct l; [congruence|discriminate]]. exists t. pose proof (proj2 (canon_dict_spec l t Hl) E) as Hc.
  split; [exact Hc|]. split.
  - apply parse_dict_spec. assert (Et : t = join [cComma; cSP] (map ser_member l)) by (destruct l; [congruence|injection E as <-; reflexivity]). rewrite Et.
    apply parse_dict_round. apply dict_value_spec, Hl.
  - intros t' Ht. apply canon_dict_spec in Ht; [|assumption]. congruence.
Qed.
Print Assumptions C82_unique_dictionary.
Example C82_example :
  canonical (lit " a=007 ,b;x=?1;y=-2.50,  c=( ""q""   tok ) , d=:AQ:") (lit "a=7, b;x;y=-2.5, c=(""q"" tok), d=:AQ==:")
  /\ member_texts (lit "k") [lit "k=?1;z=-0"; lit "a=1"; lit "k=@-0, k=%""%c3%bc 1"""] [lit "?1;z=0"; lit "%""%c3%bc 1"""]
  /\ ~ canon_integer 7 (lit "007") /\ canon_integer (-12) (lit "-12") /\ ~ canon_integer 0 (lit "-0").
Proof.
  split; [apply sf_line_spec; vm_compute; reflexivity|]. split.
  - apply member_texts_spec. eexists. split; [repeat (constructor; [vm_compute; reflexivity|]); constructor|].
    apply (sel_take _ _ (EItem (mkItem (BBool true) [(lit "z", BInt 0)]))); [left; reflexivity|]. apply sel_skip; [intros [E|[]]; discriminate E|].
    apply (sel_take _ _ (EItem (mkItem (BDisp [195; 188; 32; 49]) []))); [left; reflexivity|]. constructor.
  - split; [|split]; [intro H|apply canon_integer_spec; [unfold number15; split; discriminate|reflexivity]|intro H]; apply canon_integer_spec in H; try discriminate H; unfold number15; split; discriminate.
Qed.

(** ** C83: what is sent is canonical *)
Lemma id_item_written i : valid_id i -> id_written i (id_item i).
Proof.
  intros (Hn & _ & _). exists (name_text (id_name i)). split; [reflexivity|]. split.
  - destruct (id_name i) as [s|d]; cbn [name_text].
    + constructor. intros r E. destruct Hn as [_ Hn]. exact (Hn r E).
    + constructor. apply derived_table. reflexivity.
  - cbn [id_item it_params]. induction (id_params i) as [|p ps IH]; constructor; [|exact IH]. destruct p; constructor.
Qed.
Lemma inner_written p : Forall valid_id (sp_covered p) -> params_written p (params_inner p).
Proof.
  intro H. split; [|reflexivity]. cbn [params_inner in_items]. induction H as [|i l Hi H IH]; constructor; [apply id_item_written, Hi|exact IH].
Qed.
(** the text of an identifier, of signature parameters, and the two header lines *)
Theorem C83_identifier : forall i, valid_id i -> clean_id i -> exists it, id_written i it /\ canon_item it (cid_str i).
Proof.
  intros i Hv Hc. exists (id_item i). split; [apply id_item_written, Hv|]. rewrite cid_str_item by exact Hc. apply canon_item_spec; [|reflexivity].
  apply item_value_spec, id_item_wf, Hv.
Qed.
Print Assumptions C83_identifier.
Theorem C83_input : forall h, sendable h -> exists l, params_written (sh_params h) l /\ canon_member (sh_name h, EInner l) (signature_input_header_value h).
Proof.
  intros h H. pose proof (input_member_wf h H) as [_ Hw]. destruct H as (_ & _ & H). exists (params_inner (sh_params h)). split; [apply inner_written; apply H|].
  rewrite input_member_text by exact H. apply canon_member_spec; [|reflexivity]. apply entry_value_spec. exact Hw.
Qed.
Print Assumptions C83_input.
Theorem C83_signature : forall h, Forall octet (sh_sig h) -> canon_member (sh_name h, EItem (mkItem (BBytes (sh_sig h)) [])) (signature_header_value h).
Proof.
  intros h H. rewrite sig_member_text. apply canon_member_spec; [|reflexivity]. split; [exact H|]. split; constructor.
Qed.
Print Assumptions C83_signature.
(** several signatures joined into one line give the canonical dictionary *)
Theorem C83_headers : forall hs, hs <> [] -> Forall sendable hs ->
  canon_dict (map (fun h => (sh_name h, EItem (mkItem (BBytes (sh_sig h)) []))) hs) (comma_join (map signature_header_value hs))
  /\ exists ls, Forall2 (fun h l => params_written (sh_params h) l) hs ls
     /\ canon_dict (combine (map sh_name hs) (map EInner ls)) (comma_join (map signature_input_header_value hs)).
Proof.
  intros hs Hn H. split.
  - exists (map signature_header_value hs). split.
    + clear Hn. induction H as [|h hs Hh H IH]; cbn [map]; constructor; [apply C83_signature, Hh|exact IH].
    + apply separated_join. split; [destruct hs; [congruence|discriminate]|symmetry; apply comma_join_spec].
  - exists (map (fun h => params_inner (sh_params h)) hs). split.
    + clear Hn. induction H as [|h hs Hh H IH]; cbn [map]; constructor; [apply inner_written; apply Hh|exact IH].
    + exists (map signature_input_header_value hs). split; [|apply separated_join; split; [destruct hs; [congruence|discriminate]|symmetry; apply comma_join_spec]].
      clear Hn. induction H as [|h hs Hh H IH]; cbn [map combine]; constructor; [|exact IH].
      pose proof (input_member_wf h Hh) as [_ Hw]. destruct Hh as (_ & _ & Hh). rewrite input_member_text by exact Hh.
      apply (canon_member_spec (input_member h)); [|reflexivity]. apply entry_value_spec. exact Hw.
Qed.
Print Assumptions C83_headers.
(** the digest header *)
Theorem C83_digest : forall H m t m', octet_hashes H -> set_content_digest H m t = Ok m' ->
  exists v, field_lines (msg_headers m') (lit "content-digest") = [v]
    /\ canon_dict [(match t with Sha256 => lit "sha-256" | Sha512 => lit "sha-512" end, EItem (mkItem (BBytes (hash H t (data_of (msg_body m)))) []))] v.
Proof.
  intros H m t m' Ho E. eexists. split; [eapply C49_line; eassumption|]. rewrite digest_value_member by exact Ho. eexists. split; [|constructor].
  constructor; [|constructor]. replace (match t with Sha256 => lit "sha-256" | Sha512 => lit "sha-512" end) with (type_name t) by (destruct t; reflexivity).
  apply canon_member_spec; [|reflexivity]. split; [apply hash_octets, Ho|]. split; constructor.
Qed.
Print Assumptions C83_digest.
Example C83_example :
  let h := mkSh (lit "sig1") [1; 2] (mkSparams (Some 5) None None (Some (lit "hmac-sha256")) (Some (lit "k")) None
    [mkCid (Derived Method) []; mkCid (HttpField (lit "cache-control")) [Key (lit "max-age"); Req]]) in
  sendable h /\ signature_input_header_value h = lit "sig1=(""@method"" ""cache-control"";key=""max-age"";req);created=5;alg=""hmac-sha256"";keyid=""k"""
  /\ signature_header_value h = lit "sig1=:AQI=:".
Proof.
  cbv zeta. split; [|split; reflexivity]. split; [apply key_text_spec; split; vm_compute; reflexivity|]. split; [repeat constructor|]. apply writableb_ok. vm_compute. reflexivity.
Qed.
(** a quote in one text, everything else as in C83_input: the line is no dictionary at all *)
Theorem C83_needs_no_quotes : exists n sig p s, sendable (mkSh n sig p) /\ Forall printable s
  /\ forall d, ~ dict_field d (signature_input_header_value (mkSh n sig (set_nonce p s))).
Proof.
  exists (lit "s"), [], (mkSparams None None None None None None []), (lit "a""b"). split; [|split].
  - split; [apply key_text_spec; split; vm_compute; reflexivity|]. split; [constructor|]. apply writableb_ok. vm_compute. reflexivity.
  - repeat (constructor; [split; vm_compute; congruence|]). constructor.
  - intros d H. apply parse_dict_spec in H. vm_compute in H. discriminate H.
Qed.
Print Assumptions C83_needs_no_quotes.
