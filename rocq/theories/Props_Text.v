(** C22, C25, C26: UTF-8, base64 and structured field values. *)
From Verif Require Import Base BaseFacts Utf8 Utf8Facts Base64 Base64Facts Sfv SfvFacts SfvRound SpecSfv SpecSfvProofs SpecGrammar GrammarProofs.
From Verif Require Import Component Crypto Params SigBase.

(** ** C22 *)
Theorem C22_bytes_are_utf8 : forall b, rust_text (base_str b) -> utf8_bytes_of (base_str b) (base_bytes b).
Proof. intros b H. apply utf8_bytes_spec. exact H. Qed.
Print Assumptions C22_bytes_are_utf8.

Theorem C22_bytes_determine_text : forall b b', rust_text (base_str b) -> rust_text (base_str b') ->
  base_bytes b = base_bytes b' -> base_str b = base_str b'.
Proof. intros b b' H H'. apply utf8_inj; apply rust_text_spec; assumption. Qed.
Print Assumptions C22_bytes_determine_text.

(** a base with a two-byte, a three-byte and a four-byte character *)
Definition c22_base : sigbase :=
  mkBase [mkComp (mkCid (HttpField (lit "date")) []) (VString [233; 8364; 128512])]
    (mkSparams None None (Some [233]) None None None [mkCid (HttpField (lit "date")) []]).
Example C22_example : rust_text (base_str c22_base) /\ base_bytes c22_base <> base_str c22_base.
Proof. split; [apply rust_text_spec; apply Forall_forall; intros c Hc; vm_compute in Hc;
  repeat (destruct Hc as [<-|Hc]; [reflexivity|]); destruct Hc | vm_compute; discriminate]. Qed.

(** ** C25 *)
(** the text of a signature is RFC 4648 base64, and parsing the header gives back the bytes *)
Theorem C25_signature_text : forall h, Forall octet (sh_sig h) ->
  signature_header_value h = sh_name h ++ lit "=:" ++ b64_text (sh_sig h) ++ lit ":".
Proof. intros h H. unfold signature_header_value. rewrite b64_text_spec by assumption. reflexivity. Qed.
Print Assumptions C25_signature_text.

Lemma c25_round h : Forall octet (sh_sig h) -> key_text (sh_name h) ->
  parse_dict (signature_header_value h) = Some [(sh_name h, EItem (mkItem (BBytes (sh_sig h)) []))].
Proof.
  intros H Hk.
  assert (Hw : wf_dict [(sh_name h, EItem (mkItem (BBytes (sh_sig h)) []))]).
  { apply dict_value_spec. split; [|repeat constructor; intros []]. constructor; [|constructor]. split; [assumption|].
    cbn. split; [assumption|]. split; [constructor|constructor]. }
  apply parse_dict_round in Hw. etransitivity; [|exact Hw]. f_equal.
  unfold signature_header_value.
  change (join [cComma; cSP] _) with (sh_name h ++ cEq :: (cColon :: b64_encode (sh_sig h) ++ [cColon]) ++ []).
  rewrite app_nil_r. reflexivity.
Qed.
Theorem C25_signature_round_trip : forall h, Forall octet (sh_sig h) -> key_text (sh_name h) ->
  dict_field [(sh_name h, EItem (mkItem (BBytes (sh_sig h)) []))] (signature_header_value h).
Proof. intros h H1 H2. apply parse_dict_spec, c25_round; assumption. Qed.
Print Assumptions C25_signature_round_trip.

Lemma c25_key a t k : shared_from_base64 a t = Ok k <->
  a = HmacSha256 /\ exists b, Forall octet b /\ t = b64_text b /\ k = ShHmacSha256 b.
Proof.
  unfold shared_from_base64. split.
  - destruct (b64_decode false t) as [b|] eqn:E; cbn [ok_or bind]; [|discriminate]. intro H.
    assert (Hb := b64_decode_bytes _ _ _ E). apply b64_strict_canonical in E.
    destruct a; inv H. split; [reflexivity|]. exists b. split; [exact Hb|]. split; [|reflexivity].
    rewrite b64_text_spec by exact Hb. reflexivity.
  - intros (-> & b & Hb & -> & ->). rewrite <- b64_text_spec by exact Hb. rewrite b64_roundtrip by exact Hb. reflexivity.
Qed.
(** exactly the canonical texts are accepted as keys *)
Theorem C25_shared_key_exact : forall a t k, shared_from_base64 a t = Ok k <->
  a = HmacSha256 /\ exists b, Forall octet b /\ t = b64_text b /\ k = ShHmacSha256 b.
Proof. exact c25_key. Qed.
Print Assumptions C25_shared_key_exact.

Lemma c25_unique a t t' k : shared_from_base64 a t = Ok k -> shared_from_base64 a t' = Ok k -> t = t'.
Proof. intros H H'. apply c25_key in H as (_ & b & _ & -> & ->). apply c25_key in H' as (_ & b' & _ & -> & E). inv E. reflexivity. Qed.
Theorem C25_shared_key_text_unique : forall a t t' k, shared_from_base64 a t = Ok k -> shared_from_base64 a t' = Ok k -> t = t'.
Proof. exact c25_unique. Qed.
Print Assumptions C25_shared_key_text_unique.

Example C25_example : shared_from_base64 HmacSha256 (lit "Zm9vYg==") = Ok (ShHmacSha256 (lit "foob")).
Proof. reflexivity. Qed.
(** trailing bits, missing padding *)
Example C25_example_refused :
  shared_from_base64 HmacSha256 (lit "Zm9vYh==") = Err Base64DecodeError
  /\ shared_from_base64 HmacSha256 (lit "Zm9vYg") = Err Base64DecodeError.
Proof. split; reflexivity. Qed.
Example C25_example_header :
  signature_header_value (mkSh (lit "sig1") [104; 105; 255] (mkSparams None None None None None None [])) = lit "sig1=:aGn/:".
Proof. reflexivity. Qed.

(** ** C26 *)
Theorem C26_item : forall i, item_value i -> parse_item (ser_item i) = Some i.
Proof. intros i H. apply parse_item_round, item_value_spec, H. Qed.
Print Assumptions C26_item.

Lemma c26_list l : list_value l -> l <> [] -> exists t, ser_list l = Some t /\ parse_list t = Some l.
Proof.
  intros H Hn. destruct l as [|e l]; [congruence|]. eexists. split; [reflexivity|]. apply parse_list_round, list_value_spec, H.
Qed.
Theorem C26_list : forall l, list_value l -> l <> [] -> exists t, ser_list l = Some t /\ parse_list t = Some l.
Proof. exact c26_list. Qed.
Print Assumptions C26_list.

Lemma c26_dict l : dict_value l -> l <> [] -> exists t, ser_dict l = Some t /\ parse_dict t = Some l.
Proof.
  intros H Hn. destruct l as [|e l]; [congruence|]. eexists. split; [reflexivity|]. apply parse_dict_round, dict_value_spec, H.
Qed.
Theorem C26_dict : forall d, dict_value d -> d <> [] -> exists t, ser_dict d = Some t /\ parse_dict t = Some d.
Proof. exact c26_dict. Qed.
Print Assumptions C26_dict.

(** every parsed value is well formed, so parsing and serializing again loses nothing *)
Theorem C26_parsed_item : forall s i, parse_item s = Some i -> item_value i.
Proof. intros s i H. apply item_value_spec. exact (parse_item_wf s i H). Qed.
Print Assumptions C26_parsed_item.
Theorem C26_parsed_list : forall s l, parse_list s = Some l -> list_value l.
Proof. intros s i H. apply list_value_spec. exact (parse_list_wf s i H). Qed.
Print Assumptions C26_parsed_list.
Theorem C26_parsed_dict : forall s d, parse_dict s = Some d -> dict_value d.
Proof. intros s i H. apply dict_value_spec. exact (parse_dict_wf s i H). Qed.
Print Assumptions C26_parsed_dict.

(** a further dictionary text: union, later members override earlier ones, the earlier position is kept *)
Lemma c26_append s1 s2 d1 d2 : parse_dict s1 = Some d1 -> parse_dict s2 = Some d2 -> d1 <> [] -> d2 <> [] ->
  exists d, parse_dict (s1 ++ lit ", " ++ s2) = Some d
    /\ map fst d = distinct [] (map fst (d1 ++ d2))
    /\ forall k e, In (k, e) d <-> last_value k (d1 ++ d2) = Some e.
Proof.
  intros H1 H2 N1 N2. exists (im_of_list (d1 ++ d2)). split; [|split].
  - change (lit ", " ++ s2) with (cComma :: cSP :: s2).
    rewrite (parse_dict_app s1 s2 d1 d2) by assumption. f_equal. rewrite im_of_list_add, im_add_app. f_equal.
    rewrite <- im_of_list_add, im_of_list_id; [reflexivity|]. apply parse_dict_wf in H1. apply H1.
  - apply im_of_list_keys.
  - intros k e. rewrite <- im_get_of_list. split.
    + apply im_get_nodup. apply im_of_list_nodup.
    + apply im_get_In.
Qed.
Theorem C26_append : forall s1 s2 d1 d2, parse_dict s1 = Some d1 -> parse_dict s2 = Some d2 -> d1 <> [] -> d2 <> [] ->
  exists d, parse_dict (s1 ++ lit ", " ++ s2) = Some d
    /\ map fst d = distinct [] (map fst (d1 ++ d2))
    /\ forall k e, In (k, e) d <-> last_value k (d1 ++ d2) = Some e.
Proof. exact c26_append. Qed.
Print Assumptions C26_append.

(** a dictionary with every kind of bare item, a repeated key on the wire, and an inner list *)
Definition c26_text : str := lit "a=1.50;x=-7;y, b=(tok :aGk=: ""q\""\\"";z=?0);p=@5, a=%""%c3%a9"", c".
Example C26_example :
  exists d, parse_dict c26_text = Some d /\ d <> []
    /\ ser_dict d = Some (lit "a=%""%c3%a9"", b=(tok :aGk=: ""q\""\\"";z=?0);p=@5, c").
Proof. eexists. split; [vm_compute; reflexivity|]. split; [discriminate | vm_compute; reflexivity]. Qed.
Example C26_example_append :
  exists d1 d2, parse_dict (lit "a=1, b=2") = Some d1 /\ parse_dict (lit "b=3;q, c") = Some d2
    /\ parse_dict (lit "a=1, b=2, b=3;q, c") = parse_dict (lit "a=1,b=3;q,c") /\ d1 <> [] /\ d2 <> [].
Proof. eexists. eexists. repeat split; try (vm_compute; reflexivity); discriminate. Qed.
