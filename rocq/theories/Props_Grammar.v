(** The texts that the library understands. *)
From Verif Require Import Base Utf8 Sfv SfvFacts SfvRound SpecCanon CanonProofs Component Crypto Params SigBase Http Hyper Digest SpecSfv SpecSfvProofs SpecGrammar GrammarProofs SpecId IdProofs SpecParams ParamsProofs SpecValue SpecMsg HeaderProofs SpecDigest SpecIdText IdTextProofs MsgProofs Props_Base.

(** ** C79: structured fields *)
Theorem C79_item : forall s i, parse_item s = Some i <-> item_field i s.
Proof. exact parse_item_spec. Qed.
Print Assumptions C79_item.
Theorem C79_list : forall s l, parse_list s = Some l <-> list_field l s.
Proof. exact parse_list_spec. Qed.
Print Assumptions C79_list.
Theorem C79_dictionary : forall s d, parse_dict s = Some d <-> dict_field d s.
Proof. exact parse_dict_spec. Qed.
Print Assumptions C79_dictionary.
(** the grammar is not ambiguous *)
Theorem C79_one_meaning : (forall s i j, item_field i s -> item_field j s -> i = j) /\ (forall s l k, list_field l s -> list_field k s -> l = k)
  /\ forall s d e, dict_field d s -> dict_field e s -> d = e.
Proof.
  split; [|split]; intros s a b Ha Hb.
  - apply parse_item_spec in Ha, Hb. congruence.
  - apply parse_list_spec in Ha, Hb. congruence.
  - apply parse_dict_spec in Ha, Hb. congruence.
Qed.
Print Assumptions C79_one_meaning.
(** a key that occurs twice, an inner list, white space, and texts with no meaning *)
Example C79_example :
  dict_field [(lit "a", EItem (mkItem (BInt 2) [])); (lit "b", EInner (mkInner [mkItem (BStr (lit "x""y")) []; mkItem (BTok (lit "t")) [(lit "p", BDec (-1500))]] [(lit "q", BBool true)]))]
    (lit "  a=1 ,  b=( ""x\""y""   t; p=-1.5 );q,a=2 ")
  /\ (forall d, ~ dict_field d (lit "a=1,")) /\ (forall d, ~ dict_field d (lit "A=1")) /\ (forall l, ~ list_field l (lit "(1,2)")) /\ (forall i, ~ item_field i (lit "1234567890123456")).
Proof.
  split; [apply C79_dictionary; vm_compute; reflexivity|]. split; [intros d H; apply C79_dictionary in H; discriminate H|]. split; [intros d H; apply C79_dictionary in H; discriminate H|].
  split; [intros d H; apply C79_list in H; discriminate H|]. intros i H. apply C79_item in H. discriminate H.
Qed.

(** ** C80: identifiers *)
Theorem C80_exactly : forall s i, cid_of_str s = Ok i <-> id_spelling i s.
Proof. exact id_spelling_spec. Qed.
Print Assumptions C80_exactly.
Theorem C80_one_meaning : forall s i j, id_spelling i s -> id_spelling j s -> i = j.
Proof. intros s i j Hi Hj. apply id_spelling_spec in Hi, Hj. congruence. Qed.
Print Assumptions C80_one_meaning.
(** with white space, without the quotes, with the value of a flag, with an escaped quote *)
Example C80_example :
  id_spelling (mkCid (HttpField (lit "date")) []) (lit "  date ") /\ id_spelling (mkCid (HttpField (lit "a""b")) [Key (lit "k"); Req]) (lit """a\""b"";key=""k"";req=12")
  /\ id_spelling (mkCid (Derived QueryParam) [Name (lit "n")]) (lit """@query-param""; name=""n""")
  /\ (forall i, ~ id_spelling i (lit """@query-param"";sf")) /\ (forall i, ~ id_spelling i (lit """date"";x")) /\ (forall i, ~ id_spelling i (lit """@foo""")) /\ (forall i, ~ id_spelling i []).
Proof.
  split; [apply C80_exactly; vm_compute; reflexivity|]. split; [apply C80_exactly; vm_compute; reflexivity|]. split; [apply C80_exactly; vm_compute; reflexivity|].
  split; [|split; [|split]]; intros i H; apply C80_exactly in H; discriminate H.
Qed.

(** ** C81: signature parameters and the two headers *)
Theorem C81_params : forall t p, sparams_of_str t = Ok p <-> exists l, list_field [EInner l] t /\ params_meaning l p.
Proof. exact sparams_text_spec. Qed.
Print Assumptions C81_params.
Theorem C81_headers : forall sig input l, try_parse sig input = Ok l <-> header_texts sig input l.
Proof. intros sig input l. rewrite <- header_texts_spec. apply try_parse_spec. Qed.
Print Assumptions C81_headers.
Theorem C81_message : forall m l, extract_signature_headers_with_name m = Ok l <->
  field_lines (msg_headers m) (lit "signature") <> [] /\ field_lines (msg_headers m) (lit "signature-input") <> []
  /\ Forall legible (field_lines (msg_headers m) (lit "signature")) /\ Forall legible (field_lines (msg_headers m) (lit "signature-input"))
  /\ header_texts (comma_join (field_lines (msg_headers m) (lit "signature"))) (comma_join (field_lines (msg_headers m) (lit "signature-input"))) l.
Proof. intros m l. rewrite extract_spec. unfold received, signed. cbv zeta. tauto. Qed.
Print Assumptions C81_message.
(** covered components need not be strings: a token reads as a name, together with its parameters *)
Theorem C81_token_name : exists p, sparams_of_str (lit "(foo;sf);keyid=""k""") = Ok p /\ sp_covered p = [mkCid (HttpField (lit "foo;sf")) []].
Proof. eexists. split; vm_compute; reflexivity. Qed.
Print Assumptions C81_token_name.
Example C81_example :
  exists p, header_texts (lit "s=:AQI=:;x") (lit "s=( ""@method""  ""date"";req );keyid=""k"";created=5;created=7;foo") [(lit "s", mkSh (lit "s") [1; 2] p)]
    /\ sp_created p = Some 7 /\ sp_keyid p = Some (lit "k") /\ sp_covered p = [mkCid (Derived Method) []; mkCid (HttpField (lit "date")) [Req]].
Proof.
  eexists. split; [apply C81_headers; vm_compute; reflexivity|]. repeat split.
Qed.
