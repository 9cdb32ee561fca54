(** Exactly what survives writing and reading. *)
From Verif Require Import Base Utf8 Sfv SfvFacts SfvRound SpecGrammar GrammarProofs SpecCanon CanonProofs Component Crypto Params SigBase Http Hyper SpecSfv SpecSfvProofs SpecId IdProofs SpecParams ParamsProofs SpecBase SpecIdText IdTextProofs SpecMsg SpecExtract SpecSign SignProofs HeaderProofs MsgProofs Toy Decide Props_Params Props_Verify Props_Sign ExactProofs.

(** ** C75: identifiers *)
Theorem C75_exactly : forall i, cid_of_str (cid_str i) = Ok i <-> valid_id i /\ clean_id i.
Proof. exact cid_exact. Qed.
Print Assumptions C75_exactly.
(** of the identifiers that come from texts, exactly those without double quotes and backslashes *)
Theorem C75_parsed : forall s i, cid_of_str s = Ok i -> (cid_of_str (cid_str i) = Ok i <-> clean_id i).
Proof. intros s i H. rewrite cid_exact. split; [intros [_ Hc]; exact Hc|]. intro Hc. split; [exact (cid_of_str_valid s i H)|exact Hc]. Qed.
Print Assumptions C75_parsed.
(** one that survives, and two that do not: the second one has a backslash, the third one the wrong parameter *)
Example C75_example :
  let i := mkCid (HttpField (lit "cache-control")) [Key (lit "max-age"); Req] in
  let j := mkCid (HttpField (lit "a\b")) [] in let k := mkCid (Derived Method) [Sf] in
  cid_of_str (cid_str i) = Ok i /\ cid_of_str (lit """a\\b""") = Ok j /\ cid_of_str (cid_str j) <> Ok j /\ clean_id k /\ cid_of_str (cid_str k) <> Ok k.
Proof.
  cbv zeta. split; [vm_compute; reflexivity|]. split; [vm_compute; reflexivity|]. split; [vm_compute; discriminate|]. split; [|vm_compute; discriminate].
  split; [intros s H; discriminate|]. split; intros v [H|[]]; discriminate.
Qed.

(** ** C76: parameters *)
Theorem C76_exactly : forall p, sparams_of_str (sparams_str p) = Ok p <-> writable p.
Proof. exact sparams_exact. Qed.
Print Assumptions C76_exactly.
(** of the parameters that come from a header, exactly those without double quotes and backslashes *)
Theorem C76_parsed : forall t d k e p, dict_field d t -> In (k, e) d -> sparams_of_entry e = Ok p -> (sparams_of_str (sparams_str p) = Ok p <-> unescaped p).
Proof.
  intros t d k e p Hd Hi He. rewrite sparams_exact. apply parse_dict_spec, parse_dict_wf in Hd as [Hd _]. rewrite Forall_forall in Hd. apply Hd in Hi as [_ Hi]. cbn [snd] in Hi. split.
  - intros (_ & _ & H1 & H2 & H3 & H4 & _ & H8 & _). split; [|exact H8]. intros s Hs. cbn [In] in Hs.
    repeat destruct Hs as [Hs|Hs]; try contradiction; [rewrite Hs in H1; apply H1|rewrite Hs in H2; apply H2|rewrite Hs in H3; apply H3|rewrite Hs in H4; apply H4].
  - intro Hu. exact (parsed_writable e p Hi He Hu).
Qed.
Print Assumptions C76_parsed.
Example C76_example : writable p1 /\ sparams_of_str (sparams_str (set_nonce p1 (lit "a\"))) <> Ok (set_nonce p1 (lit "a\")) /\ ~ writable (set_created p1 1000000000000000).
Proof.
  split; [apply p1_writable|]. split; [vm_compute; discriminate|]. intro H. apply sparams_round in H. revert H. vm_compute. discriminate.
Qed.

(** ** C77: the two headers *)
Theorem C77_exactly : forall l,
  try_parse (comma_join (map signature_header_value l)) (comma_join (map signature_input_header_value l)) = Ok (map (fun h => (sh_name h, h)) l)
  <-> Forall sendable l /\ NoDup (map sh_name l).
Proof. exact headers_exact. Qed.
Print Assumptions C77_exactly.
(** signing an unsigned message: the receiver gets what was made exactly if all names are different keys and all parameters can be written *)
Theorem C77_message : forall m rfp jobs m', field_lines (msg_headers m) (lit "signature") = [] -> field_lines (msg_headers m) (lit "signature-input") = [] ->
  (forall j, In j jobs -> octets (j_key j)) -> set_message_signatures m rfp jobs = (m', Ok tt) ->
  exists l, Forall2 (made m rfp) jobs l
  /\ (received m' (map with_name l) <-> jobs <> [] /\ Forall (fun j => key_text (job_name j) /\ writable (j_params j)) jobs /\ NoDup (map job_name jobs)).
Proof.
  intros m rfp jobs m' E1 E2 Ho H. destruct (set_ok m rfp jobs m' Ho H) as (l & Hl & -> & _). exists l. split; [assumption|].
  pose proof (made_all_octets _ _ _ _ Hl Ho) as Hoc. rewrite (message_exact m l E1 E2 Hoc). clear H E1 E2.
  assert (Hn : map sh_name l = map job_name jobs).
  { clear - Hl. induction Hl as [|j s jobs l Hj Hl IH]; [reflexivity|]. cbn [map]. rewrite IH. destruct Hj as (t & _ & _ & -> & _). reflexivity. }
  assert (Hs : Forall sendable l <-> Forall (fun j => key_text (job_name j) /\ writable (j_params j)) jobs).
  { clear - Hl Hoc. induction Hl as [|j s jobs l Hj Hl IH]; [split; constructor|]. apply Forall_cons_iff in Hoc as [Hc Hoc]. specialize (IH Hoc). rewrite !Forall_cons_iff.
    destruct Hj as (t & _ & _ & Ha & Hb). unfold sendable at 1. rewrite Ha, Hb. tauto. }
  assert (He : l <> [] <-> jobs <> []) by (destruct Hl; split; congruence). rewrite Hn, Hs, He. reflexivity.
Qed.
Print Assumptions C77_message.
(** signing a message that may already carry signatures: old and new ones arrive exactly if, moreover, no label is used again *)
Theorem C77_signed : forall m l0 rfp jobs m', carries m l0 ->
  (forall j, In j jobs -> octets (j_key j)) -> set_message_signatures m rfp jobs = (m', Ok tt) ->
  exists l, Forall2 (made m rfp) jobs l
  /\ (carries m' (l0 ++ map with_name l)
      <-> Forall (fun j => key_text (job_name j) /\ writable (j_params j)) jobs /\ NoDup (map fst l0 ++ map job_name jobs)).
Proof.
  intros m l0 rfp jobs m' Hc Ho H. destruct (set_ok m rfp jobs m' Ho H) as (l & Hl & -> & _). exists l. split; [assumption|].
  pose proof (made_all_octets _ _ _ _ Hl Ho) as Hoc. rewrite (carries_exact m l0 l Hc Hoc). clear H Hc.
  assert (Hn : map sh_name l = map job_name jobs).
  { clear - Hl. induction Hl as [|j s jobs l Hj Hl IH]; [reflexivity|]. cbn [map]. rewrite IH. destruct Hj as (t & _ & _ & -> & _). reflexivity. }
  assert (Hs : Forall sendable l <-> Forall (fun j => key_text (job_name j) /\ writable (j_params j)) jobs).
  { clear - Hl Hoc. induction Hl as [|j s jobs l Hj Hl IH]; [split; constructor|]. apply Forall_cons_iff in Hoc as [Hc Hoc]. specialize (IH Hoc). rewrite !Forall_cons_iff.
    destruct Hj as (t & _ & _ & Ha & Hb). unfold sendable at 1. rewrite Ha, Hb. tauto. }
  rewrite Hn, Hs. reflexivity.
Qed.
Print Assumptions C77_signed.
Lemma signing_ok rfp m calls m' : history rfp m calls m' -> (forall j, In j (concat calls) -> octets (j_key j)) ->
  exists l, signing rfp m calls l m' /\ Forall2 (fun j s => sh_name s = job_name j /\ sh_params s = j_params j /\ Forall octet (sh_sig s)) (concat calls) l
  /\ m' = msg_set_headers m (msg_headers m ++ flat_map pair_lines l).
Proof.
  intro H. induction H as [m|m jobs m1 calls m2 H _ IH]; intro Ho.
  - exists []. split; [constructor|]. split; [constructor|]. destruct m as [[] | []]; cbn; rewrite app_nil_r; reflexivity.
  - cbn [concat] in Ho. destruct (set_ok m rfp jobs m1) as (l & Hl & -> & _); [intros j Hj; apply Ho, in_or_app; auto|assumption|].
    destruct IH as (r & Hr & Hj & ->); [intros j Hj; apply Ho, in_or_app; auto|]. exists (l ++ r). split; [econstructor; eassumption|]. split.
    + cbn [concat]. apply Forall2_app; [|exact Hj]. assert (Hoj : forall j, In j jobs -> octets (j_key j)) by (intros j Hi; apply Ho, in_or_app; auto). clear - Hl Hoj.
      induction Hl as [|j s jobs l (t & _ & Hs & Hn & Hp) Hl IH]; constructor; [|apply IH; intros; apply Hoj; right; assumption].
      split; [exact Hn|]. split; [exact Hp|]. exact (Hoj j (or_introl eq_refl) _ _ _ Hs).
    + rewrite flat_map_app. destruct m as [[] | []]; cbn; rewrite app_assoc; reflexivity.
Qed.
(** any number of signing calls *)
Theorem C77_history : forall m l0 rfp calls m', carries m l0 -> (forall j, In j (concat calls) -> octets (j_key j)) -> history rfp m calls m' ->
  exists l, signing rfp m calls l m'
  /\ (carries m' (l0 ++ map with_name l)
      <-> Forall (fun j => key_text (job_name j) /\ writable (j_params j)) (concat calls) /\ NoDup (map fst l0 ++ map job_name (concat calls))).
Proof.
  intros m l0 rfp calls m' Hc Ho H. destruct (signing_ok rfp m calls m' H Ho) as (l & Hl & Hj & ->). exists l. split; [exact Hl|].
  rewrite (carries_exact m l0 l Hc); [|clear - Hj; induction Hj as [|j s jobs l (_ & _ & Hs) _ IH]; constructor; assumption].
  assert (Hn : map sh_name l = map job_name (concat calls)) by (clear - Hj; induction Hj as [|j s jobs l (Hs & _) _ IH]; [reflexivity|]; cbn [map]; congruence).
  assert (Hs : Forall sendable l <-> Forall (fun j => key_text (job_name j) /\ writable (j_params j)) (concat calls)).
  { clear - Hj. induction Hj as [|j s jobs l (Ha & Hb & Hc) _ IH]; [split; constructor|]. rewrite !Forall_cons_iff. unfold sendable at 1. rewrite Ha, Hb. tauto. }
  rewrite Hn, Hs. reflexivity.
Qed.
Print Assumptions C77_history.
(** two good jobs; a label that is no key; a key id with a double quote: it is signed and sent, but not received as made *)
Definition job2 : job := mkJob ex_params toy_key (Some (lit "sig2")) 0.
Definition job3 : job := mkJob ex_params toy_key (Some (lit "Sig")) 0.
Definition job4 : job := mkJob (set_tag ex_params (lit "x"";nonce=""y")) toy_key (Some (lit "sig3")) 0.
Example C77_example :
  snd (set_message_signatures (MReq ex_req) None [ex_job; job2; job3; job4]) = Ok tt
  /\ field_lines (msg_headers (MReq ex_req)) (lit "signature") = [] /\ octets toy_key
  /\ Forall (fun j => key_text (job_name j) /\ writable (j_params j)) [ex_job; job2]
  /\ ~ key_text (job_name job3) /\ ~ writable (j_params job4)
  /\ exists q, get_signature_params (fst (set_message_signature (MReq ex_req) None job4)) = Ok [(lit "sig3", q)] /\ sp_nonce q = Some (lit "y").
Proof.
  split; [vm_compute; reflexivity|]. split; [vm_compute; reflexivity|]. split; [apply toy_key_octets|]. split; [|split; [|split]].
  - constructor; [|constructor; [|constructor]]; (split; [apply key_text_spec; split; vm_compute; reflexivity|apply writableb_ok; vm_compute; reflexivity]).
  - intro H. apply key_text_spec in H as [H _]. vm_compute in H. discriminate H.
  - intro H. apply sparams_round in H. revert H. vm_compute. discriminate.
  - eexists. split; vm_compute; reflexivity.
Qed.

Example C77_signed_example : exists h, carries ex_signed [(lit "sig1", h)]
  /\ snd (set_message_signatures ex_signed None [job2]) = Ok tt /\ NoDup (map fst [(lit "sig1", h)] ++ map job_name [job2])
  /\ snd (set_message_signatures ex_signed None [ex_job]) = Ok tt /\ ~ NoDup (map fst [(lit "sig1", h)] ++ map job_name [ex_job]).
Proof.
  eexists. split; [right; split; [discriminate|apply extract_spec; vm_compute; reflexivity]|]. cbn [map fst app]. split; [vm_compute; reflexivity|]. split.
  - repeat constructor; cbn [In]; intros [H|[]] || intros []; vm_compute in H; discriminate H.
  - split; [vm_compute; reflexivity|]. intro H. apply NoDup_cons_iff in H as [H _]. apply H. left. reflexivity.
Qed.

Example C77_history_example : exists m, history None (MReq ex_req) [[ex_job]; []; [job2]] m /\ carries (MReq ex_req) []
  /\ NoDup (map job_name (concat [[ex_job]; []; [job2]])).
Proof.
  eexists. split; [|split; [left; split; [reflexivity|]; split; vm_compute; reflexivity|]].
  - econstructor; [vm_compute; reflexivity|]. econstructor; [vm_compute; reflexivity|]. econstructor; [vm_compute; reflexivity|]. constructor.
  - repeat constructor; cbn [In]; intros [H|[]] || intros []; vm_compute in H; discriminate H.
Qed.

(** ** C78: component lines *)
Theorem C78_exactly : forall c v, comp_of_str (comp_str c) = Ok (mkComp (co_id c) v) <->
  (valid_id (co_id c) /\ clean_id (co_id c) /\ lacks 58 (co_id c)) /\ exists t, stripped (cvalue_str (co_value c)) t /\ v = VString t.
Proof.
  intros c v. rewrite line_exact. split; intros [H Hv]; (split; [exact H|]).
  - eexists. split; [apply trim_spec; reflexivity|exact Hv].
  - destruct Hv as (t & Ht & ->). apply trim_spec in Ht. congruence.
Qed.
Print Assumptions C78_exactly.
Example C78_example :
  let c := mkComp (mkCid (HttpField (lit "a:b")) []) (VString (lit "v")) in
  let d := mkComp (mkCid (HttpField (lit "date")) [Req]) (VString (lit " a: ""b"" ")) in
  (valid_id (co_id c) /\ clean_id (co_id c) /\ ~ exists v, comp_of_str (comp_str c) = Ok (mkComp (co_id c) v))
  /\ comp_of_str (comp_str d) = Ok (mkComp (co_id d) (VString (lit "a: ""b"""))).
Proof.
  cbv zeta. split; [|vm_compute; reflexivity]. cbn [co_id]. split; [apply (cid_of_str_valid (lit """a:b""")); vm_compute; reflexivity|]. split.
  - apply (proj1 (C75_exactly _)). vm_compute. reflexivity.
  - intros [v H]. vm_compute in H. discriminate H.
Qed.
