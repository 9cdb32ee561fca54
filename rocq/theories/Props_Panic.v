(** C84: exactly which texts and messages make the library panic. *)
From Verif Require Import Base BaseFacts Utf8 Sfv SfvFacts SfvRound TextFacts SpecCanon CanonProofs Component Crypto Params SigBase Http Hyper SpecSfv SpecSfvProofs SpecGrammar GrammarProofs SpecId IdProofs SpecParams ParamsProofs SpecValue SpecMsg HeaderProofs SpecIdText IdTextProofs MsgProofs VerifyProofs SpecExtract ExtractProofs SpecLabels LabelProofs Props_Labels Props_Verify.

(** ** C84 *)
Theorem C84_identifier : forall s, (exists q, cid_of_str s = Panic q) <-> id_panics s.
Proof. exact id_panics_spec. Qed.
Print Assumptions C84_identifier.
Theorem C84_params : forall t, (exists q, sparams_of_str t = Panic q) <-> exists l, list_field [EInner l] t /\ params_panic l.
Proof.
  intro t. unfold sparams_of_str. split.
  - intros [q H]. destruct (parse_list t) as [l|] eqn:E; [|discriminate]. cbn [ok_or bind] in H. destruct l as [|[i|x] [|y l]]; try discriminate.
    pose proof (parse_list_wf _ _ E) as Hw. apply Forall_inv in Hw. apply parse_list_spec in E. exists x. split; [assumption|]. apply entry_panics; eauto.
  - intros (l & Hl & Hp). apply parse_list_spec in Hl. rewrite Hl. cbn [ok_or bind]. pose proof (parse_list_wf _ _ Hl) as Hw. apply Forall_inv in Hw.
    apply entry_panics; assumption.
Qed.
Print Assumptions C84_params.
Theorem C84_headers : forall sig input, (exists q, try_parse sig input = Panic q) <-> headers_panic sig input.
Proof. exact headers_panic_spec. Qed.
Print Assumptions C84_headers.
(** every inspection of a message, with all keys *)
Theorem C84_inspection : forall rsa m rfp,
  ((exists q, get_alg_key_ids rsa m = Panic q) <-> panic_message m) /\ ((exists q, get_signature_params m = Panic q) <-> panic_message m)
  /\ ((exists q, extract_signatures m rfp = Panic q) <-> panic_message m).
Proof.
  intros rsa m rfp. rewrite <- extract_panics. split; [|split].
  - unfold get_alg_key_ids. destruct (extract_signature_headers_with_name m); cbn [bind]; split; intros [q H]; try discriminate; eauto.
  - unfold get_signature_params. destruct (extract_signature_headers_with_name m); cbn [bind]; split; intros [q H]; try discriminate; eauto.
  - unfold extract_signatures. destruct (extract_signature_headers_with_name m) as [l|e|q'] eqn:E; cbn [bind]; split; intros [q H]; try discriminate; eauto.
    exfalso. destruct (received_dec m) as [[l' Hl]|Hn].
    + destruct (candidates_exist m rfp None l') as [cs Hc]. pose proof (proj2 (extract_signatures_spec m rfp cs) (ex_intro _ l' (conj Hl Hc))) as H'.
      unfold extract_signatures in H'. rewrite E in H'. cbn [bind] in H'. congruence.
    + apply (Hn l). apply extract_spec. exact E.
Qed.
Print Assumptions C84_inspection.
(** an unknown derived name, a date, a negative time; an unreadable member in front prevents the panic *)
Example C84_example :
  id_panics (lit " @foo ") /\ id_panics (lit """@foo"";x=1") /\ ~ id_panics (lit """@method"";x=1") /\ ~ id_panics (lit "foo")
  /\ headers_panic (lit "a=:AA==:, b=::") (lit "a=(""date"" @1), b=(""x"")") /\ headers_panic (lit "a=:AA==:") (lit "a=(""date"");created=-1")
  /\ ~ headers_panic (lit "a=:AA==:, b=::") (lit "b=(""x"" ""x""), a=(""date"" @1)") /\ panic_message (attack (lit "a=();created=-1")).
Proof.
  split; [apply C84_identifier; eexists; vm_compute; reflexivity|]. split; [apply C84_identifier; eexists; vm_compute; reflexivity|].
  split; [intro H; apply C84_identifier in H as [q H]; discriminate H|]. split; [intro H; apply C84_identifier in H as [q H]; discriminate H|].
  split; [apply C84_headers; eexists; vm_compute; reflexivity|]. split; [apply C84_headers; eexists; vm_compute; reflexivity|].
  split; [intro H; apply C84_headers in H as [q H]; vm_compute in H; discriminate H|]. apply extract_panics. eexists. vm_compute. reflexivity.
Qed.
