(** Signatures in messages *)
From Coq Require Import ZifyBool ZifyNat ZifyN Permutation.
From Verif Require Import Base BaseFacts Utf8 Base64 Base64Facts Sfv SfvFacts SfvRound TextFacts SpecSfv SpecSfvProofs SpecGrammar GrammarProofs SpecCanon CanonProofs Component Crypto Params SigBase SpecId IdProofs SpecParams ParamsProofs SpecIdText IdTextProofs SpecValue ValueProofs Http Hyper SpecBase BaseProofs SpecMsg HeaderProofs.

(** ** header lines *)
Lemma str_eqb_dec a b : (if list_eq_dec N.eq_dec a b then true else false) = str_eqb a b.
Proof.
  destruct (list_eq_dec N.eq_dec a b) as [->|H]; [symmetry; apply str_eqb_refl|]. destruct (str_eqb a b) eqn:E; [|reflexivity].
  apply str_eqb_eq in E. contradiction.
Qed.
Lemma field_lines_filter h n : field_lines h n = map snd (filter (fun kv => str_eqb (fst kv) n) h).
Proof. unfold field_lines. f_equal. apply filter_ext. intro kv. apply str_eqb_dec. Qed.
Lemma hm_lines h s n : header_name s = Some n -> hm_get_all h s = field_lines h n.
Proof. intro H. unfold hm_get_all. rewrite H, field_lines_filter. reflexivity. Qed.
Lemma hm_sig h : hm_get_all h h_sig = field_lines h (lit "signature").
Proof. apply hm_lines. reflexivity. Qed.
Lemma hm_input h : hm_get_all h h_input = field_lines h (lit "signature-input").
Proof. apply hm_lines. reflexivity. Qed.
Lemma legible_spec v : hv_to_str v = Some v <-> legible v.
Proof.
  unfold hv_to_str, legible. rewrite <- (Forall_forallb (fun b => 32 <= b <= 126 \/ b = 9) hv_visible).
  - destruct (forallb hv_visible v); split; intro; congruence || reflexivity || discriminate.
  - intro b. unfold hv_visible. lia.
Qed.
Lemma hv_to_str_none v : hv_to_str v = None <-> ~ legible v.
Proof.
  rewrite <- legible_spec. unfold hv_to_str. destruct (forallb hv_visible v); split; intro H; try congruence; try discriminate.
Qed.
Lemma hv_to_str_id v s : hv_to_str v = Some s -> s = v.
Proof. unfold hv_to_str. destruct (forallb _ v); congruence. Qed.
Lemma header_strings_spec h n ls : header_strings h n = Ok ls <-> ls = hm_get_all h n /\ Forall legible ls.
Proof.
  unfold header_strings. rewrite collect_ok. split.
  - intro H. induction H as [|v s vs ss Hv H [-> IH]]; [auto|]. destruct (hv_to_str v) eqn:E; cbn in Hv; [|discriminate]. inv Hv.
    apply hv_to_str_id in E as E'. subst. split; [reflexivity|]. constructor; [apply legible_spec, E|assumption].
  - intros [-> H]. induction H as [|v vs Hv H IH]; constructor; [|assumption]. apply legible_spec in Hv. rewrite Hv. reflexivity.
Qed.
Lemma header_strings_cases h n : (header_strings h n = Ok (hm_get_all h n) /\ Forall legible (hm_get_all h n))
  \/ (header_strings h n = Err FailedToStrSignatureHeaders /\ ~ Forall legible (hm_get_all h n)).
Proof.
  unfold header_strings. induction (hm_get_all h n) as [|v vs IH]; cbn [collect]; [left; auto|].
  destruct (hv_to_str v) eqn:E; cbn [ok_or].
  - apply hv_to_str_id in E as E'. subst. apply legible_spec in E. destruct IH as [[-> H]|[-> H]]; [left; auto|right]. split; [reflexivity|].
    intro Hf. inversion Hf; subst. contradiction.
  - right. split; [reflexivity|]. intro Hf. inversion Hf; subst. apply hv_to_str_none in E. contradiction.
Qed.

(** ** received signatures *)
Lemma hm_contains_spec h n : hm_contains h n = true <-> hm_get_all h n <> [].
Proof. unfold hm_contains. destruct (hm_get_all h n); cbn; split; congruence. Qed.
Lemma hold_spec s i l : try_parse s i = Ok l <-> hold s i l.
Proof. apply try_parse_spec. Qed.
Lemma signed_spec m : hm_contains (msg_headers m) h_input && hm_contains (msg_headers m) h_sig = true <-> signed m.
Proof. rewrite andb_true_iff, !hm_contains_spec, hm_input, hm_sig. unfold signed. tauto. Qed.
Lemma signed_false m : hm_contains (msg_headers m) h_input && hm_contains (msg_headers m) h_sig = false <-> ~ signed m.
Proof. rewrite <- signed_spec. destruct (_ && _); split; intro H; congruence || reflexivity || (exfalso; apply H; reflexivity). Qed.
Lemma extract_unsigned m : ~ signed m -> extract_signature_headers_with_name m = Err NoSignatureHeaders.
Proof. intro H. apply signed_false in H. unfold extract_signature_headers_with_name. rewrite H. reflexivity. Qed.
Lemma extract_legible m : signed m -> Forall legible (field_lines (msg_headers m) (lit "signature")) -> Forall legible (field_lines (msg_headers m) (lit "signature-input")) ->
  extract_signature_headers_with_name m = map_err HttpSigError (try_parse (comma_join (field_lines (msg_headers m) (lit "signature"))) (comma_join (field_lines (msg_headers m) (lit "signature-input")))).
Proof.
  intros H Hs Hi. apply signed_spec in H. unfold extract_signature_headers_with_name. rewrite H. cbn [negb].
  rewrite <- hm_input in Hi. rewrite <- hm_sig in Hs.
  rewrite (proj2 (header_strings_spec _ h_input _) (conj eq_refl Hi)). cbn [bind].
  rewrite (proj2 (header_strings_spec _ h_sig _) (conj eq_refl Hs)). cbn [bind].
  rewrite hm_sig, hm_input, !comma_join_spec. reflexivity.
Qed.
Lemma extract_illegible m : signed m -> ~ (Forall legible (field_lines (msg_headers m) (lit "signature")) /\ Forall legible (field_lines (msg_headers m) (lit "signature-input"))) ->
  extract_signature_headers_with_name m = Err FailedToStrSignatureHeaders.
Proof.
  intros H Hl. apply signed_spec in H. unfold extract_signature_headers_with_name. rewrite H. cbn [negb].
  rewrite <- hm_sig, <- hm_input in Hl.
  destruct (header_strings_cases (msg_headers m) h_input) as [[-> Hi]|[-> Hi]]; [|reflexivity]. cbn [bind].
  destruct (header_strings_cases (msg_headers m) h_sig) as [[-> Hs]|[-> Hs]]; [|reflexivity]. tauto.
Qed.
Lemma legible_dec v : legible v \/ ~ legible v.
Proof. destruct (hv_to_str v) eqn:E; [left|right; apply hv_to_str_none, E]. apply hv_to_str_id in E as E'. subst. apply legible_spec, E. Qed.
Lemma legible_all_dec vs : Forall legible vs \/ ~ Forall legible vs.
Proof.
  induction vs as [|v vs IH]; [left; constructor|]. destruct (legible_dec v) as [Hv|Hv]; [|right; intro H; inversion H; contradiction].
  destruct IH as [IH|IH]; [left; constructor; assumption|right; intro H; inversion H; contradiction].
Qed.
Lemma extract_cases m :
  (~ signed m /\ extract_signature_headers_with_name m = Err NoSignatureHeaders)
  \/ (signed m /\ ~ (Forall legible (field_lines (msg_headers m) (lit "signature")) /\ Forall legible (field_lines (msg_headers m) (lit "signature-input"))) /\ extract_signature_headers_with_name m = Err FailedToStrSignatureHeaders)
  \/ (signed m /\ Forall legible (field_lines (msg_headers m) (lit "signature")) /\ Forall legible (field_lines (msg_headers m) (lit "signature-input"))
      /\ extract_signature_headers_with_name m = map_err HttpSigError (try_parse (comma_join (field_lines (msg_headers m) (lit "signature"))) (comma_join (field_lines (msg_headers m) (lit "signature-input"))))).
Proof.
  destruct (hm_contains (msg_headers m) h_input && hm_contains (msg_headers m) h_sig) eqn:E.
  - apply signed_spec in E. right. destruct (legible_all_dec (field_lines (msg_headers m) (lit "signature"))) as [Hs|Hs].
    + destruct (legible_all_dec (field_lines (msg_headers m) (lit "signature-input"))) as [Hi|Hi].
      * right. auto using extract_legible.
      * left. split; [assumption|]. split; [tauto|]. apply extract_illegible; tauto.
    + left. split; [assumption|]. split; [tauto|]. apply extract_illegible; tauto.
  - apply signed_false in E. left. auto using extract_unsigned.
Qed.
Lemma extract_spec m l : extract_signature_headers_with_name m = Ok l <-> received m l.
Proof.
  unfold received. cbv zeta. destruct (extract_cases m) as [[H E]|[(H & _ & E)|(H & Hs & Hi & E)]].
  - rewrite E. split; [discriminate|tauto].
  - rewrite E. split; [discriminate|]. intros (_ & Hs & Hi & _). rewrite extract_legible in E by assumption.
    destruct (try_parse _ _) as [x|x|x]; discriminate E.
  - rewrite E, <- header_texts_spec, <- hold_spec. destruct (try_parse _ _) as [x|x|x]; cbn [map_err]; (split; [intro Hx; inv Hx; tauto|]); intros (_ & _ & _ & Hx); inv Hx; reflexivity.
Qed.
Lemma received_hold m l : received m l <-> signed m /\ Forall legible (field_lines (msg_headers m) (lit "signature")) /\ Forall legible (field_lines (msg_headers m) (lit "signature-input"))
  /\ hold (comma_join (field_lines (msg_headers m) (lit "signature"))) (comma_join (field_lines (msg_headers m) (lit "signature-input"))) l.
Proof. unfold received. cbv zeta. rewrite header_texts_spec. reflexivity. Qed.
Lemma received_fun m l l' : received m l -> received m l' -> l = l'.
Proof. rewrite <- !extract_spec. congruence. Qed.
Lemma paired_names ds di l : Forall2 (paired ds) di l -> map (fun r => sh_name (snd r)) l = map fst l.
Proof. induction 1 as [|kv r di l (H1 & H2 & _) H IH]; [reflexivity|]. cbn [map]. rewrite IH, H1, H2. reflexivity. Qed.
Lemma received_names m l : received m l -> NoDup (map fst l) /\ Forall (fun r => sh_name (snd r) = fst r) l.
Proof.
  intro H. apply received_hold in H as (_ & _ & _ & ds & di & Es & Ei & Hk & Hf). split.
  - rewrite (paired_keys _ _ _ Hf). apply parse_dict_wf in Ei. apply Ei.
  - induction Hf as [|kv r di l (H1 & H2 & _) H IH]; [constructor|]. clear Ei Hk. constructor; [congruence|].
    clear -H. induction H as [|kv r di l (H1 & H2 & _) H IH]; constructor; [congruence|assumption].
Qed.
(** what is received is well-formed *)
Lemma received_wellformed m l n h : received m l -> In (n, h) l -> wellformed (sh_params h) /\ Forall octet (sh_sig h) /\ key_text n.
Proof.
  intros H Hi. apply received_hold in H as (_ & _ & _ & ds & di & Es & Ei & Hk & Hf). apply parse_dict_wf in Es as [Ws _], Ei as [Wi _].
  clear Hk. induction Hf as [|[k e] r di l Hr H IH]; [destruct Hi|]. inversion Wi as [|? ? Wk Wi']; subst. destruct Hi as [->|Hi]; [|auto].
  destruct Hr as (H1 & H2 & H3 & ps & H4). cbn [fst snd] in *. subst. destruct Wk as [Wk We]. cbn [fst snd] in *. split; [|split].
  - eapply parsed_wellformed; eassumption.
  - rewrite Forall_forall in Ws. apply Ws in H4 as [_ [H4 _]]. exact H4.
  - apply key_text_spec. exact Wk.
Qed.

(** ** verification *)
(** the signatures that are checked: with the requested key id, and with a signature base *)
Inductive candidates (m : msg) (rfp : option request) (kid : option str) : list (str * sigheaders) -> list (str * (sigbase * sigheaders)) -> Prop :=
| cand_nil : candidates m rfp kid [] []
| cand_take n h b l cs : build_signature_base m (sh_params h) rfp = Ok b -> (forall k, kid = Some k -> sp_keyid (sh_params h) = Some k) ->
    candidates m rfp kid l cs -> candidates m rfp kid ((n, h) :: l) ((n, (b, h)) :: cs)
| cand_skip n h l cs : (forall b, build_signature_base m (sh_params h) rfp <> Ok b) \/ (exists k, kid = Some k /\ sp_keyid (sh_params h) <> Some k) ->
    candidates m rfp kid l cs -> candidates m rfp kid ((n, h) :: l) cs.
Definition accepted (now : N) (key : verifying_key) (b : sigbase) (h : sigheaders) : Prop :=
  ~ expired now h /\ vk_verify key (base_bytes b) (sh_sig h) = Ok tt.
Definition crashes (now : N) (key : verifying_key) (b : sigbase) (h : sigheaders) : Prop :=
  ~ expired now h /\ exists q, vk_verify key (base_bytes b) (sh_sig h) = Panic q.
