(** The texts of component identifiers and signature parameters *)
From Coq Require Import ZifyBool ZifyNat ZifyN.
From Verif Require Import Base BaseFacts Utf8 Base64 Sfv SfvFacts SfvRound Component Crypto Params SigBase SpecSfv SpecSfvProofs SpecGrammar GrammarProofs SpecCanon CanonProofs SpecId IdProofs
  SpecParams ParamsProofs SpecIdText.

Lemma starts_at s : starts_with cAt s = true <-> exists r, s = lit "@" ++ r.
Proof.
  destruct s as [|c s]; cbn [starts_with]; [split; [discriminate|intros (r & H); discriminate]|]. rewrite N.eqb_eq. split.
  - intros ->. exists s. reflexivity.
  - intros (r & H). apply GrammarProofs.cons_inj in H as [-> _]. reflexivity.
Qed.
Lemma derived_table s d : In (s, d) [(lit "@method", Method); (lit "@target-uri", TargetUri); (lit "@authority", Authority); (lit "@scheme", Scheme);
    (lit "@request-target", RequestTarget); (lit "@path", Path); (lit "@query", Query); (lit "@query-param", QueryParam); (lit "@status", Status);
    (lit "@signature-params", SignatureParams)] <-> s = derived_str d.
Proof.
  split.
  - intro H. repeat (destruct H as [H|H]; [injection H as <- <-; reflexivity|]). destruct H.
  - intros ->. destruct d; repeat ((left; reflexivity) || right).
Qed.
Lemma name_meaning_spec b n : name_of_bare b = Ok n <-> exists s, b = BStr s /\ name_meaning s n.
Proof.
  split.
  - intro H. destruct b as [ | |s| | | | | ]; try discriminate. exists s. split; [reflexivity|]. cbn [name_of_bare] in H. destruct (starts_with cAt s) eqn:E.
    + destruct (derived_of_str s) as [d| |] eqn:Ed; try discriminate. injection H as <-. constructor. apply derived_table. apply derived_of_str_ok. assumption.
    + injection H as <-. constructor. intros r ->. discriminate E.
  - intros (s & -> & H). cbn [name_of_bare]. destruct H as [s H|s d H].
    + destruct (starts_with cAt s) eqn:E; [|reflexivity]. apply starts_at in E as (r & ->). destruct (H r eq_refl).
    + apply derived_table in H. subst s. replace (starts_with cAt (derived_str d)) with true by (destruct d; reflexivity). rewrite derived_of_derived. reflexivity.
Qed.
Lemma param_meaning_spec kv p : cparam_of kv = Ok p <-> param_meaning kv p.
Proof.
  split.
  - destruct kv as [k v]. intro H. apply cparam_of_inv in H as [-> H]. destruct p; cbn [pparam fst]; try subst v; constructor.
  - destruct 1; reflexivity.
Qed.
Lemma item_meaning_spec it i : item_value it -> (cid_of_item it = Ok i <-> item_meaning it i).
Proof.
  intros [Hb [Hp Hn]]. split.
  - intro H. pose proof (cid_of_item_valid it i (conj Hb (conj Hp Hn)) H) as (_ & Ha & _). unfold cid_of_item in H.
    destruct (name_of_bare (it_bare it)) as [nm| |] eqn:En; try discriminate. cbn [bind] in H.
    destruct (cparams_of (it_params it)) as [ps| |] eqn:Ep; try discriminate. cbn [bind] in H.
    destruct (existsb is_name_param ps && negb (is_qp nm)); [discriminate|].
    destruct (existsb is_field_param ps && negb (is_hf nm)); [discriminate|]. injection H as <-. cbn [id_name id_params] in *.
    apply name_meaning_spec in En as (s & Es & Hs). apply cparams_of_inv in Ep as (_ & Ep & _); [|split; assumption].
    exists s. split; [assumption|]. split; [assumption|]. split; [|assumption].
    clear -Ep. induction Ep; constructor; [apply param_meaning_spec; assumption|assumption].
  - intros (s & Es & Hs & Hl & Ha).
    assert (En : name_of_bare (it_bare it) = Ok (id_name i)) by (apply name_meaning_spec; eauto).
    assert (Ec : collect cparam_of (it_params it) = Ok (id_params i)).
    { apply collect_ok. clear -Hl. induction Hl; constructor; [apply param_meaning_spec; assumption|assumption]. }
    assert (Hk : NoDup (map kind (id_params i))).
    { assert (Hk : map fst (it_params it) = map (fun p => fst (pparam p)) (id_params i)).
      { clear -Hl. induction Hl as [|kv p ps l Hx E IH]; [reflexivity|]. cbn [map fst]. rewrite IH. destruct Hx; reflexivity. }
      rewrite Hk in Hn. revert Hn. apply nodup_map_iff. intros p q _ _. apply kind_key. }
    assert (Ep : cparams_of (it_params it) = Ok (id_params i)).
    { unfold cparams_of. rewrite Ec. cbn [bind]. rewrite set_fold_app; [reflexivity|]. apply NoDup_kind. assumption. }
    assert (Hv : valid_id i).
    { split; [|split; assumption]. destruct Hs as [s Hs|s d Hs]; [|exact I]. rewrite Es in Hb. split; [exact Hb|]. exact Hs. }
    pose proof (cid_of_id_item i Hv) as Hi. unfold cid_of_item in *. rewrite En, Ep. cbn [bind].
    cbn [id_item it_bare it_params] in Hi. rewrite name_of_name_text in Hi by apply Hv. cbn [bind] in Hi.
    rewrite cparams_of_pparams in Hi by (apply valid_nodup; assumption). exact Hi.
Qed.
Lemma item_field_value it t : item_field it t -> item_value it.
Proof. intro H. apply item_value_spec. apply parse_item_spec in H. exact (parse_item_wf _ _ H). Qed.
Lemma item_field_quote it t s : item_field it t -> it_bare it = BStr s -> In 34 t.
Proof.
  intros (w1 & u & w2 & -> & _ & _ & t1 & t2 & -> & Hb & _) E. rewrite E in Hb. inversion Hb; subst.
  apply in_app_iff. right. apply in_app_iff. left. apply in_app_iff. left. left. reflexivity.
Qed.
Lemma id_spelling_spec s i : cid_of_str s = Ok i <-> id_spelling i s.
Proof.
  rewrite cid_of_str_unfold. split.
  - destruct (trim_spec s (trim s)) as [H _]. destruct (H eq_refl) as (w1 & w2 & E & H1 & H2 & H3). clear H. set (t := trim s) in *. intro H.
    destruct (contains cQuote t) eqn:Ec.
    + rewrite andb_false_r in H. destruct (parse_item t) as [it|] eqn:Ep; [|discriminate]. cbn [ok_or bind] in H. apply parse_item_spec in Ep.
      apply item_meaning_spec in H; [|exact (item_field_value _ _ Ep)]. exists w1, t, w2, it. tauto.
    + rewrite (contains_head _ _ Ec), (contains_last _ _ Ec) in H. cbn [negb andb] in H. apply contains_false in Ec. destruct t as [|c t'] eqn:Et.
      * discriminate H.
      * cbn [is_empty negb andb] in H. destruct (parse_item (cQuote :: (c :: t') ++ [cQuote])) as [it|] eqn:Ep; [|discriminate]. cbn [ok_or bind] in H.
        apply parse_item_spec in Ep. apply item_meaning_spec in H; [|exact (item_field_value _ _ Ep)]. exists w1, (c :: t'), w2, it.
        split; [assumption|]. split; [assumption|]. split; [assumption|]. split; [assumption|]. split; [assumption|]. right.
        split; [discriminate|]. split; [assumption|]. exact Ep.
  - intros (w1 & t & w2 & it & E & H1 & H2 & H3 & Hm & Ht). replace (trim s) with t by (symmetry; apply trim_spec; exists w1, w2; auto).
    destruct Ht as [Ht|(Hn & Hq & Ht)].
    + destruct Hm as (x & Ex & Hm). pose proof (item_field_quote _ _ _ Ht Ex) as Hq. apply contains_In in Hq. change 34 with cQuote in Hq. rewrite Hq, andb_false_r.
      pose proof (item_field_value _ _ Ht) as Hv. apply parse_item_spec in Ht. rewrite Ht. cbn [ok_or bind]. apply item_meaning_spec; [assumption|]. exists x. auto.
    + apply contains_false in Hq. change 34 with cQuote in Hq. rewrite (contains_head _ _ Hq), (contains_last _ _ Hq), Hq. destruct t as [|c t]; [congruence|]. cbn [negb andb is_empty].
      pose proof (item_field_value _ _ Ht) as Hv. apply parse_item_spec in Ht. change (lit """" ++ (c :: t) ++ lit """") with (cQuote :: (c :: t) ++ [cQuote]) in Ht. rewrite Ht. cbn [ok_or bind]. apply item_meaning_spec; assumption.
Qed.

Lemma item_denotes_spec it i : wf_item it -> (item_denotes it i <-> cid_of_str (ser_item it) = Ok i).
Proof.
  intro Hw. apply item_value_spec in Hw. unfold item_denotes. rewrite id_spelling_spec. split.
  - intros (t & Hc & Ht). apply canon_item_spec in Hc; [subst t; exact Ht|assumption].
  - intro H. exists (ser_item it). split; [apply canon_item_spec; auto|exact H].
Qed.
Lemma items_denote items ids : Forall wf_item items -> (Forall2 item_denotes items ids <-> Forall2 (fun it i => cid_of_str (ser_item it) = Ok i) items ids).
Proof. intro Hw. split; intro H; induction H; inversion Hw; subst; constructor; auto; apply item_denotes_spec; assumption. Qed.
Lemma params_meaning_spec l p : wf_inner l -> (sparams_of_entry (EInner l) = Ok p <-> params_meaning l p).
Proof.
  destruct l as [items ps]. intros [Hw [Hp Hn]]. cbn [in_items in_params] in *. rewrite entry_reads by assumption. unfold params_meaning. cbn [in_items in_params].
  pose proof (fun ids => items_denote items ids Hw) as Hf.
  split.
  - destruct (collect (fun i => cid_of_str (ser_item i)) items) as [ids|e|q] eqn:E; try discriminate. cbn [bind]. pose proof (ids_valid _ _ E) as Hv. apply collect_ok in E.
    destruct (has_unique_elements ids) eqn:Eu; [|discriminate]. cbn [negb]. destruct (neg_times ps) eqn:Et; [discriminate|]. intro H. injection H as <-.
    cbn [read_params sp_created sp_expires sp_nonce sp_alg sp_keyid sp_tag sp_covered]. apply Hf in E. apply has_unique_spec in Eu; [|assumption].
    rewrite <- neg_times_spec. repeat split; try assumption. congruence.
  - intros (H1 & H2 & H3 & E1 & E2 & E3 & E4 & E5 & E6). apply Hf in H1. apply collect_ok in H1. rewrite H1. cbn [bind]. pose proof (ids_valid _ _ H1) as Hv.
    apply has_unique_spec in H2; [|assumption]. rewrite H2. cbn [negb]. rewrite <- neg_times_spec in H3. destruct (neg_times ps); [congruence|].
    f_equal. destruct p as [a b c d e f g]. cbn [sp_created sp_expires sp_nonce sp_alg sp_keyid sp_tag sp_covered] in *. subst. reflexivity.
Qed.
Lemma list_field_inner l t : list_field [EInner l] t -> wf_inner l.
Proof. intro H. apply parse_list_spec, parse_list_wf in H. apply Forall_inv in H. apply H. Qed.
Lemma sparams_text_spec t p : sparams_of_str t = Ok p <-> exists l, list_field [EInner l] t /\ params_meaning l p.
Proof.
  unfold sparams_of_str. split.
  - destruct (parse_list t) as [l|] eqn:E; [|discriminate]. cbn [ok_or bind]. apply parse_list_spec in E. intro H.
    destruct l as [|[i|l] [|e2 l2]]; try discriminate. exists l. split; [assumption|]. apply params_meaning_spec; [eapply list_field_inner; eassumption|assumption].
  - intros (l & Hl & Hm). pose proof (list_field_inner _ _ Hl) as Hn. apply parse_list_spec in Hl. rewrite Hl. cbn [ok_or bind]. apply params_meaning_spec; assumption.
Qed.

(** ** panics *)
Lemma id_panics_spec s : (exists q, cid_of_str s = Panic q) <-> id_panics s.
Proof.
  rewrite cid_of_str_unfold.
  assert (Hi : forall it, (exists q, cid_of_item it = Panic q) <-> exists n, it_bare it = BStr n /\ (exists r, n = lit "@" ++ r) /\ ~ In n derived_names).
  { intro it. split.
    - intros [q H]. apply cid_of_item_panic in H as (r & E & H). exists (64 :: r). split; [assumption|]. split; [exists r; reflexivity|]. apply derived_of_str_panic. eauto.
    - intros (n & E & (r & ->) & Hn). apply derived_of_str_panic in Hn as [q Hn]. exists q. apply cid_of_item_panic. exists r. split; assumption. }
  split.
  - intros [q H]. pose proof (proj1 (trim_spec s (trim s)) eq_refl) as Hs. set (t := trim s) in *.
    destruct (contains cQuote t) eqn:Ec.
    + rewrite andb_false_r in H. destruct (parse_item t) as [it|] eqn:Ep; [|discriminate]. cbn [ok_or bind] in H. apply parse_item_spec in Ep.
      destruct (proj1 (Hi it) (ex_intro _ q H)) as (n & E & Hr & Hn). exists t, it, n. tauto.
    + rewrite (contains_head _ _ Ec), (contains_last _ _ Ec) in H. cbn [negb andb] in H. apply contains_false in Ec. destruct t as [|c t'] eqn:Et.
      * discriminate H.
      * cbn [is_empty negb andb] in H. destruct (parse_item (cQuote :: (c :: t') ++ [cQuote])) as [it|] eqn:Ep; [|discriminate]. cbn [ok_or bind] in H.
        apply parse_item_spec in Ep. destruct (proj1 (Hi it) (ex_intro _ q H)) as (n & E & Hr & Hn). exists (c :: t'), it, n.
        split; [assumption|]. split; [assumption|]. split; [assumption|]. split; [assumption|]. right.
        split; [discriminate|]. split; [assumption|]. exact Ep.
  - intros (t & it & n & Hs & Hb & Hr & Hn & Ht). apply trim_spec in Hs. rewrite Hs. clear Hs.
    assert (Hp : exists q, cid_of_item it = Panic q) by (apply Hi; exists n; auto). destruct Ht as [Ht|(Hne & Hq & Ht)].
    + pose proof (item_field_quote _ _ _ Ht Hb) as Hq. apply contains_In in Hq. change 34 with cQuote in Hq. rewrite Hq, andb_false_r.
      apply parse_item_spec in Ht. rewrite Ht. exact Hp.
    + apply contains_false in Hq. change 34 with cQuote in Hq. rewrite (contains_head _ _ Hq), (contains_last _ _ Hq), Hq. destruct t as [|c t]; [congruence|]. cbn [negb andb is_empty].
      apply parse_item_spec in Ht. change (lit """" ++ (c :: t) ++ lit """") with (cQuote :: (c :: t) ++ [cQuote]) in Ht. rewrite Ht. exact Hp.
Qed.
Lemma item_panics_spec it : wf_item it -> (item_panics it <-> bad_item it).
Proof.
  intro Hw. pose proof Hw as Hv. apply item_value_spec in Hv. unfold item_panics. split.
  - intros (t & Hc & Ht). apply canon_item_spec in Hc; [|assumption]. subst t. apply id_panics_spec in Ht as [q Ht]. apply cid_of_ser_item_panic in Ht; tauto.
  - intro H. exists (ser_item it). split; [apply canon_item_spec; auto|]. apply id_panics_spec. exists PDerivedName. apply cid_of_ser_item_panic; auto.
Qed.
Lemma entry_panics l : wf_inner l -> ((exists q, sparams_of_entry (EInner l) = Panic q) <-> params_panic l).
Proof.
  destruct l as [items ps]. intro Hw. rewrite entry_panic by assumption. destruct Hw as [Hw _]. unfold params_panic. cbn [in_items in_params] in *. split.
  - intros [(a & it & b & ids & -> & Ha & Hb)|(ids & Ha & Hb)]; apply collect_ok in Ha.
    + left. exists a, it, b, ids. apply Forall_app in Hw as [Hwa Hw]. apply Forall_inv in Hw. split; [reflexivity|]. split; [apply items_denote; assumption|]. apply item_panics_spec; assumption.
    + right. exists ids. split; [apply items_denote; assumption|exact Hb].
  - intros [(a & it & b & ids & -> & Ha & Hb)|(ids & Ha & Hb)].
    + left. exists a, it, b, ids. apply Forall_app in Hw as [Hwa Hw]. apply Forall_inv in Hw. split; [reflexivity|].
      split; [apply collect_ok, items_denote; assumption|]. apply item_panics_spec; assumption.
    + right. exists ids. split; [apply collect_ok, items_denote; assumption|exact Hb].
Qed.
