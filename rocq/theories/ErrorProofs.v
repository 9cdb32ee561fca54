(** Which error is reported *)
From Verif Require Import Base BaseFacts Utf8 Sfv SfvFacts SfvRound Component Crypto Params SigBase Http Hyper Digest SpecSfv SpecSfvProofs SpecGrammar GrammarProofs SpecCanon CanonProofs SpecId IdProofs
  SpecParams ParamsProofs SpecIdText IdTextProofs SpecValue ValueProofs SpecBase BaseProofs SpecMsg HeaderProofs MsgProofs VerifyProofs SpecExtract ExtractProofs SpecSign SignProofs SpecLabels LabelProofs SpecDigest DigestProofs SpecCrypto CryptoProofs SpecErrors.

Lemma collect_err {E A B} (f : A -> result E B) l e : collect f l = Err e <-> exists a x b ys, l = a ++ x :: b /\ Forall2 (fun x y => f x = Ok y) a ys /\ f x = Err e.
Proof.
  split.
  - induction l as [|x l IH]; cbn [collect]; [discriminate|]. intro H. destruct (f x) as [y|e'|q] eqn:Ef; [|injection H as ->|discriminate].
    + destruct (collect f l) as [ys|e'|q]; try discriminate. injection H as ->. destruct (IH eq_refl) as (a & x' & b & ys & -> & Ha & Hx).
      exists (x :: a), x', b, (y :: ys). split; [reflexivity|]. split; [constructor; assumption|assumption].
    + exists [], x, l, []. split; [reflexivity|]. split; [constructor|assumption].
  - intros (a & x & b & ys & -> & Ha & Hx). induction Ha as [|z y a ys Hz Ha IH]; cbn [app collect]; [rewrite Hx; reflexivity|]. rewrite Hz, IH. reflexivity.
Qed.

(** ** identifiers *)
Lemma cparam_err kv : (exists p, cparam_of kv = Ok p) \/ cparam_of kv = Err InvalidComponentParam.
Proof.
  destruct kv as [k v]. unfold cparam_of. repeat (destruct (str_eqb k _); [first [left; eexists; reflexivity | destruct (as_string v); [left; eexists; reflexivity|right; reflexivity]]|]). right. reflexivity.
Qed.
Lemma name_err b : (forall q, name_of_bare b <> Panic q) -> (exists n, name_of_bare b = Ok n) \/ (forall s, b <> BStr s) /\ name_of_bare b = Err InvalidComponentName.
Proof.
  intro H. destruct b as [ | |s| | | | | ]; try (right; split; [discriminate|reflexivity]). left. cbn [name_of_bare] in *. destruct (starts_with cAt s); [|eauto].
  destruct (derived_of_str s) as [d|e|q] eqn:E; [eexists; reflexivity| |destruct (H q eq_refl)]. exfalso. clear H. unfold derived_of_str in E.
  repeat (destruct (str_eqb s _); [discriminate E|]). discriminate E.
Qed.
Lemma cid_item_err it e : item_value it -> (cid_of_item it = Err e <->
  (forall n, it_bare it <> BStr n) /\ e = InvalidComponentName
  \/ exists n nm, it_bare it = BStr n /\ name_meaning n nm
     /\ ((exists kv, In kv (it_params it) /\ (forall p, ~ param_meaning kv p) /\ e = InvalidComponentParam)
         \/ exists ps p, Forall2 param_meaning (it_params it) ps /\ In p ps /\ ~ allowed nm p /\ e = InvalidComponentId)).
Proof.
  intros Hv. pose proof Hv as [Hb [Hp Hn]]. split.
  - intro H. unfold cid_of_item in H. destruct (name_of_bare (it_bare it)) as [nm|e'|q] eqn:En; cbn [bind] in H; [|injection H as <-|discriminate].
    + right. apply name_meaning_spec in En as (n & Es & Hs). exists n, nm. split; [assumption|]. split; [assumption|].
      destruct (cparams_of (it_params it)) as [ps|e'|q] eqn:Ep; cbn [bind] in H; [|injection H as <-|discriminate].
      * right. apply cparams_of_inv in Ep as (_ & Ep & _); [|split; assumption]. exists ps.
        assert (Hm : Forall2 param_meaning (it_params it) ps) by (clear -Ep; induction Ep; constructor; [apply param_meaning_spec; assumption|assumption]).
        destruct (existsb is_name_param ps && negb (is_qp nm)) eqn:E1.
        -- injection H as <-. apply andb_prop in E1 as [E1 E2]. apply existsb_exists in E1 as (p & Hi & E1). exists p. split; [assumption|]. split; [assumption|]. split; [|reflexivity].
           destruct p; try discriminate E1. intros [-> _]. discriminate E2.
        -- destruct (existsb is_field_param ps && negb (is_hf nm)) eqn:E2; [|discriminate]. injection H as <-. apply andb_prop in E2 as [E2 E3]. apply existsb_exists in E2 as (p & Hi & E2).
           exists p. split; [assumption|]. split; [assumption|]. split; [|reflexivity]. assert (Hf : forall s, nm <> HttpField s) by (intros s ->; discriminate E3).
           destruct p; try discriminate E2; cbn [allowed]; intro Ha; [|destruct Ha as [Ha _]|..]; destruct Ha as [z Ha]; exact (Hf z Ha).
      * left. unfold cparams_of in Ep. destruct (collect cparam_of (it_params it)) as [l|e''|q] eqn:Ec; [discriminate|injection Ep as ->|discriminate].
        apply collect_err in Ec as (a & kv & b & ys & E & _ & Hx). exists kv. split; [rewrite E; apply in_or_app; right; left; reflexivity|].
        destruct (cparam_err kv) as [[p Hk]|Hk]; [congruence|]. split; [|congruence]. intros p Hm. apply param_meaning_spec in Hm. congruence.
    + left. destruct (name_err (it_bare it)) as [[n E]|[Hs E]]; [intros q E; congruence|congruence|]. split; [assumption|congruence].
  - intros [[Hs ->]|(n & nm & Es & Hs & [(kv & Hi & Hk & ->)|(ps & p & Hl & Hi & Ha & ->)])]; unfold cid_of_item.
    + destruct (it_bare it) as [ | |s| | | | | ]; try reflexivity. destruct (Hs s eq_refl).
    + rewrite (proj2 (name_meaning_spec _ nm)) by eauto. cbn [bind]. unfold cparams_of.
      assert (Ec : collect cparam_of (it_params it) = Err InvalidComponentParam); [|rewrite Ec; reflexivity].
      clear -Hi Hk. induction (it_params it) as [|x l IH]; [destruct Hi|]. cbn [collect]. destruct (cparam_err x) as [[p E]|E]; rewrite E; [|reflexivity].
      destruct Hi as [->|Hi]; [apply param_meaning_spec in E; destruct (Hk p E)|]. rewrite IH by assumption. reflexivity.
    + assert (Hkd : NoDup (map kind ps)).
      { assert (Hk : map fst (it_params it) = map (fun p => fst (pparam p)) ps).
        { clear -Hl. induction Hl as [|kv q l ps Hx E IH]; [reflexivity|]. cbn [map fst]. rewrite IH. destruct Hx; reflexivity. }
        rewrite Hk in Hn. revert Hn. apply nodup_map_iff. intros a b _ _. apply kind_key. }
      assert (Ec : collect cparam_of (it_params it) = Ok ps).
      { apply collect_ok. clear -Hl. induction Hl; constructor; [apply param_meaning_spec; assumption|assumption]. }
      assert (Ep : cparams_of (it_params it) = Ok ps).
      { unfold cparams_of. rewrite Ec. cbn [bind]. rewrite set_fold_app; [reflexivity|]. apply NoDup_kind. assumption. }
      pose proof (cparams_of_inv _ _ (conj Hp Hn) Ep) as (_ & _ & Hkey & Hname).
      rewrite (proj2 (name_meaning_spec _ nm)) by eauto. cbn [bind]. rewrite Ep. cbn [bind].
      destruct (existsb is_name_param ps && negb (is_qp nm)) eqn:E1; [reflexivity|]. destruct (existsb is_field_param ps && negb (is_hf nm)) eqn:E2; [reflexivity|].
      exfalso. apply Ha.
      assert (F1 : is_name_param p = true -> nm = Derived QueryParam).
      { intro Hx. rewrite (proj2 (existsb_exists is_name_param ps)) in E1 by eauto. destruct nm as [|[]]; cbn in E1; try discriminate; reflexivity. }
      assert (F2 : is_field_param p = true -> exists s, nm = HttpField s).
      { intro Hx. rewrite (proj2 (existsb_exists is_field_param ps)) in E2 by eauto. destruct nm as [s|]; cbn in E2; [eauto|discriminate]. }
      destruct p; cbn [allowed is_name_param is_field_param] in *; auto.
Qed.
Definition id_step (s : str) : option item :=
  if negb (is_empty (trim s)) && negb (contains cQuote (trim s)) then parse_item (cQuote :: trim s ++ [cQuote]) else parse_item (trim s).
Lemma cid_of_str_step s : cid_of_str s = bind (ok_or (id_step s) ParseSFVError) cid_of_item.
Proof.
  rewrite cid_of_str_unfold. unfold id_step. destruct (contains cQuote (trim s)) eqn:Ec.
  - rewrite !andb_false_r. reflexivity.
  - rewrite (contains_head _ _ Ec), (contains_last _ _ Ec). cbn [negb andb]. destruct (is_empty (trim s)); reflexivity.
Qed.
Lemma id_step_spec s it : id_step s = Some it <-> id_item_text s it.
Proof.
  unfold id_step, id_item_text. pose proof (proj1 (trim_spec s (trim s)) eq_refl) as Hs.
  assert (Hu : forall t, stripped s t -> t = trim s) by (intros t Ht; symmetry; apply trim_spec; exact Ht). split.
  - intro H. exists (trim s). split; [assumption|]. destruct (is_empty (trim s)) eqn:Ee.
    + cbn [negb andb] in H. left. apply parse_item_spec in H. split; [left; destruct (trim s); [reflexivity|discriminate]|assumption].
    + assert (Hn : trim s <> []) by (intro E; rewrite E in Ee; discriminate). destruct (contains cQuote (trim s)) eqn:Ec; cbn [negb andb] in H; apply parse_item_spec in H.
      * left. split; [right; apply contains_In; exact Ec|assumption].
      * right. apply contains_false in Ec. split; [assumption|]. split; [exact Ec|exact H].
  - intros (t & Ht & H). rewrite <- (Hu t Ht). destruct H as [[Hq H]|(Hn & Hq & H)]; apply parse_item_spec in H.
    + replace (negb (is_empty t) && negb (contains cQuote t)) with false; [assumption|]. destruct Hq as [->|Hq]; [reflexivity|]. apply contains_In in Hq. change 34 with cQuote in Hq. rewrite Hq, andb_false_r. reflexivity.
    + apply contains_false in Hq. change 34 with cQuote in Hq. rewrite Hq. destruct t as [|c t]; [congruence|]. exact H.
Qed.
Lemma id_item_text_value s it : id_item_text s it -> item_value it.
Proof. intros (t & _ & [[_ H]|(_ & _ & H)]); eapply item_field_value; exact H. Qed.
Lemma id_error_spec s e : cid_of_str s = Err e <-> id_error s e.
Proof.
  rewrite cid_of_str_step. split.
  - destruct (id_step s) as [it|] eqn:E; cbn [ok_or bind].
    + apply id_step_spec in E. intro H. apply (cid_item_err _ _ (id_item_text_value _ _ E)) in H as [[Hs ->]|(n & nm & Es & Hs & [(kv & Hi & Hk & ->)|(ps & p & Hl & Hi & Ha & ->)])].
      * eapply ie_name; eassumption.
      * eapply ie_param; eassumption.
      * eapply ie_combination; eassumption.
    + intro H. injection H as <-. constructor. intros it H. apply id_step_spec in H. congruence.
  - intros [Hn|it Hi Hs|it n nm kv Hi Es Hs Hk Hp|it n nm ps p Hi Es Hs Hl Hp Ha].
    + destruct (id_step s) as [it|] eqn:E; [apply id_step_spec in E; destruct (Hn it E)|reflexivity].
    + pose proof (id_item_text_value _ _ Hi) as Hv. apply id_step_spec in Hi. rewrite Hi. cbn [ok_or bind]. apply cid_item_err; auto.
    + pose proof (id_item_text_value _ _ Hi) as Hv. apply id_step_spec in Hi. rewrite Hi. cbn [ok_or bind]. apply cid_item_err; [assumption|]. right. exists n, nm. split; [assumption|]. split; [assumption|]. left. eauto.
    + pose proof (id_item_text_value _ _ Hi) as Hv. apply id_step_spec in Hi. rewrite Hi. cbn [ok_or bind]. apply cid_item_err; [assumption|]. right. exists n, nm. split; [assumption|]. split; [assumption|]. right. exists ps, p. auto.
Qed.

(** ** parameters *)
Lemma item_error_spec it e : wf_item it -> (item_error it e <-> cid_of_str (ser_item it) = Err e).
Proof.
  intro Hw. apply item_value_spec in Hw. unfold item_error. rewrite id_error_spec. split.
  - intros (t & Hc & Ht). apply canon_item_spec in Hc; [subst t; exact Ht|assumption].
  - intro H. exists (ser_item it). split; [apply canon_item_spec; auto|exact H].
Qed.
Lemma params_error_spec l e : wf_inner l -> (sparams_of_entry (EInner l) = Err e <-> params_error l e).
Proof.
  destruct l as [items ps]. intros [Hw [Hp Hn]]. cbn [in_items in_params] in *. rewrite entry_reads by assumption. split.
  - destruct (collect (fun i => cid_of_str (ser_item i)) items) as [ids|e'|q] eqn:E; cbn [bind]; [|intro H; injection H as ->|discriminate].
    + pose proof (ids_valid _ _ E) as Hv. apply collect_ok in E. destruct (has_unique_elements ids) eqn:Eu; cbn [negb]; [destruct (neg_times ps); discriminate|].
      intro H. injection H as <-. apply (pe_twice _ ids); [apply items_denote; assumption|]. rewrite <- has_unique_spec by assumption. congruence.
    + apply collect_err in E as (a & it & b & ids & -> & Ha & Hx). apply Forall_app in Hw as [Hwa Hwb]. apply Forall_inv in Hwb.
      apply (pe_item (mkInner (a ++ it :: b) ps) a it b ids); [reflexivity|apply items_denote; assumption|apply item_error_spec; assumption].
  - intros [a it b ids e' E Ha He|ids Hd Hu]; cbn [in_items] in *.
    + subst items. apply Forall_app in Hw as [Hwa Hwb]. apply Forall_inv in Hwb. apply items_denote in Ha; [|assumption]. apply item_error_spec in He; [|assumption].
      rewrite (proj2 (collect_err _ _ e')); [reflexivity|]. exists a, it, b, ids. auto.
    + apply items_denote in Hd; [|assumption]. apply collect_ok in Hd. rewrite Hd. cbn [bind]. pose proof (ids_valid _ _ Hd) as Hv.
      destruct (has_unique_elements ids) eqn:Eu; [|reflexivity]. apply has_unique_spec in Eu; [contradiction|assumption].
Qed.
Lemma params_text_error_spec t e : sparams_of_str t = Err e <-> params_text_error t e.
Proof.
  unfold sparams_of_str. split.
  - destruct (parse_list t) as [l|] eqn:E; cbn [ok_or bind].
    + pose proof (parse_list_wf _ _ E) as Hw. apply parse_list_spec in E. intro H. destruct l as [|[i|x] [|y l]]; try (injection H as <-; eapply pt_shape; [eassumption|discriminate]).
      apply Forall_inv in Hw. apply params_error_spec in H; [|exact Hw]. eapply pt_params; eassumption.
    + intro H. injection H as <-. constructor. intros l H. apply parse_list_spec in H. congruence.
  - intros [Hn|l Hl Hs|l e' Hl He].
    + destruct (parse_list t) as [l|] eqn:E; [|reflexivity]. apply parse_list_spec in E. destruct (Hn l E).
    + apply parse_list_spec in Hl. rewrite Hl. cbn [ok_or bind]. destruct l as [|[i|x] [|y l]]; try reflexivity. destruct (Hs x eq_refl).
    + pose proof (list_field_inner _ _ Hl) as Hw. apply parse_list_spec in Hl. rewrite Hl. cbn [ok_or bind]. apply params_error_spec; assumption.
Qed.

(** ** headers *)
Lemma not_bytes_entry e : is_byteseq e = false <-> forall x ps, e <> EItem (mkItem (BBytes x) ps).
Proof.
  split.
  - intros H x ps ->. discriminate H.
  - intro H. destruct e as [[[ | | | |x| | | ] ps]|l]; try reflexivity. destruct (H x ps eq_refl).
Qed.
Lemma forallb_false {A} (f : A -> bool) l : forallb f l = false -> exists x, In x l /\ f x = false.
Proof.
  induction l as [|x l IH]; [discriminate|]. cbn [forallb]. destruct (f x) eqn:E; cbn [andb].
  - intro H. destruct (IH H) as (y & Hi & Hy). exists y. split; [right|]; assumption.
  - intros _. exists x. split; [left; reflexivity|assumption].
Qed.
Lemma headers_error_spec s i e : try_parse s i = Err e <-> headers_error s i e.
Proof.
  split.
  - rewrite try_parse_unfold. destruct (parse_dict i) as [di|] eqn:Ei; cbn [ok_or bind];
      [|intro H; injection H as <-; constructor; right; intros d H; apply parse_dict_spec in H; congruence].
    destruct (parse_dict s) as [ds|] eqn:Es; cbn [ok_or bind]; [|intro H; injection H as <-; constructor; left; intros d H; apply parse_dict_spec in H; congruence].
    pose proof (parse_dict_wf _ _ Ei) as [Wi Ni]. pose proof (parse_dict_wf _ _ Es) as [Ws Ns]. apply parse_dict_spec in Ei, Es.
    destruct (Nat.eqb (length ds) (length di) && forallb (fun kv => im_contains di (fst kv)) ds) eqn:Ek.
    + apply andb_prop in Ek as [El Ec]. rewrite El, Ec. cbn [negb]. apply Nat.eqb_eq in El. pose proof (proj1 (forallb_contains ds di) Ec) as Ec'.
      pose proof (proj1 (same_keys_length ds di Ns Ni) (conj El Ec')) as Hk.
      destruct (forallb (fun kv => is_byteseq (snd kv)) ds) eqn:Eb; cbn [negb].
      2:{ intro H. injection H as <-. apply forallb_false in Eb as ([k en] & Hi & Hb). cbn [snd] in Hb. eapply he_signature; [exact Es|exact Ei|exact Hi|]. apply not_bytes_entry. exact Hb. }
      destruct (forallb (fun kv => is_inner (snd kv)) di) eqn:En; cbn [negb].
      2:{ intro H. injection H as <-. apply forallb_false in En as ([k en] & Hi & Hb). destruct en as [it|]; [|discriminate Hb]. eapply he_input; [exact Es|exact Ei|exact Hi]. }
      rewrite forallb_forall in Eb, En.
      assert (Hb : forall k e, In (k, e) ds -> exists x ps, e = EItem (mkItem (BBytes x) ps)).
      { intros k en Hi. specialize (Eb _ Hi). cbn [snd] in Eb. destruct en as [[[ | | | |x| | | ] ps]|]; try discriminate Eb. eauto. }
      assert (Hn : forall k e, In (k, e) di -> exists x, e = EInner x).
      { intros k en Hi. specialize (En _ Hi). destruct en as [|x]; [discriminate En|]. eauto. }
      destruct (collect (pair_of ds) di) as [l|e'|q] eqn:E; cbn [bind]; [discriminate|intro H; injection H as ->|discriminate].
      apply collect_err in E as (a & [k en] & b & ys & E & Ha & Hx). destruct (Hn k en ltac:(rewrite E; apply in_or_app; right; left; reflexivity)) as [l ->].
      assert (Hw : forall k x, In (k, EInner x) di -> wf_inner x) by (intros k' x Hx'; rewrite Forall_forall in Wi; exact (proj2 (Wi _ Hx'))).
      eapply (he_params s i ds di a k l b); try eassumption.
      * intros k' x Hi. clear -Hi Ha Hw E. assert (Hwa : wf_inner x) by (apply (Hw k'); rewrite E; apply in_or_app; left; assumption).
        clear Hw E. induction Ha as [|[k1 e1] y a ys Hy Ha IH]; [destruct Hi|]. destruct Hi as [Hi|Hi]; [|auto]. injection Hi as -> ->. cbn [pair_of] in Hy.
        destruct (sparams_of_entry (EInner x)) as [p|?|?] eqn:Ep; try discriminate Hy. exists p. apply params_meaning_spec; assumption.
      * apply params_error_spec; [eapply Hw; rewrite E; apply in_or_app; right; left; reflexivity|]. cbn [pair_of] in Hx.
        destruct (sparams_of_entry (EInner l)) as [p|e'|q]; cbn [bind] in Hx; [|congruence|discriminate].
        exfalso. destruct (im_get ds k) as [[[[] ?]|]|]; discriminate Hx.
    + intro H. assert (He : e = BuildSignatureHeaderError).
      { destruct (Nat.eqb (length ds) (length di)); cbn [andb negb] in *; [rewrite Ek in H; cbn [negb] in H|]; congruence. }
      subst e. assert (Hk : ~ (forall k, In k (map fst ds) <-> In k (map fst di))).
      { intro Hk. apply (same_keys_length ds di Ns Ni) in Hk as [El Hk]. apply (forallb_contains ds di) in Hk. rewrite El, Nat.eqb_refl, Hk in Ek. discriminate Ek. }
      assert (Hex : exists k, ~ (In k (map fst ds) <-> In k (map fst di))).
      { assert (Hd : forall a b : list str, (exists k, In k a /\ ~ In k b) \/ (forall k, In k a -> In k b)).
        { intros a b. induction a as [|x a IH]; [right; intros k []|]. destruct (in_dec (list_eq_dec N.eq_dec) x b) as [Hx|Hx]; [|left; exists x; split; [left; reflexivity|assumption]].
          destruct IH as [(k & Hi & Hn)|IH]; [left; exists k; split; [right|]; assumption|]. right. intros k [<-|Hi]; auto. }
        destruct (Hd (map fst ds) (map fst di)) as [(k & Hi & Hn)|H1]; [exists k; tauto|].
        destruct (Hd (map fst di) (map fst ds)) as [(k & Hi & Hn)|H2]; [exists k; tauto|]. exfalso. apply Hk. intro k. split; auto. }
      destruct Hex as [k Hex]. eapply he_names; eassumption.
  - intros [H|ds di k Es Ei Hk|ds di k en Es Ei Hi Hb|ds di k it Es Ei Hi|ds di a k l b e' Es Ei Hk Hb Hn E Ha He].
    + rewrite try_parse_unfold. destruct (parse_dict i) as [di|] eqn:Ei; [|reflexivity]. destruct (parse_dict s) as [ds|] eqn:Es; [|reflexivity].
      apply parse_dict_spec in Ei, Es. destruct H as [H|H]; [destruct (H _ Es)|destruct (H _ Ei)].
    + apply parse_dict_spec in Es, Ei. eapply try_parse_names_differ; eassumption.
    + apply parse_dict_spec in Es, Ei. eapply try_parse_bad_kind; try eassumption. left. exists (k, en). split; [assumption|]. apply not_bytes_entry. exact Hb.
    + apply parse_dict_spec in Es, Ei. eapply try_parse_bad_kind; try eassumption. right. exists (k, EItem it). split; [assumption|reflexivity].
    + apply parse_dict_spec in Es, Ei. pose proof (parse_dict_wf _ _ Ei) as [Wi Ni]. pose proof (parse_dict_wf _ _ Es) as [Ws Ns]. rewrite try_parse_unfold, Es, Ei. cbn [ok_or bind].
      assert (Hw : forall k x, In (k, EInner x) di -> wf_inner x) by (intros k' x Hx'; rewrite Forall_forall in Wi; exact (proj2 (Wi _ Hx'))).
      pose proof (proj2 (same_keys_length ds di Ns Ni) Hk) as [El Hk']. apply (forallb_contains ds di) in Hk'. rewrite El, Nat.eqb_refl, Hk'. cbn [negb].
      replace (forallb (fun kv => is_byteseq (snd kv)) ds) with true
        by (symmetry; apply forallb_forall; intros [k1 e1] H1; destruct (Hb _ _ H1) as (x & ps & ->); reflexivity).
      replace (forallb (fun kv => is_inner (snd kv)) di) with true
        by (symmetry; apply forallb_forall; intros [k1 e1] H1; destruct (Hn _ _ H1) as (x & ->); reflexivity).
      cbn [negb].
      assert (Hys : exists ys, Forall2 (fun x y => pair_of ds x = Ok y) a ys).
      { assert (Hai : forall k e, In (k, e) a -> In (k, e) di) by (intros k1 e1 H1; rewrite E; apply in_or_app; left; assumption).
        clear E El He. induction a as [|[k1 e1] a IH]; [exists []; constructor|]. destruct IH as [ys IH]; [intros k' x Hx; apply (Ha k'); right; assumption|intros k2 e2 H2; apply Hai; right; assumption|].
        pose proof (Hai k1 e1 (or_introl eq_refl)) as H1. destruct (Hn _ _ H1) as [x ->]. destruct (Ha k1 x (or_introl eq_refl)) as [p Hp]. apply params_meaning_spec in Hp; [|eapply Hw; exact H1].
        assert (Hin : In k1 (map fst ds)) by (apply Hk; apply (in_map fst) in H1; exact H1). apply in_map_iff in Hin as ([k2 e2] & Ek2 & Hin). cbn [fst] in Ek2. subst k2.
        destruct (Hb _ _ Hin) as (y & ps & ->). exists ((k1, mkSh k1 y p) :: ys). constructor; [|assumption]. cbn [pair_of]. rewrite Hp. cbn [bind].
        apply im_get_In in Hin; [|assumption]. rewrite Hin. reflexivity. }
      destruct Hys as [ys Hys]. rewrite (proj2 (collect_err _ _ e')); [reflexivity|]. exists a, (k, EInner l), b, ys. split; [assumption|]. split; [assumption|].
      cbn [pair_of]. apply params_error_spec in He; [|eapply Hw; rewrite E; apply in_or_app; right; left; reflexivity]. rewrite He. reflexivity.
Qed.
Lemma not_legible_all vs : ~ Forall legible vs -> exists v, In v vs /\ ~ legible v.
Proof.
  induction vs as [|v vs IH]; intro H; [destruct H; constructor|]. destruct (legible_all_dec [v]) as [Hv|Hv].
  - apply Forall_inv in Hv. destruct IH as (w & Hi & Hw); [intro Hx; apply H; constructor; assumption|]. exists w. split; [right|]; assumption.
  - exists v. split; [left; reflexivity|]. intro Hx. apply Hv. constructor; [assumption|constructor].
Qed.
Lemma message_error_spec m e : extract_signature_headers_with_name m = Err e <-> message_error m e.
Proof.
  split.
  - destruct (extract_cases m) as [[Hs ->]|[(Hs & Hl & ->)|(Hs & H1 & H2 & ->)]]; intro H.
    + injection H as <-. constructor. exact Hs.
    + injection H as <-. destruct (legible_all_dec (field_lines (msg_headers m) (lit "signature"))) as [H1|H1].
      * destruct (not_legible_all (field_lines (msg_headers m) (lit "signature-input"))) as (v & Hi & Hv); [tauto|]. apply (me_illegible m (lit "signature-input") v); auto.
      * destruct (not_legible_all _ H1) as (v & Hi & Hv). apply (me_illegible m (lit "signature") v); auto.
    + destruct (try_parse _ _) as [x|x|x] eqn:E; try discriminate H. injection H as <-. apply me_headers; try assumption. apply headers_error_spec. exact E.
  - destruct (extract_cases m) as [[Hs ->]|[(Hs & Hl & ->)|(Hs & H1 & H2 & ->)]]; intros [Hn|n v Hn Hi Hv Hx|x Hn H3 H4 Hx]; try reflexivity; try contradiction.
    + tauto.
    + exfalso. rewrite Forall_forall in H1, H2. destruct Hi as [->| ->]; auto.
    + apply headers_error_spec in Hx. rewrite Hx. reflexivity.
Qed.

(** ** components *)
Lemma collect_const {E A B} (f : A -> result E B) e l : (forall x, (exists y, f x = Ok y) \/ f x = Err e) -> (exists ys, collect f l = Ok ys) \/ collect f l = Err e.
Proof.
  intro H. induction l as [|x l IH]; cbn [collect]; [left; eauto|]. destruct (H x) as [[y ->]| ->]; [|right; reflexivity].
  destruct IH as [[ys ->]| ->]; [left; eauto|right; reflexivity].
Qed.
Lemma handle_sf_cases vs : (exists out, handle_params_sf vs = Ok out) \/ handle_params_sf vs = Err InvalidComponentParam.
Proof.
  apply collect_const. intro v. unfold sf_line. destruct (parse_list v) as [l|]; [destruct (ser_list l); [left; eexists; reflexivity|right; reflexivity]|].
  destruct (parse_dict v) as [d|]; [destruct (ser_dict d); [left; eexists; reflexivity|right; reflexivity]|right; reflexivity].
Qed.
Lemma handle_key_cases vs k : (exists out, handle_params_key_into vs k = Ok out) \/ handle_params_key_into vs k = Err InvalidComponentParam.
Proof.
  unfold handle_params_key_into. destruct (collect_const (fun v => ok_or (parse_dict v) InvalidComponentParam) InvalidComponentParam vs) as [[ds ->]| ->].
  - intro v. destruct (parse_dict v); [left; eexists; reflexivity|right; reflexivity].
  - cbn [bind]. destruct (ocollect _ _); [left; eexists; reflexivity|right; reflexivity].
  - right. reflexivity.
Qed.
Lemma process_error_spec ps : forall vs e, field_params ps vs = Err e <-> process_error ps vs e.
Proof.
  induction ps as [|p ps IH]; intros vs e; cbn [field_params].
  - split; [discriminate|intro H; inversion H].
  - destruct p as [|k| | | |n].
    + destruct (handle_sf_cases vs) as [[out E]|E]; rewrite E; cbn [bind].
      * apply handle_sf_spec in E. rewrite IH. split; [intro H; eapply pr_after_sf; eassumption|]. intro H. inversion H as [? ? ? Hp|? ? Hn| |? ? vs' ? Hc He| | ]; subst.
        -- destruct Hp as [Hp|[Hp|[x Hp]]]; discriminate Hp.
        -- destruct (Hn _ E).
        -- replace out with vs'; [assumption|]. apply handle_sf_spec in E, Hc. congruence.
      * split.
        -- intro H. injection H as <-. apply pr_not_sf. intros out H. apply handle_sf_spec in H. congruence.
        -- intro H. inversion H as [? ? ? Hp|? ? Hn| |? ? vs' ? Hc He| | ]; subst; [|reflexivity|].
           ++ destruct Hp as [Hp|[Hp|[x Hp]]]; discriminate Hp.
           ++ apply handle_sf_spec in Hc. congruence.
    + destruct (handle_key_cases vs k) as [[out E]|E]; rewrite E; cbn [bind].
      * apply handle_key_spec in E. rewrite IH. split; [intro H; eapply pr_after_key; eassumption|]. intro H. inversion H as [? ? ? Hp| |? ? ? Hn| |? ? ? vs' ? Hc He| ]; subst.
        -- destruct Hp as [Hp|[Hp|[x Hp]]]; discriminate Hp.
        -- destruct (Hn _ E).
        -- replace out with vs'; [assumption|]. apply handle_key_spec in E, Hc. congruence.
      * split.
        -- intro H. injection H as <-. apply pr_not_key. intros out H. apply handle_key_spec in H. congruence.
        -- intro H. inversion H as [? ? ? Hp| |? ? ? Hn| |? ? ? vs' ? Hc He| ]; subst; [|reflexivity|].
           ++ destruct Hp as [Hp|[Hp|[x Hp]]]; discriminate Hp.
           ++ apply handle_key_spec in Hc. congruence.
    + split; [intro H; injection H as <-; apply pr_unsupported; auto|intro H; inversion H; subst; reflexivity].
    + split; [intro H; injection H as <-; apply pr_unsupported; auto|intro H; inversion H; subst; reflexivity].
    + rewrite IH. split; [apply pr_after_req|]. intro H. inversion H as [? ? ? Hp| | | | |? ? ? He]; subst; [|assumption]. destruct Hp as [Hp|[Hp|[x Hp]]]; discriminate Hp.
    + split; [intro H; injection H as <-; apply pr_unsupported; eauto|intro H; inversion H; subst; reflexivity].
Qed.
Lemma fitting_spec m d p : (fitting m d p /\ check_derived_param m d p = Ok tt) \/ (~ fitting m d p /\ check_derived_param m d p = Err HInvalidComponentParam).
Proof.
  destruct p as [|k| | | |n]; cbn [fitting check_derived_param]; try (right; split; [tauto|reflexivity]).
  - destruct m as [r|x]; cbn [is_request]; [left; split; [eauto|reflexivity]|right; split; [|reflexivity]]. intros [r H]. discriminate H.
  - destruct d; try (right; split; [discriminate|reflexivity]). left. split; reflexivity.
Qed.
Lemma fitting_all m d ps : ((forall p, In p ps -> fitting m d p) /\ try_for_each (check_derived_param m d) ps = Ok tt)
  \/ ((exists p, In p ps /\ ~ fitting m d p) /\ try_for_each (check_derived_param m d) ps = Err HInvalidComponentParam).
Proof.
  induction ps as [|p ps IH]; cbn [try_for_each]; [left; split; [intros p []|reflexivity]|]. destruct (fitting_spec m d p) as [[Hf ->]|[Hf ->]]; cbn [bind].
  - destruct IH as [[IH ->]|[(q & Hi & Hq) ->]]; [left; split; [intros q [<-|Hq]; auto|reflexivity]|right]. split; [exists q; split; [right|]; assumption|reflexivity].
  - right. split; [exists p; split; [left; reflexivity|assumption]|reflexivity].
Qed.
Lemma derived_comp_err i d vs : id_name i = Derived d -> (exists c, comp_of_values i vs = Ok c) \/ comp_of_values i vs = Err InvalidComponent.
Proof.
  intro Hd. unfold comp_of_values, build_derived_component. rewrite Hd. destruct vs as [|v vs]; [right; reflexivity|]. destruct (negb _); [right; reflexivity|].
  destruct d; try (left; eexists; reflexivity).
  - destruct (find_map _ _); [left; eexists; reflexivity|right; reflexivity].
  - destruct (split_once cEq (trim v)) as [[k w]|]; [left; eexists; reflexivity|right; reflexivity].
Qed.
Lemma derived_shape m i d : id_name i = Derived d -> let x := extract_http_message_component m i in
  ((exists p, In p (id_params i) /\ ~ fitting m d p) /\ x = Err HInvalidComponentParam)
  \/ ((forall p, In p (id_params i) -> fitting m d p)
      /\ (~ applicable m d /\ x = Err HInvalidComponentName \/ applicable m d /\ ((exists c, x = Ok c) \/ x = Err (HttpSigError InvalidComponent)))).
Proof.
  intros Hd. cbv zeta. unfold extract_http_message_component, extract_derived_component. rewrite Hd.
  destruct (fitting_all m d (id_params i)) as [[Hf ->]|[Hf ->]]; [right; split; [assumption|]|left; auto]. cbn [bind].
  destruct m as [r|x]; cbn [check_derived_name applicable].
  - assert (Hv : d <> Status -> exists vs, derived_values (MReq r) d = Ok vs).
    { intro Hn. destruct d; cbn [derived_values msg_method msg_uri msg_headers bind]; try (eexists; reflexivity); [|congruence]. repeat (destruct (str_eqb _ _); [eexists; reflexivity|]). eexists. reflexivity. }
    destruct (derived_eqb d Status) eqn:E.
    + assert (d = Status) by (destruct d; try discriminate E; reflexivity). subst d. left. split; [tauto|reflexivity].
    + assert (Hn : d <> Status) by (intros ->; discriminate E). right. split; [assumption|]. destruct (Hv Hn) as [vs Ev]. destruct d; try congruence; cbn [bind]; rewrite Ev; cbn [bind];
        (destruct (derived_comp_err i _ vs Hd) as [[c ->]| ->]; [left; eexists; reflexivity|right; reflexivity]).
  - assert (Hr : set_contains (id_params i) Req = false).
    { destruct (set_contains (id_params i) Req) eqn:E; [|reflexivity]. apply set_contains_Req in E. destruct (Hf _ E) as [r H]. discriminate H. }
    rewrite Hr. destruct d; cbn [derived_eqb]; try (left; split; [intros [H|H]; discriminate H|reflexivity]).
    + right. split; [auto|]. change (bind (if _ : bool then _ else _) ?k) with (k tt). cbn [derived_values msg_status bind].
      destruct (derived_comp_err i _ [dec (rs_status x)] Hd) as [[c ->]| ->]; [left; eexists; reflexivity|right; reflexivity].
    + right. split; [auto|]. change (bind (if _ : bool then _ else _) ?k) with (k tt). cbn [derived_values msg_headers bind].
      match goal with |- context [comp_of_values i ?vs] => destruct (derived_comp_err i _ vs Hd) as [[c ->]| ->] end; [left; eexists; reflexivity|right; reflexivity].
Qed.
Lemma own_error_spec m i e : extract_http_message_component m i = Err e <-> own_error m i e.
Proof.
  destruct (id_name i) as [n|d] eqn:En.
  - unfold extract_http_message_component. rewrite En. unfold extract_http_field. rewrite En. split.
    + destruct (header_strings_cases (msg_headers m) n) as [[-> Hl]|[-> Hl]]; cbn [bind]; intro H.
      * rewrite (comp_of_values_field _ n) in H by assumption. destruct (field_params _ _) as [out|e'|q] eqn:E; try discriminate H. injection H as <-.
        apply process_error_spec in E. eapply oe_field; [exact En|apply has_lines_spec; reflexivity|assumption|exact E].
      * injection H as <-. eapply oe_illegible; [exact En|apply has_lines_spec; reflexivity|exact Hl].
    + intros [n' ls En' Hl Hi|n' ls e' En' Hl Hi He|d p En'|d En'|d En']; rewrite En in En'; try discriminate En'; injection En' as <-; apply has_lines_spec in Hl; subst ls.
      * destruct (header_strings_cases (msg_headers m) n) as [[_ Hl]|[-> _]]; [contradiction|reflexivity].
      * destruct (header_strings_cases (msg_headers m) n) as [[-> _]|[_ Hl]]; [|contradiction]. cbn [bind]. rewrite (comp_of_values_field _ n) by assumption.
        apply process_error_spec in He. rewrite He. reflexivity.
  - pose proof (derived_shape m i d En) as H. cbv zeta in H.
    assert (Hv : (forall p, In p (id_params i) -> fitting m d p) -> forall v, (exists c, extract_http_message_component m i = Ok c /\ text_value c = v) <-> own_value m i v).
    { intros Hf v. apply own_value_spec. intros Hm Hr. destruct m as [r0|x0]; [discriminate Hm|]. destruct (Hf _ Hr) as [r Hx]. discriminate Hx. }
    split.
    + destruct H as [[(p & Hi & Hp) ->]|(Hf & [[Ha ->]|[Ha [[c ->]|E]]])]; [intro H; injection H as <-; eapply oe_param; eassumption|intro H; injection H as <-; eapply oe_name; eassumption|discriminate|].
      rewrite E. intro H. injection H as <-. eapply oe_value; try eassumption. intros v Hx. apply (Hv Hf) in Hx as (c & Hc & _). congruence.
    + intros [n' ls En' Hl Hi|n' ls e' En' Hl Hi He|d' p En' Hi Hp|d' En' Hp Ha|d' En' Hp Ha Hn]; rewrite En in En'; try discriminate En'; injection En' as <-.
      * destruct H as [[_ H]|(Hf & _)]; [assumption|]. destruct (Hp (Hf p Hi)).
      * destruct H as [[(p & Hi & Hx) _]|(_ & [[_ H]|[Hx _]])]; [destruct (Hx (Hp p Hi))|assumption|contradiction].
      * destruct H as [[(p & Hi & Hx) _]|(_ & [[Hx _]|[_ [[c H]|H]]])]; [destruct (Hx (Hp p Hi))|contradiction| |assumption].
        destruct (Hn (text_value c)). apply (Hv Hp). eauto.
Qed.
Lemma component_error_spec m rfp i e : component_line m rfp i = Err e <-> component_error m rfp i e.
Proof.
  unfold component_line. destruct (set_contains (id_params i) Req) eqn:E.
  - apply set_contains_Req in E. split.
    + destruct m as [r|x]; cbn [is_request]; [intro H; injection H as <-; apply ce_no_request; eauto|]. destruct rfp as [r|]; [|intro H; injection H as <-; apply ce_no_request; auto].
      intro H. eapply ce_request; eauto. apply own_error_spec. exact H.
    + intros [e' Hn He|Hr [[r ->]| ->]|x r e' Hr -> -> He]; [contradiction|reflexivity|destruct m; reflexivity|]. cbn [is_request]. apply own_error_spec. exact He.
  - assert (Hn : ~ In Req (id_params i)) by (intro H; apply set_contains_Req in H; congruence). rewrite own_error_spec. split; [apply ce_own; assumption|].
    intros [e' _ He|Hr|x r e' Hr]; [exact He|contradiction|contradiction].
Qed.
Lemma component_no_panic m rfp i q : component_line m rfp i <> Panic q.
Proof.
  assert (Hx : forall m, extract_http_message_component m i <> Panic q).
  { clear m. intros m H. destruct (id_name i) as [n|d] eqn:En.
    - unfold extract_http_message_component, extract_http_field in H. rewrite En in H. destruct (header_strings_cases (msg_headers m) n) as [[E _]|[E _]]; rewrite E in H; [|discriminate H]. cbn [bind] in H.
      rewrite (comp_of_values_field _ n) in H by assumption. clear E. destruct (field_params _ _) as [out|e|q'] eqn:E; try discriminate H. clear H. revert E. generalize (hm_get_all (msg_headers m) n).
      induction (id_params i) as [|p ps IH]; intros vs; cbn [field_params]; [discriminate|]. destruct p; try discriminate; try apply IH.
      + destruct (handle_sf_cases vs) as [[out ->]| ->]; [apply IH|discriminate].
      + destruct (handle_key_cases vs s) as [[out ->]| ->]; [apply IH|discriminate].
    - destruct (derived_shape m i d En) as [[_ E]|(_ & [[_ E]|[_ [[c E]|E]]])]; congruence. }
  unfold component_line. destruct (set_contains _ _); [|apply Hx]. destruct (is_request m); [discriminate|]. destruct rfp; [apply Hx|discriminate].
Qed.
Lemma values_lines m rfp is : (exists vs, Forall2 (message_value m rfp) is vs) <-> exists lines, Forall2 (fun i c => component_line m rfp i = Ok c) is lines.
Proof. split; [intros [vs H]; apply build_values in H as (l & H & _); eauto|intros [l H]; apply build_lines in H as [H _]; eauto]. Qed.
Lemma text_error_spec m rfp p e : build_signature_base m p rfp = Err e <-> text_error m rfp p e.
Proof.
  unfold text_error, build_signature_base. split.
  - destruct (collect (component_line m rfp) (sp_covered p)) as [lines|e'|q] eqn:E; cbn [bind]; [|intro H; injection H as ->|discriminate].
    + intro H. exfalso. apply collect_ok in E. assert (Hb : exists b, build_signature_base m p rfp = Ok b) by (eexists; apply build_base_spec; eauto).
      destruct Hb as [b Hb]. unfold build_signature_base in Hb. apply collect_ok in E. rewrite E in Hb. cbn [bind] in Hb. congruence.
    + apply collect_err in E as (a & i & b & ys & E & Ha & Hi). destruct (proj2 (values_lines m rfp a) (ex_intro _ ys Ha)) as [vs Hvs].
      exists a, i, b, vs. split; [assumption|]. split; [assumption|]. apply component_error_spec. exact Hi.
  - intros (a & i & b & vs & E & Ha & Hi). destruct (proj1 (values_lines m rfp a) (ex_intro _ vs Ha)) as [ys Hys]. apply component_error_spec in Hi.
    rewrite (proj2 (collect_err _ _ e)); [reflexivity|]. exists a, i, b, ys. auto.
Qed.
Lemma base_no_panic m p rfp q : build_signature_base m p rfp <> Panic q.
Proof.
  unfold build_signature_base. destruct (collect _ _) as [lines|e|q'] eqn:E; cbn [bind]; [|discriminate|].
  - unfold base_try_new. destruct (negb _); [discriminate|]. destruct (negb _); discriminate.
  - exfalso. eapply collect_no_panic in E; [exact E|]. intros; apply component_no_panic.
Qed.

(** ** signing *)
Definition bases_of (m : msg) (rfp : option request) (jobs : list job) : result herr (list (sigbase * job)) :=
  collect (fun j => rmap (fun b => (b, j)) (build_signature_base m (j_params j) rfp)) jobs.
Definition job_text (bj : sigbase * job) : job * str := (snd bj, base_str (fst bj)).
Definition job_sign (jt : job * str) : result err bytes := sk_sign (j_key (fst jt)) (j_seed (fst jt)) (utf8 (snd jt)).
Lemma bases_ok m rfp jobs bs : bases_of m rfp jobs = Ok bs -> Forall2 (fun j t => signed_text m rfp (j_params j) t) jobs (map snd (map job_text bs)) /\ combine jobs (map snd (map job_text bs)) = map job_text bs.
Proof.
  unfold bases_of. rewrite collect_ok. intro H. induction H as [|j [b j'] jobs bs Hj H [IH1 IH2]]; [split; [constructor|reflexivity]|].
  destruct (build_signature_base m (j_params j) rfp) as [b0|e|q] eqn:E; try discriminate Hj. injection Hj as <- <-. cbn [map job_text fst snd combine] in *. rewrite IH2. split; [|reflexivity].
  constructor; [|assumption]. apply signed_text_spec. eauto.
Qed.
Lemma bases_exist m rfp jobs ts : Forall2 (fun j t => signed_text m rfp (j_params j) t) jobs ts -> exists bs, bases_of m rfp jobs = Ok bs /\ combine jobs ts = map job_text bs.
Proof.
  unfold bases_of. intro H. induction H as [|j t jobs ts Hj H (bs & IH1 & IH2)]; [exists []; split; reflexivity|]. apply signed_text_spec in Hj as (b & Hb & <-).
  exists ((b, j) :: bs). split; [|cbn [map combine job_text fst snd]; rewrite IH2; reflexivity]. apply collect_ok. constructor; [rewrite Hb; reflexivity|]. apply collect_ok. exact IH1.
Qed.
Lemma make_unfold m rfp jobs : make_signatures m rfp jobs =
  bind (bases_of m rfp jobs) (fun bases => bind (join_all (map (fun bj : sigbase * job => build_signature_headers (fst bj) (j_key (snd bj)) (j_name (snd bj)) (j_seed (snd bj))) bases))
    (fun rs => map_err HttpSigError (collect (fun r => r) rs))).
Proof. reflexivity. Qed.
Lemma job_headers bj : build_signature_headers (fst bj) (j_key (snd bj)) (j_name (snd bj)) (j_seed (snd bj))
  = rmap (fun s => mkSh (match j_name (snd bj) with Some n => n | None => default_signature_name end) s (sb_params (fst bj))) (job_sign (job_text bj)).
Proof. destruct bj as [b j]. unfold build_signature_headers, build_raw_signature, job_sign, job_text, base_bytes. cbn [fst snd]. destruct (sk_sign _ _ _); reflexivity. Qed.
Lemma first_panic_none {E A} (l : list (result E A)) : first_panic l = None <-> forall q, ~ In (Panic q) l.
Proof.
  induction l as [|[x|e|q] l IH]; cbn [first_panic].
  - split; [intros _ q []|reflexivity].
  - rewrite IH. split; [intros H q [Hq|Hq]; [discriminate Hq|exact (H q Hq)]|intros H q Hq; apply (H q); right; exact Hq].
  - rewrite IH. split; [intros H q [Hq|Hq]; [discriminate Hq|exact (H q Hq)]|intros H q Hq; apply (H q); right; exact Hq].
  - split; [discriminate|]. intro H. destruct (H q). left. reflexivity.
Qed.
Definition quiet (bs : list (sigbase * job)) : Prop := Forall (fun jt => forall q, job_sign jt <> Panic q) (map job_text bs).
Lemma make_quiet m rfp jobs bs : bases_of m rfp jobs = Ok bs ->
  (quiet bs -> make_signatures m rfp jobs = map_err HttpSigError (collect (fun bj => rmap (fun s => mkSh (match j_name (snd bj) with Some n => n | None => default_signature_name end) s (sb_params (fst bj))) (job_sign (job_text bj))) bs))
  /\ (~ quiet bs -> exists q, make_signatures m rfp jobs = Panic q).
Proof.
  intro H. rewrite make_unfold, H. cbn [bind]. unfold join_all.
  assert (Hq : first_panic (map (fun bj : sigbase * job => build_signature_headers (fst bj) (j_key (snd bj)) (j_name (snd bj)) (j_seed (snd bj))) bs) = None <-> quiet bs).
  { rewrite first_panic_none. unfold quiet. rewrite Forall_map, Forall_forall. split.
    - intros Hn bj Hi q Hq. apply (Hn q). apply in_map_iff. exists bj. split; [|assumption]. rewrite job_headers, Hq. reflexivity.
    - intros Hn q Hi. apply in_map_iff in Hi as (bj & E & Hi). rewrite job_headers in E. destruct (job_sign (job_text bj)) eqn:Es; try discriminate E. injection E as ->. exact (Hn bj Hi q Es). }
  destruct (first_panic _) as [q|] eqn:E; cbn [bind].
  - split; [|eauto]. intro Hx. apply Hq in Hx. discriminate Hx.
  - split; [|intro Hx; destruct Hx; apply Hq; reflexivity]. intros _. rewrite collect_map. reflexivity.
Qed.
Lemma quiet_dec bs : quiet bs \/ ~ quiet bs.
Proof.
  unfold quiet. induction (map job_text bs) as [|x l IH]; [left; constructor|]. destruct (job_sign x) eqn:E.
  - destruct IH as [IH|IH]; [left; constructor; [congruence|assumption]|right; intro H; inversion H; contradiction].
  - destruct IH as [IH|IH]; [left; constructor; [congruence|assumption]|right; intro H; inversion H; contradiction].
  - right. intro H. inversion H as [|? ? Hx]; subst. exact (Hx _ E).
Qed.
Lemma quiet_pairs m rfp jobs ts bs : Forall2 (fun j t => signed_text m rfp (j_params j) t) jobs ts -> combine jobs ts = map job_text bs ->
  (quiet bs <-> Forall2 (fun j t => forall q, sk_sign (j_key j) (j_seed j) (utf8 t) <> Panic q) jobs ts).
Proof.
  intros H E. unfold quiet. rewrite <- E. clear E. induction H as [|j t jobs ts Hj H IH]; cbn [combine]; [split; constructor|]. split; intro Hx; inversion Hx; subst; constructor; try assumption; apply IH; assumption.
Qed.
Lemma signing_error_spec m rfp jobs e : make_signatures m rfp jobs = Err e <-> signing_error m rfp jobs e.
Proof.
  assert (Hs : forall x y, (exists s, job_sign x = Ok s) <-> exists z, rmap (fun s => mkSh (match j_name (snd y) with Some n => n | None => default_signature_name end) s (sb_params (fst y))) (job_sign x) = Ok z).
  { intros x y. destruct (job_sign x); cbn [rmap]; split; intros [s H]; try discriminate H; eauto. }
  split.
  - destruct (bases_of m rfp jobs) as [bs|e'|q] eqn:Eb.
    + pose proof (bases_ok _ _ _ _ Eb) as [Ht Ec]. destruct (make_quiet _ _ _ _ Eb) as [Hq Hn]. destruct (quiet_dec bs) as [Hx|Hx]; [|destruct (Hn Hx) as [q ->]; discriminate].
      rewrite (Hq Hx). clear Hq Hn. destruct (collect _ bs) as [l|e'|q] eqn:El; try discriminate. intro H. injection H as <-. apply collect_err in El as (a & x & b & ys & -> & Ha & Hz).
      destruct (job_sign (job_text x)) as [s|e0|q] eqn:Es; try discriminate Hz. injection Hz as ->.
      apply (se_key m rfp jobs (map snd (map job_text (a ++ x :: b))) (map job_text a) (snd x) (map job_text b) (base_str (fst x))).
      * assumption.
      * eapply quiet_pairs; eassumption.
      * rewrite Ec, map_app. reflexivity.
      * apply Forall_map. clear -Ha Hs. induction Ha; constructor; [|assumption]. apply (Hs _ x). eauto.
      * exact Es.
    + rewrite make_unfold, Eb. cbn [bind]. intro H. injection H as ->. unfold bases_of in Eb. apply collect_err in Eb as (a & j & b & ys & -> & Ha & Hj). apply (se_text m rfp _ a j b); [reflexivity| |].
      * clear -Ha. induction Ha as [|x y a ys Hx Ha IH]; constructor; [|assumption]. destruct (build_signature_base m (j_params x) rfp) as [b| |] eqn:E; try discriminate Hx.
        exists (base_str b). apply signed_text_spec. eauto.
      * apply text_error_spec. destruct (build_signature_base m (j_params j) rfp); try discriminate Hj. injection Hj as ->. reflexivity.
    + rewrite make_unfold, Eb. discriminate.
  - intros [a j b e' E Ha Hj|ts a j b t e' Ht Hq Ec Ha Hj].
    + rewrite make_unfold. unfold bases_of. rewrite (proj2 (collect_err _ _ e')); [reflexivity|]. apply text_error_spec in Hj.
      assert (Hys : exists ys, Forall2 (fun j y => rmap (fun b => (b, j)) (build_signature_base m (j_params j) rfp) = Ok y) a ys).
      { clear -Ha. induction Ha as [|x a [t Hx] Ha [ys IH]]; [exists []; constructor|]. apply signed_text_spec in Hx as (b & Hb & _). exists ((b, x) :: ys). constructor; [rewrite Hb; reflexivity|assumption]. }
      destruct Hys as [ys Hys]. exists a, j, b, ys. split; [assumption|]. split; [assumption|]. rewrite Hj. reflexivity.
    + destruct (bases_exist _ _ _ _ Ht) as (bs & Eb & E). destruct (make_quiet _ _ _ _ Eb) as [Hm _]. rewrite Hm by (eapply quiet_pairs; eassumption). clear Hm. rewrite E in Ec.
      apply map_eq_app in Ec as (a' & r & -> & <- & Er). destruct r as [|x b']; [discriminate Er|]. apply map_eq_cons in Er as (x' & b'' & E' & Ex & <-). injection E' as <- <-.
      rewrite (proj2 (collect_err _ _ e')); [reflexivity|]. apply (proj1 (Forall_map _ _ _)) in Ha.
      assert (Hys : exists ys, Forall2 (fun bj y => rmap (fun s => mkSh (match j_name (snd bj) with Some n => n | None => default_signature_name end) s (sb_params (fst bj))) (job_sign (job_text bj)) = Ok y) a' ys).
      { clear -Ha Hs. induction Ha as [|y a' Hy Ha [ys IH]]; [exists []; constructor|]. destruct (proj1 (Hs (job_text y) y) Hy) as [z Hz]. exists (z :: ys). constructor; assumption. }
      destruct Hys as [ys Hys]. exists a', x, b', ys. split; [reflexivity|]. split; [assumption|]. rewrite Ex. unfold job_sign. cbn [fst snd]. rewrite Hj. reflexivity.
Qed.
Lemma signing_panic_spec m rfp jobs : (exists q, make_signatures m rfp jobs = Panic q)
  <-> exists ts j t q, Forall2 (fun j t => signed_text m rfp (j_params j) t) jobs ts /\ In (j, t) (combine jobs ts) /\ sk_sign (j_key j) (j_seed j) (utf8 t) = Panic q.
Proof.
  split.
  - intros [q H]. destruct (bases_of m rfp jobs) as [bs|e'|q'] eqn:Eb; [|rewrite make_unfold, Eb in H; discriminate H|].
    + pose proof (bases_ok _ _ _ _ Eb) as [Ht Ec]. destruct (make_quiet _ _ _ _ Eb) as [Hq _]. destruct (quiet_dec bs) as [Hx|Hx].
      * rewrite (Hq Hx) in H. exfalso. destruct (collect _ bs) as [l|e'|q'] eqn:El; try discriminate H. apply collect_panic in El as (a & x & b & ys & -> & _ & Hz).
        unfold quiet in Hx. rewrite map_app in Hx. apply Forall_app in Hx as [_ Hx]. apply Forall_inv in Hx. destruct (job_sign (job_text x)) eqn:E; try discriminate Hz. exact (Hx _ eq_refl).
      * exists (map snd (map job_text bs)). assert (Hex : exists jt q, In jt (map job_text bs) /\ job_sign jt = Panic q).
        { clear -Hx. unfold quiet in Hx. induction (map job_text bs) as [|x l IH]; [destruct Hx; constructor|]. destruct (job_sign x) eqn:E.
          - destruct IH as (jt & q & Hi & Hq); [intro H; apply Hx; constructor; [congruence|assumption]|]. exists jt, q. split; [right|]; assumption.
          - destruct IH as (jt & q & Hi & Hq); [intro H; apply Hx; constructor; [congruence|assumption]|]. exists jt, q. split; [right|]; assumption.
          - exists x, p. split; [left; reflexivity|assumption]. }
        destruct Hex as ([j t] & q' & Hi & Hj). exists j, t, q'. rewrite Ec. auto.
    + exfalso. unfold bases_of in Eb. eapply collect_no_panic; [|exact Eb]. intros j q0 Hj. destruct (build_signature_base m (j_params j) rfp) eqn:E; try discriminate Hj. exact (base_no_panic _ _ _ _ E).
  - intros (ts & j & t & q & Ht & Hi & Hj). destruct (bases_exist _ _ _ _ Ht) as (bs & Eb & E). destruct (make_quiet _ _ _ _ Eb) as [_ Hm]. apply Hm. intro Hq. unfold quiet in Hq. rewrite <- E, Forall_forall in Hq.
    exact (Hq _ Hi _ Hj).
Qed.

(** ** digests *)
Lemma hv_to_str_spec v s : hv_to_str v = Some s <-> s = v /\ legible v.
Proof.
  split.
  - intro H. assert (E : s = v) by (unfold hv_to_str in H; destruct (forallb _ _) in H; congruence). subst s. split; [reflexivity|apply legible_spec; exact H].
  - intros [-> H]. apply legible_spec. exact H.
Qed.
Lemma extract_digest_cases h : let ls := field_lines h (lit "content-digest") in
  (ls = [] /\ extract_content_digest h = Err NoDigestHeader)
  \/ exists v r, ls = v :: r /\ (~ legible v /\ extract_content_digest h = Err FailedToStrDigestHeader
     \/ legible v /\ ((exists n d t, digest_line v n d /\ n = type_name t /\ extract_content_digest h = Ok (t, d))
        \/ (forall n d, n = lit "sha-256" \/ n = lit "sha-512" -> ~ digest_line v n d) /\ extract_content_digest h = Err DInvalidHeaderValue)).
Proof.
  cbv zeta. unfold extract_content_digest. rewrite digest_get. destruct (field_lines h (lit "content-digest")) as [|v r]; cbn [hd_error ok_or bind]; [left; auto|]. right. exists v, r. split; [reflexivity|].
  destruct (hv_to_str v) as [s|] eqn:Ev; cbn [ok_or bind].
  - apply hv_to_str_spec in Ev as [-> Hl]. right. split; [assumption|].
    assert (Hno : forall (P : Prop), (forall n d, n = lit "sha-256" \/ n = lit "sha-512" -> digest_line v n d -> False) -> (forall n d, n = lit "sha-256" \/ n = lit "sha-512" -> ~ digest_line v n d)) by (intros _ Hx; exact Hx).
    destruct (parse_dict v) as [m|] eqn:Ed; cbn [ok_or bind].
    + pose proof Ed as Hd. apply parse_dict_spec in Hd.
      assert (Hfun : forall n d, digest_line v n d -> exists ps, m = [(n, EItem (mkItem (BBytes d) ps))]) by (intros n d [_ [ps Hp]]; apply parse_dict_spec in Hp; exists ps; congruence).
      destruct m as [|[k e] [|y m]]; [right|..|right]; [split; [|reflexivity]|..|split; [|reflexivity]]; try (intros n d _ Hx; destruct (Hfun _ _ Hx) as [ps E]; discriminate E).
      destruct (cdtype_of_str k) as [t|e'|q] eqn:Ek; cbn [map_err bind].
      * apply cdtype_spec in Ek. destruct e as [[[ | | | |d| | | ] ps]|l]; try (right; split; [|reflexivity]; intros n d' _ Hx; destruct (Hfun _ _ Hx) as [ps' E]; discriminate E).
        left. exists k, d, t. split; [split; [assumption|eauto]|]. auto.
      * right. split; [|reflexivity]. intros n d Hn Hx. destruct (Hfun _ _ Hx) as [ps E]. injection E as -> _. destruct Hn as [->| ->]; discriminate Ek.
      * unfold cdtype_of_str in Ek. destruct (str_eqb k _); [discriminate Ek|]. destruct (str_eqb k _); discriminate Ek.
    + right. split; [|reflexivity]. intros n d _ [_ [ps Hp]]. apply parse_dict_spec in Hp. congruence.
  - left. split; [|reflexivity]. intro Hl. rewrite (proj2 (hv_to_str_spec v v) (conj eq_refl Hl)) in Ev. discriminate Ev.
Qed.
Lemma verify_content_err H m e : verify_content_digest H m = Err e <-> verify_digest H (msg_headers m) (msg_body m) = Err e.
Proof. destruct m as [r|x]; cbn; unfold req_verify_digest, res_verify_digest; destruct (verify_digest H _ _) as [[h b]|e'|q]; cbn [bind rmap]; split; intro E; try discriminate E; inv E; reflexivity. Qed.
Lemma digest_line_fun v n d n' d' : digest_line v n d -> digest_line v n' d' -> n = n' /\ d = d'.
Proof. intros [_ [ps H]] [_ [ps' H']]. apply parse_dict_spec in H, H'. rewrite H in H'. injection H' as <- <- _. auto. Qed.
Lemma digest_error_spec H m e : verify_content_digest H m = Err e <-> digest_error H m e.
Proof.
  rewrite verify_content_err. unfold verify_digest. destruct (extract_digest_cases (msg_headers m)) as [[El ->]|(v & r & El & [[Hl ->]|[Hl [(n & d & t & Hd & Hn & ->)|[Hd ->]]]])]; cbn [bind]; split.
  - intro E. injection E as <-. constructor. exact El.
  - intro Hx. destruct Hx as [E|v' r' E|v' r' E|v' r' n d E|v' r' n d E]; [reflexivity|rewrite El in E; discriminate E..].
  - intro E. injection E as <-. eapply de_illegible; eassumption.
  - intro Hx. destruct Hx as [E|v' r' E|v' r' E Hx|v' r' n d E _ [Hx _]|v' r' n d E _ [Hx _]]; rewrite El in E; try discriminate E; injection E as <- <-; [reflexivity|contradiction..].
  - assert (Ht : n = lit "sha-256" \/ n = lit "sha-512") by (destruct t; auto). destruct (into_bytes (msg_body m)) as [bs|] eqn:Eb.
    + apply into_bytes_spec in Eb as [Hr ->]. destruct (is_equal_digest _ d) eqn:E; [discriminate|]. intro Hx. injection Hx as <-.
      eapply de_differs; try eassumption. intro Hx. rewrite derive_spec in E. destruct (proj2 (not_true_iff_false _) E). apply equal_digest_spec. subst n.
      destruct Hx as [[Hx ->]|[Hx ->]]; destruct t; try discriminate Hx; reflexivity.
    + apply into_bytes_none in Eb. intro Hx. injection Hx as <-. eapply de_body; eassumption.
  - intro Hx. destruct Hx as [E|v' r' E Hx|v' r' E Hx Hno|v' r' n' d' E Hn' Hd' Hb|v' r' n' d' E Hn' Hd' Hb Hdiff]; rewrite El in E; try discriminate E; injection E as <- <-.
    + contradiction.
    + assert (Ht : n = lit "sha-256" \/ n = lit "sha-512") by (destruct t; auto). destruct (Hno n d Ht Hd).
    + apply into_bytes_none in Hb. rewrite Hb. reflexivity.
    + destruct (digest_line_fun _ _ _ _ _ Hd Hd') as [<- <-]. rewrite (proj2 (into_bytes_spec _ _) (conj Hb eq_refl)). destruct (is_equal_digest _ d) eqn:E; [|reflexivity]. exfalso. apply equal_digest_spec in E.
      rewrite derive_spec in E. apply Hdiff. subst n. destruct t; [left|right]; auto.
  - intro E. injection E as <-. eapply de_line; eassumption.
  - intro Hx. destruct Hx as [E|v' r' E Hx|v' r' E Hx Hno|v' r' n' d' E Hn' Hd' Hb|v' r' n' d' E Hn' Hd' Hb Hdiff]; rewrite El in E; try discriminate E; injection E as <- <-.
    + contradiction.
    + reflexivity.
    + destruct (Hd n' d' Hn' Hd').
    + destruct (Hd n' d' Hn' Hd').
Qed.

(** ** lines *)
Lemma prefix_spec p s : prefix_of p s = true <-> exists y, s = p ++ y.
Proof.
  revert s. induction p as [|c p IH]; intro s; cbn [prefix_of]; [split; [intros _; exists s; reflexivity|reflexivity]|]. destruct s as [|x s]; [split; [discriminate|intros [y H]; discriminate H]|].
  rewrite andb_true_iff, IH, N.eqb_eq. split.
  - intros [-> [y ->]]. exists y. reflexivity.
  - intros [y H]. injection H as -> ->. eauto.
Qed.
Lemma contains_str_spec p s : contains_str p s = true <-> exists x y, s = x ++ p ++ y.
Proof.
  induction s as [|c s IH]; cbn [contains_str]; rewrite orb_true_iff, prefix_spec.
  - split; [intros [[y H]|H]; [exists [], y; exact H|discriminate H]|]. intros (x & y & H). left. destruct x; [eauto|discriminate H].
  - rewrite IH. split.
    + intros [[y H]|(x & y & H)]; [exists [], y; exact H|exists (c :: x), y; rewrite H; reflexivity].
    + intros (x & y & H). destruct x as [|z x]; [left; eauto|right]. injection H as -> H. eauto.
Qed.
Lemma ends_with_spec c s : ends_with c s = true <-> exists x, s = x ++ [c].
Proof.
  unfold ends_with. split.
  - intro H. destruct (rev s) as [|z r] eqn:E; [discriminate H|]. apply N.eqb_eq in H. subst z. exists (rev r). rewrite <- (rev_involutive s), E. reflexivity.
  - intros [x ->]. rewrite rev_app_distr. apply N.eqb_refl.
Qed.
Lemma quoted_spec t : quoted t <-> starts_with cQuote t && (ends_with cQuote t || contains_str [cQuote; cSemi] (tl t)) = true.
Proof.
  unfold quoted. rewrite andb_true_iff, orb_true_iff, contains_str_spec, ends_with_spec. split.
  - intros (r & -> & H). split; [reflexivity|]. destruct H as [->|[[x ->]|(x & y & ->)]]; [left; exists []; reflexivity|left; exists (lit """" ++ x); reflexivity|right; exists x, y; reflexivity].
  - intros [H1 H2]. destruct t as [|c r]; [discriminate H1|]. apply N.eqb_eq in H1. subst c. exists r. split; [reflexivity|]. destruct H2 as [[x H]|(x & y & H)]; [|right; right; eauto].
    destruct x as [|z x]; injection H as H; [left; exact H|]. right. left. exists x. assumption.
Qed.
Lemma halves_spec s t v : halves s t v <-> exists i w, split_once cColon s = Some (i, w) /\ trim i = t /\ trim w = v.
Proof.
  unfold halves. split; intros (i & w & H).
  - destruct H as (-> & Hn & Ht & Hv). exists i, w. split; [apply split_once_iff; split; [reflexivity|exact Hn]|]. split; apply trim_spec; assumption.
  - destruct H as (H & Ht & Hv). apply split_once_iff in H as [-> Hn]. exists i, w. apply trim_spec in Ht, Hv. auto.
Qed.
Lemma comp_of_str_halves s t v : halves s t v ->
  comp_of_str s = if starts_with cQuote t && (ends_with cQuote t || contains_str [cQuote; cSemi] (tl t)) then rmap (fun d => mkComp d (VString v)) (cid_of_str t) else Err InvalidComponentId.
Proof.
  intro H. apply halves_spec in H as (i & w & E & <- & <-). unfold comp_of_str. rewrite E. destruct (_ && _); cbn [negb]; [|reflexivity]. destruct (cid_of_str (trim i)); reflexivity.
Qed.
Lemma halves_exist s : In 58 s -> exists t v, halves s t v.
Proof.
  intro H. destruct (split_once cColon s) as [[i w]|] eqn:E; [|apply split_once_iff_none in E; contradiction]. exists (trim i), (trim w). apply halves_spec. eauto.
Qed.
Lemma halves_fun s t v t' v' : halves s t v -> halves s t' v' -> t = t' /\ v = v'.
Proof. rewrite !halves_spec. intros (i & w & E & <- & <-) (i' & w' & E' & <- & <-). rewrite E in E'. injection E' as <- <-. auto. Qed.
Lemma line_read_spec s c : comp_of_str s = Ok c <-> exists t v, halves s t v /\ quoted t /\ id_spelling (co_id c) t /\ co_value c = VString v.
Proof.
  split.
  - intro H. destruct (In_dec N.eq_dec 58 s) as [Hc|Hc].
    + destruct (halves_exist _ Hc) as (t & v & Hh). exists t, v. split; [assumption|]. rewrite (comp_of_str_halves _ _ _ Hh) in H. rewrite quoted_spec. destruct (_ && _); [|discriminate H]. split; [reflexivity|].
      rewrite <- id_spelling_spec. destruct (cid_of_str t); try discriminate H. injection H as <-. auto.
    + unfold comp_of_str in H. apply split_once_iff_none in Hc. change cColon with 58 in H. rewrite Hc in H. discriminate H.
  - intros (t & v & Hh & Hq & Hi & Hv). rewrite (comp_of_str_halves _ _ _ Hh). apply quoted_spec in Hq. rewrite Hq. apply id_spelling_spec in Hi. rewrite Hi. destruct c. cbn in *. subst. reflexivity.
Qed.
Lemma line_error_spec s e : comp_of_str s = Err e <-> line_error s e.
Proof.
  split.
  - intro H. destruct (In_dec N.eq_dec 58 s) as [Hc|Hc].
    + destruct (halves_exist _ Hc) as (t & v & Hh). rewrite (comp_of_str_halves _ _ _ Hh) in H. destruct (_ && _) eqn:Eq.
      * apply quoted_spec in Eq. destruct (cid_of_str t) eqn:E; try discriminate H. injection H as ->. apply id_error_spec in E. eapply le_id; eassumption.
      * injection H as <-. eapply le_quotes; [eassumption|]. rewrite quoted_spec. congruence.
    + unfold comp_of_str in H. pose proof Hc as Hn. apply split_once_iff_none in Hc. change cColon with 58 in H. rewrite Hc in H. injection H as <-. constructor. exact Hn.
  - intros [Hc|t v Hh Hq|t v e' Hh Hq He].
    + unfold comp_of_str. apply split_once_iff_none in Hc. change cColon with 58. rewrite Hc. reflexivity.
    + rewrite (comp_of_str_halves _ _ _ Hh). rewrite quoted_spec in Hq. destruct (_ && _); [congruence|reflexivity].
    + rewrite (comp_of_str_halves _ _ _ Hh). apply quoted_spec in Hq. rewrite Hq. apply id_error_spec in He. rewrite He. reflexivity.
Qed.

(** ** verification *)
Lemma received_no_error m l e : received m l -> ~ message_error m e.
Proof. rewrite <- extract_spec, <- message_error_spec. congruence. Qed.
Lemma verification_error_spec clk m rfp key kid e : verify_message_signature clk m rfp key kid = Err e <-> verification_error (clk 0%nat) m rfp key kid e.
Proof.
  split.
  - intro H. destruct (received_dec m) as [[l Hl]|Hn].
    + destruct (candidates_exist m rfp kid l) as [cs Hcs]. pose proof (verify_outcome clk m rfp key kid l cs Hl Hcs) as Ho. rewrite H in Ho. apply candidates_checked in Hcs.
      inversion Ho as [E| | |Hne Hall]; subst.
      * eapply ve_nothing; eassumption.
      * eapply ve_refused; try eassumption; [destruct cs; [congruence|discriminate]|]. intros i n t h Hi. apply nth_with_text in Hi as (b & Hi & <-). exact (Hall _ _ _ _ Hi).
    + apply ve_message, message_error_spec. destruct (verify_not_received clk m rfp key kid Hn) as [(e' & E1 & E2)|(q & _ & E)]; congruence.
  - intros [e' He|l Hl Hc|l cs Hl Hc Hne Hall].
    + destruct (received_dec m) as [[l Hl]|Hn]; [destruct (received_no_error _ _ _ Hl He)|]. apply message_error_spec in He.
      destruct (verify_not_received clk m rfp key kid Hn) as [(e0 & E1 & E2)|(q & E & _)]; congruence.
    + apply checked_candidates in Hc as (cs & Hc & E). destruct cs; [|discriminate E]. pose proof (verify_outcome clk m rfp key kid l [] Hl Hc) as Ho. inversion Ho as [E1 E2|j n b h q Hj|j n b h Ha Hj|Hne]; subst.
      * reflexivity.
      * destruct j; discriminate Hj.
      * destruct j; discriminate Hj.
      * congruence.
    + apply checked_candidates in Hc as (cs' & Hc & ->). pose proof (verify_outcome clk m rfp key kid l cs' Hl Hc) as Ho.
      assert (Hx : forall i n b h, nth_error cs' i = Some (n, (b, h)) -> ~ panics (clk 0%nat i) key (base_str b) h /\ ~ accepts (clk 0%nat i) key (base_str b) h)
        by (intros i n b h Hi; apply (Hall i n); apply nth_with_text; eauto).
      inversion Ho as [E|j n b h q Hj Hcr|j n b h Ha Hj Hacc|Hn]; subst.
      * destruct Hne. reflexivity.
      * destruct (Hx _ _ _ _ Hj) as [Hp _]. contradiction.
      * destruct (Hx _ _ _ _ Hj) as [_ Hp]. contradiction.
      * reflexivity.
Qed.

(** ** keys *)
Lemma secret_bytes_err P rsa a b e : secret_from_bytes P rsa a b = Err e -> e = ParsePrivateKeyError.
Proof.
  unfold secret_from_bytes. destruct a; try (intro H; injection H as <-; reflexivity); try (destruct (has_len _ b); [|discriminate]); try (destruct rsa; [|intro H; injection H as <-; reflexivity]);
    try discriminate; match goal with |- rmap _ (ok_or ?x _) = _ -> _ => destruct x end; intro H; try discriminate H; injection H as <-; reflexivity.
Qed.
Lemma secret_bytes_panic P rsa a b : (exists q, secret_from_bytes P rsa a b = Panic q) <->
  match a with EcdsaP256Sha256 | Ed25519 => List.length b <> 32%nat | EcdsaP384Sha384 => List.length b <> 48%nat | _ => False end.
Proof.
  unfold secret_from_bytes. destruct a; try (destruct rsa); try (split; [intros [q H]; discriminate H|intros []]).
  all: try (split; [intros [q H]; match type of H with rmap _ (ok_or ?x _) = _ => destruct x end; discriminate H|intros []]).
  all: destruct (has_len _ b) eqn:E; [apply has_len_eq in E; split; [intros [q H]|congruence]|split; [intros _ Hl; apply has_len_eq in Hl; congruence|eauto]].
  all: try discriminate H; match type of H with rmap _ (ok_or ?x _) = _ => destruct x end; discriminate H.
Qed.
Lemma curve_alg_spec o a : curve_alg o = Some a <-> (o = oid_p256 /\ a = EcdsaP256Sha256) \/ (o = oid_p384 /\ a = EcdsaP384Sha384).
Proof.
  unfold curve_alg. destruct (str_eqb o oid_p256) eqn:E1.
  - apply str_eqb_eq in E1. subst o. split; [intro H; injection H as <-; auto|]. intros [[_ ->]|[H _]]; [reflexivity|discriminate H].
  - assert (N1 : o <> oid_p256) by (intros ->; rewrite str_eqb_refl in E1; discriminate E1). destruct (str_eqb o oid_p384) eqn:E2.
    + apply str_eqb_eq in E2. subst o. split; [intro H; injection H as <-; auto|]. intros [[H _]|[_ ->]]; [discriminate H|reflexivity].
    + assert (N2 : o <> oid_p384) by (intros ->; rewrite str_eqb_refl in E2; discriminate E2). split; [discriminate|]. intros [[H _]|[H _]]; contradiction.
Qed.
Lemma alg_eqb_eq a b : alg_eqb a b = true <-> a = b.
Proof. destruct a, b; split; intro H; try reflexivity; try discriminate H. Qed.
(** the octets that from_der passes on *)
Lemma der_steps P rsa a der : let r := secret_from_der P rsa a der in
  r = Err ParsePrivateKeyError /\ (forall pki, d_pki P der = Some pki -> oids_of a (ki_oid pki) (ki_params pki) -> enabled rsa a -> forall b, ~ file_octets P a (ki_key pki) b)
    /\ (forall pki, d_pki P der = Some pki -> oids_of a (ki_oid pki) (ki_params pki) -> a = Ed25519 -> False)
  \/ exists pki, d_pki P der = Some pki /\ oids_of a (ki_oid pki) (ki_params pki) /\ enabled rsa a
     /\ ((exists b, file_octets P a (ki_key pki) b /\ r = secret_from_bytes P rsa a b)
         \/ a = Ed25519 /\ (length (ki_key pki) < 2)%nat /\ r = Panic PSlice).
Proof.
  cbv zeta. unfold secret_from_der. destruct (d_pki P der) as [pki|]; cbn [ok_or bind]; [|left; split; [reflexivity|]; split; intros pki H; discriminate H].
  assert (Hno : forall (A : Prop), (oids_of a (ki_oid pki) (ki_params pki) -> enabled rsa a -> (forall b, ~ file_octets P a (ki_key pki) b) /\ a <> Ed25519) ->
    (forall pki0, Some pki = Some pki0 -> oids_of a (ki_oid pki0) (ki_params pki0) -> enabled rsa a -> forall b, ~ file_octets P a (ki_key pki0) b)
    /\ (forall pki0, Some pki = Some pki0 -> oids_of a (ki_oid pki0) (ki_params pki0) -> a = Ed25519 -> False)).
  { intros _ H. split.
    - intros p E Ho He. injection E as <-. apply H; assumption.
    - intros p E Ho ->. injection E as <-. apply (H Ho I). reflexivity. }
  destruct (str_eqb (ki_oid pki) oid_ec) eqn:E1.
  - apply str_eqb_eq in E1. destruct (ki_params pki) as [pa|] eqn:Ep; cbn [ok_or bind].
    2:{ left. split; [reflexivity|]. apply (Hno True). rewrite E1. intros Ho _. destruct a; cbn in Ho; first [contradiction|discriminate Ho|destruct Ho as [_ Ho]; discriminate Ho]. }
    destruct (curve_alg pa) as [an|] eqn:Ec; cbn [ok_or bind].
    2:{ left. split; [reflexivity|]. apply (Hno True). rewrite E1. intros Ho _. assert (Hx : forall x, curve_alg pa <> Some x) by (intro x; congruence). exfalso.
        destruct a; cbn in Ho; try discriminate Ho; try (destruct Ho); [destruct (Hx EcdsaP256Sha256)|destruct (Hx EcdsaP384Sha384)]; apply curve_alg_spec; match goal with H : Some _ = Some _ |- _ => injection H as -> end; auto. }
    apply curve_alg_spec in Ec. destruct (alg_eqb an a) eqn:Ea; cbn [negb bind].
    2:{ left. split; [reflexivity|]. apply (Hno True). rewrite E1. intros Ho _. assert (an <> a) by (intros ->; rewrite (proj2 (alg_eqb_eq a a) eq_refl) in Ea; discriminate Ea). exfalso.
        destruct a; cbn in Ho; try discriminate Ho; try (destruct Ho); match goal with H : Some _ = Some _ |- _ => injection H as -> end; destruct Ec as [[Ec ->]|[Ec ->]]; try discriminate Ec; congruence. }
    apply alg_eqb_eq in Ea. subst an.
    assert (Ho : oids_of a (ki_oid pki) (Some pa) /\ enabled rsa a /\ (forall b, file_octets P a (ki_key pki) b <-> d_ec P (ki_key pki) = Some b) /\ a <> Ed25519).
    { rewrite E1. destruct Ec as [[-> ->]|[-> ->]]; (split; [split; reflexivity|]; split; [exact I|]; split; [intro b; reflexivity|discriminate]). }
    destruct Ho as (Ho & He & Hf & Hne). destruct (d_ec P (ki_key pki)) as [b|] eqn:Ed; cbn [ok_or bind].
    + right. exists pki. rewrite Ep. split; [reflexivity|]. split; [assumption|]. split; [assumption|]. left. exists b. split; [apply Hf; reflexivity|reflexivity].
    + left. split; [reflexivity|]. apply (Hno True). intros _ _. split; [intros b Hb; apply Hf in Hb; discriminate Hb|assumption].
  - assert (N1 : ki_oid pki <> oid_ec) by (intro H; rewrite H, str_eqb_refl in E1; discriminate E1). destruct (str_eqb (ki_oid pki) oid_ed25519) eqn:E2.
    + apply str_eqb_eq in E2. destruct (alg_eqb Ed25519 a) eqn:Ea; cbn [negb bind].
      * apply alg_eqb_eq in Ea. subst a. right. exists pki. split; [reflexivity|]. split; [exact E2|]. split; [exact I|]. destruct (Nat.ltb (List.length (ki_key pki)) 2) eqn:El.
        -- right. apply Nat.ltb_lt in El. auto.
        -- left. destruct (ki_key pki) as [|x [|y b]] eqn:Ek; try discriminate El. exists b. split; [exists x, y; reflexivity|reflexivity].
      * left. split; [reflexivity|]. apply (Hno True). rewrite E2. intros Ho _. exfalso. destruct a; cbn in Ho; first [contradiction|discriminate Ea|discriminate Ho|destruct Ho as [Ho _]; discriminate Ho].
    + assert (N2 : ki_oid pki <> oid_ed25519) by (intro H; rewrite H, str_eqb_refl in E2; discriminate E2). destruct (rsa && str_eqb (ki_oid pki) oid_rsa) eqn:E3.
      * apply andb_prop in E3 as [-> E3]. apply str_eqb_eq in E3. destruct (is_rsa_alg a) eqn:Ea; cbn [negb bind].
        -- right. exists pki. split; [reflexivity|]. rewrite E3. destruct a; try discriminate Ea; (split; [reflexivity|]; split; [reflexivity|]; left; exists (ki_key pki); split; reflexivity).
        -- left. split; [reflexivity|]. apply (Hno True). rewrite E3. intros Ho _. exfalso. destruct a; cbn in Ho; first [contradiction|discriminate Ea|discriminate Ho|destruct Ho as [Ho _]; discriminate Ho].
      * left. split; [reflexivity|]. apply (Hno True). intros Ho He. exfalso. destruct a; cbn in Ho, He; first [contradiction|destruct Ho as [Ho _]; contradiction|subst rsa; rewrite Ho in E3; discriminate E3].
Qed.
Lemma der_error P rsa a der e : secret_from_der P rsa a der = Err e -> e = ParsePrivateKeyError.
Proof.
  intro H. destruct (der_steps P rsa a der) as [[E _]|(pki & _ & _ & _ & [(b & _ & E)|(_ & _ & E)])]; rewrite E in H; [congruence|eapply secret_bytes_err; exact H|discriminate H].
Qed.
Lemma der_panic P rsa a der : (exists q, secret_from_der P rsa a der = Panic q) <->
  exists pki, d_pki P der = Some pki /\ oids_of a (ki_oid pki) (ki_params pki) /\ bad_key_length P a (ki_key pki).
Proof.
  assert (Hlen : forall key b, file_octets P a key b -> ((exists q, secret_from_bytes P rsa a b = Panic q) <-> bad_key_length P a key)).
  { intros key b Hf. rewrite secret_bytes_panic. destruct a; cbn in Hf |- *; try (split; [exact (fun x => x)|exact (fun x => x)]).
    - split; [intro H; eauto|]. intros (b' & E & H). congruence.
    - split; [intro H; eauto|]. intros (b' & E & H). congruence.
    - destruct Hf as (x & y & ->). cbn [length]. split; intro H; intro E; apply H; lia. }
  destruct (der_steps P rsa a der) as [(E & Hf & Hed)|(pki & Hd & Ho & He & [(b & Hf & E)|(-> & Hl & E)])]; rewrite E.
  - split; [intros [q H]; discriminate H|]. intros (pki & Hd & Ho & Hb). exfalso. destruct a; cbn in Hb; try contradiction.
    + destruct Hb as (b & Hb & _). exact (Hf pki Hd Ho I b Hb).
    + destruct Hb as (b & Hb & _). exact (Hf pki Hd Ho I b Hb).
    + exact (Hed pki Hd Ho eq_refl).
  - rewrite (Hlen _ _ Hf). split; [intro H; exists pki; auto|]. intros (pki' & Hd' & _ & H). congruence.
  - split; [|eauto]. intros _. exists pki. split; [assumption|]. split; [assumption|]. cbn. lia.
Qed.
Lemma public_pem_error P rsa a pem e : public_from_pem P rsa a pem = Err e -> e = ParsePublicKeyError.
Proof.
  assert (Hb : forall b, public_from_bytes P rsa a b = Err e -> e = ParsePublicKeyError).
  { intros b H. unfold public_from_bytes in H. destruct a; try (injection H as <-; reflexivity); try (destruct rsa; [|injection H as <-; reflexivity]);
      match type of H with rmap _ (ok_or ?x _) = _ => destruct x end; try discriminate H; injection H as <-; reflexivity. }
  unfold public_from_pem. destruct (d_pem P pem) as [[tag doc]|]; cbn [ok_or bind]; [|intro H; injection H as <-; reflexivity].
  destruct (negb _); [intro H; injection H as <-; reflexivity|]. destruct (d_spki P doc) as [s|]; cbn [ok_or bind]; [|intro H; injection H as <-; reflexivity].
  destruct (str_eqb (si_oid s) oid_ec).
  - destruct (si_params s) as [pa|]; cbn [ok_or bind]; [|intro H; injection H as <-; reflexivity]. destruct (curve_alg pa) as [an|]; cbn [ok_or bind]; [|intro H; injection H as <-; reflexivity].
    destruct (negb _); cbn [bind]; [intro H; injection H as <-; reflexivity|]. destruct (si_key s); cbn [ok_or bind]; [apply Hb|intro H; injection H as <-; reflexivity].
  - destruct (str_eqb (si_oid s) oid_ed25519); [|destruct (rsa && _)]; try destruct (negb _); cbn [bind]; try (intro H; injection H as <-; reflexivity);
      (destruct (si_key s); cbn [ok_or bind]; [apply Hb|intro H; injection H as <-; reflexivity]).
Qed.
Lemma public_pem_panic P rsa a pem q : public_from_pem P rsa a pem <> Panic q.
Proof.
  assert (Hb : forall b, public_from_bytes P rsa a b <> Panic q).
  { intros b H. unfold public_from_bytes in H. destruct a; try discriminate H; try (destruct rsa; [|discriminate H]); match type of H with rmap _ (ok_or ?x _) = _ => destruct x end; discriminate H. }
  unfold public_from_pem. destruct (d_pem P pem) as [[tag doc]|]; cbn [ok_or bind]; [|discriminate].
  destruct (negb _); [discriminate|]. destruct (d_spki P doc) as [s|]; cbn [ok_or bind]; [|discriminate]. destruct (str_eqb (si_oid s) oid_ec).
  - destruct (si_params s) as [pa|]; cbn [ok_or bind]; [|discriminate]. destruct (curve_alg pa) as [an|]; cbn [ok_or bind]; [|discriminate].
    destruct (negb _); cbn [bind]; [discriminate|]. destruct (si_key s); cbn [ok_or bind]; [apply Hb|discriminate].
  - destruct (str_eqb (si_oid s) oid_ed25519); [|destruct (rsa && _)]; try destruct (negb _); cbn [bind]; try discriminate;
      (destruct (si_key s); cbn [ok_or bind]; [apply Hb|discriminate]).
Qed.
Lemma public_verify_error {P} (k : public_key P) d s e : public_verify k d s = Err e <->
  signature_length k s /\ (e = ParseSignatureError /\ ~ signature_form k s \/ e = InvalidSignature /\ signature_form k s /\ ~ signature_right k d s).
Proof.
  assert (Hc : forall f r : bool, (if negb f then Err ParseSignatureError else if r then Ok tt else Err InvalidSignature) = Err e
    <-> (e = ParseSignatureError /\ ~ f = true \/ e = InvalidSignature /\ f = true /\ ~ r = true)).
  { intros [] []; cbn [negb]; split.
    - discriminate.
    - intros [[_ H]|(_ & _ & H)]; congruence.
    - intro H. injection H as <-. right. auto.
    - intros [[_ H]|(-> & _ & _)]; [congruence|reflexivity].
    - intro H. injection H as <-. left. split; [reflexivity|discriminate].
    - intros [[-> _]|(_ & H & _)]; [reflexivity|discriminate H].
    - intro H. injection H as <-. left. split; [reflexivity|discriminate].
    - intros [[-> _]|(_ & H & _)]; [reflexivity|discriminate H]. }
  destruct k; cbn [public_verify signature_length signature_form signature_right]; try (rewrite Hc; tauto); (destruct (has_len _ s) eqn:E; [apply has_len_eq in E; rewrite Hc; tauto|]);
    (split; [discriminate|]; intros [Hl _]; apply has_len_eq in Hl; congruence).
Qed.
