(** Component values *)
From Coq Require Import ZifyBool ZifyNat ZifyN.
From Verif Require Import Base BaseFacts Utf8 Base64 Sfv SfvFacts SfvRound SpecSfv SpecSfvProofs SpecGrammar GrammarProofs SpecCanon CanonProofs Component Params SpecId IdProofs Crypto SigBase Http Hyper SpecValue.
Ltac Zify.zify_post_hook ::= Z.div_mod_to_equations.

Lemma comma_join_spec l : join (lit ", ") l = comma_join l.
Proof. destruct l as [|x l]; [reflexivity|]. rewrite join_cons_flat. reflexivity. Qed.

(** ** C07 *)
Lemma field_params_req ps vs : (forall p, In p ps -> p = Req) -> field_params ps vs = Ok vs.
Proof.
  induction ps as [|p ps IH]; intro H; [reflexivity|]. assert (p = Req) by (apply H; left; reflexivity). subst p.
  cbn [field_params]. apply IH. intros; apply H; right; assumption.
Qed.
Definition unsupported (p : cparam) : Prop := match p with Bs | Tr | Name _ => True | _ => False end.
Definition transforming (p : cparam) : Prop := match p with Sf | Key _ => True | _ => False end.
Lemma handle_sf_err vs : (exists o, handle_params_sf vs = Ok o) \/ handle_params_sf vs = Err InvalidComponentParam.
Proof.
  unfold handle_params_sf. induction vs as [|v vs IH]; cbn [collect]; [eauto|].
  assert (Hs : (exists t, sf_line v = Ok t) \/ sf_line v = Err InvalidComponentParam).
  { unfold sf_line. destruct (parse_list v) as [l|]; [destruct (ser_list l); cbn; eauto|].
    destruct (parse_dict v) as [d|]; [destruct (ser_dict d); cbn; eauto|auto]. }
  destruct Hs as [[t ->]| ->]; [|auto]. destruct IH as [[o ->]| ->]; eauto.
Qed.
Lemma handle_key_err vs k : (exists o, handle_params_key_into vs k = Ok o) \/ handle_params_key_into vs k = Err InvalidComponentParam.
Proof.
  unfold handle_params_key_into.
  destruct (collect (fun v => ok_or (parse_dict v) InvalidComponentParam) vs) as [ds|e|p] eqn:E; cbn [bind].
  - destruct (ocollect _ _); cbn; eauto.
  - right. revert e E. induction vs as [|v vs IH]; cbn [collect]; [discriminate|]. intros e.
    destruct (parse_dict v); cbn [ok_or]; [|intro H; inv H; reflexivity].
    destruct (collect _ vs); try discriminate. intro H. inv H. apply IH. reflexivity.
  - exfalso. revert p E. induction vs as [|v vs IH]; cbn [collect]; [discriminate|]. intros p.
    destruct (parse_dict v); cbn [ok_or]; [|discriminate].
    destruct (collect _ vs); try discriminate. intro H. inv H. eapply IH. reflexivity.
Qed.
Lemma field_params_unsupported a p b : unsupported p -> forall vs,
  field_params (a ++ p :: b) vs = Err NotYetImplemented
  \/ (field_params (a ++ p :: b) vs = Err InvalidComponentParam /\ exists q, In q a /\ transforming q).
Proof.
  intro Hu. induction a as [|q a IH]; intro vs; cbn [app].
  - destruct p; try destruct Hu; cbn [field_params]; left; reflexivity.
  - assert (Hrec : forall vs', field_params (a ++ p :: b) vs' = Err NotYetImplemented
      \/ (field_params (a ++ p :: b) vs' = Err InvalidComponentParam /\ exists r, In r (q :: a) /\ transforming r)).
    { intros vs'. destruct (IH vs') as [->|[-> (r & Hr & Ht)]]; eauto. right. split; [reflexivity|]. exists r. split; [right|]; assumption. }
    destruct q; cbn [field_params]; try (left; reflexivity); try apply Hrec.
    + destruct (handle_sf_err vs) as [[o ->]| ->]; cbn [bind]; [apply Hrec|].
      right. split; [reflexivity|]. exists Sf. split; [left; reflexivity|exact I].
    + destruct (handle_key_err vs s) as [[o ->]| ->]; cbn [bind]; [apply Hrec|].
      right. split; [reflexivity|]. exists (Key s). split; [left; reflexivity|exact I].
Qed.
Lemma field_params_never_panics ps : forall vs p, field_params ps vs <> Panic p.
Proof.
  induction ps as [|q ps IH]; intros vs p; cbn [field_params]; [discriminate|]. destruct q; try discriminate.
  - destruct (handle_sf_err vs) as [[o ->]| ->]; cbn [bind]; [apply IH|discriminate].
  - destruct (handle_key_err vs s) as [[o ->]| ->]; cbn [bind]; [apply IH|discriminate].
  - apply IH.
Qed.

(** ** C08 *)
Lemma ser_list_some l t : ser_list l = Some t <-> l <> [] /\ t = join [cComma; cSP] (map ser_entry l).
Proof.
  unfold ser_list. destruct l; [split; [discriminate|intros [H _]; congruence]|].
  split; [intro H; injection H as <-; split; [discriminate|reflexivity]|intros [_ ->]; reflexivity].
Qed.
Lemma ser_dict_some l t : ser_dict l = Some t <-> l <> [] /\ t = join [cComma; cSP] (map ser_member l).
Proof.
  unfold ser_dict. destruct l; [split; [discriminate|intros [H _]; congruence]|].
  split; [intro H; injection H as <-; split; [discriminate|reflexivity]|intros [_ ->]; reflexivity].
Qed.
(** [canonical] in terms of the parser and the serializer *)
Definition reser (v v' : str) : Prop :=
  (exists l, l <> [] /\ parse_list v = Some l /\ ser_list l = Some v')
  \/ (parse_list v = None /\ exists d, d <> [] /\ parse_dict v = Some d /\ ser_dict d = Some v').
Lemma field_list_value l v : list_field l v -> list_value l.
Proof. intro H. apply parse_list_spec, parse_list_wf in H. apply list_value_spec, H. Qed.
Lemma field_dict_value d v : dict_field d v -> dict_value d.
Proof. intro H. apply parse_dict_spec, parse_dict_wf in H. apply dict_value_spec, H. Qed.
Lemma canon_list_nonempty l t : canon_list l t -> l <> [].
Proof. intros (ts & H & Hs) ->. inversion H; subst. inversion Hs. Qed.
Lemma canon_dict_nonempty d t : canon_dict d t -> d <> [].
Proof. intros (ts & H & Hs) ->. inversion H; subst. inversion Hs. Qed.
Lemma canonical_reser v t : canonical v t <-> reser v t.
Proof.
  unfold reser, canonical. split.
  - intros [(l & Hl & Hc)|(Hn & d & Hd & Hc)].
    + left. exists l. split; [eapply canon_list_nonempty; eassumption|]. split; [apply parse_list_spec, Hl|]. apply canon_list_spec in Hc; [exact Hc|eapply field_list_value; eassumption].
    + right. split; [destruct (parse_list v) as [l|] eqn:E; [apply parse_list_spec in E; destruct (Hn l E)|reflexivity]|].
      exists d. split; [eapply canon_dict_nonempty; eassumption|]. split; [apply parse_dict_spec, Hd|]. apply canon_dict_spec in Hc; [exact Hc|eapply field_dict_value; eassumption].
  - intros [(l & Hn & Hp & Hs)|(Hp & d & Hn & Hd & Hs)].
    + left. exists l. apply parse_list_spec in Hp. split; [exact Hp|]. apply canon_list_spec; [eapply field_list_value; eassumption|exact Hs].
    + right. split; [intros l Hl; apply parse_list_spec in Hl; congruence|]. exists d. apply parse_dict_spec in Hd. split; [exact Hd|].
      apply canon_dict_spec; [eapply field_dict_value; eassumption|exact Hs].
Qed.
Lemma reser_spec v t : sf_line v = Ok t <-> reser v t.
Proof.
  unfold sf_line, reser. destruct (parse_list v) as [l|].
  - destruct (ser_list l) as [x|] eqn:E; cbn [ok_or].
    + split.
      * intro H. inv H. left. exists l. split; [|auto]. apply ser_list_some in E. apply E.
      * intros [(l' & _ & H & Hs)|[H _]]; [|discriminate]. inv H. congruence.
    + split; [discriminate|]. intros [(l' & _ & H & Hs)|[H _]]; [|discriminate]. inv H. congruence.
  - destruct (parse_dict v) as [d|].
    + destruct (ser_dict d) as [x|] eqn:E; cbn [ok_or].
      * split.
        -- intro H. inv H. right. split; [reflexivity|]. exists d. split; [|auto]. apply ser_dict_some in E. apply E.
        -- intros [(l' & _ & H & Hs)|[_ (d' & _ & H & Hs)]]; [discriminate|]. inv H. congruence.
      * split; [discriminate|]. intros [(l' & _ & H & Hs)|[_ (d' & _ & H & Hs)]]; [discriminate|]. inv H. congruence.
    + split; [discriminate|]. intros [(l' & _ & H & Hs)|[_ (d' & _ & H & Hs)]]; discriminate.
Qed.
Lemma reser_err v : (forall t, ~ reser v t) -> sf_line v = Err InvalidComponentParam.
Proof.
  intro H. destruct (handle_sf_err [v]) as [[o Ho]|Ho]; unfold handle_params_sf in Ho; cbn [collect] in Ho.
  - destruct (sf_line v) eqn:E; try discriminate. apply reser_spec in E. exfalso. exact (H a E).
  - destruct (sf_line v) eqn:E; inv Ho. reflexivity.
Qed.
(** the text of a dictionary that also reads as a list *)
Lemma p_entry_member k e t x r : wf_member (k, e) -> stopp t ->
  p_entry (ser_member (k, e) ++ t) = Some (x, r) ->
  (exists ps, e = EItem (mkItem (BBool true) ps) /\ x = EItem (mkItem (BTok k) ps) /\ r = t)
  \/ (exists r', r = cEq :: r').
Proof.
  intros [Hk He] Ht H. cbn [fst snd] in *. assert (Hkh := key_head k Hk). destruct Hk as [Hk1 Hk2].
  assert (Hcase : (exists ps, e = EItem (mkItem (BBool true) ps) /\ ser_member (k, e) = k ++ ser_params ps) \/
     ser_member (k, e) = k ++ cEq :: ser_entry e).
  { destruct e as [[b ps]|l]; [|right; reflexivity]. destruct b as [| | | | |[]| |]; try (right; reflexivity). left. eauto. }
  assert (Htok : forall u, headn is_tok_char u -> p_bare (k ++ u) = Some (BTok k, u)).
  { intros u Hu. destruct k as [|c k]; [destruct Hkh|]. cbn [app p_bare].
    assert (E : (c =? cMinus) || is_digit c = false /\ (c =? cQuote) = false /\ is_tok_start c = true) by chars.
    destruct E as (E1 & E2 & E3). rewrite E1, E2, E3.
    change (c :: k ++ u) with ((c :: k) ++ u). rewrite span_app; [reflexivity| |assumption].
    revert Hk2. clear. intro H. apply forallb_forall. intros x Hx. rewrite forallb_forall in H. specialize (H x Hx). chars. }
  destruct Hcase as [(ps & -> & E)|E]; rewrite E in H.
  - left. exists ps. split; [reflexivity|]. rewrite <- app_assoc in H.
    assert (Hp : p_entry (k ++ ser_params ps ++ t) = Some (EItem (mkItem (BTok k) ps), t)).
    { assert (Hi : p_item (k ++ ser_params ps ++ t) = Some (mkItem (BTok k) ps, t)).
      { unfold p_item. rewrite Htok.
        - rewrite ser_params_round; [reflexivity| |assumption]. apply He.
        - destruct ps; [apply stopp_stopq in Ht|]; cbn [ser_params flat_map app].
          + revert Ht. unfold stopq, headn. destruct t as [|c t]; [trivial|]. intro Hx. bb. assumption.
          + rewrite ser_param_eq. reflexivity. }
      destruct k as [|c k]; [destruct Hkh|]. cbn [app p_entry]. destruct (c =? cLPar) eqn:El; [chars|].
      cbn [app] in Hi. rewrite Hi. reflexivity. }
    rewrite Hp in H. pinv H. auto.
  - right. rewrite <- app_assoc in H. cbn [app] in H.
    assert (Hi : p_item (k ++ cEq :: ser_entry e ++ t) = Some (mkItem (BTok k) [], cEq :: ser_entry e ++ t)).
    { unfold p_item. rewrite Htok by reflexivity. reflexivity. }
    destruct k as [|c k]; [destruct Hkh|]. cbn [app p_entry] in H. destruct (c =? cLPar) eqn:El; [chars|].
    cbn [app] in Hi. rewrite Hi in H. pinv H. eauto.
Qed.
Lemma ser_member_tok k ps : ser_entry (EItem (mkItem (BTok k) ps)) = ser_member (k, EItem (mkItem (BBool true) ps)).
Proof. reflexivity. Qed.
Lemma p_entry_dict_f f : forall d l, Forall wf_member d ->
  p_sep_f p_entry f (join [cComma; cSP] (map ser_member d)) = Some l ->
  map ser_entry l = map ser_member d.
Proof.
  induction f as [|f IH]; intros d l Hd H; [discriminate|]. cbn [p_sep_f] in H.
  destruct d as [|[k e] d]; [cbn in H; inv H; reflexivity|].
  inversion Hd as [|? ? Hm Hd']; subst.
  set (t := match d with [] => [] | _ => cComma :: cSP :: join [cComma; cSP] (map ser_member d) end).
  assert (Es : join [cComma; cSP] (map ser_member ((k, e) :: d)) = ser_member (k, e) ++ t).
  { subst t. destruct d; [cbn [map join]; rewrite app_nil_r; reflexivity|reflexivity]. }
  assert (Ht : stopp t) by (subst t; destruct d; [exact I|reflexivity]).
  rewrite Es in H. assert (Hne := ser_member_head _ Hm).
  destruct (ser_member (k, e) ++ t) as [|c s] eqn:Ec.
  { destruct (ser_member (k, e)); [destruct Hne|discriminate]. }
  rewrite <- Ec in H. destruct (p_entry (ser_member (k, e) ++ t)) as [[x r]|] eqn:Ep; [|discriminate].
  destruct (p_entry_member _ _ _ _ _ Hm Ht Ep) as [(ps & -> & -> & ->)|(r' & ->)].
  - subst t. destruct d as [|m2 d].
    + cbn [skip] in H. inv H. cbn [map]. rewrite ser_member_tok. reflexivity.
    + assert (Hh : skip is_ows (join [cComma; cSP] (map ser_member (m2 :: d))) = join [cComma; cSP] (map ser_member (m2 :: d)))
        by (apply skip_id, (join_head ser_member wf_member ser_member_head); assumption).
      specialize (IH (m2 :: d)). remember (join [cComma; cSP] (map ser_member (m2 :: d))) as J eqn:EJ.
      change (skip is_ows (cComma :: cSP :: J)) with (cComma :: cSP :: J) in H. cbn iota in H.
      change (cComma =? cComma) with true in H. cbn iota in H.
      assert (Hj : skip is_ows (cSP :: J) = skip is_ows J) by (unfold skip; cbn [span]; change (is_ows cSP) with true; cbn iota; destruct (span is_ows J); reflexivity).
      rewrite Hj, Hh in H.
      destruct J as [|c2 s2]; [discriminate|].
      destruct (p_sep_f p_entry f _) as [l'|] eqn:El; [|discriminate]. inv H.
      cbn [map]. rewrite ser_member_tok. f_equal. apply IH; [assumption|reflexivity].
  - cbn in H. discriminate.
Qed.
Lemma dict_reads_as_list d l : wf_dict d -> parse_list (join [cComma; cSP] (map ser_member d)) = Some l ->
  map ser_entry l = map ser_member d.
Proof.
  intros [Hd _] H. unfold parse_list in H. rewrite skip_id in H by (apply ows_sp, (join_head ser_member wf_member ser_member_head); assumption).
  eapply p_entry_dict_f; eassumption.
Qed.
Lemma reser_idem v v' : reser v v' -> reser v' v'.
Proof.
  intros [(l & Hn & Hp & Hs)|(_ & d & Hn & Hp & Hs)].
  - left. exists l. split; [assumption|]. split; [|assumption]. apply ser_list_some in Hs as [_ ->].
    apply parse_list_round. eapply parse_list_wf; eassumption.
  - apply parse_dict_wf in Hp. pose proof Hs as Hs'. apply ser_dict_some in Hs as [_ E].
    destruct (parse_list v') as [l|] eqn:El.
    + left. exists l. assert (Em : map ser_entry l = map ser_member d) by (apply dict_reads_as_list; [assumption|congruence]).
      assert (l <> []) by (destruct l; [destruct d; [congruence|discriminate]|discriminate]).
      split; [assumption|]. split; [assumption|]. apply ser_list_some. split; [assumption|]. rewrite Em. exact E.
    + right. split; [assumption|]. exists d. split; [assumption|]. split; [|assumption]. rewrite E. apply parse_dict_round. assumption.
Qed.
Lemma reser_fun v t t' : reser v t -> reser v t' -> t = t'.
Proof. intros H H'. apply reser_spec in H. apply reser_spec in H'. congruence. Qed.
Lemma reser_same_value v v' : reser v v' ->
  (exists l, parse_list v = Some l /\ parse_list v' = Some l) \/ (exists d, parse_dict v = Some d /\ parse_dict v' = Some d).
Proof.
  intros [(l & Hn & Hp & Hs)|(_ & d & Hn & Hp & Hs)].
  - left. exists l. split; [assumption|]. apply ser_list_some in Hs as [_ ->]. apply parse_list_round. eapply parse_list_wf; eassumption.
  - right. exists d. split; [assumption|]. apply ser_dict_some in Hs as [_ ->]. apply parse_dict_round. eapply parse_dict_wf; eassumption.
Qed.
(** exactly the nonempty lists and dictionaries have a reser text *)
Lemma reser_exists v : (exists t, reser v t) <->
  (exists l, l <> [] /\ parse_list v = Some l) \/ (parse_list v = None /\ exists d, parse_dict v = Some d).
Proof.
  split.
  - intros (t & [(l & Hn & Hp & Hs)|(Hl & d & Hn & Hp & Hs)]); [left|right]; eauto.
  - intros [(l & Hn & Hp)|(Hl & d & Hp)].
    + exists (join [cComma; cSP] (map ser_entry l)). left. exists l. repeat split; try assumption. apply ser_list_some. auto.
    + assert (Hn : d <> []).
      { intros ->. unfold parse_dict in Hp. destruct (p_sep p_member (skip is_sp v)) as [m|] eqn:E; [|discriminate].
        assert (m = []). { destruct m as [|x m]; [reflexivity|]. inversion Hp as [Hi].
          pose proof (im_of_list_keys (x :: m)) as Hk. rewrite Hi in Hk. cbn in Hk. discriminate. }
        subst m. apply (p_sep_nil p_member) in E; [|reflexivity]. unfold parse_list in Hl. rewrite E in Hl. discriminate. }
      exists (join [cComma; cSP] (map ser_member d)). right. split; [assumption|]. exists d. repeat split; try assumption. apply ser_dict_some. auto.
Qed.
Lemma no_list_field v : (forall l, ~ list_field l v) <-> parse_list v = None.
Proof.
  split.
  - intro H. destruct (parse_list v) as [l|] eqn:E; [|reflexivity]. apply parse_list_spec in E. destruct (H l E).
  - intros H l Hl. apply parse_list_spec in Hl. congruence.
Qed.
Lemma no_dict_field v : (forall d, ~ dict_field d v) <-> parse_dict v = None.
Proof.
  split.
  - intro H. destruct (parse_dict v) as [l|] eqn:E; [|reflexivity]. apply parse_dict_spec in E. destruct (H l E).
  - intros H l Hl. apply parse_dict_spec in Hl. congruence.
Qed.
Lemma sf_line_spec v t : sf_line v = Ok t <-> canonical v t.
Proof. rewrite canonical_reser. apply reser_spec. Qed.
Lemma sf_line_err v : (forall t, ~ canonical v t) -> sf_line v = Err InvalidComponentParam.
Proof. intro H. apply reser_err. intros t Ht. apply canonical_reser in Ht. exact (H t Ht). Qed.
Lemma canonical_idem v v' : canonical v v' -> canonical v' v'.
Proof. rewrite !canonical_reser. apply reser_idem. Qed.
Lemma canonical_fun v t t' : canonical v t -> canonical v t' -> t = t'.
Proof. rewrite !canonical_reser. apply reser_fun. Qed.
Lemma canonical_same_value v v' : canonical v v' -> (exists l, list_field l v /\ list_field l v') \/ (exists d, dict_field d v /\ dict_field d v').
Proof.
  rewrite canonical_reser. intro H. apply reser_same_value in H as [(l & H1 & H2)|(d & H1 & H2)]; [left; exists l; apply parse_list_spec in H1, H2|right; exists d; apply parse_dict_spec in H1, H2]; auto.
Qed.
Lemma canonical_exists v : (exists t, canonical v t) <-> (exists l, l <> [] /\ list_field l v) \/ ((forall l, ~ list_field l v) /\ exists d, dict_field d v).
Proof.
  assert (E : (exists t, canonical v t) <-> exists t, reser v t) by (split; intros (t & H); exists t; apply canonical_reser; exact H).
  rewrite E, reser_exists, no_list_field.
  split; (intros [(l & Hn & Hl)|(Hn & d & Hd)]; [left; exists l; apply parse_list_spec in Hl|right; split; [assumption|]; exists d; apply parse_dict_spec in Hd]; auto).
Qed.
Lemma handle_sf_spec vs vs' : handle_params_sf vs = Ok vs' <-> Forall2 canonical vs vs'.
Proof.
  unfold handle_params_sf. rewrite collect_ok. split; intro H; induction H; constructor; try assumption; apply sf_line_spec; assumption.
Qed.

(** ** C09 *)
Lemma im_get_In {V} (d : list (str * V)) k e : NoDup (map fst d) -> (im_get d k = Some e <-> In (k, e) d).
Proof.
  induction d as [|[k' v] d IH]; cbn [im_get]; intro H; [split; [discriminate|intros []]|]. inversion H as [|? ? Hn Hd]; subst.
  destruct (str_eqb k k') eqn:E.
  - apply str_eqb_eq in E. subst k'. split; [intro Hs; inv Hs; left; reflexivity|].
    intros [Hi|Hi]; [inv Hi; reflexivity|]. exfalso. apply Hn. apply (in_map fst) in Hi. exact Hi.
  - split; [intro Hs; right; apply IH; assumption|]. intros [Hi|Hi]; [inv Hi; rewrite str_eqb_refl in E; discriminate|]. apply IH; assumption.
Qed.
Lemma im_get_notin {V} (d : list (str * V)) k : im_get d k = None <-> ~ In k (map fst d).
Proof.
  induction d as [|[k' v] d IH]; cbn [im_get map]; [split; [intros _ []|reflexivity]|]. destruct (str_eqb k k') eqn:E.
  - apply str_eqb_eq in E. subst k'. split; [discriminate|]. intro H. exfalso. apply H. left. reflexivity.
  - rewrite IH. cbn [fst In]. split; [intros H [Hk|Hk]; [subst k'; rewrite str_eqb_refl in E; discriminate|contradiction]|intros H Hk; apply H; right; assumption].
Qed.
Lemma parse_dicts_spec vs ds : collect (fun v => @ok_or err _ (parse_dict v) InvalidComponentParam) vs = Ok ds <-> Forall2 (fun v d => parse_dict v = Some d) vs ds.
Proof.
  rewrite collect_ok. split; intro H; induction H as [|v d vs ds Hv H IH]; constructor; try assumption.
  - destruct (parse_dict v); inv Hv. reflexivity.
  - rewrite Hv. reflexivity.
Qed.
(** [member_texts] in terms of the parser and the serializer *)
Inductive selected (k : str) : list sdict -> list str -> Prop :=
| sel_nil : selected k [] []
| sel_take d e ds out : In (k, e) d -> selected k ds out -> selected k (d :: ds) (ser_entry e :: out)
| sel_skip d ds out : ~ In k (map fst d) -> selected k ds out -> selected k (d :: ds) out.
Lemma selected_spec k (ds : list sdict) out : Forall (fun d : sdict => NoDup (map fst d)) ds ->
  (ocollect (fun o => o) (filter_map (fun d : sdict => match im_get d k with Some e => Some (ser_list [e]) | None => None end) ds) = Some out
   <-> selected k ds out).
Proof.
  intro H. revert out. induction H as [|d ds Hd H IH]; intro out.
  - cbn. split; [intro Hs; inv Hs; constructor|intro Hs; inv Hs; reflexivity].
  - cbn [filter_map]. destruct (im_get d k) as [e|] eqn:E.
    + cbn [ocollect ser_list map join]. split.
      * destruct (ocollect _ _) as [o|]; [|discriminate]. intro Hs; inv Hs. apply sel_take; [apply im_get_In; assumption|]. apply IH. reflexivity.
      * intro Hs. inversion Hs as [|d' e' ds' o Hi Ho|d' ds' o Hi Ho]; subst.
        -- apply IH in Ho. apply im_get_In in Hi; [|assumption]. rewrite Hi in E. inv E. destruct (ocollect _ _); inv Ho. reflexivity.
        -- apply im_get_notin in Hi. congruence.
    + split.
      * intro Hs. apply sel_skip; [apply im_get_notin; assumption|]. apply IH. assumption.
      * intro Hs. inversion Hs as [|d' e' ds' o Hi Ho|d' ds' o Hi Ho]; subst; [|apply IH; assumption].
        apply im_get_In in Hi; [|assumption]. congruence.
Qed.
Lemma dicts_nodup vs ds : Forall2 (fun v d => parse_dict v = Some d) vs ds -> Forall (fun d : sdict => NoDup (map fst d)) ds.
Proof. intro H. induction H as [|v d vs ds Hv H IH]; constructor; [|assumption]. apply parse_dict_wf in Hv. apply Hv. Qed.
Lemma member_texts_spec k vs out : (exists ds, Forall2 (fun v d => parse_dict v = Some d) vs ds /\ selected k ds out) <-> member_texts k vs out.
Proof.
  split.
  - intros (ds & Hd & Hs). revert vs Hd. induction Hs as [|d e ds out Hi Hs IH|d ds out Hi Hs IH]; intros vs Hd; inversion Hd as [|v d' vs' ds' Hv Hd']; subst.
    + constructor.
    + apply parse_dict_spec in Hv. apply (mt_take k v d e); [exact Hv|exact Hi| |apply IH; exact Hd'].
      apply canon_entry_spec; [|reflexivity]. pose proof (field_dict_value d v Hv) as [He _]. rewrite Forall_forall in He. apply (He _ Hi).
    + apply parse_dict_spec in Hv. apply (mt_skip k v d); [exact Hv|exact Hi|apply IH; exact Hd'].
  - induction 1 as [|v d e t vs ts Hv Hi Hc H (ds & Hd & Hs)|v d vs ts Hv Hi H (ds & Hd & Hs)].
    + exists []. split; constructor.
    + exists (d :: ds). split; [constructor; [apply parse_dict_spec, Hv|exact Hd]|].
      apply canon_entry_spec in Hc; [subst t; apply sel_take; assumption|]. pose proof (field_dict_value d v Hv) as [He _]. rewrite Forall_forall in He. apply (He _ Hi).
    + exists (d :: ds). split; [constructor; [apply parse_dict_spec, Hv|exact Hd]|]. apply sel_skip; assumption.
Qed.
Lemma handle_key_selected vs k out : handle_params_key_into vs k = Ok out <->
  exists ds, Forall2 (fun v d => parse_dict v = Some d) vs ds /\ selected k ds out.
Proof.
  unfold handle_params_key_into. split.
  - destruct (collect _ vs) as [ds|e|p] eqn:E; cbn [bind]; try discriminate. apply parse_dicts_spec in E.
    intro H. exists ds. split; [assumption|]. apply selected_spec; [eapply dicts_nodup; eassumption|].
    destruct (ocollect _ _); inv H. reflexivity.
  - intros (ds & Hd & Hs). pose proof Hd as Hd'. apply parse_dicts_spec in Hd. rewrite Hd. cbn [bind].
    apply selected_spec in Hs; [|eapply dicts_nodup; eassumption]. apply (f_equal (fun o => ok_or o InvalidComponentParam)) in Hs. exact Hs.
Qed.
Lemma handle_key_spec vs k out : handle_params_key_into vs k = Ok out <-> member_texts k vs out.
Proof. rewrite handle_key_selected. apply member_texts_spec. Qed.
Lemma dict_fields_spec vs ds : Forall2 (fun v d => dict_field d v) vs ds <-> Forall2 (fun v d => parse_dict v = Some d) vs ds.
Proof. split; induction 1; constructor; try assumption; apply parse_dict_spec; assumption. Qed.
(** reading succeeds for every list of dictionaries *)
Lemma selected_total k ds : exists out, selected k ds out.
Proof.
  induction ds as [|d ds (out & IH)]; [exists []; constructor|].
  destruct (im_get d k) as [e|] eqn:E.
  - exists (ser_entry e :: out). apply sel_take; [|assumption]. clear IH. induction d as [|[k' v] d IH]; [discriminate|]. cbn [im_get] in E.
    destruct (str_eqb k k') eqn:Ek; [apply str_eqb_eq in Ek; subst k'; inv E; left; reflexivity|right; auto].
  - exists out. apply sel_skip; [apply im_get_notin|]; assumption.
Qed.
(** members with other keys do not matter *)
Lemma selected_indep k ds ds' out :
  Forall2 (fun d d' : sdict => forall e, In (k, e) d <-> In (k, e) d') ds ds' -> selected k ds out -> selected k ds' out.
Proof.
  intros H. revert out. induction H as [|d d' ds ds' Hd H IH]; intros out Hs; [assumption|].
  inversion Hs as [|d1 e1 ds1 o Hi Ho|d1 ds1 o Hi Ho]; subst.
  - apply sel_take; [apply Hd; assumption|auto].
  - apply sel_skip; [|auto]. intro Hk. apply Hi. apply in_map_iff in Hk as ([k' e] & Hk & He). cbn in Hk. subst k'.
    apply Hd in He. apply (in_map fst) in He. exact He.
Qed.

(** ** HTTP field components *)
Lemma comp_of_values_field i n vs : id_name i = HttpField n ->
  comp_of_values i vs = rmap (fun o => mkComp i (VString (comma_join o))) (field_params (id_params i) vs).
Proof.
  intro H. unfold comp_of_values, build_http_field_component. rewrite H. destruct (field_params (id_params i) vs); cbn [bind rmap]; try reflexivity.
  rewrite comma_join_spec. reflexivity.
Qed.

(** ** C10 *)
Lemma to_upper_id m : upper_case m -> to_upper m = m.
Proof.
  unfold upper_case, to_upper. induction 1 as [|c m Hc H IH]; [reflexivity|]. cbn [map]. rewrite IH. f_equal.
  unfold upper_c. destruct ((97 <=? c) && (c <=? 122)) eqn:E; [lia|reflexivity].
Qed.
Lemma to_lower_lower s : to_lower s = lower s.
Proof. reflexivity. Qed.
(** a request component that needs no parameter other than req *)
Lemma extract_derived_req r d ps : (forall p, In p ps -> p = Req) -> d <> Status ->
  extract_derived_component (MReq r) (mkCid (Derived d) ps) =
  (let* vs := derived_values (MReq r) d in map_err HttpSigError (comp_of_values (mkCid (Derived d) ps) vs)).
Proof.
  intros Hp Hd. unfold extract_derived_component. cbn [id_name id_params].
  assert (Ht : try_for_each (check_derived_param (MReq r) d) ps = Ok tt).
  { induction ps as [|p ps IH]; [reflexivity|]. assert (p = Req) by (apply Hp; left; reflexivity). subst p. cbn. apply IH.
    intros; apply Hp; right; assumption. }
  rewrite Ht. cbn [bind]. destruct d; reflexivity.
Qed.
Lemma req_only_forallb ps : (forall p, In p ps -> p = Req) ->
  forallb (fun p => match p with Req | Name _ => true | _ => false end) ps = true.
Proof. intro H. apply forallb_forall. intros p Hp. rewrite (H p Hp). reflexivity. Qed.
Definition derived_text (d : derived) (v : str) : str :=
  match d with Method => to_upper v | Authority | Scheme => to_lower v | _ => v end.
Lemma comp_of_values_derived d ps v : (forall p, In p ps -> p = Req) -> d <> QueryParam -> d <> SignatureParams ->
  comp_of_values (mkCid (Derived d) ps) [v] = Ok (mkComp (mkCid (Derived d) ps) (VString (derived_text d v))).
Proof.
  intros Hp H1 H2. unfold comp_of_values, build_derived_component. cbn [id_name id_params]. rewrite (req_only_forallb _ Hp). cbn [negb].
  destruct d; try reflexivity; congruence.
Qed.
Lemma derived_absolute m s a p q h b d ps v :
  (d = RequestTarget -> m <> lit "CONNECT" /\ m <> lit "OPTIONS") -> p = [] \/ slash_path p ->
  derived_value m s a (nonempty_path p) q d = Some v -> (forall x, In x ps -> x = Req) ->
  extract_derived_component (MReq (mkReq m (absolute s a p q) h b)) (mkCid (Derived d) ps) = Ok (mkComp (mkCid (Derived d) ps) (VString v)).
Proof.
  intros Hr Hp Hv Hps.
  assert (Hd : d <> Status /\ d <> QueryParam /\ d <> SignatureParams) by (repeat split; intros ->; discriminate Hv).
  rewrite extract_derived_req by tauto.
  assert (Hvs : exists w, derived_values (MReq (mkReq m (absolute s a p q) h b)) d = Ok [w] /\ derived_text d w = v).
  { unfold derived_values, msg_method, msg_uri, absolute. cbn [bind rq_method rq_uri].
    destruct d; try discriminate Hv; cbn [derived_value] in Hv; injection Hv as <-; cbn [derived_text u_auth u_scheme u_path u_query or_empty].
    - eexists. split; reflexivity.
    - eexists. split; [reflexivity|]. unfold uri_str, uri_path. cbn [u_scheme u_auth u_path u_query is_some]. rewrite orb_true_r.
      rewrite <- !app_assoc. f_equal. f_equal. f_equal.
      destruct Hp as [->|(r & ->)]; reflexivity.
    - eexists. split; reflexivity.
    - eexists. split; reflexivity.
    - destruct (Hr eq_refl) as [H1 H2]. apply str_eqb_neq in H1, H2. rewrite H1, H2. eexists. split; [reflexivity|]. unfold uri_path_and_query, pq_data. cbn [u_scheme u_auth u_path u_query is_some orb or_empty].
      destruct Hp as [->|(r & ->)]; [destruct q; reflexivity|reflexivity].
    - eexists. split; [reflexivity|]. unfold uri_path. cbn [u_scheme u_auth u_path u_query is_some]. rewrite orb_true_r.
      destruct Hp as [->|(r & ->)]; reflexivity.
    - eexists. split; [reflexivity|]. destruct q; reflexivity. }
  destruct Hvs as (w & -> & <-). cbn [bind]. rewrite comp_of_values_derived by tauto. reflexivity.
Qed.
(** the origin form has the same values, with neither scheme nor authority *)
Lemma derived_origin m p q h b d ps v :
  (d = RequestTarget -> m <> lit "CONNECT" /\ m <> lit "OPTIONS") -> slash_path p ->
  derived_value m [] [] p q d = Some v -> (forall x, In x ps -> x = Req) ->
  extract_derived_component (MReq (mkReq m (origin p q) h b)) (mkCid (Derived d) ps)
  = Ok (mkComp (mkCid (Derived d) ps) (VString (match d with TargetUri => p ++ query_part q | _ => v end))).
Proof.
  intros Hr Hp Hv Hps.
  assert (Hd : d <> Status /\ d <> QueryParam /\ d <> SignatureParams) by (repeat split; intros ->; discriminate Hv).
  rewrite extract_derived_req by tauto.
  assert (Hvs : exists w, derived_values (MReq (mkReq m (origin p q) h b)) d = Ok [w] /\ derived_text d w = (match d with TargetUri => p ++ query_part q | _ => v end)).
  { unfold derived_values, msg_method, msg_uri, origin. cbn [bind rq_method rq_uri].
    destruct Hp as (r & ->).
    destruct d; try discriminate Hv; cbn [derived_value] in Hv; injection Hv as <-; cbn [derived_text u_auth u_scheme u_path u_query or_empty].
    - eexists. split; reflexivity.
    - eexists. split; [reflexivity|]. unfold uri_str, uri_path, pq_data. cbn [u_scheme u_auth u_path u_query is_some app is_empty negb orb]. reflexivity.
    - eexists. split; reflexivity.
    - eexists. split; reflexivity.
    - destruct (Hr eq_refl) as [H1 H2]. apply str_eqb_neq in H1, H2. rewrite H1, H2. eexists. split; [reflexivity|]. reflexivity.
    - eexists. split; [reflexivity|]. reflexivity.
    - eexists. split; [reflexivity|]. destruct q; reflexivity. }
  destruct Hvs as (w & -> & <-). cbn [bind]. rewrite comp_of_values_derived by tauto. reflexivity.
Qed.
Lemma line_request r rfp d : component_line (MReq r) rfp (mkCid (Derived d) []) = extract_derived_component (MReq r) (mkCid (Derived d) []).
Proof. reflexivity. Qed.
Lemma line_bound x r d : component_line (MRes x) (Some r) (mkCid (Derived d) [Req]) = extract_derived_component (MReq r) (mkCid (Derived d) [Req]).
Proof. reflexivity. Qed.
Lemma nil_req : forall x : cparam, In x [] -> x = Req.
Proof. intros x []. Qed.
Lemma one_req : forall x : cparam, In x [Req] -> x = Req.
Proof. intros x [H|[]]. congruence. Qed.
Lemma target_connect u h b ps : (forall x, In x ps -> x = Req) ->
  extract_derived_component (MReq (mkReq (lit "CONNECT") u h b)) (mkCid (Derived RequestTarget) ps)
  = Ok (mkComp (mkCid (Derived RequestTarget) ps) (VString (match u_auth u with Some a => a | None => [] end))).
Proof.
  intro H. rewrite extract_derived_req by (assumption || discriminate). cbn [derived_values msg_method msg_uri rq_method rq_uri bind].
  rewrite str_eqb_refl. cbn [bind]. rewrite comp_of_values_derived by (assumption || discriminate). reflexivity.
Qed.
Lemma target_options u h b ps : (forall x, In x ps -> x = Req) ->
  extract_derived_component (MReq (mkReq (lit "OPTIONS") u h b)) (mkCid (Derived RequestTarget) ps)
  = Ok (mkComp (mkCid (Derived RequestTarget) ps) (VString (lit "*"))).
Proof.
  intro H. rewrite extract_derived_req by (assumption || discriminate). cbn [derived_values msg_method msg_uri rq_method rq_uri bind].
  rewrite str_eqb_refl. destruct (str_eqb _ (lit "CONNECT")) eqn:E; [discriminate E|].
  cbn [bind]. rewrite comp_of_values_derived by (assumption || discriminate). reflexivity.
Qed.
Lemma dec_three n : 100 <= n < 1000 -> dec n = [48 + n / 100; 48 + n / 10 mod 10; 48 + n mod 10].
Proof.
  intro H. unfold dec.
  assert (E : exists k, S (N.size_nat n) = S (S (S k))).
  { destruct n as [|p]; [lia|]. destruct p as [[p|p|]|[p|p|]|]; try lia; cbn [N.size_nat Pos.size_nat]; eauto. }
  destruct E as (k & ->). cbn [dec_fuel].
  destruct (n <? 10) eqn:E1; [lia|]. destruct (n / 10 <? 10) eqn:E2; [lia|]. destruct (n / 10 / 10 <? 10) eqn:E3; [|lia].
  rewrite N.div_div by lia. reflexivity.
Qed.
Lemma status_line s h b rfp : 100 <= s < 1000 ->
  component_line (MRes (mkRes s h b)) rfp (mkCid (Derived Status) [])
  = Ok (mkComp (mkCid (Derived Status) []) (VString [48 + s / 100; 48 + s / 10 mod 10; 48 + s mod 10])).
Proof.
  intro H. unfold component_line. cbn [id_params set_contains existsb extract_http_message_component id_name].
  unfold extract_derived_component. cbn [id_name id_params try_for_each bind check_derived_name].
  change (derived_values (MRes (mkRes s h b)) Status) with (@Ok herr _ [dec s]). rewrite dec_three by assumption. reflexivity.
Qed.

(** ** C11 *)
Lemma split_once_iff c s a b : split_once c s = Some (a, b) <-> s = a ++ c :: b /\ ~ In c a.
Proof.
  revert a b. induction s as [|x s IH]; intros a b; cbn [split_once].
  - split; [discriminate|]. intros [H _]. destruct a; discriminate.
  - destruct (x =? c) eqn:E.
    + apply N.eqb_eq in E. subst x. split.
      * intro H. inv H. split; [reflexivity|intros []].
      * intros [H Hn]. destruct a as [|y a]; [inv H; reflexivity|]. inv H. exfalso. apply Hn. left. reflexivity.
    + assert (Hx : x <> c) by (intros ->; rewrite N.eqb_refl in E; discriminate). split.
      * destruct (split_once c s) as [[a' b']|] eqn:Es; [|discriminate]. intro H. inv H.
        destruct (IH a' b) as [IH1 _]. destruct (IH1 eq_refl) as [-> Hn]. split; [reflexivity|]. intros [Hi|Hi]; [congruence|contradiction].
      * intros [H Hn]. destruct a as [|y a]; [inv H; congruence|]. cbn [app] in H. inversion H; subst y s; clear H.
        destruct (IH a b) as [_ IH2]. rewrite IH2; [reflexivity|]. split; [reflexivity|]. intro Hi. apply Hn. right. assumption.
Qed.
Lemma split_once_iff_none c s : split_once c s = None <-> ~ In c s.
Proof.
  induction s as [|x s IH]; cbn [split_once]; [split; [intros _ []|reflexivity]|]. destruct (x =? c) eqn:E.
  - apply N.eqb_eq in E. subst x. split; [discriminate|]. intro H. exfalso. apply H. left. reflexivity.
  - assert (Hx : x <> c) by (intros ->; rewrite N.eqb_refl in E; discriminate).
    destruct (split_once c s) as [[a b]|]; [split; [discriminate|]|split; [|reflexivity]].
    + intro H. exfalso. assert (Hd : Some (a, b) = None) by (apply IH; intro Hi; apply H; right; assumption). discriminate Hd.
    + intros _ [Hi|Hi]; [congruence|]. apply (proj1 IH); [reflexivity|assumption].
Qed.
Lemma split_on_text ps : ps <> [] -> Forall (fun x => ~ In 38 x) ps -> split_on cAmp (query_text ps) = ps.
Proof.
  assert (Hone : forall x r, ~ In 38 x -> split_on cAmp (x ++ r) = match split_on cAmp r with p :: t => (x ++ p) :: t | [] => [x] end).
  { intros x r. induction x as [|c x IH]; intro H; cbn [app split_on].
    - destruct r as [|c r]; [reflexivity|]. cbn [split_on]. destruct (c =? cAmp); [reflexivity|]. destruct (split_on cAmp r); reflexivity.
    - destruct (c =? cAmp) eqn:E; [exfalso; apply H; left; unfold cAmp in E; lia|].
      rewrite IH by (intro Hi; apply H; right; assumption). destruct (split_on cAmp r); reflexivity. }
  intros Hn H. destruct ps as [|x ps]; [congruence|]. clear Hn. inversion H as [|? ? Hx Hps]; subst. cbn [query_text].
  assert (Ht : forall ps, Forall (fun x => ~ In 38 x) ps -> split_on cAmp (flat_map (fun y => 38 :: y) ps) = [] :: ps).
  { clear x ps H Hx Hps. intros ps H. induction H as [|y ps Hy H IH]; [reflexivity|]. cbn [flat_map app split_on].
    change (38 =? cAmp) with true. cbn iota. rewrite Hone by assumption. rewrite IH. rewrite app_nil_r. reflexivity. }
  rewrite Hone by assumption. rewrite Ht by assumption. rewrite app_nil_r. reflexivity.
Qed.
Lemma qvalues_spec n ps out : qvalues n ps out <->
  map snd (filter (fun kv : str * str => str_eqb (fst kv) n) (filter_map (split_once cEq) (filter (contains cEq) (filter (fun s => negb (is_empty s)) ps)))) = out.
Proof.
  revert out. induction ps as [|x ps IH]; intro out.
  - cbn. split; [intro H; inv H; reflexivity|intros <-; constructor].
  - cbn [filter].
    assert (Hskip : split_once cEq x = None -> filter_map (split_once cEq) (filter (contains cEq) (filter (fun s => negb (is_empty s)) (x :: ps)))
      = filter_map (split_once cEq) (filter (contains cEq) (filter (fun s => negb (is_empty s)) ps))).
    { intro E. cbn [filter]. destruct (negb (is_empty x)); [|reflexivity]. cbn [filter].
      destruct (contains cEq x) eqn:Ec; [|reflexivity]. apply contains_In in Ec. apply split_once_iff_none in E. contradiction. }
    cbn [filter] in Hskip.
    destruct (split_once cEq x) as [[k v]|] eqn:E.
    + apply split_once_iff in E as E'. destruct E' as [Ex Hk].
      assert (Hne : negb (is_empty x) = true) by (rewrite Ex; destruct k; reflexivity). rewrite Hne. cbn [filter].
      assert (Hc : contains cEq x = true) by (apply contains_In; rewrite Ex; apply in_or_app; right; left; reflexivity).
      rewrite Hc. cbn [filter_map]. rewrite E. cbn [filter fst]. destruct (str_eqb k n) eqn:Ek.
      * apply str_eqb_eq in Ek. subst k. cbn [map snd]. split.
        -- intro H. inversion H as [|v' ps' o Hn Ho Hx|x' ps' o Hn Ho]; subst.
           ++ apply app_inv_head in Hx. injection Hx as <-. f_equal. apply IH. assumption.
           ++ exfalso. apply (Hn v). split; [reflexivity|exact Hk].
        -- intros <-. rewrite Ex. apply qv_take; [exact Hk|]. apply IH. reflexivity.
      * split.
        -- intro H. inversion H as [|v' ps' o Hn Ho Hx|x' ps' o Hn Ho]; subst.
           ++ exfalso. assert (Hs : split_once cEq (k ++ cEq :: v) = Some (n, v')) by (apply split_once_iff; split; [symmetry; exact Hx|exact Hn]).
              assert (Hs' : split_once cEq (k ++ cEq :: v) = Some (k, v)) by (apply split_once_iff; split; [reflexivity|exact Hk]).
              rewrite Hs in Hs'. inv Hs'. rewrite str_eqb_refl in Ek. discriminate.
           ++ apply IH. assumption.
        -- intro H. apply qv_skip; [|apply IH; assumption]. intros v' [Hx Hn].
           assert (Hs : split_once cEq x = Some (n, v')) by (apply split_once_iff; split; assumption).
           rewrite Hs in E. inv E. rewrite str_eqb_refl in Ek. discriminate.
    + rewrite (Hskip eq_refl). apply split_once_iff_none in E. split.
      * intro H. inversion H as [|v' ps' o Hn Ho Hx|x' ps' o Hn Ho]; subst; [|apply IH; assumption].
        exfalso. apply E. apply in_or_app. right. left. reflexivity.
      * intro H. apply qv_skip; [|apply IH; assumption]. intros v' [-> _]. apply E. apply in_or_app. right. left. reflexivity.
Qed.
Lemma query_param_line m u h b n ps pieces out :
  u_query u = Some (query_text pieces) -> Forall (fun x => ~ In 38 x) pieces -> (exists x, In x pieces /\ x <> []) ->
  ps = [Name n] \/ ps = [Name n; Req] \/ ps = [Req; Name n] ->
  qvalues n pieces out ->
  extract_derived_component (MReq (mkReq m u h b)) (mkCid (Derived QueryParam) ps)
  = Ok (mkComp (mkCid (Derived QueryParam) ps) (VString (comma_join out))).
Proof.
  intros Hq Ha (x & Hx & Hne) Hps Hv.
  assert (E : extract_derived_component (MReq (mkReq m u h b)) (mkCid (Derived QueryParam) ps) =
     (let* vs := derived_values (MReq (mkReq m u h b)) QueryParam in map_err HttpSigError (comp_of_values (mkCid (Derived QueryParam) ps) vs))).
  { destruct Hps as [->|[->| ->]]; reflexivity. }
  rewrite E. clear E. cbn [derived_values msg_uri rq_uri bind]. rewrite Hq. cbn [or_empty].
  rewrite split_on_text; [|intros ->; destruct Hx|assumption].
  apply qvalues_spec in Hv. destruct (filter (fun s => negb (is_empty s)) pieces) as [|v0 vs] eqn:Ef.
  { exfalso. assert (Hi : In x (filter (fun s => negb (is_empty s)) pieces)) by (apply filter_In; split; [assumption|destruct x; [congruence|reflexivity]]).
    rewrite Ef in Hi. destruct Hi. }
  unfold comp_of_values, build_derived_component. cbn [id_name id_params].
  assert (Ef2 : forallb (fun p => match p with Req | Name _ => true | _ => false end) ps = true) by (destruct Hps as [->|[->| ->]]; reflexivity).
  assert (En : find_map (fun p => match p with Name n => Some n | _ => None end) ps = Some n) by (destruct Hps as [->|[->| ->]]; reflexivity).
  rewrite Ef2, En. cbn [negb bind map_err]. rewrite Hv, comma_join_spec. reflexivity.
Qed.
Lemma query_param_none m u h b n ps :
  (match u_query u with None => True | Some q => forallb (fun c => c =? 38) q = true end) ->
  ps = [Name n] \/ ps = [Name n; Req] \/ ps = [Req; Name n] ->
  extract_derived_component (MReq (mkReq m u h b)) (mkCid (Derived QueryParam) ps) = Err (HttpSigError InvalidComponent).
Proof.
  intros Hq Hps.
  assert (E : extract_derived_component (MReq (mkReq m u h b)) (mkCid (Derived QueryParam) ps) =
     (let* vs := derived_values (MReq (mkReq m u h b)) QueryParam in map_err HttpSigError (comp_of_values (mkCid (Derived QueryParam) ps) vs))).
  { destruct Hps as [->|[->| ->]]; reflexivity. }
  rewrite E. clear E. cbn [derived_values msg_uri rq_uri bind].
  assert (Ef : filter (fun s : str => negb (is_empty s)) (split_on cAmp (or_empty (u_query u))) = []).
  { destruct (u_query u) as [q|]; [|reflexivity]. cbn [or_empty]. induction q as [|c q IH]; [reflexivity|].
    cbn [forallb] in Hq. apply andb_true_iff in Hq as [H1 H2]. cbn [split_on]. unfold cAmp. rewrite H1. cbn [filter is_empty negb]. apply IH. assumption. }
  rewrite Ef. reflexivity.
Qed.
Lemma qvalues_total n ps : exists out, qvalues n ps out.
Proof. eexists. apply qvalues_spec. reflexivity. Qed.

(** ** req, derived names (C41, C42) *)
Lemma set_contains_Req ps : set_contains ps Req = true <-> In Req ps.
Proof. rewrite set_contains_In. reflexivity. Qed.
Definition not_req (p : cparam) : bool := match p with Req => false | _ => true end.
Lemma field_params_filter ps : forall vs, field_params (filter not_req ps) vs = field_params ps vs.
Proof.
  induction ps as [|p ps IH]; intro vs; [reflexivity|]. destruct p; cbn [filter not_req field_params]; try reflexivity.
  - destruct (handle_params_sf vs); cbn [bind]; try reflexivity. apply IH.
  - destruct (handle_params_key_into vs s); cbn [bind]; try reflexivity. apply IH.
  - apply IH.
Qed.
Lemma req_params_filter r d ps : try_for_each (check_derived_param (MReq r) d) (filter not_req ps) = try_for_each (check_derived_param (MReq r) d) ps.
Proof. induction ps as [|p ps IH]; [reflexivity|]. destruct p; cbn; try reflexivity; [apply IH|]. destruct d; cbn; try reflexivity. apply IH. Qed.
Lemma allowed_filter ps : forallb (fun p => match p with Req | Name _ => true | _ => false end) (filter not_req ps)
  = forallb (fun p => match p with Req | Name _ => true | _ => false end) ps.
Proof. induction ps as [|p ps IH]; [reflexivity|]. destruct p; cbn; try reflexivity; apply IH. Qed.
Lemma find_name_filter ps : find_map (fun p => match p with Name n => Some n | _ => None end) (filter not_req ps)
  = find_map (fun p => match p with Name n => Some n | _ => None end) ps.
Proof. induction ps as [|p ps IH]; [reflexivity|]. destruct p; cbn; try reflexivity; apply IH. Qed.
Lemma comp_of_values_filter nm ps vs :
  comp_of_values (mkCid nm ps) vs = rmap (fun c => mkComp (mkCid nm ps) (co_value c)) (comp_of_values (mkCid nm (filter not_req ps)) vs).
Proof.
  unfold comp_of_values. cbn [id_name]. destruct nm as [n|d].
  - unfold build_http_field_component. cbn [id_params]. rewrite field_params_filter. destruct (field_params ps vs); reflexivity.
  - unfold build_derived_component. cbn [id_name id_params]. destruct vs as [|v0 vs]; [reflexivity|]. rewrite allowed_filter.
    destruct (negb _); [reflexivity|]. rewrite find_name_filter.
    destruct d; try reflexivity.
    + destruct (find_map _ ps); reflexivity.
    + destruct (split_once cEq (trim v0)) as [[k v]|]; reflexivity.
Qed.
Lemma extract_filter r i : extract_http_message_component (MReq r) i
  = rmap (fun c => mkComp i (co_value c)) (extract_http_message_component (MReq r) (mkCid (id_name i) (filter not_req (id_params i)))).
Proof.
  destruct i as [nm ps]. unfold extract_http_message_component. cbn [id_name id_params]. destruct nm as [n|d].
  - unfold extract_http_field. cbn [id_name]. destruct (header_strings _ n) as [vs|e|p]; cbn [bind rmap]; try reflexivity.
    rewrite comp_of_values_filter. destruct (comp_of_values (mkCid (HttpField n) (filter not_req ps)) vs); reflexivity.
  - unfold extract_derived_component. cbn [id_name id_params]. rewrite req_params_filter.
    destruct (try_for_each _ ps); cbn [bind rmap]; try reflexivity.
    assert (E : check_derived_name (MReq r) (mkCid (Derived d) ps) d = check_derived_name (MReq r) (mkCid (Derived d) (filter not_req ps)) d) by reflexivity.
    rewrite E. destruct (check_derived_name _ _ d); cbn [bind rmap]; try reflexivity.
    destruct (derived_values (MReq r) d) as [vs|e|p]; cbn [bind rmap]; try reflexivity.
    rewrite comp_of_values_filter. destruct (comp_of_values (mkCid (Derived d) (filter not_req ps)) vs); reflexivity.
Qed.
Lemma filter_no_req ps : set_contains (filter not_req ps) Req = false.
Proof.
  destruct (set_contains _ _) eqn:E; [|reflexivity]. apply set_contains_Req in E. apply filter_In in E as [_ E]. discriminate E.
Qed.
Lemma line_req_value x r i : In Req (id_params i) ->
  component_line (MRes x) (Some r) i
  = rmap (fun c => mkComp i (co_value c)) (component_line (MReq r) None (mkCid (id_name i) (filter not_req (id_params i)))).
Proof.
  intro H. unfold component_line at 1. apply set_contains_Req in H. rewrite H. cbn [is_request].
  rewrite extract_filter. unfold component_line. cbn [id_params]. rewrite filter_no_req. reflexivity.
Qed.
Lemma derived_err_params m d ps p : In p ps -> check_derived_param m d p <> Ok tt -> exists e, try_for_each (check_derived_param m d) ps = Err e.
Proof.
  intros Hi Hp. induction ps as [|q ps IH]; [destruct Hi|]. cbn [try_for_each].
  assert (Hc : forall q, check_derived_param m d q = Ok tt \/ exists e, check_derived_param m d q = Err e).
  { intro q0. destruct q0; cbn; eauto; [destruct (is_request m); eauto|destruct d; eauto]. }
  destruct (Hc q) as [E|[e E]]; rewrite E; cbn [bind]; [|eauto]. destruct Hi as [->|Hi]; [congruence|auto].
Qed.
Lemma line_derived_params m rfp i d c p : id_name i = Derived d -> component_line m rfp i = Ok c -> In p (id_params i) ->
  p = Req \/ (d = QueryParam /\ exists n, p = Name n).
Proof.
  intros Hn H Hp.
  assert (He : forall m', extract_http_message_component m' i = Ok c -> check_derived_param m' d p = Ok tt).
  { intros m' H'. unfold extract_http_message_component in H'. rewrite Hn in H'. unfold extract_derived_component in H'. rewrite Hn in H'.
    destruct (check_derived_param m' d p) as [[]|e|q] eqn:E; [reflexivity| |];
      destruct (derived_err_params m' d (id_params i) p Hp) as [e' E']; try congruence; rewrite E' in H'; discriminate. }
  unfold component_line in H. assert (Hc : exists m', check_derived_param m' d p = Ok tt).
  { destruct (set_contains (id_params i) Req); [|eauto]. destruct (is_request m); [discriminate|]. destruct rfp; [eauto|discriminate]. }
  destruct Hc as [m' Hc]. destruct p; try discriminate Hc; [left; reflexivity|]. destruct d; try discriminate Hc. right. eauto.
Qed.
Lemma line_derived_response x rfp i d c : id_name i = Derived d -> component_line (MRes x) rfp i = Ok c -> ~ In Req (id_params i) ->
  d = Status \/ d = SignatureParams.
Proof.
  intros Hn H Hr. unfold component_line in H.
  destruct (set_contains (id_params i) Req) eqn:E; [apply set_contains_Req in E; contradiction|].
  unfold extract_http_message_component in H. rewrite Hn in H. unfold extract_derived_component in H. rewrite Hn in H.
  destruct (try_for_each _ _); try discriminate. cbn [bind check_derived_name] in H. rewrite E in H.
  destruct d; try discriminate; auto.
Qed.
Lemma line_status r i c rfp : id_name i = Derived Status -> component_line (MReq r) rfp i <> Ok c.
Proof.
  intros Hn H. unfold component_line in H. destruct (set_contains _ _); [discriminate|].
  unfold extract_http_message_component in H. rewrite Hn in H. unfold extract_derived_component in H. rewrite Hn in H.
  destruct (try_for_each _ _); discriminate.
Qed.
Lemma line_status_req x i c r : id_name i = Derived Status -> In Req (id_params i) -> component_line (MRes x) (Some r) i <> Ok c.
Proof.
  intros Hn Hr H. rewrite line_req_value in H by assumption.
  destruct (component_line (MReq r) None _) eqn:E; try discriminate. eapply line_status; [|exact E]. exact Hn.
Qed.

(** ** never panics *)
Lemma handle_sf_panic vs p : handle_params_sf vs <> Panic p.
Proof. destruct (handle_sf_err vs) as [[o ->]| ->]; discriminate. Qed.
Lemma comp_of_values_panic i vs p : comp_of_values i vs <> Panic p.
Proof.
  unfold comp_of_values. destruct (id_name i) as [n|d] eqn:En.
  - unfold build_http_field_component. destruct (field_params (id_params i) vs) eqn:E; cbn; try discriminate.
    exfalso. eapply field_params_never_panics; eassumption.
  - unfold build_derived_component. rewrite En. destruct vs as [|v0 vs]; [discriminate|]. destruct (negb _); [discriminate|].
    destruct d; try discriminate.
    + destruct (find_map _ _); discriminate.
    + destruct (split_once _ _) as [[]|]; discriminate.
Qed.
Lemma header_strings_panic h n p : header_strings h n <> Panic p.
Proof.
  unfold header_strings. induction (hm_get_all h n) as [|v l IH]; cbn [collect]; [discriminate|].
  destruct (hv_to_str v); cbn [ok_or]; [|discriminate]. destruct (collect _ l); [discriminate|discriminate|]. intro H. apply IH. congruence.
Qed.
Lemma extract_panic m i p : extract_http_message_component m i <> Panic p.
Proof.
  unfold extract_http_message_component. destruct (id_name i) as [n|d] eqn:En.
  - unfold extract_http_field. rewrite En. destruct (header_strings (msg_headers m) n) eqn:E; cbn [bind]; [|discriminate|exfalso; eapply header_strings_panic; exact E].
    destruct (comp_of_values i a) eqn:Ec; try discriminate. exfalso. eapply comp_of_values_panic; exact Ec.
  - unfold extract_derived_component. rewrite En.
    assert (Hc : forall l q, try_for_each (check_derived_param m d) l <> Panic q).
    { induction l as [|x l IH]; intro q; cbn [try_for_each]; [discriminate|].
      destruct x; cbn; try discriminate; [destruct (is_request m); cbn; [apply IH|discriminate]|destruct d; cbn; try discriminate; apply IH]. }
    destruct (try_for_each _ _) eqn:E1; cbn [bind]; [|discriminate|exfalso; eapply Hc; exact E1].
    destruct (check_derived_name m i d) eqn:E2; cbn [bind]; [|discriminate|].
    2:{ exfalso. revert E2. unfold check_derived_name. destruct m; [destruct d; discriminate|]. destruct (_ && _); [discriminate|]. destruct (_ && _); discriminate. }
    destruct (derived_values m d) eqn:E3; cbn [bind]; [|discriminate|].
    2:{ exfalso. revert E3. unfold derived_values, msg_method, msg_uri, msg_status. destruct m; destruct d; cbn; try discriminate;
        destruct (str_eqb _ _); try discriminate; destruct (str_eqb _ _); discriminate. }
    destruct (comp_of_values i a1) eqn:Ec; try discriminate. exfalso. eapply comp_of_values_panic; exact Ec.
Qed.
Lemma line_panic m rfp i p : component_line m rfp i <> Panic p.
Proof.
  unfold component_line. destruct (set_contains _ _); [|apply extract_panic]. destruct (is_request m); [discriminate|].
  destruct rfp; [apply extract_panic|discriminate].
Qed.
Lemma collect_no_panic {E A B} (f : A -> result E B) l p : (forall x q, f x <> Panic q) -> collect f l <> Panic p.
Proof.
  intro H. induction l as [|x l IH]; cbn [collect]; [discriminate|]. destruct (f x) eqn:E1; [|discriminate|exfalso; eapply H; exact E1].
  destruct (collect f l); [discriminate|discriminate|congruence].
Qed.
Lemma base_panic m p rfp q : build_signature_base m p rfp <> Panic q.
Proof.
  unfold build_signature_base. destruct (collect _ _) eqn:E; cbn [bind]; [|discriminate|exfalso; eapply collect_no_panic; [apply line_panic|exact E]].
  unfold base_try_new. destruct (negb _); [discriminate|]. destruct (negb _); discriminate.
Qed.
Lemma target_other m u h b : m <> lit "CONNECT" -> m <> lit "OPTIONS" ->
  extract_derived_component (MReq (mkReq m u h b)) (mkCid (Derived RequestTarget) [])
  = Ok (mkComp (mkCid (Derived RequestTarget) []) (VString (or_empty (uri_path_and_query u)))).
Proof.
  intros H1 H2. rewrite extract_derived_req by (discriminate || intros x []). cbn [derived_values msg_method msg_uri rq_method rq_uri bind].
  apply str_eqb_neq in H1, H2. rewrite H1, H2. cbn [bind]. rewrite comp_of_values_derived by (discriminate || intros x []). reflexivity.
Qed.
Lemma derived_authority m a h b d v :
  In (d, v) [(Method, upper m); (TargetUri, a); (Authority, lower a); (Scheme, []); (Path, lit "/"); (Query, lit "?")]
  \/ d = RequestTarget /\ (m = lit "CONNECT" /\ v = a \/ m = lit "OPTIONS" /\ v = lit "*" \/ m <> lit "CONNECT" /\ m <> lit "OPTIONS" /\ v = []) ->
  extract_derived_component (MReq (mkReq m (mkUri None (Some a) [] None) h b)) (mkCid (Derived d) []) = Ok (mkComp (mkCid (Derived d) []) (VString v)).
Proof.
  intros [H|(-> & [(-> & ->)|[(-> & ->)|(H1 & H2 & ->)]])].
  - cbn [In] in H. repeat (destruct H as [H|H]; [injection H as <- <-; try reflexivity|]); [|destruct H].
    rewrite extract_derived_req by (discriminate || intros x []). cbn [derived_values msg_uri rq_uri bind].
    rewrite comp_of_values_derived by (discriminate || intros x []). cbn. rewrite app_nil_r. reflexivity.
  - apply target_connect, nil_req.
  - apply target_options, nil_req.
  - rewrite target_other by assumption. reflexivity.
Qed.
Lemma derived_asterisk m h b d v :
  In (d, v) [(Method, upper m); (TargetUri, lit "*"); (Authority, []); (Scheme, []); (Path, lit "*"); (Query, lit "?")]
  \/ d = RequestTarget /\ (m = lit "CONNECT" /\ v = [] \/ m <> lit "CONNECT" /\ v = lit "*") ->
  extract_derived_component (MReq (mkReq m (mkUri None None (lit "*") None) h b)) (mkCid (Derived d) []) = Ok (mkComp (mkCid (Derived d) []) (VString v)).
Proof.
  intros [H|(-> & [(-> & ->)|(H1 & ->)])].
  - cbn [In] in H. repeat (destruct H as [H|H]; [injection H as <- <-; reflexivity|]). destruct H.
  - apply target_connect, nil_req.
  - destruct (str_eqb m (lit "OPTIONS")) eqn:E.
    + apply str_eqb_eq in E. subst m. apply target_options, nil_req.
    + apply str_eqb_neq in E. rewrite target_other by assumption. reflexivity.
Qed.
