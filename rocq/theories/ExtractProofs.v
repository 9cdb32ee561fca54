(** Component extraction is exactly [message_value] *)
From Coq Require Import ZifyBool ZifyNat ZifyN.
From Verif Require Import Base BaseFacts Utf8 Sfv SfvFacts SpecSfv SpecSfvProofs SpecGrammar GrammarProofs SpecCanon CanonProofs Component Crypto Params SigBase SpecId IdProofs SpecParams ParamsProofs SpecValue ValueProofs Http Hyper SpecBase BaseProofs SpecIdText IdTextProofs SpecMsg HeaderProofs MsgProofs VerifyProofs SpecExtract.

Lemma field_name_spec n : header_name n = Some (lower n) <-> field_name n.
Proof.
  unfold header_name, field_name. rewrite to_lower_lower.
  assert (E : negb (is_empty n) && forallb is_tchar n && (N.of_nat (length n) <=? 65535) = true <-> n <> [] /\ Forall tchar n /\ N.of_nat (length n) <= 65535).
  { rewrite !andb_true_iff, N.leb_le, <- (Forall_forallb tchar is_tchar) by (intro c; apply is_tchar_spec).
    destruct n; cbn [is_empty negb]; intuition congruence. }
  destruct (_ && _ && _).
  - split; [intros _; apply E; reflexivity|reflexivity].
  - split; [discriminate|]. intro H. apply E in H. discriminate.
Qed.
Lemma header_name_cases n : (field_name n /\ header_name n = Some (lower n)) \/ (~ field_name n /\ header_name n = None).
Proof.
  rewrite <- field_name_spec. unfold header_name. rewrite to_lower_lower. destruct (_ && _ && _); [left|right]; split; try reflexivity. discriminate.
Qed.
Lemma has_lines_spec h n ls : has_lines h n ls <-> ls = hm_get_all h n.
Proof.
  unfold has_lines. destruct (header_name_cases n) as [[H E]|[H E]].
  - rewrite (hm_lines h n _ E). tauto.
  - assert (E' : hm_get_all h n = []) by (unfold hm_get_all; rewrite E; reflexivity). rewrite E'. tauto.
Qed.
Lemma processed_spec ps : forall vs out, field_params ps vs = Ok out <-> processed ps vs out.
Proof.
  induction ps as [|p ps IH]; intros vs out; cbn [field_params].
  - split; [intro H; inv H; constructor|intro H; inv H; reflexivity].
  - destruct p as [|k| | | |n].
    + split.
      * destruct (handle_params_sf vs) as [vs'|e|q] eqn:E; cbn [bind]; try discriminate. apply handle_sf_spec in E. intro H. apply IH in H. econstructor; eassumption.
      * intro H. inversion H as [| |? ? vs' ? Hc Hp|]; subst. apply handle_sf_spec in Hc. rewrite Hc. cbn [bind]. apply IH. assumption.
    + split.
      * destruct (handle_params_key_into vs k) as [vs'|e|q] eqn:E; cbn [bind]; try discriminate. apply handle_key_spec in E. intro H. apply IH in H. econstructor; eassumption.
      * intro H. inversion H as [| | |? ? ? vs' ? Hs Hp]; subst. apply handle_key_spec in Hs. rewrite Hs. cbn [bind]. apply IH. assumption.
    + split; [discriminate|intro H; inv H].
    + split; [discriminate|intro H; inv H].
    + rewrite IH. split; [intro H; constructor; assumption|intro H; inv H; assumption].
    + split; [discriminate|intro H; inv H].
Qed.
Definition text_value (c : comp) : str := as_component_value (co_value c).
Lemma field_value_spec m i n v : id_name i = HttpField n ->
  ((exists c, extract_http_message_component m i = Ok c /\ text_value c = v) <-> own_value m i v).
Proof.
  intro Hn. unfold extract_http_message_component, extract_http_field, own_value. rewrite Hn. split.
  - intros (c & H & <-). destruct (header_strings (msg_headers m) n) as [vs|e|q] eqn:E; try discriminate. cbn [bind] in H.
    apply header_strings_spec in E as [-> Hl]. rewrite (comp_of_values_field _ n) in H by assumption.
    destruct (field_params (id_params i) _) as [out|e|q] eqn:Ep; try discriminate. inv H. apply processed_spec in Ep.
    exists (hm_get_all (msg_headers m) n), out. rewrite has_lines_spec. auto.
  - intros (ls & out & Hl & Hg & Hp & ->). apply has_lines_spec in Hl. rewrite (proj2 (header_strings_spec _ _ ls) (conj Hl Hg)). cbn [bind].
    rewrite (comp_of_values_field _ n) by assumption. apply processed_spec in Hp. rewrite Hp. eexists. split; [reflexivity|]. reflexivity.
Qed.

(** ** derived components *)
Lemma try_for_each_ok {E A} (f : A -> result E unit) l : try_for_each f l = Ok tt <-> forall x, In x l -> f x = Ok tt.
Proof.
  induction l as [|x l IH]; cbn [try_for_each].
  - split; [intros _ y []|reflexivity].
  - split.
    + destruct (f x) as [[]|e|q] eqn:Ef; cbn [bind]; try discriminate. intros H y [<-|Hy]; [assumption|]. apply IH; assumption.
    + intro H. rewrite (H x (or_introl eq_refl)). cbn [bind]. apply IH. intros y Hy. apply H. right. assumption.
Qed.
Lemma check_params_req r d ps : try_for_each (check_derived_param (MReq r) d) ps = Ok tt <-> (forall p, In p ps -> p = Req \/ d = QueryParam /\ exists n, p = Name n).
Proof.
  rewrite try_for_each_ok. split; intros H p Hp; specialize (H p Hp).
  - destruct p; try discriminate H; [left; reflexivity|right]. destruct d; try discriminate H. eauto.
  - destruct H as [->|[-> [n ->]]]; reflexivity.
Qed.
Lemma check_params_res x d ps : try_for_each (check_derived_param (MRes x) d) ps = Ok tt <-> (forall p, In p ps -> d = QueryParam /\ exists n, p = Name n).
Proof.
  rewrite try_for_each_ok. split; intros H p Hp; specialize (H p Hp).
  - destruct p; try discriminate H. destruct d; try discriminate H. eauto.
  - destruct H as [-> [n ->]]; reflexivity.
Qed.
Lemma allowed_params d ps : (forall p, In p ps -> p = Req \/ d = QueryParam /\ exists n, p = Name n) ->
  forallb (fun p => match p with Req | Name _ => true | _ => false end) ps = true.
Proof. intro H. apply forallb_forall. intros p Hp. destruct (H p Hp) as [->|[_ [n ->]]]; reflexivity. Qed.
Lemma own_params_spec h v : (exists k, match map (fun w => or_empty (hv_to_str w)) (hm_get_all h h_input) with
    | [] => None | w :: _ => split_once cEq (trim w) end = Some (k, v)) <-> own_params h v.
Proof.
  unfold own_params. rewrite hm_input. destruct (field_lines h (lit "signature-input")) as [|w ws] eqn:E; cbn [map].
  - split; [intros [k H]; discriminate|]. intros (w & ws & k & H & _). discriminate.
  - split.
    + intros [k H]. destruct (hv_to_str w) as [s|] eqn:Ew; [|discriminate]. cbn [or_empty] in H. apply hv_to_str_id in Ew as Ew'. subst s.
      apply legible_spec in Ew. apply split_once_iff in H as [H Hk]. apply trim_spec in H. exists w, ws, k. auto.
    + intros (w' & ws' & k & H & Hl & Ht & Hk). inv H. exists k. apply legible_spec in Hl. rewrite Hl. cbn [or_empty]. apply trim_spec in Ht. apply split_once_iff. auto.
Qed.
Lemma find_name ps n : (forall p, In p ps -> p = Req \/ exists n, p = Name n) ->
  (find_map (fun p => match p with Name n => Some n | _ => None end) ps = Some n <-> exists a b, ps = a ++ Name n :: b /\ forall p, In p a -> p = Req).
Proof.
  intro H. induction ps as [|p ps IH].
  - split; [discriminate|]. intros (a & b & E & _). destruct a; discriminate.
  - cbn [find_map]. destruct (H p (or_introl eq_refl)) as [->|[n' ->]].
    + rewrite IH by (intros p Hp; apply H; right; assumption). split.
      * intros (a & b & -> & Ha). exists (Req :: a), b. split; [reflexivity|]. intros p [<-|Hp]; [reflexivity|auto].
      * intros (a & b & E & Ha). destruct a as [|q a]; [discriminate|]. inv E. exists a, b. split; [reflexivity|]. intros p Hp. apply Ha. right. assumption.
    + split.
      * intro E. inv E. exists [], ps. split; [reflexivity|]. intros p [].
      * intros (a & b & E & Ha). destruct a as [|q a]; [inv E; reflexivity|]. inv E. discriminate (Ha _ (or_introl eq_refl)).
Qed.
(** every text is made of pieces *)
Lemma pieces_exist q : query_text (split_on cAmp q) = q /\ Forall (fun x => ~ In 38 x) (split_on cAmp q) /\ split_on cAmp q <> [].
Proof.
  induction q as [|c q (IH1 & IH2 & IH3)]; [cbn; split; [reflexivity|]; split; [constructor; [intros []|constructor]|discriminate]|].
  cbn [split_on]. destruct (c =? cAmp) eqn:E.
  - apply N.eqb_eq in E. subst c. split; [|split; [constructor; [intros []|assumption]|discriminate]].
    destruct (split_on cAmp q) as [|x r] eqn:Es; [congruence|]. cbn [query_text flat_map app] in *. rewrite IH1. reflexivity.
  - destruct (split_on cAmp q) as [|x r] eqn:Es; [congruence|]. inversion IH2 as [|? ? Hx Hr]; subst.
    split; [|split; [constructor; [|assumption]|discriminate]].
    + cbn [query_text flat_map app]. f_equal.
    + intros [Hi|Hi]; [|contradiction]. subst c. discriminate E.
Qed.
Lemma query_param_value u ps v i : id_name i = Derived QueryParam -> id_params i = ps -> (forall p, In p ps -> p = Req \/ exists n, p = Name n) ->
  ((exists c, comp_of_values i (filter (fun s => negb (is_empty s)) (split_on cAmp (or_empty (u_query u)))) = Ok c /\ text_value c = v)
   <-> exists n a b pieces out, ps = a ++ Name n :: b /\ (forall p, In p a -> p = Req)
         /\ u_query u = Some (query_text pieces) /\ Forall (fun x => ~ In 38 x) pieces /\ (exists x, In x pieces /\ x <> [])
         /\ qvalues n pieces out /\ v = comma_join out).
Proof.
  intros Hi Hps Hp. unfold comp_of_values, build_derived_component. rewrite Hi, Hps.
  assert (Hal : forallb (fun p => match p with Req | Name _ => true | _ => false end) ps = true)
    by (apply forallb_forall; intros p Hx; destruct (Hp p Hx) as [->|[n ->]]; reflexivity).
  rewrite Hal. cbn [negb]. split.
  - intros (c & H & <-). destruct (filter _ _) as [|v0 vs] eqn:Ef; [discriminate|].
    destruct (find_map _ ps) as [n|] eqn:En; [|discriminate]. apply find_name in En as (a & b & -> & Ha); [|assumption].
    destruct (u_query u) as [q|] eqn:Eq; [|discriminate Ef]. cbn [or_empty] in *. destruct (pieces_exist q) as (H1 & H2 & H3).
    exists n, a, b, (split_on cAmp q). eexists. split; [reflexivity|]. split; [assumption|]. rewrite H1. split; [reflexivity|]. split; [assumption|].
    split; [|split; [apply qvalues_spec; reflexivity|]].
    + assert (Hv : In v0 (filter (fun s => negb (is_empty s)) (split_on cAmp q))) by (rewrite Ef; left; reflexivity).
      apply filter_In in Hv as [Hv Hne]. exists v0. split; [assumption|]. intros ->. discriminate.
    + rewrite Ef. cbn [bind] in H. inv H. unfold text_value. cbn [co_value as_component_value]. rewrite comma_join_spec. reflexivity.
  - intros (n & a & b & pieces & out & Eps & Ha & Hq & Hpc & (x & Hx & Hne) & Hv & ->). rewrite Hq. cbn [or_empty].
    rewrite split_on_text; [|intros ->; destruct Hx|assumption].
    destruct (filter (fun s => negb (is_empty s)) pieces) as [|v0 vs] eqn:Ef.
    { exfalso. assert (Hz : In x (filter (fun s => negb (is_empty s)) pieces)) by (apply filter_In; split; [assumption|destruct x; [congruence|reflexivity]]).
      rewrite Ef in Hz. destruct Hz. }
    rewrite (proj2 (find_name ps n Hp)) by eauto. eexists. split; [cbn [bind]; reflexivity|]. unfold text_value. cbn [co_value as_component_value].
    apply qvalues_spec in Hv. rewrite Ef in Hv. rewrite Hv, comma_join_spec. reflexivity.
Qed.
Lemma request_value_spec r i d v : id_name i = Derived d ->
  ((exists c, extract_http_message_component (MReq r) i = Ok c /\ text_value c = v) <-> request_value r d (id_params i) v).
Proof.
  intro Hd. unfold extract_http_message_component, extract_derived_component. rewrite Hd. unfold request_value.
  destruct (try_for_each (check_derived_param (MReq r) d) (id_params i)) as [[]|e|q] eqn:Et; cbn [bind];
    [|split; [intros (c & H & _); discriminate|intros [Hp _]; apply check_params_req with (r := r) in Hp; congruence]..].
  rewrite check_params_req in Et. pose proof (allowed_params d _ Et) as Hal.
  assert (Hone : forall v0 w (H : d <> QueryParam) (H' : d <> SignatureParams),
    build_derived_component i [v0] = Ok (mkComp i (VString w)) ->
    ((exists c, map_err HttpSigError (comp_of_values i [v0]) = Ok c /\ text_value c = v) <-> v = w)).
  { intros v0 w _ _ H. unfold comp_of_values. rewrite Hd, H. cbn [map_err]. split; [intros (c & Hc & <-); inv Hc; reflexivity|].
    intros ->. eexists. split; [reflexivity|]. reflexivity. }
  assert (Hb : forall v0 w, (match d with Method => w = to_upper v0 | TargetUri | RequestTarget | Path | Query | Status => w = v0
      | Authority | Scheme => w = to_lower v0 | _ => False end) -> build_derived_component i [v0] = Ok (mkComp i (VString w))).
  { intros v0 w H. unfold build_derived_component. rewrite Hd, Hal. cbn [negb]. destruct d; try destruct H; subst; reflexivity. }
  assert (Hand : forall A B : Prop, A -> ((A /\ B) <-> B)) by tauto. rewrite (Hand _ _ Et). clear Hand.
  destruct d; cbn [check_derived_name bind derived_values msg_method msg_uri].
  - apply Hone; try discriminate. apply Hb. reflexivity.
  - apply Hone; try discriminate. apply Hb. reflexivity.
  - apply Hone; try discriminate. apply Hb. reflexivity.
  - apply Hone; try discriminate. apply Hb. reflexivity.
  - destruct (str_eqb (rq_method r) (lit "CONNECT")) eqn:E1.
    + apply str_eqb_eq in E1. cbn [bind]. rewrite (Hone _ (maybe (u_auth (rq_uri r)))); try discriminate; [|apply Hb; reflexivity].
      rewrite E1. split; [auto|]. intros [[_ H]|[[H _]|[H _]]]; [assumption|discriminate|congruence].
    + assert (N1 : rq_method r <> lit "CONNECT") by (intro H; rewrite H in E1; discriminate).
      destruct (str_eqb (rq_method r) (lit "OPTIONS")) eqn:E2.
      * apply str_eqb_eq in E2. cbn [bind]. rewrite (Hone _ (lit "*")); try discriminate; [|apply Hb; reflexivity].
        split; [auto|]. intros [[H _]|[[_ H]|[_ [H _]]]]; [congruence|assumption|congruence].
      * assert (N2 : rq_method r <> lit "OPTIONS") by (intro H; rewrite H in E2; discriminate).
        cbn [bind]. rewrite (Hone _ (maybe (uri_path_and_query (rq_uri r)))); try discriminate; [|apply Hb; reflexivity].
        split; [auto|]. intros [[H _]|[[H _]|[_ [_ H]]]]; [congruence|congruence|assumption].
  - apply Hone; try discriminate. apply Hb. unfold nonempty_path. destruct (uri_path (rq_uri r)); reflexivity.
  - apply Hone; try discriminate. apply Hb. destruct (u_query (rq_uri r)); reflexivity.
  - rewrite <- (query_param_value (rq_uri r) (id_params i) v i Hd eq_refl).
    + destruct (comp_of_values i _); cbn [map_err]; (split; intros (c & H & Hc); [inv H; eauto|]); [|discriminate|discriminate]. inv H. eauto.
    + intros p Hp. destruct (Et p Hp) as [->|[_ [n ->]]]; eauto.
  - split; [intros (c & H & _); discriminate|intros []].
  - rewrite <- own_params_spec. unfold comp_of_values, build_derived_component. rewrite Hd, Hal. cbn [negb msg_headers].
    destruct (map _ (hm_get_all (rq_headers r) h_input)) as [|w ws]; cbn [map_err]; [split; [intros (c & H & _); discriminate|intros [k H]; discriminate]|].
    destruct (split_once cEq (trim w)) as [[k v']|]; cbn [bind map_err].
    + split; [intros (c & H & <-); inv H; exists k; reflexivity|]. intros [k' H]. inv H. eexists. split; reflexivity.
    + split; [intros (c & H & _); discriminate|intros [k H]; discriminate].
Qed.
Lemma response_value_spec x i d v : id_name i = Derived d -> ~ In Req (id_params i) ->
  ((exists c, extract_http_message_component (MRes x) i = Ok c /\ text_value c = v) <-> own_value (MRes x) i v).
Proof.
  intros Hd Hr. unfold own_value. rewrite Hd. split.
  - intros (c & H & <-). assert (Hl : component_line (MRes x) None i = Ok c).
    { unfold component_line. destruct (set_contains _ _) eqn:E; [apply set_contains_Req in E; contradiction|exact H]. }
    assert (Hs : d = Status \/ d = SignatureParams) by (eapply line_derived_response; eassumption).
    assert (Hps : id_params i = []).
    { destruct (id_params i) as [|p ps] eqn:E; [reflexivity|]. exfalso.
      destruct (line_derived_params _ _ _ _ _ p Hd Hl) as [->|[-> _]]; [rewrite E; left; reflexivity|apply Hr; left; reflexivity|destruct Hs; discriminate]. }
    split; [assumption|]. unfold extract_http_message_component, extract_derived_component in H. rewrite Hd, Hps in H. cbn [try_for_each bind] in H.
    unfold check_derived_name, comp_of_values, build_derived_component in H. rewrite Hd, Hps in H.
    destruct Hs as [-> | ->].
    + left. split; [reflexivity|]. cbn in H. inv H. reflexivity.
    + right. split; [reflexivity|]. apply own_params_spec. cbn [derived_values bind msg_headers] in H.
      change (set_contains [] Req) with false in H. cbn [derived_eqb negb andb] in H.
      change (str_eqb (derived_str SignatureParams) (derived_str Status)) with false in H. change (str_eqb (derived_str SignatureParams) (derived_str SignatureParams)) with true in H.
      cbn [negb andb bind] in H.
      destruct (map _ (hm_get_all (rs_headers x) h_input)) as [|w ws]; [discriminate|]. cbn [forallb negb] in H.
      destruct (split_once cEq (trim w)) as [[k v']|]; [|discriminate]. cbn [bind map_err] in H. inv H. exists k. reflexivity.
  - intros (Hps & [[-> ->]|[-> H]]).
    + unfold extract_http_message_component, extract_derived_component, check_derived_name, comp_of_values, build_derived_component. rewrite Hd, Hps.
      eexists. split; [cbn [try_for_each bind]; reflexivity|]. reflexivity.
    + unfold extract_http_message_component, extract_derived_component, check_derived_name, comp_of_values, build_derived_component. rewrite Hd, Hps.
      apply own_params_spec in H as [k H]. cbn [try_for_each bind derived_values msg_headers].
      change (negb (derived_eqb SignatureParams Status) && negb (derived_eqb SignatureParams SignatureParams) && negb (set_contains [] Req)) with false.
      change (derived_eqb SignatureParams Status && set_contains [] Req) with false. cbn iota. cbn [bind].
      destruct (map _ (hm_get_all (rs_headers x) h_input)) as [|w ws]; [discriminate|]. cbn [forallb negb]. rewrite H. eexists. split; reflexivity.
Qed.
Lemma own_value_spec m i v : (is_request m = false -> ~ In Req (id_params i)) ->
  ((exists c, extract_http_message_component m i = Ok c /\ text_value c = v) <-> own_value m i v).
Proof.
  intro H. destruct (id_name i) as [n|d] eqn:En; [apply (field_value_spec _ _ n), En|]. destruct m as [r|x].
  - unfold own_value. rewrite En. apply request_value_spec, En.
  - apply (response_value_spec _ _ d); auto.
Qed.
Lemma message_value_spec m rfp i v : (exists c, component_line m rfp i = Ok c /\ text_value c = v) <-> message_value m rfp i v.
Proof.
  unfold component_line, message_value. destruct (set_contains (id_params i) Req) eqn:E.
  - apply set_contains_Req in E. split.
    + intros (c & H & Hv). right. split; [assumption|]. destruct m as [r|x]; [discriminate|]. cbn [is_request] in H. destruct rfp as [r|]; [|discriminate].
      exists x, r. split; [reflexivity|]. split; [reflexivity|]. apply own_value_spec; [discriminate|eauto].
    + intros [[H _]|[_ (x & r & -> & -> & H)]]; [contradiction|]. cbn [is_request]. apply own_value_spec in H; [assumption|discriminate].
  - assert (Hn : ~ In Req (id_params i)) by (intro H; apply set_contains_Req in H; congruence).
    rewrite own_value_spec by auto. tauto.
Qed.
Lemma message_value_fun m rfp i v v' : message_value m rfp i v -> message_value m rfp i v' -> v = v'.
Proof. rewrite <- !message_value_spec. intros (c & H & <-) (c' & H' & <-). congruence. Qed.

(** ** the signed text *)
Lemma build_lines m rfp is : forall lines, Forall2 (fun i c => component_line m rfp i = Ok c) is lines ->
  Forall2 (message_value m rfp) is (map text_value lines) /\ map line_of lines = combine (map id_text is) (map text_value lines).
Proof.
  intros lines H. induction H as [|i c is cs Hc H [IH1 IH2]]; [split; constructor|]. cbn [map combine]. split.
  - constructor; [|assumption]. apply message_value_spec. eauto.
  - rewrite IH2. unfold line_of at 1. rewrite (line_id _ _ _ _ Hc). reflexivity.
Qed.
Lemma build_values m rfp is vs : Forall2 (message_value m rfp) is vs -> exists lines, Forall2 (fun i c => component_line m rfp i = Ok c) is lines /\ map text_value lines = vs.
Proof.
  intro H. induction H as [|i v is vs Hv H (lines & IH1 & IH2)]; [exists []; split; constructor|].
  apply message_value_spec in Hv as (c & Hc & <-). exists (c :: lines). split; [constructor; assumption|]. cbn. rewrite IH2. reflexivity.
Qed.
Lemma signed_text_spec m rfp p t : (exists b, build_signature_base m p rfp = Ok b /\ base_str b = t) <-> signed_text m rfp p t.
Proof.
  split.
  - intros (b & Hb & <-). apply build_base_spec in Hb as (lines & H & ->). apply build_lines in H as [H1 H2].
    exists (map text_value lines). split; [assumption|]. rewrite base_text_spec. cbn [sb_lines sb_params]. rewrite H2. reflexivity.
  - intros (vs & H & ->). apply build_values in H as (lines & H & <-). exists (mkBase lines p). split; [apply build_base_spec; eauto|].
    apply build_lines in H as [_ H2]. rewrite base_text_spec. cbn [sb_lines sb_params]. rewrite H2. reflexivity.
Qed.
Lemma signed_text_fun m rfp p t t' : signed_text m rfp p t -> signed_text m rfp p t' -> t = t'.
Proof. rewrite <- !signed_text_spec. intros (b & H & <-) (b' & H' & <-). congruence. Qed.

(** ** the checked signatures *)
Definition with_text (x : str * (sigbase * sigheaders)) : str * (str * sigheaders) := (fst x, (base_str (fst (snd x)), snd (snd x))).
Lemma candidates_checked m rfp kid l cs : candidates m rfp kid l cs -> checked m rfp kid l (map with_text cs).
Proof.
  intro H. induction H as [|n h b l cs Hb Hk H IH|n h l cs Hs H IH]; cbn [map].
  - constructor.
  - unfold with_text at 1. cbn [fst snd]. apply ch_take; auto. apply signed_text_spec. eauto.
  - apply ch_skip; [|assumption]. destruct Hs as [Hs|Hs]; [left|auto]. intros t Ht. apply signed_text_spec in Ht as (b & Hb & _). exact (Hs b Hb).
Qed.
Lemma checked_fun m rfp kid l cs : checked m rfp kid l cs -> forall cs', checked m rfp kid l cs' -> cs = cs'.
Proof.
  intro H. induction H as [|n h t l cs Hb Hk H IH|n h l cs Hs H IH]; intros cs' H'; inversion H' as [|n' h' t' l' cs2 Hb' Hk' H2|n' h' l' cs2 Hs' H2]; subst.
  - reflexivity.
  - rewrite (signed_text_fun _ _ _ _ _ Hb Hb'). f_equal. auto.
  - exfalso. destruct Hs' as [Hs'|(k & E & Hn)]; [exact (Hs' t Hb)|]. exact (Hn (Hk k E)).
  - exfalso. destruct Hs as [Hs|(k & E & Hn)]; [exact (Hs t' Hb')|]. exact (Hn (Hk' k E)).
  - auto.
Qed.
Lemma checked_candidates m rfp kid l cs : checked m rfp kid l cs -> exists cs', candidates m rfp kid l cs' /\ cs = map with_text cs'.
Proof.
  intro H. destruct (candidates_exist m rfp kid l) as [cs' Hc]. exists cs'. split; [assumption|]. eapply checked_fun; [exact H|]. apply candidates_checked, Hc.
Qed.
Lemma nth_with_text cs j n t h : nth_error (map with_text cs) j = Some (n, (t, h)) <-> exists b, nth_error cs j = Some (n, (b, h)) /\ base_str b = t.
Proof.
  rewrite nth_error_map. destruct (nth_error cs j) as [[n' [b h']]|]; cbn [option_map].
  - unfold with_text. cbn [fst snd]. split; [intro H; inv H; eauto|]. intros (b' & H & <-). inv H. reflexivity.
  - split; [discriminate|]. intros (b & H & _). discriminate.
Qed.
