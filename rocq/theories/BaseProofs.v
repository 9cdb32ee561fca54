(** Signature bases *)
From Coq Require Import ZifyBool ZifyNat ZifyN Permutation.
From Verif Require Import Base BaseFacts Utf8 Base64 Base64Facts Sfv SfvFacts SfvRound TextFacts SpecSfv SpecSfvProofs Component Crypto Params SigBase SpecId IdProofs SpecParams ParamsProofs SpecValue ValueProofs SpecBase Http Hyper.

(** ** C19 *)
Lemma id_text_spec i : cid_str i = id_text i.
Proof.
  unfold cid_str, id_text. rewrite name_str_text, cparams_str_flat. f_equal. Qed.
Lemma space_join_spec l : join [cSP] l = space_join l.
Proof. destruct l as [|x l]; [reflexivity|]. apply join_cons_flat. Qed.
Lemma params_text_spec p : sparams_str p = params_text p.
Proof.
  unfold sparams_str, params_text. rewrite joined_ids, space_join_spec.
  rewrite (map_ext cid_str id_text) by apply id_text_spec.
  destruct p as [c e n a k t ids]. cbn [sp_created sp_expires sp_nonce sp_alg sp_keyid sp_tag sp_covered].
  f_equal. f_equal. f_equal. cbn [flat_map fst snd]. rewrite app_nil_r.
  destruct c, e, n, a, k, t; cbn [opt_str option_map]; rewrite ?app_nil_l; reflexivity.
Qed.
Definition line_of (c : comp) : str * str := (id_text (co_id c), as_component_value (co_value c)).
Lemma base_text_spec b : base_str b = base_text (map line_of (sb_lines b)) (params_text (sb_params b)).
Proof.
  unfold base_str, base_text. rewrite params_text_spec, flat_map_map. f_equal.
  apply flat_map_ext. intro c. unfold comp_str, line_of. cbn [fst snd]. rewrite id_text_spec, <- !app_assoc. reflexivity.
Qed.

(** ** C21 *)
Lemma cparams_eqb_refl ps : NoDup ps -> cparams_eqb ps ps = true.
Proof. intro H. apply cparams_eqb_spec; try assumption. reflexivity. Qed.
Lemma base_try_new_spec lines p b : Forall valid_id (sp_covered p) -> Forall (fun c => valid_id (co_id c)) lines ->
  (base_try_new lines p = Ok b <-> Forall2 (fun c i => same_id (co_id c) i) lines (sp_covered p) /\ b = mkBase lines p).
Proof.
  intros Hv Hl. unfold base_try_new. generalize (sp_covered p) as ids, (mkBase lines p) as b0, Hv. clear Hv. intros ids b0 Hv.
  assert (H : forall ls is, Forall (fun c => valid_id (co_id c)) ls -> Forall valid_id is ->
    (Nat.eqb (length ls) (length is) = true /\ forallb (fun ab : comp * cid => cid_eqb (co_id (fst ab)) (snd ab)) (combine ls is) = true
     <-> Forall2 (fun c i => same_id (co_id c) i) ls is)).
  { clear. induction ls as [|c ls IH]; intros [|i is] Hl Hi; cbn [length combine forallb Nat.eqb].
    - split; auto.
    - split; [intros [H _]; discriminate|intro H; inversion H].
    - split; [intros [H _]; discriminate|intro H; inversion H].
    - inversion Hl as [|? ? Hc Hl']; inversion Hi as [|? ? Hj Hi']; subst. cbn [fst snd]. rewrite andb_true_iff, cid_eqb_spec by assumption.
      split; [intros (Ha & Hb & Hd); constructor; [assumption|apply IH; auto]|]. intro Ha. inversion Ha as [|? ? ? ? Hb Hd]; subst. apply IH in Hd; auto. tauto. }
  specialize (H lines ids Hl Hv). destruct (Nat.eqb _ _) eqn:E1; cbn [negb].
  - destruct (forallb _ _) eqn:E2; cbn [negb].
    + split; [intro Hb; inv Hb; split; [apply H; auto|reflexivity]|]. intros [_ ->]. reflexivity.
    + split; [discriminate|]. intros [Hf _]. apply H in Hf as [_ Hf]. discriminate.
  - split; [discriminate|]. intros [Hf _]. apply H in Hf as [Hf _]. discriminate.
Qed.
Lemma base_try_new_err lines p : (exists b, base_try_new lines p = Ok b) \/ base_try_new lines p = Err BuildSignatureBaseError.
Proof. unfold base_try_new. destruct (negb _); auto. destruct (negb _); eauto. Qed.

(** ** bases of messages *)
Lemma comp_of_values_id i vs c : comp_of_values i vs = Ok c -> co_id c = i.
Proof.
  unfold comp_of_values. destruct (id_name i) as [n|d] eqn:En.
  - unfold build_http_field_component. destruct (field_params _ _); cbn [bind]; try discriminate. intro H. inv H. reflexivity.
  - unfold build_derived_component. rewrite En. destruct vs; [discriminate|]. destruct (negb _); [discriminate|].
    match goal with |- bind ?x _ = _ -> _ => destruct x; cbn [bind]; try discriminate end. intro H. inv H. reflexivity.
Qed.
Lemma extract_id m i c : extract_http_message_component m i = Ok c -> co_id c = i.
Proof.
  unfold extract_http_message_component. destruct (id_name i) as [n|d] eqn:En.
  - unfold extract_http_field. rewrite En. destruct (header_strings _ _); cbn [bind]; try discriminate.
    destruct (comp_of_values i a) eqn:E; cbn; try discriminate. intro H. inv H. eapply comp_of_values_id, E.
  - unfold extract_derived_component. rewrite En. destruct (try_for_each _ _); cbn [bind]; try discriminate.
    destruct (check_derived_name _ _ _); cbn [bind]; try discriminate. destruct (derived_values m d); cbn [bind]; try discriminate.
    destruct (comp_of_values i a1) eqn:E; cbn; try discriminate. intro H. inv H. eapply comp_of_values_id, E.
Qed.
Lemma line_id m rfp i c : component_line m rfp i = Ok c -> co_id c = i.
Proof.
  unfold component_line. destruct (set_contains _ _); [|apply extract_id]. destruct (is_request m); [discriminate|].
  destruct rfp; [apply extract_id|discriminate].
Qed.
Lemma cid_eqb_refl i : cid_eqb i i = true.
Proof.
  unfold cid_eqb. apply andb_true_iff. split; [apply cname_eqb_eq; reflexivity|]. unfold cparams_eqb.
  apply andb_true_iff. split; [apply Nat.eqb_refl|]. apply forallb_forall. intros p Hp. apply set_contains_In, Hp.
Qed.
Lemma build_base_spec m p rfp b : build_signature_base m p rfp = Ok b <->
  exists lines, Forall2 (fun i c => component_line m rfp i = Ok c) (sp_covered p) lines /\ b = mkBase lines p.
Proof.
  unfold build_signature_base.
  assert (Hb : forall lines, Forall2 (fun i c => component_line m rfp i = Ok c) (sp_covered p) lines -> base_try_new lines p = Ok (mkBase lines p)).
  { intros lines H. unfold base_try_new. rewrite <- (Forall2_len _ _ _ H), Nat.eqb_refl. cbn [negb].
    assert (E : forallb (fun ab : comp * cid => cid_eqb (co_id (fst ab)) (snd ab)) (combine lines (sp_covered p)) = true).
    { induction H as [|i c is cs Hc H IH]; [reflexivity|]. cbn [combine forallb fst snd]. rewrite (line_id _ _ _ _ Hc), cid_eqb_refl. exact IH. }
    rewrite E. reflexivity. }
  split.
  - destruct (collect _ _) as [lines|e|q] eqn:E; cbn [bind]; try discriminate. apply collect_ok in E. rewrite (Hb _ E). cbn. intro H. inv H. eauto.
  - intros (lines & H & ->). rewrite (proj2 (collect_ok _ _ _) H). cbn [bind]. rewrite (Hb _ H). reflexivity.
Qed.
Lemma build_base_ids m p rfp b : build_signature_base m p rfp = Ok b -> map co_id (sb_lines b) = sp_covered p /\ sb_params b = p.
Proof.
  intro H. apply build_base_spec in H as (lines & H & ->). cbn. split; [|reflexivity].
  induction H as [|i c is cs Hc H IH]; [reflexivity|]. cbn [map]. rewrite (line_id _ _ _ _ Hc), IH. reflexivity.
Qed.

(** ** C20 *)
Lemma lines_inj (l1 l2 : list str) : forall t1 t2, Forall one_line l1 -> Forall one_line l2 -> one_line t1 -> one_line t2 ->
  flat_map (fun x => x ++ [10]) l1 ++ t1 = flat_map (fun x => x ++ [10]) l2 ++ t2 -> l1 = l2 /\ t1 = t2.
Proof.
  revert l2. induction l1 as [|x l1 IH]; intros [|y l2] t1 t2 H1 H2 Ht1 Ht2 E; cbn [flat_map app] in E.
  - auto.
  - exfalso. apply Ht1. rewrite E, <- !app_assoc. apply in_or_app. right. left. reflexivity.
  - exfalso. apply Ht2. rewrite <- E, <- !app_assoc. apply in_or_app. right. left. reflexivity.
  - inversion H1; inversion H2; subst. rewrite <- !app_assoc in E. apply (split_at_inj 10) in E as [-> E]; try assumption.
    destruct (IH l2 t1 t2) as [-> ->]; auto.
Qed.
(** two texts that are followed by a colon at one place and by other characters at another place *)
Lemma prefix_inj (a : str) : forall b c d r r' s s', c <> 58 -> d <> 58 ->
  a ++ 58 :: r = b ++ 58 :: r' -> a ++ c :: s = b ++ d :: s' -> a = b /\ c :: s = d :: s'.
Proof.
  induction a as [|x a IH]; intros [|y b] c d r r' s s' Hc Hd E1 E2; cbn [app] in *.
  - auto.
  - injection E1 as <- _. injection E2 as -> _. congruence.
  - injection E1 as -> _. injection E2 as <- _. congruence.
  - injection E1 as <- E1. injection E2 as E2. destruct (IH b c d r r' s s' Hc Hd E1 E2) as [-> E]. auto.
Qed.
Lemma after_ids (ids : list str) r : exists c s, flat_map (fun y => lit " " ++ y) ids ++ 41 :: r = c :: s /\ c <> 58.
Proof.
  destruct ids as [|i ids]; cbn [flat_map app].
  - exists 41, r. split; [reflexivity|discriminate].
  - eexists 32, _. split; [reflexivity|discriminate].
Qed.
Lemma ids_inj_gen (l1 : list (str * str)) : forall l2 r1 r2,
  map (fun iv : str * str => fst iv ++ lit ": " ++ snd iv) l1 = map (fun iv : str * str => fst iv ++ lit ": " ++ snd iv) l2 ->
  flat_map (fun y => lit " " ++ y) (map fst l1) ++ 41 :: r1 = flat_map (fun y => lit " " ++ y) (map fst l2) ++ 41 :: r2 ->
  l1 = l2 /\ r1 = r2.
Proof.
  induction l1 as [|[a v] l1 IH]; intros [|[b w] l2] r1 r2 E1 E2; try discriminate E1.
  - cbn [map flat_map app] in E2. injection E2 as ->. auto.
  - cbn [map flat_map fst snd] in *. injection E1 as Eh Et. rewrite <- !app_assoc in E2. apply app_inv_head in E2.
    destruct (after_ids (map fst l1) r1) as (c & s & Ec & Hc). destruct (after_ids (map fst l2) r2) as (d & s' & Ed & Hd).
    rewrite Ec, Ed in E2. destruct (prefix_inj a b c d _ _ s s' Hc Hd Eh E2) as [-> E]. rewrite <- Ec, <- Ed in E.
    destruct (IH l2 r1 r2 Et E) as [-> ->]. apply app_inv_head in Eh. injection Eh as Eh. subst. auto.
Qed.
Lemma ids_inj (l1 l2 : list (str * str)) r1 r2 :
  map (fun iv : str * str => fst iv ++ lit ": " ++ snd iv) l1 = map (fun iv : str * str => fst iv ++ lit ": " ++ snd iv) l2 ->
  space_join (map fst l1) ++ 41 :: r1 = space_join (map fst l2) ++ 41 :: r2 -> l1 = l2 /\ r1 = r2.
Proof.
  intros E1 E2. apply ids_inj_gen; [assumption|]. destruct l1 as [|x l1], l2 as [|y l2]; try discriminate E1; [exact E2|].
  cbn [map flat_map space_join] in *. rewrite <- !app_assoc in *. rewrite E2. reflexivity.
Qed.
Lemma base_lines_texts l : flat_map (fun iv : str * str => fst iv ++ lit ": " ++ snd iv ++ [10]) l
  = flat_map (fun x => x ++ [10]) (map (fun iv : str * str => fst iv ++ lit ": " ++ snd iv) l).
Proof. rewrite flat_map_map. apply flat_map_ext. intro iv. rewrite <- !app_assoc. reflexivity. Qed.
Lemma base_lines_one l : Forall (fun c => one_line (id_text (co_id c)) /\ one_line (as_component_value (co_value c))) l ->
  Forall one_line (map (fun iv : str * str => fst iv ++ lit ": " ++ snd iv) (map line_of l)).
Proof.
  intro H. rewrite map_map. apply Forall_map. eapply Forall_impl; [|exact H]. intros c [H1 H2]. cbn [line_of fst snd]. intro Hi.
  apply in_app_or in Hi as [Hi|Hi]; [exact (H1 Hi)|]. destruct Hi as [Hi|[Hi|Hi]]; try discriminate Hi. exact (H2 Hi).
Qed.
Lemma params_line_one p : one_line (params_text p) -> one_line (lit """@signature-params"": " ++ params_text p).
Proof. intros H Hi. apply in_app_or in Hi as [Hi|Hi]; [|exact (H Hi)]. apply contains_In in Hi. discriminate Hi. Qed.
Lemma base_inj b1 b2 :
  map (fun c => id_text (co_id c)) (sb_lines b1) = map id_text (sp_covered (sb_params b1)) ->
  map (fun c => id_text (co_id c)) (sb_lines b2) = map id_text (sp_covered (sb_params b2)) ->
  Forall (fun c => one_line (id_text (co_id c)) /\ one_line (as_component_value (co_value c))) (sb_lines b1) ->
  Forall (fun c => one_line (id_text (co_id c)) /\ one_line (as_component_value (co_value c))) (sb_lines b2) ->
  one_line (params_text (sb_params b1)) -> one_line (params_text (sb_params b2)) ->
  base_str b1 = base_str b2 ->
  map line_of (sb_lines b1) = map line_of (sb_lines b2) /\ params_text (sb_params b1) = params_text (sb_params b2).
Proof.
  intros I1 I2 L1 L2 P1 P2 E. rewrite !base_text_spec in E. unfold base_text in E.
  rewrite !base_lines_texts in E.
  apply lines_inj in E as [E1 E2]; auto using base_lines_one, params_line_one. apply app_inv_head in E2. split; [|assumption].
  unfold params_text in E2. apply app_inv_head in E2. rewrite <- I1, <- I2 in E2.
  assert (Em : forall l, map (fun c => id_text (co_id c)) l = map fst (map line_of l)) by (intro l; rewrite map_map; reflexivity).
  rewrite !Em in E2. apply ids_inj in E2 as [E2 _]; assumption.
Qed.

(** ** identifiers without double quotes: a colon ends them *)
Fixpoint inside (q : bool) (s : str) : bool :=
  match s with [] => q | c :: r => inside (if c =? 34 then negb q else q) r end.
(** no colon outside double quotes *)
Fixpoint no_colon (q : bool) (s : str) : bool :=
  match s with [] => true | c :: r => (q || negb (c =? 58)) && no_colon (if c =? 34 then negb q else q) r end.
Lemma inside_app a : forall q b, inside q (a ++ b) = inside (inside q a) b.
Proof. induction a as [|c a IH]; intros q b; [reflexivity|]. cbn [app inside]. apply IH. Qed.
Lemma no_colon_app a : forall q b, no_colon q (a ++ b) = no_colon q a && no_colon (inside q a) b.
Proof. induction a as [|c a IH]; intros q b; [reflexivity|]. cbn [app inside no_colon]. rewrite IH, andb_assoc. reflexivity. Qed.
Lemma quote_free s : ~ In 34 s -> inside true s = true /\ no_colon true s = true.
Proof.
  induction s as [|c s IH]; intro H; [auto|]. cbn [inside no_colon].
  destruct (c =? 34) eqn:E; [exfalso; apply H; left; lia|]. cbn [orb andb]. apply IH. intro Hi. apply H. right. assumption.
Qed.
Lemma quoted_balanced s : ~ In 34 s -> inside false (quote s) = false /\ no_colon false (quote s) = true.
Proof.
  intro H. destruct (quote_free s H) as [H1 H2]. unfold quote. cbn [lit]. rewrite !inside_app, !no_colon_app.
  change (inside false (lit """")) with true. rewrite H1, H2. split; reflexivity.
Qed.
Lemma id_balanced i : lacks 34 i -> inside false (id_text i) = false /\ no_colon false (id_text i) = true.
Proof.
  intros (H1 & H2 & H3). unfold id_text. rewrite inside_app, no_colon_app.
  assert (Hn : ~ In 34 (match id_name i with HttpField s => s | Derived d => derived_str d end)).
  { destruct (id_name i) as [s|d]; [apply H1; reflexivity|]. apply derived_clean. }
  destruct (quoted_balanced _ Hn) as [-> ->]. cbn [andb].
  revert H2 H3. generalize (id_params i) as ps. clear. induction ps as [|p ps IH]; intros H2 H3; [split; reflexivity|].
  cbn [flat_map]. rewrite inside_app, no_colon_app.
  assert (Hp : inside false (lit ";" ++ match p with Sf => lit "sf" | Key v => lit "key=" ++ quote v | Bs => lit "bs" | Tr => lit "tr" | Req => lit "req" | Name v => lit "name=" ++ quote v end) = false
    /\ no_colon false (lit ";" ++ match p with Sf => lit "sf" | Key v => lit "key=" ++ quote v | Bs => lit "bs" | Tr => lit "tr" | Req => lit "req" | Name v => lit "name=" ++ quote v end) = true).
  { destruct p as [|v| | | |v]; try (split; reflexivity).
    - assert (Hv : ~ In 34 v) by (apply H2; left; reflexivity). destruct (quoted_balanced v Hv) as [Ha Hb]. rewrite !inside_app, !no_colon_app.
      change (inside (inside false (lit ";")) (lit "key=")) with false. rewrite Ha, Hb. split; reflexivity.
    - assert (Hv : ~ In 34 v) by (apply H3; left; reflexivity). destruct (quoted_balanced v Hv) as [Ha Hb]. rewrite !inside_app, !no_colon_app.
      change (inside (inside false (lit ";")) (lit "name=")) with false. rewrite Ha, Hb. split; reflexivity. }
  destruct Hp as [-> ->]. cbn [andb]. apply IH; intros v Hv; [apply H2|apply H3]; right; assumption.
Qed.
Lemma id_colon_inj a : forall b r r' q, inside q a = false -> no_colon q a = true -> inside q b = false -> no_colon q b = true ->
  a ++ 58 :: r = b ++ 58 :: r' -> a = b /\ r = r'.
Proof.
  induction a as [|x a IH]; intros [|y b] r r' q Ia Na Ib Nb E; cbn [app inside no_colon] in *.
  - injection E as ->. auto.
  - injection E as <- _. subst q. discriminate Nb.
  - injection E as -> _. subst q. discriminate Na.
  - injection E as <- E. apply andb_true_iff in Na as [_ Na], Nb as [_ Nb]. destruct (IH b r r' _ Ia Na Ib Nb E) as [-> ->]. auto.
Qed.
Lemma cons_inj {A} (a b : A) l k : a :: l = b :: k -> a = b /\ l = k.
Proof. intro H. split; congruence. Qed.
Lemma lines_colon_inj l1 : forall l2, Forall (fun c => lacks 34 (co_id c)) l1 -> Forall (fun c => lacks 34 (co_id c)) l2 ->
  map (fun iv : str * str => fst iv ++ lit ": " ++ snd iv) (map line_of l1) = map (fun iv : str * str => fst iv ++ lit ": " ++ snd iv) (map line_of l2) ->
  map line_of l1 = map line_of l2.
Proof.
  induction l1 as [|c l1 IH]; intros [|d l2] H1 H2 E; try discriminate E; [reflexivity|]. inversion H1 as [|? ? Hc H1']; inversion H2 as [|? ? Hd H2']; subst.
  cbn [map] in *. apply cons_inj in E as [Eh Et]. rewrite (IH l2 H1' H2' Et). f_equal. unfold line_of in Eh |- *. cbn [fst snd] in Eh.
  destruct (id_balanced _ Hc) as [I1 N1]. destruct (id_balanced _ Hd) as [I2 N2].
  destruct (id_colon_inj _ _ _ _ false I1 N1 I2 N2 Eh) as [-> E]. apply cons_inj in E as [_ ->]. reflexivity.
Qed.
(** bases of any origin whose identifiers have no double quotes *)
Lemma base_inj_unquoted b1 b2 :
  Forall (fun c => lacks 34 (co_id c)) (sb_lines b1) -> Forall (fun c => lacks 34 (co_id c)) (sb_lines b2) ->
  Forall (fun c => one_line (id_text (co_id c)) /\ one_line (as_component_value (co_value c))) (sb_lines b1) ->
  Forall (fun c => one_line (id_text (co_id c)) /\ one_line (as_component_value (co_value c))) (sb_lines b2) ->
  one_line (params_text (sb_params b1)) -> one_line (params_text (sb_params b2)) ->
  base_str b1 = base_str b2 ->
  map line_of (sb_lines b1) = map line_of (sb_lines b2) /\ params_text (sb_params b1) = params_text (sb_params b2).
Proof.
  intros I1 I2 L1 L2 P1 P2 E. rewrite !base_text_spec in E. unfold base_text in E. rewrite !base_lines_texts in E.
  apply lines_inj in E as [E1 E2]; auto using base_lines_one, params_line_one. apply app_inv_head in E2. split; [|assumption].
  apply lines_colon_inj; assumption.
Qed.
