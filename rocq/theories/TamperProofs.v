(** Signed texts determine the covered values *)
From Coq Require Import ZifyBool ZifyNat ZifyN.
From Verif Require Import Base BaseFacts Utf8 Utf8Facts Sfv SfvFacts SfvRound TextFacts SpecSfv SpecSfvProofs SpecGrammar GrammarProofs SpecCanon CanonProofs Component Crypto Params SigBase SpecId IdProofs SpecParams ParamsProofs SpecValue ValueProofs Http Hyper SpecBase BaseProofs SpecIdText IdTextProofs SpecMsg HeaderProofs MsgProofs VerifyProofs SpecExtract ExtractProofs.

(** ** characters of one-line texts *)
Definition okc (c : N) : Prop := (c < 55296 \/ 57344 <= c < 1114112) /\ c <> 10.
Lemma line_text_spec s : line_text s <-> Forall okc s.
Proof.
  unfold line_text, rust_text, one_line, okc. rewrite !Forall_forall. split.
  - intros [H1 H2] c Hc. split; [auto|]. intros ->. contradiction.
  - intro H. split; [intros c Hc; apply H, Hc|]. intro Hi. destruct (H _ Hi) as [_ Hn]. apply Hn. reflexivity.
Qed.
Lemma line_app a b : line_text a -> line_text b -> line_text (a ++ b).
Proof. rewrite !line_text_spec. intros. apply Forall_app. auto. Qed.
Lemma line_app_inv a b : line_text (a ++ b) -> line_text a /\ line_text b.
Proof. rewrite !line_text_spec. apply Forall_app. Qed.
Lemma line_incl a b : (forall c, In c a -> In c b) -> line_text b -> line_text a.
Proof. rewrite !line_text_spec, !Forall_forall. auto. Qed.
Lemma line_legible v : legible v -> line_text v.
Proof. rewrite line_text_spec. apply Forall_impl. intros c H. unfold okc. lia. Qed.
Lemma legible_print s : printp s -> legible s.
Proof. apply Forall_impl. intros c H. left. exact H. Qed.
Lemma line_print s : printp s -> line_text s.
Proof. intro H. apply line_legible, legible_print, H. Qed.
Lemma line_upper s : line_text s -> line_text (upper s).
Proof.
  rewrite !line_text_spec. intro H. apply Forall_map. eapply Forall_impl; [|exact H]. intros c Hc. unfold okc in *. destruct ((97 <=? c) && (c <=? 122)) eqn:E; lia.
Qed.
Lemma line_lower s : line_text s -> line_text (lower s).
Proof.
  rewrite !line_text_spec. intro H. apply Forall_map. eapply Forall_impl; [|exact H]. intros c Hc. unfold okc in *. destruct ((65 <=? c) && (c <=? 90)) eqn:E; lia.
Qed.
Lemma line_nil : line_text [].
Proof. split; [constructor|intros []]. Qed.
Lemma line_lit s : forallb (fun c => (32 <=? c) && (c <=? 126)) s = true -> line_text s.
Proof. intro H. apply line_print, printp_of, H. Qed.
Lemma line_cons c s : okc c -> line_text s -> line_text (c :: s).
Proof. rewrite !line_text_spec. constructor; assumption. Qed.
Lemma comma_join_legible l : Forall legible l -> legible (comma_join l).
Proof.
  intro H. destruct H as [|x l Hx H]; [constructor|]. cbn [comma_join]. apply Forall_app. split; [assumption|].
  induction H as [|y l Hy H IH]; [constructor|]. cbn [flat_map]. apply Forall_app. split; [|assumption].
  apply Forall_app. split; [|assumption]. apply legible_print, printp_of. reflexivity.
Qed.
Lemma comma_join_line l : Forall line_text l -> line_text (comma_join l).
Proof.
  intro H. destruct H as [|x l Hx H]; [apply line_nil|]. cbn [comma_join]. apply line_app; [assumption|].
  induction H as [|y l Hy H IH]; [apply line_nil|]. cbn [flat_map]. apply line_app; [|assumption]. apply line_app; [|assumption]. apply line_lit. reflexivity.
Qed.

(** ** field values *)
Lemma ser_entry_print e : wf_entry e -> printp (ser_entry e).
Proof. destruct e; [apply ser_item_print|apply ser_inner_print]. Qed.
Lemma ser_member_print kv : wf_member kv -> printp (ser_member kv).
Proof.
  destruct kv as [k e]. intros [Hk He]. cbn [fst snd] in *. pose proof (key_print _ Hk) as Pk.
  assert (Hg : printp (k ++ cEq :: ser_entry e)).
  { apply printp_app. split; [assumption|]. apply printp_cons. split; [unfold cEq; lia|]. apply ser_entry_print, He. }
  unfold ser_member. cbn [fst snd]. destruct e as [[b ps]|l]; [|exact Hg]. destruct b; try exact Hg. destruct b; [|exact Hg].
  apply printp_app. split; [assumption|]. apply ser_params_print. apply He.
Qed.
Lemma canonical_print v v' : canonical v v' -> printp v'.
Proof.
  intro H. apply canonical_reser in H as [(l & _ & Hp & Hs)|(_ & d & _ & Hp & Hs)].
  - apply ser_list_some in Hs as [_ ->]. apply parse_list_wf in Hp. apply join_print; [repeat constructor; unfold cComma, cSP; lia|].
    apply Forall_map. eapply Forall_impl; [|exact Hp]. exact ser_entry_print.
  - apply ser_dict_some in Hs as [_ ->]. apply parse_dict_wf in Hp as [Hp _]. apply join_print; [repeat constructor; unfold cComma, cSP; lia|].
    apply Forall_map. eapply Forall_impl; [|exact Hp]. exact ser_member_print.
Qed.
Lemma selected_print k vs ds out : Forall2 (fun v d => parse_dict v = Some d) vs ds -> selected k ds out -> Forall printp out.
Proof.
  intros H Hs. revert vs H. induction Hs as [|d e ds out Hi Hs IH|d ds out Hn Hs IH]; intros vs H; [constructor| |]; inversion H as [|v d' vs' ds' Hv H']; subst.
  - constructor; [|eauto]. apply parse_dict_wf in Hv as [Hv _]. rewrite Forall_forall in Hv. apply ser_entry_print. exact (proj2 (Hv _ Hi)).
  - eauto.
Qed.
Lemma processed_legible ps ls out : processed ps ls out -> Forall legible ls -> Forall legible out.
Proof.
  intro H. induction H as [vs|ps vs out H IH|ps vs vs' out Hc H IH|k ps vs vs' out Hs H IH]; intro Hl; auto.
  - apply IH. clear -Hc. induction Hc; constructor; [|assumption]. eapply legible_print, canonical_print; eassumption.
  - apply IH. apply member_texts_spec in Hs as (ds & Hd & Hs). eapply Forall_impl; [|eapply selected_print; eassumption]. exact legible_print.
Qed.

(** ** derived values *)
Lemma trim_incl s c : In c (trim s) -> In c s.
Proof. intro H. destruct (trim_decomp s) as (w1 & w2 & E & _). rewrite E. apply in_or_app. right. apply in_or_app. left. exact H. Qed.
Lemma own_params_line h v : own_params h v -> line_text v.
Proof.
  intros (w & ws & k & _ & Hl & E & _). apply trim_spec in E. apply line_legible in Hl. apply (line_incl v w); [|assumption]. intros c Hc. apply trim_incl. rewrite E.
  apply in_or_app. right. right. exact Hc.
Qed.
Lemma qvalues_incl n ps out v : qvalues n ps out -> In v out -> exists x, In x ps /\ forall c, In c v -> In c x.
Proof.
  intro H. induction H as [|w ps out Hn H IH|x ps out Hn H IH]; intro Hi.
  - destruct Hi.
  - destruct Hi as [->|Hi].
    + exists (n ++ 61 :: v). split; [left; reflexivity|]. intros c Hc. apply in_or_app. right. right. assumption.
    + destruct (IH Hi) as (x & Hx & Hc). exists x. split; [right|]; assumption.
  - destruct (IH Hi) as (y & Hy & Hc). exists y. split; [right|]; assumption.
Qed.
Lemma query_text_incl ps x c : In x ps -> In c x -> In c (query_text ps).
Proof.
  destruct ps as [|y ps]; [intros []|]. cbn [query_text]. intros [->|Hx] Hc; apply in_or_app; [left; assumption|right].
  apply in_flat_map. exists x. split; [assumption|right; assumption].
Qed.
Lemma uri_path_line u : line_text (u_path u) -> line_text (uri_path u).
Proof.
  intro H. unfold uri_path. destruct (_ || _); [|apply line_nil]. destruct (is_empty (u_path u)); [apply line_lit; reflexivity|assumption].
Qed.
Lemma pq_line u : line_text (u_path u) -> line_text (maybe (u_query u)) -> line_text (pq_data u).
Proof.
  intros H1 H2. unfold pq_data. apply line_app; [assumption|]. destruct (u_query u); [|apply line_nil]. apply line_cons; [unfold okc, cQM; lia|exact H2].
Qed.
Lemma request_value_line r d ps v : proper_request r -> request_value r d ps v -> line_text v.
Proof.
  intros (H1 & H2 & H3 & H4 & H5) [_ H]. destruct d.
  - subst. apply line_upper, H1.
  - subst. unfold uri_str. apply line_app; [|apply line_app; [|apply line_app]].
    + destruct (u_scheme (rq_uri r)); [|apply line_nil]. apply line_app; [exact H2|apply line_lit; reflexivity].
    + destruct (u_auth (rq_uri r)); [exact H3|apply line_nil].
    + apply uri_path_line, H4.
    + destruct (u_query (rq_uri r)); [|apply line_nil]. apply line_cons; [unfold okc, cQM; lia|exact H5].
  - subst. apply line_lower, H3.
  - subst. apply line_lower, H2.
  - destruct H as [[_ ->]|[[_ ->]|(_ & _ & ->)]]; [exact H3|apply line_lit; reflexivity|].
    unfold uri_path_and_query. destruct (_ || _); [|apply line_nil]. pose proof (pq_line _ H4 H5) as Hp. cbn [maybe].
    destruct (pq_data (rq_uri r)) as [|c q]; [apply line_lit; reflexivity|]. destruct (_ || _); [assumption|]. apply line_cons; [unfold okc, cSlash; lia|assumption].
  - subst. pose proof (uri_path_line _ H4) as Hp. unfold nonempty_path. destruct (uri_path (rq_uri r)); [apply line_lit; reflexivity|assumption].
  - subst. apply line_app; [apply line_lit; reflexivity|exact H5].
  - destruct H as (n & a & b & pieces & out & _ & _ & Hq & _ & _ & Hv & ->). apply comma_join_line. apply Forall_forall. intros v Hi.
    destruct (qvalues_incl _ _ _ _ Hv Hi) as (x & Hx & Hc). rewrite Hq in H5. apply (line_incl v (query_text pieces)); [|exact H5].
    intros c Hcv. eapply query_text_incl; [exact Hx|]. apply Hc. assumption.
  - destruct H.
  - eapply own_params_line; exact H.
Qed.
Lemma own_value_line m i v : match m with MReq r => proper_request r | MRes _ => True end -> own_value m i v -> line_text v.
Proof.
  intros Hm H. unfold own_value in H. destruct (id_name i) as [n|d].
  - destruct H as (ls & out & _ & Hl & Hp & ->). apply line_legible, comma_join_legible. eapply processed_legible; eassumption.
  - destruct m as [r|x].
    + eapply request_value_line; eassumption.
    + destruct H as (_ & [[_ ->]|[_ H]]); [apply line_print, dec_print|eapply own_params_line; exact H].
Qed.
Lemma message_value_line m rfp i v : proper m rfp -> message_value m rfp i v -> line_text v.
Proof.
  intros [Hm Hr] [[_ H]|(_ & x & r & -> & -> & H)]; [eapply own_value_line; eassumption|]. eapply own_value_line; [|exact H]. exact Hr.
Qed.

(** ** received parameters *)
Lemma last_value_In {V} k (l : list (str * V)) v : last_value k l = Some v -> In (k, v) l.
Proof.
  induction l as [|[k' w] l IH]; cbn [last_value]; [discriminate|]. destruct (last_value k l) as [u|].
  - intro H. inv H. right. apply IH. reflexivity.
  - destruct (list_eq_dec N.eq_dec k k') as [->|]; intro H; inv H. left. reflexivity.
Qed.
Lemma lit_print s : forallb is_print s = true -> printp s.
Proof. apply printp_of. Qed.
Lemma quote_print s : Forall printable s -> printp (quote s).
Proof. intro H. unfold quote. apply printp_app. split; [apply lit_print; reflexivity|]. apply printp_app. split; [exact H|apply lit_print; reflexivity]. Qed.
Lemma id_text_print i : valid_id i -> printp (id_text i).
Proof.
  intros (H1 & H2 & _). unfold id_text. apply printp_app. split.
  - apply quote_print. destruct (id_name i) as [s|d]; [apply H1|]. apply (lit_print (derived_str d)). destruct d; reflexivity.
  - induction H2 as [|p ps Hp H2 IH]; [constructor|]. cbn [flat_map]. apply printp_app. split; [|assumption]. apply printp_app. split; [apply lit_print; reflexivity|].
    destruct p; try (apply lit_print; reflexivity); apply printp_app; (split; [apply lit_print; reflexivity|]); apply quote_print; apply Hp.
Qed.
Definition printable_params (p : sparams) : Prop :=
  Forall valid_id (sp_covered p) /\ forall s, In (Some s) [sp_nonce p; sp_alg p; sp_keyid p; sp_tag p] -> Forall printable s.
Lemma params_text_print p : printable_params p -> printp (params_text p).
Proof.
  intros [H1 H2]. unfold params_text. apply printp_app. split; [apply lit_print; reflexivity|]. apply printp_app. split; [|apply printp_app; split; [apply lit_print; reflexivity|]].
  - destruct H1 as [|i l Hi H1]; [constructor|]. cbn [map space_join]. apply printp_app. split; [apply id_text_print; assumption|].
    induction H1 as [|j l Hj H1 IH]; [constructor|]. cbn [map flat_map]. apply printp_app. split; [|assumption]. apply printp_app. split; [apply lit_print; reflexivity|apply id_text_print; assumption].
  - assert (Hd : forall o k, forallb is_print k = true -> printp (match option_map dec o with Some t => lit ";" ++ k ++ lit "=" ++ t | None => [] end)).
    { intros [n|] k Hk; [|constructor]. cbn [option_map]. apply printp_app. split; [apply lit_print; reflexivity|]. apply printp_app. split; [apply lit_print; assumption|].
      apply printp_app. split; [apply lit_print; reflexivity|apply dec_print]. }
    assert (Hq : forall o k, forallb is_print k = true -> (forall s, o = Some s -> Forall printable s) -> printp (match option_map quote o with Some t => lit ";" ++ k ++ lit "=" ++ t | None => [] end)).
    { intros [s|] k Hk Hs; [|constructor]. cbn [option_map]. apply printp_app. split; [apply lit_print; reflexivity|]. apply printp_app. split; [apply lit_print; assumption|].
      apply printp_app. split; [apply lit_print; reflexivity|apply quote_print, Hs; reflexivity]. }
    cbn [flat_map fst snd]. rewrite app_nil_r.
    repeat (apply printp_app; split); try (apply Hd; reflexivity); (apply Hq; [reflexivity|]; intros s Hs; apply H2; rewrite Hs; cbn [In]; tauto) || idtac.
Qed.
Lemma parsed_printable e p : wf_entry e -> sparams_of_entry e = Ok p -> printable_params p.
Proof.
  intros He H. pose proof (parsed_wellformed e p He H) as (_ & _ & Hv & _). split; [assumption|].
  destruct e as [i|[items ps]]; [discriminate|]. destruct He as [_ [Hp Hn]]. rewrite entry_reads in H by assumption.
  destruct (collect _ items) as [ids|e|q]; try discriminate. cbn [bind] in H. destruct (negb _); [discriminate|]. destruct (neg_times ps); [discriminate|]. inv H.
  assert (Hr : forall k s, Some s = reads text_of k ps -> Forall printable s).
  { intros k s E. unfold reads in E. destruct (last_value k ps) as [b|] eqn:El; [|discriminate]. destruct b; try discriminate E. cbn in E. inv E.
    assert (Hi : In (k, BStr s0) ps) by (eapply last_value_In; exact El).
    rewrite Forall_forall in Hp. destruct (Hp _ Hi) as [_ Hb]. cbn [snd wf_bare] in Hb. apply printp_of in Hb. exact Hb. }
  cbn [read_params sp_nonce sp_alg sp_keyid sp_tag In]. intros s [E|[E|[E|[E|[]]]]]; symmetry in E; eapply Hr; exact E.
Qed.
Lemma received_printable m l n h : received m l -> In (n, h) l -> printable_params (sh_params h).
Proof.
  intros H Hi. apply received_hold in H as (_ & _ & _ & ds & di & Es & Ei & Hk & Hf). apply parse_dict_wf in Ei as [Wi _].
  clear Hk. induction Hf as [|[k e] r di l Hr H IH]; [destruct Hi|]. inversion Wi as [|? ? Wk Wi']; subst. destruct Hi as [->|Hi]; [|auto].
  destruct Hr as (_ & _ & H3 & _). cbn [fst snd] in *. eapply parsed_printable; [|exact H3]. apply Wk.
Qed.

(** ** the parameters in the text *)
Definition not_digit_head (r : str) : Prop := match r with c :: _ => ~ (48 <= c <= 57) | [] => True end.
Lemma digits_end a : forall b r r', Forall digitp a -> Forall digitp b -> not_digit_head r -> not_digit_head r' -> a ++ r = b ++ r' -> a = b /\ r = r'.
Proof.
  induction a as [|c a IH]; intros [|d b] r r' Ha Hb Hr Hr' E.
  - auto.
  - cbn [app] in E. subst r. inversion Hb as [|? ? Hd _]; subst. unfold digitp in Hd. cbn in Hr. lia.
  - cbn [app] in E. subst r'. inversion Ha as [|? ? Hd _]; subst. unfold digitp in Hd. cbn in Hr'. lia.
  - cbn [app] in E. apply cons_inj in E as [-> E]. inversion Ha; inversion Hb; subst. destruct (IH b r r') as [-> ->]; auto.
Qed.
Definition fld (k : str) (o : option str) : str := match o with Some t => lit ";" ++ k ++ lit "=" ++ t | None => [] end.
(** nothing, or a semicolon and a character from [l] *)
Definition starts (l : list N) (r : str) : Prop := r = [] \/ exists c t, r = 59 :: c :: t /\ In c l.
Lemma starts_fld k c ks o l r : k = c :: ks -> starts l r -> starts (c :: l) (fld k o ++ r).
Proof.
  intros -> [->|(d & t & -> & Hd)]; destruct o as [x|]; cbn [fld].
  - right. exists c. eexists. split; [reflexivity|left; reflexivity].
  - left. reflexivity.
  - right. exists c. eexists. split; [reflexivity|left; reflexivity].
  - right. exists d, t. split; [reflexivity|right; assumption].
Qed.
Lemma starts_digit l r : starts l r -> not_digit_head r.
Proof. intros [->|(c & t & -> & _)]; cbn; [exact I|lia]. Qed.
Lemma fld_time_inj k c ks (o o' : option N) l r r' : k = c :: ks -> ~ In c l -> starts l r -> starts l r' ->
  fld k (option_map dec o) ++ r = fld k (option_map dec o') ++ r' -> o = o' /\ r = r'.
Proof.
  intros -> Hc Hr Hr' E. destruct o as [n|], o' as [n'|]; cbn [option_map fld] in E.
  - rewrite <- !app_assoc in E. do 3 apply app_inv_head in E.
    apply digits_end in E as [Ed ->]; try apply dec_digits; try (eapply starts_digit; eassumption). apply dec_inj in Ed. subst. auto.
  - exfalso. destruct Hr' as [->|(d & t & -> & Hd)]; [discriminate E|]. cbn [app] in E. apply cons_inj in E as [_ E]. apply cons_inj in E as [-> _]. contradiction.
  - exfalso. destruct Hr as [->|(d & t & -> & Hd)]; [discriminate E|]. cbn [app] in E. apply cons_inj in E as [_ E]. apply cons_inj in E as [-> _]. contradiction.
  - auto.
Qed.
Definition texts_tail (p : sparams) : str :=
  fld (lit "nonce") (option_map quote (sp_nonce p)) ++ fld (lit "alg") (option_map quote (sp_alg p))
  ++ fld (lit "keyid") (option_map quote (sp_keyid p)) ++ fld (lit "tag") (option_map quote (sp_tag p)).
Lemma params_text_tail p : params_text p = lit "(" ++ space_join (map id_text (sp_covered p)) ++ lit ")"
  ++ fld (lit "created") (option_map dec (sp_created p)) ++ fld (lit "expires") (option_map dec (sp_expires p)) ++ texts_tail p.
Proof. unfold params_text, texts_tail. cbn [flat_map fst snd]. rewrite app_nil_r, <- ?app_assoc. reflexivity. Qed.
Lemma texts_tail_starts p : starts (lit "nakt") (texts_tail p).
Proof.
  unfold texts_tail. apply (starts_fld (lit "nonce") 110 (lit "once")); [reflexivity|]. apply (starts_fld (lit "alg") 97 (lit "lg")); [reflexivity|].
  apply (starts_fld (lit "keyid") 107 (lit "eyid")); [reflexivity|]. rewrite <- (app_nil_r (fld _ _)). apply (starts_fld (lit "tag") 116 (lit "ag")); [reflexivity|].
  left. reflexivity.
Qed.
Lemma params_text_times p q : map id_text (sp_covered p) = map id_text (sp_covered q) -> params_text p = params_text q ->
  sp_created p = sp_created q /\ sp_expires p = sp_expires q /\ texts_tail p = texts_tail q.
Proof.
  intros Hi E. rewrite !params_text_tail, Hi in E. do 3 apply app_inv_head in E.
  assert (Hn : forall c l, contains c l = false -> ~ In c l) by (intros c l H Hx; apply contains_In in Hx; congruence).
  apply (fld_time_inj _ 99 (lit "reated") _ _ (101 :: lit "nakt")) in E as [-> E].
  - apply (fld_time_inj _ 101 (lit "xpires") _ _ (lit "nakt")) in E as [-> E]; auto using texts_tail_starts.
  - reflexivity.
  - apply Hn. reflexivity.
  - apply (starts_fld _ 101 (lit "xpires")); [reflexivity|apply texts_tail_starts].
  - apply (starts_fld _ 101 (lit "xpires")); [reflexivity|apply texts_tail_starts].
Qed.

(** ** signed texts *)
Lemma Forall2_length' {A B} (R : A -> B -> Prop) l k : Forall2 R l k -> length l = length k.
Proof. induction 1; cbn; congruence. Qed.
Lemma base_text_inj ids vs ids' vs' p q : length ids = length vs -> length ids' = length vs' ->
  Forall one_line (ids ++ vs) -> Forall one_line (ids' ++ vs') -> one_line (params_text p) -> one_line (params_text q) ->
  ids = map id_text (sp_covered p) -> ids' = map id_text (sp_covered q) ->
  base_text (combine ids vs) (params_text p) = base_text (combine ids' vs') (params_text q) ->
  ids = ids' /\ vs = vs' /\ params_text p = params_text q.
Proof.
  intros L L' H H' P P' I I' E. unfold base_text in E. rewrite !base_lines_texts in E.
  assert (Hone : forall a b : list str, length a = length b -> Forall one_line (a ++ b) -> Forall one_line (map (fun iv : str * str => fst iv ++ lit ": " ++ snd iv) (combine a b))).
  { intros a. induction a as [|x a IH]; intros [|y b] Hl Hf; try discriminate Hl; [constructor|]. cbn [combine map]. inversion Hf as [|? ? Hx Hr]; subst.
    apply Forall_app in Hr as [H1 H2]. inversion H2 as [|? ? Hy H3]; subst. constructor.
    - cbn [fst snd]. intro Hi. apply in_app_or in Hi as [Hi|Hi]; [exact (Hx Hi)|]. destruct Hi as [Hi|[Hi|Hi]]; try discriminate Hi. exact (Hy Hi).
    - apply IH; [injection Hl; auto|]. apply Forall_app. auto. }
  apply lines_inj in E as [E1 E2]; auto using params_line_one. apply app_inv_head in E2.
  assert (Ef : forall a b : list str, length a = length b -> map fst (combine a b) = a /\ map snd (combine a b) = b).
  { intros a. induction a as [|x a IH]; intros [|y b] Hl; try discriminate Hl; [auto|]. cbn [combine map fst snd]. destruct (IH b) as [-> ->]; [injection Hl; auto|auto]. }
  destruct (Ef _ _ L) as [F1 F2]. destruct (Ef _ _ L') as [F3 F4].
  assert (Ec : combine ids vs = combine ids' vs').
  { pose proof E2 as E3. rewrite !params_text_tail, <- I, <- I' in E3. apply app_inv_head in E3. rewrite <- F1, <- F3 in E3.
    apply ids_inj in E3 as [E3 _]; [exact E3|exact E1]. }
  rewrite Ec in F1, F2. split; [congruence|]. split; [congruence|assumption].
Qed.
Lemma line_texts_one l : Forall line_text l -> Forall one_line l.
Proof. apply Forall_impl. intros s H. apply H. Qed.
Lemma base_text_line_rust ids vs p : Forall line_text (ids ++ vs) -> line_text (params_text p) -> rust_text (base_text (combine ids vs) (params_text p)).
Proof.
  intros H Hp. unfold base_text. apply Forall_app. split.
  - apply Forall_flat_map. apply Forall_forall. intros [i v] Hi. cbn [fst snd]. rewrite Forall_forall in H.
    pose proof (in_combine_l _ _ _ _ Hi) as H1. pose proof (in_combine_r _ _ _ _ Hi) as H2.
    apply Forall_app. split; [apply H, in_or_app; left; assumption|]. apply Forall_app. split; [apply (proj1 (line_lit (lit ": ") eq_refl))|].
    apply Forall_app. split; [apply H, in_or_app; right; assumption|]. constructor; [lia|constructor].
  - apply Forall_app. split; [apply (proj1 (line_lit (lit """@signature-params"": ") eq_refl))|]. apply Hp.
Qed.
Lemma params_line p : printable_params p -> line_text (params_text p) /\ Forall line_text (map id_text (sp_covered p)).
Proof.
  intro H. split; [apply line_print, params_text_print, H|]. apply Forall_map. destruct H as [H _]. eapply Forall_impl; [|exact H].
  intros i Hi. apply line_print, id_text_print, Hi.
Qed.
Lemma values_line m rfp is vs : proper m rfp -> Forall2 (message_value m rfp) is vs -> Forall line_text vs.
Proof. intros Hp H. induction H; constructor; [|assumption]. eapply message_value_line; eassumption. Qed.
Lemma same_bytes m m' rfp rfp' p q t t' : proper m rfp -> proper m' rfp' -> printable_params p -> printable_params q ->
  signed_text m rfp p t -> signed_text m' rfp' q t' -> utf8 t = utf8 t' ->
  map id_text (sp_covered p) = map id_text (sp_covered q) /\ params_text p = params_text q
  /\ exists vs, Forall2 (message_value m rfp) (sp_covered p) vs /\ Forall2 (message_value m' rfp') (sp_covered q) vs.
Proof.
  intros Hm Hm' Hp Hq (vs & Hv & ->) (vs' & Hv' & ->) E.
  destruct (params_line p Hp) as [P1 P2]. destruct (params_line q Hq) as [Q1 Q2].
  pose proof (values_line _ _ _ _ Hm Hv) as L. pose proof (values_line _ _ _ _ Hm' Hv') as L'.
  apply utf8_inj in E; [|apply rust_text_spec, base_text_line_rust; [apply Forall_app; auto|assumption]..].
  apply base_text_inj in E as (E1 & E2 & E3).
  - subst vs'. eauto.
  - rewrite map_length. eapply Forall2_length'; eassumption.
  - rewrite map_length. eapply Forall2_length'; eassumption.
  - apply line_texts_one, Forall_app. auto.
  - apply line_texts_one, Forall_app. auto.
  - apply P1.
  - apply Q1.
  - reflexivity.
  - reflexivity.
Qed.
