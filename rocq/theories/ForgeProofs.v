(** Signature parameters with the same text *)
From Coq Require Import ZifyBool ZifyNat ZifyN.
From Verif Require Import Base BaseFacts Utf8 Sfv SfvFacts SfvRound TextFacts SpecSfv SpecSfvProofs SpecGrammar GrammarProofs SpecCanon CanonProofs Component Crypto Params SigBase SpecId IdProofs SpecParams ParamsProofs SpecIdText IdTextProofs SpecValue ValueProofs Http Hyper SpecBase BaseProofs SpecMsg HeaderProofs MsgProofs VerifyProofs SpecExtract ExtractProofs TamperProofs FrameProofs SpecLabels LabelProofs SignProofs SpecForge.

(** ** texts *)
Definition enc (nv : str * str) : str := lit ";" ++ fst nv ++ lit "=""" ++ snd nv ++ lit """".
Lemma texts_of p : params_text p = lit "(" ++ space_join (map id_text (sp_covered p)) ++ lit ")"
  ++ flat_map (fun kt : str * option str => match snd kt with Some t => lit ";" ++ fst kt ++ lit "=" ++ t | None => [] end)
       [(lit "created", option_map dec (sp_created p)); (lit "expires", option_map dec (sp_expires p))]
  ++ flat_map enc (given_texts p).
Proof.
  unfold params_text, given_texts, text_params. destruct p as [c e n a k t ids]. cbn [sp_created sp_expires sp_nonce sp_alg sp_keyid sp_tag sp_covered].
  f_equal. f_equal. f_equal. cbn [flat_map fst snd]. rewrite <- !app_assoc. f_equal. f_equal.
  destruct n, a, k, t; cbn [option_map flat_map fst snd app]; unfold enc, quote; cbn [fst snd]; rewrite ?app_nil_r; reflexivity.
Qed.
Lemma same_text p q : same_but_texts p q -> (params_text p = params_text q <-> flat_map enc (given_texts p) = flat_map enc (given_texts q)).
Proof.
  intros (H1 & H2 & H3). rewrite !texts_of, H1, H2, H3. split; [|intros ->; reflexivity].
  intro H. do 4 apply app_inv_head in H. exact H.
Qed.
Lemma given_inj p q : same_but_texts p q -> given_texts p = given_texts q -> p = q.
Proof.
  intros (H1 & H2 & H3). destruct p as [c e n a k t ids], q as [c' e' n' a' k' t' ids'].
  unfold given_texts, text_params. cbn [sp_created sp_expires sp_nonce sp_alg sp_keyid sp_tag sp_covered] in *. subst.
  destruct n, a, k, t, n', a', k', t'; cbn [flat_map fst snd app]; intro H; try discriminate H; try (injection H; intros; subst); reflexivity.
Qed.
(** names of given texts are written in order *)
Definition names : list str := [lit "nonce"; lit "alg"; lit "keyid"; lit "tag"].
Lemma given_order p n v a k u b l : given_texts p = a ++ (n, v) :: b ++ (k, u) :: l -> written_after n k.
Proof.
  intro H. assert (Hs : exists xs, map fst (given_texts p) = filter xs names).
  { exists (fun x => existsb (fun no => str_eqb (fst no) x && match snd no with Some _ => true | None => false end) (text_params p)).
    destruct p as [c e n' a' k' t ids]. unfold given_texts, text_params. cbn [sp_nonce sp_alg sp_keyid sp_tag]. destruct n', a', k', t; vm_compute; reflexivity. }
  destruct Hs as [f Hf]. rewrite H, map_app in Hf. cbn [map fst] in Hf. rewrite map_app in Hf. cbn [map fst] in Hf.
  assert (Hg : forall (ns x y z : list str), filter f ns = x ++ n :: y ++ k :: z -> exists a b c, ns = a ++ n :: b ++ k :: c).
  { clear. induction ns as [|m ns IH]; intros x y z H; [destruct x; discriminate H|]. cbn [filter] in H. destruct (f m).
    - destruct x as [|x0 x].
      + cbn [app] in H. injection H as -> H. assert (Hk : exists b c, ns = b ++ k :: c).
        { clear -H. revert y z H. induction ns as [|m ns IH]; intros y z H; [destruct y; discriminate H|]. cbn [filter] in H. destruct (f m).
          - destruct y as [|y0 y]; [injection H as -> H; exists [], ns; reflexivity|]. cbn [app] in H. injection H as -> H. destruct (IH _ _ H) as (b & c & ->). exists (y0 :: b), c. reflexivity.
          - destruct (IH _ _ H) as (b & c & ->). exists (m :: b), c. reflexivity. }
        destruct Hk as (b & c & ->). exists [], b, c. reflexivity.
      + cbn [app] in H. injection H as -> H. destruct (IH _ _ _ H) as (a & b & c & ->). exists (x0 :: a), b, c. reflexivity.
    - destruct (IH _ _ _ H) as (a & b & c & ->). exists (m :: a), b, c. reflexivity. }
  exact (Hg names _ _ _ (eq_sym Hf)).
Qed.
Lemma given_names p n v : In (n, v) (given_texts p) -> ~ In 61 n.
Proof.
  intro H. assert (Hn : In n names).
  { unfold given_texts in H. apply in_flat_map in H as ([m o] & Hm & H). cbn [fst snd] in H. destruct o; [|destruct H]. destruct H as [H|[]]. injection H as <- <-.
    unfold text_params in Hm. unfold names. cbn [In] in *. repeat (destruct Hm as [Hm|Hm]; [injection Hm as <- _; auto|]). destruct Hm. }
  unfold names in Hn. cbn [In] in Hn. intro Hx. repeat (destruct Hn as [<-|Hn]; [apply contains_In in Hx; discriminate Hx|]). destruct Hn.
Qed.
Lemma name_end n n' x y : ~ In 61 n -> ~ In 61 n' -> n ++ 61 :: x = n' ++ 61 :: y -> n = n' /\ x = y.
Proof.
  revert n'. induction n as [|c n IH]; intros [|c' n'] H H' E; cbn [app] in E.
  - injection E as ->. auto.
  - injection E as <- _. destruct H'. left. reflexivity.
  - injection E as -> _. destruct H. left. reflexivity.
  - injection E as <- E. destruct (IH n') as [-> ->]; auto; intro Hx; [apply H|apply H']; right; assumption.
Qed.
(** no other parameters have this text *)
Lemma not_mistakable p q : same_but_texts p q -> params_text p = params_text q -> p <> q -> mistakable p.
Proof.
  intros Hs Ht Hn. apply (same_text p q Hs) in Ht. assert (Hg : given_texts p <> given_texts q) by (intro E; apply Hn, given_inj; assumption).
  unfold mistakable. destruct (given_texts p) as [|[n v] l] eqn:Ep.
  - destruct (given_texts q) as [|[n' v'] l']; [congruence|]. discriminate Ht.
  - destruct l as [|b l]; [|left; eauto]. right. destruct (given_texts q) as [|[n' v'] l'] eqn:Eq; [discriminate Ht|]. cbn [flat_map] in Ht. unfold enc in Ht at 1 2. cbn [fst snd] in Ht.
    rewrite app_nil_r, <- !app_assoc in Ht. apply app_inv_head in Ht. change (lit "=""") with ([61] ++ [34]) in Ht. rewrite <- !app_assoc in Ht. cbn [app] in Ht.
    apply name_end in Ht as [<- Ht]; [|apply (given_names p n v); rewrite Ep; left; reflexivity|apply (given_names q n' v'); rewrite Eq; left; reflexivity].
    injection Ht as Ht. destruct l' as [|[k u] l'].
    + change (34 :: flat_map enc []) with (lit """") in Ht. apply app_inv_tail in Ht. subst v'. congruence.
    + exists n, k, v'. assert (Hl : exists u', lit """" ++ flat_map enc ((k, u) :: l') = lit """;" ++ k ++ lit "=""" ++ u' ++ lit """").
      { assert (Hr : exists r, u ++ lit """" ++ flat_map enc l' = r ++ lit """").
        { clear. revert u. induction l' as [|[k' u'] l' IH]; intro u; [exists u; reflexivity|]. destruct (IH u') as [r Hr].
          exists (u ++ lit """;" ++ k' ++ lit "=""" ++ r). cbn [flat_map]. unfold enc at 1. cbn [fst snd]. rewrite <- !app_assoc.
          change (lit """;") with (lit """" ++ lit ";"). rewrite <- !app_assoc. rewrite Hr. reflexivity. }
        destruct Hr as [r Hr]. exists r. cbn [flat_map]. unfold enc at 1. cbn [fst snd]. change (lit """;") with (lit """" ++ lit ";"). rewrite <- !app_assoc. rewrite Hr. reflexivity. }
      destruct Hl as [u' Hl]. exists u'. change (34 :: flat_map enc ((k, u) :: l')) with (lit """" ++ flat_map enc ((k, u) :: l')) in Ht. rewrite Hl in Ht. rewrite !app_assoc in Ht. apply app_inv_tail in Ht. rewrite <- !app_assoc in Ht. rewrite Ht. split; [reflexivity|].
      apply (given_order q n v' [] k u [] l'). exact Eq.
Qed.

(** ** other parameters with the same text *)
Definition set_texts (p : sparams) (f : str -> option str) : sparams :=
  mkSparams (sp_created p) (sp_expires p) (f (lit "nonce")) (f (lit "alg")) (f (lit "keyid")) (f (lit "tag")) (sp_covered p).
Definition lookup_texts (p : sparams) (x : str) : option str :=
  match find (fun nv => str_eqb (fst nv) x) (given_texts p) with Some (_, v) => Some v | None => None end.
Definition mid (k : str) : str := lit """;" ++ k ++ lit "=""".
Definition merge (p : sparams) (n v k u : str) : sparams :=
  set_texts p (fun x => if str_eqb x n then Some (v ++ mid k ++ u) else if str_eqb x k then None else lookup_texts p x).
Lemma merge_given p n v k u l : given_texts p = (n, v) :: (k, u) :: l -> given_texts (merge p n v k u) = (n, v ++ mid k ++ u) :: l.
Proof.
  destruct p as [c e x y z t ids]. unfold merge, lookup_texts, given_texts at 1 3, text_params, set_texts. cbn [sp_nonce sp_alg sp_keyid sp_tag].
  destruct x, y, z, t; cbn [flat_map fst snd app]; intro H; try discriminate H; injection H as <- <- <- <- <-; reflexivity.
Qed.
Definition part (p : sparams) (n v k u : str) : sparams :=
  set_texts p (fun x => if str_eqb x n then Some v else if str_eqb x k then Some u else None).
Lemma part_given p n v k u : written_after n k -> given_texts (part p n v k u) = [(n, v); (k, u)].
Proof.
  intros (a & b & c & H). unfold part, set_texts.
  destruct a as [|a0 [|a1 [|a2 [|a3 a]]]]; destruct b as [|b0 [|b1 [|b2 b]]]; cbn [app] in H; try discriminate H.
  all: try (injection H; intros; match goal with E : [] = ?x ++ _ |- _ => destruct x; discriminate E end).
  all: injection H; intros; subst; reflexivity.
Qed.
Lemma mistaken p : mistakable p -> exists q, p <> q /\ same_but_texts p q /\ params_text p = params_text q /\ (printable_texts p -> printable_texts q).
Proof.
  assert (Hm : forall n v k u, flat_map enc [(n, v ++ mid k ++ u)] = flat_map enc [(n, v); (k, u)]).
  { intros n v k u. cbn [flat_map]. unfold enc, mid. cbn [fst snd]. change (lit """;") with (lit """" ++ lit ";"). rewrite ?app_nil_r, <- !app_assoc. reflexivity. }
  assert (Hp : forall n k, written_after n k -> Forall printable (mid k)).
  { intros n k (a & b & c & E). assert (Hk : In k names) by (unfold names; rewrite E; apply in_or_app; right; right; apply in_or_app; right; left; reflexivity).
    apply print_spec. unfold names in Hk. cbn [In] in Hk. repeat (destruct Hk as [<-|Hk]; [reflexivity|]). destruct Hk. }
  intros [([n v] & [k u] & l & H)|(n & k & w & u & H & Ha)].
  - exists (merge p n v k u). pose proof (merge_given p n v k u l H) as Hq. assert (Hs : same_but_texts p (merge p n v k u)) by (repeat split). split; [|split; [exact Hs|split]].
    + intro E. rewrite <- E, H in Hq. injection Hq as E1 E2. apply (f_equal (@length N)) in E1. unfold mid in E1. rewrite !app_length in E1. cbn [length lit] in E1. change (length (lit """;")) with 2%nat in E1. lia.
    + apply same_text; [exact Hs|]. rewrite H, Hq. change ((n, v) :: (k, u) :: l) with ([(n, v); (k, u)] ++ l). change ((n, v ++ mid k ++ u) :: l) with ([(n, v ++ mid k ++ u)] ++ l).
      rewrite !flat_map_app, Hm. reflexivity.
    + unfold printable_texts. rewrite H, Hq. rewrite !Forall_cons_iff. cbn [snd]. intros (H1 & H2 & H3). split; [|exact H3]. apply Forall_app. split; [exact H1|]. apply Forall_app. split; [|exact H2].
      apply (Hp n). apply (given_order p n v [] k u [] l). exact H.
  - exists (part p n w k u). pose proof (part_given p n w k u Ha) as Hq. assert (Hs : same_but_texts p (part p n w k u)) by (repeat split). split; [|split; [exact Hs|split]].
    + intro E. rewrite <- E, H in Hq. discriminate Hq.
    + apply same_text; [exact Hs|]. rewrite H, Hq, <- Hm. unfold mid. rewrite <- !app_assoc. reflexivity.
    + unfold printable_texts. rewrite H, Hq. rewrite !Forall_cons_iff. cbn [snd]. intros (H1 & H2). apply Forall_app in H1 as [H1 H3]. apply Forall_app in H3 as [_ H3].
      apply Forall_app in H3 as [_ H3]. apply Forall_app in H3 as [_ H3]. auto.
Qed.

(** ** verification looks at the text, the time of expiry and the key id only *)
Definition alike (kid : option str) (x y : str * (sigbase * sigheaders)) : Prop :=
  fst x = fst y /\ base_bytes (fst (snd x)) = base_bytes (fst (snd y)) /\ sh_sig (snd (snd x)) = sh_sig (snd (snd y))
  /\ sp_expires (sh_params (snd (snd x))) = sp_expires (sh_params (snd (snd y)))
  /\ (kid = None \/ base_keyid (fst (snd x)) = base_keyid (fst (snd y))).
Lemma check_alike kid clk key cs cs' : Forall2 (alike kid) cs cs' -> forall i, mapi (check clk key) i cs = mapi (check clk key) i cs'.
Proof.
  induction 1 as [|[n [b h]] [n' [b' h']] cs cs' (H1 & H2 & H3 & H4 & _) H IH]; intro i; [reflexivity|]. cbn [mapi]. rewrite IH. f_equal.
  cbn [fst snd] in *. unfold check. cbn [fst snd]. subst n'. f_equal. unfold verify_signature_headers, is_expired. rewrite H2, H3, H4. reflexivity.
Qed.
Lemma verify_alike kid clk key cs cs' : Forall2 (alike kid) cs cs' -> verify_one clk cs key kid = verify_one clk cs' key kid.
Proof.
  intro H. unfold verify_one. fold (kid_filter kid cs) (kid_filter kid cs').
  assert (Hf : Forall2 (alike kid) (kid_filter kid cs) (kid_filter kid cs')).
  { destruct kid as [k|]; [|exact H]. cbn [kid_filter]. induction H as [|x y cs cs' Hx H IH]; [constructor|]. cbn [filter]. destruct Hx as (H1 & H2 & H3 & H4 & [Hk|Hk]); [discriminate Hk|].
    rewrite Hk. destruct (option_eqb str_eqb (base_keyid (fst (snd y))) (Some k)); [|exact IH]. constructor; [|exact IH]. repeat split; auto. }
  assert (E : is_empty (kid_filter kid cs) = is_empty (kid_filter kid cs')) by (destruct Hf; reflexivity). rewrite E.
  destruct (is_empty (kid_filter kid cs')); [reflexivity|]. fold (check clk key). rewrite (check_alike _ clk key _ _ Hf). reflexivity.
Qed.
Lemma base_swapped m rfp m' rfp' p q : sp_covered p = sp_covered q -> (forall i, In i (sp_covered p) -> agree i m rfp m' rfp') ->
  build_signature_base m' q rfp' = rmap (fun b => mkBase (sb_lines b) q) (build_signature_base m p rfp).
Proof.
  intros Hc Ha. rewrite (base_same m rfp m' rfp' p Ha). unfold build_signature_base. rewrite <- Hc. destruct (collect _ _) as [ls|e|x]; cbn [bind rmap]; try reflexivity.
  unfold base_try_new. rewrite <- Hc. destruct (negb _); [reflexivity|]. destruct (negb _); reflexivity.
Qed.
Lemma built_params m rfp p b : build_signature_base m p rfp = Ok b -> sb_params b = p.
Proof.
  unfold build_signature_base. destruct (collect _ _) as [ls|e|x]; cbn [bind]; try discriminate. unfold base_try_new. destruct (negb _); [discriminate|]. destruct (negb _); [discriminate|].
  cbn [map_err]. intro H. injection H as <-. reflexivity.
Qed.
Lemma candidates_alike kid m rfp m' rfp' l l' cs cs' : Forall2 (seen_alike kid) l l' -> (forall n h i, In (n, h) l -> In i (sp_covered (sh_params h)) -> agree i m rfp m' rfp') ->
  candidates m rfp None l cs -> candidates m' rfp' None l' cs' -> Forall2 (alike kid) cs cs'.
Proof.
  intros H Ha Hc. revert l' cs' H. induction Hc as [|n h b l cs Hb Hk Hc IH|n h l cs Hb Hc IH]; intros l' cs' H Hc'.
  - inversion H; subst. inversion Hc'; subst. constructor.
  - inversion H as [|? [n' h'] ? l1 Hs H']; subst. destruct Hs as (H1 & H2 & H3 & H4 & H5 & H6). cbn [fst snd] in *. subst n'.
    pose proof (base_swapped m rfp m' rfp' (sh_params h) (sh_params h') H3 (fun i => Ha n h i (or_introl eq_refl))) as Hq. rewrite Hb in Hq. cbn [rmap] in Hq.
    inversion Hc' as [|? ? b' ? cs1 Hb' _ Hc1|? ? ? ? Hb' Hc1]; subst.
    + constructor; [|apply (IH (fun x y i Hi => Ha x y i (or_intror Hi)) _ _ H' Hc1)]. rewrite Hq in Hb'. injection Hb' as <-. unfold alike. cbn [fst snd]. pose proof (built_params _ _ _ _ Hb) as Hp.
      split; [reflexivity|]. split; [|split; [assumption|split; [assumption|]]].
      * unfold base_bytes, base_str. cbn [sb_lines sb_params]. rewrite Hp, !params_text_spec, H5. reflexivity.
      * unfold base_keyid. cbn [sb_params]. rewrite Hp. exact H6.
    + exfalso. destruct Hb' as [Hb'|(k & Hk' & _)]; [|discriminate Hk']. exact (Hb' _ Hq).
  - inversion H as [|? [n' h'] ? l1 Hs H']; subst. destruct Hs as (H1 & H2 & H3 & H4 & H5 & H6). cbn [fst snd] in *. subst n'.
    pose proof (base_swapped m rfp m' rfp' (sh_params h) (sh_params h') H3 (fun i => Ha n h i (or_introl eq_refl))) as Hq.
    inversion Hc' as [|? ? b' ? cs1 Hb' _ Hc1|? ? ? ? Hb' Hc1]; subst.
    + exfalso. destruct Hb as [Hb|(k & Hk' & _)]; [|discriminate Hk']. rewrite Hb' in Hq. destruct (build_signature_base m (sh_params h) rfp) as [x|x|x] eqn:E; try discriminate Hq. exact (Hb _ eq_refl).
    + apply (IH (fun x y i Hi => Ha x y i (or_intror Hi)) _ _ H' Hc1).
Qed.
Lemma looks_alike_same kid m rfp m' rfp' l l' : received m l -> received m' l' -> Forall2 (seen_alike kid) l l' ->
  (forall n h i, In (n, h) l -> In i (sp_covered (sh_params h)) -> agree i m rfp m' rfp') ->
  forall clk key, verify_message_signature clk m' rfp' key kid = verify_message_signature clk m rfp key kid.
Proof.
  intros Hl Hl' Hs Ha clk key. destruct (candidates_exist m rfp None l) as [cs Hc]. destruct (candidates_exist m' rfp' None l') as [cs' Hc'].
  rewrite !verify_single. rewrite (proj2 (extract_signatures_spec m rfp cs)) by eauto. rewrite (proj2 (extract_signatures_spec m' rfp' cs')) by eauto. cbn [bind].
  symmetry. apply verify_alike. eapply candidates_alike; eassumption.
Qed.

(** ** messages with other parameters *)
Lemma printable_opts p : printable_texts p <-> forall s, In (Some s) [sp_nonce p; sp_alg p; sp_keyid p; sp_tag p] -> Forall printable s.
Proof.
  unfold printable_texts, given_texts, text_params. destruct p as [c e n a k t ids]. cbn [sp_nonce sp_alg sp_keyid sp_tag flat_map fst snd].
  split.
  - intros H s Hs. rewrite Forall_forall in H. cbn [In] in Hs.
    destruct Hs as [Hs|[Hs|[Hs|[Hs|[]]]]]; subst; [apply (H (lit "nonce", s))|apply (H (lit "alg", s))|apply (H (lit "keyid", s))|apply (H (lit "tag", s))]; rewrite !in_app_iff; cbn [In]; auto 8.
  - intro H. repeat (apply Forall_app; split); [destruct n as [s|]|destruct a as [s|]|destruct k as [s|]|destruct t as [s|]|]; repeat constructor; cbn [snd]; apply H; cbn [In]; auto.
Qed.
Lemma forged_wf q : wellformed q -> printable_texts q -> wf_inner (params_inner q).
Proof.
  intros (H1 & H2 & H3 & H4) Hp. split; cbn [params_inner in_items in_params].
  - apply Forall_map. eapply Forall_impl; [|exact H3]. intros i Hi. apply id_item_wf, Hi.
  - split; [|destruct (params_list_keys q) as (ks & -> & H); exact H].
    assert (Ht : forall k o, wf_key k -> In o [sp_nonce q; sp_alg q; sp_keyid q; sp_tag q] -> Forall wf_param (opt_param k BStr o)).
    { intros k o Hk Ho. destruct o as [s|]; [|constructor]. constructor; [|constructor]. split; [exact Hk|]. apply print_spec. exact (proj1 (printable_opts q) Hp s Ho). }
    unfold params_list. repeat (apply Forall_app; split); try (apply opt_wf_time; [split; reflexivity|assumption]).
    all: apply Ht; [split; reflexivity|cbn [In]; auto].
Qed.
Lemma input_lines m t : field_lines (msg_headers (with_input m t)) (lit "signature-input") = [t].
Proof.
  unfold with_input. replace (msg_headers (msg_set_headers m _)) with (filter (fun kv : str * bytes => if list_eq_dec N.eq_dec (fst kv) (lit "signature-input") then false else true) (msg_headers m) ++ [(lit "signature-input", t)]) by (destruct m; reflexivity).
  rewrite field_lines_app. unfold field_lines at 2. cbn [filter fst]. destruct (list_eq_dec N.eq_dec (lit "signature-input") (lit "signature-input")) as [_|Hn]; [|destruct (Hn eq_refl)]. cbn [map snd].
  enough (E : field_lines (filter (fun kv : str * bytes => if list_eq_dec N.eq_dec (fst kv) (lit "signature-input") then false else true) (msg_headers m)) (lit "signature-input") = []) by (rewrite E; reflexivity).
  induction (msg_headers m) as [|kv h IH]; [reflexivity|]. cbn [filter]. destruct (list_eq_dec N.eq_dec (fst kv) (lit "signature-input")) as [E|E]; [exact IH|].
  unfold field_lines in *. cbn [filter]. destruct (list_eq_dec N.eq_dec (fst kv) (lit "signature-input")); [contradiction|exact IH].
Qed.
Lemma other_lines m t n : n <> lit "signature-input" -> field_lines (msg_headers (with_input m t)) n = field_lines (msg_headers m) n.
Proof.
  intro Hn. unfold with_input. replace (msg_headers (msg_set_headers m _)) with (filter (fun kv : str * bytes => if list_eq_dec N.eq_dec (fst kv) (lit "signature-input") then false else true) (msg_headers m) ++ [(lit "signature-input", t)]) by (destruct m; reflexivity).
  rewrite field_lines_app. unfold field_lines at 2. cbn [filter fst]. destruct (list_eq_dec N.eq_dec (lit "signature-input") n) as [E|_]; [congruence|]. cbn [map]. rewrite app_nil_r.
  induction (msg_headers m) as [|kv h IH]; [reflexivity|]. cbn [filter]. unfold field_lines in *. destruct (list_eq_dec N.eq_dec (fst kv) (lit "signature-input")) as [E|E].
  - rewrite IH. cbn [filter]. destruct (list_eq_dec N.eq_dec (fst kv) n); [congruence|reflexivity].
  - cbn [filter]. destruct (list_eq_dec N.eq_dec (fst kv) n); cbn [map]; rewrite IH; reflexivity.
Qed.
Lemma forged m l n h q : received m l -> In (n, h) l -> same_but_texts (sh_params h) q -> printable_texts q -> exists t, received (with_input m t) (with_params n q l).
Proof.
  intros Hl Hi (C1 & C2 & C3) Hp. destruct (received_wellformed _ _ _ _ Hl Hi) as ((W1 & W2 & W3 & W4) & _).
  assert (Hw : wellformed q) by (unfold wellformed; rewrite <- C1, <- C2, <- C3; auto).
  pose proof (forged_wf q Hw Hp) as Hq. pose proof (received_names _ _ Hl) as [Hn _]. apply received_hold in Hl as (Hs & L1 & L2 & ds & di & Es & Ei & Hk & Hf).
  set (sw := fun kv : str * entry => if list_eq_dec N.eq_dec (fst kv) n then (fst kv, EInner (params_inner q)) else kv).
  assert (Hfst : map fst (map sw di) = map fst di) by (rewrite map_map; apply map_ext; intros [k e]; unfold sw; cbn [fst]; destruct (list_eq_dec N.eq_dec k n); reflexivity).
  assert (Hd : wf_dict (map sw di)).
  { apply parse_dict_wf in Ei as [Wi Ni]. split; [|rewrite Hfst; exact Ni]. apply Forall_map. eapply Forall_impl; [|exact Wi]. intros [k e] [Hke He]. unfold sw. cbn [fst snd] in *.
    destruct (list_eq_dec N.eq_dec k n); split; cbn [fst snd]; auto. }
  exists (join [cComma; cSP] (map ser_member (map sw di))). set (t := join _ _). apply received_hold. rewrite input_lines, other_lines by discriminate.
  split; [|split; [exact L1|split]].
  - split; [rewrite other_lines by discriminate; apply Hs|rewrite input_lines; discriminate].
  - constructor; [|constructor]. apply legible_print, join_print; [repeat constructor; unfold cComma, cSP; lia|]. apply Forall_map. eapply Forall_impl; [|exact (proj1 Hd)]. exact ser_member_print.
  - exists ds, (map sw di). split; [exact Es|]. split; [replace (comma_join [t]) with t by (cbn [comma_join flat_map]; rewrite app_nil_r; reflexivity); apply parse_dict_round, Hd|].
    split; [intro k; rewrite Hfst; apply Hk|]. clear -Hf Hw. unfold with_params. induction Hf as [|[k e] [k' h'] di l (H1 & H2 & H3 & H4) Hf IH]; [constructor|]. cbn [map]. constructor; [|exact IH].
    cbn [fst snd] in *. unfold sw, paired. cbn [fst snd]. subst k'. destruct (list_eq_dec N.eq_dec k n); cbn [fst snd sh_name sh_sig sh_params]; (split; [reflexivity|]); (split; [exact H2|]); (split; [|exact H4]).
    + apply entry_of_inner; apply Hw.
    + exact H3.
Qed.
