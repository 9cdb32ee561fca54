(** Lines of a field together *)
From Verif Require Import Base BaseFacts Utf8 Sfv SfvFacts SfvRound SpecSfv SpecSfvProofs SpecGrammar GrammarProofs SpecCanon CanonProofs Component SpecId SpecValue ValueProofs SignProofs SpecRfc.

(** ** white space *)
Lemma stripped_length x y : stripped x y -> (length y <= length x)%nat /\ (length y = length x -> x = y).
Proof.
  intros (a & b & -> & _ & _ & _). rewrite !app_length. split; [lia|]. intro H. destruct a; [|cbn [length] in H; lia]. destruct b; [|cbn [length] in H; lia]. apply app_nil_r.
Qed.
Lemma comma_join_cons x l : l <> [] -> comma_join (x :: l) = x ++ lit ", " ++ comma_join l.
Proof. intro H. change (x :: l) with ([x] ++ l). rewrite comma_join_app by (assumption || discriminate). cbn [comma_join flat_map]. rewrite app_nil_r. reflexivity. Qed.
Lemma stripped_join xs ys : Forall2 stripped xs ys -> (length (comma_join ys) <= length (comma_join xs))%nat /\ (length (comma_join ys) = length (comma_join xs) -> xs = ys).
Proof.
  induction 1 as [|x y xs ys H Hs IH]; [split; reflexivity|]. apply stripped_length in H as [H1 H2].
  destruct xs as [|x' xs]; [inversion Hs; subst; cbn [comma_join flat_map]; rewrite !app_nil_r; split; [assumption|]; intro E; f_equal; auto|].
  inversion Hs as [|? y' ? ys' _ _]; subst. rewrite !(comma_join_cons _ (_ :: _)) by discriminate. rewrite !app_length.
  destruct IH as [I1 I2]. split; [lia|]. intro E. f_equal; [apply H2|apply I2]; lia.
Qed.
Lemma stripped_self x : stripped x x <-> no_blanks_around x.
Proof.
  split; [intros (a & b & _ & _ & _ & H); exact H|]. intro H. exists [], []. rewrite app_nil_r. split; [reflexivity|]. split; [constructor|]. split; [constructor|exact H].
Qed.

(** ** lists with commas *)
Lemma separated_app (sep : str -> Prop) a b s w t : separated sep a s -> sep w -> separated sep b t -> separated sep (a ++ b) (s ++ w ++ t).
Proof.
  intros Ha Hw Hb. induction Ha as [s|s w' ts u Hw' _ IH]; cbn [app]; [constructor; assumption|]. rewrite <- !app_assoc. constructor; assumption.
Qed.
Lemma spaces_blanks w : spaces w -> blanks w.
Proof. intro H. eapply Forall_impl; [|exact H]. intros c ->. left. reflexivity. Qed.
Lemma commas_app {A} (text : A -> str -> Prop) a b s t : a <> [] -> b <> [] -> commas text a s -> commas text b t -> commas text (a ++ b) (s ++ lit ", " ++ t).
Proof.
  intros Na Nb [[-> _]|(w1 & ts & s' & w2 & -> & H1 & H2 & H3 & H4)]; [congruence|]. intros [[-> _]|(v1 & us & t' & v2 & -> & K1 & K2 & K3 & K4)]; [congruence|].
  right. exists w1, (ts ++ us), (s' ++ (w2 ++ lit "," ++ (lit " " ++ v1)) ++ t'), v2. split; [rewrite <- !app_assoc; reflexivity|]. split; [assumption|]. split; [assumption|].
  split; [apply Forall2_app; assumption|]. apply separated_app; [assumption| |assumption].
  exists w2, (lit " " ++ v1). split; [reflexivity|]. split; [assumption|]. apply Forall_app. split; [repeat constructor|apply spaces_blanks, K1].
Qed.
Lemma commas_join {A} (text : A -> str -> Prop) ls lines : Forall2 (commas text) ls lines -> Forall (fun l => l <> []) ls -> lines <> [] -> commas text (concat ls) (comma_join lines).
Proof.
  induction 1 as [|l v ls lines H Hs IH]; intros Hn Hl; [congruence|]. inversion Hn as [|? ? N1 N2]; subst.
  destruct Hs as [|l' v' ls lines H' Hs]; [cbn [concat comma_join flat_map]; rewrite !app_nil_r; assumption|].
  rewrite comma_join_cons by discriminate. cbn [concat]. apply commas_app; try assumption; [|apply IH; [assumption|discriminate]].
  inversion N2; subst. destruct l'; [congruence|discriminate].
Qed.
Lemma texts_join ls ts : Forall2 (separated (eq (lit ", "))) ls ts -> ts <> [] -> separated (eq (lit ", ")) (concat ls) (comma_join ts).
Proof.
  induction 1 as [|l v ls ts H Hs IH]; intros Hl; [congruence|].
  destruct Hs as [|l' v' ls ts H' Hs]; [cbn [concat comma_join flat_map]; rewrite !app_nil_r; assumption|].
  rewrite comma_join_cons by discriminate. cbn [concat]. apply separated_app; [assumption|reflexivity|]. apply IH. discriminate.
Qed.
Lemma canon_join {A} (canon : A -> str -> Prop) ls ts : Forall2 (fun l t => exists us, Forall2 canon l us /\ separated (eq (lit ", ")) us t) ls ts -> ts <> [] ->
  exists us, Forall2 canon (concat ls) us /\ separated (eq (lit ", ")) us (comma_join ts).
Proof.
  intros H Hn.
  assert (E : exists uss, Forall2 (Forall2 canon) ls uss /\ Forall2 (separated (eq (lit ", "))) uss ts).
  { clear Hn. induction H as [|l t ls ts (us & H1 & H2) _ (uss & I1 & I2)]; [exists []; split; constructor|]. exists (us :: uss). split; constructor; assumption. }
  destruct E as (uss & E1 & E2). exists (concat uss). split; [|apply texts_join; assumption]. clear -E1. induction E1; cbn [concat]; [constructor|apply Forall2_app; assumption].
Qed.

(** ** maps *)
Lemma im_insert_new {V} (m x : list (str * V)) k v : ~ In k (map fst m) -> im_insert (m ++ x) k v = m ++ im_insert x k v.
Proof.
  induction m as [|[k' v'] m IH]; [reflexivity|]. cbn [map fst In app im_insert]. intro H. destruct (str_eqb k k') eqn:E; [apply str_eqb_eq in E; subst; tauto|]. rewrite IH by tauto. reflexivity.
Qed.
Lemma im_add_new {V} (l : list (str * V)) : forall m x, (forall k, In k (map fst l) -> ~ In k (map fst m)) -> im_add (m ++ x) l = m ++ im_add x l.
Proof.
  induction l as [|[k v] l IH]; intros m x H; [reflexivity|]. rewrite !im_add_cons, im_insert_new by (apply H; left; reflexivity). apply IH. intros k' Hk. apply H. right. assumption.
Qed.
Lemma im_concat {V} (ls : list (list (str * V))) : NoDup (concat (map (map fst) (map im_of_list ls))) -> im_of_list (concat ls) = concat (map im_of_list ls).
Proof.
  induction ls as [|l ls IH]; [reflexivity|]. cbn [map concat]. intro H.
  assert (Hk : forall x : list (str * V), forall k, In k (map fst x) <-> In k (map fst (im_of_list x))).
  { intros x k. destruct (last_value k x) as [v|] eqn:E.
    - pose proof E as E'. rewrite <- im_get_of_list in E'. apply BaseFacts.im_get_In in E'. apply last_value_In in E. apply (in_map fst) in E. apply (in_map fst) in E'. cbn [fst] in *. tauto.
    - pose proof E as E'. apply last_value_none in E'. rewrite <- im_get_of_list in E. split; [tauto|]. intro Hi. exfalso. rewrite im_get_of_list in E. apply last_value_none in E. apply E.
      rewrite im_of_list_keys in Hi. clear -Hi. revert Hi. generalize (map fst x), (@nil str). intros l s. revert s. induction l as [|a l IH]; intros s; [intros []|]. cbn [distinct].
      destruct (in_dec _ a s); cbn [In]; [intro H; right; eapply IH; exact H|]. intros [->|H]; [left; reflexivity|right; eapply IH; exact H]. }
  assert (E : im_of_list (l ++ concat ls) = im_add (im_of_list l ++ []) (concat ls)) by (rewrite app_nil_r, im_of_list_add, im_add_app; reflexivity).
  rewrite E, im_add_new.
  - f_equal. apply IH. clear -H. induction (map fst (im_of_list l)) as [|a r IHr]; [exact H|]. inversion H. auto.
  - intros k Hi Hl. rewrite concat_map in Hi. apply in_concat in Hi as (y & Hy & Hi). apply in_map_iff in Hy as (z & <- & Hz).
    assert (Hc : In k (concat (map (map fst) (map im_of_list ls)))).
    { apply in_concat. exists (map fst (im_of_list z)). split; [|exact (proj1 (Hk z k) Hi)]. apply in_map, in_map, Hz. }
    clear -H Hl Hc. induction (map fst (im_of_list l)) as [|a r IH]; [destruct Hl|]. inversion H as [|? ? N1 N2]; subst. destruct Hl as [->|Hl]; [apply N1, in_or_app; right; exact Hc|auto].
Qed.
Lemma last_app {V} k (a b : list (str * V)) : last_value k (a ++ b) = match last_value k b with Some v => Some v | None => last_value k a end.
Proof.
  induction a as [|[k' v'] a IH]; cbn [app last_value]; [destruct (last_value k b); reflexivity|]. rewrite IH. destruct (last_value k b); reflexivity.
Qed.

(** ** members *)
Lemma member_in {V} (l : list (str * V)) k v : In (k, v) (im_of_list l) <-> last_value k l = Some v.
Proof. apply (proj2 (proj2 (map_of_spec l (im_of_list l)) eq_refl)). Qed.
Lemma dict_raw d v : dict_field d v <-> exists l, commas member_text l v /\ d = im_of_list l.
Proof. unfold dict_field. split; intros (l & H1 & H2); exists l; (split; [assumption|]); apply map_of_spec; assumption. Qed.
Lemma dict_one d d' v : dict_field d v -> dict_field d' v -> d = d'.
Proof. intros H H'. apply parse_dict_spec in H, H'. congruence. Qed.
Lemma member_last k ls lines out : Forall2 (commas member_text) ls lines -> member_texts k lines out ->
  match last_value k (concat ls) with Some e => exists o t, out = o ++ [t] /\ canon_entry e t | None => out = [] end.
Proof.
  intros Hf Hm. revert ls Hf. induction Hm as [|v d e t vs ts Hd Hi Hc Hm IH|v d vs ts Hd Hi Hm IH]; intros ls Hf; inversion Hf as [|l v' ls' vs' H1 H2]; subst; [reflexivity| |].
  - cbn [concat]. rewrite last_app. specialize (IH ls' H2). destruct (last_value k (concat ls')) as [e'|] eqn:E.
    + destruct IH as (o & t' & -> & Hc'). exists (t :: o), t'. split; [reflexivity|assumption].
    + subst ts. assert (d = im_of_list l) as -> by (eapply dict_one; [eassumption|apply dict_raw; eauto]). apply member_in in Hi. rewrite Hi. exists [], t. split; [reflexivity|assumption].
  - cbn [concat]. rewrite last_app. specialize (IH ls' H2). destruct (last_value k (concat ls')) as [e'|] eqn:E; [assumption|].
    assert (d = im_of_list l) as -> by (eapply dict_one; [eassumption|apply dict_raw; eauto]). destruct (last_value k l) as [e'|] eqn:E'; [|assumption]. exfalso. apply Hi.
    apply member_in in E'. apply (in_map fst) in E'. exact E'.
Qed.
Lemma canon_entry_fun d v k e t t' : dict_field d v -> In (k, e) d -> canon_entry e t -> canon_entry e t' -> t = t'.
Proof.
  intros Hd Hi H H'. apply parse_dict_spec, parse_dict_wf, dict_value_spec, dict_entries in Hd. rewrite Forall_forall in Hd. specialize (Hd _ Hi). cbn [snd] in Hd.
  apply (canon_entry_spec e) in H, H'; try assumption. congruence.
Qed.
Lemma member_count k lines out : member_texts k lines out -> (exists t, out = [t]) <-> once (has_member k) lines.
Proof.
  assert (Hnone : forall lines out, member_texts k lines out -> out = [] <-> Forall (fun v => ~ has_member k v) lines).
  { intros ls o H. induction H as [|v d e t vs ts Hd Hi Hc Hm IH|v d vs ts Hd Hi Hm IH].
    - split; [constructor|reflexivity].
    - split; [discriminate|]. intro H. inversion H as [|? ? N _]; subst. exfalso. apply N. exists d, e. auto.
    - rewrite IH. split; intro H; [constructor; [|assumption]|inversion H; assumption]. intros (d' & e & Hd' & Hi'). rewrite (dict_one _ _ _ Hd' Hd) in Hi'. apply Hi. apply (in_map fst) in Hi'. exact Hi'. }
  intro H. induction H as [|v d e t vs ts Hd Hi Hc Hm IH|v d vs ts Hd Hi Hm IH].
  - split; [intros [t E]; discriminate|]. intros ([|x a] & v & b & E & _); discriminate.
  - assert (Hh : has_member k v) by (exists d, e; auto). split.
    + intros (t' & E). injection E as -> E. exists [], v, vs. split; [reflexivity|]. split; [assumption|]. apply (Hnone vs ts Hm). assumption.
    + intros (a & w & b & E & Hw & Hb). destruct a as [|x a].
      * injection E as <- <-. apply (Hnone vs ts Hm) in Hb. subst. eauto.
      * injection E as <- _. inversion Hb as [|? ? N _]; subst. contradiction.
  - assert (Hh : ~ has_member k v). { intros (d' & e & Hd' & Hi'). rewrite (dict_one _ _ _ Hd' Hd) in Hi'. apply Hi. apply (in_map fst) in Hi'. exact Hi'. }
    rewrite IH. split; intros (a & w & b & E & Hw & Hb).
    + exists (v :: a), w, b. split; [rewrite E; reflexivity|]. split; [assumption|]. constructor; assumption.
    + destruct a as [|x a]; [injection E as <- _; contradiction|]. injection E as <- ->. inversion Hb; subst. exists a, w, b. auto.
Qed.

(** ** lines that are lists and dictionaries: the members are tokens *)
Definition token_member (e : entry) (kv : str * entry) : Prop :=
  exists ps, e = EItem (mkItem (BTok (fst kv)) ps) /\ snd kv = EItem (mkItem (BBool true) ps).
Definition goes_on (r : str) : Prop := match skip is_ows r with [] => True | c :: _ => c = cComma end.
Lemma key_token k : forallb is_key_char k = true -> forallb is_tok_char k = true.
Proof.
  induction k as [|c k IH]; [reflexivity|]. cbn [forallb]. intro H. apply andb_prop in H as [H1 H2]. apply andb_true_intro. split; [|auto]. clear -H1. chars.
Qed.
Lemma both_step s e r kv r' : p_entry s = Some (e, r) -> goes_on r -> p_member s = Some (kv, r') -> goes_on r' -> token_member e kv /\ r = r'.
Proof.
  intros He Hr Hm Hr'. unfold p_member in Hm. destruct (p_key s) as [[k r1]|] eqn:Ek; [|discriminate]. apply p_key_some in Ek as (-> & [K1 K2] & K3).
  assert (Hb : forall d y, r1 = d :: y -> is_tok_char d = false \/ d <> cEq /\ d <> cSemi /\ d <> cComma /\ is_ows d = false).
  { intros d y ->. cbn [headn] in K3. destruct (is_tok_char d) eqn:E; [right|left; reflexivity]. clear -E. repeat split; chars. }
  assert (Hi : headn is_tok_char r1 -> e = EItem (mkItem (BTok k) (match p_params r1 with Some (ps, _) => ps | None => [] end)) /\ p_params r1 = Some (match p_params r1 with Some (ps, _) => ps | None => [] end, r)).
  { intro Ht. pose proof (span_app is_tok_char k r1 (key_token _ K2) Ht) as Es. destruct k as [|c k]; [destruct K1|]. unfold p_entry in He. cbn [app] in He, Es. replace (c =? cLPar) with false in He by (clear -K1; chars).
    unfold p_item, p_bare in He. replace ((c =? cMinus) || is_digit c) with false in He by (clear -K1; chars). replace (c =? cQuote) with false in He by (clear -K1; chars).
    replace (is_tok_start c) with true in He by (clear -K1; chars). rewrite Es in He. destruct (p_params r1) as [[ps y]|]; [|discriminate]. injection He as <- <-. split; reflexivity. }
  destruct r1 as [|d y].
  - injection Hm as <- <-. destruct (Hi I) as [-> H]. cbn in H. injection H as <-. split; [|reflexivity]. exists []. split; reflexivity.
  - specialize (Hb d y eq_refl). destruct (d =? cEq) eqn:Ed.
    + exfalso. apply N.eqb_eq in Ed. subst d. destruct (Hi eq_refl) as [_ H]. cbn in H. injection H as <-. cbn in Hr. discriminate Hr.
    + destruct Hb as [Hb|(B1 & B2 & B3 & B4)].
      * destruct (Hi Hb) as [-> H]. destruct (p_params (d :: y)) as [[ps z]|]; [|discriminate]. injection Hm as <- <-. injection H as ->. split; [|reflexivity]. exists ps. split; reflexivity.
      * exfalso. unfold p_params in Hm. rewrite p_params_step in Hm. replace (d =? cSemi) with false in Hm by (clear -B2; lia). injection Hm as _ <-. unfold goes_on in Hr'. rewrite skip_id in Hr' by exact B4. congruence.
Qed.
Lemma p_sep_goes {A} (p : str -> option (A * str)) f s a r l : p_sep_f p (S f) s = Some l -> s <> [] -> p s = Some (a, r) -> goes_on r.
Proof.
  cbn [p_sep_f]. intros H Hn Hp. destruct s as [|c s]; [congruence|]. rewrite Hp in H. unfold goes_on. destruct (skip is_ows r) as [|d y]; [exact I|]. destruct (d =? cComma) eqn:E; [apply N.eqb_eq, E|discriminate].
Qed.
Lemma both_read f : forall s l m, p_sep_f p_entry f s = Some l -> p_sep_f p_member f s = Some m -> Forall2 token_member l m.
Proof.
  induction f as [|f IH]; intros s l m Hl Hm; [discriminate|]. destruct s as [|c s]; [injection Hl as <-; injection Hm as <-; constructor|].
  pose proof (fun a r => p_sep_goes p_entry f _ a r _ Hl) as G1. pose proof (fun a r => p_sep_goes p_member f _ a r _ Hm) as G2.
  cbn [p_sep_f] in Hl, Hm. destruct (p_entry (c :: s)) as [[e r]|] eqn:E1; [|discriminate]. destruct (p_member (c :: s)) as [[kv r']|] eqn:E2; [|discriminate].
  destruct (both_step _ _ _ _ _ E1 (G1 _ _ ltac:(discriminate) eq_refl) E2 (G2 _ _ ltac:(discriminate) eq_refl)) as [Ht <-].
  destruct (skip is_ows r) as [|d y]; [injection Hl as <-; injection Hm as <-; repeat constructor; exact Ht|]. destruct (d =? cComma); [|discriminate]. destruct (skip is_ows y) as [|d2 z]; [discriminate|].
  destruct (p_sep_f p_entry f (d2 :: z)) as [l'|] eqn:F1; [|discriminate]. destruct (p_sep_f p_member f (d2 :: z)) as [m'|] eqn:F2; [|discriminate].
  injection Hl as <-. injection Hm as <-. constructor; [exact Ht|]. eapply IH; eassumption.
Qed.
Lemma commas_members m s : commas member_text m s <-> p_sep p_member (skip is_sp s) = Some m.
Proof. apply (commas_spec p_member member_text p_member_text member_text_p member_text_head). Qed.
Lemma both_fields l m s : list_field l s -> commas member_text m s -> Forall2 token_member l m.
Proof. intros H1 H2. apply parse_list_spec in H1. apply commas_members in H2. unfold parse_list in H1. unfold p_sep in H1, H2. eapply both_read; eassumption. Qed.
Lemma token_canon l m us : Forall2 token_member l m -> Forall2 canon_entry l us -> Forall2 canon_member m us.
Proof.
  intro H. revert us. induction H as [|e [k x] l m (ps & -> & E) _ IH]; intros us Hu; inversion Hu as [|? t ? us' Ht Hus]; subst; constructor; [|auto].
  cbn [fst snd] in *. subst x. inversion Ht as [i t' (t1 & t2 & -> & H1 & H2)|]; subst. cbn [it_bare it_params] in *. inversion H1; subst. constructor. exact H2.
Qed.

(** ** the members that are signed for a line *)
Lemma members_wf m s : commas member_text m s -> Forall wf_member m.
Proof. intro H. apply commas_members in H. exact (p_sep_sound p_member wf_member p_member_facts _ _ H). Qed.
Lemma members_round m t : Forall wf_member m -> (exists us, Forall2 canon_member m us /\ separated (eq (lit ", ")) us t) -> commas member_text m t.
Proof.
  intros Hw (us & Hu & Hs). assert (Hv : Forall (fun kv => entry_value (snd kv)) m) by (eapply Forall_impl; [|exact Hw]; intros kv [_ H]; apply entry_value_spec, H).
  apply (Forall2_fun _ _ _ _ Hv canon_member_spec) in Hu. subst us. apply separated_join in Hs as [_ ->]. apply commas_members. change (lit ", ") with [cComma; cSP]. rewrite skip_id.
  - apply (p_sep_round p_member ser_member wf_member p_member_facts ser_member_round ser_member_head). assumption.
  - apply ows_sp. apply (join_head ser_member wf_member ser_member_head). assumption.
Qed.
Lemma members_one m m' s : commas member_text m s -> commas member_text m' s -> m = m'.
Proof. intros H H'. apply commas_members in H, H'. congruence. Qed.
Lemma signed_line v : some_dict v -> exists m m0 t, signed_members v m /\ commas member_text m0 v /\ m0 <> [] /\ im_of_list m = im_of_list m0 /\ canonical v t
  /\ (exists us, Forall2 canon_member m us /\ separated (eq (lit ", ")) us t) /\ Forall wf_member m.
Proof.
  intros (kv & d & Hd). pose proof Hd as Hr. apply dict_raw in Hr as (m0 & Hm & E). assert (Hn : m0 <> []) by (intros ->; discriminate E). pose proof (members_wf _ _ Hm) as Hw.
  destruct (parse_list v) as [l|] eqn:El.
  - apply parse_list_spec in El. pose proof (both_fields _ _ _ El Hm) as Hb. assert (Hl : l <> []) by (intros ->; inversion Hb; subst; congruence).
    destruct (proj2 (canonical_exists v)) as [t Ht]; [left; eauto|]. exists m0, m0, t. split; [left; eauto|]. do 3 (split; [assumption || reflexivity|]). split; [exact Ht|]. split; [|exact Hw].
    destruct Ht as [(l' & H1 & us & H2 & H3)|(H1 & _)]; [|destruct (H1 l El)]. exists us. split; [|exact H3]. eapply token_canon; [eapply both_fields; eassumption|exact H2].
  - assert (Hl : forall l, ~ list_field l v) by (intros l H; apply parse_list_spec in H; congruence).
    destruct (proj2 (canonical_exists v)) as [t Ht]; [right; eauto|]. exists (kv :: d), m0, t. split; [right; auto|]. split; [assumption|]. split; [assumption|].
    apply parse_dict_spec in Hd. pose proof (parse_dict_wf _ _ Hd) as [W1 W2]. apply parse_dict_spec in Hd.
    split; [rewrite im_of_list_id by assumption; exact E|]. split; [exact Ht|]. split; [|exact W1].
    destruct Ht as [(l' & H1 & _)|(_ & d' & H1 & H2)]; [destruct (Hl _ H1)|]. rewrite (dict_one _ _ _ H1 Hd) in H2. exact H2.
Qed.
Lemma signed_lines ls : Forall some_dict ls -> exists ms m0s ts, Forall2 signed_members ls ms /\ Forall2 (commas member_text) m0s ls /\ Forall (fun m => m <> []) m0s
  /\ map im_of_list ms = map im_of_list m0s /\ Forall2 canonical ls ts /\ Forall2 (fun m t => exists us, Forall2 canon_member m us /\ separated (eq (lit ", ")) us t) ms ts
  /\ Forall wf_member (concat ms).
Proof.
  induction 1 as [|v ls Hv _ (ms & m0s & ts & I1 & I2 & I3 & I4 & I5 & I6 & I7)]; [exists [], [], []; repeat split; constructor|].
  destruct (signed_line v Hv) as (m & m0 & t & J1 & J2 & J3 & J4 & J5 & J6 & J7). exists (m :: ms), (m0 :: m0s), (t :: ts).
  repeat (split; [constructor; assumption|]). split; [cbn [map]; congruence|]. repeat (split; [constructor; assumption|]). cbn [concat]. apply Forall_app. auto.
Qed.
Lemma nodup_each {V} (ms : list (list (str * V))) : NoDup (map fst (concat ms)) -> map im_of_list ms = ms.
Proof.
  induction ms as [|m ms IH]; [reflexivity|]. cbn [concat map]. rewrite map_app. intro H. f_equal.
  - apply im_of_list_id. clear -H. induction (map fst m) as [|a r IH]; [constructor|]. inversion H; subst. constructor; [|auto]. intro Hi. apply H2, in_or_app. auto.
  - apply IH. clear -H. induction (map fst m) as [|a r IHr]; [exact H|]. inversion H. auto.
Qed.
Lemma rfc_dict_when ls ms m0s ts : ls <> [] -> Forall2 (commas member_text) m0s ls -> Forall (fun m => m <> []) m0s -> map im_of_list ms = map im_of_list m0s ->
  Forall2 (fun m t => exists us, Forall2 canon_member m us /\ separated (eq (lit ", ")) us t) ms ts -> Forall wf_member (concat ms) -> length ls = length ts ->
  (rfc_dict ls (comma_join ts) <-> NoDup (map fst (concat ms))).
Proof.
  intros Hn H2 H3 H4 H6 H7 Hl. assert (Ht : ts <> []) by (intros ->; destruct ls; [congruence|discriminate Hl]).
  pose proof (canon_join _ _ _ H6 Ht) as Hj. pose proof (commas_join _ _ _ H2 H3 Hn) as Hc.
  assert (Hd : dict_field (im_of_list (concat m0s)) (comma_join ls)) by (apply dict_raw; eauto).
  split.
  - intros (d & Hd' & Hx). apply parse_dict_spec in Hd'. pose proof (parse_dict_wf _ _ Hd') as [W1 W2]. pose proof (members_round _ _ W1 Hx) as M1. pose proof (members_round _ _ H7 Hj) as M2.
    rewrite <- (members_one _ _ _ M1 M2). exact W2.
  - intro Hk. pose proof (nodup_each _ Hk) as E. exists (concat ms). split; [|exact Hj]. rewrite im_concat in Hd; rewrite <- H4, E in *; [exact Hd|]. rewrite <- concat_map. exact Hk.
Qed.
