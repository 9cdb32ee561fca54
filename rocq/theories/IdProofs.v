(** Component identifiers *)
From Coq Require Import ZifyBool ZifyNat ZifyN Permutation.
From Verif Require Import Base BaseFacts Utf8 Base64 Base64Facts Sfv SfvFacts SfvRound SpecSfv SpecSfvProofs Component Params SpecId.

(** ** white space *)
Lemma unicode_space_spec c : unicode_space c <-> is_ws c = true.
Proof.
  unfold unicode_space, is_ws. cbn [In]. lia.
Qed.
Lemma unicode_spaces w : Forall unicode_space w <-> forallb is_ws w = true.
Proof. symmetry. apply Forall_forallb. intro c. symmetry. apply unicode_space_spec. Qed.
Lemma no_space_spec t : no_space_at_ends t <-> trimmed t.
Proof.
  unfold no_space_at_ends, trimmed. split; intros [H1 H2]; split.
  - destruct t as [|c r]; [exact I|]. specialize (H1 c r eq_refl). rewrite unicode_space_spec in H1. destruct (is_ws c); congruence.
  - destruct (rev t) as [|c r] eqn:E; [exact I|]. specialize (H2 c (rev r)). rewrite unicode_space_spec in H2.
    destruct (is_ws c); [|reflexivity]. exfalso. apply H2; [|reflexivity]. rewrite <- (rev_involutive t), E. reflexivity.
  - intros c r ->. rewrite unicode_space_spec. congruence.
  - intros c r ->. rewrite rev_app_distr in H2. cbn in H2. rewrite unicode_space_spec. congruence.
Qed.
Lemma trim_spec s t : trim s = t <-> stripped s t.
Proof.
  split.
  - intros <-. destruct (trim_decomp s) as (w1 & w2 & E & H1 & H2). exists w1, w2. rewrite !unicode_spaces, no_space_spec. auto using trim_trimmed.
  - intros (w1 & w2 & -> & H1 & H2 & H). apply unicode_spaces in H1, H2. apply no_space_spec in H. rewrite trim_pad by assumption. apply trim_id. assumption.
Qed.

(** ** equality on names and parameters *)
Lemma derived_str_inj a b : derived_str a = derived_str b -> a = b.
Proof. destruct a, b; cbn; intro H; try reflexivity; discriminate. Qed.
Lemma derived_eqb_eq a b : derived_eqb a b = true <-> a = b.
Proof. unfold derived_eqb. rewrite str_eqb_eq. split; [apply derived_str_inj|intros ->; reflexivity]. Qed.
Lemma cname_eqb_eq a b : cname_eqb a b = true <-> a = b.
Proof.
  destruct a, b; cbn [cname_eqb]; try (split; discriminate).
  - rewrite str_eqb_eq. split; [intros ->; reflexivity|intro H; inv H; reflexivity].
  - rewrite derived_eqb_eq. split; [intros ->; reflexivity|intro H; inv H; reflexivity].
Qed.
Lemma cparam_eqb_eq a b : cparam_eqb a b = true <-> a = b.
Proof.
  destruct a, b; cbn [cparam_eqb]; try (split; [discriminate || reflexivity|discriminate || reflexivity]).
  - rewrite str_eqb_eq. split; [intros ->; reflexivity|intro H; inv H; reflexivity].
  - rewrite str_eqb_eq. split; [intros ->; reflexivity|intro H; inv H; reflexivity].
Qed.
Lemma set_contains_In s p : set_contains s p = true <-> In p s.
Proof.
  unfold set_contains. rewrite existsb_exists. split.
  - intros (x & Hx & E). apply cparam_eqb_eq in E. subst; assumption.
  - intro H. exists p. split; [assumption|]. apply cparam_eqb_eq. reflexivity.
Qed.
Lemma set_contains_false s p : set_contains s p = false <-> ~ In p s.
Proof. rewrite <- set_contains_In. destruct (set_contains s p); split; congruence. Qed.
Lemma NoDup_kind l : NoDup (map kind l) -> NoDup l.
Proof. apply NoDup_map_inv. Qed.

Lemma cparams_eqb_spec a b : NoDup a -> NoDup b -> (cparams_eqb a b = true <-> forall p, In p a <-> In p b).
Proof.
  intros Ha Hb. unfold cparams_eqb. rewrite andb_true_iff, Nat.eqb_eq, forallb_forall. split.
  - intros [Hl Hi] p. assert (Hincl : incl a b) by (intros x Hx; apply set_contains_In, Hi, Hx).
    split; [apply Hincl|]. intro Hp. refine (NoDup_length_incl Ha _ Hincl p Hp). lia.
  - intro H. split.
    + apply Nat.le_antisymm; apply NoDup_incl_length; try assumption; intros x Hx; apply H; assumption.
    + intros x Hx. apply set_contains_In, H, Hx.
Qed.
Lemma valid_nodup i : valid_id i -> NoDup (id_params i).
Proof. intros (_ & _ & H). apply NoDup_kind, H. Qed.
Lemma cid_eqb_spec a b : valid_id a -> valid_id b -> (cid_eqb a b = true <-> same_id a b).
Proof.
  intros Ha Hb. unfold cid_eqb, same_id. rewrite andb_true_iff, cname_eqb_eq, cparams_eqb_spec by (apply valid_nodup; assumption).
  reflexivity.
Qed.
Lemma same_id_refl a : same_id a a.
Proof. split; [reflexivity|tauto]. Qed.
Lemma same_id_sym a b : same_id a b -> same_id b a.
Proof. intros [H1 H2]. split; [congruence|]. intro p. rewrite H2. tauto. Qed.
Lemma same_id_trans a b c : same_id a b -> same_id b c -> same_id a c.
Proof. intros [H1 H2] [H3 H4]. split; [congruence|]. intro p. rewrite H2, H4. tauto. Qed.

(** ** sorting *)
Lemma str_leb_total a b : str_leb a b = true \/ str_leb b a = true.
Proof.
  revert b. induction a as [|x a IH]; intros [|y b]; cbn [str_leb]; auto.
  destruct (x <? y) eqn:E1, (y <? x) eqn:E2; auto.
Qed.
Lemma str_leb_antisym a b : str_leb a b = true -> str_leb b a = true -> a = b.
Proof.
  revert b. induction a as [|x a IH]; intros [|y b]; cbn [str_leb]; try discriminate; [reflexivity|].
  destruct (x <? y) eqn:E1, (y <? x) eqn:E2; try discriminate; try lia.
  intros H1 H2. assert (x = y) by lia. subst. f_equal. apply IH; assumption.
Qed.
Lemma str_leb_trans a b c : str_leb a b = true -> str_leb b c = true -> str_leb a c = true.
Proof.
  revert b c. induction a as [|x a IH]; intros [|y b] [|z c]; cbn [str_leb]; try discriminate; try reflexivity.
  destruct (x <? y) eqn:E1, (y <? z) eqn:E2, (x <? z) eqn:E3; try reflexivity; try lia;
    destruct (y <? x) eqn:E4, (z <? y) eqn:E5, (z <? x) eqn:E6; try discriminate; try lia.
  apply IH.
Qed.
Lemma sort_insert_comm x y l : sort_insert x (sort_insert y l) = sort_insert y (sort_insert x l).
Proof.
  assert (Hxy : forall x y, str_leb x y = true -> str_leb y x = false \/ x = y).
  { intros u v H. destruct (str_leb v u) eqn:E; [right; apply str_leb_antisym; assumption|left; reflexivity]. }
  induction l as [|z l IH]; cbn [sort_insert].
  - destruct (str_leb x y) eqn:E1, (str_leb y x) eqn:E2; try reflexivity.
    + assert (x = y) by (apply str_leb_antisym; assumption). subst. reflexivity.
    + destruct (str_leb_total x y); congruence.
  - destruct (str_leb y z) eqn:Eyz, (str_leb x z) eqn:Exz; cbn [sort_insert].
    + destruct (str_leb x y) eqn:E1, (str_leb y x) eqn:E2; rewrite ?Eyz, ?Exz; try reflexivity.
      * assert (x = y) by (apply str_leb_antisym; assumption). subst. reflexivity.
      * destruct (str_leb_total x y); congruence.
    + destruct (str_leb x y) eqn:E1; [rewrite (str_leb_trans x y z) in Exz by assumption; discriminate|].
      rewrite ?Eyz, ?Exz. reflexivity.
    + destruct (str_leb y x) eqn:E1; [rewrite (str_leb_trans y x z) in Eyz by assumption; discriminate|].
      rewrite ?Eyz, ?Exz. reflexivity.
    + rewrite Eyz, Exz. f_equal. apply IH.
Qed.
Lemma str_sort_perm l l' : Permutation l l' -> str_sort l = str_sort l'.
Proof.
  unfold str_sort. induction 1; cbn [fold_right]; try congruence. apply sort_insert_comm.
Qed.
Lemma cid_hash_eq a b : valid_id a -> valid_id b -> same_id a b -> cid_hash a = cid_hash b.
Proof.
  intros Ha Hb [H1 H2]. unfold cid_hash. rewrite <- H1.
  assert (Hp : cparams_hash (id_params a) = cparams_hash (id_params b)).
  { unfold cparams_hash. apply str_sort_perm, Permutation_map.
    apply NoDup_Permutation; [apply valid_nodup; assumption|apply valid_nodup; assumption|exact H2]. }
  rewrite Hp. reflexivity.
Qed.

(** ** the structured field item of an identifier *)
Definition pparam (p : cparam) : str * bare :=
  match p with
  | Sf => (lit "sf", BBool true)
  | Key v => (lit "key", BStr v)
  | Bs => (lit "bs", BBool true)
  | Tr => (lit "tr", BBool true)
  | Req => (lit "req", BBool true)
  | Name v => (lit "name", BStr v)
  end.
Definition name_text (n : cname) : str := match n with HttpField s => s | Derived d => derived_str d end.
Definition id_item (i : cid) : item := mkItem (BStr (name_text (id_name i))) (map pparam (id_params i)).

Lemma derived_of_derived d : derived_of_str (derived_str d) = Ok d.
Proof. destruct d; reflexivity. Qed.
Lemma derived_of_str_ok s d : derived_of_str s = Ok d -> s = derived_str d.
Proof.
  unfold derived_of_str. intro H.
  repeat match type of H with (if str_eqb s ?l then _ else _) = _ =>
    destruct (str_eqb s l) eqn:Ex; [apply str_eqb_eq in Ex; subst s; inversion H; reflexivity | clear Ex] end. discriminate.
Qed.
Lemma derived_print d : forallb is_print (derived_str d) = true.
Proof. destruct d; reflexivity. Qed.
Lemma cparam_of_pparam p : cparam_of (pparam p) = Ok p.
Proof. destruct p; reflexivity. Qed.
Lemma set_insert_new s p : ~ In p s -> set_insert s p = s ++ [p].
Proof. intro H. unfold set_insert. apply set_contains_false in H. rewrite H. reflexivity. Qed.
Lemma set_fold_app l : forall s, NoDup (s ++ l) -> fold_left set_insert l s = s ++ l.
Proof.
  induction l as [|p l IH]; intros s H; cbn [fold_left]; [symmetry; apply app_nil_r|].
  assert (Hp : ~ In p s). { apply NoDup_remove_2 in H. intro Hi. apply H. apply in_or_app. left; assumption. }
  rewrite set_insert_new by assumption. rewrite IH; [rewrite <- app_assoc; reflexivity|].
  rewrite <- app_assoc. exact H.
Qed.
Lemma cparams_of_pparams l : NoDup l -> cparams_of (map pparam l) = Ok l.
Proof.
  intro H. unfold cparams_of. rewrite collect_map.
  rewrite (collect_all_ok _ (fun p => p)) by (intros; apply cparam_of_pparam). cbn [bind]. rewrite map_id.
  rewrite set_fold_app by exact H. reflexivity.
Qed.
Lemma name_of_name_text n : valid_name n -> name_of_bare (BStr (name_text n)) = Ok n.
Proof.
  destruct n as [s|d]; cbn [valid_name name_text name_of_bare].
  - intros [_ H]. destruct s as [|c s]; [reflexivity|]. cbn [starts_with]. destruct (c =? cAt) eqn:E; [|reflexivity].
    apply N.eqb_eq in E. subst. exfalso. apply (H s). reflexivity.
  - intros _. assert (Hs : starts_with cAt (derived_str d) = true) by (destruct d; reflexivity).
    rewrite Hs, derived_of_derived. reflexivity.
Qed.
Lemma kind_key p q : fst (pparam p) = fst (pparam q) <-> kind p = kind q.
Proof. destruct p, q; cbn; split; intro H; try reflexivity; discriminate. Qed.
Lemma nodup_map_iff {A B C} (f : A -> B) (g : A -> C) l :
  (forall x y, In x l -> In y l -> f x = f y -> g x = g y) -> NoDup (map g l) -> NoDup (map f l).
Proof.
  induction l as [|x l IH]; cbn [map]; intros H Hn; [constructor|]. inv Hn. constructor.
  - rewrite in_map_iff. intros (y & E & Hy). apply H2. rewrite in_map_iff. exists y. split; [|assumption].
    apply H; [right; assumption|left; reflexivity|assumption].
  - apply IH; [|assumption]. intros; apply H; try right; assumption.
Qed.
Lemma pparam_wf n p : allowed n p -> wf_param (pparam p).
Proof.
  intro H. destruct p; cbn [pparam]; (split; [split; [reflexivity|reflexivity]|]); cbn [snd wf_bare]; try exact I.
  - apply print_spec. apply H.
  - apply print_spec. apply H.
Qed.
Lemma id_item_wf i : valid_id i -> wf_item (id_item i).
Proof.
  intros (H1 & H2 & H3). split; cbn [id_item it_bare it_params].
  - cbn [wf_bare]. destruct (id_name i) as [s|d]; cbn [name_text]; [apply print_spec, H1 | apply derived_print].
  - split.
    + rewrite Forall_map. revert H2. apply Forall_impl. intros p. apply pparam_wf.
    + rewrite map_map. revert H3. apply nodup_map_iff. intros p q _ _. apply kind_key.
Qed.
Lemma existsb_false_forall {A} (f : A -> bool) l : existsb f l = false <-> forall x, In x l -> f x = false.
Proof.
  rewrite <- not_true_iff_false, existsb_exists. split.
  - intros H x Hx. destruct (f x) eqn:E; [|reflexivity]. exfalso. apply H. eauto.
  - intros H (x & Hx & E). rewrite H in E by assumption. discriminate.
Qed.
Definition is_qp (n : cname) : bool := match n with Derived QueryParam => true | _ => false end.
Definition is_hf (n : cname) : bool := match n with HttpField _ => true | _ => false end.
(** what [cid_of_str] does with the parsed item *)
Definition cid_of_item (it : item) : result err cid :=
  let* nm := name_of_bare (it_bare it) in
  let* ps := cparams_of (it_params it) in
  if existsb is_name_param ps && negb (is_qp nm) then Err InvalidComponentId
  else if existsb is_field_param ps && negb (is_hf nm) then Err InvalidComponentId
  else Ok (mkCid nm ps).
Lemma cid_of_str_unfold s : cid_of_str s =
  bind (if negb (starts_with cQuote (trim s)) && negb (ends_with cQuote (trim s)) && negb (is_empty (trim s)) && negb (contains cQuote (trim s))
        then ok_or (parse_item (cQuote :: trim s ++ [cQuote])) ParseSFVError
        else ok_or (parse_item (trim s)) ParseSFVError) cid_of_item.
Proof. reflexivity. Qed.
Lemma cid_of_id_item i : valid_id i -> cid_of_item (id_item i) = Ok i.
Proof.
  intros Hv. assert (Hn := valid_nodup i Hv). destruct Hv as (H1 & H2 & H3). unfold cid_of_item, id_item.
  cbn [it_bare it_params]. rewrite name_of_name_text by assumption. cbn [bind]. rewrite cparams_of_pparams by assumption. cbn [bind].
  rewrite Forall_forall in H2.
  destruct (existsb is_name_param (id_params i)) eqn:E1.
  - apply existsb_exists in E1 as (p & Hp & E). apply H2 in Hp. destruct p; try discriminate E. destruct Hp as [Hp _]. rewrite Hp.
    cbn [is_qp negb andb]. destruct (existsb is_field_param (id_params i)) eqn:E2.
    + apply existsb_exists in E2 as (q & Hq & E2). apply H2 in Hq. destruct q; try discriminate E2; cbn [allowed] in Hq;
        first [destruct Hq as [[? Hq] _] | destruct Hq as [? Hq]]; congruence.
    + cbn [andb]. rewrite <- Hp. destruct i; reflexivity.
  - cbn [andb]. destruct (existsb is_field_param (id_params i)) eqn:E2.
    + apply existsb_exists in E2 as (q & Hq & E2). apply H2 in Hq. destruct q; try discriminate E2; cbn [allowed] in Hq;
        first [destruct Hq as [[? Hq] _] | destruct Hq as [? Hq]]; rewrite Hq; cbn; rewrite <- Hq; destruct i; reflexivity.
    + cbn [andb]. destruct i; reflexivity.
Qed.
Lemma cid_of_str_quoted s : trimmed s -> starts_with cQuote s = true -> cid_of_str s = bind (ok_or (parse_item s) ParseSFVError) cid_of_item.
Proof. intros H1 H2. rewrite cid_of_str_unfold, trim_id by assumption. rewrite H2. reflexivity. Qed.

(** the text of a well-formed string item has no whitespace at its ends *)
Lemma last_not_ws s c : is_ws c = false -> match rev (s ++ [c]) with d :: _ => is_ws d = false | [] => True end.
Proof. rewrite rev_app_distr. cbn. auto. Qed.
Lemma cparams_text_last n ps : ps <> [] -> Forall (allowed n) ps -> exists u c, ser_params (map pparam ps) = u ++ [c] /\ is_ws c = false.
Proof.
  intro Hne. destruct (exists_last Hne) as (r & p & ->). intro H. rewrite map_app. unfold ser_params. rewrite flat_map_app.
  cbn [map flat_map]. rewrite app_nil_r.
  assert (Hp : exists u c, ser_param (pparam p) = u ++ [c] /\ is_ws c = false).
  { destruct p; unfold ser_param; cbn [pparam fst snd];
      try (exists (firstn 2 (cSemi :: lit "sf")), 102; split; reflexivity);
      try (exists (firstn 2 (cSemi :: lit "bs")), 115; split; reflexivity);
      try (exists (firstn 2 (cSemi :: lit "tr")), 114; split; reflexivity);
      try (exists (firstn 3 (cSemi :: lit "req")), 113; split; reflexivity).
    - exists (cSemi :: lit "key" ++ cEq :: cQuote :: flat_map esc s), cQuote. split; [|reflexivity].
      cbn [ser_bare]. unfold ser_str. cbn [app]. rewrite <- ?app_assoc. reflexivity.
    - exists (cSemi :: lit "name" ++ cEq :: cQuote :: flat_map esc s), cQuote. split; [|reflexivity].
      cbn [ser_bare]. unfold ser_str. cbn [app]. rewrite <- ?app_assoc. reflexivity. }
  destruct Hp as (u & c & -> & Hc). exists (flat_map ser_param (map pparam r) ++ u), c. rewrite app_assoc. auto.
Qed.
Lemma id_item_text_trimmed i : valid_id i -> trimmed (ser_item (id_item i)) /\ starts_with cQuote (ser_item (id_item i)) = true.
Proof.
  intros (H1 & H2 & _). split; [|reflexivity]. split; [reflexivity|].
  unfold ser_item, id_item. cbn [it_bare it_params ser_bare].
  destruct (id_params i) as [|p r] eqn:E.
  - cbn [map ser_params flat_map]. rewrite app_nil_r. unfold ser_str.
    change (cQuote :: flat_map esc ?x ++ [cQuote]) with ((cQuote :: flat_map esc x) ++ [cQuote]). apply last_not_ws. reflexivity.
  - destruct (cparams_text_last (id_name i) (p :: r)) as (u & c & Hu & Hc); [discriminate|assumption|].
    rewrite Hu, app_assoc. apply last_not_ws. assumption.
Qed.
Lemma cid_of_ser_item i : valid_id i -> cid_of_str (ser_item (id_item i)) = Ok i.
Proof.
  intro H. destruct (id_item_text_trimmed i H) as [H1 H2]. rewrite cid_of_str_quoted by assumption.
  rewrite parse_item_round by (apply id_item_wf; assumption). cbn [ok_or bind]. apply cid_of_id_item. assumption.
Qed.

(** ** the printed text *)
Lemma esc_clean s : clean s -> flat_map esc s = s.
Proof.
  intros [H1 H2]. induction s as [|c s IH]; [reflexivity|]. cbn [flat_map]. unfold esc at 1.
  destruct (c =? cQuote) eqn:E1; [apply N.eqb_eq in E1; exfalso; apply H1; left; exact E1|].
  destruct (c =? cBack) eqn:E2; [apply N.eqb_eq in E2; exfalso; apply H2; left; exact E2|].
  cbn [orb app]. rewrite IH; [reflexivity| |]; intro Hi; [apply H1|apply H2]; right; assumption.
Qed.
Lemma ser_param_pparam p : (forall v, p = Key v \/ p = Name v -> clean v) -> ser_param (pparam p) = cSemi :: cparam_str p.
Proof.
  intro H. destruct p; try reflexivity.
  - unfold ser_param. cbn [pparam fst snd ser_bare cparam_str]. unfold ser_str. rewrite esc_clean by (apply H; auto). reflexivity.
  - unfold ser_param. cbn [pparam fst snd ser_bare cparam_str]. unfold ser_str. rewrite esc_clean by (apply H; auto). reflexivity.
Qed.
Lemma join_cons_flat sep (x : str) l : join sep (x :: l) = x ++ flat_map (fun y => sep ++ y) l.
Proof.
  revert x. induction l as [|y l IH]; intro x; [cbn; symmetry; apply app_nil_r|].
  change (join sep (x :: y :: l)) with (x ++ sep ++ join sep (y :: l)). rewrite IH. cbn [flat_map]. rewrite <- app_assoc. reflexivity.
Qed.
Lemma flat_map_map {A B C} (f : B -> list C) (g : A -> B) l : flat_map f (map g l) = flat_map (fun x => f (g x)) l.
Proof. induction l as [|x l IH]; cbn; [reflexivity|]. rewrite IH. reflexivity. Qed.
Lemma cparams_str_flat ps : cparams_str ps = flat_map (fun p => cSemi :: cparam_str p) ps.
Proof.
  destruct ps as [|p ps]; [reflexivity|]. unfold cparams_str. cbn [is_empty negb map]. rewrite join_cons_flat. cbn [flat_map].
  rewrite flat_map_map. reflexivity.
Qed.
Lemma flat_map_ext_in {A B} (f g : A -> list B) l : (forall x, In x l -> f x = g x) -> flat_map f l = flat_map g l.
Proof.
  induction l as [|x l IH]; intro H; cbn; [reflexivity|]. rewrite H by (left; reflexivity). rewrite IH; [reflexivity|].
  intros; apply H; right; assumption.
Qed.
Lemma name_str_text n : name_str n = cQuote :: name_text n ++ [cQuote].
Proof. destruct n; reflexivity. Qed.
Lemma derived_clean d : clean (derived_str d).
Proof. split; intro H; apply contains_In in H; destruct d; discriminate H. Qed.
Lemma cid_str_item i : clean_id i -> cid_str i = ser_item (id_item i).
Proof.
  intros (H1 & H2 & H3). unfold cid_str, ser_item, id_item. cbn [it_bare it_params ser_bare].
  rewrite name_str_text, cparams_str_flat. unfold ser_str, ser_params. rewrite flat_map_map.
  rewrite esc_clean; [|destruct (id_name i); [apply H1; reflexivity|apply derived_clean]].
  apply (f_equal (app (cQuote :: name_text (id_name i) ++ [cQuote]))).
  apply flat_map_ext_in. intros p Hp. symmetry. apply ser_param_pparam. intros v [-> | ->]; auto.
Qed.
Lemma cid_round i : valid_id i -> clean_id i -> cid_of_str (cid_str i) = Ok i.
Proof. intros H1 H2. rewrite cid_str_item by assumption. apply cid_of_ser_item. assumption. Qed.

(** ** parsed identifiers are valid *)
Lemma cparam_of_inv k v p : cparam_of (k, v) = Ok p -> k = fst (pparam p) /\
  match p with Key s | Name s => v = BStr s | _ => True end.
Proof.
  unfold cparam_of. intro H.
  repeat match type of H with (if str_eqb k ?l then _ else _) = _ =>
    destruct (str_eqb k l) eqn:Ex;
      [apply str_eqb_eq in Ex; subst k;
       first [ inv H; split; [reflexivity|exact I]
             | destruct v as [ | |s| | | | | ]; cbn [as_string ok_or bind] in H; try discriminate; inv H; split; reflexivity ]
      | clear Ex] end. discriminate.
Qed.
Lemma set_fold_sub l : forall s p, In p (fold_left set_insert l s) -> In p s \/ In p l.
Proof.
  induction l as [|q l IH]; intros s p H; cbn [fold_left] in H; [auto|]. apply IH in H as [H|H]; [|right; right; assumption].
  unfold set_insert in H. destruct (set_contains s q); [auto|]. apply in_app_iff in H as [H|[<-|[]]]; auto. right; left; reflexivity.
Qed.
Lemma cparams_of_inv ps l : params_value ps -> cparams_of ps = Ok l ->
  NoDup (map kind l) /\ Forall2 (fun kv p => cparam_of kv = Ok p) ps l
  /\ (forall v, In (Key v) l -> Forall printable v) /\ (forall v, In (Name v) l -> Forall printable v).
Proof.
  intros [Hp Hn] H. unfold cparams_of in H. destruct (collect cparam_of ps) as [l0| |] eqn:E; try discriminate. cbn [bind] in H.
  apply collect_ok in E. inv H.
  assert (Hk : map fst ps = map (fun p => fst (pparam p)) l0).
  { clear Hp Hn. induction E as [|[k v] p ps l Hx E IH]; [reflexivity|]. cbn [map fst]. apply cparam_of_inv in Hx as [-> _]. rewrite IH. reflexivity. }
  assert (Hkind : NoDup (map kind l0)).
  { rewrite Hk in Hn. revert Hn. apply nodup_map_iff. intros p q _ _. apply kind_key. }
  rewrite set_fold_app by (apply NoDup_kind; assumption). cbn [app].
  split; [assumption|]. split; [assumption|].
  assert (Hin : forall p, In p l0 -> exists v, cparam_of (fst (pparam p), v) = Ok p /\ bare_value v).
  { intros p Hpi. clear Hk Hkind Hn. induction E as [|[k v] q ps l Hx E IH]; [destruct Hpi|].
    inv Hp. destruct Hpi as [->|Hpi]; [|apply IH; assumption]. exists v. cbn [fst snd] in H1. split; [|apply H1].
    assert (Hx' := Hx). apply cparam_of_inv in Hx' as [<- _]. assumption. }
  split; intros v Hv; apply Hin in Hv as (w & Hw & Hb); apply cparam_of_inv in Hw as [_ ->]; exact Hb.
Qed.
Lemma cid_of_item_valid it i : item_value it -> cid_of_item it = Ok i -> valid_id i.
Proof.
  intros [Hb Hp] H. unfold cid_of_item in H.
  destruct (name_of_bare (it_bare it)) as [nm| |] eqn:En; try discriminate. cbn [bind] in H.
  destruct (cparams_of (it_params it)) as [ps| |] eqn:Ep; try discriminate. cbn [bind] in H.
  destruct (existsb is_name_param ps && negb (is_qp nm)) eqn:E1; [discriminate|].
  destruct (existsb is_field_param ps && negb (is_hf nm)) eqn:E2; [discriminate|]. inv H.
  apply cparams_of_inv in Ep as (Hk & _ & Hkey & Hname); [|assumption]. cbn [valid_id id_name id_params]. split; [|split].
  - cbn [id_name]. unfold name_of_bare in En. destruct (it_bare it) as [ | |s| | | | | ]; try discriminate.
    destruct (starts_with cAt s) eqn:Es.
    + destruct (derived_of_str s); inv En. exact I.
    + inv En. split; [exact Hb|]. intros r ->. discriminate Es.
  - cbn [id_name id_params]. apply Forall_forall. intros p Hpi.
    assert (F1 : is_name_param p = true -> nm = Derived QueryParam).
    { intro Hx. assert (Hex : existsb is_name_param ps = true) by (apply existsb_exists; eauto). rewrite Hex in E1.
      destruct nm as [|[]]; cbn in E1; try discriminate; reflexivity. }
    assert (F2 : is_field_param p = true -> exists s, nm = HttpField s).
    { intro Hx. assert (Hex : existsb is_field_param ps = true) by (apply existsb_exists; eauto). rewrite Hex in E2.
      destruct nm as [s|]; cbn in E2; try discriminate; eauto. }
    destruct p; cbn [allowed]; auto.
  - assumption.
Qed.
Lemma cid_of_str_valid s i : cid_of_str s = Ok i -> valid_id i.
Proof.
  rewrite cid_of_str_unfold. intro H.
  assert (Hs : exists t it, parse_item t = Some it /\ cid_of_item it = Ok i).
  { destruct (negb _ && negb _ && negb _ && negb _);
      match type of H with bind (ok_or (parse_item ?t) _) _ = _ => exists t; destruct (parse_item t) as [it|]; [|discriminate] end;
      exists it; auto. }
  destruct Hs as (t & it & Hp & Hi). apply (cid_of_item_valid it); [|assumption]. apply item_value_spec. eapply parse_item_wf; eassumption.
Qed.

(** ** C03 *)
Lemma cid_of_str_pad w1 w2 s : forallb is_ws w1 = true -> forallb is_ws w2 = true -> cid_of_str (w1 ++ s ++ w2) = cid_of_str s.
Proof. intros H1 H2. rewrite !cid_of_str_unfold, trim_pad by assumption. reflexivity. Qed.
Lemma contains_head c s : contains c s = false -> starts_with c s = false.
Proof. destruct s as [|x s]; [reflexivity|]. cbn. rewrite N.eqb_sym. destruct (x =? c); [discriminate|reflexivity]. Qed.
Lemma contains_rev c s : contains c (rev s) = contains c s.
Proof.
  destruct (contains c s) eqn:E; [apply contains_In in E; apply contains_In, in_rev; rewrite rev_involutive; assumption|].
  apply contains_false in E. apply contains_false. intro H. apply E, in_rev, H.
Qed.
Lemma contains_last c s : contains c s = false -> ends_with c s = false.
Proof. intro H. apply contains_head. rewrite contains_rev. assumption. Qed.
Lemma cid_of_str_quotes s : ~ In cQuote s -> trimmed s -> s <> [] -> cid_of_str (cQuote :: s ++ [cQuote]) = cid_of_str s.
Proof.
  intros Hq Ht Hn. rewrite !cid_of_str_unfold.
  rewrite (trim_id s Ht), (trim_id (cQuote :: s ++ [cQuote])).
  2:{ split; [reflexivity|]. change (cQuote :: s ++ [cQuote]) with ((cQuote :: s) ++ [cQuote]). apply last_not_ws. reflexivity. }
  apply contains_false in Hq. rewrite (contains_head _ _ Hq), (contains_last _ _ Hq), Hq.
  destruct s as [|c s]; [congruence|]. reflexivity.
Qed.

(** ** C05 *)
Lemma no_duplicate_cons x l : no_duplicate (x :: l) <-> (forall y, In y l -> ~ same_id x y) /\ no_duplicate l.
Proof.
  unfold no_duplicate. split.
  - intro H. split.
    + intros y Hy Hs. apply In_nth_error in Hy as [n Hn]. assert (Hc := H 0%nat (S n) x y eq_refl Hn Hs). discriminate.
    + intros i j a b Hi Hj Hs. assert (Hc := H (S i) (S j) a b Hi Hj Hs). congruence.
  - intros [H1 H2] i j a b Hi Hj Hs. destruct i as [|i], j as [|j]; cbn [nth_error] in *.
    + reflexivity.
    + inv Hi. apply nth_error_In in Hj. exfalso. exact (H1 b Hj Hs).
    + inv Hj. apply nth_error_In in Hi. exfalso. exact (H1 a Hi (same_id_sym _ _ Hs)).
    + f_equal. eapply H2; eassumption.
Qed.
Lemma uniq_from_spec l : forall seen, Forall valid_id seen -> Forall valid_id l ->
  (uniq_from seen l = true <-> (forall x y, In x l -> In y seen -> ~ same_id x y) /\ no_duplicate l).
Proof.
  induction l as [|x l IH]; intros seen Hs Hl; cbn [uniq_from].
  - split; [|reflexivity]. intros _. split; [intros x y []|]. intros i j a b Hi. destruct i; discriminate.
  - inv Hl. destruct (existsb (cid_eqb x) seen) eqn:E.
    + split; [discriminate|]. intros [Hc _]. apply existsb_exists in E as (y & Hy & E).
      apply cid_eqb_spec in E; [|assumption|rewrite Forall_forall in Hs; apply Hs; assumption].
      exfalso. apply (Hc x y); [left; reflexivity|assumption|assumption].
    + rewrite IH by (try constructor; assumption). rewrite no_duplicate_cons. split.
      * intros [Hc Hd]. split; [|split; [|assumption]].
        -- intros a b [<-|Ha] Hb; [|apply Hc; [assumption|right; assumption]].
           intro Hsame. rewrite existsb_false_forall in E. specialize (E b Hb).
           assert (Hb' : valid_id b) by (rewrite Forall_forall in Hs; apply Hs; assumption).
           apply (cid_eqb_spec x b) in Hsame; [congruence|assumption|assumption].
        -- intros y Hy Hsame. apply (Hc y x); [assumption|left; reflexivity|apply same_id_sym; assumption].
      * intros [Hc [Hd Hn]]. split; [|assumption]. intros a b Ha [<-|Hb].
        -- intro Hsame. apply (Hd a Ha). apply same_id_sym; assumption.
        -- apply Hc; [right; assumption|assumption].
Qed.
Lemma has_unique_spec l : Forall valid_id l -> (has_unique_elements l = true <-> no_duplicate l).
Proof. intro H. unfold has_unique_elements. rewrite uniq_from_spec by (constructor || assumption). split; [tauto|]. split; [intros x y _ []|assumption]. Qed.

(** ** C06 *)
Lemma in_cparam_str c p : In c (cparam_str p) ->
  In c (lit "sfbstrreqkeyname=""") \/ match p with Key v | Name v => In c v | _ => False end.
Proof.
  destruct p; cbn [cparam_str]; rewrite ?in_app_iff; cbn; rewrite ?in_app_iff; cbn; intuition.
Qed.
Lemma lacks_cid_str c i : ~ In c (lit "@abcdefghijklmnopqrstuvwxyz-;=""") -> lacks c i -> ~ In c (cid_str i).
Proof.
  intros Hc (H1 & H2 & H3). unfold cid_str. rewrite name_str_text, cparams_str_flat. rewrite in_app_iff. intros [H|H].
  - destruct H as [H|H]; [apply Hc; rewrite <- H; cbn; tauto|]. apply in_app_iff in H as [H|[H|[]]]; [|apply Hc; rewrite <- H; cbn; tauto].
    destruct (id_name i) as [s|d] eqn:E; [apply (H1 s); auto|]. apply Hc. clear -H. cbn [name_text] in H.
    destruct d; cbn in H |- *; tauto.
  - apply in_flat_map in H as (p & Hp & H). destruct H as [H|H]; [apply Hc; rewrite <- H; cbn; tauto|].
    apply in_cparam_str in H as [H|H]; [apply Hc; clear -H; cbn in H |- *; tauto|].
    destruct p; try contradiction; [apply (H2 s); auto|apply (H3 s); auto].
Qed.
Lemma trimmed_app a b : a <> [] -> b <> [] -> trimmed a -> trimmed b -> trimmed (a ++ b).
Proof.
  intros Ha Hb [H1 _] [_ H2]. split.
  - destruct a as [|x a]; [congruence|]. exact H1.
  - rewrite rev_app_distr. destruct (rev b) as [|y r] eqn:E; [|exact H2].
    apply (f_equal (@length _)) in E. rewrite rev_length in E. destruct b; [congruence|discriminate].
Qed.
Lemma contains_str_app p a b : contains_str p b = true -> contains_str p (a ++ b) = true.
Proof.
  intro H. induction a as [|x a IH]; [exact H|]. cbn [app contains_str]. rewrite IH. apply orb_true_r.
Qed.
Lemma comp_round c : valid_id (co_id c) -> clean_id (co_id c) -> lacks cColon (co_id c) ->
  comp_of_str (comp_str c) = Ok (mkComp (co_id c) (VString (trim (cvalue_str (co_value c))))).
Proof.
  intros Hv Hc Hl. unfold comp_of_str, comp_str.
  assert (Hs : split_once cColon (cid_str (co_id c) ++ lit ": " ++ cvalue_str (co_value c))
    = Some (cid_str (co_id c), 32 :: cvalue_str (co_value c))).
  { apply split_once_some. split; [reflexivity|]. apply contains_false. apply lacks_cid_str; [|assumption]. cbn. intuition discriminate. }
  rewrite Hs.
  assert (Ht : trim (cid_str (co_id c)) = cid_str (co_id c)).
  { apply trim_id. rewrite cid_str_item by assumption. apply id_item_text_trimmed. assumption. }
  rewrite Ht.
  assert (Hq : starts_with cQuote (cid_str (co_id c)) = true) by (unfold cid_str; rewrite name_str_text; reflexivity).
  rewrite Hq.
  assert (He : ends_with cQuote (cid_str (co_id c)) || contains_str [cQuote; cSemi] (tl (cid_str (co_id c))) = true).
  { unfold cid_str. rewrite name_str_text, cparams_str_flat. destruct (id_params (co_id c)) as [|p ps].
    - cbn [flat_map]. rewrite app_nil_r. unfold ends_with.
      change (cQuote :: ?x ++ [cQuote]) with ((cQuote :: x) ++ [cQuote]). rewrite rev_app_distr. reflexivity.
    - apply orb_true_iff. right. cbn [app tl flat_map]. rewrite <- app_assoc. apply contains_str_app. reflexivity. }
  rewrite He. cbn [andb negb]. rewrite cid_round by assumption. reflexivity.
Qed.
