(** The clock, the names and the order of signatures *)
From Coq Require Import ZifyBool ZifyNat ZifyN Permutation.
From Verif Require Import Base BaseFacts Utf8 Base64 Base64Facts Sfv SfvFacts SfvRound TextFacts SpecSfv SpecSfvProofs SpecGrammar GrammarProofs SpecCanon CanonProofs Component Crypto Params SigBase SpecId IdProofs SpecParams ParamsProofs SpecValue ValueProofs Http Hyper SpecBase BaseProofs SpecIdText IdTextProofs SpecMsg HeaderProofs MsgProofs VerifyProofs SpecExtract ExtractProofs FrameProofs SpecLabels.

(** ** the clock *)
Lemma mapi_ext {A B} (f g : nat -> A -> B) l : forall i, (forall j x, In x l -> f j x = g j x) -> mapi f i l = mapi g i l.
Proof.
  induction l as [|x l IH]; intros i H; [reflexivity|]. cbn [mapi]. rewrite (H i x (or_introl eq_refl)), (IH (S i)); [reflexivity|].
  intros j y Hy. apply H. right. assumption.
Qed.
Lemma verify_one_clock clk clk' l key kid :
  (forall j x, In x l -> is_expired (clk j) (sh_params (snd (snd x))) = is_expired (clk' j) (sh_params (snd (snd x)))) ->
  verify_one clk l key kid = verify_one clk' l key kid.
Proof.
  intro H. unfold verify_one. fold (kid_filter kid l). destruct (is_empty _); [reflexivity|].
  erewrite mapi_ext; [reflexivity|]. intros j [n [b h]] Hx. cbn [fst snd]. unfold verify_signature_headers.
  assert (Hi : In (n, (b, h)) l) by (destruct kid as [k|]; [cbn [kid_filter] in Hx; apply filter_In in Hx; tauto|exact Hx]).
  specialize (H j _ Hi). cbn [snd] in H. rewrite H. reflexivity.
Qed.
Lemma is_expired_side now now' h : (expired now h <-> expired now' h) -> is_expired now (sh_params h) = is_expired now' (sh_params h).
Proof. rewrite <- !is_expired_spec. intro H. destruct (is_expired now _), (is_expired now' _); intuition congruence. Qed.
Lemma verify_clock clk clk' m rfp keys :
  (forall l n h i j, received m l -> In (n, h) l -> (expired (clk i j) h <-> expired (clk' i j) h)) ->
  verify_message_signatures clk m rfp keys = verify_message_signatures clk' m rfp keys.
Proof.
  intro H. rewrite !verify_unfold. destruct (extract_signatures m rfp) as [cs|e|q] eqn:E; cbn [bind]; try reflexivity.
  apply extract_signatures_spec in E as (l & Hl & Hc). unfold verify_message_signatures_inner. f_equal. apply mapi_ext. intros i [k kid] _. cbn [fst snd].
  apply verify_one_clock. intros j [n [b h]] Hx. cbn [snd]. apply is_expired_side. eapply candidates_in in Hx as (Hx & _); [|exact Hc]. eapply H; eassumption.
Qed.

(** ** renaming *)
Lemma filter_map_map {A B C} (f : B -> option C) (g : A -> B) l : filter_map f (map g l) = filter_map (fun x => f (g x)) l.
Proof. induction l as [|x l IH]; [reflexivity|]. cbn [map filter_map]. rewrite IH. reflexivity. Qed.
Lemma mapi_map {A B C} (f : nat -> B -> C) (g : A -> B) l : forall i, mapi f i (map g l) = mapi (fun j x => f j (g x)) i l.
Proof. induction l as [|x l IH]; intro i; [reflexivity|]. cbn [map mapi]. rewrite IH. reflexivity. Qed.
Lemma map_mapi {A B C} (f : nat -> A -> B) (g : B -> C) l : forall i, map g (mapi f i l) = mapi (fun j x => g (f j x)) i l.
Proof. induction l as [|x l IH]; intro i; [reflexivity|]. cbn [map mapi]. rewrite IH. reflexivity. Qed.
Lemma filter_map_comm {A} (p : A -> bool) (g : A -> A) l : (forall x, p (g x) = p x) -> filter p (map g l) = map g (filter p l).
Proof. intro H. induction l as [|x l IH]; [reflexivity|]. cbn [map filter]. rewrite H, IH. destruct (p x); reflexivity. Qed.

Definition rename_h (f : str -> str) (nh : str * sigheaders) : str * sigheaders := (f (fst nh), mkSh (f (sh_name (snd nh))) (sh_sig (snd nh)) (sh_params (snd nh))).
Definition rename_c (f : str -> str) (x : str * (sigbase * sigheaders)) : str * (sigbase * sigheaders) :=
  (f (fst x), (fst (snd x), snd (rename_h f (fst x, snd (snd x))))).
Lemma first_panic_mapi {E A B} (f g : nat -> A -> B * result E unit) l : (forall j x, snd (f j x) = snd (g j x)) ->
  forall i, first_panic (map snd (mapi f i l)) = first_panic (map snd (mapi g i l)).
Proof. intros H i. rewrite !map_mapi. f_equal. apply mapi_ext. intros. apply H. Qed.
Lemma verify_one_rename f clk cs key kid : verify_one clk (map (rename_c f) cs) key kid = rmap f (verify_one clk cs key kid).
Proof.
  unfold verify_one. fold (kid_filter kid cs). fold (kid_filter kid (map (rename_c f) cs)).
  assert (E : kid_filter kid (map (rename_c f) cs) = map (rename_c f) (kid_filter kid cs)).
  { destruct kid; [|reflexivity]. apply filter_map_comm. intros [n [b h]]. reflexivity. }
  rewrite E. generalize (kid_filter kid cs) as c. clear. intro c.
  assert (Ee : is_empty (map (rename_c f) c) = is_empty c) by (destruct c; reflexivity). rewrite Ee. destruct (is_empty c); [reflexivity|].
  rewrite mapi_map. fold (check clk key).
  set (rs := mapi (check clk key) 0 c).
  set (g := fun nr : str * result err unit => (f (fst nr), snd nr)).
  assert (Er : mapi (fun j x => (fst (rename_c f x), verify_signature_headers (clk j) (fst (snd (rename_c f x))) key (snd (snd (rename_c f x))))) 0 c = map g rs).
  { unfold rs. rewrite map_mapi. apply mapi_ext. intros j [n [b h]] _. reflexivity. }
  rewrite Er. assert (Ep : map snd (map g rs) = map snd rs) by (rewrite map_map; reflexivity). rewrite Ep.
  destruct (first_panic (map snd rs)); [reflexivity|]. rewrite filter_map_map. cbn [g fst snd].
  clear. induction rs as [|[n o] rs IH]; [reflexivity|]. cbn [filter_map fst snd]. destruct o; [reflexivity|exact IH|exact IH].
Qed.
Lemma rename_keys {V} f (d : list (str * V)) : map fst (map (rename f) d) = map f (map fst d).
Proof. rewrite !map_map. reflexivity. Qed.
Lemma im_get_rename {V} f (d : list (str * V)) k : inj_on f (k :: map fst d) -> im_get (map (rename f) d) (f k) = im_get d k.
Proof.
  intro H. induction d as [|[k' v] d IH]; [reflexivity|]. cbn [map rename fst snd im_get].
  assert (E : str_eqb (f k) (f k') = str_eqb k k').
  { apply eq_true_iff_eq. rewrite !str_eqb_eq. split; [|congruence]. apply H; cbn; auto. }
  rewrite E. destruct (str_eqb k k'); [reflexivity|]. apply IH. intros a b Ha Hb. apply H; cbn in *; tauto.
Qed.
Lemma inj_sub f l l' : (forall x, In x l' -> In x l) -> inj_on f l -> inj_on f l'.
Proof. intros H Hi a b Ha Hb. apply Hi; auto. Qed.
Lemma NoDup_inj f l : inj_on f l -> NoDup l -> NoDup (map f l).
Proof.
  intros Hi Hn. induction Hn as [|x l Hx Hn IH]; [constructor|]. cbn [map]. constructor.
  - intro H. apply in_map_iff in H as (y & Hy & Hin). apply Hx. rewrite <- (Hi y x); cbn; auto.
  - apply IH. eapply inj_sub; [|exact Hi]. intros. right. assumption.
Qed.
Lemma forallb_map {A B} (p : B -> bool) (g : A -> B) l : forallb p (map g l) = forallb (fun x => p (g x)) l.
Proof. induction l as [|x l IH]; [reflexivity|]. cbn [map forallb]. rewrite IH. reflexivity. Qed.
Lemma forallb_ext_in {A} (p q : A -> bool) l : (forall x, In x l -> p x = q x) -> forallb p l = forallb q l.
Proof. intro H. induction l as [|x l IH]; [reflexivity|]. cbn [forallb]. rewrite (H x (or_introl eq_refl)), IH; [reflexivity|]. intros; apply H; right; assumption. Qed.
Lemma collect_rmap {E A B C} (f : A -> result E B) (g : B -> C) l : collect (fun x => rmap g (f x)) l = rmap (map g) (collect f l).
Proof.
  induction l as [|x l IH]; [reflexivity|]. cbn [collect]. destruct (f x); cbn [rmap bind]; try reflexivity. rewrite IH. destruct (collect f l); reflexivity.
Qed.
Lemma pair_names ds di l : collect (pair_of ds) di = Ok l -> map fst l = map fst di.
Proof.
  intro H. apply collect_ok in H. induction H as [|[k e] r di l Hr H IH]; [reflexivity|]. cbn [map]. rewrite IH. f_equal.
  unfold pair_of in Hr. destruct (sparams_of_entry e); cbn [bind] in Hr; try discriminate. destruct (im_get ds k) as [[[[] ?]|]|]; inv Hr. reflexivity.
Qed.
Lemma try_parse_rename f s i s' i' ds di : parse_dict s = Some ds -> parse_dict i = Some di ->
  parse_dict s' = Some (map (rename f) ds) -> parse_dict i' = Some (map (rename f) di) -> inj_on f (map fst ds ++ map fst di) ->
  try_parse s' i' = rmap (map (rename_h f)) (try_parse s i).
Proof.
  intros Es Ei Es' Ei' Hinj. rewrite !try_parse_unfold, Es, Ei, Es', Ei'. cbn [ok_or bind]. rewrite !map_length.
  apply parse_dict_wf in Ei as [_ Ni], Es as [_ Ns].
  assert (Hc : forall kv, In kv ds -> im_contains (map (rename f) di) (fst (rename f kv)) = im_contains di (fst kv)).
  { intros kv Hk. unfold im_contains. cbn [rename fst]. rewrite im_get_rename; [reflexivity|]. eapply inj_sub; [|exact Hinj]. intros x [<-|Hx]; rewrite in_app_iff; [left; apply in_map; assumption|right; assumption]. }
  rewrite !forallb_map, (forallb_ext_in _ _ ds Hc). cbn [rename snd].
  destruct (Nat.eqb _ _); [|reflexivity]. destruct (forallb (fun kv => im_contains di (fst kv)) ds); [|reflexivity].
  destruct (forallb (fun kv => is_byteseq (snd kv)) ds); [|reflexivity]. destruct (forallb (fun kv => is_inner (snd kv)) di); [|reflexivity]. cbn [negb].
  assert (E : collect (pair_of (map (rename f) ds)) (map (rename f) di) = rmap (map (rename_h f)) (collect (pair_of ds) di)).
  { rewrite collect_map, <- collect_rmap. apply collect_ext. intros [k e] Hk. change (rename f (k, e)) with (f k, e). unfold pair_of.
    destruct (sparams_of_entry e); cbn [bind rmap]; try reflexivity. rewrite im_get_rename.
    - destruct (im_get ds k) as [[[[] ?]|]|]; reflexivity.
    - eapply inj_sub; [|exact Hinj]. intros x [<-|Hx]; rewrite in_app_iff; [right; apply (in_map fst) in Hk; exact Hk|left; assumption]. }
  rewrite E. destruct (collect (pair_of ds) di) as [l|e|q] eqn:El; cbn [bind rmap]; try reflexivity. apply pair_names in El. f_equal.
  rewrite !im_of_list_id; [reflexivity|rewrite El; assumption|].
  assert (Em : map fst (map (rename_h f) l) = map f (map fst l)) by (rewrite !map_map; reflexivity). rewrite Em, El. apply NoDup_inj; [|assumption].
  eapply inj_sub; [|exact Hinj]. intros. rewrite in_app_iff. right. assumption.
Qed.
Lemma dictionary_extract m ds di : dictionary m (lit "signature") ds -> dictionary m (lit "signature-input") di ->
  extract_signature_headers_with_name m = map_err HttpSigError (try_parse (comma_join (field_lines (msg_headers m) (lit "signature"))) (comma_join (field_lines (msg_headers m) (lit "signature-input")))).
Proof. intros (H1 & H2 & _) (H3 & H4 & _). apply extract_legible; [split; assumption|assumption|assumption]. Qed.
Lemma received_dictionaries m l : received m l -> exists ds di, dictionary m (lit "signature") ds /\ dictionary m (lit "signature-input") di
  /\ (forall k, In k (map fst ds) <-> In k (map fst di)) /\ Forall2 (paired ds) di l.
Proof.
  intro H. apply received_hold in H as ((H1 & H2) & H3 & H4 & ds & di & H5 & H6 & H7 & H8). exists ds, di. unfold dictionary. rewrite <- !parse_dict_spec. auto 10.
Qed.
Lemma dictionaries_received m ds di l : dictionary m (lit "signature") ds -> dictionary m (lit "signature-input") di ->
  (forall k, In k (map fst ds) <-> In k (map fst di)) -> Forall2 (paired ds) di l -> received m l.
Proof.
  intros (H1 & H2 & H3) (H4 & H5 & H6) H7 H8. apply parse_dict_spec in H3, H6. apply received_hold. split; [split; assumption|]. split; [assumption|]. split; [assumption|]. exists ds, di. auto. Qed.
Lemma dictionary_fun m n d d' : dictionary m n d -> dictionary m n d' -> d = d'.
Proof. intros (_ & _ & H) (_ & _ & H'). apply parse_dict_spec in H, H'. congruence. Qed.
Lemma headers_rename f m m' ds di : dictionary m (lit "signature") ds -> dictionary m (lit "signature-input") di ->
  dictionary m' (lit "signature") (map (rename f) ds) -> dictionary m' (lit "signature-input") (map (rename f) di) -> inj_on f (map fst ds ++ map fst di) ->
  extract_signature_headers_with_name m' = rmap (map (rename_h f)) (extract_signature_headers_with_name m).
Proof.
  intros H1 H2 H3 H4 Hi. rewrite (dictionary_extract m ds di H1 H2), (dictionary_extract m' _ _ H3 H4).
  destruct H1 as (_ & _ & H1), H2 as (_ & _ & H2), H3 as (_ & _ & H3), H4 as (_ & _ & H4). apply parse_dict_spec in H1, H2, H3, H4.
  rewrite (try_parse_rename f _ _ _ _ ds di H1 H2 H3 H4 Hi). destruct (try_parse _ _); reflexivity.
Qed.
Lemma signatures_rename f m rfp m' rfp' ds di : dictionary m (lit "signature") ds -> dictionary m (lit "signature-input") di ->
  dictionary m' (lit "signature") (map (rename f) ds) -> dictionary m' (lit "signature-input") (map (rename f) di) -> inj_on f (map fst ds ++ map fst di) ->
  (forall l n h i, received m l -> In (n, h) l -> In i (sp_covered (sh_params h)) -> agree i m rfp m' rfp') ->
  extract_signatures m' rfp' = rmap (map (rename_c f)) (extract_signatures m rfp).
Proof.
  intros H1 H2 H3 H4 Hi Ha. unfold extract_signatures. rewrite (headers_rename f m m' ds di H1 H2 H3 H4 Hi).
  destruct (extract_signature_headers_with_name m) as [l|e|q] eqn:E; cbn [bind rmap]; try reflexivity. apply extract_spec in E.
  assert (Hb : forall nh, In nh l -> build_signature_base m' (sh_params (snd (rename_h f nh))) rfp' = build_signature_base m (sh_params (snd nh)) rfp).
  { intros [n h] Hin. cbn [rename_h snd sh_params]. symmetry. apply base_same. intros i Hc. eapply Ha; eassumption. }
  rewrite map_map, (map_ext_in _ _ _ Hb). destruct (first_panic _); [reflexivity|]. cbn [rmap]. f_equal.
  pose proof (filter_map_candidates m rfp l) as Hcd.
  set (cs := filter_map _ l) in *.
  assert (Ef : filter_map (fun nh : str * sigheaders => match build_signature_base m' (sh_params (snd nh)) rfp' with Ok b => Some (fst nh, (b, snd nh)) | _ => None end) (map (rename_h f) l) = map (rename_c f) cs).
  { rewrite filter_map_map. unfold cs. clear -Hb. induction l as [|nh l IH]; [reflexivity|]. cbn [filter_map]. rewrite (Hb nh (or_introl eq_refl)), IH by (intros; apply Hb; right; assumption).
    destruct (build_signature_base m (sh_params (snd nh)) rfp); reflexivity. }
  rewrite Ef. destruct (received_names m l E) as [Hn _]. pose proof (candidates_names _ _ _ _ _ Hcd Hn) as Hnc.
  rewrite !im_of_list_id; [reflexivity|assumption|].
  assert (Em : map fst (map (rename_c f) cs) = map f (map fst cs)) by (rewrite !map_map; reflexivity). rewrite Em. apply NoDup_inj; [|assumption].
  eapply inj_sub; [|exact Hi]. intros x Hx. rewrite in_app_iff. right.
  apply in_map_iff in Hx as ([n [b h]] & <- & Hx). eapply candidates_in in Hx as (Hx & _); [|exact Hcd].
  destruct (received_dictionaries m l E) as (ds0 & di0 & _ & D2 & _ & Hf). rewrite (dictionary_fun _ _ _ _ D2 H2) in *. rewrite <- (paired_keys _ _ _ Hf). apply (in_map fst) in Hx. exact Hx.
Qed.
Lemma verify_inner_rename f clk cs keys : verify_message_signatures_inner clk (map (rename_c f) cs) keys = rmap (map (rmap f)) (verify_message_signatures_inner clk cs keys).
Proof.
  unfold verify_message_signatures_inner. set (g := fun i (k : verifying_key * option str) => verify_one (clk i) cs (fst k) (snd k)).
  assert (E : mapi (fun i (k : verifying_key * option str) => verify_one (clk i) (map (rename_c f) cs) (fst k) (snd k)) 0 keys = map (rmap f) (mapi g 0 keys)).
  { rewrite map_mapi. apply mapi_ext. intros i k _. apply verify_one_rename. }
  rewrite E. generalize (mapi g 0 keys) as rs. clear. intro rs. unfold join_all.
  assert (E : first_panic (map (rmap f) rs) = first_panic rs) by (induction rs as [|[] rs IH]; [reflexivity|exact IH|exact IH|reflexivity]).
  rewrite E. destruct (first_panic rs); reflexivity.
Qed.

(** ** the order and the parameters of the members of Signature *)
Lemma forallb_perm {A} (p : A -> bool) l l' : Permutation l l' -> forallb p l = forallb p l'.
Proof. intro H. apply eq_true_iff_eq. rewrite !forallb_forall. split; intros Hf x Hx; apply Hf; [apply Permutation_sym in H|]; eapply Permutation_in; eassumption. Qed.
Lemma bare_keys d : map fst (map bare_member d) = map fst d.
Proof. rewrite map_map. reflexivity. Qed.
Lemma im_get_perm {V} (d d' : list (str * V)) k : NoDup (map fst d) -> Permutation d d' -> im_get d k = im_get d' k.
Proof.
  intros Hn Hp. assert (Hn' : NoDup (map fst d')) by (eapply Permutation_NoDup; [apply Permutation_map, Hp|assumption]).
  destruct (im_get d k) as [v|] eqn:E.
  - symmetry. apply im_get_nodup; [assumption|]. eapply Permutation_in; [exact Hp|]. apply BaseFacts.im_get_In, E.
  - symmetry. apply im_get_none. apply im_get_none in E. intro H. apply E. eapply Permutation_in; [apply Permutation_map, Permutation_sym, Hp|exact H].
Qed.
Lemma im_get_bare d k : im_get (map bare_member d) k = option_map (fun e => snd (bare_member (k, e))) (im_get d k).
Proof.
  induction d as [|[k' e] d IH]; [reflexivity|]. cbn [map]. change (bare_member (k', e)) with (k', snd (bare_member (k, e))).
  cbn [im_get]. destruct (str_eqb k k'); [reflexivity|exact IH].
Qed.
Lemma try_parse_order s s' i ds ds' : parse_dict s = Some ds -> parse_dict s' = Some ds' ->
  Permutation (map bare_member ds) (map bare_member ds') -> try_parse s i = try_parse s' i.
Proof.
  intros Es Es' Hp. rewrite !try_parse_unfold, Es, Es'. destruct (parse_dict i) as [di|]; [|reflexivity]. cbn [ok_or bind].
  apply parse_dict_wf in Es as [_ Ns], Es' as [_ Ns'].
  assert (El : length ds = length ds') by (apply Permutation_length in Hp; rewrite !map_length in Hp; exact Hp). rewrite El.
  assert (Ec : forallb (fun kv => im_contains di (fst kv)) ds = forallb (fun kv => im_contains di (fst kv)) ds').
  { transitivity (forallb (fun kv : str * option bare => im_contains di (fst kv)) (map bare_member ds)); [rewrite forallb_map; reflexivity|].
    rewrite (forallb_perm _ _ _ Hp), forallb_map. reflexivity. }
  rewrite Ec.
  set (isb := fun kv : str * option bare => match snd kv with Some (BBytes _) => true | _ => false end).
  assert (Hb : forall d, forallb (fun kv => is_byteseq (snd kv)) d = forallb isb (map bare_member d)).
  { intro d. rewrite forallb_map. apply forallb_ext_in. intros [k [[[] ps]|il]] _; reflexivity. }
  rewrite !Hb, (forallb_perm isb _ _ Hp).
  assert (Eq : collect (pair_of ds) di = collect (pair_of ds') di).
  { apply collect_ext. intros [k e] _. unfold pair_of. destruct (sparams_of_entry e); cbn [bind]; try reflexivity.
    assert (Eg : option_map (fun e => snd (bare_member (k, e))) (im_get ds k) = option_map (fun e => snd (bare_member (k, e))) (im_get ds' k)).
    { rewrite <- !im_get_bare. apply im_get_perm; [|exact Hp]. rewrite bare_keys. assumption. }
    destruct (im_get ds k) as [[[b ps]|il]|], (im_get ds' k) as [[[b' ps']|il']|]; cbn in Eg; try discriminate; try reflexivity.
    - injection Eg as ->. destruct b'; reflexivity. }
  rewrite Eq. reflexivity.
Qed.

(** ** the order of Signature-Input, with one reading of the clock *)
Lemma verdict_members t key cs cs' r r' : (forall x, In x cs <-> In x cs') -> outcome (fun _ => t) key cs r -> outcome (fun _ => t) key cs' r' -> same_verdict r r'.
Proof.
  assert (Hno : forall (a b : list (str * (sigbase * sigheaders))), (forall x, In x a <-> In x b) -> b = [] -> a = []).
  { intros a b H ->. destruct a as [|x a]; [reflexivity|]. destruct (proj1 (H x) (or_introl eq_refl)). }
  assert (Hnth : forall (a b : list (str * (sigbase * sigheaders))) j x, (forall x, In x a <-> In x b) -> nth_error a j = Some x -> exists j', nth_error b j' = Some x).
  { intros a b j x H Hj. apply In_nth_error, H. eapply nth_error_In, Hj. }
  intros H Ho Ho'.
  assert (H' : forall x, In x cs' <-> In x cs) by (intro; symmetry; apply H).
  inversion Ho as [E|j n b h q Hj Hcr|j n b h Hnc Hj Hac Hfst|Hne Hall]; subst; inversion Ho' as [E'|j' n' b' h' q' Hj' Hcr'|j' n' b' h' Hnc' Hj' Hac' Hfst'|Hne' Hall']; subst; cbn [same_verdict]; try reflexivity; try exact I.
  - destruct (Hnth _ _ _ _ H' Hj') as [x Hx]. destruct x; discriminate.
  - destruct (Hnth _ _ _ _ H' Hj') as [x Hx]. destruct x; discriminate.
  - exfalso. apply Hne'. apply (Hno _ _ H'). reflexivity.
  - destruct (Hnth _ _ _ _ H Hj) as [x Hx]. destruct x; discriminate.
  - destruct (Hnth _ _ _ _ H Hj) as [x Hx]. exact (Hnc' _ _ _ _ Hx Hcr).
  - destruct (Hnth _ _ _ _ H Hj) as [x Hx]. exact (proj1 (Hall' _ _ _ _ Hx) Hcr).
  - destruct (Hnth _ _ _ _ H Hj) as [x Hx]. destruct x; discriminate.
  - destruct (Hnth _ _ _ _ H' Hj') as [x Hx]. exact (Hnc _ _ _ _ Hx Hcr').
  - destruct (Hnth _ _ _ _ H Hj) as [x Hx]. exact (proj2 (Hall' _ _ _ _ Hx) Hac).
  - exfalso. apply Hne. apply (Hno _ _ H). reflexivity.
  - destruct (Hnth _ _ _ _ H' Hj') as [x Hx]. exact (proj1 (Hall _ _ _ _ Hx) Hcr').
  - destruct (Hnth _ _ _ _ H' Hj') as [x Hx]. exact (proj2 (Hall _ _ _ _ Hx) Hac').
Qed.
Lemma candidates_members m rfp m' rfp' kid l l' cs cs' : (forall x, In x l <-> In x l') -> candidates m rfp kid l cs -> candidates m' rfp' kid l' cs' ->
  (forall n h, In (n, h) l -> build_signature_base m (sh_params h) rfp = build_signature_base m' (sh_params h) rfp') -> forall x, In x cs <-> In x cs'.
Proof.
  intros Hl Hc Hc' Hb [n [b h]]. split; intro Hi.
  - eapply candidates_in in Hi as (Hi & Hbb & Hk); [|exact Hc]. eapply candidates_of; [exact Hc'|apply Hl; exact Hi|rewrite <- (Hb n h Hi); exact Hbb|exact Hk].
  - eapply candidates_in in Hi as (Hi & Hbb & Hk); [|exact Hc']. apply Hl in Hi. eapply candidates_of; [exact Hc|exact Hi|rewrite (Hb n h Hi); exact Hbb|exact Hk].
Qed.

(** ** taking a signature out *)
Lemma without_in {V} n (d : list (str * V)) k v : In (k, v) (without n d) <-> In (k, v) d /\ k <> n.
Proof. unfold without. rewrite filter_In. cbn [fst]. destruct (list_eq_dec N.eq_dec k n); intuition congruence. Qed.
Lemma without_app {V} n (a b : list (str * V)) : without n (a ++ b) = without n a ++ without n b.
Proof. unfold without. induction a as [|x a IH]; [reflexivity|]. cbn [app filter]. destruct (list_eq_dec _ _ _); [exact IH|cbn [app]; f_equal; exact IH]. Qed.
Lemma without_cons {V} n k (v : V) d : without n ((k, v) :: d) = if list_eq_dec N.eq_dec k n then without n d else (k, v) :: without n d.
Proof. unfold without. cbn [filter fst]. destruct (list_eq_dec N.eq_dec k n); reflexivity. Qed.
Lemma without_keys {V} n (d : list (str * V)) k : In k (map fst (without n d)) <-> In k (map fst d) /\ k <> n.
Proof.
  rewrite !in_map_iff. split.
  - intros ([k' v] & <- & H). apply without_in in H as [H Hn]. split; [exists (k', v); auto|assumption].
  - intros [([k' v] & <- & H) Hn]. exists (k', v). split; [reflexivity|]. apply without_in. auto.
Qed.
Lemma candidates_without m rfp m' rfp' kid l cs n0 : candidates m rfp kid l cs ->
  (forall n h, In (n, h) l -> n <> n0 -> build_signature_base m (sh_params h) rfp = build_signature_base m' (sh_params h) rfp') ->
  candidates m' rfp' kid (without n0 l) (without n0 cs).
Proof.
  induction 1 as [|n h b l cs Hb Hk H IH|n h l cs Hs H IH]; intro He; [constructor| |]; rewrite ?without_cons; destruct (list_eq_dec N.eq_dec n n0) as [E|E];
    try (apply IH; intros; eapply He; [right; eassumption|assumption]).
  - apply cand_take; [rewrite <- (He n h (or_introl eq_refl) E); exact Hb|exact Hk|]. apply IH; intros; eapply He; [right; eassumption|assumption].
  - apply cand_skip; [|apply IH; intros; eapply He; [right; eassumption|assumption]]. rewrite <- (He n h (or_introl eq_refl) E). exact Hs.
Qed.
Lemma received_without m m' ds di l n0 : dictionary m (lit "signature") ds -> dictionary m (lit "signature-input") di ->
  dictionary m' (lit "signature") (without n0 ds) -> dictionary m' (lit "signature-input") (without n0 di) -> received m l -> received m' (without n0 l).
Proof.
  intros H1 H2 H3 H4 Hr. destruct (received_dictionaries m l Hr) as (ds0 & di0 & D1 & D2 & Hk & Hf).
  rewrite (dictionary_fun _ _ _ _ D1 H1), (dictionary_fun _ _ _ _ D2 H2) in *. apply (dictionaries_received m' _ _ _ H3 H4).
  - intro k. rewrite !without_keys, Hk. reflexivity.
  - clear -Hf. induction Hf as [|[k e] [n h] di l Hp Hf IH]; [constructor|]. rewrite !without_cons. destruct Hp as (E1 & E2 & E3 & ps & E4). cbn [fst snd] in *. subst n.
    destruct (list_eq_dec N.eq_dec k n0) as [E|E]; [exact IH|]. constructor; [|exact IH]. split; [reflexivity|]. split; [assumption|]. split; [assumption|].
    exists ps. apply without_in. auto.
Qed.
Definition first_accepted (t : N) (key : verifying_key) (cs : list (str * (sigbase * sigheaders))) (n : str) : Prop :=
  exists a b h c, cs = a ++ (n, (b, h)) :: c /\ accepted t key b h /\ (forall n' b' h', In (n', (b', h')) a -> ~ accepted t key b' h')
  /\ (forall n' b' h', In (n', (b', h')) cs -> ~ crashes t key b' h').
Lemma outcome_first t key cs n : outcome (fun _ => t) key cs (Ok n) -> first_accepted t key cs n.
Proof.
  inversion 1 as [| |j n' b h Hnc Hj Hac Hf|]; subst. apply nth_error_split in Hj as (a & c & -> & <-). exists a, b, h, c. split; [reflexivity|]. split; [assumption|]. split.
  - intros n' b' h' Hi. apply In_nth_error in Hi as [i Hi]. assert (Hlt : (i < length a)%nat) by (apply nth_error_Some; congruence). apply (Hf i n'); [assumption|]. rewrite nth_error_app1; assumption.
  - intros n' b' h' Hi. apply In_nth_error in Hi as [i Hi]. eapply Hnc, Hi.
Qed.
Lemma first_outcome t key cs n r : first_accepted t key cs n -> outcome (fun _ => t) key cs r -> r = Ok n.
Proof.
  intros (a & b & h & c & E & Hac & Hf & Hnc) Ho. inversion Ho as [E'|j' n' b' h' q' Hj' Hcr'|j' n' b' h' Hnc' Hj' Hac' Hfst'|Hne' Hall']; subst.
  - destruct a; discriminate.
  - exfalso. eapply Hnc; [eapply nth_error_In, Hj'|exact Hcr'].
  - assert (Hn : nth_error (a ++ (n, (b, h)) :: c) (length a) = Some (n, (b, h))) by (rewrite nth_error_app2, Nat.sub_diag by lia; reflexivity).
    destruct (Nat.lt_trichotomy j' (length a)) as [Hlt|[->|Hlt]].
    + exfalso. rewrite nth_error_app1 in Hj' by assumption. eapply Hf; [eapply nth_error_In, Hj'|exact Hac'].
    + rewrite Hn in Hj'. inv Hj'. reflexivity.
    + exfalso. exact (Hfst' _ _ _ _ Hlt Hn Hac).
  - exfalso. apply (Hall' (length a) n b h); [|assumption]. rewrite nth_error_app2, Nat.sub_diag by lia. reflexivity.
Qed.
Lemma first_accepted_without t key cs n n0 : n <> n0 -> first_accepted t key cs n -> first_accepted t key (without n0 cs) n.
Proof.
  intros Hn (a & b & h & c & E & Hac & Hf & Hnc). exists (without n0 a), b, h, (without n0 c). split; [|split; [assumption|split]].
  - rewrite E, without_app, without_cons. destruct (list_eq_dec N.eq_dec n n0); [contradiction|reflexivity].
  - intros n' b' h' Hi. apply without_in in Hi as [Hi _]. eapply Hf, Hi.
  - intros n' b' h' Hi. apply without_in in Hi as [Hi _]. eapply Hnc, Hi.
Qed.
Lemma first_accepted_more t key cs n n0 r : total_key key -> first_accepted t key (without n0 cs) n -> outcome (fun _ => t) key cs r -> r = Ok n \/ r = Ok n0.
Proof.
  intros Ht Hfa Ho. assert (Hin : exists b h, In (n, (b, h)) cs /\ accepted t key b h).
  { destruct Hfa as (a & b & h & c & E & Hac & _). exists b, h. split; [|assumption]. apply (without_in n0). rewrite E. apply in_elt. }
  destruct Hin as (b & h & Hin & Hac). inversion Ho as [E'|j' n' b' h' q' Hj' Hcr'|j' n' b' h' Hnc' Hj' Hac' Hfst'|Hne' Hall']; subst.
  - destruct Hin.
  - exfalso. destruct Hcr' as [_ [q Hq]]. exact (Ht _ _ _ Hq).
  - destruct (list_eq_dec N.eq_dec n' n0) as [->|Hne]; [right; reflexivity|left]. apply outcome_first in Ho. apply (first_accepted_without _ _ _ _ _ Hne) in Ho.
    f_equal. destruct Ho as (a1 & b1 & h1 & c1 & E1 & A1 & F1 & _), Hfa as (a2 & b2 & h2 & c2 & E2 & A2 & F2 & _). rewrite E1 in E2.
    assert (Hnth : forall a (x : str * (sigbase * sigheaders)) c, nth_error (a ++ x :: c) (length a) = Some x) by (intros a0 x c0; rewrite nth_error_app2, Nat.sub_diag by lia; reflexivity).
    destruct (Nat.lt_trichotomy (length a1) (length a2)) as [Hlt|[Heq|Hlt]].
    + exfalso. pose proof (Hnth a1 (n', (b1, h1)) c1) as Hx. rewrite E2, nth_error_app1 in Hx by assumption. eapply F2; [eapply nth_error_In, Hx|exact A1].
    + pose proof (Hnth a1 (n', (b1, h1)) c1) as Hx. rewrite E2, Heq, Hnth in Hx. inv Hx. reflexivity.
    + exfalso. pose proof (Hnth a2 (n, (b2, h2)) c2) as Hx. rewrite <- E2, nth_error_app1 in Hx by assumption. eapply F1; [eapply nth_error_In, Hx|exact A2].
  - exfalso. apply In_nth_error in Hin as [i Hi]. exact (proj2 (Hall' _ _ _ _ Hi) Hac).
Qed.

(** ** panics *)
Lemma byteseq_spec d : forallb (fun kv => is_byteseq (snd kv)) d = true <-> Forall is_bytes d.
Proof.
  rewrite forallb_forall, Forall_forall. split; intros H [k e] Hi; specialize (H _ Hi); unfold is_bytes in *; cbn [snd] in *.
  - destruct e as [[[] ps]|il]; try discriminate. eauto.
  - destruct H as (b & ps & ->). reflexivity.
Qed.
Lemma inner_spec d : forallb (fun kv => is_inner (snd kv)) d = true <-> Forall is_list d.
Proof.
  rewrite forallb_forall, Forall_forall. split; intros H [k e] Hi; specialize (H _ Hi); unfold is_list in *; cbn [snd] in *.
  - destruct e as [i|il]; try discriminate. eauto.
  - destruct H as (il & ->). reflexivity.
Qed.
Lemma pair_of_ok ds k e : Forall is_bytes ds -> In k (map fst ds) -> pair_of ds (k, e) = bind (sparams_of_entry e) (fun p => match im_get ds k with Some (EItem (mkItem (BBytes b) _)) => Ok (k, mkSh k b p) | _ => Err ParseSFVError end).
Proof.
  intros Hb Hk. unfold pair_of. destruct (sparams_of_entry e); cbn [bind]; try reflexivity.
  destruct (im_get ds k) as [v|] eqn:E; [|apply im_get_none in E; contradiction].
  apply BaseFacts.im_get_In in E. rewrite Forall_forall in Hb. destruct (Hb _ E) as (b & ps & Ev). cbn [snd] in Ev. subst v. reflexivity.
Qed.
Lemma try_parse_panic s i : (exists q, try_parse s i = Panic q) <->
  exists ds di a k items ps b, parse_dict s = Some ds /\ parse_dict i = Some di /\ (forall k, In k (map fst ds) <-> In k (map fst di))
  /\ Forall is_bytes ds /\ Forall is_list di /\ di = a ++ (k, EInner (mkInner items ps)) :: b
  /\ Forall (fun kv => exists p, sparams_of_entry (snd kv) = Ok p) a /\ params_panic (mkInner items ps).
Proof.
  rewrite try_parse_unfold. split.
  - destruct (parse_dict i) as [di|] eqn:Ei; [|intros [q H]; discriminate]. destruct (parse_dict s) as [ds|] eqn:Es; [|intros [q H]; discriminate]. cbn [ok_or bind].
    apply parse_dict_wf in Ei as [Wi Ni], Es as [Ws Ns]. intros [q H].
    destruct (Nat.eqb _ _) eqn:El; [|discriminate]. apply Nat.eqb_eq in El. cbn [negb] in H.
    destruct (forallb (fun kv => im_contains di (fst kv)) ds) eqn:Ec; [|discriminate]. cbn [negb] in H. pose proof (proj1 (forallb_contains ds di) Ec) as Hc.
    destruct (forallb (fun kv => is_byteseq (snd kv)) ds) eqn:Eb; [|discriminate]. apply byteseq_spec in Eb. cbn [negb] in H.
    destruct (forallb (fun kv => is_inner (snd kv)) di) eqn:En; [|discriminate]. apply inner_spec in En. cbn [negb] in H.
    pose proof (proj1 (same_keys_length ds di Ns Ni) (conj El Hc)) as Hk.
    destruct (collect (pair_of ds) di) as [l|e|q'] eqn:E; cbn [bind] in H; try discriminate. clear H.
    apply collect_panic in E as (a & [k e] & b & ys & -> & Ha & Hx).
    assert (Hkin : In k (map fst ds)) by (apply Hk; rewrite map_app, in_app_iff; right; left; reflexivity).
    rewrite (pair_of_ok ds k e Eb Hkin) in Hx. destruct (sparams_of_entry e) as [p|e'|q''] eqn:Ee; cbn [bind] in Hx.
    + exfalso. destruct (im_get ds k) as [[[[] ?]|]|]; discriminate.
    + discriminate.
    + pose proof En as En'. apply Forall_app in En' as [_ En']. apply Forall_inv in En' as ([items ps] & Ex). cbn [snd] in Ex. subst e.
      exists ds, (a ++ (k, EInner (mkInner items ps)) :: b), a, k, items, ps, b. split; [reflexivity|]. split; [reflexivity|]. split; [exact Hk|]. split; [exact Eb|]. split; [exact En|]. split; [reflexivity|]. split.
      * apply collect_ok in Ha. clear -Ha. induction Ha as [|[k e] y a ys Hy Ha IH]; [constructor|]. constructor; [|exact IH]. cbn [snd]. unfold pair_of in Hy.
        destruct (sparams_of_entry e); cbn [bind] in Hy; try discriminate. eauto.
      * assert (Hwf : wf_inner (mkInner items ps)) by (apply Forall_app in Wi as [_ Wi]; apply Forall_inv in Wi; apply Wi).
        apply (entry_panics _ Hwf). eauto.
  - intros (ds & di & a & k & items & ps & b & Es & Ei & Hk & Hb & Hin & Edi & Ha & Hp). rewrite Es, Ei. cbn [ok_or bind].
    apply parse_dict_wf in Ei as [Wi Ni], Es as [Ws Ns]. destruct (proj2 (same_keys_length ds di Ns Ni) Hk) as [Hl Hc].
    rewrite (proj2 (Nat.eqb_eq _ _) Hl). cbn [negb]. rewrite (proj2 (forallb_contains ds di) Hc). cbn [negb].
    rewrite (proj2 (byteseq_spec ds) Hb), (proj2 (inner_spec di) Hin). cbn [negb].
    assert (Hwf : wf_inner (mkInner items ps)) by (rewrite Edi in Wi; apply Forall_app in Wi as [_ Wi]; apply Forall_inv in Wi; apply Wi).
    assert (Hq : exists q, sparams_of_entry (EInner (mkInner items ps)) = Panic q) by (apply (entry_panics _ Hwf), Hp).
    destruct Hq as [q Hq]. exists q.
    assert (Hy : exists ys, collect (pair_of ds) a = Ok ys).
    { assert (Hka : forall k, In k (map fst a) -> In k (map fst ds)) by (intros k' Hk'; apply Hk; rewrite Edi, map_app, in_app_iff; left; assumption).
      clear -Ha Hb Hka. induction Ha as [|[k e] a [p Hp] Ha IH]; [exists []; reflexivity|]. destruct IH as [ys IH]; [intros; apply Hka; right; assumption|].
      cbn [collect]. rewrite (pair_of_ok ds k e Hb (Hka k (or_introl eq_refl))). cbn [snd] in Hp. rewrite Hp. cbn [bind].
      destruct (im_get ds k) as [v|] eqn:E; [|apply im_get_none in E; exfalso; apply E, Hka; left; reflexivity].
      apply BaseFacts.im_get_In in E. rewrite Forall_forall in Hb. destruct (Hb _ E) as (b & ps & Ev). cbn [snd] in Ev. subst v. rewrite IH. eauto. }
    destruct Hy as [ys Hy]. rewrite Edi. erewrite collect_panic_intro; [reflexivity|exact Hy|]. unfold pair_of. rewrite Hq. reflexivity.
Qed.
Lemma headers_panic_spec s i : (exists q, try_parse s i = Panic q) <-> headers_panic s i.
Proof.
  rewrite try_parse_panic. split.
  - intros (ds & di & a & k & items & ps & b & Es & Ei & Hk & Hb & Hl & E & Ha & Hp). exists ds, di, a, k, (mkInner items ps), b.
    pose proof (parse_dict_wf _ _ Ei) as [Wi _]. apply parse_dict_spec in Es, Ei. rewrite Forall_forall in Hb, Hl, Ha, Wi.
    split; [assumption|]. split; [assumption|]. split; [assumption|]. split; [intros k' e He; exact (Hb _ He)|]. split; [intros k' e He; exact (Hl _ He)|]. split; [assumption|].
    assert (Wm : forall k' x, In (k', EInner x) di -> wf_inner x) by (intros k' x Hx; exact (proj2 (Wi _ Hx))).
    split.
    + intros k' x Hx. destruct (Ha _ Hx) as [p Hq]. exists p. apply params_meaning_spec; [|assumption].
      apply (Wm k' x ltac:(rewrite E; apply in_app_iff; left; assumption)).
    + exact Hp.
  - intros (ds & di & a & k & [items ps] & b & Es & Ei & Hk & Hb & Hl & E & Ha & Hp). apply parse_dict_spec in Es, Ei. exists ds, di, a, k, items, ps, b.
    pose proof (parse_dict_wf _ _ Ei) as [Wi _]. rewrite Forall_forall in Wi.
    assert (Wm : forall k' x, In (k', EInner x) di -> wf_inner x) by (intros k' x Hx; exact (proj2 (Wi _ Hx))).
    split; [assumption|]. split; [assumption|]. split; [assumption|]. split; [apply Forall_forall; intros [k' e] He; exact (Hb _ _ He)|].
    split; [apply Forall_forall; intros [k' e] He; exact (Hl _ _ He)|]. split; [assumption|]. split.
    + apply Forall_forall. intros [k' e] He. assert (Hd : In (k', e) di) by (rewrite E; apply in_app_iff; left; assumption).
      destruct (Hl _ _ Hd) as [x ->]. destruct (Ha _ _ He) as [p Hq]. exists p. apply params_meaning_spec; [|assumption]. apply (Wm _ _ Hd).
    + exact Hp.
Qed.

Lemma extract_panics m : (exists q, extract_signature_headers_with_name m = Panic q) <-> panic_message m.
Proof.
  unfold panic_message. rewrite <- headers_panic_spec. destruct (extract_cases m) as [[Hn ->]|[((S1 & S2) & Hl & ->)|((S1 & S2) & L1 & L2 & ->)]].
  - split; [intros [q H]; discriminate|]. intros (H1 & H2 & _). exfalso. apply Hn. split; assumption.
  - split; [intros [q H]; discriminate|]. intros (_ & _ & H1 & H2 & _). exfalso. tauto.
  - split.
    + intros [q H]. repeat (split; [assumption|]). destruct (try_parse _ _); try discriminate. eauto.
    + intros (_ & _ & _ & _ & q & ->). exists q. reflexivity.
Qed.

(** ** messages that differ in the signature headers only *)
Lemma agree_resigned m rfp h i : (forall n, n <> lit "signature" -> n <> lit "signature-input" -> field_lines h n = field_lines (msg_headers m) n) -> not_signature i ->
  agree i m rfp (msg_set_headers m h) rfp.
Proof.
  intros Hh Hn. assert (Hk : is_request m = is_request (msg_set_headers m h)) by (destruct m; reflexivity).
  assert (Er : forall i m, agree_on i m m).
  { intros i0 m0. split; [reflexivity|]. destruct (id_name i0) as [x|[]]; auto. }
  assert (Eg : msg_headers (msg_set_headers m h) = h) by (destruct m; reflexivity).
  split; [exact Hk|]. split; [|intros _; destruct rfp; [apply Er|exact I]]. intro Hr. split; [exact Hk|].
  destruct Hn as [Hn|Hn]; [contradiction|]. destruct (id_name i) as [x|d].
  - intro Hf. left. rewrite Eg. symmetry. apply Hh; tauto.
  - destruct m; destruct d; try reflexivity; try (split; reflexivity); congruence.
Qed.
Definition dictb (m : msg) (n : str) : option sdict :=
  let ls := field_lines (msg_headers m) n in
  if negb (is_empty ls) && forallb (fun v => match hv_to_str v with Some _ => true | None => false end) ls then parse_dict (comma_join ls) else None.
Lemma dictb_ok m n d : dictb m n = Some d -> dictionary m n d.
Proof.
  unfold dictb, dictionary. set (ls := field_lines (msg_headers m) n). destruct (negb (is_empty ls)) eqn:E1; [|discriminate]. cbn [andb].
  destruct (forallb _ ls) eqn:E2; [|discriminate]. intro H. apply parse_dict_spec in H. split; [destruct ls; discriminate|]. split; [|assumption].
  rewrite forallb_forall in E2. apply Forall_forall. intros v Hv. specialize (E2 v Hv). apply legible_spec. destruct (hv_to_str v) eqn:E; [|discriminate]. apply hv_to_str_id in E as E'. congruence.
Qed.
