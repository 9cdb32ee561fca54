(** Parsing and printing the signature headers *)
From Coq Require Import ZifyBool ZifyNat ZifyN Permutation.
From Verif Require Import Base BaseFacts Utf8 Base64 Base64Facts Sfv SfvFacts SfvRound TextFacts SpecSfv SpecSfvProofs SpecGrammar GrammarProofs SpecCanon CanonProofs Component Crypto Params SigBase SpecId IdProofs SpecParams ParamsProofs SpecIdText IdTextProofs SpecValue ValueProofs Http Hyper SpecMsg.

(** ** C23 *)
Definition pair_of (ds : sdict) (kv : str * entry) : result err (str * sigheaders) :=
  let (k, v) := kv in
  let* p := sparams_of_entry v in
  match im_get ds k with
  | Some (EItem (mkItem (BBytes b) _)) => Ok (k, mkSh k b p)
  | _ => Panic PUnreachable
  end.
(** [header_texts] in terms of the parser: [r] is made of the member [kv] of Signature-Input and the byte sequence of that name among the members [ds] of Signature *)
Definition paired (ds : sdict) (kv : str * entry) (r : str * sigheaders) : Prop :=
  fst r = fst kv /\ sh_name (snd r) = fst kv /\ sparams_of_entry (snd kv) = Ok (sh_params (snd r))
  /\ exists ps, In (fst kv, EItem (mkItem (BBytes (sh_sig (snd r))) ps)) ds.
(** header texts that hold the signatures [l], in the order of Signature-Input *)
Definition hold (sig input : str) (l : list (str * sigheaders)) : Prop :=
  exists ds di, parse_dict sig = Some ds /\ parse_dict input = Some di
  /\ (forall k, In k (map fst ds) <-> In k (map fst di)) /\ Forall2 (paired ds) di l.
Lemma header_texts_spec sig input l : hold sig input l <-> header_texts sig input l.
Proof.
  assert (Hj : forall ds kv r, wf_member kv -> (paired ds kv r <-> joins ds kv r)).
  { intros ds [k e] r [_ He]. unfold paired, joins. cbn [fst snd] in *. split.
    - intros (H1 & H2 & H3 & ps & H4). destruct e as [i|x]; [discriminate H3|]. exists x, ps. split; [reflexivity|].
      split; [apply params_meaning_spec; [exact He|assumption]|]. auto.
    - intros (x & ps & -> & H3 & H1 & H2 & H4). apply params_meaning_spec in H3; [|exact He]. eauto. }
  unfold hold, header_texts. split; intros (ds & di & Es & Ei & Hk & Hl); exists ds, di.
  - pose proof (parse_dict_wf _ _ Ei) as [Hw _]. apply parse_dict_spec in Es, Ei. repeat split; try assumption; try apply Hk.
    clear -Hj Hw Hl. induction Hl; inversion Hw; subst; constructor; auto. apply Hj; assumption.
  - apply parse_dict_spec in Es, Ei. pose proof (parse_dict_wf _ _ Ei) as [Hw _]. repeat split; try assumption; try apply Hk.
    clear -Hj Hw Hl. induction Hl; inversion Hw; subst; constructor; auto. apply Hj; assumption.
Qed.
Lemma pair_of_spec ds kv r : NoDup (map fst ds) -> (pair_of ds kv = Ok r <-> paired ds kv r).
Proof.
  intro Hn. destruct kv as [k e], r as [k' h]. unfold pair_of, paired. cbn [fst snd]. split.
  - destruct (sparams_of_entry e) as [p|x|x]; cbn [bind]; try discriminate.
    destruct (im_get ds k) as [[[b ps]|l]|] eqn:E; try discriminate. destruct b; try discriminate. intro H. inv H. cbn [sh_name sh_sig sh_params].
    repeat split. exists ps. apply im_get_In; assumption.
  - intros (-> & Hs & Hp & ps & Hi). rewrite Hp. cbn [bind]. apply im_get_In in Hi; [|assumption]. rewrite Hi. destruct h; cbn in *; subst. reflexivity.
Qed.
Lemma forallb_contains {V W} (a : list (str * V)) (b : list (str * W)) :
  forallb (fun kv => im_contains b (fst kv)) a = true <-> forall k, In k (map fst a) -> In k (map fst b).
Proof.
  rewrite forallb_forall. split.
  - intros H k Hk. apply in_map_iff in Hk as (kv & <- & Hk). apply H in Hk. unfold im_contains in Hk.
    destruct (im_get b (fst kv)) eqn:E; [|discriminate]. destruct (in_dec (list_eq_dec N.eq_dec) (fst kv) (map fst b)) as [Hi|Hi]; [assumption|].
    apply im_get_notin in Hi. congruence.
  - intros H kv Hk. unfold im_contains. destruct (im_get b (fst kv)) eqn:E; [reflexivity|]. apply im_get_notin in E. exfalso. apply E, H. apply in_map. assumption.
Qed.
Lemma same_keys_length {V W} (a : list (str * V)) (b : list (str * W)) : NoDup (map fst a) -> NoDup (map fst b) ->
  ((length a = length b /\ forall k, In k (map fst a) -> In k (map fst b)) <-> forall k, In k (map fst a) <-> In k (map fst b)).
Proof.
  intros Ha Hb. split.
  - intros [Hl Hi] k. split; [apply Hi|]. apply (NoDup_length_incl Ha); [rewrite !map_length; lia|exact Hi].
  - intro H. split; [|intros k; apply H].
    assert (Hp : Permutation (map fst a) (map fst b)) by (apply NoDup_Permutation; assumption).
    apply Permutation_length in Hp. rewrite !map_length in Hp. exact Hp.
Qed.
Lemma paired_keys ds di l : Forall2 (paired ds) di l -> map fst l = map fst di.
Proof. induction 1 as [|kv r di l Hr H IH]; [reflexivity|]. cbn [map]. destruct Hr as [-> _]. rewrite IH. reflexivity. Qed.
Lemma try_parse_unfold s i : try_parse s i =
  (let* di := ok_or (parse_dict i) ParseSFVError in let* ds := ok_or (parse_dict s) ParseSFVError in
   if negb (Nat.eqb (length ds) (length di)) then Err BuildSignatureHeaderError
   else if negb (forallb (fun kv => im_contains di (fst kv)) ds) then Err BuildSignatureHeaderError
   else if negb (forallb (fun kv => is_byteseq (snd kv)) ds) then Err BuildSignatureHeaderError
   else if negb (forallb (fun kv => is_inner (snd kv)) di) then Err BuildSignatureHeaderError
   else let* l := collect (pair_of ds) di in Ok (im_of_list l)).
Proof. reflexivity. Qed.
Lemma try_parse_spec s i l : try_parse s i = Ok l <->
  exists ds di, parse_dict s = Some ds /\ parse_dict i = Some di
  /\ (forall k, In k (map fst ds) <-> In k (map fst di)) /\ Forall2 (paired ds) di l.
Proof.
  rewrite try_parse_unfold. split.
  - destruct (parse_dict i) as [di|] eqn:Ei; [|discriminate]. destruct (parse_dict s) as [ds|] eqn:Es; [|discriminate]. cbn [ok_or bind].
    apply parse_dict_wf in Ei as [Wi Ni], Es as [Ws Ns].
    destruct (Nat.eqb _ _) eqn:El; [|discriminate]. apply Nat.eqb_eq in El. cbn [negb].
    destruct (forallb (fun kv => im_contains di (fst kv)) ds) eqn:Ec; [|discriminate]. cbn [negb]. pose proof (proj1 (forallb_contains ds di) Ec) as Ec0. clear Ec. rename Ec0 into Ec.
    destruct (forallb _ ds); [|discriminate]. cbn [negb]. destruct (forallb _ di); [|discriminate]. cbn [negb].
    destruct (collect (pair_of ds) di) as [l'|x|x] eqn:E; cbn [bind]; try discriminate. apply collect_ok in E. intro H. inv H.
    assert (Hf : Forall2 (paired ds) di l').
    { clear -E Ns. induction E as [|kv r di l Hr H IH]; constructor; [|assumption]. apply pair_of_spec; assumption. }
    exists ds, di. rewrite im_of_list_id by (rewrite (paired_keys _ _ _ Hf); assumption). repeat split; try assumption; try reflexivity.
    + apply Ec.
    + apply (same_keys_length ds di Ns Ni). auto.
  - intros (ds & di & Es & Ei & Hk & Hf). rewrite Ei, Es. cbn [ok_or bind]. apply parse_dict_wf in Ei as [Wi Ni], Es as [Ws Ns].
    destruct (proj2 (same_keys_length ds di Ns Ni) Hk) as [Hl Hc]. rewrite (proj2 (Nat.eqb_eq _ _) Hl). cbn [negb].
    rewrite (proj2 (forallb_contains ds di) Hc). cbn [negb].
    assert (Hb : forallb (fun kv => is_byteseq (snd kv)) ds = true).
    { apply forallb_forall. intros [k e] Hi. cbn [snd]. assert (Hik : In k (map fst di)) by (apply Hk, (in_map fst _ _ Hi)).
      apply in_map_iff in Hik as ([k' e'] & Ek & Hin). cbn in Ek. subst k'.
      assert (Hp : exists r, paired ds (k, e') r).
      { clear -Hf Hin. induction Hf as [|kv r di l Hr H IH]; [destruct Hin|]. destruct Hin as [->|Hin]; eauto. }
      destruct Hp as (r & _ & _ & _ & ps & Hi'). cbn [fst] in Hi'. apply im_get_In in Hi; [|assumption]. apply im_get_In in Hi'; [|assumption].
      rewrite Hi in Hi'. inv Hi'. reflexivity. }
    rewrite Hb. cbn [negb].
    assert (Hin : forallb (fun kv => is_inner (snd kv)) di = true).
    { apply forallb_forall. intros [k e] Hi. cbn [snd].
      assert (Hp : exists r, paired ds (k, e) r).
      { clear -Hf Hi. induction Hf as [|kv r di l Hr H IH]; [destruct Hi|]. destruct Hi as [->|Hi]; eauto. }
      destruct Hp as (r & _ & _ & Hp & _). cbn [snd] in Hp. destruct e; [discriminate|reflexivity]. }
    rewrite Hin. cbn [negb].
    assert (Hc' : collect (pair_of ds) di = Ok l).
    { apply collect_ok. clear -Hf Ns. induction Hf as [|kv r di l Hr H IH]; constructor; [|assumption]. apply pair_of_spec; assumption. }
    rewrite Hc'. cbn [bind]. rewrite im_of_list_id; [reflexivity|]. rewrite (paired_keys _ _ _ Hf). assumption.
Qed.
Lemma try_parse_names_differ s i ds di k : parse_dict s = Some ds -> parse_dict i = Some di ->
  ~ (In k (map fst ds) <-> In k (map fst di)) -> try_parse s i = Err BuildSignatureHeaderError.
Proof.
  intros Es Ei Hk. rewrite try_parse_unfold, Es, Ei. cbn [ok_or bind]. apply parse_dict_wf in Ei as [_ Ni], Es as [_ Ns].
  destruct (Nat.eqb _ _) eqn:El; [|reflexivity]. cbn [negb]. destruct (forallb _ ds) eqn:Ec; [|reflexivity]. exfalso. apply Hk.
  apply (same_keys_length ds di Ns Ni). split; [apply Nat.eqb_eq, El|]. apply (forallb_contains ds di), Ec.
Qed.
Lemma try_parse_bad_kind s i ds di : parse_dict s = Some ds -> parse_dict i = Some di ->
  (exists kv, In kv ds /\ is_byteseq (snd kv) = false) \/ (exists kv, In kv di /\ is_inner (snd kv) = false) ->
  try_parse s i = Err BuildSignatureHeaderError.
Proof.
  intros Es Ei H. rewrite try_parse_unfold, Es, Ei. cbn [ok_or bind].
  destruct (negb _); [reflexivity|]. destruct (negb _); [reflexivity|].
  destruct (forallb _ ds) eqn:E1; [|reflexivity]. cbn [negb]. destruct (forallb _ di) eqn:E2; [|reflexivity]. exfalso.
  rewrite forallb_forall in E1, E2. destruct H as [(kv & Hi & H)|(kv & Hi & H)]; [rewrite E1 in H by assumption|rewrite E2 in H by assumption]; discriminate.
Qed.
(** panics come from the parameters only *)
Lemma try_parse_panic s i q : try_parse s i = Panic q ->
  exists di k l, parse_dict i = Some di /\ In (k, EInner l) di /\ sparams_of_entry (EInner l) = Panic q.
Proof.
  rewrite try_parse_unfold. destruct (parse_dict i) as [di|] eqn:Ei; [|discriminate]. destruct (parse_dict s) as [ds|] eqn:Es; [|discriminate]. cbn [ok_or bind].
  apply parse_dict_wf in Ei as [Wi Ni], Es as [Ws Ns].
  destruct (Nat.eqb _ _) eqn:El; [|discriminate]. apply Nat.eqb_eq in El. cbn [negb].
  destruct (forallb (fun kv => im_contains di (fst kv)) ds) eqn:Ec; [|discriminate]. cbn [negb]. pose proof (proj1 (forallb_contains ds di) Ec) as Ec0. clear Ec. rename Ec0 into Ec.
  destruct (forallb _ ds) eqn:Eb; [|discriminate]. cbn [negb]. destruct (forallb _ di) eqn:En; [|discriminate]. cbn [negb].
  pose proof (proj1 (same_keys_length ds di Ns Ni) (conj El Ec)) as Hk.
  destruct (collect (pair_of ds) di) as [l'|x|x] eqn:E; cbn [bind]; try discriminate. intro H. inv H.
  apply collect_panic in E as (a & [k e] & b & ys & -> & _ & Hx). exists (a ++ (k, e) :: b). unfold pair_of in Hx.
  destruct e as [it|l]; [cbn in Hx; discriminate|]. exists k, l. split; [reflexivity|]. split; [apply in_or_app; right; left; reflexivity|].
  destruct (sparams_of_entry (EInner l)) as [p|x|x] eqn:Ep; cbn [bind] in Hx; [|discriminate|inv Hx; reflexivity]. exfalso.
  assert (Hi : In k (map fst ds)) by (apply Hk; rewrite map_app; apply in_or_app; right; left; reflexivity).
  apply in_map_iff in Hi as ([k' e'] & Ek & Hi). cbn in Ek. subst k'. rewrite forallb_forall in Eb. pose proof (Eb _ Hi) as Hb. cbn in Hb.
  apply im_get_In in Hi; [|assumption]. rewrite Hi in Hx. destruct e' as [[[] ?]|]; discriminate.
Qed.

(** ** C24 *)
Definition sig_member (h : sigheaders) : str * entry := (sh_name h, EItem (mkItem (BBytes (sh_sig h)) [])).
Definition input_member (h : sigheaders) : str * entry := (sh_name h, EInner (params_inner (sh_params h))).
Lemma sig_member_text h : signature_header_value h = ser_member (sig_member h).
Proof. unfold signature_header_value, sig_member, ser_member. cbn [fst snd]. f_equal. cbn [ser_entry]. unfold ser_item. cbn [it_bare it_params ser_bare ser_params flat_map]. rewrite app_nil_r. reflexivity. Qed.
Lemma input_member_text h : writable (sh_params h) -> signature_input_header_value h = ser_member (input_member h).
Proof.
  intros (H1 & H2 & H3 & H4 & H5 & H6 & H7 & H8 & H9). unfold signature_input_header_value, input_member, ser_member. cbn [fst snd].
  rewrite sparams_str_inner by assumption. reflexivity.
Qed.
Lemma octet_bytesp b : Forall octet b <-> bytesp b.
Proof. reflexivity. Qed.
Lemma sig_member_wf h : sendable h -> wf_member (sig_member h).
Proof.
  intros (H1 & H2 & H3). split; [apply key_text_spec, H1|]. cbn. split; [exact H2|]. split; constructor.
Qed.
Lemma input_member_wf h : sendable h -> wf_member (input_member h).
Proof. intros (H1 & H2 & H3). split; [apply key_text_spec, H1|]. apply params_inner_wf, H3. Qed.
Lemma headers_parse_back l : Forall sendable l -> NoDup (map sh_name l) ->
  try_parse (comma_join (map signature_header_value l)) (comma_join (map signature_input_header_value l)) = Ok (map (fun h => (sh_name h, h)) l).
Proof.
  intros Hl Hn. apply try_parse_spec. exists (map sig_member l), (map input_member l).
  assert (E1 : map signature_header_value l = map ser_member (map sig_member l)) by (rewrite map_map; apply map_ext; exact sig_member_text).
  assert (E2 : map signature_input_header_value l = map ser_member (map input_member l)).
  { rewrite map_map. apply map_ext_in. intros h Hh. apply input_member_text. rewrite Forall_forall in Hl. apply Hl, Hh. }
  assert (N1 : map fst (map sig_member l) = map sh_name l) by (rewrite map_map; reflexivity).
  assert (N2 : map fst (map input_member l) = map sh_name l) by (rewrite map_map; reflexivity).
  rewrite E1, E2, <- !comma_join_spec. split; [|split; [|split]].
  - apply parse_dict_round. split; [|rewrite N1; assumption]. apply Forall_map. eapply Forall_impl; [|exact Hl]. exact sig_member_wf.
  - apply parse_dict_round. split; [|rewrite N2; assumption]. apply Forall_map. eapply Forall_impl; [|exact Hl]. exact input_member_wf.
  - intro k. rewrite N1, N2. reflexivity.
  - clear Hn E1 E2 N1 N2. assert (Hin : forall h, In h l -> In (sig_member h) (map sig_member l)) by (intros h Hh; apply in_map, Hh).
    revert Hin. generalize (map sig_member l) as ds. intros ds Hin. induction Hl as [|h l Hh Hl IH]; cbn [map]; constructor.
    + split; [reflexivity|]. split; [reflexivity|]. destruct Hh as (_ & _ & (H1 & H2 & H3 & H4 & H5 & H6 & H7 & H8 & H9)).
      split; [apply entry_of_inner; assumption|]. exists []. apply Hin. left. reflexivity.
    + apply IH. intros h' Hh'. apply Hin. right. assumption.
Qed.
