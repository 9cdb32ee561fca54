(** Signing messages *)
From Coq Require Import ZifyBool ZifyNat ZifyN.
From Verif Require Import Base BaseFacts Utf8 Utf8Facts Base64 Sfv SfvFacts SfvRound TextFacts SpecSfv SpecSfvProofs SpecGrammar GrammarProofs SpecCanon CanonProofs Component Crypto Params SigBase SpecId IdProofs SpecParams ParamsProofs SpecValue ValueProofs Http Hyper SpecBase BaseProofs SpecIdText IdTextProofs SpecMsg HeaderProofs MsgProofs VerifyProofs SpecExtract ExtractProofs TamperProofs FrameProofs SpecSign.

(** ** making signatures *)
Lemma build_made m rfp j h :
  (exists b, build_signature_base m (j_params j) rfp = Ok b /\ build_signature_headers b (j_key j) (j_name j) (j_seed j) = Ok h) <-> made m rfp j h.
Proof.
  unfold made, build_signature_headers, build_raw_signature. split.
  - intros (b & Hb & H). exists (base_str b). split; [apply signed_text_spec; eauto|]. apply build_base_ids in Hb as [_ Hp].
    unfold base_bytes in H. destruct (sk_sign _ _ _) as [s|e|q]; cbn [bind] in H; inv H. cbn [sh_sig sh_name sh_params]. auto.
  - intros (t & Ht & Hs & Hn & Hp). apply signed_text_spec in Ht as (b & Hb & <-). exists b. split; [assumption|].
    apply build_base_ids in Hb as [_ Hq]. unfold base_bytes. rewrite Hs. cbn [bind]. rewrite Hq, <- Hp. f_equal. destruct h as [n s p]. cbn in *. rewrite Hn. reflexivity.
Qed.
Lemma make_spec m rfp jobs l : make_signatures m rfp jobs = Ok l <-> Forall2 (made m rfp) jobs l.
Proof.
  unfold make_signatures, join_all. split.
  - destruct (collect _ jobs) as [bs|e|q] eqn:E; cbn [bind]; try discriminate. destruct (first_panic _) eqn:Ef; [discriminate|]. cbn [bind].
    clear Ef. rewrite collect_map. destruct (collect _ bs) as [l'|e|q] eqn:El; cbn [map_err]; try discriminate. intro H. inv H.
    apply collect_ok in E. apply collect_ok in El. revert l El. induction E as [|j [b j'] jobs bs Hj E IH]; intros l El; inversion El as [|? h ? l' Hh Hl]; subst; [constructor|].
    constructor; [|apply IH; assumption]. destruct (build_signature_base m (j_params j) rfp) as [b'|e|q] eqn:Eb; cbn [rmap] in Hj; inv Hj. cbn [fst snd] in Hh.
    apply build_made. eauto.
  - intro H.
    assert (Hb : exists bs, Forall2 (fun j bj => rmap (fun b => (b, j)) (build_signature_base m (j_params j) rfp) = Ok bj) jobs bs
      /\ Forall2 (fun bj h => build_signature_headers (fst bj) (j_key (snd bj)) (j_name (snd bj)) (j_seed (snd bj)) = Ok h) bs l).
    { induction H as [|j h jobs l Hj H (bs & H1 & H2)]; [exists []; split; constructor|]. apply build_made in Hj as (b & Hb & Hh).
      exists ((b, j) :: bs). split; constructor; try assumption. rewrite Hb. reflexivity. }
    destruct Hb as (bs & H1 & H2). apply collect_ok in H1. rewrite H1. cbn [bind].
    rewrite first_panic_none.
    + cbn [bind]. rewrite collect_map. apply collect_ok in H2. rewrite H2. reflexivity.
    + intros x q Hx Hq. subst x. clear -H2 Hx. induction H2 as [|bj h bs l Hh H2 IH]; cbn in Hx; [destruct Hx|]. destruct Hx as [Hx|Hx]; [congruence|auto].
Qed.
Lemma made_octets m rfp j h : octets (j_key j) -> made m rfp j h -> Forall octet (sh_sig h).
Proof. intros H (t & _ & Hs & _). eapply H, Hs. Qed.

(** ** appending headers *)
Lemma header_value_spec s : (header_bytes (utf8 s) -> header_value s = Some (utf8 s)) /\ (~ header_bytes (utf8 s) -> header_value s = None).
Proof.
  unfold header_value, header_bytes.
  assert (H : forallb hv_byte (utf8 s) = true <-> Forall (fun c => 32 <= c /\ c <> 127 \/ c = 9) (utf8 s)) by (apply Forall_forallb; intro c; unfold hv_byte; lia).
  destruct (forallb hv_byte (utf8 s)); split; intro Hs; try reflexivity; exfalso; [tauto|]. apply H in Hs. discriminate.
Qed.
Lemma header_bytes_dec b : header_bytes b \/ ~ header_bytes b.
Proof.
  unfold header_bytes. induction b as [|c b IH]; [left; constructor|]. assert (Hc : (32 <= c /\ c <> 127 \/ c = 9) \/ ~ (32 <= c /\ c <> 127 \/ c = 9)) by lia.
  destruct Hc as [Hc|Hc]; [|right; intro H; inversion H; contradiction]. destruct IH as [IH|IH]; [left; constructor; assumption|right; intro H; inversion H; contradiction].
Qed.
Lemma printp_utf8 s : printp s -> utf8 s = s.
Proof. intro H. apply utf8_ascii. eapply Forall_impl; [|exact H]. cbn. intros c Hc. unfold printable in *. lia. Qed.
Lemma printp_header s : printp s -> header_bytes s.
Proof. intro H. eapply Forall_impl; [|exact H]. cbn. intros c Hc. lia. Qed.
Lemma signature_line_header h : Forall octet (sh_sig h) -> header_bytes (input_line h) -> header_bytes (signature_line h).
Proof.
  unfold input_line, signature_line, header_bytes. intros Ho H. rewrite utf8_app in *. apply Forall_app in H as [H _]. apply Forall_app. split; [assumption|].
  assert (Hp : printp (lit "=:" ++ b64_text (sh_sig h) ++ lit ":")).
  { apply printp_app. split; [apply lit_print; reflexivity|]. apply printp_app. split; [|apply lit_print; reflexivity]. rewrite <- b64_text_spec by assumption. apply b64_print, Ho. }
  rewrite printp_utf8 by assumption. apply printp_header, Hp.
Qed.
Lemma append_spec l : forall h, Forall (fun s => Forall octet (sh_sig s)) l ->
  exists k, let done := h ++ flat_map pair_lines (firstn k l) in
    (k = length l /\ Forall (fun s => header_bytes (input_line s)) l /\ append_signatures h l = (done, Ok tt))
    \/ (exists s, nth_error l k = Some s /\ ~ header_bytes (input_line s) /\ append_signatures h l = (done, Err InvalidHeaderValue)).
Proof.
  induction l as [|s l IH]; intros h Ho; cbv zeta; [exists 0%nat; left; cbn [firstn flat_map append_signatures length]; rewrite app_nil_r; auto|].
  apply Forall_cons_iff in Ho as [Hs Ho]. cbn [append_signatures].
  assert (E1 : signature_input_header_value s = sh_name s ++ lit "=" ++ params_text (sh_params s)) by (unfold signature_input_header_value; rewrite params_text_spec; reflexivity).
  assert (E2 : signature_header_value s = sh_name s ++ lit "=:" ++ b64_text (sh_sig s) ++ lit ":") by (unfold signature_header_value; rewrite b64_text_spec by assumption; reflexivity).
  rewrite E1, E2. destruct (header_bytes_dec (input_line s)) as [Hi|Hi].
  - rewrite (proj1 (header_value_spec _) Hi). rewrite (proj1 (header_value_spec _) (signature_line_header s Hs Hi)).
    destruct (IH (hm_append (hm_append h h_input (input_line s)) h_sig (signature_line s)) Ho) as (k & IHk). cbv zeta in IHk. exists (S k).
    assert (Ed : hm_append (hm_append h h_input (input_line s)) h_sig (signature_line s) ++ flat_map pair_lines (firstn k l) = h ++ flat_map pair_lines (firstn (S k) (s :: l))).
    { cbn [firstn flat_map]. unfold hm_append, pair_lines at 2. rewrite <- !app_assoc. reflexivity. }
    rewrite <- Ed. destruct IHk as [(-> & Hl & Hr)|(s' & Hn & Hb & Hr)]; [left|right].
    + split; [reflexivity|]. split; [constructor; assumption|]. exact Hr.
    + exists s'. split; [exact Hn|]. split; [assumption|]. exact Hr.
  - exists 0%nat. right. exists s. split; [reflexivity|]. split; [assumption|]. rewrite (proj2 (header_value_spec _) Hi). cbn [firstn flat_map]. rewrite app_nil_r. reflexivity.
Qed.
Lemma set_same_headers m : msg_set_headers m (msg_headers m) = m.
Proof. destruct m as [[? ? ? ?]|[? ? ?]]; reflexivity. Qed.
Lemma set_headers_get m h : msg_headers (msg_set_headers m h) = h.
Proof. destruct m; reflexivity. Qed.
Lemma set_headers_twice m h h' : msg_set_headers (msg_set_headers m h) h' = msg_set_headers m h'.
Proof. destruct m; reflexivity. Qed.
Lemma append_prefix l : forall h, exists add, fst (append_signatures h l) = h ++ add /\ Forall (fun nv => fst nv = lit "signature-input" \/ fst nv = lit "signature") add.
Proof.
  induction l as [|s l IH]; intro h; cbn [append_signatures fst]; [exists []; rewrite app_nil_r; auto|].
  destruct (header_value (signature_input_header_value s)) as [v|]; cbn [fst]; [|exists []; rewrite app_nil_r; auto].
  destruct (header_value (signature_header_value s)) as [w|]; cbn [fst].
  - destruct (IH (hm_append (hm_append h h_input v) h_sig w)) as (add & -> & Ha). exists ((h_input, v) :: (h_sig, w) :: add). split.
    + unfold hm_append. rewrite <- !app_assoc. reflexivity.
    + constructor; [left; reflexivity|]. constructor; [right; reflexivity|assumption].
  - exists [(h_input, v)]. split; [reflexivity|]. constructor; [left; reflexivity|constructor].
Qed.

(** ** joining dictionaries *)
Lemma Forall2_impl {A B} (R S : A -> B -> Prop) l r : (forall x y, R x y -> S x y) -> Forall2 R l r -> Forall2 S l r.
Proof. intros H. induction 1; constructor; auto. Qed.
Lemma im_add_in {V} (a b : list (str * V)) k : In k (map fst (im_add a b)) <-> In k (map fst a) \/ In k (map fst b).
Proof.
  rewrite <- (im_contains_In (im_add a b)). unfold im_contains. rewrite im_get_add. destruct (last_value k b) eqn:E.
  - split; [|reflexivity]. intros _. right. apply SpecSfvProofs.last_value_In in E. apply (in_map fst) in E. exact E.
  - apply last_value_none in E. rewrite <- (im_contains_In a). unfold im_contains. tauto.
Qed.
Lemma im_add_nodup {V} (a b : list (str * V)) : NoDup (map fst a) -> NoDup (map fst (im_add a b)).
Proof. apply im_fold_nodup. Qed.
Lemma insert_pending {V W} (P : str * V -> str * W -> Prop) S di l k e r :
  Forall2 (fun kv kr => fst kr = fst kv /\ (In (fst kv) (k :: S) \/ P kv kr)) di l -> NoDup (map fst di) -> P (k, e) (k, r) ->
  Forall2 (fun kv kr => fst kr = fst kv /\ (In (fst kv) S \/ P kv kr)) (im_insert di k e) (im_insert l k r).
Proof.
  intros H Hn Hp. induction H as [|[k1 e1] [k2 r2] di l [E Hx] H IH]; cbn [im_insert]; [constructor; auto|]. cbn [fst] in E. subst k2.
  cbn [map fst] in Hn. apply NoDup_cons_iff in Hn as [Hk Hn]. destruct (str_eqb k k1) eqn:Ek.
  - apply str_eqb_eq in Ek. subst k1. constructor; [auto|]. clear IH Hx. induction H as [|[k1 e3] [k2 r3] di l [E Hx] H IH]; constructor.
    + split; [assumption|]. destruct Hx as [[Hx|Hx]|Hx]; auto. exfalso. apply Hk. left. symmetry. exact Hx.
    + apply IH; [intro Hi; apply Hk; right; assumption|]. cbn [map fst] in Hn. apply NoDup_cons_iff in Hn. apply Hn.
  - constructor; [|apply IH; assumption]. split; [reflexivity|]. cbn [fst] in *. destruct Hx as [[Hx|Hx]|Hx]; auto. subst k1. rewrite str_eqb_refl in Ek. discriminate.
Qed.
Lemma add_pending {V W} (P : str * V -> str * W -> Prop) di2 l2 : Forall2 (fun kv kr => fst kr = fst kv /\ P kv kr) di2 l2 -> forall di l,
  Forall2 (fun kv kr => fst kr = fst kv /\ (In (fst kv) (map fst di2) \/ P kv kr)) di l -> NoDup (map fst di) ->
  Forall2 (fun kv kr => fst kr = fst kv /\ P kv kr) (im_add di di2) (im_add l l2).
Proof.
  induction 1 as [|[k e] [k' r] di2 l2 [E Hp] H IH]; intros di l Hl Hn.
  - cbn [im_add fold_left]. eapply Forall2_impl; [|exact Hl]. cbn. tauto.
  - cbn [fst] in E. subst k'. rewrite !im_add_cons. apply IH; [|apply im_insert_nodup; assumption]. apply insert_pending; assumption.
Qed.
Lemma hold_add s i l s2 i2 l2 : hold s i l -> hold s2 i2 l2 -> l <> [] -> l2 <> [] -> hold (s ++ lit ", " ++ s2) (i ++ lit ", " ++ i2) (im_add l l2).
Proof.
  intros (ds & di & Es & Ei & Hk & Hp) (ds2 & di2 & Es2 & Ei2 & Hk2 & Hp2) Hl Hl2.
  assert (Ndi : di <> []) by (intro; subst; inversion Hp; subst; congruence).
  assert (Ndi2 : di2 <> []) by (intro; subst; inversion Hp2; subst; congruence).
  assert (Nds : ds <> []) by (intro; subst; destruct di as [|[k e] di]; [congruence|]; destruct (proj2 (Hk k)); left; reflexivity).
  assert (Nds2 : ds2 <> []) by (intro; subst; destruct di2 as [|[k e] di2]; [congruence|]; destruct (proj2 (Hk2 k)); left; reflexivity).
  pose proof (proj2 (parse_dict_wf _ _ Es)) as NDs. pose proof (proj2 (parse_dict_wf _ _ Es2)) as NDs2. pose proof (proj2 (parse_dict_wf _ _ Ei)) as NDi.
  exists (im_add ds ds2), (im_add di di2).
  split; [apply (parse_dict_app s s2); assumption|]. split; [apply (parse_dict_app i i2); assumption|].
  split; [intro k; rewrite !im_add_in, Hk, Hk2; reflexivity|].
  pose (P := fun (kv : str * entry) (r : str * sigheaders) => sh_name (snd r) = fst kv /\ sparams_of_entry (snd kv) = Ok (sh_params (snd r))
    /\ exists ps, In (fst kv, EItem (mkItem (BBytes (sh_sig (snd r))) ps)) (im_add ds ds2)).
  change (Forall2 (fun kv kr => fst kr = fst kv /\ P kv kr) (im_add di di2) (im_add l l2)). apply add_pending; [| |assumption].
  - eapply Forall2_impl; [|exact Hp2]. intros kv r (H1 & H2 & H3 & ps & H4). split; [assumption|]. split; [assumption|]. split; [assumption|].
    exists ps. apply BaseFacts.im_get_In. rewrite im_get_add, last_value_nodup by assumption. rewrite (im_get_nodup _ _ _ NDs2 H4). reflexivity.
  - eapply Forall2_impl; [|exact Hp]. intros kv r (H1 & H2 & H3 & ps & H4). split; [assumption|].
    destruct (in_dec (list_eq_dec N.eq_dec) (fst kv) (map fst di2)) as [Hi|Hi]; [left; assumption|right]. split; [assumption|]. split; [assumption|].
    exists ps. apply BaseFacts.im_get_In. rewrite im_get_add. rewrite <- Hk2 in Hi. apply last_value_none in Hi. rewrite Hi. apply im_get_nodup; assumption.
Qed.
Lemma comma_join_app a b : a <> [] -> b <> [] -> comma_join (a ++ b) = comma_join a ++ lit ", " ++ comma_join b.
Proof.
  intros Ha Hb. destruct a as [|x a]; [congruence|]. destruct b as [|y b]; [congruence|]. cbn [comma_join app]. rewrite flat_map_app. cbn [flat_map].
  rewrite <- !app_assoc. reflexivity.
Qed.
Lemma field_lines_app h h' n : field_lines (h ++ h') n = field_lines h n ++ field_lines h' n.
Proof. unfold field_lines. rewrite filter_app, map_app. reflexivity. Qed.
Lemma received_keys m l : received m l -> NoDup (map fst l).
Proof. intro H. apply received_hold in H as (_ & _ & _ & ds & di & _ & Ei & _ & Hp). rewrite (paired_keys _ _ _ Hp). apply (parse_dict_wf _ _ Ei). Qed.
Lemma hold_keys s i l : hold s i l -> NoDup (map fst l).
Proof. intros (ds & di & _ & Ei & _ & Hp). rewrite (paired_keys _ _ _ Hp). apply (parse_dict_wf _ _ Ei). Qed.
Lemma hold_one s : sendable s -> hold (signature_header_value s) (signature_input_header_value s) [(sh_name s, s)].
Proof.
  intro H. assert (Hn : NoDup (map sh_name [s])) by (repeat constructor; intros []). pose proof (headers_parse_back [s] (Forall_cons _ H (Forall_nil _)) Hn) as Hp.
  cbn [map comma_join flat_map] in Hp. rewrite !app_nil_r in Hp. apply hold_spec. exact Hp.
Qed.
(** adding header lines that hold signatures *)
Lemma carries_add m l0 add l : carries m l0 -> l <> [] -> received (msg_set_headers m add) l -> 
  received (msg_set_headers m (msg_headers m ++ add)) (im_add l0 l).
Proof.
  intros H Hl ((Na & Nb) & La & Lb & Hh). rewrite set_headers_get in *. apply header_texts_spec in Hh. unfold received, signed. rewrite set_headers_get, !field_lines_app.
  destruct H as [(-> & -> & ->)|(Hn & (Ma & Mb) & Pa & Pb & Hh0)]; cbn [app].
  - split; [auto|]. split; [assumption|]. split; [assumption|]. rewrite <- im_of_list_add, im_of_list_id by exact (hold_keys _ _ _ Hh). apply header_texts_spec. assumption.
  - split; [split; intro E; apply app_eq_nil in E; tauto|]. split; [apply Forall_app; auto|]. split; [apply Forall_app; auto|].
    rewrite !comma_join_app by assumption. apply header_texts_spec in Hh0. apply header_texts_spec, hold_add; assumption.
Qed.
Lemma sendable_lines s : sendable s -> signature_line s = signature_header_value s /\ input_line s = signature_input_header_value s
  /\ printp (signature_header_value s) /\ printp (signature_input_header_value s).
Proof.
  intro H. pose proof H as (Hk & Ho & Hw). 
  assert (P1 : printp (signature_header_value s)) by (rewrite sig_member_text; apply ser_member_print, sig_member_wf, H).
  assert (P2 : printp (signature_input_header_value s)) by (rewrite (input_member_text _ Hw); apply ser_member_print, input_member_wf, H).
  unfold signature_line, input_line. rewrite <- b64_text_spec by assumption. rewrite <- params_text_spec.
  change (sh_name s ++ lit "=:" ++ b64_encode (sh_sig s) ++ lit ":") with (signature_header_value s). change (sh_name s ++ lit "=" ++ sparams_str (sh_params s)) with (signature_input_header_value s).
  rewrite !printp_utf8 by assumption. auto.
Qed.
Lemma received_one m s : sendable s -> received (msg_set_headers m (pair_lines s)) [(sh_name s, s)].
Proof.
  intro H. destruct (sendable_lines s H) as (E1 & E2 & P1 & P2). unfold received, signed. rewrite set_headers_get.
  change (field_lines (pair_lines s) (lit "signature")) with [signature_line s]. change (field_lines (pair_lines s) (lit "signature-input")) with [input_line s].
  rewrite E1, E2. cbn [comma_join flat_map]. rewrite !app_nil_r. split; [split; discriminate|].
  assert (Hl : forall t, printp t -> legible t) by (intros t Ht; eapply Forall_impl; [|exact Ht]; cbn; lia).
  split; [constructor; auto|]. split; [constructor; auto|]. apply header_texts_spec, hold_one, H.
Qed.
Lemma im_add_one {V} (l : list (str * V)) kv : im_add l [kv] <> [].
Proof. destruct kv as [k v]. cbn [im_add fold_left fst snd]. destruct l as [|[k' v'] l]; cbn [im_insert]; [discriminate|]. destruct (str_eqb k k'); discriminate. Qed.
Lemma carries_batch l : Forall sendable l -> forall m l0, carries m l0 ->
  carries (msg_set_headers m (msg_headers m ++ flat_map pair_lines l)) (im_add l0 (map with_name l)).
Proof.
  induction 1 as [|s l Hs Hl IH]; intros m l0 Hc.
  - cbn [flat_map map]. rewrite app_nil_r, set_same_headers. exact Hc.
  - cbn [flat_map map]. 
    pose proof (carries_add m l0 (pair_lines s) [with_name s] Hc ltac:(discriminate) (received_one m s Hs)) as Hr.
    assert (Hc1 : carries (msg_set_headers m (msg_headers m ++ pair_lines s)) (im_add l0 [with_name s])) by (right; split; [apply im_add_one|exact Hr]).
    specialize (IH _ _ Hc1). rewrite set_headers_get, set_headers_twice, <- app_assoc, <- im_add_app in IH. exact IH.
Qed.

(** ** signature headers do not change what is signed *)
Lemma agree_on_refl i m : agree_on i m m.
Proof. split; [reflexivity|]. destruct (id_name i) as [x|d]; [intros _; left; reflexivity|]. destruct d; auto. Qed.
Lemma agree_refl i m rfp : agree i m rfp m rfp.
Proof. split; [reflexivity|]. split; [intros _; apply agree_on_refl|]. intros _. destruct rfp; [apply agree_on_refl|exact I]. Qed.
Definition signature_name (n : str) : Prop := n = lit "signature-input" \/ n = lit "signature".
Lemma other_lines add n : Forall (fun nv => signature_name (fst nv)) add -> ~ signature_name n -> field_lines add n = [].
Proof.
  intros H Hn. unfold field_lines. induction H as [|[k v] add Hk H IH]; [reflexivity|]. cbn [filter fst] in *.
  destruct (list_eq_dec N.eq_dec k n) as [->|]; [contradiction|assumption].
Qed.
Lemma agree_append m rfp add i : Forall (fun nv => signature_name (fst nv)) add -> not_signature i ->
  agree i m rfp (msg_set_headers m (msg_headers m ++ add)) rfp.
Proof.
  intros Ha Hn. assert (Hk : is_request m = is_request (msg_set_headers m (msg_headers m ++ add))) by (destruct m; reflexivity).
  split; [exact Hk|]. split; [|intros _; destruct rfp; [apply agree_on_refl|exact I]]. intro Hr. split; [exact Hk|].
  destruct Hn as [Hn|Hn]; [contradiction|]. destruct (id_name i) as [x|d].
  - intro Hf. left. rewrite set_headers_get, field_lines_app, (other_lines add), app_nil_r; [reflexivity|assumption|].
    intros [Hx|Hx]; tauto.
  - destruct m; destruct d; try reflexivity; try (split; reflexivity); congruence.
Qed.
Lemma text_same m rfp m' rfp' p t : (forall i, In i (sp_covered p) -> agree i m rfp m' rfp') -> signed_text m rfp p t <-> signed_text m' rfp' p t.
Proof. intro H. rewrite <- !signed_text_spec. rewrite (base_same _ _ _ _ _ H). reflexivity. Qed.
Lemma pair_lines_names l : Forall (fun nv => signature_name (fst nv)) (flat_map pair_lines l).
Proof. induction l as [|s l IH]; [constructor|]. cbn [flat_map pair_lines app]. constructor; [left; reflexivity|]. constructor; [right; reflexivity|assumption]. Qed.
Lemma made_same m rfp m' j h : (forall i, In i (sp_covered (j_params j)) -> agree i m rfp m' rfp) -> made m rfp j h <-> made m' rfp j h.
Proof. intro H. unfold made. split; intros (t & Ht & Hr); exists t; (split; [|assumption]); apply (text_same m rfp m' rfp); assumption. Qed.

(** ** the outcome of signing *)
Lemma made_fun_all m rfp jobs l l' : Forall2 (made m rfp) jobs l -> Forall2 (made m rfp) jobs l' -> l = l'.
Proof. rewrite <- !make_spec. congruence. Qed.
Lemma set_outcome m rfp jobs l : Forall2 (made m rfp) jobs l -> Forall (fun s => Forall octet (sh_sig s)) l ->
  exists k, let m' := msg_set_headers m (msg_headers m ++ flat_map pair_lines (firstn k l)) in
    (k = length l /\ Forall (fun s => header_bytes (input_line s)) l /\ set_message_signatures m rfp jobs = (m', Ok tt))
    \/ (exists s, nth_error l k = Some s /\ ~ header_bytes (input_line s) /\ set_message_signatures m rfp jobs = (m', Err InvalidHeaderValue)).
Proof.
  intros H Ho. apply make_spec in H. unfold set_message_signatures. rewrite H. destruct (append_spec l (msg_headers m) Ho) as (k & Hk). cbv zeta in *. exists k.
  destruct Hk as [(-> & Hl & ->)|(s & Hn & Hb & ->)]; [left; auto|right; exists s; auto].
Qed.
Lemma set_not_made m rfp jobs : (forall l, ~ Forall2 (made m rfp) jobs l) -> exists r, set_message_signatures m rfp jobs = (m, r) /\ r <> Ok tt.
Proof.
  intro H. unfold set_message_signatures. destruct (make_signatures m rfp jobs) as [l|e|q] eqn:E.
  - apply make_spec in E. destruct (H _ E).
  - exists (Err e). split; [reflexivity|discriminate].
  - exists (Panic q). split; [reflexivity|discriminate].
Qed.
Lemma made_dec m rfp jobs : (exists l, Forall2 (made m rfp) jobs l) \/ forall l, ~ Forall2 (made m rfp) jobs l.
Proof.
  destruct (make_signatures m rfp jobs) as [l|e|q] eqn:E; [left; exists l; apply make_spec, E|right|right]; intros l Hl; apply make_spec in Hl; congruence.
Qed.
Lemma made_all_octets m rfp jobs l : Forall2 (made m rfp) jobs l -> (forall j, In j jobs -> octets (j_key j)) -> Forall (fun s => Forall octet (sh_sig s)) l.
Proof.
  induction 1 as [|j s jobs l Hj H IH]; intro Ho; constructor; [eapply made_octets; [|exact Hj]; apply Ho; left; reflexivity|]. apply IH. intros j' Hj'. apply Ho. right. assumption.
Qed.
Lemma set_ok m rfp jobs m' : (forall j, In j jobs -> octets (j_key j)) -> set_message_signatures m rfp jobs = (m', Ok tt) ->
  exists l, Forall2 (made m rfp) jobs l /\ m' = msg_set_headers m (msg_headers m ++ flat_map pair_lines l) /\ Forall (fun s => header_bytes (input_line s)) l.
Proof.
  intros Ho H. destruct (made_dec m rfp jobs) as [[l Hl]|Hn].
  - destruct (set_outcome _ _ _ _ Hl (made_all_octets _ _ _ _ Hl Ho)) as (k & Hk). cbv zeta in Hk. destruct Hk as [(-> & Hh & E)|(s & _ & _ & E)]; rewrite E in H; [|discriminate].
    rewrite firstn_all in H. injection H as <-. exists l. auto.
  - destruct (set_not_made _ _ _ Hn) as (r & E & Hr). rewrite E in H. injection H as _ ->. congruence.
Qed.
Lemma proper_sendable m rfp jobs l : Forall proper_job jobs -> Forall2 (made m rfp) jobs l -> Forall sendable l.
Proof.
  intros Hp H. induction H as [|j s jobs l Hj H IH]; [constructor|]. apply Forall_cons_iff in Hp as [(H1 & H2 & H3 & H4) Hp]. constructor; [|auto].
  pose proof (made_octets _ _ _ _ H1 Hj) as Ho. destruct Hj as (t & _ & _ & Hn & Hq). unfold sendable. rewrite Hn, Hq. auto.
Qed.
Lemma proper_made_same m rfp add jobs l : Forall proper_job jobs -> Forall (fun nv => signature_name (fst nv)) add ->
  Forall2 (made (msg_set_headers m (msg_headers m ++ add)) rfp) jobs l <-> Forall2 (made m rfp) jobs l.
Proof.
  intros Hp Ha. assert (Hj : forall j s, In j jobs -> made m rfp j s <-> made (msg_set_headers m (msg_headers m ++ add)) rfp j s).
  { intros j s Hj. apply made_same. intros i Hi. apply agree_append; [assumption|]. rewrite Forall_forall in Hp. destruct (Hp j Hj) as (_ & _ & _ & Hc).
    rewrite Forall_forall in Hc. auto. }
  clear Hp. split; intro H; induction H as [|j s jobs l Hs H IH]; constructor; try (apply Hj; [left; reflexivity|assumption]); apply IH; intros j' s' Hj'; apply Hj; right; assumption.
Qed.
Lemma history_spec rfp m calls m' : history rfp m calls m' -> Forall proper_job (concat calls) ->
  exists l, Forall2 (made m rfp) (concat calls) l /\ m' = msg_set_headers m (msg_headers m ++ flat_map pair_lines l) /\ Forall sendable l.
Proof.
  induction 1 as [m|m jobs m1 calls m2 Hs H IH]; cbn [concat]; intro Hp.
  - exists []. split; [constructor|]. cbn [flat_map]. rewrite app_nil_r, set_same_headers. auto.
  - apply Forall_app in Hp as [Hp1 Hp2].
    destruct (set_ok m rfp jobs m1) as (l & Hl & -> & _); [intros j Hj; rewrite Forall_forall in Hp1; apply (Hp1 j Hj)|assumption|].
    destruct (IH Hp2) as (l2 & Hl2 & -> & Hs2). exists (l ++ l2). split; [|split].
    + apply Forall2_app; [assumption|]. apply proper_made_same in Hl2; [assumption|assumption|apply pair_lines_names].
    + rewrite set_headers_get, set_headers_twice, flat_map_app, <- app_assoc. reflexivity.
    + apply Forall_app. split; [exact (proper_sendable _ _ _ _ Hp1 Hl)|assumption].
Qed.
Lemma history_carries rfp m calls m' l0 : history rfp m calls m' -> Forall proper_job (concat calls) -> carries m l0 ->
  exists l, Forall2 (made m rfp) (concat calls) l /\ carries m' (im_add l0 (map with_name l))
  /\ Forall2 (made m' rfp) (concat calls) l.
Proof.
  intros H Hp Hc. destruct (history_spec _ _ _ _ H Hp) as (l & Hl & -> & Hs). exists l. split; [assumption|]. split; [apply carries_batch; assumption|].
  apply proper_made_same; [assumption|apply pair_lines_names|assumption].
Qed.
Lemma made_names m rfp jobs l : Forall2 (made m rfp) jobs l -> map sh_name l = map job_name jobs.
Proof. induction 1 as [|j s jobs l (t & _ & _ & Hn & _) H IH]; [reflexivity|]. cbn [map]. rewrite Hn, IH. reflexivity. Qed.
Lemma im_add_fresh {V} (a b : list (str * V)) : NoDup (map fst a ++ map fst b) -> im_add a b = a ++ b.
Proof. intro H. apply im_fold_app. rewrite map_app. assumption. Qed.
Lemma fst_with_name l : map fst (map with_name l) = map sh_name l.
Proof. rewrite map_map. reflexivity. Qed.
