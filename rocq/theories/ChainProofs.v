(** Signatures that cover other signatures *)
From Verif Require Import Base BaseFacts Utf8 Utf8Facts TextFacts Sfv SfvFacts SfvRound SpecSfv SpecSfvProofs SpecGrammar GrammarProofs SpecCanon CanonProofs Component Crypto Params SigBase Http Hyper SpecId SpecParams SpecValue ValueProofs SpecBase SpecMsg HeaderProofs MsgProofs VerifyProofs SpecExtract ExtractProofs TamperProofs FrameProofs SpecSign SignProofs RfcProofs SpecChain.

(** ** the lines that are added *)
Lemma one_member kv : wf_member kv -> dict_field [kv] (ser_member kv).
Proof. intro H. apply parse_dict_spec. apply (parse_dict_round [kv]). split; [constructor; [assumption|constructor]|]. constructor; [intros []|constructor]. Qed.
(** no token: what is no member of a dictionary, too *)
Definition plain (e : entry) : Prop := forall t ps, e <> EItem (mkItem (BTok t) ps).
Definition member_line (s : sigheaders) (x : str) : Prop := exists e, dict_field [(sh_name s, e)] x /\ plain e.
Definition holds (s : sigheaders) (x : bytes) : Prop := legible x /\ member_line s x.
Lemma new_lines l fn : Forall sendable l -> fn = lit "signature" \/ fn = lit "signature-input" -> Forall2 holds l (field_lines (flat_map pair_lines l) fn).
Proof.
  intros H Hf. induction H as [|s l Hs _ IH]; [constructor|]. cbn [flat_map]. rewrite field_lines_app. destruct (sendable_lines s Hs) as (E1 & E2 & P1 & P2).
  assert (E : field_lines (pair_lines s) fn = [signature_line s] /\ holds s (signature_line s) \/ field_lines (pair_lines s) fn = [input_line s] /\ holds s (input_line s)).
  { destruct Hf as [-> | ->]; [left|right]; (split; [reflexivity|]); [rewrite E1|rewrite E2]; (split; [apply legible_print; assumption|]).
    - eexists. rewrite sig_member_text. split; [apply one_member, sig_member_wf, Hs|discriminate].
    - eexists. rewrite (input_member_text _ (proj2 (proj2 Hs))). split; [apply one_member, input_member_wf, Hs|discriminate]. }
  destruct E as [[-> E]|[-> E]]; constructor; assumption.
Qed.
Lemma holds_lines l xs : Forall2 holds l xs -> Forall legible xs /\ Forall2 member_line l xs.
Proof. induction 1 as [|s x l xs [H1 H2] _ [I1 I2]]; split; constructor; assumption. Qed.
Lemma members_added k l xs : Forall2 member_line l xs -> ~ In k (map sh_name l) -> member_texts k xs [].
Proof.
  induction 1 as [|s x l xs (e & Hd & _) _ IH]; [constructor|]. cbn [map In]. intro Hk. apply (mt_skip k x [(sh_name s, e)]); [exact Hd|cbn [map fst In]; tauto|tauto].
Qed.
(** the canonical text denotes the same dictionary *)
Lemma canonical_dict kv d x y : dict_field (kv :: d) x -> canonical x y -> dict_field (kv :: d) y.
Proof.
  intros Hd Hc. destruct (signed_line x) as (m & m0 & t & _ & H1 & _ & H2 & H3 & H4 & H5); [exists kv, d; exact Hd|]. rewrite (canonical_fun _ _ _ Hc H3).
  apply dict_raw in Hd as (m1 & H6 & E). rewrite (members_one _ _ _ H6 H1) in E. rewrite E, <- H2. apply dict_raw. exists m. split; [apply members_round; assumption|reflexivity].
Qed.
Lemma member_lines_sf l xs ys : Forall2 member_line l xs -> Forall2 canonical xs ys -> Forall2 member_line l ys.
Proof.
  intro H. revert ys. induction H as [|s x l xs (e & Hd & He) _ IH]; intros ys Hy; inversion Hy as [|? y ? ys' H1 H2]; subst; constructor; [|auto].
  exists e. split; [eapply canonical_dict; eassumption|exact He].
Qed.
Lemma member_lines_canonical l xs : Forall2 member_line l xs -> exists ys, Forall2 canonical xs ys.
Proof.
  induction 1 as [|s x l xs (e & Hd & _) _ (ys & IH)]; [exists []; constructor|]. destruct (signed_line x) as (_ & _ & t & _ & _ & _ & _ & H & _); [exists (sh_name s, e), []; exact Hd|].
  exists (t :: ys). constructor; assumption.
Qed.
Lemma member_texts_app k a b o o' : member_texts k a o -> member_texts k b o' -> member_texts k (a ++ b) (o ++ o').
Proof. induction 1; intro Hb; cbn [app]; [assumption|eapply mt_take; eauto|eapply mt_skip; eauto]. Qed.
(** sf and then a member with another name: the new lines are dropped *)
Lemma processed_added s k ps l xs : Forall2 member_line l xs -> ~ In k (map sh_name l) -> forall ls out,
  processed (repeat Sf s ++ Key k :: ps) ls out -> processed (repeat Sf s ++ Key k :: ps) (ls ++ xs) out.
Proof.
  intros Hx Hk. revert xs Hx. induction s as [|s IH]; intros xs Hx ls out H; cbn [repeat app] in *.
  - inversion H as [| | |? ? ? vs' ? Hm Hq]; subst. apply (pr_key k ps _ vs'); [|exact Hq]. rewrite <- (app_nil_r vs'). apply member_texts_app; [exact Hm|eapply members_added; eassumption].
  - inversion H as [| |? ? vs' ? Hc Hq|]; subst. destruct (member_lines_canonical _ _ Hx) as (ys & Hy). apply (pr_sf _ _ (vs' ++ ys)); [apply Forall2_app; assumption|].
    apply IH; [eapply member_lines_sf; eassumption|exact Hq].
Qed.
Lemma added_value m rfp l i v : Forall sendable l -> steady (map sh_name l) i -> message_value m rfp i v ->
  message_value (msg_set_headers m (msg_headers m ++ flat_map pair_lines l)) rfp i v.
Proof.
  intros Hl Hs H. destruct Hs as [Hn|Hs].
  { apply message_value_spec. apply message_value_spec in H. rewrite <- (line_same _ _ _ _ _ (agree_append m rfp _ i (pair_lines_names l) Hn)). exact H. }
  destruct H as [[Hr H]|[Hr (x & r & -> & -> & H)]]; [left; split; [exact Hr|]|right; split; [exact Hr|]; do 2 eexists; split; [reflexivity|]; split; [reflexivity|exact H]].
  assert (Hown : forall h u, own_params h u -> own_params (h ++ flat_map pair_lines l) u).
  { intros h u (w & ws & k & E & Hw). exists w, (ws ++ field_lines (flat_map pair_lines l) (lit "signature-input")), k. rewrite field_lines_app, E. split; [reflexivity|exact Hw]. }
  unfold own_value in *. destruct Hs as [E|(n & s & k & ps & -> & Hk)].
  - rewrite E in *. destruct m as [q|y]; cbn [msg_set_headers msg_headers] in *.
    + destruct H as [H1 H2]. split; [exact H1|]. cbn [rq_headers]. auto.
    + destruct H as [H1 [[H2 _]|[H2 H3]]]; [discriminate|]. split; [exact H1|]. right. cbn [rs_headers]. auto.
  - cbn [id_name id_params] in *. destruct H as (ls & out & Hh & Hg & Hp & ->). rewrite set_headers_get. destruct Hh as [[Hf E]|[Hf ->]].
    2:{ exists [], out. split; [right; auto|]. auto. }
    destruct (list_eq_dec N.eq_dec (lower n) (lit "signature")) as [En|Nn]; [|destruct (list_eq_dec N.eq_dec (lower n) (lit "signature-input")) as [En|Ni]].
    1,2: destruct (holds_lines _ _ (new_lines l (lower n) Hl ltac:(auto))) as [Hy Hx]; exists (ls ++ field_lines (flat_map pair_lines l) (lower n)), out;
      (split; [left; split; [exact Hf|rewrite field_lines_app, <- E; reflexivity]|]);
      (split; [apply Forall_app; split; [exact Hg|exact Hy]|]);
      (split; [|reflexivity]); apply (processed_added s k ps l); assumption.
    exists ls, out. split; [left; split; [exact Hf|]|auto]. rewrite field_lines_app, (other_lines (flat_map pair_lines l)), app_nil_r; [exact E|apply pair_lines_names|]. intros [H|H]; contradiction.
Qed.
Lemma added_text m rfp l p t : Forall sendable l -> Forall (steady (map sh_name l)) (sp_covered p) -> signed_text m rfp p t ->
  signed_text (msg_set_headers m (msg_headers m ++ flat_map pair_lines l)) rfp p t.
Proof.
  intros Hl Hs (vs & Hv & ->). exists vs. split; [|reflexivity]. induction Hv as [|i v is vs Hi Hv IH]; [constructor|]. inversion Hs; subst. constructor; [|auto]. apply added_value; assumption.
Qed.

(** ** values that change *)
Lemma join_longer a b : Forall (fun x : str => x <> []) b -> comma_join (a ++ b) = comma_join a -> b = [].
Proof.
  intros Hb E. destruct b as [|y b]; [reflexivity|]. exfalso. inversion Hb as [|? ? Hy _]; subst. destruct a as [|x a].
  - cbn [app comma_join] in E. apply app_eq_nil in E as [E _]. contradiction.
  - rewrite comma_join_app in E by discriminate. apply (f_equal (@length N)) in E. rewrite !app_length in E. change (length (lit ", ")) with 2%nat in E. lia.
Qed.
Lemma dict_nonempty kv x : dict_field [kv] x -> x <> [].
Proof. intros H ->. apply parse_dict_spec in H. discriminate H. Qed.
Lemma member_text_nonempty k vs out : member_texts k vs out -> Forall (fun x : str => x <> []) out.
Proof.
  induction 1 as [|v d e t vs ts Hd Hi Hc _ IH|]; [constructor| |assumption]. constructor; [|exact IH]. apply parse_dict_spec in Hd. apply parse_dict_wf in Hd as [Hw _]. rewrite Forall_forall in Hw. specialize (Hw _ Hi) as [_ Hw].
  pose proof (proj1 (canon_entry_spec e t (proj1 (entry_value_spec e) Hw)) Hc) as <-. pose proof (ser_entry_head e Hw) as Hh. destruct (ser_entry e); [destruct Hh|discriminate].
Qed.
Lemma member_texts_split k a b o : member_texts k (a ++ b) o -> exists o1 o2, o = o1 ++ o2 /\ member_texts k a o1 /\ member_texts k b o2.
Proof.
  revert o. induction a as [|x a IH]; intros o H; [exists [], o; split; [reflexivity|split; [constructor|exact H]]|]. cbn [app] in H. inversion H as [|? d e t ? ts H1 H2 H3 H4|? d ? ts H1 H2 H4]; subst.
  - apply IH in H4 as (o1 & o2 & -> & I1 & I2). exists (t :: o1), o2. split; [reflexivity|]. split; [eapply mt_take; eassumption|exact I2].
  - apply IH in H4 as (o1 & o2 & -> & I1 & I2). exists o1, o2. split; [reflexivity|]. split; [eapply mt_skip; eassumption|exact I2].
Qed.
Lemma member_texts_fun k vs o o' : member_texts k vs o -> member_texts k vs o' -> o = o'.
Proof. intros H H'. apply handle_key_spec in H, H'. congruence. Qed.
Lemma member_lines_key k l xs ts : Forall2 member_line l xs -> member_texts k xs ts ->
  (ts = [] -> ~ In k (map sh_name l)) /\ Forall (fun t => exists e, list_field [e] t /\ plain e) ts.
Proof.
  intro H. revert ts. induction H as [|s x l xs (e & Hd & He) _ IH]; intros ts Ht; [inversion Ht; split; [intros _ []|constructor]|].
  inversion Ht as [|? d e' t ? ts' H1 H2 H3 H4|? d ? ? H1 H2 H3]; subst; rewrite (dict_one _ _ _ H1 Hd) in H2.
  - destruct (IH _ H4) as [_ I2]. destruct H2 as [E|[]]. injection E as _ <-. split; [discriminate|]. constructor; [|exact I2]. exists e. split; [|exact He].
    apply parse_dict_spec, parse_dict_wf in Hd as [Hw _]. inversion Hw as [|? ? [_ W] _]; subst. cbn [snd] in W. apply (canon_entry_spec e t) in H3; [|apply entry_value_spec; exact W]. subst t.
    apply parse_list_spec. apply (parse_list_round [e]). constructor; [exact W|constructor].
  - destruct (IH _ H3) as [I1 I2]. split; [|exact I2]. intros E [F|F]; [|exact (I1 E F)]. apply H2. left. exact F.
Qed.
(** one entry that is no token is no dictionary, and stays what it is *)
Lemma lone_no_dict e t d : list_field [e] t -> plain e -> ~ dict_field d t.
Proof. intros H He Hd. apply dict_raw in Hd as (m & Hm & _). pose proof (both_fields _ _ _ H Hm) as B. inversion B as [|? kv ? ? (ps & E & _) _]; subst. exact (He _ _ eq_refl). Qed.
Lemma lone_processed ps : forall ts out, Forall (fun t => exists e, list_field [e] t /\ plain e) ts -> processed ps ts out -> ts <> [] ->
  out <> [] /\ Forall (fun t : str => t <> []) out.
Proof.
  induction ps as [|p ps IH]; intros ts out Ht H Hn.
  - inversion H; subst. split; [exact Hn|]. eapply Forall_impl; [|exact Ht]. cbv beta. intros t (e & He & _) ->. apply parse_list_spec in He. discriminate He.
  - inversion H as [|? ? ? H1|? ? vs ? C1 H1|k ? ? vs ? C1 H1]; subst; [exact (IH _ _ Ht H1 Hn)| |].
    + apply (IH _ _) with (2 := H1); [|intros ->; inversion C1; subst; contradiction]. clear -Ht C1. induction C1 as [|t u ts us Hc _ IHc]; [constructor|]. inversion Ht as [|? ? (e & He & Hp) Ht']; subst.
      constructor; [|auto]. exists e. split; [|exact Hp]. apply canonical_same_value in Hc as [(l & L1 & L2)|(d & D1 & _)]; [|destruct (lone_no_dict _ _ _ He Hp D1)].
      apply parse_list_spec in L1, He. assert (l = [e]) as -> by congruence. exact L2.
    + exfalso. destruct ts as [|t ts]; [contradiction|]. inversion Ht as [|? ? (e & He & Hp) _]; subst. inversion C1; subst; eapply lone_no_dict; eassumption.
Qed.
Lemma processed_split ps : forall a b o, processed ps (a ++ b) o -> exists o1 o2, o = o1 ++ o2 /\ processed ps a o1 /\ processed ps b o2.
Proof.
  induction ps as [|p ps IH]; intros a b o H; inversion H as [|? ? ? H1|? ? vs ? C1 H1|k ? ? vs ? C1 H1]; subst.
  - exists a, b. split; [reflexivity|split; constructor].
  - destruct (IH _ _ _ H1) as (o1 & o2 & -> & I1 & I2). exists o1, o2. split; [reflexivity|split; constructor; assumption].
  - apply Forall2_app_inv_l in C1 as (c & d & Cc & Cd & ->). destruct (IH _ _ _ H1) as (o1 & o2 & -> & I1 & I2). exists o1, o2. split; [reflexivity|]. split; eapply pr_sf; eassumption.
  - apply member_texts_split in C1 as (c & d & -> & Cc & Cd). destruct (IH _ _ _ H1) as (o1 & o2 & -> & I1 & I2). exists o1, o2. split; [reflexivity|]. split; eapply pr_key; eassumption.
Qed.
Lemma canonical_all_fun a b b' : Forall2 canonical a b -> Forall2 canonical a b' -> b = b'.
Proof. intro H. revert b'. induction H as [|x y a b Hx _ IH]; intros b' H'; inversion H' as [|? y' ? b1 Hy H1]; subst; [reflexivity|]. rewrite (canonical_fun _ _ _ Hx Hy), (IH _ H1). reflexivity. Qed.
Lemma processed_fun ps : forall a o o', processed ps a o -> processed ps a o' -> o = o'.
Proof.
  induction ps as [|p ps IH]; intros a o o' H H'; inversion H as [|? ? ? H1|? ? vs ? C1 H1|k ? ? vs ? C1 H1]; subst; inversion H' as [|? ? ? H2|? ? vs2 ? C2 H2|k2 ? ? vs2 ? C2 H2]; subst; [reflexivity|eauto| |].
  - rewrite (canonical_all_fun _ _ _ C1 C2) in H1. eauto.
  - rewrite (member_texts_fun _ _ _ _ C1 C2) in H1. eauto.
Qed.
(** the new lines leave nothing behind only where a member with another name is taken, after sf *)
Lemma member_lines_processed ps : forall l xs out, ~ In Req ps -> l <> [] -> Forall2 member_line l xs -> processed ps xs out -> Forall (fun t : str => t <> []) out
  /\ (out = [] -> exists s k rest, ps = repeat Sf s ++ Key k :: rest /\ ~ In k (map sh_name l)).
Proof.
  induction ps as [|p ps IH]; intros l xs out Hr Hl Hx H; inversion H as [|? ? ? H1|? ? vs ? C1 H1|k ? ? vs ? C1 H1]; subst.
  - split; [|intros ->; inversion Hx; subst; contradiction]. clear -Hx. induction Hx as [|s x l xs (e & Hd & _) _ IH]; constructor; [exact (dict_nonempty _ _ Hd)|exact IH].
  - destruct Hr. left. reflexivity.
  - destruct (IH l vs out) as [I1 I2]; [intro Hi; apply Hr; right; exact Hi|exact Hl|eapply member_lines_sf; eassumption|exact H1|]. split; [exact I1|].
    intro E. destruct (I2 E) as (s & k & rest & -> & Hk). exists (S s), k, rest. auto.
  - destruct (member_lines_key _ _ _ _ Hx C1) as [K1 K2]. destruct vs as [|v vs].
    + assert (out = []) as -> by (clear -H1; remember [] as e eqn:E; induction H1 as [|? ? ? ? IH|? ? ? ? C _ IH|? ? ? ? ? C _ IH]; subst; auto; inversion C; subst; auto).
      split; [constructor|]. intros _. exists 0%nat, k, ps. auto.
    + destruct (lone_processed _ _ _ K2 H1 ltac:(discriminate)) as [L1 L2]. split; [exact L2|]. intro E. contradiction.
Qed.
(** the names of the signature headers are field names, in any case *)
Lemma signature_name n : signature_field n -> field_name n.
Proof.
  intro H. assert (Ht : Forall tchar (lower n) /\ (length (lower n) < 20)%nat /\ lower n <> []).
  { assert (F : forall s, forallb is_tchar s = true -> Forall tchar s) by (intros s Hs; rewrite forallb_forall in Hs; apply Forall_forall; intros c Hc; apply is_tchar_spec, Hs, Hc).
    destruct H as [-> | ->]; (split; [apply F; reflexivity|split; [apply Nat.ltb_lt; reflexivity|discriminate]]). }
  clear H. unfold lower in Ht. rewrite map_length in Ht. destruct Ht as (H1 & H2 & H3). split; [intros ->; apply H3; reflexivity|]. split; [|lia]. clear -H1.
  induction n as [|c n IH]; [constructor|]. cbn [map] in H1. inversion H1 as [|? ? Hc Hr]; subst. constructor; [|auto].
  destruct ((65 <=? c) && (c <=? 90)) eqn:E; [|exact Hc]. apply andb_prop in E as [E1 E2]. apply N.leb_le in E1, E2. left. unfold alpha. lia.
Qed.
