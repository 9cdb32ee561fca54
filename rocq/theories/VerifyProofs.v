(** Verification of messages *)
From Coq Require Import ZifyBool ZifyNat ZifyN Permutation.
From Verif Require Import Base BaseFacts Utf8 Base64 Base64Facts Sfv SfvFacts SfvRound TextFacts SpecSfv SpecSfvProofs SpecGrammar GrammarProofs SpecCanon CanonProofs Component Crypto Params SigBase SpecId IdProofs SpecParams ParamsProofs SpecValue ValueProofs Http Hyper SpecBase BaseProofs SpecIdText IdTextProofs SpecMsg HeaderProofs MsgProofs.

(** ** candidates *)
Lemma candidates_fun m rfp kid l cs : candidates m rfp kid l cs -> forall cs', candidates m rfp kid l cs' -> cs = cs'.
Proof.
  induction 1 as [|n h b l cs Hb Hk H IH|n h l cs Hs H IH]; intros cs' H'; inversion H' as [|n' h' b' l' cs'' Hb' Hk' H''|n' h' l' cs'' Hs' H'']; subst.
  - reflexivity.
  - rewrite (IH _ H''). congruence.
  - exfalso. destruct Hs' as [Hs'|(k & Hk1 & Hk2)]; [exact (Hs' b Hb)|]. apply Hk2, Hk, Hk1.
  - exfalso. destruct Hs as [Hs|(k & Hk1 & Hk2)]; [exact (Hs b' Hb')|]. apply Hk2, Hk', Hk1.
  - auto.
Qed.
Lemma candidates_exist m rfp kid l : exists cs, candidates m rfp kid l cs.
Proof.
  induction l as [|[n h] l [cs IH]]; [exists []; constructor|].
  destruct (build_signature_base m (sh_params h) rfp) as [b|e|q] eqn:Eb.
  - assert (Hk : (forall k, kid = Some k -> sp_keyid (sh_params h) = Some k) \/ exists k, kid = Some k /\ sp_keyid (sh_params h) <> Some k).
    { destruct kid as [k|]; [|left; intros; discriminate]. destruct (sp_keyid (sh_params h)) as [k'|].
      - destruct (list_eq_dec N.eq_dec k' k) as [->|Hn]; [left; intros x Hx; inv Hx; reflexivity|right; exists k; split; congruence].
      - right. exists k. split; [reflexivity|discriminate]. }
    destruct Hk as [Hk|Hk]; eexists; [apply cand_take; eassumption|apply cand_skip; [right; exact Hk|exact IH]].
  - exists cs. apply cand_skip; [left; congruence|exact IH].
  - exists cs. apply cand_skip; [left; congruence|exact IH].
Qed.
Lemma candidates_in m rfp kid l cs n b h : candidates m rfp kid l cs -> In (n, (b, h)) cs ->
  In (n, h) l /\ build_signature_base m (sh_params h) rfp = Ok b /\ (forall k, kid = Some k -> sp_keyid (sh_params h) = Some k).
Proof.
  induction 1 as [|n' h' b' l cs Hb Hk H IH|n' h' l cs Hs H IH]; intro Hi; [destruct Hi| |].
  - destruct Hi as [Hi|Hi]; [inv Hi; auto using in_eq|]. destruct (IH Hi) as (H1 & H2 & H3). auto using in_cons.
  - destruct (IH Hi) as (H1 & H2 & H3). auto using in_cons.
Qed.
Lemma candidates_of m rfp kid l cs n b h : candidates m rfp kid l cs -> In (n, h) l -> build_signature_base m (sh_params h) rfp = Ok b ->
  (forall k, kid = Some k -> sp_keyid (sh_params h) = Some k) -> In (n, (b, h)) cs.
Proof.
  induction 1 as [|n' h' b' l cs Hb Hk H IH|n' h' l cs Hs H IH]; intros Hi Hb0 Hk0; [destruct Hi| |].
  - destruct Hi as [Hi|Hi]; [inv Hi; left; congruence|right; auto].
  - destruct Hi as [Hi|Hi]; [|auto]. inv Hi. exfalso. destruct Hs as [Hs|(k & H1 & H2)]; [exact (Hs _ Hb0)|]. apply H2, Hk0, H1.
Qed.
Lemma candidates_names m rfp kid l cs : candidates m rfp kid l cs -> NoDup (map fst l) -> NoDup (map fst cs).
Proof.
  intros H Hn. assert (Hin : forall x, In x (map fst cs) -> In x (map fst l)).
  { intros x Hx. apply in_map_iff in Hx as ([n [b h]] & <- & Hi). eapply candidates_in in Hi as (Hi & _); [|exact H]. apply (in_map fst) in Hi. exact Hi. }
  clear Hin. induction H as [|n h b l cs Hb Hk H IH|n h l cs Hs H IH]; [constructor| |]; cbn [map fst] in *; inversion Hn as [|? ? Hx Hl]; subst; [|auto].
  constructor; [|auto]. intro Hi. apply Hx. apply in_map_iff in Hi as ([n' [b' h']] & <- & Hi). eapply candidates_in in Hi as (Hi & _); [|exact H].
  apply (in_map fst) in Hi. exact Hi.
Qed.
Lemma candidates_app m rfp kid l1 l2 c1 c2 : candidates m rfp kid l1 c1 -> candidates m rfp kid l2 c2 -> candidates m rfp kid (l1 ++ l2) (c1 ++ c2).
Proof. intros H1 H2. induction H1; cbn [app]; [assumption|apply cand_take; assumption|apply cand_skip; assumption]. Qed.

(** ** extraction *)
Lemma first_panic_none {E A} (l : list (result E A)) : (forall x q, In x l -> x <> Panic q) -> first_panic l = None.
Proof.
  induction l as [|x l IH]; intro H; [reflexivity|]. cbn [first_panic]. destruct x as [a|e|q].
  - apply IH. intros; apply H; right; assumption.
  - apply IH. intros; apply H; right; assumption.
  - exfalso. exact (H (Panic q) q (or_introl eq_refl) eq_refl).
Qed.
Lemma first_panic_some {E A} (l : list (result E A)) q : first_panic l = Some q -> In (Panic q) l.
Proof. induction l as [|x l IH]; cbn; [discriminate|]. destruct x; intro H; auto. inv H. auto. Qed.
Lemma filter_map_candidates m rfp l : candidates m rfp None l
  (filter_map (fun nh : str * sigheaders => match build_signature_base m (sh_params (snd nh)) rfp with Ok b => Some (fst nh, (b, snd nh)) | _ => None end) l).
Proof.
  induction l as [|[n h] l IH]; [constructor|]. cbn [filter_map fst snd].
  destruct (build_signature_base m (sh_params h) rfp) eqn:E.
  - apply cand_take; [assumption|discriminate|assumption].
  - apply cand_skip; [left; congruence|assumption].
  - apply cand_skip; [left; congruence|assumption].
Qed.
Lemma extract_signatures_spec m rfp cs : extract_signatures m rfp = Ok cs <-> exists l, received m l /\ candidates m rfp None l cs.
Proof.
  unfold extract_signatures. split.
  - destruct (extract_signature_headers_with_name m) as [l|e|q] eqn:E; cbn [bind]; try discriminate. apply extract_spec in E.
    destruct (first_panic _); [discriminate|]. intro H. inv H. exists l. split; [assumption|].
    pose proof (filter_map_candidates m rfp l) as Hc. rewrite im_of_list_id; [exact Hc|].
    eapply candidates_names; [exact Hc|]. eapply received_names, E.
  - intros (l & Hl & Hc). rewrite (proj2 (extract_spec m l) Hl). cbn [bind].
    rewrite first_panic_none.
    2:{ intros x q Hx. apply in_map_iff in Hx as (nh & <- & _). apply base_panic. }
    pose proof (filter_map_candidates m rfp l) as Hc'. rewrite im_of_list_id; [f_equal; eapply candidates_fun; eassumption|].
    eapply candidates_names; [exact Hc'|]. eapply received_names, Hl.
Qed.
Lemma extract_signatures_fail m rfp : (forall l, ~ received m l) -> 
  (exists e, extract_signature_headers_with_name m = Err e /\ extract_signatures m rfp = Err e)
  \/ (exists q, extract_signature_headers_with_name m = Panic q /\ extract_signatures m rfp = Panic q).
Proof.
  intro H. unfold extract_signatures. destruct (extract_signature_headers_with_name m) as [l|e|q] eqn:E; cbn [bind]; eauto.
  apply extract_spec in E. destruct (H l E).
Qed.
Lemma has_signature_spec m : has_message_signature m = true <-> signed m.
Proof. unfold has_message_signature. rewrite andb_comm. apply signed_spec. Qed.
Lemma extract_signatures_unsigned m rfp : ~ signed m -> extract_signatures m rfp = Err NoSignatureHeaders.
Proof. intro H. unfold extract_signatures. rewrite extract_unsigned by assumption. reflexivity. Qed.
Lemma verify_unfold clk m rfp keys : verify_message_signatures clk m rfp keys = bind (extract_signatures m rfp) (fun l => verify_message_signatures_inner clk l keys).
Proof.
  unfold verify_message_signatures. destruct (has_message_signature m) eqn:E; [reflexivity|]. cbn [negb].
  rewrite extract_signatures_unsigned; [reflexivity|]. intro H. apply has_signature_spec in H. congruence.
Qed.
Lemma verify_single clk m rfp key kid : verify_message_signature clk m rfp key kid = bind (extract_signatures m rfp) (fun l => verify_one (clk 0%nat) l key kid).
Proof.
  unfold verify_message_signature. rewrite verify_unfold. destruct (extract_signatures m rfp) as [l|e|q]; cbn [bind]; try reflexivity.
  unfold verify_message_signatures_inner. cbn [mapi fst snd]. unfold join_all. cbn [first_panic].
  destruct (verify_one (clk 0%nat) l key kid); cbn [bind rev app]; reflexivity.
Qed.

(** ** one key *)
Definition kid_filter (kid : option str) (l : list (str * (sigbase * sigheaders))) : list (str * (sigbase * sigheaders)) :=
  match kid with Some k => filter (fun x => option_eqb str_eqb (base_keyid (fst (snd x))) (Some k)) l | None => l end.
Lemma option_eqb_str (a : option str) k : option_eqb str_eqb a (Some k) = true <-> a = Some k.
Proof. destruct a; cbn; [|split; discriminate]. rewrite str_eqb_eq. split; congruence. Qed.
Lemma kid_filter_candidates m rfp kid l cs : candidates m rfp None l cs -> candidates m rfp kid l (kid_filter kid cs).
Proof.
  destruct kid as [k|]; [|exact (fun H => H)]. cbn [kid_filter].
  induction 1 as [|n h b l cs Hb Hk H IH|n h l cs Hs H IH]; [constructor| |].
  - cbn [filter fst snd]. assert (E : base_keyid b = sp_keyid (sh_params h)) by (unfold base_keyid; apply build_base_ids in Hb as [_ ->]; reflexivity).
    rewrite E. destruct (option_eqb str_eqb (sp_keyid (sh_params h)) (Some k)) eqn:Ek.
    + apply option_eqb_str in Ek. apply cand_take; [assumption| |assumption]. intros k' Hk'. inv Hk'. assumption.
    + apply cand_skip; [|assumption]. right. exists k. split; [reflexivity|]. intro Hx. apply option_eqb_str in Hx. congruence.
  - apply cand_skip; [|assumption]. destruct Hs as [Hs|(k' & Hk & _)]; [left; assumption|discriminate].
Qed.
Definition check (clk : nat -> N) (key : verifying_key) (j : nat) (x : str * (sigbase * sigheaders)) : str * result err unit :=
  (fst x, verify_signature_headers (clk j) (fst (snd x)) key (snd (snd x))).
Lemma expired_dec now h : expired now h \/ ~ expired now h.
Proof.
  unfold expired. destruct (sp_expires (sh_params h)) as [e|].
  - destruct (N.lt_ge_cases e now); [left; eauto|right; intros (x & Hx & Hl); inv Hx; lia].
  - right. intros (e & H & _). discriminate.
Qed.
Lemma is_expired_spec now h : is_expired now (sh_params h) = true <-> expired now h.
Proof.
  unfold is_expired, expired. destruct (sp_expires (sh_params h)) as [e|]; [|split; [discriminate|intros (e & H & _); discriminate]].
  rewrite N.ltb_lt. split; [eauto|]. intros (x & Hx & Hl). inv Hx. assumption.
Qed.
Lemma check_ok now b key h u : verify_signature_headers now b key h = Ok u <-> accepted now key b h.
Proof.
  unfold verify_signature_headers, accepted. pose proof (is_expired_spec now h) as He. destruct (is_expired now (sh_params h)).
  - split; [discriminate|]. intros [H _]. exfalso. apply H, He, eq_refl.
  - destruct u. split; [intro H|tauto]. split; [|assumption]. intro Hx. apply He in Hx. discriminate.
Qed.
Lemma check_panic now b key h : (exists q, verify_signature_headers now b key h = Panic q) <-> crashes now key b h.
Proof.
  unfold verify_signature_headers, crashes. pose proof (is_expired_spec now h) as He. destruct (is_expired now (sh_params h)).
  - split; [intros [q H]; discriminate|]. intros [H _]. exfalso. apply H, He, eq_refl.
  - split; [intro H|tauto]. split; [|assumption]. intro Hx. apply He in Hx. discriminate.
Qed.
Lemma mapi_nth {A B} (f : nat -> A -> B) l : forall i j, nth_error (mapi f i l) j = option_map (f (i + j)%nat) (nth_error l j).
Proof.
  induction l as [|x l IH]; intros i j; [destruct j; reflexivity|]. destruct j; cbn [mapi nth_error].
  - rewrite Nat.add_0_r. reflexivity.
  - rewrite IH. f_equal. f_equal. lia.
Qed.
Lemma mapi_length {A B} (f : nat -> A -> B) l : forall i, length (mapi f i l) = length l.
Proof. induction l as [|x l IH]; intro i; cbn; [reflexivity|]. rewrite IH. reflexivity. Qed.
(** the first successful result *)
Lemma first_ok (rs : list (str * result err unit)) n : 
  (exists r, filter_map (fun nr : str * result err unit => match snd nr with Ok _ => Some (fst nr) | _ => None end) rs = n :: r)
  <-> exists j u, nth_error rs j = Some (n, Ok u) /\ forall i x, (i < j)%nat -> nth_error rs i = Some x -> forall v, snd x <> Ok v.
Proof.
  induction rs as [|[k o] rs IH]; cbn [filter_map snd fst].
  - split; [intros [r H]; discriminate|]. intros (j & u & H & _). destruct j; discriminate.
  - destruct o as [u|e|q].
    + split.
      * intros [r H]. inv H. exists 0%nat, u. split; [reflexivity|]. intros; lia.
      * intros (j & v & H & Hf). destruct j; [inv H; eauto|]. exfalso. apply (Hf 0%nat (k, Ok u) (Nat.lt_0_succ j) eq_refl u eq_refl).
    + rewrite IH. split.
      * intros (j & u & H & Hf). exists (S j), u. split; [assumption|]. intros [|i] x Hi Hx; [cbn in Hx; inv Hx; discriminate|]. apply (Hf i); [lia|assumption].
      * intros (j & u & H & Hf). destruct j; [discriminate|]. exists j, u. split; [assumption|]. intros i x Hi Hx. apply (Hf (S i)); [lia|assumption].
    + rewrite IH. split.
      * intros (j & u & H & Hf). exists (S j), u. split; [assumption|]. intros [|i] x Hi Hx; [cbn in Hx; inv Hx; discriminate|]. apply (Hf i); [lia|assumption].
      * intros (j & u & H & Hf). destruct j; [discriminate|]. exists j, u. split; [assumption|]. intros i x Hi Hx. apply (Hf (S i)); [lia|assumption].
Qed.
(** what verification with one key returns *)
Inductive outcome (clk : nat -> N) (key : verifying_key) (cs : list (str * (sigbase * sigheaders))) : result herr str -> Prop :=
| out_none : cs = [] -> outcome clk key cs (Err NoSignatureHeaders)
| out_crash j n b h q : nth_error cs j = Some (n, (b, h)) -> crashes (clk j) key b h -> outcome clk key cs (Panic q)
| out_first j n b h : (forall i n' b' h', nth_error cs i = Some (n', (b', h')) -> ~ crashes (clk i) key b' h') ->
    nth_error cs j = Some (n, (b, h)) -> accepted (clk j) key b h ->
    (forall i n' b' h', (i < j)%nat -> nth_error cs i = Some (n', (b', h')) -> ~ accepted (clk i) key b' h') ->
    outcome clk key cs (Ok n)
| out_invalid : cs <> [] -> (forall i n' b' h', nth_error cs i = Some (n', (b', h')) -> ~ crashes (clk i) key b' h' /\ ~ accepted (clk i) key b' h') ->
    outcome clk key cs (Err HInvalidSignature).
Lemma verify_one_outcome clk l key kid : outcome clk key (kid_filter kid l) (verify_one clk l key kid).
Proof.
  unfold verify_one. fold (kid_filter kid l). generalize (kid_filter kid l) as cs. intro cs.
  destruct (is_empty cs) eqn:Ee; [apply out_none; destruct cs; [reflexivity|discriminate]|].
  fold (check clk key). set (rs := mapi (check clk key) 0 cs).
  assert (Hn : forall j, nth_error rs j = option_map (check clk key j) (nth_error cs j)) by (intro j; apply (mapi_nth (check clk key) cs 0 j)).
  destruct (first_panic (map snd rs)) as [q|] eqn:Ep.
  - apply first_panic_some in Ep. apply in_map_iff in Ep as ([n o] & Ho & Hi). cbn in Ho. subst o.
    apply In_nth_error in Hi as [j Hj]. rewrite Hn in Hj. destruct (nth_error cs j) as [[n' [b h]]|] eqn:Ej; [|discriminate].
    cbn in Hj. inv Hj. eapply out_crash; [exact Ej|]. apply check_panic. eauto.
  - assert (Hc : forall i n' b' h', nth_error cs i = Some (n', (b', h')) -> ~ crashes (clk i) key b' h').
    { intros i n' b' h' Hi Hx. apply check_panic in Hx as [q Hq].
      assert (Hin : In (Panic q) (map snd rs)).
      { specialize (Hn i). rewrite Hi in Hn. cbn [option_map] in Hn. unfold check in Hn. cbn [fst snd] in Hn. rewrite Hq in Hn. apply nth_error_In in Hn. apply (in_map snd) in Hn. exact Hn. }
      clear -Ep Hin. induction (map snd rs) as [|x l IH]; [destruct Hin|]. cbn in Ep. destruct Hin as [->|Hin]; [discriminate|]. destruct x; auto; discriminate. }
    destruct (filter_map _ rs) as [|n r] eqn:Ef.
    + apply out_invalid; [destruct cs; [discriminate|discriminate]|]. intros i n' b' h' Hi. split; [eapply Hc, Hi|].
      intro Ha. apply (check_ok _ _ _ _ tt) in Ha. specialize (Hn i). rewrite Hi in Hn. cbn [option_map] in Hn. unfold check in Hn. cbn [fst snd] in Hn. rewrite Ha in Hn. apply nth_error_In in Hn.
      clear -Ef Hn. induction rs as [|x l IH]; [destruct Hn|]. cbn in Ef. destruct Hn as [->|Hn]; [discriminate|]. destruct (snd x); auto; discriminate.
    + destruct (proj1 (first_ok rs n) (ex_intro _ r Ef)) as (j & u & Hj & Hf). rewrite Hn in Hj.
      destruct (nth_error cs j) as [[n' [b h]]|] eqn:Ej; [|discriminate]. cbn in Hj. unfold check in Hj. cbn in Hj. injection Hj as -> Hj.
      eapply out_first; [exact Hc|exact Ej|eapply check_ok, Hj|]. intros i n' b' h' Hi Hx Ha. apply (check_ok _ _ _ _ tt) in Ha.
      specialize (Hf i (check clk key i (n', (b', h'))) Hi). rewrite Hn, Hx in Hf. apply (Hf eq_refl tt). exact Ha.
Qed.
Lemma verify_outcome clk m rfp key kid l cs : received m l -> candidates m rfp kid l cs ->
  outcome (clk 0%nat) key cs (verify_message_signature clk m rfp key kid).
Proof.
  intros Hl Hc. rewrite verify_single. destruct (candidates_exist m rfp None l) as [c0 Hc0].
  rewrite (proj2 (extract_signatures_spec m rfp c0) (ex_intro _ l (conj Hl Hc0))). cbn [bind].
  pose proof (verify_one_outcome (clk 0%nat) c0 key kid) as Ho.
  rewrite (candidates_fun _ _ _ _ _ Hc _ (kid_filter_candidates m rfp kid l c0 Hc0)). exact Ho.
Qed.
Lemma verify_not_received clk m rfp key kid : (forall l, ~ received m l) ->
  (exists e, extract_signature_headers_with_name m = Err e /\ verify_message_signature clk m rfp key kid = Err e)
  \/ (exists q, extract_signature_headers_with_name m = Panic q /\ verify_message_signature clk m rfp key kid = Panic q).
Proof.
  intro H. rewrite verify_single. destruct (extract_signatures_fail m rfp H) as [(e & H1 & ->)|(q & H1 & ->)]; [left|right]; eauto.
Qed.
Lemma received_dec m : (exists l, received m l) \/ (forall l, ~ received m l).
Proof.
  destruct (extract_signature_headers_with_name m) as [l|e|q] eqn:E.
  - left. exists l. apply extract_spec, E.
  - right. intros l Hl. apply extract_spec in Hl. congruence.
  - right. intros l Hl. apply extract_spec in Hl. congruence.
Qed.
