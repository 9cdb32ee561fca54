(** C70 to C74: the clock, panics, and the names, the order and the number of signatures. *)
From Coq Require Import Permutation.
From Verif Require Import Base BaseFacts Utf8 Sfv SfvFacts SpecGrammar GrammarProofs SpecCanon CanonProofs Component Crypto Params SigBase Http Hyper SpecSfv SpecId SpecParams SpecValue SpecBase SpecIdText IdTextProofs SpecMsg HeaderProofs MsgProofs VerifyProofs SpecExtract ExtractProofs FrameProofs SpecLabels LabelProofs SpecSign SignProofs CryptoProofs Toy Props_Crypto Props_Verify Props_Base.

(** ** C70 *)
(** clocks that agree on which of the message's signatures have expired give the same result *)
Theorem C70_clock : forall clk clk' m rfp,
  (forall l n h i j, received m l -> In (n, h) l -> (expired (clk i j) h <-> expired (clk' i j) h)) ->
  (forall keys, verify_message_signatures clk m rfp keys = verify_message_signatures clk' m rfp keys)
  /\ (forall key kid, verify_message_signature clk m rfp key kid = verify_message_signature clk' m rfp key kid).
Proof.
  intros clk clk' m rfp H. split; [intro keys; apply verify_clock; exact H|]. intros key kid. unfold verify_message_signature. rewrite (verify_clock clk clk' m rfp _ H). reflexivity.
Qed.
Print Assumptions C70_clock.
(** without expires the clock is never looked at *)
Theorem C70_no_expiry : forall clk clk' m rfp key kid, (forall l n h, received m l -> In (n, h) l -> sp_expires (sh_params h) = None) ->
  verify_message_signature clk m rfp key kid = verify_message_signature clk' m rfp key kid.
Proof.
  intros clk clk' m rfp key kid H. apply C70_clock. intros l n h i j Hl Hi. specialize (H l n h Hl Hi). unfold expired. split; intros (e & He & _); congruence.
Qed.
Print Assumptions C70_no_expiry.
(** what is accepted at some time is accepted at every earlier time *)
Theorem C70_earlier : forall clk clk' m rfp key kid n, (forall j, clk' 0%nat j <= clk 0%nat j) -> total_key key ->
  verify_message_signature clk m rfp key kid = Ok n -> exists n', verify_message_signature clk' m rfp key kid = Ok n'.
Proof.
  intros clk clk' m rfp key kid n Hc Ht H. destruct (received_dec m) as [[l Hl]|Hn].
  - destruct (candidates_exist m rfp kid l) as [cs Hcs]. pose proof (verify_outcome clk m rfp key kid l cs Hl Hcs) as Ho. pose proof (verify_outcome clk' m rfp key kid l cs Hl Hcs) as Ho'.
    rewrite H in Ho. inversion Ho as [| |j n' b h Hnc Hj [He Hv] Hf|]; subst.
    assert (Ha : accepted (clk' 0%nat j) key b h).
    { split; [|assumption]. intros (e & E1 & E2). apply He. exists e. split; [assumption|]. specialize (Hc j). lia. }
    inversion Ho' as [E|j' n' b' h' q Hj' [_ [q' Hq]] E|j' n' b' h' _ _ _ _ E|_ Hall E].
    + subst cs. destruct j; discriminate.
    + destruct (Ht _ _ _ Hq).
    + eauto.
    + destruct (proj2 (Hall _ _ _ _ Hj) Ha).
  - destruct (verify_not_received clk m rfp key kid Hn) as [(e & _ & E)|(q & _ & E)]; congruence.
Qed.
Print Assumptions C70_earlier.
(** the time of creation is not compared with the clock: a signature from the future is accepted *)
Example C70_example :
  (exists l h c e, received ex_signed l /\ In (lit "sig1", h) l /\ sp_created (sh_params h) = Some c /\ sp_expires (sh_params h) = Some e
    /\ verify_message_signature (fun _ _ => 0) ex_signed None toy_vk None = Ok (lit "sig1")
    /\ verify_message_signature (fun _ _ => c - 1) ex_signed None toy_vk None = Ok (lit "sig1")
    /\ verify_message_signature (fun _ _ => e) ex_signed None toy_vk None = Ok (lit "sig1")
    /\ verify_message_signature (fun _ _ => e + 1) ex_signed None toy_vk None = Err HInvalidSignature)
  /\ total_key toy_vk.
Proof.
  split; [|intros d s q; apply C31_shared_never_panics]. do 4 eexists. split; [apply extract_spec; vm_compute; reflexivity|]. split; [left; reflexivity|]. split; [reflexivity|]. split; [reflexivity|].
  split; [|split; [|split]]; vm_compute; reflexivity.
Qed.

(** ** C71 *)
(** exactly when verification panics: the headers do it, or the key does on a signature that has to be checked *)
Theorem C71_exactly : forall clk m rfp key kid, (exists q, verify_message_signature clk m rfp key kid = Panic q) <->
  panic_message m
  \/ (exists l cs j n t h, received m l /\ checked m rfp kid l cs /\ nth_error cs j = Some (n, (t, h)) /\ panics (clk 0%nat j) key t h).
Proof.
  intros clk m rfp key kid. rewrite <- extract_panics. split.
  - intros [q H]. destruct (received_dec m) as [[l Hl]|Hn].
    + right. destruct (candidates_exist m rfp kid l) as [cs Hcs]. pose proof (verify_outcome clk m rfp key kid l cs Hl Hcs) as Ho. rewrite H in Ho.
      inversion Ho as [|j n b h q' Hj Hcr| |]; subst. exists l, (map with_text cs), j, n, (base_str b), h. split; [assumption|].
      split; [apply candidates_checked; assumption|]. split; [apply nth_with_text; eauto|exact Hcr].
    + left. destruct (verify_not_received clk m rfp key kid Hn) as [(e & _ & E)|(q' & E & _)]; [congruence|eauto].
  - intros [[q Hq]|(l & cs & j & n & t & h & Hl & Hc & Hj & Hp)].
    + exists q. rewrite verify_single. unfold extract_signatures. rewrite Hq. reflexivity.
    + apply checked_candidates in Hc as (cs' & Hcs & ->). apply nth_with_text in Hj as (b & Hj & <-).
      pose proof (verify_outcome clk m rfp key kid l cs' Hl Hcs) as Ho. inversion Ho as [E|j' n' b' h' q Hj' Hcr' E|j' n' b' h' Hnc Hj' _ _ E|_ Hall E].
      * subst cs'. destruct j; discriminate.
      * eauto.
      * destruct (Hnc _ _ _ _ Hj Hp).
      * destruct (proj1 (Hall _ _ _ _ Hj) Hp).
Qed.
Print Assumptions C71_exactly.
(** the keys of the library panic on ECDSA signatures of the wrong length and on nothing else *)
Theorem C71_public_key : forall P (k : public_key P) now t h, panics now (public_verifying k) t h <->
  ~ expired now h /\ match k with PkP256 _ => List.length (sh_sig h) <> 64%nat | PkP384 _ => List.length (sh_sig h) <> 96%nat | _ => False end.
Proof. intros P k now t h. unfold panics. rewrite C31_panics_exactly. reflexivity. Qed.
Print Assumptions C71_public_key.
Theorem C71_shared_key : forall P k now t h, ~ panics now (shared_verifying P k) t h.
Proof. intros P k now t h [_ [q Hq]]. exact (C31_shared_never_panics P k _ _ _ Hq). Qed.
Print Assumptions C71_shared_key.
(** both kinds of panic, and an unreadable member before the panicking one that prevents the panic *)
Example C71_example : forall clk key kid,
  (exists q, verify_message_signature clk (MReq (mkReq (lit "GET") ex_uri [(lit "signature-input", lit "b=(""@method"");tag=""t"", a=();created=-1"); (lit "signature", lit "a=:AA==:, b=:AA==:")] [])) None key kid = Panic q)
  /\ verify_message_signature clk (MReq (mkReq (lit "GET") ex_uri [(lit "signature-input", lit "b=(""@method"" ""@method""), a=();created=-1"); (lit "signature", lit "a=:AA==:, b=:AA==:")] [])) None key kid = Err (HttpSigError InvalidSignatureParams)
  /\ exists q, verify_message_signature clk (MReq (mkReq (lit "GET") ex_uri [(lit "signature-input", lit "a=()"); (lit "signature", lit "a=:AA==:")] [])) None (public_verifying (PkP256 ([1] : Pk256 toy))) None = Panic q.
Proof. intros. split; [eexists; vm_compute; reflexivity|]. split; [vm_compute; reflexivity|eexists; vm_compute; reflexivity]. Qed.

(** ** C72 *)
(** renaming the signatures in both headers changes the reported names and nothing else *)
Theorem C72_renamed : forall f m rfp m' rfp' ds di,
  dictionary m (lit "signature") ds -> dictionary m (lit "signature-input") di ->
  dictionary m' (lit "signature") (map (rename f) ds) -> dictionary m' (lit "signature-input") (map (rename f) di) ->
  inj_on f (map fst ds ++ map fst di) ->
  (forall l n h i, received m l -> In (n, h) l -> In i (sp_covered (sh_params h)) -> agree i m rfp m' rfp') ->
  (forall clk key kid, verify_message_signature clk m' rfp' key kid = rmap f (verify_message_signature clk m rfp key kid))
  /\ (forall clk keys, verify_message_signatures clk m' rfp' keys = rmap (map (rmap f)) (verify_message_signatures clk m rfp keys)).
Proof.
  intros f m rfp m' rfp' ds di H1 H2 H3 H4 Hi Ha. pose proof (signatures_rename f m rfp m' rfp' ds di H1 H2 H3 H4 Hi Ha) as E. split.
  - intros clk key kid. rewrite !verify_single, E. destruct (extract_signatures m rfp); cbn [bind rmap]; try reflexivity. apply verify_one_rename.
  - intros clk keys. rewrite !verify_unfold, E. destruct (extract_signatures m rfp); cbn [bind rmap]; try reflexivity. apply verify_inner_rename.
Qed.
Print Assumptions C72_renamed.
(** in particular when no signature covers the signature headers themselves *)
Theorem C72_headers : forall f m rfp h ds di,
  (forall n, n <> lit "signature" -> n <> lit "signature-input" -> field_lines h n = field_lines (msg_headers m) n) ->
  dictionary m (lit "signature") ds -> dictionary m (lit "signature-input") di ->
  dictionary (msg_set_headers m h) (lit "signature") (map (rename f) ds) -> dictionary (msg_set_headers m h) (lit "signature-input") (map (rename f) di) ->
  inj_on f (map fst ds ++ map fst di) -> (forall l n s, received m l -> In (n, s) l -> Forall not_signature (sp_covered (sh_params s))) ->
  forall clk key kid, verify_message_signature clk (msg_set_headers m h) rfp key kid = rmap f (verify_message_signature clk m rfp key kid).
Proof.
  intros f m rfp h ds di Hh H1 H2 H3 H4 Hi Hc. apply (C72_renamed f m rfp (msg_set_headers m h) rfp ds di); try assumption.
  intros l n s i Hl Hin Hcv. apply agree_resigned; [exact Hh|]. pose proof (Hc l n s Hl Hin) as Hf. rewrite Forall_forall in Hf. auto.
Qed.
Print Assumptions C72_headers.
Definition other_key : verifying_key := shared_verifying toy (ShHmacSha256 (lit "other")).
Definition two (a b : str) : msg := fst (set_message_signatures (MReq ex_req) None
  [mkJob ex_params toy_key (Some a) 0; mkJob (set_keyid ex_params (lit "k2")) (shared_signing toy (ShHmacSha256 (lit "other"))) (Some b) 0]).
Lemma two_plain a b l n s : In (a, b) [(lit "a", lit "b"); (lit "b", lit "a"); (lit "x", lit "y")] -> received (two a b) l -> In (n, s) l -> Forall not_signature (sp_covered (sh_params s)).
Proof.
  assert (Hns : Forall not_signature (sp_covered ex_params)).
  { constructor; [right; discriminate|]. constructor; [right; split; vm_compute; discriminate|]. constructor; [right; discriminate|constructor]. }
  assert (Hall : forall l0, extract_signature_headers_with_name (two a b) = Ok l0 -> Forall (fun ns : str * sigheaders => sp_covered (sh_params (snd ns)) = sp_covered ex_params) l0 -> received (two a b) l -> In (n, s) l -> Forall not_signature (sp_covered (sh_params s))).
  { intros l0 E Hf Hl Hi. apply extract_spec in E. rewrite (received_fun _ _ _ Hl E) in Hi. rewrite Forall_forall in Hf. specialize (Hf _ Hi). cbn [snd] in Hf. rewrite Hf. exact Hns. }
  intros Hab. destruct Hab as [E|[E|[E|[]]]]; injection E as <- <-; (eapply Hall; [vm_compute; reflexivity|repeat (constructor; [reflexivity|]); constructor]).
Qed.
(** swapping two names, and new names *)
Example C72_example : exists ds di, dictionary (two (lit "a") (lit "b")) (lit "signature") ds /\ dictionary (two (lit "a") (lit "b")) (lit "signature-input") di
  /\ (let f := fun n => if str_eqb n (lit "a") then lit "b" else lit "a" in
      dictionary (two (lit "b") (lit "a")) (lit "signature") (map (rename f) ds) /\ dictionary (two (lit "b") (lit "a")) (lit "signature-input") (map (rename f) di) /\ inj_on f (map fst ds ++ map fst di))
  /\ (let f := fun n => if str_eqb n (lit "a") then lit "x" else lit "y" in
      dictionary (two (lit "x") (lit "y")) (lit "signature") (map (rename f) ds) /\ dictionary (two (lit "x") (lit "y")) (lit "signature-input") (map (rename f) di) /\ inj_on f (map fst ds ++ map fst di))
  /\ two (lit "b") (lit "a") = msg_set_headers (two (lit "a") (lit "b")) (msg_headers (two (lit "b") (lit "a")))
  /\ (forall n, n <> lit "signature" -> n <> lit "signature-input" -> field_lines (msg_headers (two (lit "b") (lit "a"))) n = field_lines (msg_headers (two (lit "a") (lit "b"))) n)
  /\ verify_message_signature (fun _ _ => 0) (two (lit "a") (lit "b")) None other_key None = Ok (lit "b")
  /\ verify_message_signature (fun _ _ => 0) (two (lit "b") (lit "a")) None other_key None = Ok (lit "a").
Proof.
  eexists. eexists. split; [apply dictb_ok; vm_compute; reflexivity|]. split; [apply dictb_ok; vm_compute; reflexivity|].
  assert (Hinj : forall f, f (lit "a") <> f (lit "b") -> inj_on f [lit "a"; lit "b"; lit "a"; lit "b"]).
  { intros f Hf x y Hx Hy Hxy. cbn [In] in Hx, Hy. assert (Hx' : x = lit "a" \/ x = lit "b") by (repeat destruct Hx as [Hx|Hx]; try destruct Hx; auto). assert (Hy' : y = lit "a" \/ y = lit "b") by (repeat destruct Hy as [Hy|Hy]; try destruct Hy; auto).
    destruct Hx' as [->| ->], Hy' as [->| ->]; try reflexivity; congruence. }
  cbv zeta. split; [|split; [|split; [|split; [|split]]]].
  - split; [apply dictb_ok; vm_compute; reflexivity|]. split; [apply dictb_ok; vm_compute; reflexivity|]. apply Hinj. discriminate.
  - split; [apply dictb_ok; vm_compute; reflexivity|]. split; [apply dictb_ok; vm_compute; reflexivity|]. apply Hinj. discriminate.
  - vm_compute. reflexivity.
  - assert (E : forall a b n, n <> lit "signature" -> n <> lit "signature-input" -> In (a, b) [(lit "a", lit "b"); (lit "b", lit "a")] -> field_lines (msg_headers (two a b)) n = field_lines (rq_headers ex_req) n).
    { intros a b n H1 H2 Hab. rewrite !field_lines_filter.
      assert (Eh : exists add, msg_headers (two a b) = rq_headers ex_req ++ add /\ Forall (fun nv => fst nv = lit "signature-input" \/ fst nv = lit "signature") add).
      { destruct Hab as [E|[E|[]]]; injection E as <- <-; (eexists; split; [vm_compute; reflexivity|]; repeat (constructor; [first [left; reflexivity|right; reflexivity]|]); constructor). }
      destruct Eh as (add & -> & Hadd). rewrite filter_app. replace (filter (fun kv : str * bytes => str_eqb (fst kv) n) add) with (@nil (str * bytes)); [rewrite app_nil_r; reflexivity|].
      clear -Hadd H1 H2. induction Hadd as [|[k v] add Hk Hadd IH]; [reflexivity|]. cbn [filter fst] in *. destruct (str_eqb k n) eqn:E; [|exact IH]. apply str_eqb_eq in E. subst k. destruct Hk; congruence. }
    intros n H1 H2. rewrite !E by (cbn; auto). reflexivity.
  - vm_compute. reflexivity.
  - vm_compute. reflexivity.
Qed.

(** ** C73 *)
(** the order of the members of Signature, and their parameters, do not matter *)
Theorem C73_signature : forall m rfp m' rfp' ds ds' di,
  dictionary m (lit "signature") ds -> dictionary m (lit "signature-input") di ->
  dictionary m' (lit "signature") ds' -> dictionary m' (lit "signature-input") di ->
  Permutation (map bare_member ds) (map bare_member ds') ->
  (forall l n h i, received m l -> In (n, h) l -> In i (sp_covered (sh_params h)) -> agree i m rfp m' rfp') ->
  (forall clk key kid, verify_message_signature clk m rfp key kid = verify_message_signature clk m' rfp' key kid)
  /\ (forall clk keys, verify_message_signatures clk m rfp keys = verify_message_signatures clk m' rfp' keys)
  /\ get_signature_params m = get_signature_params m'.
Proof.
  intros m rfp m' rfp' ds ds' di H1 H2 H3 H4 Hp Ha.
  assert (Eh : extract_signature_headers_with_name m = extract_signature_headers_with_name m').
  { rewrite (dictionary_extract m ds di H1 H2), (dictionary_extract m' ds' di H3 H4). f_equal.
    destruct H1 as (_ & _ & H1), H2 as (_ & _ & H2), H3 as (_ & _ & H3), H4 as (_ & _ & H4). apply parse_dict_spec in H1, H2, H3, H4.
    rewrite (try_parse_order _ _ _ ds ds' H1 H3 Hp). rewrite !try_parse_unfold, H2, H4. reflexivity. }
  assert (Es : extract_signatures m rfp = extract_signatures m' rfp').
  { unfold extract_signatures. rewrite <- Eh. destruct (extract_signature_headers_with_name m) as [l|e|q] eqn:E; cbn [bind]; try reflexivity. apply extract_spec in E.
    assert (Hb : forall nh, In nh l -> build_signature_base m (sh_params (snd nh)) rfp = build_signature_base m' (sh_params (snd nh)) rfp').
    { intros [n h] Hi. apply base_same. intros i Hc. eapply Ha; eassumption. }
    rewrite (map_ext_in _ _ _ Hb). destruct (first_panic _); [reflexivity|]. do 2 f_equal. clear -Hb.
    induction l as [|nh l IH]; [reflexivity|]. cbn [filter_map]. rewrite (Hb nh (or_introl eq_refl)). rewrite IH; [reflexivity|]. intros x Hx. apply Hb. right. assumption. }
  split; [intros; rewrite !verify_single, Es; reflexivity|]. split; [intros; apply verify_same; assumption|]. unfold get_signature_params. rewrite Eh. reflexivity.
Qed.
Print Assumptions C73_signature.
(** the order of the members of Signature-Input decides at most which of several acceptable signatures is named *)
Theorem C73_input : forall t m rfp m' rfp' ds ds' di di' l key kid,
  dictionary m (lit "signature") ds -> dictionary m (lit "signature-input") di ->
  dictionary m' (lit "signature") ds' -> dictionary m' (lit "signature-input") di' ->
  Permutation ds ds' -> Permutation di di' -> received m l ->
  (forall n h i, In (n, h) l -> In i (sp_covered (sh_params h)) -> agree i m rfp m' rfp') ->
  same_verdict (verify_message_signature (fun _ _ => t) m rfp key kid) (verify_message_signature (fun _ _ => t) m' rfp' key kid).
Proof.
  intros t m rfp m' rfp' ds ds' di di' l key kid H1 H2 H3 H4 Ps Pi Hl Ha.
  assert (Hl' : exists l', received m' l' /\ Permutation l l').
  { destruct (received_dictionaries m l Hl) as (ds0 & di0 & D1 & D2 & Hk & Hf). rewrite (dictionary_fun _ _ _ _ D1 H1), (dictionary_fun _ _ _ _ D2 H2) in *.
    assert (Hp : exists l', Forall2 (paired ds) di' l' /\ Permutation l l').
    { clear -Pi Hf. revert l Hf. induction Pi as [|x a b P IH|x y a|a b c P1 IH1 P2 IH2]; intros l Hf.
      - inversion Hf; subst. exists []. split; constructor.
      - inversion Hf as [|? r ? l0 Hr Hf0]; subst. destruct (IH l0 Hf0) as (l' & F & P'). exists (r :: l'). split; [constructor; assumption|apply perm_skip; assumption].
      - inversion Hf as [|? r ? l0 Hr Hf0]; subst. inversion Hf0 as [|? r' ? l1 Hr' Hf1]; subst. exists (r' :: r :: l1). split; [constructor; [assumption|constructor; assumption]|apply perm_swap].
      - destruct (IH1 l Hf) as (l1 & F1 & Q1). destruct (IH2 l1 F1) as (l2 & F2 & Q2). exists l2. split; [assumption|eapply perm_trans; eassumption]. }
    destruct Hp as (l' & Hf' & Pl). exists l'. split; [|exact Pl]. apply (dictionaries_received m' ds' di' l' H3 H4).
    - intro k. split; intro Hi.
      + eapply Permutation_in; [apply Permutation_map, Pi|]. apply Hk. eapply Permutation_in; [apply Permutation_map, Permutation_sym, Ps|exact Hi].
      + eapply Permutation_in; [apply Permutation_map, Ps|]. apply Hk. eapply Permutation_in; [apply Permutation_map, Permutation_sym, Pi|exact Hi].
    - clear -Ps Hf'. induction Hf' as [|kv r a b Hr Hf IH]; constructor; [|assumption]. destruct Hr as (E1 & E2 & E3 & ps & E4). split; [assumption|]. split; [assumption|]. split; [assumption|].
      exists ps. eapply Permutation_in; eassumption. }
  destruct Hl' as (l' & Hl' & Pl).
  destruct (candidates_exist m rfp kid l) as [cs Hcs]. destruct (candidates_exist m' rfp' kid l') as [cs' Hcs'].
  eapply (verdict_members t key cs cs').
  - eapply candidates_members; [|exact Hcs|exact Hcs'|].
    + intro x. split; intro Hx; [|apply Permutation_sym in Pl]; eapply Permutation_in; eassumption.
    + intros n h Hi. apply base_same. intros i Hc. eapply Ha; eassumption.
  - apply (verify_outcome (fun _ _ => t) m rfp key kid l cs Hl Hcs).
  - apply (verify_outcome (fun _ _ => t) m' rfp' key kid l' cs' Hl' Hcs').
Qed.
Print Assumptions C73_input.
(** the same two signatures with the members of Signature, of Signature-Input or of both in another order; with one key id for both, only the name changes *)
Definition sent (sig input : str) : msg := MReq (mkReq (lit "GET") ex_uri [(lit "signature-input", input); (lit "signature", sig)] []).
Definition sig_of (p : sparams) : str := match build_signature_base (sent [] []) p None with Ok b => match build_signature_headers b toy_key (Some (lit "x")) 0 with Ok h => skipn 2 (signature_header_value h) | _ => [] end | _ => [] end.
Definition pa : sparams := mkSparams None None None None None (Some (lit "a")) [mkCid (Derived Method) []].
Definition pb : sparams := mkSparams None None None None None (Some (lit "b")) [mkCid (Derived Path) []].
Definition ma : str := lit "a=" ++ sig_of pa.
Definition mb : str := lit "b=" ++ sig_of pb.
Definition ia : str := lit "a=" ++ sparams_str pa.
Definition ib : str := lit "b=" ++ sparams_str pb.
Definition both (x y : str) : str := x ++ lit ", " ++ y.
Example C73_example : exists ds di dss dsp dis, dictionary (sent (both ma mb) (both ia ib)) (lit "signature") ds /\ dictionary (sent (both ma mb) (both ia ib)) (lit "signature-input") di
  /\ dictionary (sent (both (mb ++ lit ";q=1") ma) (both ia ib)) (lit "signature") dss /\ Permutation (map bare_member ds) (map bare_member dss)
  /\ dictionary (sent (both mb ma) (both ib ia)) (lit "signature") dsp /\ Permutation ds dsp
  /\ dictionary (sent (both mb ma) (both ib ia)) (lit "signature-input") dis /\ Permutation di dis
  /\ verify_message_signature (fun _ _ => 0) (sent (both ma mb) (both ia ib)) None toy_vk None = Ok (lit "a")
  /\ verify_message_signature (fun _ _ => 0) (sent (both (mb ++ lit ";q=1") ma) (both ia ib)) None toy_vk None = Ok (lit "a")
  /\ verify_message_signature (fun _ _ => 0) (sent (both mb ma) (both ib ia)) None toy_vk None = Ok (lit "b").
Proof.
  do 5 eexists. do 3 (split; [apply dictb_ok; vm_compute; reflexivity|]). split; [vm_compute; apply perm_swap|]. split; [apply dictb_ok; vm_compute; reflexivity|]. split; [apply perm_swap|].
  split; [apply dictb_ok; vm_compute; reflexivity|]. split; [apply perm_swap|]. split; [|split]; vm_compute; reflexivity.
Qed.

(** ** C74 *)
(** taking another signature out leaves an accepted signature accepted *)
Theorem C74_taken_out : forall t m rfp m' rfp' ds di n0 key kid n,
  dictionary m (lit "signature") ds -> dictionary m (lit "signature-input") di ->
  dictionary m' (lit "signature") (without n0 ds) -> dictionary m' (lit "signature-input") (without n0 di) ->
  (forall l n h i, received m l -> In (n, h) l -> n <> n0 -> In i (sp_covered (sh_params h)) -> agree i m rfp m' rfp') ->
  n <> n0 -> verify_message_signature (fun _ _ => t) m rfp key kid = Ok n -> verify_message_signature (fun _ _ => t) m' rfp' key kid = Ok n.
Proof.
  intros t m rfp m' rfp' ds di n0 key kid n H1 H2 H3 H4 Ha Hn H. destruct (received_dec m) as [[l Hl]|Hno].
  2:{ destruct (verify_not_received (fun _ _ => t) m rfp key kid Hno) as [(e & _ & E)|(q & _ & E)]; congruence. }
  destruct (candidates_exist m rfp kid l) as [cs Hcs]. pose proof (verify_outcome (fun _ _ => t) m rfp key kid l cs Hl Hcs) as Ho. rewrite H in Ho.
  apply outcome_first in Ho. apply (first_accepted_without _ _ _ _ n0 Hn) in Ho. eapply first_outcome; [exact Ho|].
  apply (verify_outcome (fun _ _ => t) m' rfp' key kid (without n0 l) (without n0 cs)); [exact (received_without m m' ds di l n0 H1 H2 H3 H4 Hl)|].
  eapply candidates_without; [exact Hcs|]. intros n' h Hi Hne. apply base_same. intros i Hc. eapply Ha; eassumption.
Qed.
Print Assumptions C74_taken_out.
(** and what is accepted after that was accepted before, unless the removed signature came first *)
Theorem C74_put_in : forall t m rfp m' rfp' ds di l n0 key kid n,
  dictionary m (lit "signature") ds -> dictionary m (lit "signature-input") di ->
  dictionary m' (lit "signature") (without n0 ds) -> dictionary m' (lit "signature-input") (without n0 di) -> received m l ->
  (forall n h i, In (n, h) l -> n <> n0 -> In i (sp_covered (sh_params h)) -> agree i m rfp m' rfp') -> total_key key ->
  verify_message_signature (fun _ _ => t) m' rfp' key kid = Ok n ->
  verify_message_signature (fun _ _ => t) m rfp key kid = Ok n \/ verify_message_signature (fun _ _ => t) m rfp key kid = Ok n0.
Proof.
  intros t m rfp m' rfp' ds di l n0 key kid n H1 H2 H3 H4 Hl Ha Ht H. destruct (candidates_exist m rfp kid l) as [cs Hcs].
  assert (Hl' : received m' (without n0 l)) by (exact (received_without m m' ds di l n0 H1 H2 H3 H4 Hl)).
  assert (Hcs' : candidates m' rfp' kid (without n0 l) (without n0 cs)).
  { eapply candidates_without; [exact Hcs|]. intros n' h Hi Hne. apply base_same. intros i Hc. eapply Ha; eassumption. }
  pose proof (verify_outcome (fun _ _ => t) m' rfp' key kid _ _ Hl' Hcs') as Ho'. rewrite H in Ho'. apply outcome_first in Ho'.
  eapply first_accepted_more; [exact Ht|exact Ho'|]. apply (verify_outcome (fun _ _ => t) m rfp key kid l cs Hl Hcs).
Qed.
Print Assumptions C74_put_in.
Example C74_example : exists ds di, dictionary (sent (both ma mb) (both ia ib)) (lit "signature") ds /\ dictionary (sent (both ma mb) (both ia ib)) (lit "signature-input") di
  /\ dictionary (sent mb ib) (lit "signature") (without (lit "a") ds) /\ dictionary (sent mb ib) (lit "signature-input") (without (lit "a") di)
  /\ dictionary (sent ma ia) (lit "signature") (without (lit "b") ds) /\ dictionary (sent ma ia) (lit "signature-input") (without (lit "b") di)
  /\ verify_message_signature (fun _ _ => 0) (sent (both ma mb) (both ia ib)) None toy_vk None = Ok (lit "a")
  /\ verify_message_signature (fun _ _ => 0) (sent ma ia) None toy_vk None = Ok (lit "a")
  /\ verify_message_signature (fun _ _ => 0) (sent mb ib) None toy_vk None = Ok (lit "b").
Proof.
  do 2 eexists. repeat (split; [first [apply dictb_ok; vm_compute; reflexivity|vm_compute; reflexivity]|]). vm_compute. reflexivity.
Qed.
