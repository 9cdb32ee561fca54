(** C32-C35, C47, C48, C60, C63: signing messages, and verification after signing. *)
From Verif Require Import Base BaseFacts Utf8 Base64 Sfv SfvFacts SfvRound SpecSfv SpecSfvProofs SpecGrammar GrammarProofs SpecCanon CanonProofs Component Crypto SpecCrypto CryptoProofs Params SigBase Http Hyper SpecId IdProofs SpecParams ParamsProofs SpecValue ValueProofs SpecBase BaseProofs SpecIdText IdTextProofs SpecMsg HeaderProofs MsgProofs VerifyProofs SpecExtract ExtractProofs FrameProofs SpecSign SignProofs Decide Toy Props_Crypto Props_Verify.

(** ** C34 *)
Theorem C34_only_appends : forall m rfp jobs m' r, set_message_signatures m rfp jobs = (m', r) ->
  exists add, msg_headers m' = msg_headers m ++ add /\ Forall (fun nv => fst nv = lit "signature-input" \/ fst nv = lit "signature") add
  /\ match m, m' with
     | MReq q, MReq q' => rq_method q' = rq_method q /\ rq_uri q' = rq_uri q /\ rq_body q' = rq_body q
     | MRes x, MRes x' => rs_status x' = rs_status x /\ rs_body x' = rs_body x
     | _, _ => False
     end.
Proof.
  intros m rfp jobs m' r. unfold set_message_signatures. destruct (make_signatures m rfp jobs) as [l|e|q].
  - destruct (append_prefix l (msg_headers m)) as (add & Ha & Hn). destruct (append_signatures (msg_headers m) l) as [h r0]. cbn [fst] in Ha. subst h. intro H. injection H as <- _.
    exists add. rewrite set_headers_get. split; [reflexivity|]. split; [assumption|]. destruct m; cbn; auto.
  - intro H. injection H as <- _. exists []. rewrite app_nil_r. split; [reflexivity|]. split; [constructor|]. destruct m; cbn; auto.
  - intro H. injection H as <- _. exists []. rewrite app_nil_r. split; [reflexivity|]. split; [constructor|]. destruct m; cbn; auto.
Qed.
Print Assumptions C34_only_appends.
Theorem C34_other_fields : forall m rfp jobs n, n <> lit "signature-input" -> n <> lit "signature" ->
  field_lines (msg_headers (fst (set_message_signatures m rfp jobs))) n = field_lines (msg_headers m) n.
Proof.
  intros m rfp jobs n H1 H2. destruct (set_message_signatures m rfp jobs) as [m' r] eqn:E. cbn [fst]. apply C34_only_appends in E as (add & -> & Ha & _).
  rewrite field_lines_app, (other_lines add n Ha), app_nil_r; [reflexivity|]. intros [H|H]; contradiction.
Qed.
Print Assumptions C34_other_fields.
Example C34_example : exists a b, msg_headers ex_signed = msg_headers (MReq ex_req) ++ [(lit "signature-input", a); (lit "signature", b)]
  /\ a = lit "sig1=(""@method"" ""date"" ""@path"");created=1618884473;expires=1618884773;keyid=""k""".
Proof. eexists. eexists. split; [vm_compute; reflexivity|]. vm_compute. reflexivity. Qed.

(** ** C35 *)
(** either a signature cannot be made and nothing changes, or complete pairs of header lines of the first [k] jobs
    are appended, and the call stops at a name or parameter text that cannot stand in a header *)
Theorem C35_outcome : forall m rfp jobs m' r, (forall j, In j jobs -> octets (j_key j)) -> set_message_signatures m rfp jobs = (m', r) ->
  ((forall l, ~ Forall2 (made m rfp) jobs l) /\ m' = m /\ r <> Ok tt)
  \/ exists l k, Forall2 (made m rfp) jobs l /\ (k <= length l)%nat
     /\ msg_headers m' = msg_headers m ++ flat_map pair_lines (firstn k l)
     /\ (r = Ok tt /\ k = length l
         \/ r = Err InvalidHeaderValue /\ exists s, nth_error l k = Some s /\ ~ header_bytes (input_line s)).
Proof.
  intros m rfp jobs m' r Ho H. destruct (made_dec m rfp jobs) as [[l Hl]|Hn].
  - right. destruct (set_outcome _ _ _ _ Hl (made_all_octets _ _ _ _ Hl Ho)) as (k & Hk). cbv zeta in Hk. exists l, k. split; [assumption|].
    destruct Hk as [(-> & Hh & E)|(s & Hs & Hb & E)]; rewrite E in H; injection H as <- <-; rewrite set_headers_get.
    + auto.
    + assert (k < length l)%nat by (apply nth_error_Some; congruence). split; [lia|]. split; [reflexivity|]. right. eauto.
  - left. destruct (set_not_made _ _ _ Hn) as (r0 & E & Hr). rewrite E in H. injection H as <- <-. auto.
Qed.
Print Assumptions C35_outcome.
(** the call succeeds exactly if every signature can be made and written *)
Theorem C35_succeeds : forall m rfp jobs, (forall j, In j jobs -> octets (j_key j)) ->
  (snd (set_message_signatures m rfp jobs) = Ok tt <-> exists l, Forall2 (made m rfp) jobs l /\ Forall (fun s => header_bytes (input_line s)) l).
Proof.
  intros m rfp jobs Ho. destruct (set_message_signatures m rfp jobs) as [m' r] eqn:E. cbn [snd]. split.
  - intros ->. apply set_ok in E as (l & H1 & _ & H2); eauto.
  - intros (l & Hl & Hh). destruct (set_outcome _ _ _ _ Hl (made_all_octets _ _ _ _ Hl Ho)) as (k & Hk). cbv zeta in Hk.
    destruct Hk as [(_ & _ & E')|(s & Hs & Hb & _)]; [congruence|]. exfalso. rewrite Forall_forall in Hh. apply Hb, Hh. eapply nth_error_In, Hs.
Qed.
Print Assumptions C35_succeeds.
(** what a successful call sends: the header lines of a signature of the text of C19 *)
Theorem C19_sent : forall m rfp j m', octets (j_key j) -> set_message_signature m rfp j = (m', Ok tt) ->
  exists t s, signed_text m rfp (j_params j) t /\ sk_sign (j_key j) (j_seed j) (utf8 t) = Ok s
  /\ msg_headers m' = msg_headers m ++ [(lit "signature-input", utf8 (job_name j ++ lit "=" ++ params_text (j_params j)));
                                       (lit "signature", utf8 (job_name j ++ lit "=:" ++ b64_text s ++ lit ":"))].
Proof.
  intros m rfp j m' Ho H. assert (Ho' : forall j', In j' [j] -> octets (j_key j')) by (intros j' [<-|[]]; exact Ho).
  destruct (set_ok m rfp [j] m' Ho' H) as (l & Hl & -> & _). inversion Hl as [|? h ? ? (t & Ht & Hs & Hn & Hp) Hl']; subst. inversion Hl'; subst.
  exists t, (sh_sig h). split; [assumption|]. split; [assumption|]. rewrite set_headers_get. unfold pair_lines, input_line, signature_line. cbn [flat_map app]. rewrite Hn, Hp. reflexivity.
Qed.
Print Assumptions C19_sent.
Lemma toy_key_octets : octets toy_key.
Proof. intros seed d s H. cbn in H. inv H. apply (oct_hmac _ toy_octets (lit "secret")). Qed.
Definition bad_job : job := mkJob ex_params toy_key (Some (lit "a" ++ [10])) 0.
Example C35_example : octets toy_key /\ snd (set_message_signatures (MReq ex_req) None [ex_job; bad_job; ex_job]) = Err InvalidHeaderValue
  /\ length (msg_headers (fst (set_message_signatures (MReq ex_req) None [ex_job; bad_job; ex_job]))) = 4%nat
  /\ set_message_signatures (MReq ex_req) None [ex_job; mkJob (mkSparams None None None None None None [mkCid (Derived Status) []]) toy_key None 0] = (MReq ex_req, Err HInvalidComponentName).
Proof. split; [apply toy_key_octets|]. split; [vm_compute; reflexivity|]. split; vm_compute; reflexivity. Qed.

(** ** C32, C33 *)
Lemma signed_then_verified m rfp j m' vk kid clk :
  field_lines (msg_headers m) (lit "signature") = [] -> field_lines (msg_headers m) (lit "signature-input") = [] ->
  set_message_signature m rfp j = (m', Ok tt) -> matching (j_key j) vk ->
  writable (j_params j) -> key_text (job_name j) -> Forall not_signature (sp_covered (j_params j)) ->
  (kid = None \/ kid = sp_keyid (j_params j)) -> (forall e, sp_expires (j_params j) = Some e -> clk 0%nat 0%nat <= e) ->
  verify_message_signature clk m' rfp vk kid = Ok (job_name j).
Proof.
  intros Hs Hi H Hm Hw Hk Hc Hkid Hx.
  assert (Ho : octets (j_key j)) by (intros seed d s Hd; apply (Hm seed d s Hd)).
  assert (Hp : proper_job j) by (split; [assumption|auto]).
  assert (Hh : history rfp m [[j]] m') by (eapply hist_call; [exact H|constructor]).
  destruct (history_carries _ _ _ _ [] Hh) as (l & _ & Hca & Hl); [cbn [concat app]; constructor; [assumption|constructor]|left; auto|].
  cbn [concat app] in Hl. inversion Hl as [|? h ? l' Hj Hl']; subst. inversion Hl'; subst. destruct Hj as (t & Ht & Hsg & Hn & Hq).
  assert (E : im_add [] (map with_name [h]) = [(job_name j, h)]) by (cbn; unfold with_name; rewrite Hn; reflexivity). rewrite E in Hca.
  destruct Hca as [[Hca _]|[_ Hr]]; [discriminate|].
  apply C36_accepts. exists [(job_name j, h)], [(job_name j, (t, h))], 0%nat, t, h. split; [assumption|]. split.
  { apply ch_take; [rewrite Hq; assumption| |constructor]. intros k Ek. destruct Hkid as [->| ->]; [discriminate|]. rewrite Hq. exact Ek. }
  assert (Ha : accepts (clk 0%nat 0%nat) vk t h).
  { split; [|apply (Hm _ _ _ Hsg)]. intros (e & He & Hl0). rewrite Hq in He. apply Hx in He. lia. }
  split; [|split; [reflexivity|split; [assumption|intros; lia]]].
  intros i n' t' h' Hi' [_ [q Hpn]]. destruct i as [|i]; [|destruct i; discriminate]. cbn in Hi'. inv Hi'. destruct Ha as [_ Ha]. congruence.
Qed.
Theorem C32_request : forall r j m' vk kid clk,
  field_lines (rq_headers r) (lit "signature") = [] -> field_lines (rq_headers r) (lit "signature-input") = [] ->
  set_message_signature (MReq r) None j = (m', Ok tt) -> matching (j_key j) vk ->
  writable (j_params j) -> key_text (job_name j) -> Forall not_signature (sp_covered (j_params j)) ->
  (kid = None \/ kid = sp_keyid (j_params j)) -> (forall e, sp_expires (j_params j) = Some e -> clk 0%nat 0%nat <= e) ->
  verify_message_signature clk m' None vk kid = Ok (job_name j).
Proof. intros r j m' vk kid clk H1 H2. apply signed_then_verified; assumption. Qed.
Print Assumptions C32_request.
Theorem C33_response : forall x rfp j m' vk kid clk,
  field_lines (rs_headers x) (lit "signature") = [] -> field_lines (rs_headers x) (lit "signature-input") = [] ->
  set_message_signature (MRes x) rfp j = (m', Ok tt) -> matching (j_key j) vk ->
  writable (j_params j) -> key_text (job_name j) -> Forall not_signature (sp_covered (j_params j)) ->
  (kid = None \/ kid = sp_keyid (j_params j)) -> (forall e, sp_expires (j_params j) = Some e -> clk 0%nat 0%nat <= e) ->
  verify_message_signature clk m' rfp vk kid = Ok (job_name j).
Proof. intros x rfp j m' vk kid clk H1 H2. apply signed_then_verified; assumption. Qed.
Print Assumptions C33_response.
(** the keys of this library match, provided the primitives are correct *)
Theorem C32_keys : forall P, correct P -> octet_output P ->
  (forall k, matching (shared_signing P k) (shared_verifying P k))
  /\ (forall k : secret_key P, matching (secret_signing k) (public_verifying (secret_public k)) /\ matching (secret_signing k) (secret_verifying k)).
Proof.
  intros P Hc Ho. split.
  - intros k seed d s H. split; [|apply shared_verify_exact; exact H]. destruct k as [kb]. cbn in H. inv H. apply oct_hmac, Ho.
  - intro k. assert (H : forall seed d s, sk_sign (secret_signing k) seed d = Ok s -> Forall octet s /\ vk_verify (public_verifying (secret_public k)) d s = Ok tt).
    { intros seed d s H. split.
      - destruct k; cbn in H; inv H; [apply oct_p384|apply oct_p256|apply oct_ed|apply oct_rsa|apply oct_rsa]; assumption.
      - destruct (sign_verify P k seed d Hc) as (s' & H1 & H2). cbn in H. rewrite H in H1. inv H1. exact H2. }
    split; exact H.
Qed.
Print Assumptions C32_keys.
Lemma toy_matching : matching toy_key toy_vk.
Proof. apply (C32_keys toy toy_correct toy_octets). Qed.
Definition ex_res : response := mkRes 200 [(lit "date", lit "Tue, 20 Apr 2021 02:07:56 GMT")] [].
Definition res_job : job := mkJob (mkSparams (Some 1618884473) None None None (Some (lit "k")) None
  [mkCid (Derived Status) []; mkCid (HttpField (lit "date")) []; mkCid (Derived Method) [Req]; mkCid (HttpField (lit "date")) [Req]]) toy_key (Some (lit "r")) 0.
Example C32_example : set_message_signature (MReq ex_req) None ex_job = (ex_signed, Ok tt) /\ matching (j_key ex_job) toy_vk
  /\ writable (j_params ex_job) /\ key_text (job_name ex_job) /\ Forall not_signature (sp_covered (j_params ex_job)).
Proof.
  split; [vm_compute; reflexivity|]. split; [apply toy_matching|]. split; [apply writableb_ok; vm_compute; reflexivity|]. split; [apply key_text_spec; split; vm_compute; reflexivity|].
  constructor; [right; cbn; discriminate|]. constructor; [right; split; vm_compute; discriminate|]. constructor; [right; cbn; discriminate|constructor].
Qed.
Example C33_example : exists m', set_message_signature (MRes ex_res) (Some ex_req) res_job = (m', Ok tt) /\ matching (j_key res_job) toy_vk
  /\ writable (j_params res_job) /\ key_text (job_name res_job) /\ Forall not_signature (sp_covered (j_params res_job)).
Proof.
  eexists. split; [vm_compute; reflexivity|]. split; [apply toy_matching|]. split; [apply writableb_ok; vm_compute; reflexivity|]. split; [apply key_text_spec; split; vm_compute; reflexivity|].
  constructor; [right; cbn; discriminate|]. constructor; [right; split; vm_compute; discriminate|]. constructor; [left; left; reflexivity|]. constructor; [left; left; reflexivity|constructor].
Qed.

(** ** C47 *)
(** after any history of signing with different names the message has the old signatures and then the new ones *)
Theorem C47_signatures : forall rfp m0 calls m l0, carries m0 l0 -> history rfp m0 calls m -> Forall proper_job (concat calls) ->
  NoDup (map fst l0 ++ map job_name (concat calls)) ->
  exists l, Forall2 (made m0 rfp) (concat calls) l /\ Forall2 (made m rfp) (concat calls) l /\ carries m (l0 ++ map with_name l).
Proof.
  intros rfp m0 calls m l0 Hc Hh Hp Hn. destruct (history_carries _ _ _ _ l0 Hh Hp Hc) as (l & H1 & H2 & H3). exists l. split; [assumption|]. split; [assumption|].
  rewrite im_add_fresh in H2; [assumption|]. rewrite fst_with_name, (made_names _ _ _ _ H1). assumption.
Qed.
Print Assumptions C47_signatures.
Lemma params_of_jobs m rfp jobs l : Forall2 (made m rfp) jobs l ->
  map (fun nh : str * sigheaders => (fst nh, sh_params (snd nh))) (map with_name l) = map (fun j => (job_name j, j_params j)) jobs.
Proof. induction 1 as [|j s jobs l (t & _ & _ & Hn & Hq) H IH]; [reflexivity|]. cbn [map with_name fst snd]. rewrite Hn, Hq, IH. reflexivity. Qed.
(** all names are listed, with their parameters, in the order of signing *)
Theorem C47_listed : forall rfp m0 calls m l0, carries m0 l0 -> history rfp m0 calls m -> Forall proper_job (concat calls) ->
  NoDup (map fst l0 ++ map job_name (concat calls)) -> concat calls <> [] ->
  get_signature_params m = Ok (map (fun nh => (fst nh, sh_params (snd nh))) l0 ++ map (fun j => (job_name j, j_params j)) (concat calls)).
Proof.
  intros rfp m0 calls m l0 Hc Hh Hp Hn Hne. destruct (C47_signatures _ _ _ _ _ Hc Hh Hp Hn) as (l & H1 & _ & H2).
  apply C44_params. exists (l0 ++ map with_name l). rewrite map_app, (params_of_jobs _ _ _ _ H1). split; [|reflexivity].
  destruct H2 as [(E & _)|[_ H2]]; [|assumption]. apply app_eq_nil in E as [_ E]. destruct l; [|discriminate]. inversion H1; congruence.
Qed.
Print Assumptions C47_listed.
(** every one of the new signatures verifies with its key *)
Theorem C47_verifies : forall rfp m0 calls m l0, carries m0 l0 -> history rfp m0 calls m -> Forall proper_job (concat calls) ->
  NoDup (map fst l0 ++ map job_name (concat calls)) ->
  forall j vk kid clk, In j (concat calls) -> matching (j_key j) vk -> total_key vk -> (kid = None \/ kid = sp_keyid (j_params j)) ->
  (forall e i, sp_expires (j_params j) = Some e -> clk 0%nat i <= e) ->
  exists n, verify_message_signature clk m rfp vk kid = Ok n.
Proof.
  intros rfp m0 calls m l0 Hc Hh Hp Hn j vk kid clk Hj Hm Ht Hkid Hx. destruct (C47_signatures _ _ _ _ _ Hc Hh Hp Hn) as (l & _ & H1 & H2).
  assert (Hs : exists s, In s l /\ made m rfp j s).
  { clear -Hj H1. induction H1 as [|j' s jobs l Hs H IH]; [destruct Hj|]. destruct Hj as [->|Hj]; [exists s; split; [left; reflexivity|assumption]|].
    destruct (IH Hj) as (s' & Hi & Hm'). exists s'. split; [right|]; assumption. }
  destruct Hs as (s & Hs & t & Hst & Hsg & Hnm & Hq).
  assert (Hin : In (sh_name s, s) (l0 ++ map with_name l)) by (apply in_or_app; right; apply in_map_iff; exists s; auto).
  destruct H2 as [(E & _)|[_ Hr]]; [rewrite E in Hin; destruct Hin|].
  apply (C36_complete clk m rfp vk kid _ (sh_name s) s t Hr Hin).
  - rewrite Hq. assumption.
  - intros k Ek. rewrite Hq. destruct Hkid as [->| ->]; [discriminate|assumption].
  - intro i. split; [|apply (Hm _ _ _ Hsg)]. intros (e & He & Hl0). rewrite Hq in He. specialize (Hx e i He). lia.
  - assumption.
Qed.
Print Assumptions C47_verifies.
Lemma checked_app m rfp kid l1 l2 c1 c2 : checked m rfp kid l1 c1 -> checked m rfp kid l2 c2 -> checked m rfp kid (l1 ++ l2) (c1 ++ c2).
Proof. intros H1 H2. induction H1; cbn [app]; [assumption|apply ch_take; assumption|apply ch_skip; assumption]. Qed.
Lemma checked_none m rfp k l : (forall n h, In (n, h) l -> sp_keyid (sh_params h) <> Some k) -> checked m rfp (Some k) l [].
Proof.
  induction l as [|[n h] l IH]; intro H; [constructor|]. apply ch_skip; [right; exists k; split; [reflexivity|]; eapply H; left; reflexivity|].
  apply IH. intros n' h' Hi. eapply H. right. exact Hi.
Qed.
(** it is found under its name when its key id tells it from all others *)
Theorem C47_verifies_name : forall rfp m0 calls1 before j after calls2 m l0 k, 
  let jobs := concat calls1 ++ (before ++ j :: after) ++ concat calls2 in
  carries m0 l0 -> history rfp m0 (calls1 ++ (before ++ j :: after) :: calls2) m -> Forall proper_job jobs -> NoDup (map fst l0 ++ map job_name jobs) ->
  sp_keyid (j_params j) = Some k ->
  (forall n h, In (n, h) l0 -> sp_keyid (sh_params h) <> Some k) ->
  (forall j', In j' (concat calls1 ++ before ++ after ++ concat calls2) -> sp_keyid (j_params j') <> Some k) ->
  forall vk clk, matching (j_key j) vk -> (forall e, sp_expires (j_params j) = Some e -> clk 0%nat 0%nat <= e) ->
  verify_message_signature clk m rfp vk (Some k) = Ok (job_name j).
Proof.
  intros rfp m0 calls1 before j after calls2 m l0 k jobs Hc Hh Hp Hn Hk H0 Hother vk clk Hm Hx. subst jobs.
  assert (E : concat (calls1 ++ (before ++ j :: after) :: calls2) = (concat calls1 ++ before) ++ j :: (after ++ concat calls2)).
  { rewrite concat_app. cbn [concat]. rewrite <- !app_assoc. reflexivity. }
  assert (E' : concat calls1 ++ (before ++ j :: after) ++ concat calls2 = (concat calls1 ++ before) ++ j :: (after ++ concat calls2)) by (rewrite <- !app_assoc; reflexivity).
  rewrite E' in Hp, Hn. destruct (C47_signatures rfp m0 _ m l0 Hc Hh) as (l & _ & H1 & H2); [rewrite E; assumption|rewrite E; assumption|]. rewrite E in H1.
  apply Forall2_app_inv_l in H1 as (la & lb & Ha & Hb & ->). inversion Hb as [|? s ? lc Hs Hlc]; subst. destruct Hs as (t & Hst & Hsg & Hnm & Hq).
  assert (Hr : received m (l0 ++ map with_name (la ++ s :: lc))).
  { destruct H2 as [(E2 & _)|[_ Hr]]; [|assumption]. apply app_eq_nil in E2 as [_ E2]. rewrite map_app in E2. apply app_eq_nil in E2 as [_ E2]. discriminate. }
  assert (Hid : forall jobs ls, Forall2 (made m rfp) jobs ls -> (forall j', In j' jobs -> sp_keyid (j_params j') <> Some k) -> forall n h, In (n, h) (map with_name ls) -> sp_keyid (sh_params h) <> Some k).
  { clear. induction 1 as [|j' s' jobs ls (t & _ & _ & _ & Hq) H IH]; intros Hj n h Hi; [destruct Hi|]. cbn [map] in Hi. destruct Hi as [Hi|Hi].
    - inv Hi. rewrite Hq. apply Hj. left. reflexivity.
    - apply (IH (fun j'' Hj'' => Hj _ (or_intror Hj'')) _ _ Hi). }
  apply C36_accepts. exists (l0 ++ map with_name (la ++ s :: lc)), [(job_name j, (t, s))], 0%nat, t, s. split; [assumption|]. split.
  { rewrite map_app. cbn [map]. change [(job_name j, (t, s))] with ([] ++ [] ++ (job_name j, (t, s)) :: []). apply checked_app; [apply checked_none, H0|].
    apply checked_app; [apply checked_none, (Hid _ _ Ha); intros j' Hj'; apply Hother; rewrite !in_app_iff in *; tauto|].
    unfold with_name at 1. rewrite Hnm. apply ch_take; [rewrite Hq; assumption|intros k' Ek; inv Ek; rewrite Hq; assumption|].
    apply checked_none, (Hid _ _ Hlc). intros j' Hj'. apply Hother. rewrite !in_app_iff in *. tauto. }
  assert (Hac : accepts (clk 0%nat 0%nat) vk t s).
  { split; [|apply (Hm _ _ _ Hsg)]. intros (e & He & Hl0). rewrite Hq in He. apply Hx in He. lia. }
  split; [|split; [reflexivity|split; [assumption|intros; lia]]].
  intros i n' t' h' Hi' [_ [q Hpn]]. destruct i as [|i]; [|destruct i; discriminate]. cbn in Hi'. inv Hi'. destruct Hac as [_ Hac]. congruence.
Qed.
Print Assumptions C47_verifies_name.
(** a total key that accepted a signature before the history accepts the same one afterwards *)
Lemma checked_same m rfp m' rfp' kid l cs : checked m rfp kid l cs ->
  (forall n h i, In (n, h) l -> In i (sp_covered (sh_params h)) -> agree i m rfp m' rfp') -> checked m' rfp' kid l cs.
Proof.
  induction 1 as [|n h t l cs Ht Hk H IH|n h l cs Hs H IH]; intro Hag; [constructor| |].
  - apply ch_take; [|assumption|].
    + apply (text_same m rfp m' rfp'); [|assumption]. intros i Hi. eapply Hag; [left; reflexivity|assumption].
    + apply IH. intros n' h' i Hi. apply (Hag n'). right. assumption.
  - apply ch_skip.
    + destruct Hs as [Hs|Hs]; [left|right; assumption]. intros t Ht. apply (Hs t). apply (text_same m rfp m' rfp'); [|assumption]. intros i Hi. eapply Hag; [left; reflexivity|assumption].
    + apply IH. intros n' h' i Hi. apply (Hag n'). right. assumption.
Qed.
Lemma checked_exists m rfp kid l : exists cs, checked m rfp kid l cs.
Proof. destruct (candidates_exist m rfp kid l) as [cs Hc]. eexists. apply candidates_checked, Hc. Qed.
Lemma verify_more clk m m' rfp l l2 key kid n : received m l -> received m' (l ++ l2) -> total_key key ->
  (forall n h i, In (n, h) l -> In i (sp_covered (sh_params h)) -> agree i m rfp m' rfp) ->
  verify_message_signature clk m rfp key kid = Ok n -> verify_message_signature clk m' rfp key kid = Ok n.
Proof.
  intros Hr Hr' Ht Hag H. apply C36_accepts in H as (l' & cs & j & t & h & Hl' & Hc & Hp & Hj & Ha & Hf). rewrite (received_fun _ _ _ Hl' Hr) in *.
  destruct (checked_exists m' rfp kid l2) as [c2 Hc2]. apply C36_accepts. exists (l ++ l2), (cs ++ c2), j, t, h. split; [assumption|].
  split; [apply checked_app; [eapply checked_same; eassumption|assumption]|]. split; [intros i n' t' h' _ [_ [q Hq]]; exact (Ht _ _ _ Hq)|].
  assert (Hlt : (j < length cs)%nat) by (apply nth_error_Some; congruence). split; [rewrite nth_error_app1; assumption|]. split; [assumption|].
  intros i n' t' h' Hi Hn. rewrite nth_error_app1 in Hn by lia. eapply Hf; eassumption.
Qed.
Theorem C47_old_signatures : forall rfp m0 calls m l0, received m0 l0 -> l0 <> [] -> history rfp m0 calls m -> Forall proper_job (concat calls) ->
  NoDup (map fst l0 ++ map job_name (concat calls)) -> (forall n h, In (n, h) l0 -> Forall not_signature (sp_covered (sh_params h))) ->
  forall clk vk kid n, total_key vk -> verify_message_signature clk m0 rfp vk kid = Ok n -> verify_message_signature clk m rfp vk kid = Ok n.
Proof.
  intros rfp m0 calls m l0 Hr Hne Hh Hp Hn Hc clk vk kid n Ht H. destruct (C47_signatures rfp m0 calls m l0) as (l & _ & _ & Hca); [right; auto|assumption|assumption|assumption|].
  destruct Hca as [(E & _)|[_ Hr']]; [apply app_eq_nil in E as [E _]; contradiction|]. apply (verify_more clk m0 m rfp l0 (map with_name l) vk kid n Hr Hr' Ht); [|assumption].
  destruct (history_spec _ _ _ _ Hh Hp) as (l' & _ & -> & _). intros n' h i Hi Hcv. apply agree_append; [apply pair_lines_names|]. pose proof (Hc n' h Hi) as Hf. rewrite Forall_forall in Hf. auto.
Qed.
Print Assumptions C47_old_signatures.
Definition job2 : job := mkJob (set_keyid ex_params (lit "k2")) (shared_signing toy (ShHmacSha256 (lit "other"))) None 0.
Definition job3 : job := mkJob (set_keyid ex_params (lit "k3")) (secret_signing (SkEd25519 ([1] : SkEd toy))) (Some (lit "z")) 5.
Example C47_example : exists m, history None (MReq ex_req) [[ex_job; job2]; [job3]] m /\ Forall proper_job [ex_job; job2; job3] /\ carries (MReq ex_req) []
  /\ NoDup (map job_name [ex_job; job2; job3]) /\ total_key toy_vk
  /\ verify_message_signature (fun _ _ => 1618884500) m None (public_verifying (PkEd25519 ([1] : PkEd toy))) None = Ok (lit "z").
Proof.
  eexists. split; [eapply hist_call; [vm_compute; reflexivity|]; eapply hist_call; [vm_compute; reflexivity|]; apply hist_nil|].
  assert (Hcv : Forall not_signature (sp_covered ex_params)) by apply C32_example.
  split; [|split; [left; split; [reflexivity|split; vm_compute; reflexivity]|split; [|split; [intros d s q; apply Props_Crypto.C31_shared_never_panics|vm_compute; reflexivity]]]].
  - constructor; [|constructor; [|constructor; [|constructor]]].
    + split; [apply toy_key_octets|]. split; [apply writableb_ok; vm_compute; reflexivity|]. split; [apply key_text_spec; split; vm_compute; reflexivity|exact Hcv].
    + split; [intros seed d s H; apply (proj1 (C32_keys toy toy_correct toy_octets) (ShHmacSha256 (lit "other")) seed d s H)|]. split; [apply writableb_ok; vm_compute; reflexivity|]. split; [apply key_text_spec; split; vm_compute; reflexivity|exact Hcv].
    + split; [intros seed d s H; apply (proj2 (C32_keys toy toy_correct toy_octets) (SkEd25519 ([1] : SkEd toy))) in H; apply H|]. split; [apply writableb_ok; vm_compute; reflexivity|]. split; [apply key_text_spec; split; vm_compute; reflexivity|exact Hcv].
  - repeat (constructor; [cbn; intros Hi; repeat (destruct Hi as [Hi|Hi]; [discriminate Hi|]); exact Hi|]). constructor.
Qed.

(** ** C48 *)
(** two signatures made under one name: only the second can be found *)
Theorem C48_refuted : exists m vk1 vk2, matching toy_key vk1 /\ matching (shared_signing toy (ShHmacSha256 (lit "other"))) vk2
  /\ history None (MReq ex_req) [[ex_job]; [mkJob (j_params job2) (j_key job2) (Some (lit "sig1")) 0]] m
  /\ verify_message_signature (fun _ _ => 1618884500) m None vk1 None = Err HInvalidSignature
  /\ verify_message_signature (fun _ _ => 1618884500) m None vk2 None = Ok (lit "sig1").
Proof.
  eexists. exists toy_vk, (shared_verifying toy (ShHmacSha256 (lit "other"))). split; [apply toy_matching|]. split; [apply (proj1 (C32_keys toy toy_correct toy_octets))|].
  split; [eapply hist_call; [vm_compute; reflexivity|]; eapply hist_call; [vm_compute; reflexivity|]; apply hist_nil|]. split; vm_compute; reflexivity.
Qed.
Print Assumptions C48_refuted.
(** in general the last signature of each name is found, in the place of the first *)
Theorem C48_last_wins_partial : forall rfp m0 calls m l0, carries m0 l0 -> history rfp m0 calls m -> Forall proper_job (concat calls) ->
  exists l l', Forall2 (made m rfp) (concat calls) l /\ carries m l'
  /\ map fst l' = map fst l0 ++ distinct (map fst l0) (map job_name (concat calls))
  /\ forall n, last_value n l' = last_value n (l0 ++ map with_name l).
Proof.
  intros rfp m0 calls m l0 Hc Hh Hp. destruct (history_carries _ _ _ _ l0 Hh Hp Hc) as (l & H1 & H2 & H3). exists l, (im_add l0 (map with_name l)). split; [assumption|]. split; [assumption|].
  split; [rewrite im_add_keys, fst_with_name, (made_names _ _ _ _ H1); reflexivity|]. intro n.
  assert (Hn : NoDup (map fst l0)) by (destruct Hc as [(-> & _)|[_ Hc]]; [constructor|exact (received_keys _ _ Hc)]).
  rewrite last_value_nodup by (apply im_add_nodup; assumption). rewrite im_get_add. rewrite <- (last_value_nodup l0) by assumption.
  clear. revert l0. generalize (map with_name l) as b. intros b a. induction a as [|[k v] a IH]; cbn [last_value app]; [destruct (last_value n b); reflexivity|].
  rewrite <- IH. destruct (last_value n b); [reflexivity|]. destruct (last_value n a); reflexivity.
Qed.
Print Assumptions C48_last_wins_partial.

(** ** C60 *)
Definition with_lines (m : msg) (add : headers) : msg := msg_set_headers m (msg_headers m ++ add).
(** one unparsable or harmful further signature makes verification fail; so does a well-formed one for an ECDSA key *)
Theorem C60_refuted : exists m vk ec,
  verify_message_signature (fun _ _ => 1618884500) m None vk None = Ok (lit "sig1")
  /\ verify_message_signature (fun _ _ => 1618884500) (with_lines m [(lit "signature-input", lit "x=("); (lit "signature", lit "x=:AAAA:")]) None vk None = Err (HttpSigError ParseSFVError)
  /\ (exists q, verify_message_signature (fun _ _ => 1618884500) (with_lines m [(lit "signature-input", lit "x=();created=-1"); (lit "signature", lit "x=:AAAA:")]) None vk None = Panic q)
  /\ verify_message_signature (fun _ _ => 1618884500) m None ec (Some (lit "e")) = Ok (lit "ec")
  /\ (exists q, verify_message_signature (fun _ _ => 1618884500) (with_lines m [(lit "signature-input", lit "x=();keyid=""e"""); (lit "signature", lit "x=:AAAA:")]) None ec (Some (lit "e")) = Panic q).
Proof.
  exists (fst (set_message_signatures (MReq ex_req) None [ex_job; mkJob (set_keyid ex_params (lit "e")) (secret_signing (SkP256 ([1] : Sk256 toy))) (Some (lit "ec")) 0])), toy_vk, (public_verifying (PkP256 ([1] : Pk256 toy))).
  split; [vm_compute; reflexivity|]. split; [vm_compute; reflexivity|]. split; [eexists; vm_compute; reflexivity|]. split; [vm_compute; reflexivity|]. eexists; vm_compute; reflexivity.
Qed.
Print Assumptions C60_refuted.
(** signatures that can be parsed, with new names and behind the others, do no harm for keys that do not panic *)
Theorem C60_added_partial : forall clk m rfp l add l2 key kid n, received m l -> l <> [] ->
  Forall (fun nv => fst nv = lit "signature-input" \/ fst nv = lit "signature") add ->
  received (msg_set_headers m add) l2 -> l2 <> [] -> NoDup (map fst l ++ map fst l2) ->
  (forall n h, In (n, h) l -> Forall not_signature (sp_covered (sh_params h))) -> total_key key ->
  verify_message_signature clk m rfp key kid = Ok n -> verify_message_signature clk (with_lines m add) rfp key kid = Ok n.
Proof.
  intros clk m rfp l add l2 key kid n Hl Hne Ha Hl2 Hne2 Hn Hc Ht. pose proof (carries_add m l add l2 (or_intror (conj Hne Hl)) Hne2 Hl2) as Hr.
  rewrite im_add_fresh in Hr by assumption. apply (verify_more clk m (with_lines m add) rfp l l2); [assumption|assumption|assumption|].
  intros n' h i Hi Hcv. apply agree_append; [exact Ha|]. pose proof (Hc n' h Hi) as Hf. rewrite Forall_forall in Hf. auto.
Qed.
Print Assumptions C60_added_partial.
Example C60_example : exists l l2, received ex_signed l /\ l <> [] /\ received (msg_set_headers ex_signed [(lit "signature-input", lit "x=(""nope"")"); (lit "signature", lit "x=:AAAA:")]) l2 /\ l2 <> []
  /\ NoDup (map fst l ++ map fst l2).
Proof.
  eexists. eexists. split; [apply extract_spec; vm_compute; reflexivity|]. split; [discriminate|]. split; [apply extract_spec; vm_compute; reflexivity|]. split; [discriminate|].
  repeat (constructor; [cbn; intros Hi; repeat (destruct Hi as [Hi|Hi]; [discriminate Hi|]); exact Hi|]). constructor.
Qed.

(** ** C63 *)
(** signing with several keys at once is signing with one after the other *)
Theorem C63_one_by_one : forall jobs rfp m m', (forall j, In j jobs -> octets (j_key j) /\ Forall not_signature (sp_covered (j_params j))) ->
  (set_message_signatures m rfp jobs = (m', Ok tt) <-> history rfp m (map (fun j => [j]) jobs) m').
Proof.
  assert (Hsame : forall m rfp add j s, Forall (fun nv => signature_name (fst nv)) add -> Forall not_signature (sp_covered (j_params j)) ->
    made m rfp j s <-> made (msg_set_headers m (msg_headers m ++ add)) rfp j s).
  { intros m rfp add j s Ha Hc. apply made_same. intros i Hi. rewrite Forall_forall in Hc. apply agree_append; auto. }
  assert (Hset : forall m rfp jobs l, Forall2 (made m rfp) jobs l -> (forall j, In j jobs -> octets (j_key j)) -> Forall (fun s => header_bytes (input_line s)) l ->
    set_message_signatures m rfp jobs = (msg_set_headers m (msg_headers m ++ flat_map pair_lines l), Ok tt)).
  { intros m rfp jobs l Hl Ho Hh. destruct (set_outcome _ _ _ _ Hl (made_all_octets _ _ _ _ Hl Ho)) as (k & Hk). cbv zeta in Hk.
    destruct Hk as [(-> & _ & E)|(s & Hs & Hb & _)]; [rewrite firstn_all in E; exact E|]. exfalso. rewrite Forall_forall in Hh. apply Hb, Hh. eapply nth_error_In, Hs. }
  assert (Hmove : forall m rfp add jobs l, Forall (fun nv => signature_name (fst nv)) add -> (forall j, In j jobs -> Forall not_signature (sp_covered (j_params j))) ->
    Forall2 (made m rfp) jobs l <-> Forall2 (made (msg_set_headers m (msg_headers m ++ add)) rfp) jobs l).
  { intros m rfp add jobs l Ha Hc. split; intro H; induction H as [|j s jobs l Hs H IH]; constructor;
      try (apply (Hsame m rfp add j s); [assumption|apply Hc; left; reflexivity|assumption]); apply IH; intros j' Hj'; apply Hc; right; assumption. }
  induction jobs as [|j jobs IH]; intros rfp m m' Hj; cbn [map].
  - unfold set_message_signatures. cbn [make_signatures collect bind map join_all first_panic map_err append_signatures]. rewrite set_same_headers. split.
    + intro H. injection H as <-. constructor.
    + intro H. inversion H. reflexivity.
  - assert (Hj1 : forall j', In j' [j] -> octets (j_key j')) by (intros j' [<-|[]]; apply Hj; left; reflexivity).
    assert (Hj2 : forall j', In j' jobs -> octets (j_key j') /\ Forall not_signature (sp_covered (j_params j'))) by (intros j' Hi; apply Hj; right; assumption).
    split.
    + intro H. apply set_ok in H as (l & Hl & -> & Hh); [|intros j' Hi; apply (Hj j' Hi)]. inversion Hl as [|? s ? l' Hs Hl']; subst. apply Forall_cons_iff in Hh as [Hh1 Hh2].
      eapply hist_call; [apply (Hset m rfp [j] [s]); [constructor; [assumption|constructor]|assumption|constructor; [assumption|constructor]]|].
      apply IH; [assumption|]. rewrite (Hset _ rfp jobs l'); [|apply Hmove; [apply pair_lines_names|intros; apply Hj2; assumption|assumption]|intros; apply Hj2; assumption|assumption].
      rewrite set_headers_get, set_headers_twice. cbn [flat_map]. rewrite app_nil_r, <- app_assoc. reflexivity.
    + intro H. inversion H as [|? ? m1 ? ? Hs H']; subst. apply set_ok in Hs as (l & Hl & -> & Hh); [|assumption]. inversion Hl as [|? s ? l' Hs Hl']; subst. inversion Hl'; subst.
      apply IH in H'; [|assumption]. apply set_ok in H' as (l2 & Hl2 & -> & Hh2); [|intros; apply Hj2; assumption].
      apply Hmove in Hl2; [|apply pair_lines_names|intros; apply Hj2; assumption].
      rewrite (Hset m rfp (j :: jobs) (s :: l2)); [|constructor; assumption|intros j' Hi; apply (Hj j' Hi)|apply Forall_cons_iff in Hh as [Hh _]; constructor; assumption].
      rewrite set_headers_get, set_headers_twice. cbn [flat_map]. rewrite app_nil_r, <- app_assoc. reflexivity.
Qed.
Print Assumptions C63_one_by_one.
Example C63_example : exists m', set_message_signatures (MReq ex_req) None [ex_job; job2] = (m', Ok tt) /\ Forall not_signature (sp_covered (j_params job2)).
Proof. eexists. split; [vm_compute; reflexivity|]. apply C32_example. Qed.

(** ** C64 *)
(** signing succeeds with a double quote in the key id, or with a name that is not a key; afterwards no signature of the message is found *)
Theorem C64_refuted : exists j1 j2 m1 m2, 
  set_message_signature ex_signed None j1 = (m1, Ok tt) /\ set_message_signature ex_signed None j2 = (m2, Ok tt)
  /\ key_text (job_name j1) /\ writable (j_params j2)
  /\ (forall l, ~ received m1 l) /\ (forall l, ~ received m2 l)
  /\ verify_message_signature (fun _ _ => 1618884500) ex_signed None toy_vk None = Ok (lit "sig1")
  /\ verify_message_signature (fun _ _ => 1618884500) m1 None toy_vk None = Err (HttpSigError ParseSFVError)
  /\ verify_message_signature (fun _ _ => 1618884500) m2 None toy_vk None = Err (HttpSigError ParseSFVError).
Proof.
  exists (mkJob (set_keyid ex_params (lit "a""b")) toy_key (Some (lit "sig2")) 0), (mkJob ex_params toy_key (Some (lit "Sig2")) 0).
  eexists. eexists. split; [vm_compute; reflexivity|]. split; [vm_compute; reflexivity|]. split; [apply key_text_spec; split; vm_compute; reflexivity|].
  split; [apply writableb_ok; vm_compute; reflexivity|].
  split; [intros l Hl; apply extract_spec in Hl; vm_compute in Hl; discriminate|]. split; [intros l Hl; apply extract_spec in Hl; vm_compute in Hl; discriminate|].
  split; [vm_compute; reflexivity|]. split; vm_compute; reflexivity.
Qed.
Print Assumptions C64_refuted.
Theorem C64_parseable_partial : forall m rfp jobs m' l0, carries m l0 -> Forall proper_job jobs -> jobs <> [] ->
  set_message_signatures m rfp jobs = (m', Ok tt) -> exists l, received m' l.
Proof.
  intros m rfp jobs m' l0 Hc Hp Hne H. assert (Hh : history rfp m [jobs] m') by (eapply hist_call; [exact H|constructor]).
  assert (E : concat [jobs] = jobs) by apply app_nil_r.
  destruct (history_carries _ _ _ _ l0 Hh) as (l & H1 & H2 & _); [rewrite E; assumption|assumption|]. rewrite E in H1. destruct H2 as [(E2 & _)|[_ H2]]; [|eauto].
  exfalso. destruct H1 as [|j s jobs l Hs H1]; [congruence|]. cbn [map] in E2. 
  assert (Hin : In (sh_name s) (map fst (im_add l0 (with_name s :: map with_name l)))) by (apply im_add_in; right; left; reflexivity). rewrite E2 in Hin. destruct Hin.
Qed.
Print Assumptions C64_parseable_partial.
