(** C15, C36, C38-C41, C43, C44, C57: verification and inspection of messages. *)
From Verif Require Import Base BaseFacts Base64 Sfv SfvFacts SpecSfv SpecGrammar GrammarProofs SpecCanon CanonProofs Component Crypto SpecCrypto CryptoProofs Params SigBase Http Hyper SpecId IdProofs SpecParams ParamsProofs ValueProofs SpecBase BaseProofs SpecIdText IdTextProofs SpecMsg HeaderProofs MsgProofs VerifyProofs SpecExtract ExtractProofs SpecLabels LabelProofs Decide Toy.

(** A request with a signature made by the toy primitives (used in the examples). *)
Definition toy_key : signing_key := shared_signing toy (ShHmacSha256 (lit "secret")).
Definition toy_vk : verifying_key := shared_verifying toy (ShHmacSha256 (lit "secret")).
Definition ex_uri : uri := mkUri (Some (lit "https")) (Some (lit "example.com")) (lit "/foo") (Some (lit "a=b")).
Definition ex_req : request := mkReq (lit "POST") ex_uri [(lit "host", lit "example.com"); (lit "date", lit "Tue, 20 Apr 2021 02:07:55 GMT")] [FData (lit "hello")].
Definition ex_params : sparams :=
  mkSparams (Some 1618884473) (Some 1618884773) None None (Some (lit "k")) None [mkCid (Derived Method) []; mkCid (HttpField (lit "date")) []; mkCid (Derived Path) []].
Definition ex_job : job := mkJob ex_params toy_key (Some (lit "sig1")) 0.
Definition ex_signed : msg := fst (set_message_signatures (MReq ex_req) None [ex_job]).

(** ** C36 *)
Lemma verify_ok_iff : forall clk m rfp key kid n, verify_message_signature clk m rfp key kid = Ok n <->
  exists l cs j b h, received m l /\ candidates m rfp kid l cs
  /\ (forall i n' b' h', nth_error cs i = Some (n', (b', h')) -> ~ crashes (clk 0%nat i) key b' h')
  /\ nth_error cs j = Some (n, (b, h)) /\ accepted (clk 0%nat j) key b h
  /\ (forall i n' b' h', (i < j)%nat -> nth_error cs i = Some (n', (b', h')) -> ~ accepted (clk 0%nat i) key b' h').
Proof.
  intros clk m rfp key kid n. split.
  - intro H. destruct (received_dec m) as [[l Hl]|Hn].
    + destruct (candidates_exist m rfp kid l) as [cs Hc]. pose proof (verify_outcome clk m rfp key kid l cs Hl Hc) as Ho. rewrite H in Ho.
      inversion Ho as [| |j n' b h Hp Hj Ha Hf|]; subst. exists l, cs, j, b, h. auto 10.
    + destruct (verify_not_received clk m rfp key kid Hn) as [(e & _ & E)|(q & _ & E)]; congruence.
  - intros (l & cs & j & b & h & Hl & Hc & Hp & Hj & Ha & Hf). pose proof (verify_outcome clk m rfp key kid l cs Hl Hc) as Ho.
    inversion Ho as [E E0|j' n' b' h' q Hj' Hcr E|j' n' b' h' Hp' Hj' Ha' Hf' E|Hne Hno E].
    + subst. destruct j; discriminate.
    + destruct (Hp _ _ _ _ Hj' Hcr).
    + destruct (Nat.lt_trichotomy j j') as [Hlt|[->|Hlt]].
      * destruct (Hf' _ _ _ _ Hlt Hj Ha).
      * rewrite Hj' in Hj. inv Hj. reflexivity.
      * destruct (Hf _ _ _ _ Hlt Hj' Ha').
    + destruct (Hno _ _ _ _ Hj) as [_ Hx]. contradiction.
Qed.
(** [cs]: the signatures with the requested key id for which the current message has a text, in Signature-Input order *)
Theorem C36_accepts : forall clk m rfp key kid n, verify_message_signature clk m rfp key kid = Ok n <->
  exists l cs j t h, received m l /\ checked m rfp kid l cs
  /\ (forall i n' t' h', nth_error cs i = Some (n', (t', h')) -> ~ panics (clk 0%nat i) key t' h')
  /\ nth_error cs j = Some (n, (t, h)) /\ accepts (clk 0%nat j) key t h
  /\ (forall i n' t' h', (i < j)%nat -> nth_error cs i = Some (n', (t', h')) -> ~ accepts (clk 0%nat i) key t' h').
Proof.
  intros clk m rfp key kid n. rewrite verify_ok_iff. split.
  - intros (l & cs & j & b & h & Hl & Hc & Hp & Hj & Ha & Hf). exists l, (map with_text cs), j, (base_str b), h. split; [assumption|].
    split; [apply candidates_checked; assumption|]. split; [|split; [apply nth_with_text; eauto|split; [exact Ha|]]].
    + intros i n' t' h' Hi. apply nth_with_text in Hi as (b' & Hi & <-). exact (Hp _ _ _ _ Hi).
    + intros i n' t' h' Hlt Hi. apply nth_with_text in Hi as (b' & Hi & <-). exact (Hf _ _ _ _ Hlt Hi).
  - intros (l & cs & j & t & h & Hl & Hc & Hp & Hj & Ha & Hf). apply checked_candidates in Hc as (cs' & Hc & ->).
    apply nth_with_text in Hj as (b & Hj & <-). exists l, cs', j, b, h. split; [assumption|]. split; [assumption|].
    split; [|split; [assumption|split; [exact Ha|]]].
    + intros i n' b' h' Hi. apply (Hp i n' (base_str b')). apply nth_with_text. eauto.
    + intros i n' b' h' Hlt Hi. apply (Hf i n' (base_str b') h' Hlt). apply nth_with_text. eauto.
Qed.
Print Assumptions C36_accepts.
(** in all other cases the result is an error, provided nothing panics (C15, C31) *)
Theorem C36_rejects : forall clk m rfp key kid, ~ panic_message m -> total_key key ->
  (exists n, verify_message_signature clk m rfp key kid = Ok n) \/ (exists e, verify_message_signature clk m rfp key kid = Err e).
Proof.
  intros clk m rfp key kid Hh Hk. destruct (verify_message_signature clk m rfp key kid) as [n|e|q] eqn:E; eauto. exfalso.
  destruct (received_dec m) as [[l Hl]|Hn].
  - destruct (candidates_exist m rfp kid l) as [cs Hc]. pose proof (verify_outcome clk m rfp key kid l cs Hl Hc) as Ho. rewrite E in Ho.
    inversion Ho as [|j n b h q' Hj [_ [q0 Hq]]| |]; subst. exact (Hk _ _ _ Hq).
  - destruct (verify_not_received clk m rfp key kid Hn) as [(e & _ & E')|(q' & E1 & E')]; [congruence|]. apply Hh, extract_panics. eauto.
Qed.
Print Assumptions C36_rejects.
(** a signature that qualifies makes verification succeed, whatever else the message carries *)
Theorem C36_complete : forall clk m rfp key kid l n h t, received m l -> In (n, h) l -> signed_text m rfp (sh_params h) t ->
  (forall k, kid = Some k -> sp_keyid (sh_params h) = Some k) -> (forall j, accepts (clk 0%nat j) key t h) -> total_key key ->
  exists n', verify_message_signature clk m rfp key kid = Ok n'.
Proof.
  intros clk m rfp key kid l n h t Hl Hi Hb Hk Ha Ht. apply signed_text_spec in Hb as (b & Hb & <-). destruct (candidates_exist m rfp kid l) as [cs Hc].
  pose proof (candidates_of _ _ _ _ _ _ _ _ Hc Hi Hb Hk) as Hin. apply In_nth_error in Hin as [j Hj].
  pose proof (verify_outcome clk m rfp key kid l cs Hl Hc) as Ho.
  inversion Ho as [E E0|j' n' b' h' q Hj' [_ [q' Hcr]] E|j' n' b' h' Hp' Hj' Ha' Hf' E|Hne Hno E].
  - subst. destruct j; discriminate.
  - destruct (Ht _ _ _ Hcr).
  - eauto.
  - destruct (Hno _ _ _ _ Hj) as [_ Hx]. destruct (Hx (Ha j)).
Qed.
Print Assumptions C36_complete.
Example C36_example : exists l h, received ex_signed l /\ l = [(lit "sig1", h)] /\ sh_params h = ex_params
  /\ verify_message_signature (fun _ _ => 1618884700) ex_signed None toy_vk (Some (lit "k")) = Ok (lit "sig1")
  /\ verify_message_signature (fun _ _ => 1618884700) ex_signed None (shared_verifying toy (ShHmacSha256 (lit "other"))) None = Err HInvalidSignature.
Proof.
  assert (E : exists l h, extract_signature_headers_with_name ex_signed = Ok l /\ l = [(lit "sig1", h)] /\ sh_params h = ex_params).
  { eexists. eexists. split; [vm_compute; reflexivity|]. split; reflexivity. }
  destruct E as (l & h & E & H1 & H2). apply extract_spec in E. exists l, h. split; [assumption|]. split; [assumption|]. split; [assumption|].
  split; vm_compute; reflexivity.
Qed.

(** ** C38 *)
(** the j-th signature that is checked is checked at the j-th reading of the clock *)
Theorem C38_expired_never_accepted : forall clk m rfp key kid n l h, verify_message_signature clk m rfp key kid = Ok n ->
  received m l -> In (n, h) l ->
  exists cs j t, checked m rfp kid l cs /\ nth_error cs j = Some (n, (t, h)) /\ ~ expired (clk 0%nat j) h.
Proof.
  intros clk m rfp key kid n l h H Hl Hi. apply C36_accepts in H as (l' & cs & j & t & h' & Hl' & Hc & _ & Hj & [Ha _] & _).
  rewrite (received_fun _ _ _ Hl' Hl) in *. exists cs, j, t. split; [assumption|].
  assert (h' = h); [|subst; auto].
  pose proof Hc as Hc'. apply checked_candidates in Hc' as (cs' & Hcc & ->). apply nth_with_text in Hj as (b & Hj & _).
  apply nth_error_In in Hj. eapply candidates_in in Hj as (Hin & _); [|exact Hcc].
  destruct (received_names _ _ Hl) as [Hn _].
  clear -Hi Hin Hn. induction l as [|[n' x] l IH]; [destruct Hi|]. inversion Hn as [|? ? Hx Hn']; subst.
  destruct Hi as [Hi|Hi], Hin as [Hin|Hin]; try (inv Hi); try (inv Hin); auto.
  - exfalso. apply Hx. apply (in_map fst) in Hin. exact Hin.
  - exfalso. apply Hx. apply (in_map fst) in Hi. exact Hi.
Qed.
Print Assumptions C38_expired_never_accepted.
Theorem C38_all_expired : forall clk m rfp key kid l, received m l -> (forall i n h, In (n, h) l -> expired (clk 0%nat i) h) ->
  forall n, verify_message_signature clk m rfp key kid <> Ok n.
Proof.
  intros clk m rfp key kid l Hl He n H. apply verify_ok_iff in H as (l' & cs & j & b & h & Hl' & Hc & _ & Hj & [Ha _] & _).
  rewrite (received_fun _ _ _ Hl' Hl) in *. apply nth_error_In in Hj. eapply candidates_in in Hj as (Hin & _); [|exact Hc].
  exact (Ha (He j n h Hin)).
Qed.
Print Assumptions C38_all_expired.
Example C38_example : verify_message_signature (fun _ _ => 1618884773) ex_signed None toy_vk None = Ok (lit "sig1")
  /\ verify_message_signature (fun _ _ => 1618884774) ex_signed None toy_vk None = Err HInvalidSignature.
Proof. split; vm_compute; reflexivity. Qed.

(** ** C39 *)
Theorem C39_key_id : forall clk m rfp key k n, verify_message_signature clk m rfp key (Some k) = Ok n ->
  exists l h, received m l /\ In (n, h) l /\ sp_keyid (sh_params h) = Some k.
Proof.
  intros clk m rfp key k n H. apply verify_ok_iff in H as (l & cs & j & b & h & Hl & Hc & _ & Hj & _). exists l, h. split; [assumption|].
  apply nth_error_In in Hj. eapply candidates_in in Hj as (Hin & _ & Hk); [|exact Hc]. auto.
Qed.
Print Assumptions C39_key_id.
Theorem C39_no_such_key_id : forall clk m rfp key k l, received m l -> (forall n h, In (n, h) l -> sp_keyid (sh_params h) <> Some k) ->
  verify_message_signature clk m rfp key (Some k) = Err NoSignatureHeaders.
Proof.
  intros clk m rfp key k l Hl Hk. assert (Hc : candidates m rfp (Some k) l []).
  { clear Hl. induction l as [|[n h] l IH]; constructor.
    - right. exists k. split; [reflexivity|]. apply (Hk n). left. reflexivity.
    - apply IH. intros n' h' Hi. apply (Hk n'). right. assumption. }
  pose proof (verify_outcome clk m rfp key (Some k) l [] Hl Hc) as Ho.
  inversion Ho as [E E0|j n b h q Hj _ E|j n b h _ Hj _ _ E|Hne _ E]; try (destruct j; discriminate); congruence.
Qed.
Print Assumptions C39_no_such_key_id.
Example C39_example : verify_message_signature (fun _ _ => 0) ex_signed None (mkVerifying (fun _ _ => Panic PUnwrap) [] Ed25519) (Some (lit "no")) = Err NoSignatureHeaders
  /\ verify_message_signature (fun _ _ => 0) ex_signed None toy_vk (Some (lit "k")) = Ok (lit "sig1").
Proof. split; vm_compute; reflexivity. Qed.

(** ** C40 *)
Theorem C40_one_result_per_key : forall clk m rfp keys rs, verify_message_signatures clk m rfp keys = Ok rs ->
  length rs = length keys /\ forall i key kid, nth_error keys i = Some (key, kid) ->
    nth_error rs i = Some (verify_message_signature (fun _ => clk i) m rfp key kid).
Proof.
  intros clk m rfp keys rs. rewrite verify_unfold. destruct (extract_signatures m rfp) as [l|e|q] eqn:E; cbn [bind]; try discriminate.
  unfold verify_message_signatures_inner, join_all. destruct (first_panic _); [discriminate|]. intro H. inv H. split; [apply mapi_length|].
  intros i key kid Hi. rewrite mapi_nth, Hi. cbn [option_map fst snd Nat.add]. rewrite verify_single, E. reflexivity.
Qed.
Print Assumptions C40_one_result_per_key.
(** no overall result: either the signatures cannot be read, which is the answer for each key, or some key panics *)
Theorem C40_failure : forall clk m rfp keys,
  (forall e, verify_message_signatures clk m rfp keys = Err e -> forall clk' key kid, verify_message_signature clk' m rfp key kid = Err e)
  /\ (forall q, verify_message_signatures clk m rfp keys = Panic q ->
      (forall clk' key kid, verify_message_signature clk' m rfp key kid = Panic q)
      \/ exists i key kid q', nth_error keys i = Some (key, kid) /\ verify_message_signature (fun _ => clk i) m rfp key kid = Panic q').
Proof.
  intros clk m rfp keys. rewrite verify_unfold. split.
  - intros e H clk' key kid. rewrite verify_single. destruct (extract_signatures m rfp) as [l|e'|q'] eqn:E; cbn [bind] in *; try congruence.
    unfold verify_message_signatures_inner, join_all in H. destruct (first_panic _); discriminate.
  - intros q H. destruct (extract_signatures m rfp) as [l|e'|q'] eqn:E; cbn [bind] in *; try discriminate.
    + right. unfold verify_message_signatures_inner, join_all in H. destruct (first_panic _) as [q'|] eqn:Ep; [|discriminate]. inv H.
      apply first_panic_some in Ep. apply In_nth_error in Ep as [i Hi]. rewrite mapi_nth in Hi. destruct (nth_error keys i) as [[key kid]|] eqn:Ek; [|discriminate].
      cbn [option_map fst snd Nat.add] in Hi. exists i, key, kid, q. split; [assumption|]. rewrite verify_single, E. cbn [bind]. congruence.
    + left. intros clk' key kid. rewrite verify_single, E. inv H. reflexivity.
Qed.
Print Assumptions C40_failure.
Example C40_example : verify_message_signatures (fun _ _ => 0) ex_signed None [(toy_vk, None); (toy_vk, Some (lit "z")); (shared_verifying toy (ShHmacSha256 (lit "other")), Some (lit "k"))]
  = Ok [Ok (lit "sig1"); Err NoSignatureHeaders; Err HInvalidSignature].
Proof. vm_compute. reflexivity. Qed.

(** ** C41: req components in messages *)
Theorem C41_request_verify : forall clk r key kid n l h, verify_message_signature clk (MReq r) None key kid = Ok n ->
  received (MReq r) l -> In (n, h) l -> forall i, In i (sp_covered (sh_params h)) -> ~ In Req (id_params i).
Proof.
  intros clk r key kid n l h H Hl Hi i Hc Hr. apply verify_ok_iff in H as (l' & cs & j & b & h' & Hl' & Hcd & _ & Hj & _).
  rewrite (received_fun _ _ _ Hl' Hl) in *. apply nth_error_In in Hj. eapply candidates_in in Hj as (Hin & Hb & _); [|exact Hcd].
  assert (h' = h).
  { destruct (received_names _ _ Hl) as [Hn _]. clear -Hi Hin Hn. induction l as [|[n' x] l IH]; [destruct Hi|]. inversion Hn as [|? ? Hx Hn']; subst.
    destruct Hi as [Hi|Hi], Hin as [Hin|Hin]; try (inv Hi); try (inv Hin); auto.
    - exfalso. apply Hx. apply (in_map fst) in Hin. exact Hin.
    - exfalso. apply Hx. apply (in_map fst) in Hi. exact Hi. }
  subst h'. apply build_base_spec in Hb as (lines & Hf & _). clear -Hc Hr Hf.
  induction Hf as [|x c is cs Hx Hf IH]; [destruct Hc|]. destruct Hc as [->|Hc]; [|auto].
  unfold component_line in Hx. apply set_contains_Req in Hr. rewrite Hr in Hx. discriminate.
Qed.
Print Assumptions C41_request_verify.
Theorem C41_request_sign : forall r jobs j i, In j jobs -> In i (sp_covered (j_params j)) -> In Req (id_params i) ->
  exists e, set_message_signatures (MReq r) None jobs = (MReq r, Err e).
Proof.
  intros r jobs j i Hj Hi Hr. unfold set_message_signatures, make_signatures.
  assert (Hb : exists e, build_signature_base (MReq r) (j_params j) None = Err e).
  { destruct (build_signature_base (MReq r) (j_params j) None) as [b|e|q] eqn:E; [|eauto|exfalso; eapply base_panic; exact E].
    exfalso. apply build_base_spec in E as (lines & Hf & _). clear -Hi Hr Hf.
    induction Hf as [|x c is cs Hx Hf IH]; [destruct Hi|]. destruct Hi as [->|Hi]; [|auto].
    unfold component_line in Hx. apply set_contains_Req in Hr. rewrite Hr in Hx. discriminate. }
  destruct Hb as [e He].
  assert (Hcol : exists e', collect (fun j => rmap (fun b => (b, j)) (build_signature_base (MReq r) (j_params j) None)) jobs = Err e').
  { clear Hi Hr. induction jobs as [|x jobs IH]; [destruct Hj|]. cbn [collect]. destruct Hj as [->|Hj].
    - rewrite He. cbn [rmap]. eauto.
    - destruct (build_signature_base (MReq r) (j_params x) None) as [b|e'|q] eqn:Ex; cbn [rmap]; [|eauto|exfalso; eapply base_panic; exact Ex].
      destruct (IH Hj) as [e' ->]. eauto. }
  destruct Hcol as [e' ->]. cbn [bind]. eauto.
Qed.
Print Assumptions C41_request_sign.
(** without the associated request a response signature with req is never accepted *)
Theorem C41_response_needs_request : forall x rp b i, build_signature_base (MRes x) rp None = Ok b -> In i (sp_covered rp) -> ~ In Req (id_params i).
Proof.
  intros x rp b i Hb Hi Hr. apply build_base_spec in Hb as (lines & Hf & _).
  induction Hf as [|y c is cs Hx Hf IH]; [destruct Hi|]. destruct Hi as [->|Hi]; [|auto].
  unfold component_line in Hx. apply set_contains_Req in Hr. rewrite Hr in Hx. discriminate.
Qed.
Print Assumptions C41_response_needs_request.

(** ** C43 *)
Theorem C43_has_signature : forall m, has_message_signature m = true <-> signed m.
Proof. exact has_signature_spec. Qed.
Print Assumptions C43_has_signature.
Lemma extract_no_headers m : extract_signature_headers_with_name m = Err NoSignatureHeaders <-> ~ signed m.
Proof.
  split; [|apply extract_unsigned]. destruct (extract_cases m) as [[H _]|[(H & _ & ->)|(H & _ & _ & ->)]]; [auto|discriminate|].
  destruct (try_parse _ _); discriminate.
Qed.
Theorem C43_inspection : forall rsa m rfp,
  (get_alg_key_ids rsa m = Err NoSignatureHeaders <-> ~ signed m) /\ (get_signature_params m = Err NoSignatureHeaders <-> ~ signed m)
  /\ (extract_signatures m rfp = Err NoSignatureHeaders <-> ~ signed m).
Proof.
  intros rsa m rfp. pose proof (extract_no_headers m) as H. unfold get_alg_key_ids, get_signature_params, extract_signatures.
  destruct (extract_signature_headers_with_name m) as [l|e|q]; cbn [bind].
  - split; [split; [discriminate|intro Hs; apply H in Hs; discriminate]|]. split; [split; [discriminate|intro Hs; apply H in Hs; discriminate]|].
    destruct (first_panic _); (split; [discriminate|intro Hs; apply H in Hs; discriminate]).
  - assert (E : forall A, Err e = @Err herr A NoSignatureHeaders <-> ~ signed m) by (intro A; rewrite <- H; split; intro E; inv E; reflexivity).
    repeat split; apply E.
  - repeat split; try discriminate; intro Hs; apply H in Hs; discriminate.
Qed.
Print Assumptions C43_inspection.
Theorem C43_verify : forall clk m rfp key kid, verify_message_signature clk m rfp key kid = Err NoSignatureHeaders
  <-> ~ signed m \/ exists l, received m l /\ checked m rfp kid l [].
Proof.
  intros clk m rfp key kid.
  assert (Hch : (exists l, received m l /\ checked m rfp kid l []) <-> exists l, received m l /\ candidates m rfp kid l []).
  { split; intros (l & Hl & Hc); exists l; (split; [assumption|]); [|apply candidates_checked in Hc; exact Hc].
    apply checked_candidates in Hc as (cs & Hc & E). destruct cs; [exact Hc|discriminate]. }
  rewrite Hch. clear Hch. split.
  - intro H. destruct (received_dec m) as [[l Hl]|Hn].
    + right. destruct (candidates_exist m rfp kid l) as [cs Hc]. exists l. split; [assumption|].
      pose proof (verify_outcome clk m rfp key kid l cs Hl Hc) as Ho. rewrite H in Ho. inversion Ho; subst. assumption.
    + left. destruct (verify_not_received clk m rfp key kid Hn) as [(e & E1 & E2)|(q & E1 & E2)]; [|congruence].
      apply extract_no_headers. congruence.
  - intros [H|(l & Hl & Hc)].
    + rewrite verify_single, extract_signatures_unsigned by assumption. reflexivity.
    + pose proof (verify_outcome clk m rfp key kid l [] Hl Hc) as Ho.
      inversion Ho as [E E0|j n b h q Hj _ E|j n b h _ Hj _ _ E|Hne _ E]; try (destruct j; discriminate); congruence.
Qed.
Print Assumptions C43_verify.
Example C43_example : signed ex_signed /\ ~ signed (MReq ex_req)
  /\ verify_message_signature (fun _ _ => 0) (MReq ex_req) None toy_vk None = Err NoSignatureHeaders
  /\ get_signature_params (MReq ex_req) = Err NoSignatureHeaders.
Proof.
  split; [apply has_signature_spec; vm_compute; reflexivity|]. split; [|split; vm_compute; reflexivity].
  intro H. apply has_signature_spec in H. vm_compute in H. discriminate.
Qed.

(** ** C44 *)
Lemma map_names_nodup {A B} (f : str * A -> str * B) l : (forall x, fst (f x) = fst x) -> NoDup (map fst l) -> im_of_list (map f l) = map f l.
Proof. intros Hf Hn. apply im_of_list_id. rewrite map_map. rewrite (map_ext _ fst Hf). exact Hn. Qed.
Theorem C44_params : forall m ps, get_signature_params m = Ok ps <-> exists l, received m l /\ ps = map (fun nh => (fst nh, sh_params (snd nh))) l.
Proof.
  intros m ps. unfold get_signature_params. split.
  - destruct (extract_signature_headers_with_name m) as [l|e|q] eqn:E; cbn [bind]; try discriminate. apply extract_spec in E. intro H. inv H.
    exists l. split; [assumption|]. apply map_names_nodup; [reflexivity|]. eapply received_names, E.
  - intros (l & Hl & ->). rewrite (proj2 (extract_spec _ _) Hl). cbn [bind]. rewrite map_names_nodup; [reflexivity|reflexivity|]. eapply received_names, Hl.
Qed.
Print Assumptions C44_params.
(** the supported algorithm with a given name *)
Definition supported (rsa : bool) (s : str) (a : alg) : Prop := In (s, a) (registered ++ if rsa then registered_rsa else []).
Lemma alg_of_supported (rsa : bool) s : (forall a, alg_of_str rsa s = Ok a <-> supported rsa s a) /\ (forall q, alg_of_str rsa s <> Panic q).
Proof.
  split; [intro a; apply alg_of_str_spec|]. intro q. unfold alg_of_str.
  repeat (match goal with |- (if ?b then _ else _) <> _ => destruct b; [discriminate|] end). discriminate.
Qed.
Theorem C44_alg_key_ids : forall (rsa : bool) m r, get_alg_key_ids rsa m = Ok r ->
  exists l, received m l /\ Forall2 (fun (nh : str * sigheaders) (x : str * (option alg * option str)) =>
    fst x = fst nh /\ snd (snd x) = sp_keyid (sh_params (snd nh))
    /\ (forall a, fst (snd x) = Some a <-> exists s, sp_alg (sh_params (snd nh)) = Some s /\ supported rsa s a)) l r.
Proof.
  intros rsa m r. unfold get_alg_key_ids. destruct (extract_signature_headers_with_name m) as [l|e|q] eqn:E; cbn [bind]; try discriminate.
  apply extract_spec in E. intro H. inv H. exists l. split; [assumption|].
  rewrite map_names_nodup; [|reflexivity|eapply received_names, E]. clear E. induction l as [|[n h] l IH]; constructor; [|assumption]. cbn [fst snd].
  split; [reflexivity|]. split; [reflexivity|]. intro a. destruct (sp_alg (sh_params h)) as [s|].
  - destruct (alg_of_supported rsa s) as [Ha Hp]. destruct (alg_of_str rsa s) as [x|x|x] eqn:Ex.
    + split; [intro H; inv H; exists s; split; [reflexivity|apply Ha, eq_refl]|]. intros (s' & Hs & Hx). inv Hs. apply Ha in Hx. congruence.
    + split; [discriminate|]. intros (s' & Hs & Hx). inv Hs. apply Ha in Hx. congruence.
    + destruct (Hp x eq_refl).
  - split; [discriminate|]. intros (s & Hs & _). discriminate.
Qed.
Print Assumptions C44_alg_key_ids.
Lemma extract_candidates : forall m rfp cs, extract_signatures m rfp = Ok cs <-> exists l, received m l /\ candidates m rfp None l cs.
Proof. exact extract_signatures_spec. Qed.
(** the signatures for which the message has a text, with bases that have this text *)
Theorem C44_extract : forall m rfp cs, extract_signatures m rfp = Ok cs ->
  exists l, received m l /\ checked m rfp None l (map (fun x : str * (sigbase * sigheaders) => (fst x, (base_str (fst (snd x)), snd (snd x)))) cs).
Proof. intros m rfp cs H. apply extract_candidates in H as (l & Hl & Hc). exists l. split; [assumption|]. apply candidates_checked in Hc. exact Hc. Qed.
Print Assumptions C44_extract.
(** all of them answer for the same messages *)
Theorem C44_same_messages : forall rsa m rfp,
  ((exists r, get_alg_key_ids rsa m = Ok r) <-> exists l, received m l) /\ ((exists r, get_signature_params m = Ok r) <-> exists l, received m l)
  /\ ((exists r, extract_signatures m rfp = Ok r) <-> exists l, received m l).
Proof.
  intros rsa m rfp. split; [|split].
  - split; [intros [r H]; apply C44_alg_key_ids in H as (l & H & _); eauto|]. intros [l Hl]. unfold get_alg_key_ids. rewrite (proj2 (extract_spec _ _) Hl). cbn [bind]. eauto.
  - split; [intros [r H]; apply C44_params in H as (l & H & _); eauto|]. intros [l Hl]. eexists. apply C44_params. eauto.
  - split; [intros [r H]; apply extract_candidates in H as (l & H & _); eauto|]. intros [l Hl]. destruct (candidates_exist m rfp None l) as [cs Hc]. exists cs. apply extract_candidates. eauto.
Qed.
Print Assumptions C44_same_messages.
Example C44_example : get_alg_key_ids false ex_signed = Ok [(lit "sig1", (None, Some (lit "k")))]
  /\ get_signature_params ex_signed = Ok [(lit "sig1", ex_params)]
  /\ exists b h, extract_signatures ex_signed None = Ok [(lit "sig1", (b, h))].
Proof. split; [vm_compute; reflexivity|]. split; [vm_compute; reflexivity|]. eexists. eexists. vm_compute. reflexivity. Qed.

(** ** C15 *)
(** nothing panics on other messages (C84 says exactly which these are) *)
Theorem C15_safe_partial : forall rsa m rfp, ~ panic_message m ->
  forall q, get_alg_key_ids rsa m <> Panic q /\ get_signature_params m <> Panic q /\ extract_signatures m rfp <> Panic q
  /\ forall clk key kid, total_key key -> verify_message_signature clk m rfp key kid <> Panic q.
Proof.
  intros rsa m rfp H q.
  assert (He : extract_signature_headers_with_name m <> Panic q) by (intro E; apply H, extract_panics; eauto).
  split; [|split; [|split]].
  - unfold get_alg_key_ids. destruct (extract_signature_headers_with_name m); cbn [bind]; congruence.
  - unfold get_signature_params. destruct (extract_signature_headers_with_name m); cbn [bind]; congruence.
  - destruct (received_dec m) as [[l Hl]|Hn].
    + destruct (candidates_exist m rfp None l) as [cs Hc]. rewrite (proj2 (extract_signatures_spec m rfp cs) (ex_intro _ l (conj Hl Hc))). discriminate.
    + destruct (extract_signatures_fail m rfp Hn) as [(e & _ & ->)|(q' & H1 & ->)]; [discriminate|congruence].
  - intros clk key kid Hk E. destruct (C36_rejects clk m rfp key kid H Hk) as [[n E']|[e E']]; congruence.
Qed.
Print Assumptions C15_safe_partial.
(** which members panic, exactly *)
Theorem C15_exactly_partial : forall l, entry_value (EInner l) -> ((exists q, sparams_of_entry (EInner l) = Panic q) <-> params_panic l).
Proof. intros l Hv. apply entry_panics. apply SpecSfvProofs.entry_value_spec in Hv. exact Hv. Qed.
Print Assumptions C15_exactly_partial.
Definition attack (input : str) : msg := MReq (mkReq (lit "GET") ex_uri [(lit "signature-input", input); (lit "signature", lit "a=:AA==:")] []).
(** a remote peer can make the library panic: a negative creation time, an unknown derived component *)
Theorem C15_refuted : exists t1 t2,
  (forall clk key kid, verify_message_signature clk (attack t1) None key kid = Panic PNegative)
  /\ get_signature_params (attack t1) = Panic PNegative
  /\ (forall clk key kid, verify_message_signature clk (attack t2) None key kid = Panic PDerivedName)
  /\ get_signature_params (attack t2) = Panic PDerivedName.
Proof.
  exists (lit "a=();created=-1"), (lit "a=(""@foo"")").
  assert (E1 : extract_signatures (attack (lit "a=();created=-1")) None = Panic PNegative) by (vm_compute; reflexivity).
  assert (E2 : extract_signatures (attack (lit "a=(""@foo"")")) None = Panic PDerivedName) by (vm_compute; reflexivity).
  split; [intros; rewrite verify_single, E1; reflexivity|]. split; [vm_compute; reflexivity|].
  split; [intros; rewrite verify_single, E2; reflexivity|]. vm_compute. reflexivity.
Qed.
Print Assumptions C15_refuted.
Example C15_example : ~ panic_message ex_signed.
Proof. rewrite <- extract_panics. intros [q H]. vm_compute in H. discriminate H. Qed.

(** ** C57 *)
(** the algorithm parameter is not compared with the key: an HMAC signature labelled ed25519 is accepted by the HMAC key *)
Definition ex_alg : msg := fst (set_message_signatures (MReq ex_req) None [mkJob (set_alg ex_params Ed25519) toy_key (Some (lit "sig1")) 0]).
Theorem C57_refuted : exists m n l h, verify_message_signature (fun _ _ => 1618884500) m None toy_vk None = Ok n /\ received m l /\ In (n, h) l
  /\ sp_alg (sh_params h) = Some (lit "ed25519") /\ vk_alg toy_vk = HmacSha256.
Proof.
  assert (E : exists l h, extract_signature_headers_with_name ex_alg = Ok l /\ In (lit "sig1", h) l /\ sp_alg (sh_params h) = Some (lit "ed25519")).
  { eexists. eexists. split; [vm_compute; reflexivity|]. split; [left; reflexivity|reflexivity]. }
  destruct E as (l & h & E & H1 & H2). apply extract_spec in E.
  exists ex_alg, (lit "sig1"), l, h. split; [vm_compute; reflexivity|]. auto.
Qed.
Print Assumptions C57_refuted.
