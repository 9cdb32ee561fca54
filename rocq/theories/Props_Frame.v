(** C45, C46: what verification depends on. *)
From Verif Require Import Base BaseFacts Utf8 Sfv SpecGrammar GrammarProofs SpecCanon CanonProofs Component Crypto Params SigBase Http Hyper SpecSfv SpecId SpecParams SpecValue SpecBase SpecIdText IdTextProofs SpecMsg HeaderProofs MsgProofs VerifyProofs SpecExtract ExtractProofs FrameProofs SpecSign SignProofs Toy Props_Verify.

(** ** C45 *)
(** two messages with the same signature headers that agree on what the covered components are taken from *)
Theorem C45_same_outcome : forall m rfp m' rfp',
  same_joined (msg_headers m) (msg_headers m') (lit "signature") -> same_joined (msg_headers m) (msg_headers m') (lit "signature-input") ->
  (forall l n h i, received m l -> In (n, h) l -> In i (sp_covered (sh_params h)) -> agree i m rfp m' rfp') ->
  (forall clk keys, verify_message_signatures clk m rfp keys = verify_message_signatures clk m' rfp' keys)
  /\ (forall clk key kid, verify_message_signature clk m rfp key kid = verify_message_signature clk m' rfp' key kid)
  /\ extract_signatures m rfp = extract_signatures m' rfp'.
Proof.
  intros m rfp m' rfp' H1 H2 H. pose proof (signatures_same m rfp m' rfp' H1 H2 H) as E. split; [|split; [|assumption]].
  - intros. apply verify_same. assumption.
  - intros. rewrite !verify_single, E. reflexivity.
Qed.
Print Assumptions C45_same_outcome.
(** the inspecting functions depend on the signature headers only *)
Theorem C45_inspection : forall m m',
  same_joined (msg_headers m) (msg_headers m') (lit "signature") -> same_joined (msg_headers m) (msg_headers m') (lit "signature-input") ->
  get_signature_params m = get_signature_params m' /\ (forall rsa, get_alg_key_ids rsa m = get_alg_key_ids rsa m') /\ has_message_signature m = has_message_signature m'.
Proof.
  intros m m' H1 H2. pose proof (headers_same m m' H1 H2) as E. split; [unfold get_signature_params; rewrite E; reflexivity|]. split; [intro rsa; unfold get_alg_key_ids; rewrite E; reflexivity|].
  apply eq_true_iff_eq. rewrite !has_signature_spec. destruct H1 as [_ H1], H2 as [_ H2]. unfold signed. tauto.
Qed.
Print Assumptions C45_inspection.
Lemma same_joined_refl h n : same_joined h h n.
Proof. split; reflexivity. Qed.
Definition set_body (m : msg) (b : body) : msg :=
  match m with MReq r => MReq (mkReq (rq_method r) (rq_uri r) (rq_headers r) b) | MRes x => MRes (mkRes (rs_status x) (rs_headers x) b) end.
Theorem C45_body : forall m rfp b clk key kid, verify_message_signature clk (set_body m b) rfp key kid = verify_message_signature clk m rfp key kid.
Proof.
  intros m rfp b clk key kid. symmetry.
  assert (Eh : msg_headers (set_body m b) = msg_headers m) by (destruct m; reflexivity).
  assert (Ek : is_request m = is_request (set_body m b)) by (destruct m; reflexivity).
  apply C45_same_outcome; try (rewrite Eh; apply same_joined_refl).
  intros l n h i _ _ _. split; [exact Ek|]. split; [|intros _; destruct rfp; [apply agree_on_refl|exact I]]. intros _. split; [exact Ek|]. rewrite Eh.
  destruct (id_name i) as [x|d]; [intros _; left; reflexivity|]. destruct m; destruct d; try reflexivity; split; reflexivity.
Qed.
Print Assumptions C45_body.
(** a field [n] that is neither a signature header nor covered may be added, changed or removed *)
Theorem C45_uncovered_field : forall m rfp h n, n <> lit "signature" -> n <> lit "signature-input" ->
  (forall n', n' <> n -> field_lines h n' = field_lines (msg_headers m) n') ->
  (forall l k s i x, received m l -> In (k, s) l -> In i (sp_covered (sh_params s)) -> id_name i = HttpField x -> field_name x -> lower x = n -> In Req (id_params i)) ->
  forall clk key kid, verify_message_signature clk (msg_set_headers m h) rfp key kid = verify_message_signature clk m rfp key kid.
Proof.
  intros m rfp h n N1 N2 Hf Hc clk key kid. symmetry.
  assert (Ek : is_request m = is_request (msg_set_headers m h)) by (destruct m; reflexivity).
  apply C45_same_outcome; try (rewrite set_headers_get; unfold same_joined; rewrite Hf by congruence; apply same_joined_refl).
  intros l k s i Hl Hi Hcv. split; [exact Ek|]. split; [|intros _; destruct rfp; [apply agree_on_refl|exact I]]. intro Hr. split; [exact Ek|]. rewrite set_headers_get.
  destruct (id_name i) as [x|d] eqn:Ei.
  - intro Hx. left. symmetry. apply Hf. intro E. apply Hr. exact (Hc l k s i x Hl Hi Hcv Ei Hx E).
  - destruct d; try (destruct m; split; reflexivity); try (destruct m; reflexivity). symmetry. apply Hf. congruence.
Qed.
Print Assumptions C45_uncovered_field.
(** the associated request matters only for req components *)
Theorem C45_associated_request : forall m rfp rfp',
  (forall l n h i, received m l -> In (n, h) l -> In i (sp_covered (sh_params h)) -> ~ In Req (id_params i)) ->
  forall clk key kid, verify_message_signature clk m rfp key kid = verify_message_signature clk m rfp' key kid.
Proof.
  intros m rfp rfp' H clk key kid. apply C45_same_outcome; try apply same_joined_refl.
  intros l n h i Hl Hi Hc. split; [reflexivity|]. split; [intros _; apply agree_on_refl|]. intro Hr. destruct (H l n h i Hl Hi Hc Hr).
Qed.
Print Assumptions C45_associated_request.
(** signing, too, depends on the covered parts only *)
Theorem C45_signing : forall m rfp m' rfp' jobs, (forall j i, In j jobs -> In i (sp_covered (j_params j)) -> agree i m rfp m' rfp') ->
  make_signatures m rfp jobs = make_signatures m' rfp' jobs
  /\ snd (set_message_signatures m rfp jobs) = snd (set_message_signatures m' rfp' jobs).
Proof.
  intros m rfp m' rfp' jobs H.
  assert (E : make_signatures m rfp jobs = make_signatures m' rfp' jobs).
  { unfold make_signatures. f_equal. apply collect_ext. intros j Hj. rewrite (base_same m rfp m' rfp'); [reflexivity|]. intros i Hi. apply (H j); assumption. }
  split; [exact E|]. unfold set_message_signatures. rewrite E. destruct (make_signatures m' rfp' jobs) as [l|e|q]; try reflexivity.
  assert (Ha : forall l h h', snd (append_signatures h l) = snd (append_signatures h' l)).
  { clear. induction l as [|s l IH]; intros h h'; [reflexivity|]. cbn [append_signatures]. destruct (header_value _); [|reflexivity]. destruct (header_value _); [apply IH|reflexivity]. }
  specialize (Ha l (msg_headers m) (msg_headers m')). destruct (append_signatures (msg_headers m) l), (append_signatures (msg_headers m') l). exact Ha.
Qed.
Print Assumptions C45_signing.
Example C45_example : exists l h, received ex_signed l /\ In (lit "sig1", h) l /\ sp_covered (sh_params h) = sp_covered ex_params
  /\ verify_message_signature (fun _ _ => 1618884500) (msg_set_headers ex_signed ((lit "x-new", lit "1") :: filter (fun kv => negb (str_eqb (fst kv) (lit "host"))) (msg_headers ex_signed))) None toy_vk None = Ok (lit "sig1")
  /\ verify_message_signature (fun _ _ => 1618884500) (msg_set_headers ex_signed ((lit "date", lit "1") :: msg_headers ex_signed)) None toy_vk None = Err HInvalidSignature.
Proof.
  eexists. eexists. split; [apply extract_spec; vm_compute; reflexivity|]. split; [left; reflexivity|]. split; [reflexivity|]. split; vm_compute; reflexivity.
Qed.

(** ** C46 *)
(** header maps with the same lines for every name: only the order between different names may differ *)
Theorem C46_order : forall m rfp h, (forall n, field_lines h n = field_lines (msg_headers m) n) ->
  forall clk key kid, verify_message_signature clk (msg_set_headers m h) rfp key kid = verify_message_signature clk m rfp key kid.
Proof.
  intros m rfp h Hf clk key kid. symmetry.
  assert (Ek : is_request m = is_request (msg_set_headers m h)) by (destruct m; reflexivity).
  apply C45_same_outcome; try (rewrite set_headers_get; unfold same_joined; rewrite Hf; apply same_joined_refl).
  intros l k s i Hl Hi Hcv. split; [exact Ek|]. split; [|intros _; destruct rfp; [apply agree_on_refl|exact I]]. intros _. split; [exact Ek|]. rewrite set_headers_get.
  destruct (id_name i) as [x|d]; [intros _; left; symmetry; apply Hf|]. destruct d; try (destruct m; split; reflexivity); try (destruct m; reflexivity). symmetry. apply Hf.
Qed.
Print Assumptions C46_order.
(** swapping two neighbouring lines with different names is such a change *)
Theorem C46_swap : forall a n1 v1 n2 v2 b, n1 <> n2 -> forall n, field_lines (a ++ (n1, v1) :: (n2, v2) :: b) n = field_lines (a ++ (n2, v2) :: (n1, v1) :: b) n.
Proof.
  intros a n1 v1 n2 v2 b Hn n. rewrite !field_lines_app. f_equal. unfold field_lines. cbn [filter fst].
  destruct (list_eq_dec N.eq_dec n1 n) as [->|], (list_eq_dec N.eq_dec n2 n) as [->|]; congruence.
Qed.
Print Assumptions C46_swap.
(** fields without parameters, and the signature headers, may be split at comma-space or joined *)
Theorem C46_splitting : forall m rfp h, (forall n, same_joined (msg_headers m) h n) ->
  (forall l k s i x, received m l -> In (k, s) l -> In i (sp_covered (sh_params s)) -> id_name i = HttpField x -> forall p, In p (id_params i) -> p = Req) ->
  (forall l k s i, received m l -> In (k, s) l -> In i (sp_covered (sh_params s)) -> id_name i <> Derived SignatureParams) ->
  forall clk key kid, verify_message_signature clk (msg_set_headers m h) rfp key kid = verify_message_signature clk m rfp key kid.
Proof.
  intros m rfp h Hf Hp Hs clk key kid. symmetry.
  assert (Ek : is_request m = is_request (msg_set_headers m h)) by (destruct m; reflexivity).
  apply C45_same_outcome; try (rewrite set_headers_get; apply Hf).
  intros l k s i Hl Hi Hcv. split; [exact Ek|]. split; [|intros _; destruct rfp; [apply agree_on_refl|exact I]]. intros _. split; [exact Ek|]. rewrite set_headers_get.
  destruct (id_name i) as [x|d] eqn:Ei.
  - intros _. right. split; [exact (Hp l k s i x Hl Hi Hcv Ei)|]. apply Hf.
  - destruct d; try (destruct m; split; reflexivity); try (destruct m; reflexivity). destruct (Hs l k s i Hl Hi Hcv Ei).
Qed.
Print Assumptions C46_splitting.
Theorem C46_split_line : forall a n v w b, forall n', same_joined (a ++ (n, v ++ lit ", " ++ w) :: b) (a ++ (n, v) :: (n, w) :: b) n'.
Proof.
  intros a n v w b n'. unfold same_joined. rewrite !field_lines_app. unfold field_lines at 2 4 6 8. cbn [filter fst]. destruct (list_eq_dec N.eq_dec n n') as [->|Hn].
  - cbn [map snd]. set (A := field_lines a n'). set (B := map snd _). split.
    + assert (E : comma_join ((v ++ lit ", " ++ w) :: B) = comma_join (v :: w :: B)) by (cbn [comma_join flat_map]; rewrite <- !app_assoc; reflexivity).
      destruct A as [|x A]; [exact E|]. rewrite !comma_join_app by discriminate. rewrite E. reflexivity.
    + split; intro E; apply app_eq_nil in E as [_ E]; discriminate.
  - split; reflexivity.
Qed.
Print Assumptions C46_split_line.
(** the value of such a component is the same *)
Theorem C46_same_value : forall m rfp h i, (forall n, same_joined (msg_headers m) h n) ->
  (forall p, In p (id_params i) -> p = Req) -> id_name i <> Derived SignatureParams ->
  component_line m rfp i = component_line (msg_set_headers m h) rfp i.
Proof.
  intros m rfp h i Hf Hp Hs. rewrite (line_same m rfp (msg_set_headers m h) rfp); [reflexivity|].
  assert (Ek : is_request m = is_request (msg_set_headers m h)) by (destruct m; reflexivity).
  split; [exact Ek|]. split; [|intros _; destruct rfp; [apply agree_on_refl|exact I]]. intros _. split; [exact Ek|]. rewrite set_headers_get.
  destruct (id_name i) as [x|d] eqn:Ei.
  - intros _. right. split; [exact Hp|]. apply Hf.
  - destruct d; try (destruct m; split; reflexivity); try (destruct m; reflexivity). congruence.
Qed.
Print Assumptions C46_same_value.
Example C46_example : verify_message_signature (fun _ _ => 1618884500)
  (msg_set_headers ex_signed (flat_map (fun kv => if str_eqb (fst kv) (lit "date") then [(lit "date", lit "Tue"); (lit "date", lit "20 Apr 2021 02:07:55 GMT")] else [kv]) (rev (msg_headers ex_signed)))) None toy_vk None = Ok (lit "sig1")
  /\ exists a b, field_lines (msg_headers ex_signed) (lit "date") = [a] /\ a = lit "Tue" ++ lit ", " ++ b.
Proof. split; [vm_compute; reflexivity|]. exists (lit "Tue, 20 Apr 2021 02:07:55 GMT"), (lit "20 Apr 2021 02:07:55 GMT"). split; vm_compute; reflexivity. Qed.
