(** C94-C99: signature bases, identifiers, values and digests used directly. *)
From Verif Require Import Base BaseFacts Utf8 Base64 Base64Facts Sfv SpecSfv SpecSfvProofs Component Crypto Params SigBase Http Hyper Digest Toy SpecId IdProofs SpecParams ParamsProofs SpecValue ValueProofs SpecBase BaseProofs SpecMsg MsgProofs VerifyProofs
  SpecExtract ExtractProofs SpecDigest DigestProofs SpecCrypto CryptoProofs Sha2 Sha2Proofs SpecApi Decide Props_Id Props_Base Props_Params Props_Crypto Props_Value Props_Verify Props_Sign Props_Digest.

Lemma built lines p b : base_try_new lines p = Ok b -> b = mkBase lines p.
Proof. unfold base_try_new. destruct (negb _); [discriminate|]. destruct (negb _); [discriminate|]. congruence. Qed.
Lemma built_bytes lines p : base_bytes (mkBase lines p) = utf8 (lines_text lines p).
Proof.
  destruct (C19_layout (mkBase lines p)) as [H1 H2]. rewrite H2, H1. cbn [sb_lines sb_params]. unfold lines_text. f_equal.
Qed.
Lemma past_spec now p : is_expired now p = true <-> past now p.
Proof. apply C16_expired. Qed.

(** ** C94 *)
Theorem C94_raw : forall lines p b k seed, base_try_new lines p = Ok b ->
  build_raw_signature b k seed = sk_sign k seed (utf8 (lines_text lines p)).
Proof. intros lines p b k seed H. apply built in H as ->. unfold build_raw_signature. rewrite built_bytes. reflexivity. Qed.
Print Assumptions C94_raw.
Theorem C94_headers : forall lines p b k name seed h, base_try_new lines p = Ok b ->
  (build_signature_headers b k name seed = Ok h <->
   sk_sign k seed (utf8 (lines_text lines p)) = Ok (sh_sig h) /\ sh_params h = p /\ sh_name h = match name with Some n => n | None => lit "sig" end).
Proof.
  intros lines p b k name seed h H. unfold build_signature_headers. rewrite (C94_raw _ _ _ _ _ H). apply built in H as ->. cbn [sb_params].
  destruct (sk_sign k seed _) as [s|e|q]; cbn [bind]; split; try discriminate; try (intros (H & _); discriminate H).
  - intro E. injection E as <-. cbn. auto.
  - intros (E & Hp & Hn). injection E as ->. destruct h as [a c d]. cbn in *. subst. reflexivity.
Qed.
Print Assumptions C94_headers.
Theorem C94_fails : forall lines p b k name seed, base_try_new lines p = Ok b ->
  (forall e, build_signature_headers b k name seed = Err e <-> sk_sign k seed (utf8 (lines_text lines p)) = Err e)
  /\ (forall q, build_signature_headers b k name seed = Panic q <-> sk_sign k seed (utf8 (lines_text lines p)) = Panic q).
Proof.
  intros lines p b k name seed H. unfold build_signature_headers. rewrite (C94_raw _ _ _ _ _ H).
  destruct (sk_sign k seed _) as [s|e|q]; cbn [bind]; split; intro; split; congruence.
Qed.
Print Assumptions C94_fails.
(** what was made verifies as long as it has not expired *)
Theorem C94_verifies : forall lines p b sk vk name seed h now, base_try_new lines p = Ok b -> matching sk vk ->
  build_signature_headers b sk name seed = Ok h ->
  (~ past now p -> verify_signature_headers now b vk h = Ok tt)
  /\ (past now p -> verify_signature_headers now b vk h = Err ExpiredSignatureParams).
Proof.
  intros lines p b sk vk name seed h now H Hm Hh. apply (C94_headers _ _ _ _ _ _ _ H) in Hh as (Hs & Hp & _). apply built in H as ->.
  unfold verify_signature_headers. rewrite Hp, built_bytes. destruct (is_expired now p) eqn:E.
  - apply past_spec in E. split; [contradiction|reflexivity].
  - split; [|intro Hx; apply past_spec in Hx; congruence]. intros _. apply (Hm seed), Hs.
Qed.
Print Assumptions C94_verifies.

Example C94_example : matching toy_key toy_vk
  /\ exists b h, base_try_new [mkComp (mkCid (Derived Method) []) (VString (lit "GET"))] (mkSparams (Some 100) None None None None None [mkCid (Derived Method) []]) = Ok b
     /\ build_signature_headers b toy_key (Some (lit "s")) 0 = Ok h /\ sh_name h = lit "s"
     /\ verify_signature_headers 1000 b toy_vk h = Ok tt.
Proof. split; [exact toy_matching|]. eexists. eexists. split; [vm_compute; reflexivity|]. split; [vm_compute; reflexivity|]. split; [reflexivity|]. vm_compute. reflexivity. Qed.

(** ** C95 *)
Definition api_lines : list comp := [mkComp (mkCid (Derived Method) []) (VString (lit "GET"))].
Definition api_params (e : option N) : sparams := mkSparams (Some 100) e None None None None [mkCid (Derived Method) []].
Theorem C95_refuted : exists lines p b h now (key : verifying_key),
  base_try_new lines p = Ok b /\ verify_signature_headers now b key h = Ok tt /\ past now p /\ sh_params h <> p.
Proof.
  exists api_lines, (api_params (Some 200)), (mkBase api_lines (api_params (Some 200))).
  eexists (mkSh (lit "sig") _ (api_params None)), 300, toy_vk. split; [reflexivity|]. split; [|split].
  - cbn [verify_signature_headers sh_params sh_sig]. apply C28_verify_exact. reflexivity.
  - exists 200. split; [reflexivity|lia].
  - discriminate.
Qed.
Print Assumptions C95_refuted.
Theorem C95_exactly_partial : forall lines p b now key h, base_try_new lines p = Ok b ->
  (verify_signature_headers now b key h = Ok tt <-> ~ past now (sh_params h) /\ vk_verify key (utf8 (lines_text lines p)) (sh_sig h) = Ok tt)
  /\ (forall e, verify_signature_headers now b key h = Err e <->
        e = ExpiredSignatureParams /\ past now (sh_params h) \/ ~ past now (sh_params h) /\ vk_verify key (utf8 (lines_text lines p)) (sh_sig h) = Err e)
  /\ (forall q, verify_signature_headers now b key h = Panic q <-> ~ past now (sh_params h) /\ vk_verify key (utf8 (lines_text lines p)) (sh_sig h) = Panic q).
Proof.
  intros lines p b now key h H. apply built in H as ->. unfold verify_signature_headers. rewrite built_bytes.
  destruct (is_expired now (sh_params h)) eqn:E.
  - apply past_spec in E. split; [split; [discriminate|tauto]|]. split; intro x; [|split; [discriminate|tauto]].
    split; [intro Hx; injection Hx as <-; auto|]. intros [[-> _]|[Hn _]]; [reflexivity|contradiction].
  - assert (Hn : ~ past now (sh_params h)) by (intro Hx; apply past_spec in Hx; congruence).
    split; [tauto|]. split; intro x; [|tauto]. split; [auto|]. intros [[_ Hx]|[_ Hx]]; [contradiction|assumption].
Qed.
Print Assumptions C95_exactly_partial.
(** bases and headers taken from one message belong together *)
Theorem C95_message_partial : forall m rfp l n b h now key, extract_signatures m rfp = Ok l -> In (n, (b, h)) l ->
  verify_signature_headers now b key h = Ok tt ->
  exists t, signed_text m rfp (sh_params h) t /\ base_str b = t /\ ~ past now (sh_params h) /\ vk_verify key (utf8 t) (sh_sig h) = Ok tt.
Proof.
  intros m rfp l n b h now key Hl Hin Hv.
  assert (Ht : signed_text m rfp (sh_params h) (base_str b)).
  { apply C44_extract in Hl as (l' & _ & Hc).
    assert (Hi : In (n, (base_str b, h)) (map (fun x : str * (sigbase * sigheaders) => (fst x, (base_str (fst (snd x)), snd (snd x)))) l)).
    { apply in_map_iff. exists (n, (b, h)). split; [reflexivity|assumption]. }
    revert Hc Hi. generalize (map (fun x : str * (sigbase * sigheaders) => (fst x, (base_str (fst (snd x)), snd (snd x)))) l). clear. intros cs Hc.
    induction Hc; intro Hi; [destruct Hi| |auto]. destruct Hi as [Hi|Hi]; [|auto]. injection Hi as -> -> ->. assumption. }
  exists (base_str b). split; [assumption|]. split; [reflexivity|]. unfold verify_signature_headers in Hv.
  destruct (is_expired now (sh_params h)) eqn:E; [discriminate|]. split; [|exact Hv]. intro Hx. apply past_spec in Hx. congruence.
Qed.
Print Assumptions C95_message_partial.
Example C95_example : base_try_new api_lines (api_params (Some 200)) = Ok (mkBase api_lines (api_params (Some 200)))
  /\ lines_text api_lines (api_params (Some 200))
     = lit """@method"": GET" ++ 10 :: lit """@signature-params"": (""@method"");created=100;expires=200"
  /\ matching toy_key toy_vk
  /\ exists h, build_signature_headers (mkBase api_lines (api_params (Some 200))) toy_key None 0 = Ok h
     /\ sh_name h = lit "sig" /\ verify_signature_headers 200 (mkBase api_lines (api_params (Some 200))) toy_vk h = Ok tt
     /\ verify_signature_headers 201 (mkBase api_lines (api_params (Some 200))) toy_vk h = Err ExpiredSignatureParams
     /\ verify_signature_headers 200 (mkBase api_lines (api_params None)) toy_vk h = Err InvalidSignature.
Proof.
  split; [reflexivity|]. split; [vm_compute; reflexivity|]. split; [exact toy_matching|]. eexists. split; [vm_compute; reflexivity|].
  split; [reflexivity|]. split; [vm_compute; reflexivity|]. split; vm_compute; reflexivity.
Qed.

(** ** C96 *)
Lemma snoc_new {A} (l : list A) x : NoDup l -> ~ In x l -> NoDup (l ++ [x]).
Proof. intros H Hx. apply NoDup_rev in H. rewrite <- (rev_involutive (l ++ [x])). apply NoDup_rev. rewrite rev_app_distr. constructor; [rewrite <- in_rev; exact Hx|exact H]. Qed.
Lemma add_req_params i : id_params (add_req_param i) = if set_contains (id_params i) Req then id_params i else id_params i ++ [Req].
Proof. reflexivity. Qed.
Theorem C96_parameters : forall i, id_name (add_req_param i) = id_name i
  /\ (forall p, In p (id_params (add_req_param i)) <-> In p (id_params i) \/ p = Req)
  /\ (In Req (id_params i) -> add_req_param i = i) /\ add_req_param (add_req_param i) = add_req_param i.
Proof.
  assert (Hk : forall i, In Req (id_params i) -> add_req_param i = i).
  { intros [n ps] H. unfold add_req_param, set_insert. cbn [id_params id_name] in *. apply set_contains_In in H. rewrite H. reflexivity. }
  assert (Hi : forall i p, In p (id_params (add_req_param i)) <-> In p (id_params i) \/ p = Req).
  { intros i p. rewrite add_req_params. destruct (set_contains (id_params i) Req) eqn:E.
    - apply set_contains_In in E. split; [auto|]. intros [H| ->]; assumption.
    - rewrite in_app_iff. cbn [In]. split; [intros [H|[H|[]]]; auto|intros [H|H]; subst; auto]. }
  intro i. split; [reflexivity|]. split; [apply Hi|]. split; [apply Hk|]. apply Hk, Hi. auto.
Qed.
Print Assumptions C96_parameters.
Theorem C96_valid : forall i, valid_id i -> valid_id (add_req_param i) /\ exists s, cid_of_str s = Ok (add_req_param i).
Proof.
  intros i H. assert (Hv : valid_id (add_req_param i)).
  { destruct (set_contains (id_params i) Req) eqn:E.
    - apply set_contains_In in E. destruct (C96_parameters i) as (_ & _ & Hk & _). rewrite (Hk E). exact H.
    - destruct H as (Hn & Ha & Hd). unfold valid_id. rewrite add_req_params, E. cbn [id_name add_req_param]. split; [exact Hn|]. split.
      + apply Forall_app. split; [exact Ha|]. constructor; [exact I|constructor].
      + rewrite map_app. cbn [map]. apply snoc_new; [exact Hd|]. apply set_contains_false in E. intro Hx. apply E.
        apply in_map_iff in Hx as (p & Hp & Hx). destruct p; try discriminate Hp. exact Hx. }
  split; [exact Hv|]. apply C02_every_valid_id_parses, Hv.
Qed.
Print Assumptions C96_valid.
Theorem C96_text : forall i, ~ In Req (id_params i) -> cid_str (add_req_param i) = cid_str i ++ lit ";req".
Proof.
  intros i H. rewrite !id_text_spec. unfold id_text. rewrite add_req_params. apply set_contains_false in H. rewrite H. cbn [id_name add_req_param].
  rewrite flat_map_app, app_assoc. reflexivity.
Qed.
Print Assumptions C96_text.
Theorem C96_parsed : forall s i, cid_of_str s = Ok i -> clean_id i -> ~ In Req (id_params i) -> cid_of_str (cid_str i ++ lit ";req") = Ok (add_req_param i).
Proof.
  intros s i Hs Hc H. rewrite <- C96_text by assumption. apply C01_round_trip_valid_partial.
  - apply C96_valid. eapply C02_parsed_ids_are_valid. exact Hs.
  - destruct Hc as (H1 & H2 & H3). destruct (C96_parameters i) as (_ & Hi & _). split; [exact H1|].
    split; intros v Hv; apply Hi in Hv as [Hv|Hv]; try discriminate Hv; auto.
Qed.
Print Assumptions C96_parsed.
(** in a response it stands for the component of the request *)
Theorem C96_value : forall x r i, ~ In Req (id_params i) ->
  (forall v, component_line (MRes x) (Some r) (add_req_param i) = Ok (mkComp (add_req_param i) v) <-> component_line (MReq r) None i = Ok (mkComp i v))
  /\ (forall e, component_line (MRes x) (Some r) (add_req_param i) = Err e <-> component_line (MReq r) None i = Err e).
Proof.
  intros x r i H. destruct (C96_parameters i) as (_ & Hi & _). rewrite C41_value_of_the_request by (apply Hi; auto).
  assert (E : mkCid (id_name (add_req_param i)) (filter (fun p => match p with Req => false | _ => true end) (id_params (add_req_param i))) = i).
  { rewrite add_req_params. pose proof H as H'. apply set_contains_false in H'. rewrite H'. rewrite filter_app. cbn [filter]. rewrite app_nil_r.
    destruct i as [n ps]. cbn [id_name add_req_param id_params] in *. f_equal. clear -H. induction ps as [|p ps IH]; [reflexivity|]. cbn [filter].
    assert (Hp : p <> Req) by (intros ->; apply H; left; reflexivity). rewrite IH by (intro Hx; apply H; right; exact Hx). destruct p; congruence || reflexivity. }
  rewrite E. destruct (component_line (MReq r) None i) as [c|e|q] eqn:Ec; cbn [rmap]; split; intro y; try (split; congruence).
  assert (Hid : co_id c = i) by (eapply line_id; exact Ec). destruct c as [a b]. cbn in *. subst a. split; congruence.
Qed.
Print Assumptions C96_value.
Example C96_example : exists i, cid_of_str (lit """cache-control"";key=""max-age""") = Ok i /\ ~ In Req (id_params i)
  /\ cid_str (add_req_param i) = lit """cache-control"";key=""max-age"";req" /\ cid_of_str (lit """cache-control"";req;key=""max-age""") <> Ok (add_req_param i).
Proof.
  eexists. split; [vm_compute; reflexivity|]. split; [intros [H|[]]; discriminate H|]. split; [vm_compute; reflexivity|]. vm_compute. discriminate.
Qed.

(** ** C97 *)
Theorem C97_pair : forall k v, cvalue_key (VKeyValue k v) = Some k /\ as_field_value (VKeyValue k v) = k ++ lit "=" ++ v
  /\ as_component_value (VKeyValue k v) = v /\ cvalue_str (VKeyValue k v) = v
  /\ forall i, comp_str (mkComp i (VKeyValue k v)) = comp_str (mkComp i (VString v)).
Proof. intros k v. repeat split. Qed.
Print Assumptions C97_pair.
Definition plain_value (v : cvalue) (t : str) : Prop :=
  cvalue_key v = None /\ as_field_value v = t /\ as_component_value v = t /\ cvalue_str v = t.
Theorem C97_line : forall s c, comp_of_str s = Ok c -> exists t, plain_value (co_value c) t.
Proof.
  intros s c H. unfold comp_of_str in H. destruct (split_once cColon s) as [[a b]|]; [|discriminate]. destruct (negb _); [discriminate|].
  destruct (cid_of_str (trim a)); try discriminate. cbn [bind] in H. injection H as <-. eexists. repeat split.
Qed.
Print Assumptions C97_line.
(** values of a message: only @signature-params has a key *)
Theorem C97_values : forall i vs c, comp_of_values i vs = Ok c -> id_name i <> Derived SignatureParams -> exists t, plain_value (co_value c) t.
Proof.
  intros i vs c H Hn. assert (Hx : exists t, co_value c = VString t); [|destruct Hx as [t Ht]; exists t; rewrite Ht; repeat split].
  revert H. unfold comp_of_values. destruct (id_name i) as [n|d] eqn:En.
  - unfold build_http_field_component. destruct (field_params _ _); cbn [bind]; try discriminate. intro H. injection H as <-. eexists. reflexivity.
  - unfold build_derived_component. rewrite En. destruct vs; [discriminate|]. destruct (negb _); [discriminate|].
    destruct d; cbn [bind]; try (intro H; injection H as <-; eexists; reflexivity); [|congruence].
    destruct (find_map _ _); cbn [bind]; [|discriminate]. intro H. injection H as <-. eexists. reflexivity.
Qed.
Print Assumptions C97_values.
Theorem C97_signature_params : forall ps v vs c, comp_of_values (mkCid (Derived SignatureParams) ps) (v :: vs) = Ok c <->
  (forall p, In p ps -> p = Req \/ exists n, p = Name n) /\ co_id c = mkCid (Derived SignatureParams) ps
  /\ exists k t, stripped v (k ++ lit "=" ++ t) /\ ~ In 61 k
     /\ cvalue_key (co_value c) = Some k /\ as_component_value (co_value c) = t /\ as_field_value (co_value c) = k ++ lit "=" ++ t.
Proof.
  intros ps v vs c. unfold comp_of_values, build_derived_component. cbn [id_name id_params].
  assert (Hps : forallb (fun p => match p with Req | Name _ => true | _ => false end) ps = true <-> forall p, In p ps -> p = Req \/ exists n, p = Name n).
  { rewrite forallb_forall. split; intros H p Hp; specialize (H p Hp); destruct p; try discriminate H; eauto.
    all: destruct H as [H|[n H]]; discriminate H. }
  destruct (forallb _ ps) eqn:E; cbn [negb].
  2:{ split; [discriminate|]. intros (H & _). apply Hps in H. discriminate H. }
  destruct (split_once cEq (trim v)) as [[k t]|] eqn:Es; cbn [bind].
  - split.
    + apply split_once_iff in Es as [Hv Hk].
      intro H. injection H as <-. split; [apply Hps; reflexivity|]. split; [reflexivity|]. exists k, t. split; [apply trim_spec; exact Hv|].
      split; [exact Hk|]. repeat split.
    + intros (_ & Hid & k' & t' & Hst & Hk' & H1 & H2 & H3). apply trim_spec in Hst. rewrite Hst in Es.
      assert (Es' : split_once cEq (k' ++ lit "=" ++ t') = Some (k', t')) by (apply split_once_iff; split; [reflexivity|exact Hk']).
      rewrite Es' in Es. injection Es as <- <-.
      destruct c as [ci cv]. cbn [co_id co_value] in *. subst ci. destruct cv as [s|a b]; [discriminate H1|]. cbn in H1, H2. injection H1 as ->. subst b.
      reflexivity.
  - split; [discriminate|]. intros (_ & _ & k & t & Hst & _). apply trim_spec in Hst. rewrite Hst in Es. apply split_once_iff_none in Es.
    exfalso. apply Es. apply in_app_iff. right. left. reflexivity.
Qed.
Print Assumptions C97_signature_params.
Example C97_example : exists c, comp_of_values (mkCid (Derived SignatureParams) []) [lit " sig1=(""date"");keyid=""a=b"""] = Ok c
  /\ cvalue_key (co_value c) = Some (lit "sig1") /\ as_component_value (co_value c) = lit "(""date"");keyid=""a=b"""
  /\ comp_str c = lit """@signature-params"": (""date"");keyid=""a=b""".
Proof. eexists. split; [vm_compute; reflexivity|]. repeat split. Qed.

(** ** C98 *)
Theorem C98_built : forall lines p b, base_try_new lines p = Ok b ->
  base_keyid b = sp_keyid p /\ base_alg b = sp_alg p /\ base_nonce b = sp_nonce p /\ base_covered b = sp_covered p.
Proof. intros lines p b H. apply built in H as ->. repeat split. Qed.
Print Assumptions C98_built.
(** all inspection functions tell the same about a signature *)
Lemma candidate_of m rfp kid l cs n b h : candidates m rfp kid l cs -> In (n, (b, h)) cs -> In (n, h) l /\ build_signature_base m (sh_params h) rfp = Ok b.
Proof.
  intro Hc. induction Hc; intro Hi; [destruct Hi| |destruct (IHHc Hi); split; [right|]; assumption].
  destruct Hi as [Hi|Hi]; [injection Hi as -> -> ->; split; [left; reflexivity|assumption]|]. destruct (IHHc Hi). split; [right|]; assumption.
Qed.
Theorem C98_agree : forall (rsa : bool) m rfp cs n b h, extract_signatures m rfp = Ok cs -> In (n, (b, h)) cs ->
  base_keyid b = sp_keyid (sh_params h) /\ base_alg b = sp_alg (sh_params h) /\ base_nonce b = sp_nonce (sh_params h) /\ base_covered b = sp_covered (sh_params h)
  /\ (exists ps, get_signature_params m = Ok ps /\ In (n, sh_params h) ps)
  /\ (exists r a, get_alg_key_ids rsa m = Ok r /\ In (n, (a, base_keyid b)) r
      /\ forall x, a = Some x <-> exists s, base_alg b = Some s /\ supported rsa s x).
Proof.
  intros rsa m rfp cs n b h Hc Hin. apply extract_signatures_spec in Hc as (l & Hr & Hc). destruct (candidate_of _ _ _ _ _ _ _ _ Hc Hin) as [Hl Hb].
  apply C20_built in Hb as [_ Hp]. unfold base_keyid, base_alg, base_nonce, base_covered. rewrite Hp. repeat (split; [reflexivity|]). split.
  - eexists. split; [apply C44_params; exists l; split; [exact Hr|reflexivity]|]. apply in_map_iff. exists (n, h). split; [reflexivity|exact Hl].
  - destruct (C44_same_messages rsa m rfp) as [[_ Hg] _]. destruct (Hg (ex_intro _ l Hr)) as [r Hgr]. pose proof Hgr as Hf.
    apply C44_alg_key_ids in Hf as (l' & Hr' & Hf). assert (l' = l) as -> by (eapply received_fun; eassumption).
    assert (Hx : forall l r, Forall2 (fun (nh : str * sigheaders) (x : str * (option alg * option str)) =>
        fst x = fst nh /\ snd (snd x) = sp_keyid (sh_params (snd nh))
        /\ (forall a, fst (snd x) = Some a <-> exists s, sp_alg (sh_params (snd nh)) = Some s /\ supported rsa s a)) l r -> In (n, h) l ->
        exists a, In (n, (a, sp_keyid (sh_params h))) r /\ forall x, a = Some x <-> exists s, sp_alg (sh_params h) = Some s /\ supported rsa s x).
    { clear. intros l r H. induction H as [|[n' h'] [n'' [a k]] l r (H1 & H2 & H3) H IH]; intro Hi; [destruct Hi|]. cbn [fst snd] in *. destruct Hi as [Hi|Hi].
      - injection Hi as -> ->. subst. exists a. split; [left; reflexivity|exact H3].
      - destruct (IH Hi) as (x & Hx & Hy). exists x. split; [right; exact Hx|exact Hy]. }
    destruct (Hx _ _ Hf Hl) as (a & Ha & Hs). exists r, a. auto.
Qed.
Print Assumptions C98_agree.
Example C98_example : exists b h, extract_signatures ex_signed None = Ok [(lit "sig1", (b, h))]
  /\ base_keyid b = Some (lit "k") /\ base_alg b = None /\ base_covered b = sp_covered ex_params.
Proof. eexists. eexists. split; [vm_compute; reflexivity|]. split; [reflexivity|]. split; reflexivity. Qed.

(** ** C99 *)
Theorem C99_digest : forall H b t, octet_hashes H ->
  (readable b -> into_bytes_with_digest H b t = Some (data_of b, b64_text (hash H t (data_of b))))
  /\ (~ readable b -> into_bytes_with_digest H b t = None).
Proof.
  intros H b t Ho. unfold into_bytes_with_digest. split; intro Hr.
  - rewrite (proj2 (into_bytes_spec b _) (conj Hr eq_refl)). rewrite derive_spec, b64_text_spec by (apply hash_octets, Ho). reflexivity.
  - apply into_bytes_none in Hr. rewrite Hr. reflexivity.
Qed.
Print Assumptions C99_digest.
(** the line written is the printed name with this digest *)
Theorem C99_line : forall H m t m' x d, octet_hashes H -> set_content_digest H m t = Ok m' -> into_bytes_with_digest H (msg_body m) t = Some (x, d) ->
  field_lines (msg_headers m') (lit "content-digest") = [type_name t ++ lit "=:" ++ d ++ lit ":"] /\ x = data_of (msg_body m).
Proof.
  intros H m t m' x d Ho Hs Hd. rewrite (C49_line H m t m' Ho Hs). destruct (into_bytes (msg_body m)) as [y|] eqn:E.
  - apply into_bytes_spec in E as [Hr _]. rewrite (proj1 (C99_digest H (msg_body m) t Ho) Hr) in Hd. injection Hd as <- <-. split; [|reflexivity].
    unfold digest_value. destruct t; reflexivity.
  - apply into_bytes_none in E. rewrite (proj2 (C99_digest H (msg_body m) t Ho) E) in Hd. discriminate Hd.
Qed.
Print Assumptions C99_line.
Theorem C99_names : forall s t, (cdtype_of_str s = Ok t <-> s = type_name t) /\ cdtype_str t = type_name t.
Proof.
  intros s t. split; [|destruct t; reflexivity]. unfold cdtype_of_str. destruct (str_eqb s (lit "sha-256")) eqn:E1.
  - apply str_eqb_eq in E1. subst s. split; [intro H; injection H as <-; reflexivity|]. destruct t; [reflexivity|discriminate].
  - destruct (str_eqb s (lit "sha-512")) eqn:E2.
    + apply str_eqb_eq in E2. subst s. split; [intro H; injection H as <-; reflexivity|]. destruct t; [discriminate|reflexivity].
    + split; [discriminate|]. intros ->. destruct t; discriminate.
Qed.
Print Assumptions C99_names.
Example C99_example : octet_hashes sha2
  /\ into_bytes_with_digest sha2 [FData (lit "hel"); FTrailers []; FData (lit "lo")] Sha256
     = Some (lit "hello", lit "LPJNul+wow4m6DsqxbninhsWHlwfp0JecwQzYpOLmCQ=")
  /\ into_bytes_with_digest sha2 [FData (lit "hel"); FError] Sha512 = None.
Proof. split; [exact sha2_octet|]. split; vm_compute; reflexivity. Qed.
