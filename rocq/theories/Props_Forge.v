(** C100 and C101: parameters that were not signed. *)
From Verif Require Import Base BaseFacts Sfv SpecSfv Component Crypto Params SigBase SpecId SpecParams ParamsProofs Http Hyper SpecBase BaseProofs SpecMsg MsgProofs SpecExtract TamperProofs LabelProofs SpecForge ForgeProofs Toy Props_Crypto Props_Verify.

(** ** C101 *)
(** exactly which parameters share their text with other ones *)
Theorem C101_exactly : forall p, (exists q, p <> q /\ same_but_texts p q /\ sparams_str p = sparams_str q) <-> mistakable p.
Proof.
  intro p. split.
  - intros (q & Hn & Hs & Ht). rewrite !params_text_spec in Ht. eapply not_mistakable; eassumption.
  - intro H. destruct (mistaken p H) as (q & Hn & Hs & Ht & _). exists q. rewrite !params_text_spec. auto.
Qed.
Print Assumptions C101_exactly.
(** algorithm and key id are two texts, so this includes all parameters with key information *)
Theorem C101_key_info : forall p k, mistakable (set_key_info p k).
Proof.
  intros p k. left. destruct p as [c e n a i t ids]. unfold given_texts, text_params. destruct n, t; do 3 eexists; reflexivity.
Qed.
Print Assumptions C101_key_info.
Example C101_example :
  mistakable (mkSparams None None (Some (lit "n")) None None (Some (lit "t")) [])
  /\ mistakable (mkSparams None None None (Some (lit "a"";tag=""t")) None None [])
  /\ ~ mistakable (mkSparams (Some 1) (Some 2) None None (Some (lit "k"";nonce=""n")) None [])
  /\ ~ mistakable (mkSparams (Some 1) None None None None None []).
Proof.
  split; [left; do 3 eexists; reflexivity|]. split; [|split].
  - right. exists (lit "alg"), (lit "tag"), (lit "a"), (lit "t"). split; [reflexivity|]. exists [lit "nonce"], [lit "keyid"], []. reflexivity.
  - intros [(a & b & l & H)|(n & k & w & u & H & Ha)]; [discriminate H|]. injection H as <- H. destruct Ha as (a & b & c & Ha).
    assert (E : k = lit "tag").
    { destruct a as [|a0 [|a1 [|a2 [|a3 a]]]]; destruct b as [|b0 [|b1 b]]; cbn [app] in Ha; try discriminate Ha; try (injection Ha; intros; subst; reflexivity).
      all: injection Ha; intros; match goal with E : [] = ?x ++ _ |- _ => destruct x; discriminate E end. }
    subst k. repeat (destruct w as [|? w]; [discriminate H|]; injection H as _ H). destruct w; discriminate H.
  - intros [(a & b & l & H)|(n & k & w & u & H & _)]; discriminate H.
Qed.

(** ** C100 *)
(** verification sees of the parameters only the covered components, the time of expiry, the key id if one is asked for, and the text *)
Theorem C100_view : forall kid m rfp m' rfp' l l', received m l -> received m' l' -> Forall2 (seen_alike kid) l l' ->
  (forall n h i, In (n, h) l -> In i (sp_covered (sh_params h)) -> agree i m rfp m' rfp') ->
  forall clk key, verify_message_signature clk m' rfp' key kid = verify_message_signature clk m rfp key kid.
Proof. exact looks_alike_same. Qed.
Print Assumptions C100_view.
(** a Signature-Input line makes any parameters with the same text pass for the signed ones *)
Theorem C100_forged : forall m rfp l n h q, received m l -> In (n, h) l -> (forall k s, In (k, s) l -> Forall not_signature (sp_covered (sh_params s))) ->
  same_but_texts (sh_params h) q -> printable_texts q -> sparams_str q = sparams_str (sh_params h) ->
  exists t, get_signature_params (with_input m t) = Ok (map (fun kh => (fst kh, sh_params (snd kh))) (with_params n q l))
  /\ forall clk key kid, kid = None \/ sp_keyid q = sp_keyid (sh_params h) ->
     verify_message_signature clk (with_input m t) rfp key kid = verify_message_signature clk m rfp key kid.
Proof.
  intros m rfp l n h q Hl Hi Hc Hs Hp Ht. destruct (forged m l n h q Hl Hi Hs Hp) as [t Hr]. exists t. split; [apply C44_params; eauto|].
  intros clk key kid Hk. apply (C100_view kid m rfp (with_input m t) rfp l _ Hl Hr).
  - pose proof (received_names _ _ Hl) as [Hn _]. assert (Hu : forall s, In (n, s) l -> s = h) by (intros s Hx; pose proof (im_get_nodup _ _ _ Hn Hx); pose proof (im_get_nodup _ _ _ Hn Hi); congruence).
    clear -Hs Ht Hk Hu. unfold with_params. induction l as [|[k s] l IH]; [constructor|]. cbn [map]. constructor; [|apply IH; intros x Hx; apply Hu; right; exact Hx].
    cbn [fst]. destruct (list_eq_dec N.eq_dec k n) as [->|_]; [|unfold seen_alike; auto 8]. rewrite (Hu s (or_introl eq_refl)). destruct Hs as (H1 & H2 & H3).
    unfold seen_alike. cbn [fst snd sh_sig sh_params]. rewrite !params_text_spec in *. repeat split; auto. destruct Hk; auto.
  - intros k s i Hin Hcv. apply agree_resigned.
    + intros x Hx Hx'. pose proof (other_lines m t x Hx') as E. unfold with_input in E. destruct m; exact E.
    + specialize (Hc k s Hin). rewrite Forall_forall in Hc. auto.
Qed.
Print Assumptions C100_forged.
(** so every signature with two texts among its parameters is accepted with other parameters, too *)
Theorem C100_every : forall m rfp l n h, received m l -> In (n, h) l -> (forall k s, In (k, s) l -> Forall not_signature (sp_covered (sh_params s))) -> mistakable (sh_params h) ->
  exists q t, q <> sh_params h /\ get_signature_params (with_input m t) = Ok (map (fun kh => (fst kh, sh_params (snd kh))) (with_params n q l))
  /\ forall clk key, verify_message_signature clk (with_input m t) rfp key None = verify_message_signature clk m rfp key None.
Proof.
  intros m rfp l n h Hl Hi Hc Hm. destruct (mistaken _ Hm) as (q & Hn & Hs & Ht & Hp). exists q.
  assert (Hpp : printable_texts q) by (apply Hp, printable_opts; apply (received_printable _ _ _ _ Hl Hi)).
  destruct (C100_forged m rfp l n h q Hl Hi Hc Hs Hpp) as (t & H1 & H2); [rewrite !params_text_spec; auto|]. exists t. split; [congruence|]. split; [exact H1|]. intros clk key. apply H2. auto.
Qed.
Print Assumptions C100_every.
(** and every signature with nonce and algorithm is accepted with another nonce, whatever key id is asked for *)
Theorem C100_nonce : forall m rfp l n h x a, received m l -> In (n, h) l -> (forall k s, In (k, s) l -> Forall not_signature (sp_covered (sh_params s))) ->
  sp_nonce (sh_params h) = Some x -> sp_alg (sh_params h) = Some a ->
  exists q t, sp_nonce q <> Some x /\ sp_keyid q = sp_keyid (sh_params h) /\ get_signature_params (with_input m t) = Ok (map (fun kh => (fst kh, sh_params (snd kh))) (with_params n q l))
  /\ forall clk key kid, verify_message_signature clk (with_input m t) rfp key kid = verify_message_signature clk m rfp key kid.
Proof.
  intros m rfp l n h x a Hl Hi Hc Hx Ha. set (p := sh_params h) in *.
  set (q := mkSparams (sp_created p) (sp_expires p) (Some (x ++ lit """;alg=""" ++ a)) None (sp_keyid p) (sp_tag p) (sp_covered p)).
  pose proof (proj2 (received_printable _ _ _ _ Hl Hi)) as Hp. fold p in Hp.
  assert (Hpp : printable_texts q).
  { apply printable_opts. cbn [q sp_nonce sp_alg sp_keyid sp_tag]. intros s Hs. cbn [In] in Hs. destruct Hs as [Hs|[Hs|Hs]]; [|discriminate Hs|apply Hp; cbn [In]; tauto].
    assert (E : s = x ++ lit """;alg=""" ++ a) by congruence. rewrite E. apply Forall_app. split; [apply Hp; cbn [In]; auto|]. apply Forall_app. split; [|apply Hp; cbn [In]; auto].
    apply SpecSfvProofs.print_spec. reflexivity. }
  assert (Ht : sparams_str q = sparams_str p).
  { rewrite !params_text_spec. unfold params_text. cbn [q sp_created sp_expires sp_nonce sp_alg sp_keyid sp_tag sp_covered flat_map fst snd option_map]. rewrite Hx, Ha.
    cbn [option_map]. unfold quote. do 5 f_equal. change (lit """;alg=""") with (lit """" ++ lit ";" ++ lit "alg" ++ lit "=" ++ lit """"). rewrite <- !app_assoc. reflexivity. }
  destruct (C100_forged m rfp l n h q Hl Hi Hc) as (t & H1 & H2); [repeat split|exact Hpp|exact Ht|]. exists q, t. split; [|split; [reflexivity|split; [exact H1|]]].
  - cbn [q sp_nonce]. intro E. assert (E' : x ++ lit """;alg=""" ++ a = x) by congruence. apply (f_equal (@length N)) in E'. clear E. rename E' into E. rewrite !app_length in E. change (length (lit """;alg=""")) with 7%nat in E. lia.
  - intros clk key kid. apply H2. right. reflexivity.
Qed.
Print Assumptions C100_nonce.
(** a nonce is replaced by another one without knowledge of the key *)
Definition replay_params : sparams := mkSparams (Some 1618884473) None (Some (lit "n-1")) (Some (lit "hmac-sha256")) (Some (lit "k")) None [mkCid (Derived Method) []; mkCid (HttpField (lit "date")) []].
Definition replay_job : job := mkJob replay_params toy_key (Some (lit "sig1")) 0.
Definition replay_line : str := lit "sig1=(""@method"" ""date"");created=1618884473;nonce=""n-1\"";alg=\""hmac-sha256"";keyid=""k""".
Theorem C100_refuted : exists m m' q, set_message_signatures (MReq ex_req) None [replay_job] = (m, Ok tt) /\ m' = with_input m replay_line
  /\ (forall clk, verify_message_signature clk m None toy_vk (Some (lit "k")) = Ok (lit "sig1") /\ verify_message_signature clk m' None toy_vk (Some (lit "k")) = Ok (lit "sig1"))
  /\ get_signature_params m = Ok [(lit "sig1", replay_params)] /\ get_signature_params m' = Ok [(lit "sig1", q)]
  /\ sp_nonce replay_params = Some (lit "n-1") /\ sp_nonce q = Some (lit "n-1"";alg=""hmac-sha256").
Proof.
  do 3 eexists. split; [vm_compute; reflexivity|]. split; [reflexivity|]. split; [intro clk; split; vm_compute; reflexivity|].
  split; [vm_compute; reflexivity|]. split; [vm_compute; reflexivity|]. split; vm_compute; reflexivity.
Qed.
Print Assumptions C100_refuted.
(** without double quotes on both sides the parameters are the signed ones *)
Theorem C100_unquoted_partial : forall m l n h m' l' n' h', received m l -> In (n, h) l -> received m' l' -> In (n', h') l' ->
  sparams_str (sh_params h) = sparams_str (sh_params h') -> unquoted (sh_params h) -> unquoted (sh_params h') -> sh_params h = sh_params h'.
Proof.
  intros m l n h m' l' n' h' Hl Hi Hl' Hi' Ht U U'. apply sparams_str_inj; auto.
  - apply (received_wellformed _ _ _ _ Hl Hi).
  - apply (received_wellformed _ _ _ _ Hl' Hi').
Qed.
Print Assumptions C100_unquoted_partial.
Example C100_example : exists l h, received (fst (set_message_signatures (MReq ex_req) None [replay_job])) l /\ In (lit "sig1", h) l
  /\ (forall k s, In (k, s) l -> Forall not_signature (sp_covered (sh_params s))) /\ sh_params h = replay_params /\ mistakable replay_params /\ unquoted replay_params.
Proof.
  do 2 eexists. split; [apply extract_spec; vm_compute; reflexivity|]. split; [left; reflexivity|]. split; [|split; [reflexivity|split]].
  - intros k s [H|[]]. injection H as <- <-. constructor; [right; discriminate|]. constructor; [right; split; discriminate|constructor].
  - left. do 3 eexists. reflexivity.
  - split.
    + intros s Hs. cbn [replay_params sp_nonce sp_alg sp_keyid sp_tag In] in Hs. destruct Hs as [Hs|[Hs|[Hs|[Hs|[]]]]]; try discriminate Hs; injection Hs as <-; intro H; apply contains_In in H; discriminate H.
    + repeat constructor; cbn; intros; try discriminate; try contradiction.
      match goal with H : HttpField _ = _ |- _ => injection H as <- end. intro H; apply contains_In in H; discriminate H.
Qed.
