(** C12-C18: signature parameters. *)
From Coq Require Import Permutation.
From Verif Require Import Base BaseFacts Base64 Base64Facts Sfv SfvFacts TextFacts SpecSfv SpecSfvProofs SpecGrammar GrammarProofs SpecCanon CanonProofs Component Crypto SpecCrypto CryptoProofs Params SigBase Http Hyper SpecId IdProofs SpecParams ParamsProofs ValueProofs SpecIdText IdTextProofs SpecMsg HeaderProofs MsgProofs Decide Toy.

(** ** C12 *)
(** all parameters with printable texts without double quote and backslash and with times of at most 15 digits *)
Theorem C12_round_trip_partial : forall p, writable p -> sparams_of_str (sparams_str p) = Ok p.
Proof. exact sparams_round. Qed.
Print Assumptions C12_round_trip_partial.
(** the same in terms of the calls that made the parameters *)
Definition plain_setter (s : setter) : Prop :=
  match s with
  | SetCreated n | SetExpires n => n <= 999999999999999
  | SetNonce s | SetKeyid s | SetTag s => plain (Some s)
  | SetKeyInfo k => plain (Some (sk_key_id k))
  | SetAlg _ => True
  | SetRandomNonce r => Forall octet r
  end.
Lemma alg_plain a : plain (Some (alg_str a)).
Proof.
  split; [apply print_spec; destruct a; reflexivity|]. split; intro H; apply contains_In in H; destruct a; discriminate H.
Qed.
Lemma b64_plain b : Forall octet b -> plain (Some (b64_encode b)).
Proof.
  intro Hb. assert (H : Forall (fun c => printable c /\ c <> 34 /\ c <> 92) (b64_encode b)).
  { eapply Forall_impl; [|apply b64_encode_chars, Hb]. cbn. intros c Hc. unfold printable, b64_alpha, cEq in *. lia. }
  split; [|split].
  - eapply Forall_impl; [|exact H]. intros c Hc. apply Hc.
  - intro Hi. rewrite Forall_forall in H. apply H in Hi. tauto.
  - intro Hi. rewrite Forall_forall in H. apply H in Hi. tauto.
Qed.
Lemma call_writable p s : writable p -> plain_setter s -> writable (call p s).
Proof.
  intros (H1 & H2 & H3 & H4 & H5 & H6 & H7 & H8 & H9) Hs.
  destruct s; cbn [call plain_setter] in *; unfold writable;
    cbn [set_created set_expires set_nonce set_alg set_keyid set_tag set_key_info set_random_nonce sp_created sp_expires sp_nonce sp_alg sp_keyid sp_tag sp_covered];
    repeat split; try assumption; try apply alg_plain; try (apply b64_plain, Hs); try apply Hs.
Qed.
Lemma built_writable now ids p l : now <= 999999999999999 -> Forall (fun i => exists s, cid_of_str s = Ok i) ids -> Forall clean_id ids ->
  sp_try_new now ids = Ok p -> Forall plain_setter l -> writable (fold_left call l p).
Proof.
  intros Hn Hi Hc Hp Hl.
  assert (Hv : Forall valid_id ids) by (eapply Forall_impl; [|exact Hi]; intros i [s Hs]; eapply cid_of_str_valid, Hs).
  assert (Hw : writable p).
  { unfold sp_try_new in Hp. destruct (has_unique_elements ids) eqn:E; [|discriminate]. cbn in Hp. inv Hp.
    apply has_unique_spec in E; [|assumption]. repeat split; try exact I; assumption. }
  clear Hp. revert p Hw. induction Hl as [|s l Hs Hl IH]; intros p Hw; [exact Hw|]. apply IH, call_writable; assumption.
Qed.
Theorem C12_built_partial : forall now ids p l,
  now <= 999999999999999 -> Forall (fun i => exists s, cid_of_str s = Ok i) ids -> Forall clean_id ids ->
  sp_try_new now ids = Ok p -> Forall plain_setter l ->
  let p' := fold_left call l p in sparams_of_str (sparams_str p') = Ok p'.
Proof. intros now ids p l Hn Hi Hc Hp Hl. apply sparams_round, (built_writable now ids); assumption. Qed.
Print Assumptions C12_built_partial.
(** not for all: a creation time of 16 digits does not parse, a nonce can pretend to be two parameters *)
Definition p0 : sparams := mkSparams (Some 1618884473) None None None None None [mkCid (Derived Method) []; mkCid (HttpField (lit "date")) []].
Theorem C12_refuted : exists p, sp_try_new 1618884473 (sp_covered p0) = Ok p
  /\ sparams_of_str (sparams_str (set_created p 1000000000000000)) = Err ParseSFVError
  /\ sparams_of_str (sparams_str (set_nonce p (lit "a""b"))) = Err ParseSFVError
  /\ exists q, sparams_of_str (sparams_str (set_nonce p (lit "a"";alg=""b"))) = Ok q /\ sp_nonce q = Some (lit "a") /\ sp_alg q = Some (lit "b").
Proof. exists p0. split; [vm_compute; reflexivity|]. split; [vm_compute; reflexivity|]. split; [vm_compute; reflexivity|]. eexists. split; [vm_compute; reflexivity|]. split; reflexivity. Qed.
Print Assumptions C12_refuted.
Definition p1 : sparams := set_tag (set_keyid (set_alg (set_nonce (set_expires p0 1618884773) (lit "b3k2pp5k7z-50gnwp.yemd")) Ed25519) (lit "test-key")) (lit "header-example").
Lemma p1_writable : writable p1.
Proof. apply writableb_ok. vm_compute. reflexivity. Qed.
Example C12_example : writable p1 /\ sparams_str p1 = lit "(""@method"" ""date"");created=1618884473;expires=1618884773;nonce=""b3k2pp5k7z-50gnwp.yemd"";alg=""ed25519"";keyid=""test-key"";tag=""header-example"""
  /\ sparams_of_str (sparams_str p1) = Ok p1.
Proof. split; [apply p1_writable|]. split; vm_compute; reflexivity. Qed.

(** ** C13 *)
(** received members whose texts have no double quotes *)
Theorem C13_text_determines_params_partial : forall t1 d1 k1 e1 p1 t2 d2 k2 e2 p2,
  dict_field d1 t1 -> In (k1, e1) d1 -> sparams_of_entry e1 = Ok p1 ->
  dict_field d2 t2 -> In (k2, e2) d2 -> sparams_of_entry e2 = Ok p2 ->
  unquoted p1 -> unquoted p2 -> sparams_str p1 = sparams_str p2 -> p1 = p2.
Proof.
  intros t1 d1 k1 e1 p1 t2 d2 k2 e2 p2 D1 I1 E1 D2 I2 E2 U1 U2 E.
  assert (H : forall t d k e p, dict_field d t -> In (k, e) d -> sparams_of_entry e = Ok p -> wellformed p).
  { intros t d k e p D I0 E0. apply parse_dict_spec, SfvRound.parse_dict_wf in D as [D _]. rewrite Forall_forall in D. apply D in I0 as [_ I0]. eapply parsed_wellformed; eassumption. }
  eapply sparams_str_inj; eauto.
Qed.
Print Assumptions C13_text_determines_params_partial.
(** the same for identifiers *)
Theorem C13_text_determines_id_partial : forall i j, valid_id i -> valid_id j -> lacks 34 i -> lacks 34 j -> cid_str i = cid_str j -> i = j.
Proof. exact cid_str_inj. Qed.
Print Assumptions C13_text_determines_id_partial.
(** with an escaped double quote the parameters can be changed without changing the signed text *)
Theorem C13_refuted : exists t1 t2 e1 e2 p1 p2,
  dict_field [(lit "sig1", e1)] t1 /\ dict_field [(lit "sig1", e2)] t2
  /\ sparams_of_entry e1 = Ok p1 /\ sparams_of_entry e2 = Ok p2 /\ sparams_str p1 = sparams_str p2
  /\ sp_alg p1 = Some (lit "ed25519") /\ sp_alg p2 = None.
Proof.
  exists (lit "sig1=(""@method"");created=1;nonce=""x"";alg=""ed25519"""), (lit "sig1=(""@method"");created=1;nonce=""x\"";alg=\""ed25519""").
  eexists. eexists. eexists. eexists. split; [apply parse_dict_spec; vm_compute; reflexivity|]. split; [apply parse_dict_spec; vm_compute; reflexivity|].
  repeat split; vm_compute; reflexivity.
Qed.
Print Assumptions C13_refuted.
Example C13_example : exists p, unquoted p /\ sparams_of_entry (EInner (mkInner [mkItem (BStr (lit "@method")) []] [(lit "nonce", BStr (lit "a\b"))])) = Ok p
  /\ sparams_of_str (sparams_str p) <> Ok p.
Proof.
  exists (mkSparams None None (Some (lit "a\b")) None None None [mkCid (Derived Method) []]). split; [|split; [vm_compute; reflexivity|vm_compute; discriminate]].
  split.
  - intros s Hs. cbn [sp_nonce sp_alg sp_keyid sp_tag In] in Hs. destruct Hs as [Hs|[Hs|[Hs|[Hs|[]]]]]; try discriminate Hs. injection Hs as <-.
    intro H. apply contains_In in H. discriminate H.
  - repeat constructor; cbn; intros; try discriminate; contradiction.
Qed.

(** ** C14 *)
Definition param_values (ps : params) : Prop := Forall (fun kv => key_text (fst kv) /\ bare_value (snd kv)) ps.
Lemma param_values_spec ps : param_values ps -> Forall wf_param ps.
Proof. intro H. eapply Forall_impl; [|exact H]. intros kv [H1 H2]. split; [apply key_text_spec|apply bare_value_spec]; assumption. Qed.
Lemma item_values_spec l : Forall item_value l -> Forall wf_item l.
Proof. intro H. eapply Forall_impl; [|exact H]. intros i Hi. apply item_value_spec, Hi. Qed.
Lemma written_inner items ps t : Forall item_value items -> param_values ps -> canon_inner (mkInner items ps) t -> t = ser_inner (mkInner items ps).
Proof.
  intros Hi Hp H. apply canon_inner_text in H; [symmetry; exact H|exact Hi|]. eapply Forall_impl; [|exact Hp]. intros kv [_ Hk]. exact Hk.
Qed.
(** parameters in any order, repeated or not *)
Theorem C14_reads : forall items ps t p, Forall item_value items -> param_values ps -> canon_inner (mkInner items ps) t ->
  sparams_of_str t = Ok p ->
  sp_created p = reads int_of (lit "created") ps /\ sp_expires p = reads int_of (lit "expires") ps
  /\ sp_nonce p = reads text_of (lit "nonce") ps /\ sp_alg p = reads text_of (lit "alg") ps
  /\ sp_keyid p = reads text_of (lit "keyid") ps /\ sp_tag p = reads text_of (lit "tag") ps.
Proof.
  intros items ps t p Hi Hp Ht H. rewrite (written_inner _ _ _ Hi Hp Ht), str_reads in H by (auto using item_values_spec, param_values_spec).
  destruct (collect _ items); cbn [bind] in H; try discriminate. destruct (negb _); [discriminate|]. destruct (neg_times ps); [discriminate|].
  inv H. repeat split.
Qed.
Print Assumptions C14_reads.
(** a member of a received dictionary *)
Theorem C14_member : forall t d k items ps p, dict_field d t -> In (k, EInner (mkInner items ps)) d ->
  sparams_of_entry (EInner (mkInner items ps)) = Ok p ->
  sp_created p = reads int_of (lit "created") ps /\ sp_expires p = reads int_of (lit "expires") ps
  /\ sp_nonce p = reads text_of (lit "nonce") ps /\ sp_alg p = reads text_of (lit "alg") ps
  /\ sp_keyid p = reads text_of (lit "keyid") ps /\ sp_tag p = reads text_of (lit "tag") ps
  /\ Forall2 item_denotes items (sp_covered p).
Proof.
  intros t d k items ps p D I0 H. apply parse_dict_spec, SfvRound.parse_dict_wf in D as [D _]. rewrite Forall_forall in D. apply D in I0 as [_ [Hw [_ Hn]]].
  cbn [in_params in_items] in Hn, Hw. rewrite entry_reads in H by assumption.
  destruct (collect _ items) eqn:E; cbn [bind] in H; try discriminate. destruct (negb _); [discriminate|]. destruct (neg_times ps); [discriminate|].
  inv H. apply collect_ok in E. repeat split. apply items_denote; assumption.
Qed.
Print Assumptions C14_member.
(** nothing else matters *)
Theorem C14_map : forall items ps ps' t t', Forall item_value items -> param_values ps -> param_values ps' ->
  canon_inner (mkInner items ps) t -> canon_inner (mkInner items ps') t' ->
  (forall k, In k known -> last_value k ps = last_value k ps') -> sparams_of_str t = sparams_of_str t'.
Proof.
  intros items ps ps' t t' Hi Hp Hp' Ht Ht' H. rewrite (written_inner _ _ _ Hi Hp Ht), (written_inner _ _ _ Hi Hp' Ht'). rewrite !str_reads by (auto using item_values_spec, param_values_spec).
  unfold neg_times, read_params, reads. rewrite !(H (lit _)) by (cbn [known In]; tauto). reflexivity.
Qed.
Print Assumptions C14_map.
Theorem C14_unknown : forall items a b k v t t', Forall item_value items -> param_values (a ++ (k, v) :: b) -> ~ In k known ->
  canon_inner (mkInner items (a ++ (k, v) :: b)) t -> canon_inner (mkInner items (a ++ b)) t' -> sparams_of_str t = sparams_of_str t'.
Proof.
  intros items a b k v t t' Hi Hp Hk Ht Ht'. assert (Hp' : param_values (a ++ b)).
  { apply Forall_app in Hp as [H1 H2]. inversion H2; subst. apply Forall_app. auto. }
  apply (C14_map _ _ _ _ _ Hi Hp Hp' Ht Ht'). intros k' Hk'. assert (k' <> k) by congruence. clear -H.
  induction a as [|[x w] a IH]; cbn [app last_value]; [|rewrite IH; reflexivity].
  destruct (last_value k' b); [reflexivity|]. destruct (list_eq_dec N.eq_dec k' k); [contradiction|reflexivity].
Qed.
Print Assumptions C14_unknown.
Theorem C14_order : forall items ps ps' t t', Forall item_value items -> param_values ps -> NoDup (map fst ps) -> Permutation ps ps' ->
  canon_inner (mkInner items ps) t -> canon_inner (mkInner items ps') t' -> sparams_of_str t = sparams_of_str t'.
Proof.
  intros items ps ps' t t' Hi Hp Hn P Ht Ht'. assert (Hp' : param_values ps').
  { unfold param_values. rewrite <- P. exact Hp. }
  assert (Hn' : NoDup (map fst ps')) by (eapply Permutation_NoDup; [apply Permutation_map, P|assumption]).
  apply (C14_map _ _ _ _ _ Hi Hp Hp' Ht Ht'). intros k _. rewrite !last_value_nodup by assumption.
  destruct (im_get ps k) as [v|] eqn:E.
  - apply im_get_In in E; [|assumption]. symmetry. apply im_get_In; [assumption|]. eapply Permutation_in; eassumption.
  - destruct (im_get ps' k) as [v|] eqn:E'; [|reflexivity]. apply im_get_In in E'; [|assumption]. symmetry in P.
    apply (Permutation_in _ P) in E'. apply im_get_In in E'; [|assumption]. congruence.
Qed.
Print Assumptions C14_order.
Example C14_example : exists p, sparams_of_str (lit "(""@method"" ""date"");foo;keyid=""a"";created=1;alg=ed25519;created=2;nonce=7") = Ok p
  /\ sp_created p = Some 2 /\ sp_keyid p = Some (lit "a") /\ sp_alg p = None /\ sp_nonce p = None /\ sp_expires p = None.
Proof. eexists. split; [vm_compute; reflexivity|]. repeat split. Qed.

(** ** C16 *)
Theorem C16_expired : forall now p, is_expired now p = true <-> exists e, sp_expires p = Some e /\ e < now.
Proof.
  intros now p. unfold is_expired. destruct (sp_expires p) as [e|].
  - rewrite N.ltb_lt. split; [eauto|]. intros (e' & H & Hl). inv H. assumption.
  - split; [discriminate|]. intros (e & H & _). discriminate.
Qed.
Print Assumptions C16_expired.
Theorem C16_no_expiry : forall now p, sp_expires p = None -> is_expired now p = false.
Proof. intros now p H. unfold is_expired. rewrite H. reflexivity. Qed.
Print Assumptions C16_no_expiry.
Theorem C16_monotone : forall now now' p, now <= now' -> is_expired now p = true -> is_expired now' p = true.
Proof. intros now now' p Hn H. apply C16_expired in H as (e & He & Hl). apply C16_expired. exists e. split; [assumption|lia]. Qed.
Print Assumptions C16_monotone.
Example C16_example : is_expired 1618884773 p1 = false /\ is_expired 1618884774 p1 = true /\ is_expired 0 p1 = false /\ is_expired 99999999999 p0 = false.
Proof. repeat split. Qed.

(** ** C17 *)
Theorem C17_adds : forall checked p c d, sp_created p = Some c ->
  let d' := match d with Some x => x | None => 300 end in c + d' < 2 ^ 64 ->
  exists p', set_expires_with_duration checked p d = Ok p' /\ sp_expires p' = Some (c + d')
    /\ sp_created p' = sp_created p /\ sp_nonce p' = sp_nonce p /\ sp_alg p' = sp_alg p /\ sp_keyid p' = sp_keyid p /\ sp_tag p' = sp_tag p
    /\ sp_covered p' = sp_covered p.
Proof.
  intros checked p c d Hc d' Hd. unfold set_expires_with_duration. rewrite Hc.
  assert (E : c + match d with Some d => d | None => default_duration end <=? u64_max = true).
  { apply N.leb_le. unfold u64_max. change (match d with Some d0 => d0 | None => default_duration end) with d'.
    change 18446744073709551615 with (2 ^ 64 - 1). lia. }
  rewrite E. eexists. split; [reflexivity|]. cbn. repeat split. assumption.
Qed.
Print Assumptions C17_adds.
Theorem C17_no_created : forall checked p d, sp_created p = None -> exists q, set_expires_with_duration checked p d = Panic q.
Proof. intros checked p d H. unfold set_expires_with_duration. rewrite H. eauto. Qed.
Print Assumptions C17_no_created.
Theorem C17_overflow : forall p c o, sp_created p = Some c -> let d := match o with Some x => x | None => 300 end in
  c < 2 ^ 64 -> d < 2 ^ 64 -> 2 ^ 64 <= c + d ->
  set_expires_with_duration true p o = Panic POverflow
  /\ exists p' e, set_expires_with_duration false p o = Ok p' /\ sp_expires p' = Some e /\ e = c + d - 2 ^ 64 /\ e < c.
Proof.
  intros p c o Hc d Hb Hd Ho. unfold set_expires_with_duration. rewrite Hc. change (match o with Some d0 => d0 | None => default_duration end) with d. clearbody d.
  assert (E : c + d <=? u64_max = false).
  { apply N.leb_gt. unfold u64_max. change (2 ^ 64) with 18446744073709551616 in *. lia. }
  rewrite E. split; [reflexivity|]. exists (set_expires p (c + d - 2 ^ 64)), (c + d - 2 ^ 64).
  assert (Em : (c + d) mod (u64_max + 1) = c + d - 2 ^ 64).
  { change (u64_max + 1) with (2 ^ 64). symmetry. apply N.mod_unique with (q := 1); change (2 ^ 64) with 18446744073709551616 in *; lia. }
  rewrite Em. change (2 ^ 64) with 18446744073709551616 in *. repeat split. lia.
Qed.
Print Assumptions C17_overflow.
Example C17_example : set_expires_with_duration true p0 None = Ok (set_expires p0 1618884773)
  /\ set_expires_with_duration true p0 (Some 10) = Ok (set_expires p0 1618884483)
  /\ set_expires_with_duration false p0 (Some 18446744073709551615) = Ok (set_expires p0 1618884472)
  /\ is_expired 1618884473 (set_expires p0 1618884472) = true.
Proof. repeat split; vm_compute; reflexivity. Qed.

(** ** C18 *)
Definition arg_created s := match s with SetCreated n => Some n | _ => None end.
Definition arg_expires s := match s with SetExpires n => Some n | _ => None end.
Definition arg_nonce s := match s with SetNonce t => Some t | SetRandomNonce r => Some (b64_text r) | _ => None end.
Definition alg_dec (a b : alg) : {a = b} + {a <> b}.
Proof. decide equality. Defined.
(** the registered name of an algorithm *)
Definition alg_name (a : alg) : option str :=
  match find (fun x : str * alg => if alg_dec (snd x) a then true else false) (registered ++ registered_rsa) with Some x => Some (fst x) | None => None end.
Definition arg_alg s := match s with SetAlg a => alg_name a | SetKeyInfo k => alg_name (sk_alg k) | _ => None end.
Definition arg_keyid s := match s with SetKeyid t => Some t | SetKeyInfo k => Some (sk_key_id k) | _ => None end.
Definition arg_tag s := match s with SetTag t => Some t | _ => None end.
Lemma alg_name_spec a : alg_name a = Some (alg_str a).
Proof. destruct a; reflexivity. Qed.
Theorem C18_last_call_wins : forall l p, (forall r, In (SetRandomNonce r) l -> Forall octet r) ->
  let p' := fold_left call l p in
  sp_created p' = or_initial (last_arg arg_created l) (sp_created p)
  /\ sp_expires p' = or_initial (last_arg arg_expires l) (sp_expires p)
  /\ sp_nonce p' = or_initial (last_arg arg_nonce l) (sp_nonce p)
  /\ sp_alg p' = or_initial (last_arg arg_alg l) (sp_alg p)
  /\ sp_keyid p' = or_initial (last_arg arg_keyid l) (sp_keyid p)
  /\ sp_tag p' = or_initial (last_arg arg_tag l) (sp_tag p)
  /\ sp_covered p' = sp_covered p.
Proof.
  induction l as [|s l IH]; intros p Hr; [repeat split|]. cbn [fold_left last_arg]. cbv zeta in *.
  destruct (IH (call p s)) as (H1 & H2 & H3 & H4 & H5 & H6 & H7); [intros r Hi; apply Hr; right; assumption|].
  rewrite H1, H2, H3, H4, H5, H6, H7.
  assert (Ho : forall A (a : option A) (f i i' : option A), or_initial f i = i' -> or_initial a i' = or_initial (match a with Some x => Some x | None => f end) i).
  { intros A a f i i' <-. destruct a; reflexivity. }
  destruct s; cbn [call arg_created arg_expires arg_nonce arg_alg arg_keyid arg_tag set_created set_expires set_nonce set_alg set_keyid set_tag set_key_info set_random_nonce sp_created sp_expires sp_nonce sp_alg sp_keyid sp_tag sp_covered];
    rewrite ?alg_name_spec; repeat split; try (apply Ho; reflexivity).
  apply Ho. cbn [or_initial]. rewrite b64_text_spec; [reflexivity|]. apply Hr. left. reflexivity.
Qed.
Print Assumptions C18_last_call_wins.
Example C18_example : exists p, fold_left call [SetCreated 5; SetAlg Ed25519; SetRandomNonce (lit "light w"); SetCreated 7; SetTag (lit "t")] p0 = p
  /\ sp_created p = Some 7 /\ sp_alg p = Some (lit "ed25519") /\ sp_nonce p = Some (lit "bGlnaHQgdw==") /\ sp_tag p = Some (lit "t") /\ sp_keyid p = None.
Proof. eexists. split; [reflexivity|]. repeat split; vm_compute; reflexivity. Qed.
