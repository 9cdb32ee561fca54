(** C108, C109: signatures that cover the signature headers. *)
From Verif Require Import Base BaseFacts Utf8 Utf8Facts Sfv SpecSfv SpecSfvProofs SpecGrammar SpecCanon Component Crypto Params SigBase Http Hyper SpecId SpecParams SpecValue ValueProofs SpecBase SpecMsg HeaderProofs MsgProofs VerifyProofs SpecExtract ExtractProofs TamperProofs SpecSign SignProofs SpecChain RfcProofs ChainProofs Decide Toy Props_Verify Props_Base Props_Sign.

(** ** C108 *)
Lemma chain_made m0 rfp jobs m l0 : carries m0 l0 -> set_message_signatures m0 rfp jobs = (m, Ok tt) -> Forall (chain_job (map job_name jobs)) jobs ->
  NoDup (map fst l0 ++ map job_name jobs) -> exists l, Forall2 (made m rfp) jobs l /\ carries m (l0 ++ map with_name l)
  /\ Forall sendable l /\ map sh_name l = map job_name jobs /\ m = msg_set_headers m0 (msg_headers m0 ++ flat_map pair_lines l).
Proof.
  intros Hc H Hj Hn. assert (Ho : forall j, In j jobs -> octets (j_key j)) by (intros j Hi; rewrite Forall_forall in Hj; apply (Hj j Hi)).
  destruct (set_ok m0 rfp jobs m Ho H) as (l & Hl & -> & _). pose proof (made_names _ _ _ _ Hl) as En. exists l. rewrite <- En in Hj, Hn. clear H.
  assert (Hs : Forall sendable l).
  { revert Hj. generalize (map sh_name l). clear -Hl. intro names. induction Hl as [|j s jobs l Hs Hl IH]; intro Hj; inversion Hj as [|? ? (H1 & H2 & H3 & _) Hj']; subst; constructor; [|auto].
    pose proof (made_octets _ _ _ _ H1 Hs) as Hoc. destruct Hs as (t & _ & _ & Hn & Hq). unfold sendable. rewrite Hn, Hq. auto. }
  split.
  - assert (Hx : forall j s, In j jobs -> made m0 rfp j s -> made (msg_set_headers m0 (msg_headers m0 ++ flat_map pair_lines l)) rfp j s).
    { intros j s Hi (t & Ht & Hr). exists t. split; [|exact Hr]. apply added_text; [exact Hs| |exact Ht]. rewrite Forall_forall in Hj. apply (Hj j Hi). }
    clear -Hl Hx. revert Hx. generalize (msg_set_headers m0 (msg_headers m0 ++ flat_map pair_lines l)). intros m Hx. induction Hl; constructor; [apply Hx; [left; reflexivity|assumption]|].
    apply IHHl. intros j s Hi. apply Hx. right. exact Hi.
  - rewrite <- (im_add_fresh l0 (map with_name l)) by (rewrite fst_with_name; assumption). split; [apply carries_batch; assumption|]. auto.
Qed.
(** signatures over members of the signature headers are verified when they have been added *)
Theorem C108_verifies_partial : forall m0 rfp jobs m l0, carries m0 l0 -> set_message_signatures m0 rfp jobs = (m, Ok tt) ->
  Forall (chain_job (map job_name jobs)) jobs -> NoDup (map fst l0 ++ map job_name jobs) ->
  forall j vk kid clk, In j jobs -> matching (j_key j) vk -> total_key vk -> (kid = None \/ kid = sp_keyid (j_params j)) ->
  (forall e i, sp_expires (j_params j) = Some e -> clk 0%nat i <= e) ->
  exists n, verify_message_signature clk m rfp vk kid = Ok n.
Proof.
  intros m0 rfp jobs m l0 Hc H Hp Hn j vk kid clk Hj Hm Ht Hkid Hx. destruct (chain_made _ _ _ _ _ Hc H Hp Hn) as (l & H1 & H2 & _).
  assert (Hs : exists s, In s l /\ made m rfp j s).
  { clear -Hj H1. induction H1 as [|j' s jobs l Hs H IH]; [destruct Hj|]. destruct Hj as [->|Hj]; [exists s; split; [left; reflexivity|assumption]|].
    destruct (IH Hj) as (s' & Hi & Hm'). exists s'. split; [right|]; assumption. }
  destruct Hs as (s & Hs & t & Hst & Hsg & Hnm & Hq).
  assert (Hin : In (sh_name s, s) (l0 ++ map with_name l)) by (apply in_or_app; right; apply in_map_iff; exists s; auto).
  destruct H2 as [(E & _)|[_ Hr]]; [rewrite E in Hin; destruct Hin|].
  apply (C36_complete clk m rfp vk kid _ (sh_name s) s t Hr Hin).
  - rewrite Hq. assumption.
  - intros k Ek. rewrite Hq. destruct Hkid as [->| ->]; [discriminate|assumption].
  - intro i. split; [|apply (Hm _ _ _ Hsg)]. intros (e & He & Hl0). rewrite Hq in He. specialize (Hx e i He). lia.
  - assumption.
Qed.
Print Assumptions C108_verifies_partial.
(** under its name, when its key id tells it from all others *)
Theorem C108_name_partial : forall m0 rfp before j after m l0 k, let jobs := before ++ j :: after in
  carries m0 l0 -> set_message_signatures m0 rfp jobs = (m, Ok tt) -> Forall (chain_job (map job_name jobs)) jobs -> NoDup (map fst l0 ++ map job_name jobs) ->
  sp_keyid (j_params j) = Some k -> (forall n h, In (n, h) l0 -> sp_keyid (sh_params h) <> Some k) ->
  (forall j', In j' (before ++ after) -> sp_keyid (j_params j') <> Some k) ->
  forall vk clk, matching (j_key j) vk -> (forall e, sp_expires (j_params j) = Some e -> clk 0%nat 0%nat <= e) ->
  verify_message_signature clk m rfp vk (Some k) = Ok (job_name j).
Proof.
  intros m0 rfp before j after m l0 k jobs Hc H Hp Hn Hk H0 Hother vk clk Hm Hx. subst jobs. destruct (chain_made _ _ _ _ _ Hc H Hp Hn) as (l & H1 & H2 & _).
  apply Forall2_app_inv_l in H1 as (la & lb & Ha & Hb & ->). inversion Hb as [|? s ? lc Hs Hlc]; subst. destruct Hs as (t & Hst & Hsg & Hnm & Hq).
  assert (Hr : received m (l0 ++ map with_name (la ++ s :: lc))).
  { destruct H2 as [(E2 & _)|[_ Hr]]; [|assumption]. apply app_eq_nil in E2 as [_ E2]. rewrite map_app in E2. apply app_eq_nil in E2 as [_ E2]. discriminate. }
  assert (Hid : forall jobs ls, Forall2 (made m rfp) jobs ls -> (forall j', In j' jobs -> sp_keyid (j_params j') <> Some k) -> forall n h, In (n, h) (map with_name ls) -> sp_keyid (sh_params h) <> Some k).
  { clear. induction 1 as [|j' s' jobs ls (t & _ & _ & _ & Hq) H IH]; intros Hj n h Hi; [destruct Hi|]. cbn [map] in Hi. destruct Hi as [Hi|Hi].
    - inv Hi. rewrite Hq. apply Hj. left. reflexivity.
    - apply (IH (fun j'' Hj'' => Hj _ (or_intror Hj'')) _ _ Hi). }
  apply C36_accepts. exists (l0 ++ map with_name (la ++ s :: lc)), [(job_name j, (t, s))], 0%nat, t, s. split; [assumption|]. split.
  { rewrite map_app. cbn [map]. change [(job_name j, (t, s))] with ([] ++ [] ++ (job_name j, (t, s)) :: []). apply checked_app; [apply checked_none, H0|].
    apply checked_app; [apply checked_none, (Hid _ _ Ha); intros j' Hj'; apply Hother; rewrite !in_app_iff in *; tauto|].
    unfold with_name at 1. rewrite Hnm. apply ch_take; [rewrite Hq; assumption|intros k' Ek; inv Ek; rewrite Hq; assumption|].
    apply checked_none, (Hid _ _ Hlc). intros j' Hj'. apply Hother. rewrite !in_app_iff in *. tauto. }
  assert (Hac : accepts (clk 0%nat 0%nat) vk t s).
  { split; [|apply (Hm _ _ _ Hsg)]. intros (e & He & Hl0). rewrite Hq in He. apply Hx in He. lia. }
  split; [|split; [reflexivity|split; [assumption|intros; lia]]].
  intros i n' t' h' Hi' [_ [q Hpn]]. destruct i as [|i]; [|destruct i; discriminate]. cbn in Hi'. inv Hi'. destruct Hac as [_ Hac]. congruence.
Qed.
Print Assumptions C108_name_partial.
(** what was accepted before is accepted afterwards, also if it covers members of the signature headers *)
Lemma checked_there m rfp kid l cs n t h : checked m rfp kid l cs -> In (n, (t, h)) cs ->
  In (n, h) l /\ signed_text m rfp (sh_params h) t /\ (forall k, kid = Some k -> sp_keyid (sh_params h) = Some k).
Proof.
  induction 1 as [|n' h' t' l cs Ht Hk H IH|n' h' l cs Hs H IH]; [intros []| |].
  - intros [E|E]; [inv E; split; [left; reflexivity|auto]|]. destruct (IH E) as (I1 & I2). split; [right; exact I1|exact I2].
  - intro E. destruct (IH E) as (I1 & I2). split; [right; exact I1|exact I2].
Qed.
Theorem C108_old_partial : forall m0 rfp jobs m l0, received m0 l0 -> set_message_signatures m0 rfp jobs = (m, Ok tt) ->
  Forall (chain_job (map job_name jobs)) jobs -> NoDup (map fst l0 ++ map job_name jobs) ->
  (forall n h, In (n, h) l0 -> Forall (steady (map job_name jobs)) (sp_covered (sh_params h))) ->
  forall now vk kid n, total_key vk -> verify_message_signature (fun _ _ => now) m0 rfp vk kid = Ok n ->
  exists n', verify_message_signature (fun _ _ => now) m rfp vk kid = Ok n'.
Proof.
  intros m0 rfp jobs m l0 Hr H Hp Hn Ho now vk kid n Ht Hv. apply C36_accepts in Hv as (l' & cs & j & t & h & Hl' & Hc & _ & Hj & Ha & _).
  rewrite (received_fun _ _ _ Hl' Hr) in Hc. clear Hl' l'. destruct (checked_there _ _ _ _ _ _ _ _ Hc (nth_error_In _ _ Hj)) as (Hi & Hst & Hk).
  assert (Hne : l0 <> []) by (intros ->; destruct Hi).
  destruct (chain_made m0 rfp jobs m l0 (or_intror (conj Hne Hr)) H Hp Hn) as (l & _ & Hca & Hs & En & Em).
  destruct Hca as [(E & _)|[_ Hr']]; [apply app_eq_nil in E as [E _]; contradiction|].
  apply (C36_complete _ m rfp vk kid _ n h t Hr' (in_or_app _ _ _ (or_introl Hi))); [|exact Hk|intro; exact Ha|exact Ht].
  rewrite Em. apply added_text; [exact Hs|rewrite En; exact (Ho n h Hi)|exact Hst].
Qed.
Print Assumptions C108_old_partial.
Lemma value_exactly : forall m rfp l n ps v, signature_field n -> l <> [] -> Forall sendable l ->
  message_value m rfp (mkCid (HttpField n) ps) v ->
  (message_value (msg_set_headers m (msg_headers m ++ flat_map pair_lines l)) rfp (mkCid (HttpField n) ps) v
   <-> In Req ps \/ exists s k rest, ps = repeat Sf s ++ Key k :: rest /\ ~ In k (map sh_name l)).
Proof.
  intros m rfp l n ps v Hg Hl Hs H. pose proof (signature_name n Hg) as Hf. split.
  2:{ intro Hk. apply added_value; [exact Hs| |exact H]. destruct Hk as [Hk|(s & k & rest & -> & Hk)]; [left; left; exact Hk|]. right. right. exists n, s, k, rest. auto. }
  intro H'. destruct H as [[Hr H]|[Hr _]]; [|left; exact Hr]. destruct H' as [[_ H']|[Hx _]]; [|contradiction]. right. cbn [id_params] in *.
  destruct H as (ls & out & [[_ ->]|[Hx _]] & Hg1 & Hp & ->); [|contradiction]. destruct H' as (ls' & out' & [[_ ->]|[Hx _]] & Hg2 & Hp' & E); [|contradiction]. cbn [id_params] in *.
  rewrite set_headers_get, field_lines_app in Hp'. destruct (holds_lines _ _ (new_lines l (lower n) Hs Hg)) as [_ Hn].
  apply processed_split in Hp' as (o1 & o2 & -> & P1 & P2). rewrite (processed_fun _ _ _ _ Hp P1) in E. destruct (member_lines_processed _ _ _ _ Hr Hl Hn P2) as [Q1 Q2].
  apply Q2. symmetry in E. exact (join_longer _ _ Q1 E).
Qed.
(** what the library signs for a component *)
Definition gives (m : msg) (rfp : option request) (i : cid) (v : str) : Prop := exists c, component_line m rfp i = Ok c /\ as_component_value (co_value c) = v.
(** the signature headers, with any parameters, when signatures have been added: only what is taken from the request and members with other names,
    taken before anything else but sf, keep their value *)
Theorem C108_exactly_partial : forall m rfp jobs m' n ps v, signature_field n -> jobs <> [] -> set_message_signatures m rfp jobs = (m', Ok tt) ->
  Forall (fun j => octets (j_key j) /\ writable (j_params j) /\ key_text (job_name j)) jobs -> gives m rfp (mkCid (HttpField n) ps) v ->
  (gives m' rfp (mkCid (HttpField n) ps) v <-> In Req ps \/ exists s k rest, ps = repeat Sf s ++ Key k :: rest /\ ~ In k (map job_name jobs)).
Proof.
  intros m rfp jobs m' n ps v Hg Hn H Hj Hv. assert (Ho : forall j, In j jobs -> octets (j_key j)) by (intros j Hi; rewrite Forall_forall in Hj; apply (Hj j Hi)).
  destruct (set_ok m rfp jobs m' Ho H) as (l & Hl & -> & _). rewrite <- (made_names _ _ _ _ Hl). unfold gives in *. apply C19_component in Hv. rewrite C19_component. apply value_exactly; [exact Hg| | |exact Hv].
  - intros ->. inversion Hl; subst. contradiction.
  - clear -Hl Hj. induction Hl as [|j s jobs l Hs Hl IH]; inversion Hj as [|? ? (H1 & H2 & H3) Hj']; subst; constructor; [|auto].
    pose proof (made_octets _ _ _ _ H1 Hs) as Hoc. destruct Hs as (t & _ & _ & Hm & Hq). unfold sendable. rewrite Hm, Hq. auto.
Qed.
Print Assumptions C108_exactly_partial.
(** a second signature, by another key id, over one component *)
Definition second_job (i : cid) : job := mkJob (mkSparams (Some 1618884474) (Some 1618884773) None None (Some (lit "k2")) None [i]) toy_key (Some (lit "sig2")) 0.
Definition second (i : cid) : msg * result herr unit := set_message_signatures ex_signed None [second_job i].
(** a third signature leaves the second, over the first, valid *)
Example C108_old_example : let m := fst (second (mkCid (HttpField (lit "signature")) [Key (lit "sig1")])) in
  snd (set_message_signatures m None [mkJob (set_keyid ex_params (lit "k3")) toy_key (Some (lit "sig3")) 0]) = Ok tt
  /\ verify_message_signature (fun _ _ => 1618884500) (fst (set_message_signatures m None [mkJob (set_keyid ex_params (lit "k3")) toy_key (Some (lit "sig3")) 0])) None toy_vk (Some (lit "k2")) = Ok (lit "sig2").
Proof. split; vm_compute; reflexivity. Qed.
(** the whole field: the signature is made, and is rejected in the message that it has been added to *)
Theorem C108_refuted : exists i, id_name i = HttpField (lit "signature") /\ id_params i = []
  /\ snd (second i) = Ok tt /\ msg_headers (fst (second i)) <> msg_headers ex_signed
  /\ (exists e, verify_message_signature (fun _ _ => 1618884500) (fst (second i)) None toy_vk (Some (lit "k2")) = Err e).
Proof. exists (mkCid (HttpField (lit "signature")) []). split; [reflexivity|]. split; [reflexivity|]. split; [vm_compute; reflexivity|]. split; [vm_compute; discriminate|]. eexists. vm_compute. reflexivity. Qed.
Print Assumptions C108_refuted.
(** the member: accepted, and so is the first signature *)
Example C108_example : let i := mkCid (HttpField (lit "signature")) [Key (lit "sig1")] in
  snd (second i) = Ok tt /\ verify_message_signature (fun _ _ => 1618884500) (fst (second i)) None toy_vk (Some (lit "k2")) = Ok (lit "sig2")
  /\ verify_message_signature (fun _ _ => 1618884500) (fst (second i)) None toy_vk (Some (lit "k")) = Ok (lit "sig1").
Proof. vm_compute. auto. Qed.
(** the hypotheses hold for it; C47 does not apply *)
Example C108_hypotheses : let i := mkCid (HttpField (lit "signature")) [Key (lit "sig1")] in exists h, carries ex_signed [(lit "sig1", h)]
  /\ chain_job (map job_name [second_job i]) (second_job i) /\ ~ not_signature i /\ NoDup (map fst [(lit "sig1", h)] ++ map job_name [second_job i])
  /\ sp_keyid (sh_params h) <> sp_keyid (j_params (second_job i)).
Proof.
  eexists. split; [right; split; [discriminate|apply extract_spec; vm_compute; reflexivity]|]. split; [|split; [|split]].
  - split; [apply toy_key_octets|]. split; [apply writableb_ok; vm_compute; reflexivity|]. split; [apply key_text_spec; split; vm_compute; reflexivity|].
    constructor; [|constructor]. right. right. exists (lit "signature"), 0%nat, (lit "sig1"), []. split; [reflexivity|]. intros [E|[]]. discriminate E.
  - intros [[E|[]]|[E _]]; [discriminate E|]. apply E. reflexivity.
  - cbn [map fst app]. constructor; [intros [E|[]]; discriminate E|]. constructor; [intros []|constructor].
  - vm_compute. discriminate.
Qed.
(** with sf and with the name of the new signature itself: rejected *)
Example C108_exactly_example :
  Forall (fun ps => snd (second (mkCid (HttpField (lit "Signature-Input")) ps)) = Ok tt
    /\ verify_message_signature (fun _ _ => 1618884500) (fst (second (mkCid (HttpField (lit "Signature-Input")) ps))) None toy_vk (Some (lit "k2")) = Err HInvalidSignature)
  [[]; [Sf]; [Key (lit "sig2")]; [Sf; Key (lit "sig2")]]
  /\ Forall (fun ps => verify_message_signature (fun _ _ => 1618884500) (fst (second (mkCid (HttpField (lit "Signature-Input")) ps))) None toy_vk (Some (lit "k2")) = Ok (lit "sig2"))
  [[Key (lit "sig1")]; [Sf; Key (lit "sig1")]; [Key (lit "sig1"); Sf]].
Proof. split; repeat (constructor; [repeat split; vm_compute; reflexivity|]); constructor. Qed.

(** ** C109 *)
Definition own : cid := mkCid (Derived SignatureParams) [].
(** the Signature-Input field in one line *)
Definition input_joined (m : msg) : msg :=
  msg_set_headers m (filter (fun nv => negb (str_eqb (fst nv) (lit "signature-input"))) (msg_headers m)
                     ++ [(lit "signature-input", comma_join (field_lines (msg_headers m) (lit "signature-input")))]).
(** a signature over @signature-params of a signed message is made, and accepted; joining the lines of Signature-Input makes it invalid, and no other *)
Theorem C109_refuted : snd (second own) = Ok tt
  /\ verify_message_signature (fun _ _ => 1618884500) (fst (second own)) None toy_vk (Some (lit "k2")) = Ok (lit "sig2")
  /\ verify_message_signature (fun _ _ => 1618884500) (input_joined (fst (second own))) None toy_vk (Some (lit "k2")) = Err HInvalidSignature
  /\ verify_message_signature (fun _ _ => 1618884500) (input_joined (fst (second own))) None toy_vk (Some (lit "k")) = Ok (lit "sig1").
Proof. repeat split; vm_compute; reflexivity. Qed.
Print Assumptions C109_refuted.
(** the value is what stands behind the first equals sign of the first line, whoever made that signature *)
Theorem C109_value_partial : forall m rfp v, gives m rfp own v <-> own_params (msg_headers m) v.
Proof.
  intros m rfp v. unfold gives. rewrite C19_component. unfold message_value, own, own_value, request_value. cbn [id_name id_params]. destruct m as [q|x]; cbn [msg_headers]; split.
  - intros [[_ [_ H]]|[[] _]]. exact H.
  - intro H. left. split; [intros []|]. split; [intros ? []|exact H].
  - intros [[_ [_ [[E _]|[_ H]]]]|[[] _]]; [discriminate E|exact H].
  - intro H. left. split; [intros []|]. split; [reflexivity|]. right. auto.
Qed.
Print Assumptions C109_value_partial.
(** a message without Signature-Input, whose covered components are not those of the request of a response: refused, and the message stays as it was *)
Theorem C109_fresh_partial : forall m rfp jobs j i, In j jobs -> In i (sp_covered (j_params j)) -> id_name i = Derived SignatureParams -> ~ In Req (id_params i) ->
  field_lines (msg_headers m) (lit "signature-input") = [] -> exists r, set_message_signatures m rfp jobs = (m, r) /\ r <> Ok tt.
Proof.
  intros m rfp jobs j i Hj Hi Hn Hr Hf. apply set_not_made. intros l Hl.
  assert (Hs : exists s, made m rfp j s).
  { clear -Hl Hj. induction Hl as [|j' s jobs l Hs _ IH]; [destruct Hj|]. destruct Hj as [->|Hj]; [exists s; exact Hs|exact (IH Hj)]. }
  destruct Hs as (s & t & (vs & Hv & _) & _).
  assert (Hx : exists v, message_value m rfp i v).
  { clear -Hv Hi. induction Hv as [|i' v is vs Hv _ IH]; [destruct Hi|]. destruct Hi as [->|Hi]; [exists v; exact Hv|exact (IH Hi)]. }
  destruct Hx as (v & [[_ H]|[Hx _]]); [|contradiction]. unfold own_value in H. rewrite Hn in H.
  assert (Ho : own_params (msg_headers m) v).
  { destruct m as [q|x]; [destruct H as [_ H]; exact H|destruct H as [_ [[E _]|[_ H]]]; [discriminate E|exact H]]. }
  destruct Ho as (w & ws & k & E & _). rewrite Hf in E. discriminate E.
Qed.
Print Assumptions C109_fresh_partial.
Example C109_example : set_message_signatures (MReq ex_req) None [ex_job; second_job own] = (MReq ex_req, snd (set_message_signatures (MReq ex_req) None [second_job own]))
  /\ snd (set_message_signatures (MReq ex_req) None [second_job own]) <> Ok tt.
Proof. split; vm_compute; [reflexivity|discriminate]. Qed.
