(** Content digests *)
From Coq Require Import ZifyBool ZifyNat ZifyN.
From Verif Require Import Base BaseFacts Utf8 Utf8Facts Base64 Base64Facts Sfv SfvFacts SfvRound TextFacts SpecSfv SpecSfvProofs SpecGrammar GrammarProofs SpecCanon CanonProofs Component SpecId IdProofs SpecParams ParamsProofs SpecBase BaseProofs Crypto Params SigBase Http Hyper Digest SpecValue ValueProofs SpecIdText IdTextProofs SpecMsg HeaderProofs MsgProofs SpecExtract ExtractProofs TamperProofs SpecSign SignProofs SpecDigest.

Lemma into_bytes_spec b x : into_bytes b = Some x <-> readable b /\ x = data_of b.
Proof.
  unfold readable. revert x. induction b as [|[d|t|] b IH]; intro x; cbn [into_bytes data_of flat_map In].
  - split; [intro H; inv H; auto|intros [_ ->]; reflexivity].
  - destruct (into_bytes b) as [y|].
    + destruct (proj1 (IH y) eq_refl) as [H1 H2]. split; [intro H; inv H|intros [_ ->]; rewrite H2; reflexivity]. split; [|reflexivity]. intros [H|H]; [discriminate|auto].
    + split; [discriminate|]. intros [H _]. assert (E : None = Some (data_of b)) by (apply IH; split; [intro Hi; apply H; right; exact Hi|reflexivity]). discriminate.
  - rewrite IH. split; intros [H1 ->]; (split; [|reflexivity]); [intros [H|H]; [discriminate|auto]|intro H; apply H1; right; exact H].
  - split; [discriminate|]. intros [H _]. exfalso. apply H. left. reflexivity.
Qed.
Lemma into_bytes_none b : into_bytes b = None <-> ~ readable b.
Proof.
  destruct (into_bytes b) as [x|] eqn:E.
  - apply into_bytes_spec in E as [H _]. split; [discriminate|contradiction].
  - split; [|reflexivity]. intros _ H. assert (E' : into_bytes b = Some (data_of b)) by (apply into_bytes_spec; auto). congruence.
Qed.
Lemma full_spec b : sent_on b (full (data_of b)).
Proof. unfold sent_on, full. destruct (data_of b); [left; auto|right; split; [discriminate|reflexivity]]. Qed.
Lemma sent_on_fun b b1 b2 : sent_on b b1 -> sent_on b b2 -> b1 = b2.
Proof. intros [[H1 ->]|[H1 ->]] [[H2 ->]|[H2 ->]]; congruence. Qed.
Lemma sent_on_data b b' : sent_on b b' -> data_of b' = data_of b /\ readable b'.
Proof.
  unfold readable. intros [[-> ->]|[H ->]]; cbn; [split; [reflexivity|auto]|]. rewrite app_nil_r. split; [reflexivity|]. intros [E|[]]. discriminate.
Qed.
Lemma derive_spec H x t : derive_digest H x t = hash H t x.
Proof. destruct t; reflexivity. Qed.
Lemma cdtype_spec n t : cdtype_of_str n = Ok t <-> n = type_name t.
Proof.
  unfold cdtype_of_str. destruct (str_eqb n (lit "sha-256")) eqn:E1; [apply str_eqb_eq in E1; subst; destruct t; split; intro H; solve [reflexivity|discriminate H|vm_compute in H; discriminate H]|].
  destruct (str_eqb n (lit "sha-512")) eqn:E2; [apply str_eqb_eq in E2; subst; destruct t; split; intro H; solve [reflexivity|discriminate H|vm_compute in H; discriminate H]|].
  split; [discriminate|]. intros ->. destruct t; [rewrite str_eqb_refl in E1|rewrite str_eqb_refl in E2]; discriminate.
Qed.
Lemma digest_get h : hm_get h h_digest = hd_error (field_lines h (lit "content-digest")).
Proof. unfold hm_get. rewrite (hm_lines h h_digest (lit "content-digest")) by reflexivity. reflexivity. Qed.
Lemma extract_digest_spec h t d : extract_content_digest h = Ok (t, d) <->
  exists v r, field_lines h (lit "content-digest") = v :: r /\ digest_line v (type_name t) d.
Proof.
  unfold extract_content_digest, digest_line. rewrite digest_get. split.
  - destruct (field_lines h (lit "content-digest")) as [|v r]; cbn [hd_error ok_or bind]; [discriminate|].
    pose proof (legible_spec v) as Hl. destruct (hv_to_str v) as [s|] eqn:Ev; cbn [ok_or bind]; [|discriminate].
    assert (s = v) by (unfold hv_to_str in Ev; destruct (forallb hv_visible v); congruence). subst s.
    destruct (parse_dict v) as [m|] eqn:Ep; cbn [ok_or bind]; [|discriminate]. destruct m as [|[k e] [|? ?]]; try discriminate.
    destruct (cdtype_of_str k) as [t'|x|q] eqn:Et; cbn [map_err bind]; try discriminate. destruct e as [[[] ps]|]; try discriminate. intro H. inv H.
    apply cdtype_spec in Et. subst k. exists v, r. split; [reflexivity|]. split; [apply Hl; reflexivity|]. apply parse_dict_spec in Ep. eauto.
  - intros (v & r & -> & Hv & ps & Hp). apply parse_dict_spec in Hp. cbn [hd_error ok_or bind]. apply legible_spec in Hv. rewrite Hv. cbn [ok_or bind]. rewrite Hp. cbn [ok_or bind].
    rewrite (proj2 (cdtype_spec (type_name t) t) eq_refl). reflexivity.
Qed.
Lemma equal_digest_spec a b : is_equal_digest a b = true <-> a = b.
Proof.
  unfold is_equal_digest. destruct (Nat.eqb (length a) (length b)) eqn:E; cbn [negb].
  - apply (str_eqb_eq a b).
  - split; [discriminate|]. intros ->. rewrite Nat.eqb_refl in E. discriminate.
Qed.
Lemma verify_digest_spec H h b h' b' : verify_digest H h b = Ok (h', b') <->
  exists v r n d, field_lines h (lit "content-digest") = v :: r /\ digest_line v n d /\ readable b /\ digest_of H n (data_of b) d /\ h' = h /\ sent_on b b'.
Proof.
  unfold verify_digest. split.
  - destruct (extract_content_digest h) as [[t d]|e|q] eqn:E; cbn [bind]; try discriminate. apply extract_digest_spec in E as (v & r & E & Hv).
    destruct (into_bytes b) as [x|] eqn:Eb; [|discriminate]. apply into_bytes_spec in Eb as [Hr ->]. destruct (is_equal_digest _ _) eqn:Ee; [|discriminate].
    apply equal_digest_spec in Ee. intro Hx. injection Hx as <- <-. exists v, r, (type_name t), d. split; [assumption|]. split; [assumption|]. split; [assumption|].
    split; [|split; [reflexivity|apply full_spec]]. subst d. unfold digest_of. destruct t; [left|right]; auto.
  - intros (v & r & n & d & E & Hv & Hr & Hd & -> & Hs).
    assert (Ht : exists t, n = type_name t /\ d = hash H t (data_of b)) by (destruct Hd as [[-> ->]|[-> ->]]; [exists Sha256|exists Sha512]; auto).
    destruct Ht as (t & -> & ->). rewrite (proj2 (extract_digest_spec h t _)) by eauto. cbn [bind]. rewrite (proj2 (into_bytes_spec b _) (conj Hr eq_refl)).
    rewrite derive_spec. rewrite (proj2 (equal_digest_spec _ _) eq_refl). f_equal. f_equal. exact (sent_on_fun _ _ _ (full_spec b) Hs).
Qed.

(** ** setting *)
Lemma hash_octets H t x : octet_hashes H -> Forall octet (hash H t x).
Proof. intro Ho. destruct (Ho x). destruct t; assumption. Qed.
Lemma digest_value_member H t x : octet_hashes H -> digest_value H t x = ser_member (type_name t, EItem (mkItem (BBytes (hash H t x)) [])).
Proof.
  intro Ho. unfold digest_value, ser_member. cbn [fst snd]. f_equal. cbn [ser_entry]. unfold ser_item. cbn [it_bare it_params ser_bare ser_params flat_map].
  rewrite b64_text_spec by (apply hash_octets, Ho). rewrite app_nil_r. reflexivity.
Qed.
Lemma digest_member_wf H t x : octet_hashes H -> wf_member (type_name t, EItem (mkItem (BBytes (hash H t x)) [])).
Proof.
  intro Ho. split; [destruct t; split; reflexivity|]. cbn. split; [apply hash_octets, Ho|]. split; constructor.
Qed.
Lemma digest_value_line H t x : octet_hashes H -> printp (digest_value H t x) /\ digest_line (digest_value H t x) (type_name t) (hash H t x).
Proof.
  intro Ho. pose proof (digest_member_wf H t x Ho) as Hw. rewrite digest_value_member by assumption. pose proof (ser_member_print _ Hw) as Hp. split; [exact Hp|]. split.
  - eapply Forall_impl; [|exact Hp]. cbn. lia.
  - exists []. pose proof (parse_dict_round [(type_name t, EItem (mkItem (BBytes (hash H t x)) []))]) as Hr. cbn [map join] in Hr. apply parse_dict_spec, Hr.
    split; [constructor; [exact Hw|constructor]|]. constructor; [intros []|constructor].
Qed.
Lemma insert_lines h n v n' : field_lines (hm_insert h n v) n' = if list_eq_dec N.eq_dec n n' then [v] else field_lines h n'.
Proof.
  assert (Hf : forall r, field_lines (filter (fun kv : str * bytes => negb (str_eqb (fst kv) n)) r) n' = if list_eq_dec N.eq_dec n n' then [] else field_lines r n').
  { intro r. induction r as [|[k w] r IH]; [destruct (list_eq_dec N.eq_dec n n'); reflexivity|]. cbn [filter fst]. destruct (str_eqb k n) eqn:E; cbn [negb].
    - rewrite IH. apply str_eqb_eq in E. subst k. destruct (list_eq_dec N.eq_dec n n') as [|Hn]; [reflexivity|]. unfold field_lines. cbn [filter fst].
      destruct (list_eq_dec N.eq_dec n n'); [contradiction|reflexivity].
    - unfold field_lines in *. cbn [filter fst]. destruct (list_eq_dec N.eq_dec n n') as [<-|Hn].
      + destruct (list_eq_dec N.eq_dec k n) as [->|]; [rewrite str_eqb_refl in E; discriminate|assumption].
      + destruct (list_eq_dec N.eq_dec k n'); cbn [map]; rewrite IH; reflexivity. }
  induction h as [|[k w] h IH]; cbn [hm_insert].
  - unfold field_lines. cbn [filter fst]. destruct (list_eq_dec N.eq_dec n n'); reflexivity.
  - destruct (str_eqb k n) eqn:E.
    + apply str_eqb_eq in E. subst k. unfold field_lines at 1. cbn [filter fst]. specialize (Hf h). unfold field_lines in Hf at 1.
      destruct (list_eq_dec N.eq_dec n n') as [<-|Hn]; cbn [map]; rewrite Hf; [reflexivity|]. unfold field_lines. cbn [filter fst]. destruct (list_eq_dec N.eq_dec n n'); [contradiction|reflexivity].
    + unfold field_lines in *. cbn [filter fst]. destruct (list_eq_dec N.eq_dec k n') as [->|Hk]; [|assumption]. cbn [map snd]. rewrite IH.
      destruct (list_eq_dec N.eq_dec n n') as [->|]; [rewrite str_eqb_refl in E; discriminate|reflexivity].
Qed.
Lemma set_digest_spec H h b t : octet_hashes H ->
  set_digest H h b t = match into_bytes b with None => Err HttpBodyError | Some x => Ok (hm_insert h (lit "content-digest") (digest_value H t x), full x) end.
Proof.
  intro Ho. unfold set_digest, into_bytes_with_digest. destruct (into_bytes b) as [x|]; [|reflexivity]. rewrite derive_spec, b64_text_spec by (apply hash_octets, Ho).
  assert (E : cdtype_str t ++ lit "=:" ++ b64_text (hash H t x) ++ lit ":" = digest_value H t x) by (destruct t; reflexivity). rewrite E.
  destruct (digest_value_line H t x Ho) as [Hp _]. rewrite (proj1 (header_value_spec _)); [rewrite printp_utf8 by assumption; reflexivity|].
  rewrite printp_utf8 by assumption. apply printp_header, Hp.
Qed.
Lemma insert_twice h n v w : hm_insert (hm_insert h n v) n w = hm_insert h n w.
Proof.
  assert (Hff : forall r, filter (fun kv : str * bytes => negb (str_eqb (fst kv) n)) (filter (fun kv : str * bytes => negb (str_eqb (fst kv) n)) r) = filter (fun kv : str * bytes => negb (str_eqb (fst kv) n)) r).
  { induction r as [|kv r IH]; [reflexivity|]. cbn [filter]. destruct (negb (str_eqb (fst kv) n)) eqn:E; [|assumption]. cbn [filter]. rewrite E, IH. reflexivity. }
  induction h as [|[k x] h IH]; cbn [hm_insert].
  - rewrite str_eqb_refl. reflexivity.
  - destruct (str_eqb k n) eqn:E; cbn [hm_insert]; rewrite E; [rewrite Hff|rewrite IH]; reflexivity.
Qed.

(** ** on messages *)
Lemma set_content_spec H m t : octet_hashes H ->
  (readable (msg_body m) -> exists b, sent_on (msg_body m) b /\ set_content_digest H m t = Ok (with_content m (hm_insert (msg_headers m) (lit "content-digest") (digest_value H t (data_of (msg_body m)))) b))
  /\ (~ readable (msg_body m) -> set_content_digest H m t = Err HttpBodyError).
Proof.
  intro Ho. split; intro Hr.
  - exists (full (data_of (msg_body m))). split; [apply full_spec|].
    destruct m as [r|x]; cbn [set_content_digest msg_body msg_headers with_content] in *; unfold req_set_digest, res_set_digest; rewrite set_digest_spec by assumption;
      rewrite (proj2 (into_bytes_spec _ _) (conj Hr eq_refl)); reflexivity.
  - apply into_bytes_none in Hr. destruct m as [r|x]; cbn [set_content_digest msg_body] in *; unfold req_set_digest, res_set_digest; rewrite set_digest_spec by assumption; rewrite Hr; reflexivity.
Qed.
Lemma set_content_ok H m t m' : octet_hashes H -> (set_content_digest H m t = Ok m' <->
  readable (msg_body m) /\ exists b, sent_on (msg_body m) b /\ m' = with_content m (hm_insert (msg_headers m) (lit "content-digest") (digest_value H t (data_of (msg_body m)))) b).
Proof.
  intro Ho. destruct (set_content_spec H m t Ho) as [H1 H2]. split.
  - intro E. destruct (into_bytes (msg_body m)) as [y|] eqn:Eb.
    + apply into_bytes_spec in Eb as [Hr _]. split; [assumption|]. destruct (H1 Hr) as (b & Hb & E'). rewrite E in E'. injection E' as ->. eauto.
    + apply into_bytes_none in Eb. rewrite (H2 Eb) in E. discriminate.
  - intros [Hr (b & Hb & ->)]. destruct (H1 Hr) as (b' & Hb' & ->). rewrite (sent_on_fun _ _ _ Hb Hb'). reflexivity.
Qed.
Lemma verify_content_spec H m m' : verify_content_digest H m = Ok m' <->
  exists v r n d b, field_lines (msg_headers m) (lit "content-digest") = v :: r /\ digest_line v n d /\ readable (msg_body m) /\ digest_of H n (data_of (msg_body m)) d
  /\ sent_on (msg_body m) b /\ m' = with_content m (msg_headers m) b.
Proof.
  assert (E : verify_content_digest H m = rmap (fun hb => with_content m (fst hb) (snd hb)) (verify_digest H (msg_headers m) (msg_body m))).
  { destruct m as [r|x]; cbn [verify_content_digest msg_headers msg_body]; unfold req_verify_digest, res_verify_digest; destruct (verify_digest _ _ _) as [[? ?]|?|?]; reflexivity. }
  rewrite E. split.
  - destruct (verify_digest _ _ _) as [[h b]|e|q] eqn:Ev; cbn [rmap fst snd]; intro Hx; try discriminate. injection Hx as <-.
    apply verify_digest_spec in Ev as (v & r & n & d & E1 & E2 & E3 & E4 & -> & E5). exists v, r, n, d, b. auto 10.
  - intros (v & r & n & d & b & E1 & E2 & E3 & E4 & E5 & ->). rewrite (proj2 (verify_digest_spec H (msg_headers m) (msg_body m) (msg_headers m) b)); [reflexivity|].
    exists v, r, n, d. auto 10.
Qed.
Lemma content_headers m h b : msg_headers (with_content m h b) = h.
Proof. destruct m; reflexivity. Qed.
Lemma content_body m h b : msg_body (with_content m h b) = b.
Proof. destruct m; reflexivity. Qed.
Lemma content_twice m h b h' b' : with_content (with_content m h b) h' b' = with_content m h' b'.
Proof. destruct m; reflexivity. Qed.
Lemma sent_on_same b b' b'' : sent_on b b' -> sent_on b' b'' -> b' = b''.
Proof.
  intros H H'. pose proof (sent_on_data _ _ H) as [Ed _]. unfold sent_on in H'. rewrite Ed in H'. exact (sent_on_fun _ _ _ H H').
Qed.
Lemma verify_content_no_panic H m q : verify_content_digest H m <> Panic q.
Proof.
  assert (E : forall h b, verify_digest H h b <> Panic q).
  { intros h b. unfold verify_digest, extract_content_digest. destruct (hm_get h h_digest) as [v|]; cbn [ok_or bind]; [|discriminate]. destruct (hv_to_str v) as [s|]; cbn [ok_or bind]; [|discriminate].
    destruct (parse_dict s) as [[|[k e] [|? ?]]|]; cbn [ok_or bind]; try discriminate. unfold cdtype_of_str.
    destruct (str_eqb k (lit "sha-256")); [|destruct (str_eqb k (lit "sha-512")); [|discriminate]]; cbn [map_err bind];
      (destruct e as [[[] ps]|]; cbn [bind]; try discriminate; destruct (into_bytes b); [destruct (is_equal_digest _ _)|]; discriminate). }
  destruct m as [r|x]; cbn [verify_content_digest]; unfold req_verify_digest, res_verify_digest; specialize (E); [specialize (E (rq_headers r) (rq_body r))|specialize (E (rs_headers x) (rs_body x))];
    destruct (verify_digest _ _ _) as [[? ?]|?|?]; cbn [bind rmap]; congruence.
Qed.
(** the digest is wrong, but everything else is right *)
Lemma verify_content_mismatch H m v r n d t : field_lines (msg_headers m) (lit "content-digest") = v :: r -> digest_line v n d -> readable (msg_body m) ->
  n = type_name t -> d <> hash H t (data_of (msg_body m)) -> verify_content_digest H m = Err InvalidContentDigest.
Proof.
  intros E Hv Hr -> Hd.
  assert (Ev : verify_digest H (msg_headers m) (msg_body m) = Err InvalidContentDigest).
  { unfold verify_digest. rewrite (proj2 (extract_digest_spec _ t d)) by eauto. cbn [bind]. rewrite (proj2 (into_bytes_spec _ _) (conj Hr eq_refl)), derive_spec.
    destruct (is_equal_digest _ _) eqn:Ee; [|reflexivity]. apply equal_digest_spec in Ee. congruence. }
  destruct m as [q|x]; cbn [verify_content_digest msg_headers msg_body] in *; unfold req_verify_digest, res_verify_digest; rewrite Ev; reflexivity.
Qed.

(** ** with signatures *)
Lemma quote_end n s r : ~ In 34 n -> s ++ 34 :: r = n ++ [34] -> s = n /\ r = [].
Proof.
  revert s. induction n as [|c n IH]; intros s Hn E.
  - destruct s as [|c s]; cbn in E; [injection E as E; auto|]. injection E as _ E. destruct s; discriminate.
  - destruct s as [|c' s]; cbn [app] in E.
    + injection E as E1 E2. exfalso. apply Hn. left. auto.
    + injection E as -> E. apply IH in E as [-> ->]; [auto|]. intro H. apply Hn. right. assumption.
Qed.
Lemma plain_id j x : valid_id j -> ~ In 34 x -> (forall d, derived_str d <> x) -> id_text j = id_text (mkCid (HttpField x) []) -> id_name j = HttpField x /\ id_params j = [].
Proof.
  intros Hj Hx Hd E. unfold id_text in E. cbn [id_name id_params flat_map] in E. rewrite app_nil_r in E. unfold quote in E. cbn [lit] in E.
  rewrite <- !app_assoc in E. cbn [lit app] in E. apply cons_inj in E as [_ E]. apply quote_end in E as [E1 E2]; [|assumption]. split.
  - destruct (id_name j) as [s|d]; [congruence|]. destruct (Hd d E1).
  - destruct (id_params j) as [|p ps]; [reflexivity|]. discriminate.
Qed.
Lemma comma_free v ls : ~ In 44 v -> ls <> [] -> comma_join ls = v -> ls = [v].
Proof.
  intros Hv Hl E. destruct ls as [|x [|y r]]; [contradiction|cbn in E; rewrite app_nil_r in E; congruence|].
  exfalso. apply Hv. rewrite <- E. cbn [comma_join flat_map]. apply in_or_app. right. left. reflexivity.
Qed.
Lemma plain_field_value m rfp x v : field_name x -> (message_value m rfp (mkCid (HttpField x) []) v <->
  Forall legible (field_lines (msg_headers m) (lower x)) /\ v = comma_join (field_lines (msg_headers m) (lower x))).
Proof.
  intro Hx. unfold message_value. cbn [id_params id_name In own_value]. split.
  - intros [[_ H]|[[] _]]. destruct H as (ls & out & [[_ ->]|[Hn _]] & Hl & Hp & ->); [|contradiction]. inversion Hp; subst. auto.
  - intros [Hl ->]. left. split; [auto|]. exists (field_lines (msg_headers m) (lower x)), (field_lines (msg_headers m) (lower x)). split; [left; auto|]. split; [assumption|]. split; [constructor|reflexivity].
Qed.
Lemma writable_printable p : writable p -> printable_params p.
Proof.
  intros (_ & _ & H1 & H2 & H3 & H4 & H5 & _). split; [assumption|]. cbn [In].
  intros s [E|[E|[E|[E|[]]]]]; [rewrite E in H1|rewrite E in H2|rewrite E in H3|rewrite E in H4]; cbn in *; tauto.
Qed.
Lemma Forall2_text (P : cid -> str -> Prop) (Q : cid -> str -> Prop) is js vs i : map id_text is = map id_text js -> Forall2 P is vs -> Forall2 Q js vs -> In i is ->
  exists j v, In j js /\ id_text j = id_text i /\ P i v /\ Q j v.
Proof.
  intros E H. revert js E. induction H as [|a v is vs Ha H IH]; intros js E H' Hi; [destruct Hi|]. inversion H' as [|b ? js' ? Hb H'']; subst. cbn [map] in E. apply cons_inj in E as [E1 E2].
  destruct Hi as [<-|Hi]; [exists b, v; cbn; auto|]. destruct (IH js' E2 H'' Hi) as (j & w & Hj & Hr). exists j, w. cbn. auto.
Qed.
Lemma lower_digest : lower (lit "content-digest") = lit "content-digest".
Proof. reflexivity. Qed.
Lemma digest_field : field_name (lit "content-digest").
Proof. apply field_name_spec. reflexivity. Qed.
Lemma digest_covered m m' rfp rfp' p q t t' v : proper m rfp -> proper m' rfp' -> printable_params p -> printable_params q ->
  signed_text m rfp p t -> signed_text m' rfp' q t' -> utf8 t = utf8 t' -> In digest_id (sp_covered p) ->
  field_lines (msg_headers m) (lit "content-digest") = [v] -> ~ In 44 v -> field_lines (msg_headers m') (lit "content-digest") <> [] ->
  field_lines (msg_headers m') (lit "content-digest") = [v].
Proof.
  intros Hm Hm' Hp Hq Ht Ht' E Hi Hv Hc Hn. destruct (same_bytes _ _ _ _ _ _ _ _ Hm Hm' Hp Hq Ht Ht' E) as (E1 & _ & vs & V & V').
  destruct (Forall2_text _ _ _ _ _ _ E1 V V' Hi) as (j & w & Hj & Et & W & W').
  apply plain_id in Et as [Ej Ep].
  - assert (j = digest_id) by (destruct j; cbn in *; subst; reflexivity). subst j. unfold digest_id in W, W'.
    apply (plain_field_value _ _ _ _ digest_field) in W as [_ W]. apply (plain_field_value _ _ _ _ digest_field) in W' as [_ W'].
    rewrite lower_digest in W, W'. rewrite Hv in W. cbn in W. rewrite app_nil_r in W. subst w. apply comma_free; [assumption|assumption|congruence].
  - destruct Hq as [Hq _]. rewrite Forall_forall in Hq. auto.
  - cbn. intros Hx. repeat (destruct Hx as [Hx|Hx]; [discriminate Hx|]). exact Hx.
  - intros d Hx. destruct d; discriminate Hx.
Qed.
Lemma b64_text_no_comma b : Forall octet b -> ~ In 44 (b64_text b).
Proof.
  intros H Hi. rewrite <- b64_text_spec in Hi by assumption. pose proof (b64_encode_chars b) as Hc. unfold bytesp in Hc. unfold octet in H. specialize (Hc H).
  rewrite Forall_forall in Hc. destruct (Hc _ Hi) as [Ha|Ha]; [unfold b64_alpha in Ha|unfold cEq in Ha]; lia.
Qed.
Lemma digest_value_comma H t x : octet_hashes H -> ~ In 44 (digest_value H t x).
Proof.
  intros Ho Hi. unfold digest_value in Hi. apply in_app_or in Hi as [Hi|Hi]; [destruct t; cbn in Hi; repeat (destruct Hi as [Hi|Hi]; [discriminate Hi|]); exact Hi|].
  apply in_app_or in Hi as [Hi|Hi]; [cbn in Hi; repeat (destruct Hi as [Hi|Hi]; [discriminate Hi|]); exact Hi|].
  apply in_app_or in Hi as [Hi|Hi]; [revert Hi; apply b64_text_no_comma, hash_octets, Ho|]. cbn in Hi. repeat (destruct Hi as [Hi|Hi]; [discriminate Hi|]); exact Hi.
Qed.
