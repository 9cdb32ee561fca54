(** Signature parameters *)
From Coq Require Import ZifyBool ZifyNat ZifyN Permutation.
From Verif Require Import Base BaseFacts Utf8 Base64 Base64Facts Sfv SfvFacts SfvRound TextFacts SpecSfv SpecSfvProofs Component Crypto Params SpecId IdProofs SpecParams.
Ltac Zify.zify_post_hook ::= Z.div_mod_to_equations.

(** ** rendering *)
Definition opt_param {A} (k : str) (f : A -> bare) (o : option A) : params := match o with Some a => [(k, f a)] | None => [] end.
Definition params_list (p : sparams) : params :=
  opt_param (lit "created") (fun n => BInt (Z.of_N n)) (sp_created p)
  ++ opt_param (lit "expires") (fun n => BInt (Z.of_N n)) (sp_expires p)
  ++ opt_param (lit "nonce") BStr (sp_nonce p)
  ++ opt_param (lit "alg") BStr (sp_alg p)
  ++ opt_param (lit "keyid") BStr (sp_keyid p)
  ++ opt_param (lit "tag") BStr (sp_tag p).
Definition params_inner (p : sparams) : inner := mkInner (map id_item (sp_covered p)) (params_list p).

Lemma cid_str_nonempty i : cid_str i <> [].
Proof. unfold cid_str. rewrite name_str_text. discriminate. Qed.
Lemma joined_ids_gen l : forall acc, acc <> [] ->
  fold_left (fun acc v => if is_empty acc then cid_str v else acc ++ lit " " ++ cid_str v) l acc
  = acc ++ flat_map (fun y => [cSP] ++ y) (map cid_str l).
Proof.
  induction l as [|i l IH]; intros acc H; cbn [fold_left map flat_map]; [symmetry; apply app_nil_r|].
  destruct acc as [|c acc]; [congruence|]. cbn [is_empty]. rewrite IH by discriminate. rewrite <- app_assoc. reflexivity.
Qed.
Lemma joined_ids l : fold_left (fun acc v => if is_empty acc then cid_str v else acc ++ lit " " ++ cid_str v) l []
  = join [cSP] (map cid_str l).
Proof.
  destruct l as [|i l]; [reflexivity|]. cbn [fold_left is_empty map]. rewrite joined_ids_gen by apply cid_str_nonempty.
  rewrite join_cons_flat. reflexivity.
Qed.
Lemma dec_int n : ser_int (Z.of_N n) = dec n.
Proof.
  unfold ser_int. destruct (Z.of_N n <? 0)%Z eqn:E; [lia|]. f_equal. lia.
Qed.
Lemma opt_text k (o : option str) : plain o ->
  opt_str o (fun v => cSemi :: k ++ cEq :: quoted v) = ser_params (opt_param k BStr o).
Proof.
  destruct o as [s|]; [|reflexivity]. intros [_ Hc]. cbn [opt_str opt_param ser_params flat_map]. rewrite app_nil_r.
  rewrite ser_param_eq. unfold ser_param1, quoted. cbn [fst snd ser_bare]. unfold ser_str. rewrite esc_clean by assumption. reflexivity.
Qed.
Lemma ser_params_app a b : ser_params (a ++ b) = ser_params a ++ ser_params b.
Proof. unfold ser_params. apply flat_map_app. Qed.
Lemma sparams_str_inner p : plain (sp_nonce p) -> plain (sp_alg p) -> plain (sp_keyid p) -> plain (sp_tag p) ->
  Forall clean_id (sp_covered p) -> sparams_str p = ser_inner (params_inner p).
Proof.
  intros H1 H2 H3 H4 Hc. unfold sparams_str, ser_inner, params_inner. cbn [in_items in_params]. rewrite joined_ids.
  assert (E : map cid_str (sp_covered p) = map ser_item (map id_item (sp_covered p))).
  { rewrite map_map. apply map_ext_in. intros i Hi. rewrite Forall_forall in Hc. apply cid_str_item, Hc, Hi. }
  rewrite E. unfold params_list. rewrite !ser_params_app.
  assert (Et : forall k (o : option N), opt_str o (fun v => cSemi :: k ++ cEq :: dec v) = ser_params (opt_param k (fun n => BInt (Z.of_N n)) o)).
  { intros k [n|]; [|reflexivity]. cbn [opt_str opt_param ser_params flat_map]. rewrite app_nil_r, ser_param_eq.
    unfold ser_param1. cbn [fst snd ser_bare]. rewrite dec_int. reflexivity. }
  rewrite <- (Et (lit "created")), <- (Et (lit "expires")).
  rewrite <- (opt_text (lit "nonce")), <- (opt_text (lit "alg")), <- (opt_text (lit "keyid")), <- (opt_text (lit "tag")) by assumption.
  reflexivity.
Qed.
Lemma plain_print s : Forall printable s -> forallb is_print s = true.
Proof. apply print_spec. Qed.
Lemma opt_wf_text k o : wf_key k -> plain o -> Forall wf_param (opt_param k BStr o).
Proof. intros Hk H. destruct o as [s|]; [|constructor]. constructor; [|constructor]. split; [exact Hk|]. apply plain_print, H. Qed.
Lemma opt_wf_time k o : wf_key k -> short o -> Forall wf_param (opt_param k (fun n => BInt (Z.of_N n)) o).
Proof.
  intros Hk H. destruct o as [n|]; [|constructor]. constructor; [|constructor]. split; [exact Hk|]. cbn [snd wf_bare short] in *. unfold lim15. lia.
Qed.
Lemma params_list_keys p : exists ks, map fst (params_list p) = ks /\ NoDup ks.
Proof.
  eexists. split; [reflexivity|]. unfold params_list. destruct p as [c e n a k t ids]. cbn [sp_created sp_expires sp_nonce sp_alg sp_keyid sp_tag].
  destruct c, e, n, a, k, t; cbn [opt_param app map fst];
  repeat (constructor; [cbn [In]; intro H; repeat (destruct H as [H|H]; [discriminate H|]); exact H|]); constructor.
Qed.
Lemma params_inner_wf p : writable p -> wf_inner (params_inner p).
Proof.
  intros (H1 & H2 & H3 & H4 & H5 & H6 & H7 & H8 & H9). split; cbn [params_inner in_items in_params].
  - apply Forall_map. eapply Forall_impl; [|exact H7]. intros i Hi. apply id_item_wf, Hi.
  - split; [|destruct (params_list_keys p) as (ks & -> & H); exact H].
    unfold params_list. repeat (apply Forall_app; split);
      (apply opt_wf_time || apply opt_wf_text); try assumption; split; reflexivity.
Qed.
Lemma sparams_str_parse p : writable p -> parse_list (sparams_str p) = Some [EInner (params_inner p)].
Proof.
  intro H. pose proof (params_inner_wf p H) as Hw. destruct H as (H1 & H2 & H3 & H4 & H5 & H6 & H7 & H8 & H9).
  rewrite sparams_str_inner by assumption.
  change (ser_inner (params_inner p)) with (join [cComma; cSP] (map ser_entry [EInner (params_inner p)])).
  apply parse_list_round. constructor; [exact Hw|constructor].
Qed.

(** ** reading *)
Definition negb_time (o : option bare) : bool := match o with Some (BInt z) => (z <? 0)%Z | _ => false end.
Lemma last_value_cons_other {V} k k' (v : V) l : k <> k' -> last_value k ((k', v) :: l) = last_value k l.
Proof. intro H. cbn [last_value]. destruct (last_value k l); [reflexivity|]. destruct (list_eq_dec N.eq_dec k k'); [congruence|reflexivity]. Qed.
Lemma last_value_cons_same {V} k (v : V) l : ~ In k (map fst l) -> last_value k ((k, v) :: l) = Some v.
Proof.
  intro H. cbn [last_value]. rewrite (proj2 (last_value_none l k)) by assumption. destruct (list_eq_dec N.eq_dec k k); [reflexivity|congruence].
Qed.
Definition reads_or {A} (f : bare -> option A) (k : str) (ps : params) (d : option A) : option A :=
  match last_value k ps with Some b => f b | None => d end.
Lemma reads_or_other {A} f k k' v ps (d : option A) : k <> k' -> reads_or f k ((k', v) :: ps) d = reads_or f k ps d.
Proof. intro H. unfold reads_or. rewrite last_value_cons_other by assumption. reflexivity. Qed.
Lemma as_u64_spec v : as_u64 v = if negb_time (Some v) then Panic PNegative else Ok (int_of v).
Proof. destruct v; reflexivity. Qed.
Lemma as_string_text v : as_string v = text_of v.
Proof. destruct v; reflexivity. Qed.
Ltac lits := repeat match goal with |- context [str_eqb (lit ?a) (lit ?b)] =>
  let r := eval vm_compute in (str_eqb (lit a) (lit b)) in change (str_eqb (lit a) (lit b)) with r end; cbn iota.
Lemma sp_set_params_spec ps : forall p, NoDup (map fst ps) ->
  sp_set_params p ps =
  if negb_time (last_value (lit "created") ps) || negb_time (last_value (lit "expires") ps) then Panic PNegative
  else Ok (mkSparams (reads_or int_of (lit "created") ps (sp_created p)) (reads_or int_of (lit "expires") ps (sp_expires p))
             (reads_or text_of (lit "nonce") ps (sp_nonce p)) (reads_or text_of (lit "alg") ps (sp_alg p))
             (reads_or text_of (lit "keyid") ps (sp_keyid p)) (reads_or text_of (lit "tag") ps (sp_tag p)) (sp_covered p)).
Proof.
  induction ps as [|[k v] ps IH]; intros p Hn; [destruct p; reflexivity|].
  inversion Hn as [|? ? Hk Hd]; subst. cbn [sp_set_params sp_set_param].
  assert (Hlast : forall k', last_value k' ((k, v) :: ps) = if str_eqb k k' then Some v else last_value k' ps).
  { intro k'. destruct (str_eqb k k') eqn:E.
    - apply str_eqb_eq in E. subst k'. apply last_value_cons_same. exact Hk.
    - apply last_value_cons_other. intros ->. rewrite str_eqb_refl in E. discriminate. }
  assert (Hnone : forall k', str_eqb k k' = true -> last_value k' ps = None).
  { intros k' E. apply str_eqb_eq in E. subst k'. apply last_value_none. exact Hk. }
  unfold reads_or. rewrite !Hlast.
  destruct (str_eqb k (lit "created")) eqn:E1.
  { apply str_eqb_eq in E1 as E. subst k. lits. rewrite as_u64_spec.
    destruct (negb_time (Some v)); [reflexivity|]. cbn [bind orb]. rewrite IH by assumption. unfold reads_or.
    rewrite (Hnone (lit "created")) by apply str_eqb_refl. reflexivity. }
  destruct (str_eqb k (lit "expires")) eqn:E2.
  { apply str_eqb_eq in E2 as E. subst k. lits. rewrite as_u64_spec.
    destruct (negb_time (Some v)); [rewrite orb_true_r; reflexivity|]. rewrite orb_false_r. cbn [bind orb]. rewrite IH by assumption. unfold reads_or.
    rewrite (Hnone (lit "expires")) by apply str_eqb_refl. rewrite orb_false_r. reflexivity. }
  destruct (str_eqb k (lit "nonce")) eqn:E3.
  { apply str_eqb_eq in E3 as E. subst k. lits. cbn [bind]. rewrite IH by assumption. unfold reads_or.
    rewrite (Hnone (lit "nonce")) by apply str_eqb_refl. rewrite as_string_text. reflexivity. }
  destruct (str_eqb k (lit "alg")) eqn:E4.
  { apply str_eqb_eq in E4 as E. subst k. lits. cbn [bind]. rewrite IH by assumption. unfold reads_or.
    rewrite (Hnone (lit "alg")) by apply str_eqb_refl. rewrite as_string_text. reflexivity. }
  destruct (str_eqb k (lit "keyid")) eqn:E5.
  { apply str_eqb_eq in E5 as E. subst k. lits. cbn [bind]. rewrite IH by assumption. unfold reads_or.
    rewrite (Hnone (lit "keyid")) by apply str_eqb_refl. rewrite as_string_text. reflexivity. }
  destruct (str_eqb k (lit "tag")) eqn:E6.
  { apply str_eqb_eq in E6 as E. subst k. lits. cbn [bind]. rewrite IH by assumption. unfold reads_or.
    rewrite (Hnone (lit "tag")) by apply str_eqb_refl. rewrite as_string_text. reflexivity. }
  cbn [bind]. rewrite IH by assumption. reflexivity.
Qed.
Definition no_params (ids : list cid) : sparams := mkSparams None None None None None None ids.
(** the parameters read from an inner list *)
Definition read_params (ids : list cid) (ps : params) : sparams :=
  mkSparams (reads int_of (lit "created") ps) (reads int_of (lit "expires") ps) (reads text_of (lit "nonce") ps)
    (reads text_of (lit "alg") ps) (reads text_of (lit "keyid") ps) (reads text_of (lit "tag") ps) ids.
Definition neg_times (ps : params) : bool := negb_time (last_value (lit "created") ps) || negb_time (last_value (lit "expires") ps).
Lemma neg_times_spec ps : neg_times ps = true <-> negative ps.
Proof.
  unfold neg_times, negative. rewrite orb_true_iff.
  assert (H : forall o, negb_time o = true <-> exists z, o = Some (BInt z) /\ (z < 0)%Z).
  { intros [b|]; [|split; [discriminate|intros (z & H & _); discriminate]]. destruct b; cbn; try (split; [discriminate|intros (x & H & _); discriminate]).
    rewrite Z.ltb_lt. split; [eauto|]. intros (x & Hx & Hl). inv Hx. assumption. }
  rewrite !H. split.
  - intros [(z & Hz & Hl)|(z & Hz & Hl)]; eauto 8.
  - intros (k & z & [->| ->] & Hz & Hl); eauto.
Qed.
Lemma entry_reads items ps : NoDup (map fst ps) ->
  sparams_of_entry (EInner (mkInner items ps)) =
  (let* ids := collect (fun i => cid_of_str (ser_item i)) items in
   if negb (has_unique_elements ids) then Err InvalidSignatureParams
   else if neg_times ps then Panic PNegative else Ok (read_params ids ps)).
Proof.
  intro H. unfold sparams_of_entry. cbn [in_items in_params]. destruct (collect _ items) as [ids|e|q]; cbn [bind]; try reflexivity.
  destruct (negb _); [reflexivity|]. rewrite sp_set_params_spec by assumption. reflexivity.
Qed.
Lemma reads_list p : read_params (sp_covered p) (params_list p) = p /\ neg_times (params_list p) = false.
Proof.
  unfold read_params, params_list, reads. destruct p as [c e n a k t ids].
  cbn [sp_created sp_expires sp_nonce sp_alg sp_keyid sp_tag sp_covered].
  assert (Hz : forall n, (Z.of_N n <? 0)%Z = false) by (intro x; lia).
  split.
  - destruct c, e, n, a, k, t; cbn; rewrite ?N2Z.id; reflexivity.
  - destruct c, e, n, a, k, t; unfold neg_times; cbn; rewrite ?Hz; reflexivity.
Qed.
Lemma cids_of_items ids : Forall valid_id ids -> collect (fun i => cid_of_str (ser_item i)) (map id_item ids) = Ok ids.
Proof.
  intro H. rewrite collect_map. induction H as [|i ids Hi H IH]; [reflexivity|]. cbn [collect]. rewrite cid_of_ser_item by assumption.
  rewrite IH. reflexivity.
Qed.
Lemma entry_of_inner p : Forall valid_id (sp_covered p) -> no_duplicate (sp_covered p) ->
  sparams_of_entry (EInner (params_inner p)) = Ok p.
Proof.
  intros H1 H2. unfold params_inner. destruct (params_list_keys p) as (ks & Ek & Hk). rewrite entry_reads by (rewrite Ek; assumption).
  rewrite cids_of_items by assumption. cbn [bind].
  rewrite (proj2 (has_unique_spec _ H1) H2). cbn [negb]. destruct (reads_list p) as [E1 E2]. rewrite E2, E1. reflexivity.
Qed.
Lemma sparams_round p : writable p -> sparams_of_str (sparams_str p) = Ok p.
Proof.
  intro H. unfold sparams_of_str. rewrite sparams_str_parse by assumption. cbn [ok_or bind]. apply entry_of_inner; apply H.
Qed.
(** parsed parameters without escapes are writable *)
Lemma ids_valid items ids : collect (fun i => cid_of_str (ser_item i)) items = Ok ids -> Forall valid_id ids.
Proof. intro H. apply collect_ok in H. induction H; constructor; [|assumption]. eapply cid_of_str_valid; eassumption. Qed.
Lemma reads_text k ps s : Forall wf_param ps -> reads text_of k ps = Some s -> Forall printable s.
Proof.
  intros H. unfold reads. destruct (last_value k ps) as [b|] eqn:E; [|discriminate]. intro Hs. destruct b; try discriminate. inv Hs.
  apply last_value_In in E. rewrite Forall_forall in H. apply H in E as [_ E]. apply print_spec, E.
Qed.
Lemma reads_int k ps n : Forall wf_param ps -> reads int_of k ps = Some n -> n <= 999999999999999.
Proof.
  intros H. unfold reads. destruct (last_value k ps) as [b|] eqn:E; [|discriminate]. intro Hs. destruct b; try discriminate. inv Hs.
  apply last_value_In in E. rewrite Forall_forall in H. apply H in E as [_ E]. cbn in E. unfold lim15 in E. lia.
Qed.
Lemma parsed_writable e p : wf_entry e -> sparams_of_entry e = Ok p -> unescaped p -> writable p.
Proof.
  destruct e as [i|[items ps]]; [discriminate|]. intros [Hi [Hp Hn]] H [Hu Hc]. rewrite entry_reads in H by assumption.
  destruct (collect _ items) as [ids|e|q] eqn:E; try discriminate. cbn [bind] in H.
  pose proof (ids_valid _ _ E) as Hv. destruct (has_unique_elements ids) eqn:Eu; [|discriminate]. cbn [negb] in H.
  destruct (neg_times ps); [discriminate|]. inv H. apply has_unique_spec in Eu; [|assumption].
  cbn [read_params sp_created sp_expires sp_nonce sp_alg sp_keyid sp_tag sp_covered] in *.
  assert (Ht : forall k, short (reads int_of k ps)).
  { intro k. unfold short. destruct (reads int_of k ps) eqn:Er; [|exact I]. eapply reads_int; eassumption. }
  assert (Hs : forall k, In (reads text_of k ps) [reads text_of (lit "nonce") ps; reads text_of (lit "alg") ps; reads text_of (lit "keyid") ps; reads text_of (lit "tag") ps] -> plain (reads text_of k ps)).
  { intros k Hk. unfold plain. destruct (reads text_of k ps) eqn:Er; [|exact I]. split; [eapply reads_text; eassumption|]. apply Hu, Hk. }
  repeat split; try apply Ht; try assumption; apply Hs; cbn [In]; tauto.
Qed.
Lemma parsed_wellformed e p : wf_entry e -> sparams_of_entry e = Ok p -> wellformed p.
Proof.
  destruct e as [i|[items ps]]; [discriminate|]. intros [Hi [Hp Hn]] H. rewrite entry_reads in H by assumption.
  destruct (collect _ items) as [ids|e|q] eqn:E; try discriminate. cbn [bind] in H.
  pose proof (ids_valid _ _ E) as Hv. destruct (has_unique_elements ids) eqn:Eu; [|discriminate]. cbn [negb] in H.
  destruct (neg_times ps); [discriminate|]. inv H. apply has_unique_spec in Eu; [|assumption].
  unfold wellformed. cbn [read_params sp_created sp_expires sp_covered] in *.
  assert (Ht : forall k, short (reads int_of k ps)).
  { intro k. unfold short. destruct (reads int_of k ps) eqn:Er; [|exact I]. eapply reads_int; eassumption. }
  auto.
Qed.

(** ** without double quotes the text determines the parameters *)
(** other characters are encoded to plain ones *)
Definition plain_char (c : N) : bool := (32 <=? c) && (c <=? 126) && negb (c =? 92) && negb (c =? 126).
Definition enc_char (c : N) : str := if plain_char c then [c] else 126 :: dec c ++ [126].
Definition enc (s : str) : str := flat_map enc_char s.
Lemma enc_app a b : enc (a ++ b) = enc a ++ enc b.
Proof. apply flat_map_app. Qed.
Lemma dec_no_tilde n : ~ In 126 (dec n).
Proof. intro H. pose proof (dec_digits n) as Hd. rewrite Forall_forall in Hd. apply Hd in H. unfold digitp in H. lia. Qed.
Lemma split_at_inj {A} (c : A) a : forall a' r r', ~ In c a -> ~ In c a' -> a ++ c :: r = a' ++ c :: r' -> a = a' /\ r = r'.
Proof.
  induction a as [|x a IH]; intros [|y a'] r r' H H' E; cbn [app] in E; injection E.
  - auto.
  - intros _ <-. exfalso. apply H'. left. reflexivity.
  - intros _ ->. exfalso. apply H. left. reflexivity.
  - intros E' <-. destruct (IH a' r r') as [-> ->]; auto; intro Hi; [apply H|apply H']; right; assumption.
Qed.
Lemma enc_cons x a : enc (x :: a) = (if plain_char x then [x] else 126 :: dec x ++ [126]) ++ enc a.
Proof. reflexivity. Qed.
Lemma enc_inj a : forall b, enc a = enc b -> a = b.
Proof.
  induction a as [|x a IH]; intros [|y b] H; rewrite ?enc_cons in H.
  - reflexivity.
  - exfalso. destruct (plain_char y); discriminate H.
  - exfalso. destruct (plain_char x); discriminate H.
  - destruct (plain_char x) eqn:Ex, (plain_char y) eqn:Ey; cbn [app] in H.
    + injection H as -> H. f_equal. apply IH. assumption.
    + injection H as -> _. discriminate Ex.
    + injection H as <- _. discriminate Ey.
    + injection H as H. rewrite <- !app_assoc in H. cbn [app] in H.
      apply split_at_inj in H as [Hd Hr]; try apply dec_no_tilde. apply dec_inj in Hd. subst y. f_equal. apply IH. exact Hr.
Qed.
Lemma enc_quoted s : enc (cQuote :: s ++ [cQuote]) = cQuote :: enc s ++ [cQuote].
Proof. change (cQuote :: s ++ [cQuote]) with ([cQuote] ++ s ++ [cQuote]). rewrite !enc_app. reflexivity. Qed.
Lemma enc_plain s : forallb plain_char s = true -> enc s = s.
Proof.
  induction s as [|c s IH]; [reflexivity|]. cbn [forallb]. intro H. apply andb_true_iff in H as [H1 H2]. rewrite enc_cons, H1. cbn [app]. f_equal. apply IH, H2.
Qed.
Lemma enc_dec n : enc (dec n) = dec n.
Proof.
  apply enc_plain, forallb_forall. intros c Hc. pose proof (dec_digits n) as Hd. rewrite Forall_forall in Hd. apply Hd in Hc.
  unfold digitp in Hc. unfold plain_char. lia.
Qed.
Lemma enc_in c s : In c (enc s) -> (In c s /\ plain_char c = true) \/ c = 126 \/ 48 <= c <= 57.
Proof.
  unfold enc. intro H. apply in_flat_map in H as (x & Hx & H). unfold enc_char in H. destruct (plain_char x) eqn:E.
  - destruct H as [<-|[]]. auto.
  - destruct H as [<-|H]; [auto|]. apply in_app_or in H as [H|[<-|[]]]; [|auto]. right. right.
    pose proof (dec_digits x) as Hd. rewrite Forall_forall in Hd. apply Hd in H. exact H.
Qed.
Lemma enc_printable s : Forall printable (enc s).
Proof. apply Forall_forall. intros c H. apply enc_in in H as [[_ H]|[->|H]]; unfold printable; unfold plain_char in *; lia. Qed.
Lemma enc_clean s : ~ In 34 s -> clean (enc s).
Proof.
  intro H. split; intro Hc; apply enc_in in Hc as [[Hc Hp]|[Hc|Hc]]; try lia; [contradiction|]. discriminate Hp.
Qed.
Definition enc_param (p : cparam) : cparam := match p with Key v => Key (enc v) | Name v => Name (enc v) | _ => p end.
Definition enc_name (n : cname) : cname := match n with HttpField s => HttpField (enc s) | Derived d => Derived d end.
Definition enc_id (i : cid) : cid := mkCid (enc_name (id_name i)) (map enc_param (id_params i)).
Definition enc_params (p : sparams) : sparams :=
  mkSparams (sp_created p) (sp_expires p) (option_map enc (sp_nonce p)) (option_map enc (sp_alg p)) (option_map enc (sp_keyid p))
    (option_map enc (sp_tag p)) (map enc_id (sp_covered p)).
Lemma enc_param_str p : enc (cparam_str p) = cparam_str (enc_param p).
Proof. destruct p; try reflexivity; cbn [cparam_str enc_param]; rewrite enc_app, enc_quoted; reflexivity. Qed.
Lemma enc_flat (f : cparam -> str) (g : cparam -> str) l : (forall p, enc (f p) = g (enc_param p)) -> enc (flat_map f l) = flat_map g (map enc_param l).
Proof. intro H. induction l as [|p l IH]; [reflexivity|]. cbn [flat_map map]. rewrite enc_app, IH, H. reflexivity. Qed.
Lemma enc_id_str i : enc (cid_str i) = cid_str (enc_id i).
Proof.
  unfold cid_str. rewrite enc_app. f_equal.
  - destruct (id_name i) as [s|d] eqn:E; unfold enc_id; rewrite E; cbn [id_name enc_name name_str]; rewrite enc_quoted; [reflexivity|].
    destruct d; reflexivity.
  - cbn [enc_id id_params]. rewrite !cparams_str_flat. apply enc_flat. intro p. rewrite <- enc_param_str. reflexivity.
Qed.
Lemma enc_opt {A} (o : option A) f g : (forall a, enc (f a) = g a) -> enc (opt_str o f) = opt_str o g.
Proof. intro H. destruct o; cbn [opt_str]; [apply H|reflexivity]. Qed.
Lemma enc_opt_text (o : option str) k : forallb plain_char k = true ->
  enc (opt_str o (fun v => k ++ quoted v)) = opt_str (option_map enc o) (fun v => k ++ quoted v).
Proof. intro H. destruct o; [|reflexivity]. cbn [opt_str option_map]. rewrite enc_app, (enc_plain k H). unfold quoted. rewrite enc_quoted. reflexivity. Qed.
Lemma enc_opt_time (o : option N) k : forallb plain_char k = true -> enc (opt_str o (fun v => k ++ dec v)) = opt_str o (fun v => k ++ dec v).
Proof. intro H. destruct o; [|reflexivity]. cbn [opt_str]. rewrite enc_app, (enc_plain k H), enc_dec. reflexivity. Qed.
Lemma enc_join l : enc (join [cSP] (map cid_str l)) = join [cSP] (map cid_str (map enc_id l)).
Proof.
  destruct l as [|i l]; [reflexivity|]. cbn [map]. rewrite !join_cons_flat, enc_app, enc_id_str. f_equal.
  induction l as [|j l IH]; [reflexivity|]. cbn [map flat_map]. rewrite !enc_app, IH, enc_id_str. reflexivity.
Qed.
Lemma enc_sparams p : enc (sparams_str p) = sparams_str (enc_params p).
Proof.
  unfold sparams_str. rewrite !joined_ids, !enc_app, enc_join. cbn [enc_params sp_created sp_expires sp_nonce sp_alg sp_keyid sp_tag sp_covered].
  rewrite !enc_opt_text, !enc_opt_time by reflexivity. reflexivity.
Qed.
Lemma enc_param_inj p q : enc_param p = enc_param q -> p = q.
Proof. destruct p, q; cbn; intro H; try discriminate H; try reflexivity; injection H as H; apply enc_inj in H; subst; reflexivity. Qed.
Lemma enc_name_inj a b : enc_name a = enc_name b -> a = b.
Proof. destruct a, b; cbn; intro H; try discriminate H; try assumption; injection H as H; apply enc_inj in H; subst; reflexivity. Qed.
Lemma map_inj {A B} (f : A -> B) : (forall x y, f x = f y -> x = y) -> forall l l', map f l = map f l' -> l = l'.
Proof. intros H l. induction l as [|x l IH]; intros [|y l'] E; cbn [map] in E; try discriminate; [reflexivity|]. injection E as E1 E2. f_equal; auto. Qed.
Lemma enc_id_inj a b : enc_id a = enc_id b -> a = b.
Proof.
  destruct a as [n ps], b as [n' ps']. unfold enc_id. cbn [id_name id_params]. intro H. injection H as H1 H2.
  apply enc_name_inj in H1. apply (map_inj _ enc_param_inj) in H2. subst. reflexivity.
Qed.
Lemma option_map_inj {A B} (f : A -> B) (a b : option A) : (forall x y, f x = f y -> x = y) -> option_map f a = option_map f b -> a = b.
Proof. intros H E. destruct a, b; cbn in E; try discriminate; [|reflexivity]. injection E as E. f_equal. auto. Qed.
Lemma enc_params_inj p q : enc_params p = enc_params q -> p = q.
Proof.
  destruct p as [p1 p2 p3 p4 p5 p6 p7], q as [q1 q2 q3 q4 q5 q6 q7]. unfold enc_params. cbn [sp_created sp_expires sp_nonce sp_alg sp_keyid sp_tag sp_covered]. intro H.
  injection H as H1 H2 H3 H4 H5 H6 H7. subst. apply (option_map_inj _ _ _ enc_inj) in H3, H4, H5, H6. apply (map_inj _ enc_id_inj) in H7. subst. reflexivity.
Qed.
Lemma enc_valid i : valid_id i -> valid_id (enc_id i).
Proof.
  destruct i as [n ps]. intros (H1 & H2 & H3). cbn [id_name id_params] in *. unfold valid_id, enc_id. cbn [id_name id_params]. split; [|split].
  - destruct n as [s|d]; cbn [enc_name valid_name] in *; [|exact I]. destruct H1 as [Hp Ha]. split; [apply enc_printable|].
    intros r E. destruct s as [|c s]; [discriminate E|]. rewrite enc_cons in E. destruct (plain_char c).
    + injection E as -> _. exact (Ha s eq_refl).
    + discriminate E.
  - apply Forall_map. eapply Forall_impl; [|exact H2]. intros p Hp.
    destruct p; cbn [allowed enc_param] in *; try exact I; try (destruct Hp as [t ->]; exists (enc t); reflexivity).
    + destruct Hp as [[t ->] _]. split; [exists (enc t); reflexivity|apply enc_printable].
    + destruct Hp as [-> _]. split; [reflexivity|apply enc_printable].
  - rewrite map_map. replace (map (fun x => kind (enc_param x)) ps) with (map kind ps); [assumption|]. apply map_ext. intros []; reflexivity.
Qed.
Lemma enc_same a b : same_id (enc_id a) (enc_id b) -> same_id a b.
Proof.
  intros [H1 H2]. cbn [enc_id id_name id_params] in *. split; [apply enc_name_inj, H1|].
  assert (H : forall x y, (forall p, In p (map enc_param x) -> In p (map enc_param y)) -> forall p, In p x -> In p y).
  { intros x y Hxy p Hp. apply (in_map enc_param), Hxy, in_map_iff in Hp as (q & Hq & Hi). apply enc_param_inj in Hq. subst. assumption. }
  intro p. split; apply H; intros q; apply H2.
Qed.
Lemma enc_no_dup l : no_duplicate l -> no_duplicate (map enc_id l).
Proof.
  intros H i j a b Ha Hb Hs. rewrite nth_error_map in Ha, Hb. destruct (nth_error l i) as [a'|] eqn:Ea; [|discriminate].
  destruct (nth_error l j) as [b'|] eqn:Eb; [|discriminate]. inv Ha. inv Hb. eapply H; try eassumption. apply enc_same. assumption.
Qed.
Lemma enc_clean_id i : lacks 34 i -> clean_id (enc_id i).
Proof.
  intros (H1 & H2 & H3). unfold enc_id, clean_id. cbn [id_name id_params]. split; [|split].
  - intros s Hs. destruct (id_name i) as [t|d] eqn:E; cbn in Hs; [|discriminate]. injection Hs as <-. apply enc_clean, (H1 t), eq_refl.
  - intros v Hv. apply in_map_iff in Hv as (p & Hp & Hi). destruct p; try discriminate. injection Hp as <-. apply enc_clean, H2, Hi.
  - intros v Hv. apply in_map_iff in Hv as (p & Hp & Hi). destruct p; try discriminate. injection Hp as <-. apply enc_clean, H3, Hi.
Qed.
Lemma enc_writable p : wellformed p -> unquoted p -> writable (enc_params p).
Proof.
  intros (H1 & H2 & H3 & H4) [Hu Hl]. unfold writable, enc_params. cbn [sp_created sp_expires sp_nonce sp_alg sp_keyid sp_tag sp_covered].
  assert (Ht : forall o, In o [sp_nonce p; sp_alg p; sp_keyid p; sp_tag p] -> plain (option_map enc o)).
  { intros [s|] Ho; [|exact I]. split; [apply enc_printable|]. apply enc_clean, Hu, Ho. }
  repeat split; try assumption; try (apply Ht; cbn [In]; tauto).
  - apply Forall_map. eapply Forall_impl; [|exact H3]. exact enc_valid.
  - apply Forall_map. eapply Forall_impl; [|exact Hl]. exact enc_clean_id.
  - apply enc_no_dup. assumption.
Qed.
Lemma sparams_str_inj p q : wellformed p -> wellformed q -> unquoted p -> unquoted q -> sparams_str p = sparams_str q -> p = q.
Proof.
  intros Hp Hq Up Uq E. apply enc_params_inj.
  pose proof (sparams_round _ (enc_writable p Hp Up)) as Rp. pose proof (sparams_round _ (enc_writable q Hq Uq)) as Rq.
  rewrite <- enc_sparams in Rp, Rq. rewrite E in Rp. congruence.
Qed.
Lemma cid_str_inj i j : valid_id i -> valid_id j -> lacks 34 i -> lacks 34 j -> cid_str i = cid_str j -> i = j.
Proof.
  intros Hi Hj Li Lj E. apply enc_id_inj.
  pose proof (cid_round _ (enc_valid i Hi) (enc_clean_id i Li)) as Ri. pose proof (cid_round _ (enc_valid j Hj) (enc_clean_id j Lj)) as Rj.
  rewrite <- enc_id_str in Ri, Rj. rewrite E in Ri. congruence.
Qed.

(** ** panics *)
Lemma derived_of_str_panic s : (exists p, derived_of_str s = Panic p) <-> ~ In s derived_names.
Proof.
  unfold derived_of_str, derived_names. split.
  - intros (p & H). repeat match type of H with (if str_eqb s ?l then _ else _) = _ =>
      destruct (str_eqb s l) eqn:?; [discriminate|] end.
    cbn [In]. intro Hi. repeat (destruct Hi as [Hi|Hi]; [subst s; rewrite str_eqb_refl in *; discriminate|]). exact Hi.
  - intro H. exists PDerivedName. repeat match goal with |- (if str_eqb s ?l then _ else _) = _ =>
      destruct (str_eqb s l) eqn:Ex; [exfalso; apply H; apply str_eqb_eq in Ex; subst s; cbn [In]; tauto|clear Ex] end. reflexivity.
Qed.
Lemma derived_of_str_panic_kind s p : derived_of_str s = Panic p -> p = PDerivedName.
Proof.
  unfold derived_of_str. intro H. repeat match type of H with (if str_eqb s ?l then _ else _) = _ =>
      destruct (str_eqb s l); [discriminate|] end. inv H. reflexivity.
Qed.
Lemma collect_panic {E A B} (f : A -> result E B) l p : collect f l = Panic p ->
  exists a x b ys, l = a ++ x :: b /\ collect f a = Ok ys /\ f x = Panic p.
Proof.
  revert p. induction l as [|x l IH]; intros p H; cbn [collect] in H; [discriminate|].
  destruct (f x) as [y|e|q] eqn:Ef; [|discriminate|].
  - destruct (collect f l) as [ys|e|q]; [discriminate|discriminate|]. inv H. destruct (IH p eq_refl) as (a & x' & b & ys & -> & Ha & Hx).
    exists (x :: a), x', b, (y :: ys). split; [reflexivity|]. cbn [collect]. rewrite Ef, Ha. auto.
  - inv H. exists [], x, l, []. auto.
Qed.
Lemma collect_panic_intro {E A B} (f : A -> result E B) a x b ys p : collect f a = Ok ys -> f x = Panic p -> collect f (a ++ x :: b) = Panic p.
Proof.
  revert ys. induction a as [|y a IH]; intros ys Ha Hx; cbn [app collect] in *; [rewrite Hx; reflexivity|].
  destruct (f y); try discriminate. destruct (collect f a) eqn:E1; try discriminate. rewrite (IH a1 eq_refl Hx). reflexivity.
Qed.
Lemma cparam_of_no_panic kv p : cparam_of kv <> Panic p.
Proof.
  destruct kv as [k v]. unfold cparam_of. repeat (destruct (str_eqb k _); [try discriminate; destruct (as_string v); discriminate|]). discriminate.
Qed.
Lemma cparams_of_no_panic ps p : cparams_of ps <> Panic p.
Proof.
  unfold cparams_of. destruct (collect cparam_of ps) eqn:E; cbn; try discriminate. apply collect_panic in E as (a & x & b & ys & _ & _ & H).
  exfalso. eapply cparam_of_no_panic; eassumption.
Qed.
Lemma cid_of_item_panic it p : cid_of_item it = Panic p <-> exists s, it_bare it = BStr (64 :: s) /\ derived_of_str (64 :: s) = Panic p.
Proof.
  unfold cid_of_item. split.
  - destruct (name_of_bare (it_bare it)) as [n|e|q] eqn:En; cbn [bind].
    + destruct (cparams_of (it_params it)) eqn:Ec; cbn [bind]; [|discriminate|exfalso; eapply cparams_of_no_panic; eassumption].
      destruct (_ && _); [discriminate|]. destruct (_ && _); discriminate.
    + discriminate.
    + intro H. inv H. unfold name_of_bare in En. destruct (it_bare it) as [| |s| | | | |]; try discriminate.
      destruct (starts_with cAt s) eqn:Es; [|discriminate]. destruct s as [|c s]; [discriminate|]. cbn in Es. unfold cAt in Es.
      apply N.eqb_eq in Es. subst c. exists s. split; [reflexivity|]. destruct (derived_of_str (64 :: s)); try discriminate. inv En. reflexivity.
  - intros (s & -> & H). unfold name_of_bare. change (starts_with cAt (64 :: s)) with true. cbn iota. rewrite H. reflexivity.
Qed.
Lemma ser_int_head z : exists c r, ser_int z = c :: r /\ (c = 45 \/ 48 <= c <= 57).
Proof.
  unfold ser_int. destruct (z <? 0)%Z; [exists cMinus; eexists; split; [reflexivity|left; reflexivity]|].
  pose proof (dec_nonempty (Z.abs_N z)) as Hn. pose proof (dec_digits (Z.abs_N z)) as Hd. destruct (dec (Z.abs_N z)) as [|c r]; [congruence|].
  exists c, r. split; [reflexivity|]. apply Forall_inv in Hd. unfold digitp in Hd. lia.
Qed.
Lemma date_not_derived z t : ~ In (64 :: ser_int z ++ t) derived_names.
Proof.
  destruct (ser_int_head z) as (c & r & -> & Hc). cbn [app]. intro H. unfold derived_names in H.
  repeat (destruct H as [H|H]; [injection H as H1 _; subst c; lia|]). exact H.
Qed.
Lemma ser_bare_at b r : ser_bare b = 64 :: r -> wf_bare b -> exists z, b = BDate z.
Proof.
  destruct b; cbn [ser_bare wf_bare]; intros H Hw.
  - destruct (ser_int_head z) as (c & r' & E & Hc). rewrite E in H. injection H as -> _. lia.
  - exfalso. assert (Hh := dec_text_head z). rewrite H in Hh. chars.
  - discriminate.
  - destruct Hw as [Hw _]. subst s. chars.
  - discriminate.
  - destruct b; discriminate.
  - eauto.
  - discriminate.
Qed.
(** covered items on which the code panics: unknown derived names, and dates (which read as such names) *)
Definition bad_item (it : item) : Prop :=
  (exists s, it_bare it = BStr (64 :: s) /\ ~ In (64 :: s) derived_names)
  \/ (exists z, it_bare it = BDate z /\ ~ In 34 (ser_item it)).
Lemma cid_of_ser_item_panic it p : wf_item it -> (cid_of_str (ser_item it) = Panic p <-> bad_item it /\ p = PDerivedName).
Proof.
  intro Hw. pose proof (ser_item_trimmed it Hw) as Ht. rewrite cid_of_str_unfold, trim_id by assumption.
  pose proof (parse_item_round it Hw) as Hr.
  assert (Hstr : (exists s, it_bare it = BStr s) -> starts_with cQuote (ser_item it) = true).
  { intros (s & E). unfold ser_item. rewrite E. reflexivity. }
  assert (Hnstr : starts_with cQuote (ser_item it) = true -> exists s, it_bare it = BStr s).
  { destruct Hw as [Hb _]. unfold ser_item. destruct (it_bare it) as [z|z|s|s|b|[]|z|b]; cbn [ser_bare]; try discriminate; [| |eauto|].
    - destruct (ser_int_head z) as (c & r & -> & Hc). cbn. unfold cQuote. lia.
    - pose proof (dec_text_head z) as Hh. destruct (ser_dec z) as [|c r]; [destruct Hh|]. cbn. chars.
    - destruct Hb as [Hb _]. destruct s as [|c s]; [destruct Hb|]. cbn. chars. }
  destruct (starts_with cQuote (ser_item it)) eqn:Es; cbn [negb andb].
  - rewrite Hr. cbn [ok_or bind]. destruct (Hnstr eq_refl) as (s & Eb). rewrite cid_of_item_panic. split.
    + intros (s' & E & Hp). split; [left; exists s'; split; [assumption|apply derived_of_str_panic; eauto]|eapply derived_of_str_panic_kind; eassumption].
    + intros [[(s' & E & Hp)|(z & E & _)] ->]; [|congruence]. exists s'. split; [assumption|].
      apply derived_of_str_panic in Hp as (p & Hp). rewrite Hp. f_equal. eapply derived_of_str_panic_kind; eassumption.
  - assert (Hns : forall s, it_bare it <> BStr s) by (intros s E; discriminate (Hstr (ex_intro _ s E))).
    destruct (contains cQuote (ser_item it)) eqn:Ec.
    + cbn [negb andb]. rewrite andb_false_r, Hr. cbn [ok_or bind]. rewrite cid_of_item_panic. split.
      * intros (s & E & _). destruct (Hns _ E).
      * intros [[(s & E & _)|(z & E & Hn)] _]; [destruct (Hns _ E)|]. exfalso. apply Hn. apply contains_In in Ec. exact Ec.
    + assert (Hq : ~ In cQuote (ser_item it)) by (intro Hi; apply contains_In in Hi; congruence).
      assert (Hb : ~ In cBack (ser_item it)) by (intro Hi; apply Hq, ser_item_back; assumption).
      rewrite contains_last by assumption. pose proof (ser_item_head it Hw) as Hh.
      destruct (ser_item it) as [|c v] eqn:Ei; [destruct Hh|]. cbn [negb andb is_empty]. rewrite <- Ei in *.
      set (nm := ser_item it) in *.
      assert (Hp : parse_item (cQuote :: nm ++ [cQuote]) = Some (mkItem (BStr nm) [])).
      { assert (Hi : ser_item (mkItem (BStr nm) []) = cQuote :: nm ++ [cQuote]).
        { unfold ser_item. cbn [it_bare it_params ser_bare ser_params flat_map]. unfold ser_str. rewrite esc_clean by (split; assumption). apply app_nil_r. }
        rewrite <- Hi. apply parse_item_round. split; [|split; constructor]. cbn. apply printp_of. apply ser_item_print. assumption. }
      rewrite Hp. cbn [ok_or bind]. rewrite cid_of_item_panic. cbn [it_bare]. split.
      * intros (s & E & Hs). assert (En : nm = 64 :: s) by congruence. clear E. split; [|eapply derived_of_str_panic_kind; eassumption]. right. destruct Hw as [Hwb _].
        assert (Hd : exists z, it_bare it = BDate z).
        { unfold nm, ser_item in En. destruct (ser_bare (it_bare it)) as [|x r] eqn:Eb; [exfalso|].
          - pose proof (ser_bare_solid _ Hwb) as (u & y & Hu & _). rewrite Eb in Hu. destruct u; discriminate.
          - cbn [app] in En. injection En as -> _. eapply ser_bare_at; eassumption. }
        destruct Hd as (z & Ez). exists z. split; [assumption|]. exact Hq.
      * intros [[(s & E & _)|(z & E & Hn)] ->]; [destruct (Hns _ E)|].
        assert (En : nm = 64 :: ser_int z ++ ser_params (it_params it)) by (unfold nm, ser_item; rewrite E; reflexivity).
        eexists. split; [f_equal; exact En|]. pose proof (date_not_derived z (ser_params (it_params it))) as Hd.
        apply derived_of_str_panic in Hd as (p & Hp'). rewrite Hp'. f_equal. eapply derived_of_str_panic_kind; eassumption.
Qed.
(** when reading an inner list panics *)
Lemma entry_panic items ps : wf_inner (mkInner items ps) ->
  ((exists q, sparams_of_entry (EInner (mkInner items ps)) = Panic q) <->
   (exists a it b ids, items = a ++ it :: b /\ collect (fun i => cid_of_str (ser_item i)) a = Ok ids /\ bad_item it)
   \/ (exists ids, collect (fun i => cid_of_str (ser_item i)) items = Ok ids /\ no_duplicate ids /\ negative ps)).
Proof.
  intros [Hi [Hp Hn]]. cbn [in_items in_params] in *. rewrite entry_reads by assumption. split.
  - intros (q & H). destruct (collect _ items) as [ids|e|q'] eqn:E; cbn [bind] in H; try discriminate.
    + right. exists ids. split; [reflexivity|]. destruct (has_unique_elements ids) eqn:Eu; [|discriminate]. cbn [negb] in H.
      apply has_unique_spec in Eu; [|eapply ids_valid; eassumption]. split; [assumption|]. destruct (neg_times ps) eqn:En; [|discriminate]. apply neg_times_spec, En.
    + left. inv H. apply collect_panic in E as (a & it & b & ids & -> & Ha & Hx). exists a, it, b, ids. split; [reflexivity|]. split; [assumption|].
      apply Forall_app in Hi as [_ Hi]. apply Forall_inv in Hi. apply cid_of_ser_item_panic in Hx; [|assumption]. apply Hx.
  - intros [(a & it & b & ids & -> & Ha & Hb)|(ids & Hc & Hd & Hg)].
    + exists PDerivedName. apply Forall_app in Hi as [_ Hi]. apply Forall_inv in Hi.
      erewrite collect_panic_intro; [reflexivity|exact Ha|]. apply cid_of_ser_item_panic; auto.
    + exists PNegative. rewrite Hc. cbn [bind]. apply has_unique_spec in Hd; [|eapply ids_valid; eassumption]. rewrite Hd. cbn [negb].
      apply neg_times_spec in Hg. rewrite Hg. reflexivity.
Qed.

(** ** inner lists with repeated parameters *)
Lemma parse_inner_dup items raw : Forall wf_item items -> Forall wf_param raw ->
  parse_list (ser_inner (mkInner items raw)) = Some [EInner (mkInner items (im_of_list raw))].
Proof.
  intros Hi Hp. unfold parse_list. rewrite skip_id by reflexivity. apply (p_sep_one p_entry wf_entry p_entry_facts).
  unfold ser_inner, p_entry. cbn [in_items in_params]. change (cLPar =? cLPar) with true. cbn iota.
  unfold p_inner. rewrite ser_items_round; [|assumption|lia].
  rewrite <- (app_nil_r (ser_params raw)), ser_params_round_dup by (assumption || exact I). reflexivity.
Qed.
Lemma last_of_list {V} k (l : list (str * V)) : last_value k (im_of_list l) = last_value k l.
Proof. rewrite last_value_nodup by apply im_of_list_nodup. apply im_get_of_list. Qed.
Lemma str_reads items raw : Forall wf_item items -> Forall wf_param raw ->
  sparams_of_str (ser_inner (mkInner items raw)) =
  (let* ids := collect (fun i => cid_of_str (ser_item i)) items in
   if negb (has_unique_elements ids) then Err InvalidSignatureParams
   else if neg_times raw then Panic PNegative else Ok (read_params ids raw)).
Proof.
  intros Hi Hp. unfold sparams_of_str. rewrite parse_inner_dup by assumption. cbn [ok_or bind].
  rewrite entry_reads by apply im_of_list_nodup. unfold neg_times, read_params, reads. rewrite !last_of_list. reflexivity.
Qed.
