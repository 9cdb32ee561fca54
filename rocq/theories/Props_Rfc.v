(** C104, C105: component values of fields compared with RFC 9421 section 2.1. *)
From Verif Require Import Base BaseFacts Utf8 Sfv SfvFacts SfvRound SpecSfv SpecSfvProofs SpecGrammar GrammarProofs SpecCanon CanonProofs Component Http Hyper SpecId SpecValue ValueProofs SignProofs SpecRfc RfcProofs Props_Value.

(** ** C104 *)
(** the value is that of the RFC for exactly the fields that are there and have no white space around their lines *)
Theorem C104_exactly_partial : forall n ps ls, (forall p, In p ps -> p = Req) ->
  exists v, comp_of_values (mkCid (HttpField n) ps) ls = Ok (mkComp (mkCid (HttpField n) ps) (VString v))
    /\ (rfc_field ls v <-> ls <> [] /\ Forall no_blanks_around ls).
Proof.
  intros n ps ls Hp. exists (comma_join ls). split; [apply C07_plain, Hp|]. split.
  - intros (Hn & ys & Hs & E). split; [assumption|]. assert (ls = ys) as <- by (apply stripped_join; [assumption|congruence]).
    clear -Hs. induction ls as [|x ls IH]; constructor; inversion Hs; subst; [apply stripped_self; assumption|auto].
  - intros (Hn & Hf). split; [assumption|]. exists ls. split; [|reflexivity]. clear -Hf. induction Hf; constructor; [apply stripped_self; assumption|assumption].
Qed.
Print Assumptions C104_exactly_partial.
(** white space is signed, and a field that is not there is taken for an empty one *)
Definition blank_req : request := mkReq (lit "GET") (origin (lit "/") None) [(lit "x", lit " a	")] [].
Theorem C104_refuted :
  (exists v w, component_line (MReq blank_req) None (mkCid (HttpField (lit "x")) []) = Ok (mkComp (mkCid (HttpField (lit "x")) []) (VString v))
     /\ rfc_field [lit " a	"] w /\ v <> w)
  /\ (exists v, component_line (MReq blank_req) None (mkCid (HttpField (lit "y")) []) = Ok (mkComp (mkCid (HttpField (lit "y")) []) (VString v)) /\ forall w, ~ rfc_field [] w).
Proof.
  split.
  - exists (lit " a	"), (lit "a"). split; [vm_compute; reflexivity|]. split; [|discriminate]. split; [discriminate|]. exists [lit "a"]. split; [|reflexivity]. constructor; [|constructor].
    exists (lit " "), (lit "	"). split; [reflexivity|]. split; [repeat constructor|]. split; [constructor; [right; reflexivity|constructor]|]. repeat split; discriminate.
  - exists []. split; [vm_compute; reflexivity|]. intros w [H _]. congruence.
Qed.
Print Assumptions C104_refuted.
Example C104_example : exists v, comp_of_values (mkCid (HttpField (lit "x")) []) [lit "a b"; lit "c"] = Ok (mkComp (mkCid (HttpField (lit "x")) []) (VString v)) /\ rfc_field [lit "a b"; lit "c"] v.
Proof.
  destruct (C104_exactly_partial (lit "x") [] [lit "a b"; lit "c"] (fun p (H : In p []) => match H with end)) as (v & H1 & H2). exists v. split; [exact H1|]. apply H2. split; [discriminate|].
  constructor; [repeat split; discriminate|]. constructor; [repeat split; discriminate|constructor].
Qed.

(** ** C105 *)
(** sf, when every line is a list *)
Theorem C105_list_partial : forall n ls c, ls <> [] -> Forall (fun v => exists l, list_field l v) ls ->
  comp_of_values (mkCid (HttpField n) [Sf]) ls = Ok c -> exists v, c = mkComp (mkCid (HttpField n) [Sf]) (VString v) /\ rfc_list ls v.
Proof.
  intros n ls c Hn Hl H. apply (C08_canonical_values n [] []) in H as (vs & Hv & ->); [|intros p []]. exists (comma_join vs). split; [reflexivity|].
  assert (E : exists lls, Forall2 list_field lls ls /\ Forall (fun l : slist => l <> []) lls /\ Forall2 canon_list lls vs).
  { clear Hn. induction Hv as [|x y ls vs Hc Hv IH]; [exists []; repeat split; constructor|]. inversion Hl as [|? ? (l & Hx) Hl']; subst. destruct (IH Hl') as (lls & I1 & I2 & I3).
    destruct Hc as [(l' & H1 & H2)|(H1 & _)]; [|destruct (H1 l Hx)]. exists (l' :: lls). split; [constructor; assumption|]. split; [|constructor; assumption]. constructor; [|assumption].
    intros ->. destruct H2 as (ts & Ht & Hs). inversion Ht; subst. inversion Hs. }
  destruct E as (lls & E1 & E2 & E3). exists (concat lls). split; [apply commas_join; assumption|]. apply canon_join; [exact E3|]. intros ->. inversion Hv; subst. congruence.
Qed.
Print Assumptions C105_list_partial.
(** sf, when every line is a dictionary: the value is that of the RFC if and only if no key is signed twice *)
Theorem C105_dict_exactly_partial : forall n ls, ls <> [] -> Forall some_dict ls ->
  exists ms v, Forall2 signed_members ls ms /\ comp_of_values (mkCid (HttpField n) [Sf]) ls = Ok (mkComp (mkCid (HttpField n) [Sf]) (VString v))
    /\ (rfc_dict ls v <-> NoDup (map fst (concat ms))).
Proof.
  intros n ls Hn Hs. destruct (signed_lines ls Hs) as (ms & m0s & ts & I1 & I2 & I3 & I4 & I5 & I6 & I7). exists ms, (comma_join ts). split; [exact I1|]. split.
  - apply (C08_canonical_values n [] []); [intros p []|]. eauto.
  - apply (rfc_dict_when ls ms m0s ts); try assumption. clear -I5. induction I5; cbn [length]; congruence.
Qed.
Print Assumptions C105_dict_exactly_partial.
(** the members that are signed are determined by the line *)
Theorem C105_members_partial : forall v, some_dict v -> exists m, signed_members v m /\ forall m', signed_members v m' -> m' = m.
Proof.
  intros v Hv. destruct (signed_line v Hv) as (m & _ & _ & H & _). exists m. split; [exact H|]. intros m' H'.
  destruct H as [((l & H1) & H2)|(H1 & H2)]; destruct H' as [((l' & K1) & K2)|(K1 & K2)].
  - exact (members_one _ _ _ K2 H2).
  - destruct (K1 l H1).
  - destruct (H1 l' K1).
  - exact (dict_one _ _ _ K2 H2).
Qed.
Print Assumptions C105_members_partial.
(** key: the value is that of the RFC if and only if the member is in exactly one line *)
Theorem C105_member_exactly_partial : forall n k ls, ls <> [] -> Forall some_dict ls ->
  exists v, comp_of_values (mkCid (HttpField n) [Key k]) ls = Ok (mkComp (mkCid (HttpField n) [Key k]) (VString v))
    /\ (rfc_member k ls v <-> once (has_member k) ls).
Proof.
  intros n k ls Hn Hl.
  assert (E : exists lls, Forall2 (commas member_text) lls ls /\ Forall (fun l : list (str * entry) => l <> []) lls).
  { clear Hn. induction Hl as [|x ls (kv & d & Hx) _ (lls & I1 & I2)]; [exists []; split; constructor|]. apply dict_raw in Hx as (l & Hx & E). exists (l :: lls). split; constructor; try assumption. intros ->. discriminate E. }
  destruct E as (lls & E1 & E2).
  assert (Hf : Forall2 (fun v d => dict_field d v) ls (map im_of_list lls)).
  { clear -E1. induction E1; constructor; [apply dict_raw; eauto|assumption]. }
  destruct (C09_success n k ls _ Hf) as (out & Ho & Ec). exists (comma_join out). split; [exact Ec|]. rewrite <- (member_count k ls out Ho).
  pose proof (member_last k lls ls out E1 Ho) as Hlast.
  assert (Hw : dict_field (im_of_list (concat lls)) (comma_join ls)) by (apply dict_raw; exists (concat lls); split; [apply commas_join; assumption|reflexivity]).
  split.
  - intros (d & e & Hd & Hi & Hc). rewrite (dict_one _ _ _ Hd Hw) in Hi. pose proof Hi as Hi'. apply member_in in Hi. rewrite Hi in Hlast. destruct Hlast as (o & t & -> & Hc').
    assert (E : t = comma_join (o ++ [t])) by exact (canon_entry_fun _ _ k e _ _ Hw Hi' Hc' Hc).
    destruct o as [|x o]; [exists t; reflexivity|]. exfalso. apply (f_equal (@length N)) in E. rewrite comma_join_app in E by discriminate. cbn [comma_join flat_map] in E. rewrite !app_length in E.
    change (length (lit ", ")) with 2%nat in E. lia.
  - intros (t & ->). destruct (last_value k (concat lls)) as [e|] eqn:El; [|discriminate Hlast]. destruct Hlast as (o & t' & Eo & Hc).
    assert (t' = t) as -> by (destruct o as [|x o]; [injection Eo; congruence|destruct o; discriminate Eo]). exists (im_of_list (concat lls)), e. split; [exact Hw|]. split; [apply member_in, El|]. cbn [comma_join flat_map]. rewrite app_nil_r. exact Hc.
Qed.
Print Assumptions C105_member_exactly_partial.
(** a key in two lines: both values are signed, with sf and with key; and a member that is not there is taken for an empty text *)
Theorem C105_refuted : let ls := [lit "a=1, b=2"; lit "a=3"] in
  (exists v w, comp_of_values (mkCid (HttpField (lit "d")) [Sf]) ls = Ok (mkComp (mkCid (HttpField (lit "d")) [Sf]) (VString v)) /\ rfc_dict ls w /\ v <> w)
  /\ (exists v w, comp_of_values (mkCid (HttpField (lit "d")) [Key (lit "a")]) ls = Ok (mkComp (mkCid (HttpField (lit "d")) [Key (lit "a")]) (VString v)) /\ rfc_member (lit "a") ls w /\ v <> w)
  /\ (exists v, comp_of_values (mkCid (HttpField (lit "d")) [Key (lit "c")]) ls = Ok (mkComp (mkCid (HttpField (lit "d")) [Key (lit "c")]) (VString v)) /\ forall w, ~ rfc_member (lit "c") ls w).
Proof.
  assert (Hd : dict_field [(lit "a", EItem (mkItem (BInt 3) [])); (lit "b", EItem (mkItem (BInt 2) []))] (comma_join [lit "a=1, b=2"; lit "a=3"])) by (apply parse_dict_spec; vm_compute; reflexivity).
  assert (Hv : dict_value [(lit "a", EItem (mkItem (BInt 3) [])); (lit "b", EItem (mkItem (BInt 2) []))]) by (apply dict_value_spec; apply parse_dict_spec in Hd; exact (parse_dict_wf _ _ Hd)).
  cbv zeta. split; [|split].
  - exists (lit "a=1, b=2, a=3"), (lit "a=3, b=2"). split; [vm_compute; reflexivity|]. split; [|discriminate]. eexists. split; [exact Hd|]. apply canon_dict_spec; [exact Hv|]. vm_compute. reflexivity.
  - exists (lit "1, 3"), (lit "3"). split; [vm_compute; reflexivity|]. split; [|discriminate]. eexists _, (EItem (mkItem (BInt 3) [])). split; [exact Hd|]. split; [left; reflexivity|].
    apply canon_entry_spec; [apply dict_entries in Hv; inversion Hv; assumption|]. vm_compute. reflexivity.
  - exists []. split; [vm_compute; reflexivity|]. intros w (d & e & H1 & H2 & _). rewrite (dict_one _ _ _ H1 Hd) in H2. destruct H2 as [H2|[H2|[]]]; discriminate.
Qed.
Print Assumptions C105_refuted.
(** a line that is a list as well and one that is not; a repeated key in a line that is a list as well *)
Example C105_dict_example : rfc_dict [lit "a=1,b=2"; lit "c ,d;x=1"] (lit "a=1, b=2, c, d;x=1")
  /\ comp_of_values (mkCid (HttpField (lit "d")) [Sf]) [lit "a=1,b=2"; lit "c ,d;x=1"] = Ok (mkComp (mkCid (HttpField (lit "d")) [Sf]) (VString (lit "a=1, b=2, c, d;x=1")))
  /\ signed_members (lit "c, c") [(lit "c", EItem (mkItem (BBool true) [])); (lit "c", EItem (mkItem (BBool true) []))]
  /\ comp_of_values (mkCid (HttpField (lit "d")) [Sf]) [lit "c, c"] = Ok (mkComp (mkCid (HttpField (lit "d")) [Sf]) (VString (lit "c, c"))) /\ ~ rfc_dict [lit "c, c"] (lit "c, c").
Proof.
  assert (H : forall a b, some_dict a -> signed_members a b -> forall m, signed_members a m -> m = b).
  { intros a b Hs Hb m Hm. destruct (C105_members_partial a Hs) as (x & _ & Hx). rewrite (Hx _ Hm), (Hx _ Hb). reflexivity. }
  assert (S1 : some_dict (lit "a=1,b=2")) by (do 2 eexists; apply parse_dict_spec; vm_compute; reflexivity).
  assert (S2 : some_dict (lit "c ,d;x=1")) by (do 2 eexists; apply parse_dict_spec; vm_compute; reflexivity).
  assert (S3 : some_dict (lit "c, c")) by (do 2 eexists; apply parse_dict_spec; vm_compute; reflexivity).
  assert (M1 : signed_members (lit "a=1,b=2") [(lit "a", EItem (mkItem (BInt 1) [])); (lit "b", EItem (mkItem (BInt 2) []))]).
  { right. split; [|apply parse_dict_spec; vm_compute; reflexivity]. intros l Hl. apply parse_list_spec in Hl. vm_compute in Hl. discriminate. }
  assert (M2 : signed_members (lit "c ,d;x=1") [(lit "c", EItem (mkItem (BBool true) [])); (lit "d", EItem (mkItem (BBool true) [(lit "x", BInt 1)]))]).
  { left. split; [eexists; apply parse_list_spec; vm_compute; reflexivity|]. apply commas_members. vm_compute. reflexivity. }
  assert (M3 : signed_members (lit "c, c") [(lit "c", EItem (mkItem (BBool true) [])); (lit "c", EItem (mkItem (BBool true) []))]).
  { left. split; [eexists; apply parse_list_spec; vm_compute; reflexivity|]. apply commas_members. vm_compute. reflexivity. }
  assert (E1 : comp_of_values (mkCid (HttpField (lit "d")) [Sf]) [lit "a=1,b=2"; lit "c ,d;x=1"] = Ok (mkComp (mkCid (HttpField (lit "d")) [Sf]) (VString (lit "a=1, b=2, c, d;x=1")))) by (vm_compute; reflexivity).
  assert (E2 : comp_of_values (mkCid (HttpField (lit "d")) [Sf]) [lit "c, c"] = Ok (mkComp (mkCid (HttpField (lit "d")) [Sf]) (VString (lit "c, c")))) by (vm_compute; reflexivity).
  split; [|split; [exact E1|split; [exact M3|split; [exact E2|]]]].
  - destruct (C105_dict_exactly_partial (lit "d") [lit "a=1,b=2"; lit "c ,d;x=1"] ltac:(discriminate) ltac:(repeat constructor; assumption)) as (ms & v & Hm & E & Hr).
    assert (v = lit "a=1, b=2, c, d;x=1") as -> by congruence. apply Hr. inversion Hm as [|? m1 ? ms1 Hm1 Hm']; subst. inversion Hm' as [|? m2 ? ms2 Hm2 Hm'']; subst. inversion Hm''; subst.
    rewrite (H _ _ S1 M1 _ Hm1), (H _ _ S2 M2 _ Hm2). vm_compute. repeat (constructor; [cbn [In]; intuition discriminate|]). constructor.
  - destruct (C105_dict_exactly_partial (lit "d") [lit "c, c"] ltac:(discriminate) ltac:(repeat constructor; assumption)) as (ms & v & Hm & E & Hr).
    assert (v = lit "c, c") as -> by congruence. intro Hx. apply Hr in Hx. inversion Hm as [|? m1 ? ms1 Hm1 Hm']; subst. inversion Hm'; subst. rewrite (H _ _ S3 M3 _ Hm1) in Hx.
    inversion Hx as [|? ? Hi _]; subst. apply Hi. left. reflexivity.
Qed.
Example C105_example : rfc_list [lit "a,  b"; lit "(1  2)"] (lit "a, b, (1 2)")
  /\ once (has_member (lit "b")) [lit "a=1,b=2"; lit "c=3"] /\ rfc_member (lit "b") [lit "a=1,b=2"; lit "c=3"] (lit "2").
Proof.
  assert (Hd : Forall2 dict_field [[(lit "a", EItem (mkItem (BInt 1) [])); (lit "b", EItem (mkItem (BInt 2) []))]; [(lit "c", EItem (mkItem (BInt 3) []))]] [lit "a=1,b=2"; lit "c=3"]).
  { constructor; [apply parse_dict_spec; vm_compute; reflexivity|]. constructor; [apply parse_dict_spec; vm_compute; reflexivity|constructor]. }
  assert (Hs : Forall some_dict [lit "a=1,b=2"; lit "c=3"]).
  { inversion Hd as [|? ? ? ? D1 D2]; subst. inversion D2 as [|? ? ? ? D3 _]; subst. constructor; [do 2 eexists; exact D1|]. constructor; [do 2 eexists; exact D3|constructor]. }
  split.
  - assert (Ec : comp_of_values (mkCid (HttpField (lit "d")) [Sf]) [lit "a,  b"; lit "(1  2)"] = Ok (mkComp (mkCid (HttpField (lit "d")) [Sf]) (VString (lit "a, b, (1 2)")))) by (vm_compute; reflexivity).
    apply (C105_list_partial (lit "d")) in Ec as (v & E & H); [|discriminate|constructor; [|constructor; [|constructor]]; eexists; apply parse_list_spec; vm_compute; reflexivity].
    assert (lit "a, b, (1 2)" = v) as -> by congruence. exact H.
  - assert (Hn : [lit "a=1,b=2"; lit "c=3"] <> []) by discriminate. destruct (C105_member_exactly_partial (lit "d") (lit "b") _ Hn Hs) as (v & E & H).
    assert (Ho : once (has_member (lit "b")) [lit "a=1,b=2"; lit "c=3"]).
    { inversion Hd as [|? ? ? ? D1 D2]; subst. inversion D2 as [|? ? ? ? D3 _]; subst. exists [], (lit "a=1,b=2"), [lit "c=3"]. split; [reflexivity|]. split; [do 2 eexists; split; [exact D1|right; left; reflexivity]|].
      constructor; [|constructor]. intros (d & e & H1 & H2). rewrite (dict_one _ _ _ H1 D3) in H2. destruct H2 as [H2|[]]; discriminate. }
    split; [exact Ho|]. assert (v = lit "2") as -> by (vm_compute in E |- *; congruence). apply H, Ho.
Qed.

(** ** C107 *)
(** what the library does differently: it changes the method, keeps the default port, and has an asterisk for OPTIONS *)
Definition as_the_rfc (m s a : str) (d : derived) : Prop :=
  match d with
  | Method => upper_case m
  | Authority => forall v port, default_port s port -> lower a <> v ++ port
  | RequestTarget => m <> lit "OPTIONS"
  | _ => True
  end.
Lemma upper_case_id m : upper_case m <-> upper m = m.
Proof.
  unfold upper_case, upper. split.
  - induction 1 as [|c m H _ IH]; [reflexivity|]. cbn [map]. rewrite IH. destruct ((97 <=? c) && (c <=? 122)) eqn:E; [|reflexivity]. apply andb_prop in E as [E1 E2]. apply N.leb_le in E1, E2. lia.
  - induction m as [|c m IH]; [constructor|]. cbn [map]. intro H. injection H as H1 H2. constructor; [|apply IH, H2]. destruct ((97 <=? c) && (c <=? 122)) eqn:E.
    + apply andb_prop in E as [E1 E2]. apply N.leb_le in E1, E2. lia.
    + intros [E1 E2]. apply N.leb_le in E1, E2. rewrite E1, E2 in E. discriminate.
Qed.
Theorem C107_exactly_partial : forall m s a p q h b rfp d, p = [] \/ slash_path p -> d <> Status -> d <> QueryParam -> d <> SignatureParams ->
  exists v, component_line (MReq (mkReq m (absolute s a p q) h b)) rfp (mkCid (Derived d) []) = Ok (mkComp (mkCid (Derived d) []) (VString v))
    /\ (rfc_derived m s a (nonempty_path p) q d v <-> as_the_rfc m s a d).
Proof.
  intros m s a p q h b rfp d Hp N1 N2 N3.
  assert (Hn : slash_path (nonempty_path p)) by (destruct Hp as [->|(t & ->)]; [exists []; reflexivity|exists t; reflexivity]).
  destruct d; try congruence.
  - exists (upper m). split; [apply C10_absolute; try assumption; [discriminate|reflexivity]|]. cbn [as_the_rfc]. rewrite upper_case_id. split; [intro H; inversion H; congruence|]. intro E. rewrite E. constructor.
  - eexists. split; [apply C10_absolute; try assumption; [discriminate|reflexivity]|]. split; [constructor|intros _; constructor].
  - exists (lower a). split; [apply C10_absolute; try assumption; [discriminate|reflexivity]|]. cbn [as_the_rfc]. split; [|apply rd_authority]. intro H. inversion H as [| |v port Hd E| | | | | |]; subst; [|assumption].
    exfalso. assert (Hl : (length port <> 0)%nat) by (destruct Hd as [[_ ->]|[_ ->]]; discriminate). apply (f_equal (@length N)) in E. rewrite app_length in E. lia.
  - eexists. split; [apply C10_absolute; try assumption; [discriminate|reflexivity]|]. split; [constructor|intros _; constructor].
  - cbn [as_the_rfc]. destruct (list_eq_dec N.eq_dec m (lit "CONNECT")) as [->|Nc]; [|destruct (list_eq_dec N.eq_dec m (lit "OPTIONS")) as [->|No]].
    + exists a. split; [reflexivity|]. split; [discriminate|intros _; apply rd_connect; reflexivity].
    + exists (lit "*"). split; [reflexivity|]. split; [|congruence]. intros H _. destruct Hn as (t & Hn). rewrite Hn in H. inversion H; discriminate.
    + eexists. split; [apply C10_absolute; try assumption; [auto|reflexivity]|]. split; [auto|intros _; apply rd_origin; assumption].
  - eexists. split; [apply C10_absolute; try assumption; [discriminate|reflexivity]|]. split; [constructor|intros _; constructor].
  - eexists. split; [apply C10_absolute; try assumption; [discriminate|reflexivity]|]. split; [constructor|intros _; constructor].
Qed.
Print Assumptions C107_exactly_partial.
Definition port_req (m : str) : msg := MReq (mkReq m (absolute (lit "https") (lit "Example.com:443") (lit "/x") None) [] []).
Theorem C107_refuted :
  (component_line (port_req (lit "GET")) None (mkCid (Derived Authority) []) = Ok (mkComp (mkCid (Derived Authority) []) (VString (lit "example.com:443")))
    /\ rfc_derived (lit "GET") (lit "https") (lit "Example.com:443") (lit "/x") None Authority (lit "example.com"))
  /\ (component_line (port_req (lit "get")) None (mkCid (Derived Method) []) = Ok (mkComp (mkCid (Derived Method) []) (VString (lit "GET")))
    /\ rfc_derived (lit "get") (lit "https") (lit "Example.com:443") (lit "/x") None Method (lit "get"))
  /\ (component_line (port_req (lit "OPTIONS")) None (mkCid (Derived RequestTarget) []) = Ok (mkComp (mkCid (Derived RequestTarget) []) (VString (lit "*")))
    /\ rfc_derived (lit "OPTIONS") (lit "https") (lit "Example.com:443") (lit "/x") None RequestTarget (lit "/x")).
Proof.
  split; [|split]; (split; [vm_compute; reflexivity|]).
  - apply (rd_port _ _ _ _ _ _ (lit ":443")); [left; split; reflexivity|reflexivity].
  - constructor.
  - apply (rd_origin (lit "OPTIONS") (lit "https") (lit "Example.com:443") (lit "/x") None). discriminate.
Qed.
Print Assumptions C107_refuted.
Example C107_example : as_the_rfc (lit "GET") (lit "https") (lit "example.com:8443") Authority /\ as_the_rfc (lit "M-SEARCH") (lit "https") (lit "x") Method
  /\ rfc_derived (lit "GET") (lit "https") (lit "Example.com:8443") (lit "/x") None Authority (lit "example.com:8443").
Proof.
  assert (H : forall v port, default_port (lit "https") port -> lit "example.com:8443" <> v ++ port).
  { intros v port [[_ ->]|[E _]] H; [|discriminate E]. apply (f_equal (@rev N)) in H. rewrite rev_app_distr in H. vm_compute in H. discriminate H. }
  split; [exact H|]. split; [apply upper_case_id; reflexivity|]. apply (rd_authority (lit "GET") (lit "https") (lit "Example.com:8443") (lit "/x") None). exact H.
Qed.
