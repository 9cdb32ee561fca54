(** Structured fields: parsing a serialization gives back the value *)
From Coq Require Import ZifyBool ZifyNat ZifyN.
From Verif Require Import Base BaseFacts Utf8 Base64 Base64Facts Sfv SfvFacts.
Ltac Zify.zify_post_hook ::= Z.div_mod_to_equations.

Ltac lens := repeat (rewrite app_length in * || cbn [length] in *); lia.

(** ** numbers *)
Lemma dval_fold s : forall acc, dval acc s = fold_left (fun a c => 10 * a + (c - 48)) s acc.
Proof. induction s as [|c s IH]; intro acc; cbn [dval fold_left]; [reflexivity|apply IH]. Qed.
Lemma dval_dec n : dval 0 (dec n) = n.
Proof. rewrite dval_fold. apply dec_val. Qed.
Lemma dec_is_digit n : forallb is_digit (dec n) = true.
Proof.
  apply forallb_forall. intros c Hc. assert (H := dec_digits n). rewrite Forall_forall in H. specialize (H c Hc).
  unfold digitp in H. unfold is_digit. lia.
Qed.
Lemma dec_len15 n : n < 1000000000000000 -> (Nat.eqb (length (dec n)) 0 || Nat.ltb 15 (length (dec n))) = false.
Proof.
  intro H. assert (H1 := dec_nonempty n). assert (H2 := dec_length n 14 H).
  destruct (dec n); [congruence|]. cbn [length] in *. lia.
Qed.
Lemma p_int_abs neg n t : n < 1000000000000000 -> stopb t ->
  p_num_abs neg (dec n ++ t) = Some (BInt (signed neg n), t).
Proof.
  intros Hn Ht. unfold p_num_abs. rewrite span_app; [|apply dec_is_digit|apply stopb_digit; assumption].
  rewrite dec_len15 by assumption. rewrite dval_dec.
  destruct t as [|c t]; [reflexivity|]. destruct (c =? cDot) eqn:E; [|reflexivity].
  apply N.eqb_eq in E. subst. cbn in Ht. discriminate.
Qed.
Lemma dec_head n : match dec n with c :: _ => is_digit c = true | [] => False end.
Proof.
  assert (H1 := dec_nonempty n). assert (H2 := dec_is_digit n). destruct (dec n); [congruence|].
  cbn [forallb] in H2. bb. assumption.
Qed.
Lemma ser_int_round z t : (- lim15 < z < lim15)%Z -> stopb t -> p_num (ser_int z ++ t) = Some (BInt z, t).
Proof.
  unfold lim15. intros Hz Ht. unfold ser_int. destruct (z <? 0)%Z eqn:E.
  - cbn [app p_num]. change (cMinus =? cMinus) with true. cbn iota. rewrite p_int_abs by (lia || assumption).
    unfold signed. do 2 f_equal. f_equal. lia.
  - assert (Hd := dec_head (Z.abs_N z)). assert (Hp := p_int_abs false (Z.abs_N z) t ltac:(lia) Ht).
    destruct (dec (Z.abs_N z)) as [|c r]; [destruct Hd|]. cbn [app p_num] in *.
    destruct (c =? cMinus) eqn:Ec; [apply N.eqb_eq in Ec; subst; discriminate|].
    rewrite Hp. unfold signed. do 2 f_equal. f_equal. lia.
Qed.
Lemma frac_round n t : n < 1000 -> stopb t ->
  let (fs, r2) := span is_digit (ser_frac n ++ t) in
  r2 = t /\ match fs with
            | [a] => n = 100 * (a - 48)
            | [a; b] => n = 100 * (a - 48) + 10 * (b - 48)
            | [a; b; c3] => n = 100 * (a - 48) + 10 * (b - 48) + (c3 - 48)
            | _ => False
            end.
Proof.
  intros Hn Ht. apply stopb_digit in Ht. unfold ser_frac.
  destruct (negb (n mod 10 =? 0)) eqn:E1; [|destruct (negb ((n / 10) mod 10 =? 0)) eqn:E2];
    rewrite span_app; try assumption; try (cbn [forallb]; unfold is_digit; lia);
    (split; [reflexivity|]); assert (n / 10 / 10 = n / 100) by (rewrite N.div_div by lia; reflexivity); lia.
Qed.
Lemma ser_dec_round z t : (- lim15 < z < lim15)%Z -> stopb t -> p_num (ser_dec z ++ t) = Some (BDec z, t).
Proof.
  unfold lim15. intros Hz Ht. unfold ser_dec. set (n := Z.abs_N z).
  assert (Habs : forall neg, p_num_abs neg ((dec (n / 1000) ++ cDot :: ser_frac (n mod 1000)) ++ t) = Some (BDec (signed neg n), t)).
  { intro neg. unfold p_num_abs. rewrite <- app_assoc. cbn [app].
    rewrite span_app; [|apply dec_is_digit|reflexivity].
    rewrite dec_len15 by lia. rewrite dval_dec. change (cDot =? cDot) with true. cbn iota.
    assert (Hl := dec_length (n / 1000) 11 ltac:(change (10 ^ N.of_nat 12) with 1000000000000; lia)).
    destruct (Nat.ltb 12 (length (dec (n / 1000)))) eqn:E; [lia|].
    assert (Hf := frac_round (n mod 1000) t ltac:(lia) Ht).
    destruct (span is_digit (ser_frac (n mod 1000) ++ t)) as [fs r2]. destruct Hf as [-> Hf].
    destruct fs as [|f1 [|f2 [|f3 [|f4 fs]]]]; try contradiction; do 2 f_equal; f_equal; f_equal; lia. }
  destruct (z <? 0)%Z eqn:E.
  - cbn [app p_num]. change (cMinus =? cMinus) with true. cbn iota. rewrite Habs. unfold signed. do 2 f_equal. f_equal. lia.
  - specialize (Habs false). assert (Hd := dec_head (n / 1000)).
    destruct (dec (n / 1000)) as [|c r]; [destruct Hd|]. cbn [app p_num] in *.
    destruct (c =? cMinus) eqn:Ec; [apply N.eqb_eq in Ec; subst; discriminate|].
    rewrite Habs. unfold signed. do 2 f_equal. f_equal. lia.
Qed.

(** ** strings *)
Lemma p_str_unfold c r : p_str (c :: r) =
  if c =? cBack then
    match r with
    | d :: r' =>
        if (d =? cQuote) || (d =? cBack) then
          match p_str r' with Some (a, b) => Some (d :: a, b) | None => None end
        else None
    | [] => None
    end
  else if c =? cQuote then Some ([], r)
  else if is_print c then match p_str r with Some (a, b) => Some (c :: a, b) | None => None end
  else None.
Proof. reflexivity. Qed.
Lemma ser_str_round s t : forallb is_print s = true -> p_str (flat_map esc s ++ cQuote :: t) = Some (s, t).
Proof.
  induction s as [|c s IH]; cbn [flat_map forallb]; intro H.
  - reflexivity.
  - bb. specialize (IH H0). rewrite <- app_assoc. unfold esc at 1.
    destruct ((c =? cQuote) || (c =? cBack)) eqn:E.
    + cbn [app]. rewrite p_str_unfold. change (cBack =? cBack) with true. cbn iota. rewrite E, IH. reflexivity.
    + bb. cbn [app]. rewrite p_str_unfold, H1, H2, H, IH. reflexivity.
Qed.
Lemma hex_val_digit n : n < 16 -> hex_val (hex_digit n) = Some n.
Proof.
  intro H. unfold hex_val, hex_digit, is_digit. destruct (n <? 10) eqn:E.
  - destruct ((48 <=? 48 + n) && (48 + n <=? 57)) eqn:E2; [f_equal; lia|lia].
  - destruct ((48 <=? 87 + n) && (87 + n <=? 57)) eqn:E2; [lia|].
    destruct ((97 <=? 87 + n) && (87 + n <=? 102)) eqn:E3; [f_equal; lia|lia].
Qed.
Lemma ser_disp_round s t : bytesp s -> p_disp (flat_map disp_esc s ++ cQuote :: t) = Some (s, t).
Proof.
  induction s as [|c s IH]; cbn [flat_map]; intro H.
  - reflexivity.
  - unfold bytesp in H. inv_forall. specialize (IH H3). rewrite <- app_assoc. unfold disp_esc at 1.
    destruct ((c =? cPct) || (c =? cQuote) || negb (is_print c)) eqn:E.
    + cbn [app]. rewrite p_disp_unfold. change (cPct =? cPct) with true. cbn iota.
      rewrite !hex_val_digit by lia. rewrite IH. do 3 f_equal. lia.
    + bb. cbn [app]. rewrite p_disp_unfold, H, H1, H0, IH. reflexivity.
Qed.

Lemma int_text_head z : match ser_int z with c :: _ => (c =? cMinus) || is_digit c = true | [] => False end.
Proof.
  unfold ser_int. destruct (z <? 0)%Z; [reflexivity|]. assert (H := dec_head (Z.abs_N z)).
  destruct (dec (Z.abs_N z)); [destruct H|]. rewrite H, orb_true_r. reflexivity.
Qed.
Lemma dec_text_head z : match ser_dec z with c :: _ => (c =? cMinus) || is_digit c = true | [] => False end.
Proof.
  unfold ser_dec. destruct (z <? 0)%Z; [reflexivity|]. cbn [app]. assert (H := dec_head (Z.abs_N z / 1000)).
  destruct (dec (Z.abs_N z / 1000)); [destruct H|]. cbn [app]. rewrite H, orb_true_r. reflexivity.
Qed.

Lemma ser_bare_round b t : wf_bare b -> stopb t -> p_bare (ser_bare b ++ t) = Some (b, t).
Proof.
  intros Hb Ht. destruct b as [z|z|s|s|b|b|z|b]; cbn [ser_bare].
  - assert (Hh := int_text_head z). assert (Hr := ser_int_round z t Hb Ht).
    destruct (ser_int z) as [|c r]; [destruct Hh|]. cbn [app p_bare] in *. rewrite Hh. exact Hr.
  - assert (Hh := dec_text_head z). assert (Hr := ser_dec_round z t Hb Ht).
    destruct (ser_dec z) as [|c r]; [destruct Hh|]. cbn [app p_bare] in *. rewrite Hh. exact Hr.
  - unfold ser_str. cbn [app p_bare]. change ((cQuote =? cMinus) || is_digit cQuote) with false.
    change (cQuote =? cQuote) with true. cbn iota. rewrite <- app_assoc. cbn [app].
    rewrite ser_str_round by exact Hb. reflexivity.
  - destruct Hb as [H1 H2]. destruct s as [|c s]; [destruct H1|].
    assert (Hs : span is_tok_char ((c :: s) ++ t) = (c :: s, t)) by (apply span_app; assumption).
    cbn [app p_bare] in *. rewrite Hs, H1.
    destruct ((c =? cMinus) || is_digit c) eqn:E1; [chars|]. destruct (c =? cQuote) eqn:E2; [chars|]. reflexivity.
  - cbn [app p_bare]. change ((cColon =? cMinus) || is_digit cColon) with false.
    change (cColon =? cQuote) with false. change (is_tok_start cColon) with false. change (cColon =? cColon) with true. cbn iota.
    unfold p_bytes. rewrite <- app_assoc. cbn [app].
    replace (split_once cColon (b64_encode b ++ cColon :: t)) with (Some (b64_encode b, t)).
    + cbn iota beta. rewrite b64_roundtrip by exact Hb. reflexivity.
    + symmetry. apply split_once_some. split; [reflexivity|]. apply contains_false. intro Hin.
      assert (Hc := b64_encode_chars b Hb). rewrite Forall_forall in Hc. specialize (Hc _ Hin).
      unfold b64_alpha, cColon, cEq in Hc. lia.
  - destruct b; reflexivity.
  - cbn [app p_bare]. change ((cAt =? cMinus) || is_digit cAt) with false.
    change (cAt =? cQuote) with false. change (is_tok_start cAt) with false. change (cAt =? cColon) with false.
    change (cAt =? cQM) with false. change (cAt =? cAt) with true. cbn iota.
    rewrite ser_int_round by assumption. reflexivity.
  - destruct Hb as [H1 H2]. unfold ser_disp. cbn [app p_bare].
    change ((cPct =? cMinus) || is_digit cPct) with false.
    change (cPct =? cQuote) with false. change (is_tok_start cPct) with false. change (cPct =? cColon) with false.
    change (cPct =? cQM) with false. change (cPct =? cAt) with false. change (cPct =? cPct) with true.
    change (cQuote =? cQuote) with true. cbn iota. rewrite <- app_assoc. cbn [app].
    rewrite ser_disp_round, H2 by assumption. reflexivity.
Qed.

(** ** parameters *)
Lemma key_head k : wf_key k -> match k with c :: _ => is_key_start c = true | [] => False end.
Proof. intros [H _]. exact H. Qed.
Lemma key_start_sp c : is_key_start c = true -> is_sp c = false.
Proof. chars. Qed.
Lemma p_key_round k t : wf_key k -> headn is_key_char t -> p_key (k ++ t) = Some (k, t).
Proof. intros. apply p_key_some. auto. Qed.
Lemma skip_sp_key k t : wf_key k -> skip is_sp (k ++ t) = k ++ t.
Proof.
  intro H. apply key_head in H. apply skip_id. destruct k as [|c k]; [destruct H|]. apply key_start_sp, H.
Qed.
(** text of one parameter without the semicolon *)
Definition ser_param1 (kv : str * bare) : str :=
  match snd kv with BBool true => fst kv | v => fst kv ++ cEq :: ser_bare v end.
Lemma ser_param_eq kv : ser_param kv = cSemi :: ser_param1 kv.
Proof. unfold ser_param, ser_param1. destruct kv as [k []]; cbn [snd fst]; try reflexivity. destruct b; reflexivity. Qed.
(** after a parameter: neither a token character nor an equal sign *)
Definition stopq (t : str) : Prop := headn (fun c => is_tok_char c || (c =? cEq)) t.
Lemma stopq_stopb t : stopq t -> stopb t.
Proof. unfold stopq, stopb, headn. destruct t; [auto|]. intro; bb; assumption. Qed.
Lemma stopp_stopq t : stopp t -> stopq t.
Proof. intro H. destruct t as [|c t]; [exact I|]. apply stopp_cons in H as (_ & H1 & H2). unfold stopq, headn. rewrite H1, H2. reflexivity. Qed.
Lemma ser_param1_round kv t : wf_param kv -> stopq t -> p_param1 (ser_param1 kv ++ t) = Some (kv, t).
Proof.
  destruct kv as [k v]. intros [Hk Hv] Ht. cbn [fst snd] in *. unfold p_param1.
  assert (Hcase : (v = BBool true /\ ser_param1 (k, v) = k) \/ ser_param1 (k, v) = k ++ cEq :: ser_bare v).
  { destruct v as [| | | | |[]| |]; auto. }
  destruct Hcase as [[-> ->] | ->].
  - rewrite skip_sp_key by assumption. rewrite p_key_round; [|assumption|apply stopb_key, stopq_stopb; assumption].
    destruct t as [|d t]; [reflexivity|]. destruct (d =? cEq) eqn:E; [|reflexivity].
    unfold stopq, headn in Ht. rewrite E, orb_true_r in Ht. discriminate.
  - rewrite <- app_assoc. cbn [app]. rewrite skip_sp_key by assumption. rewrite p_key_round by (assumption || reflexivity).
    change (cEq =? cEq) with true. cbn iota. rewrite ser_bare_round; [reflexivity|assumption|apply stopq_stopb; assumption].
Qed.
(** parameters may repeat: the map keeps the last value of each *)
Definition im_add {V} (m : list (str * V)) (l : list (str * V)) := fold_left (fun m kv => im_insert m (fst kv) (snd kv)) l m.
Lemma ser_params_round_f ps : forall f acc t, (length (ser_params ps ++ t) < f)%nat -> Forall wf_param ps -> stopp t ->
  p_params_f f acc (ser_params ps ++ t) = Some (im_add acc ps, t).
Proof.
  induction ps as [|[k v] ps IH]; intros f acc t Hf Hwf Ht; (destruct f as [|f]; [lia|]); rewrite p_params_step.
  - cbn [ser_params flat_map app im_add fold_left]. destruct t as [|c t]; [reflexivity|].
    apply stopp_cons in Ht as (Ht & _). rewrite Ht. reflexivity.
  - inv_forall. cbn [ser_params flat_map] in *. fold (ser_params ps) in *. rewrite ser_param_eq in *. cbn [app] in *.
    change (cSemi =? cSemi) with true. cbn iota. rewrite <- app_assoc in *.
    rewrite ser_param1_round; [|assumption|].
    + cbn [im_add fold_left fst snd]. apply IH; [|assumption|assumption].
      cbn [length] in Hf. rewrite app_length in Hf. lia.
    + destruct ps as [|kv ps]; [apply stopp_stopq; assumption|]. cbn [ser_params flat_map]. rewrite ser_param_eq. reflexivity.
Qed.
Lemma ser_params_round_dup ps t : Forall wf_param ps -> stopp t -> p_params (ser_params ps ++ t) = Some (im_of_list ps, t).
Proof. intros H1 H2. unfold p_params. rewrite ser_params_round_f; [reflexivity|lia|assumption|assumption]. Qed.
Lemma ser_params_round ps t : wf_params ps -> stopp t -> p_params (ser_params ps ++ t) = Some (ps, t).
Proof. intros [H1 H2] Ht. rewrite ser_params_round_dup by assumption. rewrite im_of_list_id by assumption. reflexivity. Qed.

(** ** items and inner lists *)
Lemma ser_params_stopb ps t : stopb t -> stopb (ser_params ps ++ t).
Proof. intro H. destruct ps as [|kv ps]; [exact H|]. cbn [ser_params flat_map]. rewrite ser_param_eq. reflexivity. Qed.
Lemma ser_item_round i t : wf_item i -> stopp t -> p_item (ser_item i ++ t) = Some (i, t).
Proof.
  intros [H1 H2] Ht. unfold p_item, ser_item. rewrite <- app_assoc.
  rewrite ser_bare_round; [|assumption|apply ser_params_stopb, stopp_stopb; assumption].
  rewrite ser_params_round by assumption. destruct i; reflexivity.
Qed.
Definition bare_start (c : char) : bool := negb (is_ows c) && negb (c =? cRPar) && negb (c =? cLPar) && negb (c =? cComma).
Lemma ser_bare_head b : wf_bare b -> match ser_bare b with c :: _ => bare_start c = true | [] => False end.
Proof.
  intro H. destruct b as [z|z|s|s|b|b|z|b]; cbn [ser_bare].
  - assert (Hh := int_text_head z). destruct (ser_int z); [exact Hh|]. unfold bare_start. chars.
  - assert (Hh := dec_text_head z). destruct (ser_dec z); [exact Hh|]. unfold bare_start. chars.
  - reflexivity.
  - destruct H as [H _]. destruct s; [exact H|]. unfold bare_start. chars.
  - reflexivity.
  - destruct b; reflexivity.
  - reflexivity.
  - reflexivity.
Qed.
Lemma ser_item_head i : wf_item i -> match ser_item i with c :: _ => bare_start c = true | [] => False end.
Proof.
  intros [H _]. apply ser_bare_head in H. unfold ser_item. destruct (ser_bare (it_bare i)); [destruct H|exact H].
Qed.
Lemma bare_start_sp c : bare_start c = true -> is_sp c = false /\ is_ows c = false /\ (c =? cRPar) = false /\ (c =? cLPar) = false.
Proof. unfold bare_start. chars. Qed.

Lemma ser_items_round l : forall f t, Forall wf_item l ->
  (length (join [cSP] (map ser_item l) ++ cRPar :: t) < f)%nat ->
  p_inner_f f (join [cSP] (map ser_item l) ++ cRPar :: t) = Some (l, t).
Proof.
  assert (Hgen : forall l w f t, Forall wf_item l -> forallb is_sp w = true ->
    (length (w ++ join [cSP] (map ser_item l) ++ cRPar :: t) < f)%nat ->
    p_inner_f f (w ++ join [cSP] (map ser_item l) ++ cRPar :: t) = Some (l, t)).
  { clear l. induction l as [|i l IH]; intros w f t Hwf Hw Hf; (destruct f as [|f]; [lia|]); cbn [p_inner_f]; rewrite skip_app by assumption.
    - cbn [map join app]. rewrite skip_id by reflexivity. reflexivity.
    - inv_forall. cbn [map].
      set (rest := match l with [] => cRPar :: t | _ => [cSP] ++ join [cSP] (map ser_item l) ++ cRPar :: t end).
      assert (Hj : join [cSP] (ser_item i :: map ser_item l) ++ cRPar :: t = ser_item i ++ rest).
      { unfold rest. destruct l as [|j l]; cbn [map join]; [reflexivity|]. rewrite <- !app_assoc. reflexivity. }
      cbn [map] in Hf. rewrite Hj in Hf. rewrite Hj. clear Hj.
      assert (Hh := ser_item_head i H1).
      assert (Hs : skip is_sp (ser_item i ++ rest) = ser_item i ++ rest).
      { apply skip_id. destruct (ser_item i) as [|c r]; [destruct Hh|]. apply bare_start_sp, Hh. }
      assert (Hi : p_item (ser_item i ++ rest) = Some (i, rest)).
      { apply ser_item_round; [assumption|]. unfold rest. destruct l; reflexivity. }
      rewrite Hs. destruct (ser_item i) as [|c r] eqn:Ei; [destruct Hh|]. cbn [app] in *.
      destruct (bare_start_sp c Hh) as (_ & _ & Hc & _). rewrite Hc, Hi. clear Hs Hi.
      unfold rest in *. destruct l as [|j l].
      + assert (Hlen : (length ([] ++ join [cSP] (map ser_item []) ++ cRPar :: t) < f)%nat).
        { cbn [app map join length] in *. lens. }
        specialize (IH [] f t ltac:(constructor) eq_refl Hlen). cbn [app map join] in IH. 
        change ((cRPar =? cSP) || (cRPar =? cRPar)) with true. cbn iota. rewrite IH. reflexivity.
      + specialize (IH [cSP] f t H2 eq_refl). cbn [app] in *.
        change ((cSP =? cSP) || (cSP =? cRPar)) with true. cbn iota. rewrite IH; [reflexivity|].
        lens. }
  intros f t H1 H2. apply (Hgen l [] f t); [assumption|reflexivity|assumption].
Qed.
Lemma ser_inner_round l t : wf_inner l -> stopp t ->
  p_inner (join [cSP] (map ser_item (in_items l)) ++ cRPar :: ser_params (in_params l) ++ t) = Some (l, t).
Proof.
  intros [H1 H2] Ht. unfold p_inner. rewrite ser_items_round; [|assumption|lia].
  rewrite ser_params_round by assumption. destruct l; reflexivity.
Qed.
Lemma ser_entry_round e t : wf_entry e -> stopp t -> p_entry (ser_entry e ++ t) = Some (e, t).
Proof.
  intros H Ht. destruct e as [i|l]; cbn [ser_entry].
  - assert (Hh := ser_item_head i H). assert (Hr := ser_item_round i t H Ht).
    destruct (ser_item i) as [|c r]; [destruct Hh|]. cbn [app p_entry] in *.
    destruct (bare_start_sp c Hh) as (_ & _ & _ & Hc). rewrite Hc, Hr. reflexivity.
  - unfold ser_inner. cbn [app p_entry]. change (cLPar =? cLPar) with true. cbn iota.
    rewrite <- app_assoc. cbn [app]. rewrite ser_inner_round by assumption. reflexivity.
Qed.
Lemma ser_member_round kv t : wf_member kv -> stopp t -> p_member (ser_member kv ++ t) = Some (kv, t).
Proof.
  destruct kv as [k e]. intros [Hk He] Ht. cbn [fst snd] in *. unfold p_member.
  assert (Hcase : (exists ps, e = EItem (mkItem (BBool true) ps) /\ ser_member (k, e) = k ++ ser_params ps) \/
    ser_member (k, e) = k ++ cEq :: ser_entry e).
  { destruct e as [[[| | | | |[]| |] ps]|]; eauto. }
  destruct Hcase as [(ps & -> & ->) | ->].
  - destruct He as [_ He]. cbn [it_params] in He. rewrite <- app_assoc.
    assert (Hsb : stopb (ser_params ps ++ t)) by (apply ser_params_stopb, stopp_stopb; assumption).
    rewrite p_key_round; [|assumption|apply stopb_key; assumption].
    assert (Hr := ser_params_round ps t He Ht).
    destruct (ser_params ps ++ t) as [|c r] eqn:E.
    + destruct ps as [|kv ps]; [|cbn [ser_params flat_map] in E; rewrite ser_param_eq in E; discriminate].
      cbn in E. subst t. reflexivity.
    + destruct (c =? cEq) eqn:Ec.
      * apply N.eqb_eq in Ec. subst c. exfalso.
        destruct ps as [|kv ps]; [|cbn [ser_params flat_map] in E; rewrite ser_param_eq in E; discriminate].
        cbn in E. subst t. discriminate.
      * rewrite Hr. reflexivity.
  - rewrite <- app_assoc. cbn [app]. rewrite p_key_round by (assumption || reflexivity).
    change (cEq =? cEq) with true. cbn iota. rewrite ser_entry_round by assumption. reflexivity.
Qed.

(** ** lists and dictionaries *)
Lemma ser_entry_head e : wf_entry e -> match ser_entry e with c :: _ => is_ows c = false | [] => False end.
Proof.
  intro H. destruct e as [i|l]; cbn [ser_entry].
  - apply ser_item_head in H. destruct (ser_item i); [exact H|]. apply bare_start_sp, H.
  - reflexivity.
Qed.
Lemma ser_member_head kv : wf_member kv -> match ser_member kv with c :: _ => is_ows c = false | [] => False end.
Proof.
  destruct kv as [k e]. intros [H _]. apply key_head in H. cbn [fst] in H.
  assert (Hs : exists u, ser_member (k, e) = k ++ u).
  { unfold ser_member. cbn [fst snd]. destruct e as [[[| | | | |[]| |] ps]|]; eauto. }
  destruct Hs as (u & ->). destruct k as [|c k]; [destruct H|]. cbn [app]. chars.
Qed.
Section Sep.
Context {A : Type} (p : str -> option (A * str)) (ser : A -> str) (wf : A -> Prop).
Hypothesis Hp : forall s e r, p s = Some (e, r) ->
  (exists u, s = u ++ r /\ u <> []) /\ wf e /\ forall t, stopp t -> p (s ++ t) = Some (e, r ++ t).
Hypothesis Hround : forall a t, wf a -> stopp t -> p (ser a ++ t) = Some (a, t).
Hypothesis Hhead : forall a, wf a -> match ser a with c :: _ => is_ows c = false | [] => False end.
Lemma join_head l : Forall wf l -> headn is_ows (join [cComma; cSP] (map ser l)).
Proof.
  intro H. destruct l as [|a l]; [exact I|]. inv_forall. apply Hhead in H2. cbn [map].
  destruct l; cbn [map join]; destruct (ser a); try contradiction; exact H2.
Qed.
Lemma join_nonempty a l : wf a -> join [cComma; cSP] (map ser (a :: l)) <> [].
Proof.
  intro H. apply Hhead in H. cbn [map]. destruct l; cbn [map join]; destruct (ser a); try contradiction; discriminate.
Qed.
Lemma p_sep_round l : Forall wf l -> p_sep p (join [cComma; cSP] (map ser l)) = Some l.
Proof.
  induction l as [|a l IH]; intro H; [reflexivity|]. inv_forall. specialize (IH H3).
  assert (H1 : p_sep p (ser a) = Some [a]).
  { apply (p_sep_one p wf Hp). rewrite <- (app_nil_r (ser a)). apply Hround; [assumption|exact I]. }
  destruct l as [|b l]; [exact H1|].
  change (join [cComma; cSP] (map ser (a :: b :: l))) with (ser a ++ cComma :: [cSP] ++ join [cComma; cSP] (map ser (b :: l))).
  rewrite (p_sep_app p wf Hp _ [a]); [rewrite IH; reflexivity|assumption| |reflexivity| |].
  - apply Hhead in H2. destruct (ser a); [destruct H2|discriminate].
  - apply skip_id, join_head. assumption.
  - inv_forall. apply join_nonempty. assumption.
Qed.
End Sep.
Lemma ows_sp t : headn is_ows t -> headn is_sp t.
Proof. apply headn_weaken. intro c. unfold is_sp, is_ows. intros ->. reflexivity. Qed.
Lemma parse_list_round l : wf_list l -> parse_list (join [cComma; cSP] (map ser_entry l)) = Some l.
Proof.
  intro H. unfold parse_list. rewrite skip_id; [apply (p_sep_round p_entry ser_entry wf_entry p_entry_facts ser_entry_round ser_entry_head); assumption|].
  apply ows_sp. apply (join_head ser_entry wf_entry ser_entry_head). assumption.
Qed.
(** members with repeated keys *)
Lemma parse_dict_round_dup d : Forall wf_member d -> parse_dict (join [cComma; cSP] (map ser_member d)) = Some (im_of_list d).
Proof.
  intro H. unfold parse_dict. rewrite skip_id.
  - rewrite (p_sep_round p_member ser_member wf_member p_member_facts ser_member_round ser_member_head) by assumption. reflexivity.
  - apply ows_sp. apply (join_head ser_member wf_member ser_member_head). assumption.
Qed.
Lemma parse_dict_round d : wf_dict d -> parse_dict (join [cComma; cSP] (map ser_member d)) = Some d.
Proof. intros [H1 H2]. rewrite parse_dict_round_dup by assumption. rewrite im_of_list_id by assumption. reflexivity. Qed.
Lemma parse_item_round i : wf_item i -> parse_item (ser_item i) = Some i.
Proof.
  intro H. unfold parse_item. rewrite skip_id.
  - rewrite <- (app_nil_r (ser_item i)), ser_item_round by (assumption || exact I). reflexivity.
  - apply ser_item_head in H. destruct (ser_item i); [exact I|]. apply bare_start_sp, H.
Qed.

(** ** parsed values are well formed *)
Lemma parse_item_wf s i : parse_item s = Some i -> wf_item i.
Proof.
  unfold parse_item. destruct (p_item (skip is_sp s)) as [[x r]|] eqn:E; [|discriminate].
  destruct (skip is_sp r); [|discriminate]. intro H; inv H. eapply p_item_sound; eassumption.
Qed.
Lemma parse_list_wf s l : parse_list s = Some l -> wf_list l.
Proof. apply (p_sep_sound p_entry wf_entry p_entry_facts). Qed.
Lemma im_insert_Forall {V} (P : str * V -> Prop) m k v : Forall P m -> P (k, v) -> Forall P (im_insert m k v).
Proof.
  intros Hm Hk. induction m as [|[k' v'] m IH]; cbn [im_insert]; [repeat constructor; assumption|].
  inv Hm. destruct (str_eqb k k') eqn:E.
  - apply str_eqb_eq in E. subst k'. constructor; assumption.
  - constructor; auto.
Qed.
Lemma im_add_Forall {V} (P : str * V -> Prop) l : forall m, Forall P m -> Forall P l -> Forall P (im_add m l).
Proof.
  induction l as [|[k v] l IH]; intros m Hm Hl; cbn [im_add fold_left]; [assumption|].
  inv Hl. apply IH; [|assumption]. apply im_insert_Forall; assumption.
Qed.
Lemma parse_dict_wf s d : parse_dict s = Some d -> wf_dict d.
Proof.
  unfold parse_dict. destruct (p_sep p_member (skip is_sp s)) as [l|] eqn:E; [|discriminate]. intro H; inv H.
  apply (p_sep_sound p_member wf_member p_member_facts) in E. split; [|apply im_of_list_nodup].
  apply (im_add_Forall wf_member l []); [constructor|assumption].
Qed.

(** ** concatenating header values *)
Section AppSep.
Context {A : Type} (p : str -> option (A * str)) (wf : A -> Prop).
Hypothesis Hp : forall s e r, p s = Some (e, r) ->
  (exists u, s = u ++ r /\ u <> []) /\ wf e /\ forall t, stopp t -> p (s ++ t) = Some (e, r ++ t).
Hypothesis Hows : forall c s, is_ows c = true -> p (c :: s) = None.
Lemma p_sep_nil s l : p_sep p s = Some l -> l = [] -> s = [].
Proof.
  unfold p_sep. cbn [p_sep_f]. destruct s as [|c s]; [reflexivity|].
  destruct (p (c :: s)) as [[a r]|]; [|discriminate]. destruct (skip is_ows r) as [|d r1]; [intro H; inv H; discriminate|].
  destruct (d =? cComma); [|discriminate]. destruct (skip is_ows r1) as [|d2 r2]; [discriminate|].
  destruct (p_sep_f p (length (c :: s)) (d2 :: r2)); [|discriminate]. intro H; inv H; discriminate.
Qed.
Lemma p_sep_ows c s : is_ows c = true -> p_sep p (c :: s) = None.
Proof. intro H. unfold p_sep. cbn [p_sep_f]. rewrite Hows by assumption. reflexivity. Qed.
Lemma psep_join s1 s2 l1 l2 : p_sep p (skip is_sp s1) = Some l1 -> p_sep p (skip is_sp s2) = Some l2 ->
  l1 <> [] -> l2 <> [] -> p_sep p (skip is_sp (s1 ++ cComma :: cSP :: s2)) = Some (l1 ++ l2).
Proof.
  intros H1 H2 N1 N2.
  assert (E1 : skip is_sp s1 <> []). { intro E. rewrite E in H1. cbn in H1. congruence. }
  assert (E2 : skip is_sp s2 <> []). { intro E. rewrite E in H2. cbn in H2. congruence. }
  rewrite skip_nonempty_app by assumption. destruct (skip_decomp is_sp s2) as (w & Hs & Hw).
  rewrite Hs. change (cComma :: cSP :: w ++ skip is_sp s2) with (cComma :: (cSP :: w) ++ skip is_sp s2).
  rewrite (p_sep_app p wf Hp _ l1); [rewrite H2; reflexivity|assumption|assumption| | |assumption].
  - cbn [forallb]. apply andb_true_iff. split; [reflexivity|]. apply forallb_forall. intros c Hc.
    rewrite forallb_forall in Hw. specialize (Hw c Hc). chars.
  - apply skip_id. destruct (skip is_sp s2) as [|c r] eqn:E; [congruence|]. cbn.
    destruct (is_ows c) eqn:Ec; [|reflexivity]. rewrite p_sep_ows in H2 by assumption. discriminate.
Qed.
End AppSep.
Lemma p_bare_ows c s : is_ows c = true -> p_bare (c :: s) = None.
Proof.
  intro H. cbn [p_bare].
  destruct ((c =? cMinus) || is_digit c) eqn:E1; [chars|]. destruct (c =? cQuote) eqn:E2; [chars|].
  destruct (is_tok_start c) eqn:E3; [chars|]. destruct (c =? cColon) eqn:E4; [chars|]. destruct (c =? cQM) eqn:E5; [chars|].
  destruct (c =? cAt) eqn:E6; [chars|]. destruct (c =? cPct) eqn:E7; [chars|]. reflexivity.
Qed.
Lemma p_entry_ows c s : is_ows c = true -> p_entry (c :: s) = None.
Proof.
  intro H. cbn [p_entry]. destruct (c =? cLPar) eqn:E; [chars|]. unfold p_item. rewrite p_bare_ows by assumption. reflexivity.
Qed.
Lemma p_member_ows c s : is_ows c = true -> p_member (c :: s) = None.
Proof. intro H. unfold p_member, p_key. destruct (is_key_start c) eqn:E; [chars|reflexivity]. Qed.
Lemma parse_list_app s1 s2 l1 l2 : parse_list s1 = Some l1 -> parse_list s2 = Some l2 -> l1 <> [] -> l2 <> [] ->
  parse_list (s1 ++ cComma :: cSP :: s2) = Some (l1 ++ l2).
Proof. intros H1 H2. apply (psep_join p_entry wf_entry p_entry_facts p_entry_ows); assumption. Qed.
Lemma im_add_cons {V} (m : list (str * V)) k v d : im_add m ((k, v) :: d) = im_add (im_insert m k v) d.
Proof. reflexivity. Qed.
Lemma im_of_list_add {V} (l : list (str * V)) : im_of_list l = im_add [] l.
Proof. reflexivity. Qed.
Lemma im_add_app {V} (m a b : list (str * V)) : im_add m (a ++ b) = im_add (im_add m a) b.
Proof. apply fold_left_app. Qed.
Lemma im_insert_twice {V} (m : list (str * V)) k v w : im_insert (im_insert m k v) k w = im_insert m k w.
Proof.
  induction m as [|[k' v'] m IH]; cbn [im_insert].
  - rewrite str_eqb_refl. reflexivity.
  - destruct (str_eqb k k') eqn:E; cbn [im_insert]; rewrite E; [reflexivity|]. rewrite IH. reflexivity.
Qed.
(** adding entries in any split: [im_add m (im_of_list l) = im_add m l] *)
Lemma im_insert_comm {V} (m : list (str * V)) k v k2 v2 : In k (map fst m) -> k <> k2 ->
  im_insert (im_insert m k v) k2 v2 = im_insert (im_insert m k2 v2) k v.
Proof.
  intros Hin Hn. induction m as [|[k' v'] m IH]; cbn [im_insert map fst In] in *; [contradiction|].
  destruct (str_eqb k k') eqn:E1, (str_eqb k2 k') eqn:E2; cbn [im_insert]; rewrite ?E1, ?E2; try reflexivity.
  - apply str_eqb_eq in E1, E2. congruence.
  - f_equal. apply IH. destruct Hin as [->|]; [|assumption]. rewrite str_eqb_refl in E1. discriminate.
Qed.
Lemma im_insert_add {V} (d : list (str * V)) : forall m k v, In k (map fst m) -> ~ In k (map fst d) ->
  im_insert (im_add m d) k v = im_add (im_insert m k v) d.
Proof.
  induction d as [|[k2 v2] d IH]; intros m k v Hin Hd; rewrite ?im_add_cons; [reflexivity|].
  rewrite IH.
  - f_equal. symmetry. apply im_insert_comm; [assumption|]. intros ->. apply Hd. left. reflexivity.
  - rewrite im_insert_keys. destruct (existsb (str_eqb k2) (map fst m)); [assumption|]. apply in_or_app. left. assumption.
  - intro H. apply Hd. right. assumption.
Qed.
Lemma im_add_insert {V} (d : list (str * V)) : forall m k v, NoDup (map fst d) ->
  im_add m (im_insert d k v) = im_insert (im_add m d) k v.
Proof.
  intros m k v. revert m. induction d as [|[k' v'] d IH]; intros m Hd; cbn [im_insert]; [reflexivity|].
  cbn [map fst] in Hd. inv Hd. destruct (str_eqb k k') eqn:E.
  - apply str_eqb_eq in E. subst k'. rewrite ?im_add_cons.
    rewrite im_insert_add; [|rewrite im_insert_keys|assumption].
    + rewrite im_insert_twice. reflexivity.
    + destruct (existsb (str_eqb k) (map fst m)) eqn:Ex; [apply existsb_str; assumption|]. apply in_or_app. right. left. reflexivity.
  - rewrite !im_add_cons. apply IH. assumption.
Qed.
Lemma im_add_of_list {V} (l : list (str * V)) m : im_add m (im_of_list l) = im_add m l.
Proof.
  rewrite im_of_list_add.
  assert (H : forall l d, NoDup (map fst d) -> im_add m (im_add d l) = im_add (im_add m d) l).
  { clear l. induction l as [|[k v] l IH]; intros d Hd; [reflexivity|].
    rewrite ?im_add_cons. rewrite IH by (apply im_insert_nodup; assumption).
    rewrite im_add_insert by assumption. reflexivity. }
  apply (H l []). constructor.
Qed.
(** joining two dictionary texts: later members override earlier ones *)
Lemma parse_dict_app s1 s2 d1 d2 : parse_dict s1 = Some d1 -> parse_dict s2 = Some d2 -> d1 <> [] -> d2 <> [] ->
  parse_dict (s1 ++ cComma :: cSP :: s2) = Some (im_add d1 d2).
Proof.
  unfold parse_dict. destruct (p_sep p_member (skip is_sp s1)) as [l1|] eqn:E1; [|discriminate].
  destruct (p_sep p_member (skip is_sp s2)) as [l2|] eqn:E2; [|discriminate].
  intros H1 H2 N1 N2. inv H1. inv H2.
  rewrite (psep_join p_member wf_member p_member_facts p_member_ows _ _ l1 l2); [|assumption|assumption| |].
  - rewrite im_add_of_list. rewrite !im_of_list_add. rewrite im_add_app. reflexivity.
  - intros ->. apply N1. reflexivity.
  - intros ->. apply N2. reflexivity.
Qed.
