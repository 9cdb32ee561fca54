(** Structured fields: progress, fuel, locality and well-formedness of the parser *)
From Coq Require Import ZifyBool ZifyNat ZifyN.
From Verif Require Import Base BaseFacts Utf8 Base64 Base64Facts Sfv.
Ltac Zify.zify_post_hook ::= Z.div_mod_to_equations.

Lemma some_pair {A B} (a a' : A) (b b' : B) : Some (a, b) = Some (a', b') -> a = a' /\ b = b'.
Proof. intro H. injection H. auto. Qed.
(** inversion without simplification *)
Ltac pinv H := apply some_pair in H; destruct H as [<- <-].

(** split boolean hypotheses *)
Ltac bb := repeat match goal with
  | H : _ || _ = false |- _ => apply orb_false_iff in H as [? ?]
  | H : _ && _ = true |- _ => apply andb_true_iff in H as [? ?]
  | H : negb _ = true |- _ => apply negb_true_iff in H
  | H : negb _ = false |- _ => apply negb_false_iff in H
  end.
Ltac chars := unfold is_tok_char, is_key_start, is_key_char, is_tok_start, is_print, is_sp, is_ows in *;
  unfold is_tchar in *; unfold is_alpha in *; unfold is_lcalpha, is_digit, cQuote, cBack, cNL, cSP, cTab, cComma,
  cSemi, cColon, cEq, cLPar, cRPar, cAt, cStar, cDot, cMinus, cUnder, cQM, cPct, cSlash, cAmp in *; lia.

(** the text does not start with a character satisfying [f] *)
Definition headn (f : char -> bool) (t : str) : Prop := match t with [] => True | c :: _ => f c = false end.

Lemma headn_app f a t : headn f a -> headn f t -> headn f (a ++ t).
Proof. destruct a; cbn; auto. Qed.

(** ** span *)
Lemma span_spec f s a b : span f s = (a, b) -> s = a ++ b /\ forallb f a = true /\ headn f b.
Proof.
  revert a b; induction s as [|c s IH]; intros a b H; cbn [span] in H.
  - inv H. repeat split.
  - destruct (f c) eqn:E.
    + destruct (span f s) as [a' b'] eqn:Es. inv H. destruct (IH _ _ eq_refl) as (H1 & H2 & H3).
      subst s. repeat split; [|assumption]. cbn. rewrite E. assumption.
    + inv H. repeat split. cbn. assumption.
Qed.
Lemma span_app f a t : forallb f a = true -> headn f t -> span f (a ++ t) = (a, t).
Proof.
  induction a as [|c a IH]; cbn [forallb app span]; intros H1 H2.
  - destruct t as [|c t]; cbn [span]; [reflexivity|]. cbn in H2. rewrite H2. reflexivity.
  - apply andb_true_iff in H1 as [H1 H3]. rewrite H1, IH by assumption. reflexivity.
Qed.
Lemma span_local f s a b t : span f s = (a, b) -> headn f t -> span f (s ++ t) = (a, b ++ t).
Proof.
  intros H Ht. apply span_spec in H as (-> & H1 & H2). rewrite <- app_assoc.
  apply span_app; [assumption|]. apply headn_app; assumption.
Qed.
Lemma span_len f s a b : span f s = (a, b) -> (length b <= length s)%nat.
Proof. intro H. apply span_spec in H as (-> & _). rewrite app_length. lia. Qed.
Lemma skip_len f s : (length (skip f s) <= length s)%nat.
Proof. unfold skip. destruct (span f s) eqn:E. cbn. eapply span_len; eassumption. Qed.
Lemma skip_headn f s : headn f (skip f s).
Proof. unfold skip. destruct (span f s) eqn:E. apply span_spec in E as (_ & _ & H). exact H. Qed.
Lemma skip_id f s : headn f s -> skip f s = s.
Proof. intro H. unfold skip. replace s with ([] ++ s) at 1 by reflexivity. rewrite span_app; [reflexivity|reflexivity|assumption]. Qed.
Lemma skip_app f w s : forallb f w = true -> skip f (w ++ s) = skip f s.
Proof.
  intro H. unfold skip. induction w as [|c w IH]; [reflexivity|]. cbn [forallb app span] in *.
  apply andb_true_iff in H as [H1 H2]. rewrite H1. destruct (span f (w ++ s)) eqn:E. cbn. apply IH. assumption.
Qed.
Lemma skip_nonempty_app f s t : skip f s <> [] -> skip f (s ++ t) = skip f s ++ t.
Proof.
  unfold skip. destruct (span f s) as [a b] eqn:E. apply span_spec in E as (-> & H1 & H2). cbn [snd]. intro Hb.
  rewrite <- app_assoc, span_app; [reflexivity|assumption|]. destruct b; [congruence|exact H2].
Qed.
Lemma skip_empty_app f s t : skip f s = [] -> skip f (s ++ t) = skip f t.
Proof.
  unfold skip at 1. destruct (span f s) as [a b] eqn:E. apply span_spec in E as (-> & H1 & H2). cbn [snd]. intros ->.
  rewrite app_nil_r. apply skip_app. assumption.
Qed.
Lemma skip_decomp f s : exists w, s = w ++ skip f s /\ forallb f w = true.
Proof. unfold skip. destruct (span f s) as [a b] eqn:E. apply span_spec in E as (-> & H & _). exists a. split; [reflexivity|assumption]. Qed.

(** ** well-formed values *)
Definition wf_key (k : str) : Prop :=
  match k with c :: _ => is_key_start c = true | [] => False end /\ forallb is_key_char k = true.
Definition lim15 : Z := 1000000000000000.
Definition wf_bare (b : bare) : Prop :=
  match b with
  | BInt z | BDec z | BDate z => (- lim15 < z < lim15)%Z
  | BStr s => forallb is_print s = true
  | BTok s => match s with c :: _ => is_tok_start c = true | [] => False end /\ forallb is_tok_char s = true
  | BBytes b => bytesp b
  | BBool _ => True
  | BDisp b => bytesp b /\ utf8_valid b = true
  end.
Definition wf_param (kv : str * bare) : Prop := wf_key (fst kv) /\ wf_bare (snd kv).
Definition wf_params (ps : params) : Prop := Forall wf_param ps /\ NoDup (map fst ps).
Definition wf_item (i : item) : Prop := wf_bare (it_bare i) /\ wf_params (it_params i).
Definition wf_inner (l : inner) : Prop := Forall wf_item (in_items l) /\ wf_params (in_params l).
Definition wf_entry (e : entry) : Prop := match e with EItem i => wf_item i | EInner l => wf_inner l end.
Definition wf_member (kv : str * entry) : Prop := wf_key (fst kv) /\ wf_entry (snd kv).
Definition wf_list (l : slist) : Prop := Forall wf_entry l.
Definition wf_dict (d : sdict) : Prop := Forall wf_member d /\ NoDup (map fst d).

(** ** parsers: generic notions *)
(** the parser consumes at least one character *)
Definition progress {A} (p : str -> option (A * str)) : Prop :=
  forall s a r, p s = Some (a, r) -> exists u, s = u ++ r /\ u <> [].
(** nothing of what follows a stop is looked at *)
Definition local {A} (stop : str -> Prop) (p : str -> option (A * str)) : Prop :=
  forall s a r t, p s = Some (a, r) -> stop t -> p (s ++ t) = Some (a, r ++ t).
Definition sound {A} (wf : A -> Prop) (p : str -> option (A * str)) : Prop :=
  forall s a r, p s = Some (a, r) -> wf a.
Definition anystop (t : str) : Prop := True.
(** end of a bare item: not a token character *)
Definition stopb (t : str) : Prop := headn is_tok_char t.
(** end of an item: additionally neither a semicolon nor an equal sign *)
Definition stop_char (c : char) : bool := is_tok_char c || (c =? cSemi) || (c =? cEq).
Definition stopp (t : str) : Prop := headn stop_char t.

Lemma stopp_stopb t : stopp t -> stopb t.
Proof. unfold stopp, stopb, headn. destruct t as [|c t]; [auto|]. unfold stop_char. intro; bb. assumption. Qed.
Lemma stopp_cons c t : stopp (c :: t) -> (c =? cSemi) = false /\ (c =? cEq) = false /\ is_tok_char c = false.
Proof. unfold stopp, headn, stop_char. intro; bb. auto. Qed.
Lemma headn_weaken (f g : char -> bool) t : (forall c, g c = true -> f c = true) -> headn f t -> headn g t.
Proof. intros H. destruct t as [|c t]; cbn; [auto|]. specialize (H c). intro. destruct (g c); [|reflexivity]. rewrite H in H0; auto. Qed.
Lemma progress_len {A} (p : str -> option (A * str)) s a r : progress p -> p s = Some (a, r) -> (length r < length s)%nat.
Proof.
  intros Hp H. apply Hp in H as (u & -> & Hu). rewrite app_length. destruct u; [congruence|cbn; lia].
Qed.

Lemma is_digit_tok c : is_digit c = true -> is_tok_char c = true.
Proof. unfold is_tok_char, is_tchar. intros ->. rewrite orb_true_r. reflexivity. Qed.
Lemma is_key_tok c : is_key_char c = true -> is_tok_char c = true.
Proof. chars. Qed.
Lemma stopb_digit t : stopb t -> headn is_digit t.
Proof. apply headn_weaken, is_digit_tok. Qed.
Lemma stopb_key t : stopb t -> headn is_key_char t.
Proof. apply headn_weaken, is_key_tok. Qed.

(** ** keys *)
Lemma p_key_some s k r : p_key s = Some (k, r) <-> s = k ++ r /\ wf_key k /\ headn is_key_char r.
Proof.
  unfold p_key. destruct s as [|c s].
  - split; [discriminate|]. intros (H & [H1 _] & _). destruct k; [destruct H1|discriminate].
  - destruct (is_key_start c) eqn:E; split; intro H; try discriminate.
    + assert (H1 : span is_key_char (c :: s) = (k, r)) by congruence. clear H.
      apply span_spec in H1 as (H1 & H2 & H3). repeat split; try assumption.
      destruct k as [|d k]; cbn in H1.
      * subst r. cbn in H3. chars.
      * inv H1. assumption.
    + destruct H as (-> & [H1 H2] & H3). rewrite span_app; [reflexivity|assumption|assumption].
    + destruct H as (H & [H1 H2] & H3). destruct k as [|d k]; [destruct H1|]. inv H. congruence.
Qed.
Lemma p_key_progress : progress p_key.
Proof. intros s k r H. apply p_key_some in H as (-> & [H _] & _). exists k. split; [reflexivity|]. destruct k; [destruct H|discriminate]. Qed.
Lemma p_key_local : local stopb p_key.
Proof.
  intros s k r t H Ht. apply p_key_some in H as (-> & H1 & H2). apply p_key_some. rewrite <- app_assoc.
  repeat split; try apply H1. apply headn_app; [assumption|]. apply stopb_key. assumption.
Qed.
Lemma p_key_sound : sound wf_key p_key.
Proof. intros s k r H. apply p_key_some in H. apply H. Qed.

(** ** numbers *)
Lemma dval_bound s : forall acc, forallb is_digit s = true -> dval acc s < (acc + 1) * 10 ^ N.of_nat (length s).
Proof.
  induction s as [|c s IH]; intros acc H; cbn [dval length].
  - change (10 ^ N.of_nat 0) with 1. lia.
  - cbn [forallb] in H. apply andb_true_iff in H as [H1 H2]. specialize (IH (10 * acc + (c - 48)) H2).
    rewrite Nnat.Nat2N.inj_succ, N.pow_succ_r'. unfold is_digit in H1.
    eapply N.lt_le_trans; [exact IH|].
    replace ((acc + 1) * (10 * 10 ^ N.of_nat (length s))) with ((10 * acc + 10) * 10 ^ N.of_nat (length s)) by lia.
    apply N.mul_le_mono_r. lia.
Qed.
Lemma dval_bound0 s k : forallb is_digit s = true -> (length s <= k)%nat -> dval 0 s < 10 ^ N.of_nat k.
Proof.
  intros H Hk. eapply N.lt_le_trans; [apply dval_bound; assumption|].
  rewrite N.mul_1_l. apply N.pow_le_mono_r; lia.
Qed.
Lemma pow15 : 10 ^ N.of_nat 15 = 1000000000000000. Proof. reflexivity. Qed.
Lemma pow12 : 10 ^ N.of_nat 12 = 1000000000000. Proof. reflexivity. Qed.
Lemma signed_lim neg n : n < 1000000000000000 -> (- lim15 < signed neg n < lim15)%Z.
Proof. unfold signed, lim15. destruct neg; lia. Qed.

Lemma p_num_abs_progress neg : progress (p_num_abs neg).
Proof.
  intros s a r H. unfold p_num_abs in H. destruct (span is_digit s) as [ds x] eqn:E.
  apply span_spec in E as (-> & H1 & H2).
  destruct (Nat.eqb (length ds) 0) eqn:E0; cbn [orb] in H; [discriminate|].
  destruct (Nat.ltb 15 (length ds)); [discriminate|].
  assert (Hd : ds <> []) by (destruct ds; [discriminate|congruence]).
  destruct x as [|c x]; [inv H; exists ds; auto|].
  destruct (c =? cDot).
  - destruct (Nat.ltb 12 (length ds)); [discriminate|].
    destruct (span is_digit x) as [fs y] eqn:Ef. apply span_spec in Ef as (-> & _ & _).
    destruct fs as [|f1 [|f2 [|f3 [|f4 fs]]]]; try discriminate; inv H;
      [exists (ds ++ c :: [f1]) | exists (ds ++ c :: [f1; f2]) | exists (ds ++ c :: [f1; f2; f3])];
      (split; [rewrite <- app_assoc; reflexivity | destruct ds; discriminate]).
  - inv H. exists ds; auto.
Qed.
Lemma p_num_abs_local neg : local stopb (p_num_abs neg).
Proof.
  intros s a r t H Ht. unfold p_num_abs in *. destruct (span is_digit s) as [ds x] eqn:E.
  rewrite (span_local _ _ _ _ t E) by (apply stopb_digit; assumption).
  destruct (Nat.eqb (length ds) 0 || Nat.ltb 15 (length ds)); [discriminate|].
  destruct x as [|c x].
  - inv H. cbn [app]. destruct t as [|c t]; [reflexivity|].
    destruct (c =? cDot) eqn:Ec; [|reflexivity]. apply N.eqb_eq in Ec. subst c. cbn in Ht. discriminate.
  - cbn [app]. destruct (c =? cDot); [|inv H; reflexivity].
    destruct (Nat.ltb 12 (length ds)); [discriminate|].
    destruct (span is_digit x) as [fs y] eqn:Ef. rewrite (span_local _ _ _ _ t Ef) by (apply stopb_digit; assumption).
    destruct fs as [|f1 [|f2 [|f3 [|f4 fs]]]]; try discriminate; inv H; reflexivity.
Qed.
Definition wf_num (b : bare) : Prop := match b with BInt z | BDec z => (- lim15 < z < lim15)%Z | _ => False end.
Lemma p_num_abs_sound neg : sound wf_num (p_num_abs neg).
Proof.
  intros s a r H. unfold p_num_abs in H. destruct (span is_digit s) as [ds x] eqn:E.
  apply span_spec in E as (-> & H1 & H2).
  destruct (Nat.eqb (length ds) 0 || Nat.ltb 15 (length ds)) eqn:E0; [discriminate|].
  assert (Hl : (length ds <= 15)%nat) by lia.
  assert (Hb := dval_bound0 ds 15 H1 Hl). rewrite pow15 in Hb.
  destruct x as [|c x]; [inv H; apply signed_lim; assumption|].
  destruct (c =? cDot).
  - destruct (Nat.ltb 12 (length ds)) eqn:El; [discriminate|].
    assert (Hl2 : (length ds <= 12)%nat) by lia.
    assert (Hb2 := dval_bound0 ds 12 H1 Hl2). rewrite pow12 in Hb2.
    destruct (span is_digit x) as [fs y] eqn:Ef. apply span_spec in Ef as (-> & Hf & _).
    destruct fs as [|f1 [|f2 [|f3 [|f4 fs]]]]; try discriminate; pinv H; apply signed_lim;
      cbn [forallb] in Hf; unfold is_digit in Hf; lia.
  - inv H. apply signed_lim; assumption.
Qed.
Lemma p_num_progress : progress p_num.
Proof.
  intros s a r H. unfold p_num in H. destruct s as [|c s]; [discriminate|].
  destruct (c =? cMinus).
  - apply p_num_abs_progress in H as (u & -> & Hu). exists (c :: u). split; [reflexivity|discriminate].
  - apply p_num_abs_progress in H. assumption.
Qed.
Lemma p_num_local : local stopb p_num.
Proof.
  intros s a r t H Ht. unfold p_num in *. destruct s as [|c s]; [discriminate|]. cbn [app].
  destruct (c =? cMinus); [|change (c :: s ++ t) with ((c :: s) ++ t)]; apply p_num_abs_local; assumption.
Qed.
Lemma p_num_sound : sound wf_num p_num.
Proof.
  intros s a r H. unfold p_num in *. destruct s as [|c s]; [discriminate|].
  destruct (c =? cMinus); eapply p_num_abs_sound; eassumption.
Qed.

(** ** strings *)
Lemma two_ind {A} (P : list A -> Prop) :
  P [] -> (forall a, P [a]) -> (forall a b r, P r -> P (b :: r) -> P (a :: b :: r)) -> forall l, P l.
Proof.
  intros H0 H1 H2 l. assert (H : P l /\ forall a, P (a :: l)); [|apply H].
  induction l as [|x l [IH1 IH2]]; split; auto. 
Qed.
Lemma p_str_progress : progress p_str.
Proof.
  intros s. induction s as [|c|c d s IH1 IH2] using two_ind; intros a r H; cbn [p_str] in H.
  - discriminate.
  - destruct (c =? cBack); [discriminate|]. destruct (c =? cQuote); [inv H; exists [c]; split; [reflexivity|discriminate]|].
    destruct (is_print c); discriminate.
  - destruct (c =? cBack).
    + destruct ((d =? cQuote) || (d =? cBack)); [|discriminate].
      destruct (p_str s) as [[a' b']|] eqn:E; [|discriminate]. inv H.
      destruct (IH1 _ _ eq_refl) as (u & -> & Hu). exists (c :: d :: u). split; [reflexivity|discriminate].
    + destruct (c =? cQuote); [inv H; exists [c]; split; [reflexivity|discriminate]|].
      destruct (is_print c); [|discriminate].
      change (match p_str (d :: s) with Some (a, b) => Some (c :: a, b) | None => None end = Some (a, r)) in H.
      destruct (p_str (d :: s)) as [[a' b']|] eqn:E; [|discriminate]. inv H.
      destruct (IH2 _ _ eq_refl) as (u & -> & Hu). exists (c :: u). split; [reflexivity|discriminate].
Qed.
Lemma p_str_local : local anystop p_str.
Proof.
  intros s. induction s as [|c|c d s IH1 IH2] using two_ind; intros a r t H _.
  - discriminate.
  - cbn [p_str app] in *. destruct (c =? cBack); [discriminate|]. destruct (c =? cQuote); [inv H; reflexivity|].
    destruct (is_print c); discriminate.
  - specialize (IH2). cbn [app]. change (p_str (c :: d :: s)) with
      (if c =? cBack then if (d =? cQuote) || (d =? cBack) then match p_str s with Some (a, b) => Some (d :: a, b) | None => None end else None
       else if c =? cQuote then Some ([], d :: s) else if is_print c then
         match p_str (d :: s) with Some (a, b) => Some (c :: a, b) | None => None end else None) in H.
    change (p_str (c :: d :: s ++ t)) with
      (if c =? cBack then if (d =? cQuote) || (d =? cBack) then match p_str (s ++ t) with Some (a, b) => Some (d :: a, b) | None => None end else None
       else if c =? cQuote then Some ([], d :: s ++ t) else if is_print c then
         match p_str (d :: s ++ t) with Some (a, b) => Some (c :: a, b) | None => None end else None).
    destruct (c =? cBack).
    + destruct ((d =? cQuote) || (d =? cBack)); [|discriminate].
      destruct (p_str s) as [[a' b']|] eqn:E; [|discriminate]. inv H.
      rewrite (IH1 _ _ t eq_refl I). reflexivity.
    + destruct (c =? cQuote); [inv H; reflexivity|].
      destruct (is_print c); [|discriminate].
      destruct (p_str (d :: s)) as [[a' b']|] eqn:E; [|discriminate]. inv H.
      change (d :: s ++ t) with ((d :: s) ++ t). rewrite (IH2 _ _ t eq_refl I). reflexivity.
Qed.
Lemma p_str_sound : sound (fun s => forallb is_print s = true) p_str.
Proof.
  intros s. induction s as [|c|c d s IH1 IH2] using two_ind; intros a r H; cbn [p_str] in H.
  - discriminate.
  - destruct (c =? cBack); [discriminate|]. destruct (c =? cQuote); [inv H; reflexivity|].
    destruct (is_print c); discriminate.
  - destruct (c =? cBack).
    + destruct ((d =? cQuote) || (d =? cBack)) eqn:Ed; [|discriminate].
      destruct (p_str s) as [[a' b']|] eqn:E; [|discriminate]. inv H.
      cbn [forallb]. rewrite (IH1 _ _ eq_refl), andb_true_r. unfold is_print, cQuote, cBack in *. lia.
    + destruct (c =? cQuote); [inv H; reflexivity|].
      destruct (is_print c) eqn:Ec; [|discriminate].
      change (match p_str (d :: s) with Some (a, b) => Some (c :: a, b) | None => None end = Some (a, r)) in H.
      destruct (p_str (d :: s)) as [[a' b']|] eqn:E; [|discriminate]. inv H.
      cbn [forallb]. rewrite (IH2 _ _ eq_refl), Ec. reflexivity.
Qed.

(** ** byte sequences *)
Lemma split_once_local c s a b t : split_once c s = Some (a, b) -> split_once c (s ++ t) = Some (a, b ++ t).
Proof.
  intro H. apply split_once_some in H as [-> H]. apply split_once_some. split; [|assumption].
  rewrite <- app_assoc. reflexivity.
Qed.
Lemma p_bytes_progress : progress p_bytes.
Proof.
  intros s a r H. unfold p_bytes in H. destruct (split_once cColon s) as [[x y]|] eqn:E; [|discriminate].
  apply split_once_some in E as [-> _]. destruct (b64_decode true x); [|discriminate]. inv H.
  exists (x ++ [cColon]). split; [rewrite <- app_assoc; reflexivity | destruct x; discriminate].
Qed.
Lemma p_bytes_local : local anystop p_bytes.
Proof.
  intros s a r t H _. unfold p_bytes in *. destruct (split_once cColon s) as [[x y]|] eqn:E; [|discriminate].
  rewrite (split_once_local _ _ _ _ t E). destruct (b64_decode true x); [|discriminate]. inv H. reflexivity.
Qed.
Lemma p_bytes_sound : sound wf_bare p_bytes.
Proof.
  intros s a r H. unfold p_bytes in H. destruct (split_once cColon s) as [[x y]|] eqn:E; [|discriminate].
  destruct (b64_decode true x) eqn:Eb; [|discriminate]. inv H. eapply b64_decode_bytes; eassumption.
Qed.

(** ** display strings *)
Lemma p_disp_unfold c r : p_disp (c :: r) =
  if c =? cPct then
    match r with
    | h :: l :: r' =>
        match hex_val h, hex_val l with
        | Some x, Some y => match p_disp r' with Some (a, b) => Some (16 * x + y :: a, b) | None => None end
        | _, _ => None
        end
    | _ => None
    end
  else if c =? cQuote then Some ([], r)
  else if is_print c then match p_disp r with Some (a, b) => Some (c :: a, b) | None => None end
  else None.
Proof. reflexivity. Qed.
Lemma hex_val_lt c v : hex_val c = Some v -> v < 16.
Proof. unfold hex_val, is_digit. repeat destr; intro H; inv H; lia. Qed.
Lemma len_ind {A} (P : list A -> Prop) : (forall s, (forall t, (length t < length s)%nat -> P t) -> P s) -> forall s, P s.
Proof. intros H s. induction s as [s IH] using (well_founded_induction (well_founded_ltof _ (@length A))). apply H, IH. Qed.
Lemma p_disp_facts s : forall a r, p_disp s = Some (a, r) ->
  (exists u, s = u ++ r /\ u <> []) /\ bytesp a /\ forall t, p_disp (s ++ t) = Some (a, r ++ t).
Proof.
  induction s as [s IH] using len_ind; intros a r H. destruct s as [|c s]; [discriminate|]. rewrite p_disp_unfold in H.
  destruct (c =? cPct) eqn:E1.
  - destruct s as [|h [|l s]]; try discriminate. destruct (hex_val h) eqn:Eh; [|discriminate].
    destruct (hex_val l) eqn:El; [|discriminate]. destruct (p_disp s) as [[a' b']|] eqn:E; [|discriminate]. pinv H.
    destruct (IH s ltac:(cbn; lia) _ _ E) as ((u & -> & _) & H1 & H2). split; [|split].
    + exists (c :: h :: l :: u). split; [reflexivity|discriminate].
    + constructor; [|assumption]. apply hex_val_lt in Eh, El. lia.
    + intro t. cbn [app]. rewrite p_disp_unfold, E1, Eh, El, H2. reflexivity.
  - destruct (c =? cQuote) eqn:E2.
    + inv H. split; [|split].
      * exists [c]. split; [reflexivity|discriminate].
      * constructor.
      * intro t. cbn [app]. rewrite p_disp_unfold, E1, E2. reflexivity.
    + destruct (is_print c) eqn:E3; [|discriminate]. destruct (p_disp s) as [[a' b']|] eqn:E; [|discriminate]. inv H.
      destruct (IH s ltac:(cbn; lia) _ _ E) as ((u & -> & _) & H1 & H2). split; [|split].
      * exists (c :: u). split; [reflexivity|discriminate].
      * constructor; [|assumption]. unfold is_print in E3. lia.
      * intro t. cbn [app]. rewrite p_disp_unfold, E1, E2, E3, H2. reflexivity.
Qed.

(** ** bare items *)
Lemma p_bare_progress : progress p_bare.
Proof.
  intros s a r H. destruct s as [|c s]; [discriminate|]. cbn [p_bare] in H.
  assert (Hc : (exists u, s = u ++ r) -> exists u, c :: s = u ++ r /\ u <> []).
  { intros (u & ->). exists (c :: u). split; [reflexivity|discriminate]. }
  destruct ((c =? cMinus) || is_digit c); [exact (p_num_progress _ _ _ H)|].
  destruct (c =? cQuote).
  { apply Hc. destruct (p_str s) as [[x y]|] eqn:E; [|discriminate]. inv H.
    apply p_str_progress in E as (u & -> & _). eauto. }
  destruct (is_tok_start c) eqn:Et.
  { destruct (span is_tok_char (c :: s)) as [x y] eqn:E. inv H. apply span_spec in E as (E & _ & H3).
    exists x. split; [assumption|]. intros ->. cbn in E. subst r. cbn in H3.
    chars. }
  destruct (c =? cColon).
  { apply Hc. apply p_bytes_progress in H as (u & -> & _). eauto. }
  destruct (c =? cQM).
  { apply Hc. destruct s as [|d s]; [discriminate|]. destruct (d =? 49); [inv H; exists [d]; reflexivity|].
    destruct (d =? 48); [inv H; exists [d]; reflexivity|discriminate]. }
  destruct (c =? cAt).
  { apply Hc. destruct (p_num s) as [[[] y]|] eqn:E; try discriminate. inv H.
    apply p_num_progress in E as (u & -> & _). eauto. }
  destruct (c =? cPct); [|discriminate].
  apply Hc. destruct s as [|d s]; [discriminate|]. destruct (d =? cQuote); [|discriminate].
  destruct (p_disp s) as [[x y]|] eqn:E; [|discriminate]. destruct (utf8_valid x); [|discriminate]. inv H.
  apply p_disp_facts in E as ((u & -> & _) & _). exists (d :: u). reflexivity.
Qed.
Lemma p_bare_local : local stopb p_bare.
Proof.
  intros s a r t H Ht. destruct s as [|c s]; [discriminate|]. cbn [p_bare app] in *.
  destruct ((c =? cMinus) || is_digit c).
  { change (c :: s ++ t) with ((c :: s) ++ t). apply p_num_local; assumption. }
  destruct (c =? cQuote).
  { destruct (p_str s) as [[x y]|] eqn:E; [|discriminate]. inv H. rewrite (p_str_local _ _ _ t E I). reflexivity. }
  destruct (is_tok_start c) eqn:Et.
  { change (c :: s ++ t) with ((c :: s) ++ t).
    destruct (span is_tok_char (c :: s)) as [x y] eqn:E. inv H. rewrite (span_local _ _ _ _ t E Ht). reflexivity. }
  destruct (c =? cColon).
  { apply p_bytes_local; [assumption|exact I]. }
  destruct (c =? cQM).
  { destruct s as [|d s]; [discriminate|]. cbn [app]. destruct (d =? 49); [inv H; reflexivity|].
    destruct (d =? 48); [inv H; reflexivity|discriminate]. }
  destruct (c =? cAt).
  { destruct (p_num s) as [[[] y]|] eqn:E; try discriminate. inv H.
    rewrite (p_num_local _ _ _ t E Ht). reflexivity. }
  destruct (c =? cPct); [|discriminate].
  destruct s as [|d s]; [discriminate|]. cbn [app]. destruct (d =? cQuote); [|discriminate].
  destruct (p_disp s) as [[x y]|] eqn:E; [|discriminate]. destruct (utf8_valid x) eqn:Ev; [|discriminate]. inv H.
  apply p_disp_facts in E as (_ & _ & E). rewrite E, Ev. reflexivity.
Qed.
Lemma p_bare_sound : sound wf_bare p_bare.
Proof.
  intros s a r H. destruct s as [|c s]; [discriminate|]. cbn [p_bare] in H.
  destruct ((c =? cMinus) || is_digit c).
  { apply p_num_sound in H. destruct a; cbn in *; tauto. }
  destruct (c =? cQuote).
  { destruct (p_str s) as [[x y]|] eqn:E; [|discriminate]. inv H. apply p_str_sound in E. exact E. }
  destruct (is_tok_start c) eqn:Et.
  { destruct (span is_tok_char (c :: s)) as [x y] eqn:E. inv H. apply span_spec in E as (E & H2 & H3).
    cbn. split; [|assumption]. destruct x as [|d x]; cbn in E.
    - subst r. cbn in H3. chars.
    - inv E. assumption. }
  destruct (c =? cColon).
  { apply p_bytes_sound in H. assumption. }
  destruct (c =? cQM).
  { destruct s as [|d s]; [discriminate|]. destruct (d =? 49); [inv H; exact I|].
    destruct (d =? 48); [inv H; exact I|discriminate]. }
  destruct (c =? cAt).
  { destruct (p_num s) as [[[] y]|] eqn:E; try discriminate. inv H. apply p_num_sound in E. exact E. }
  destruct (c =? cPct); [|discriminate].
  destruct s as [|d s]; [discriminate|]. destruct (d =? cQuote); [|discriminate].
  destruct (p_disp s) as [[x y]|] eqn:E; [|discriminate]. destruct (utf8_valid x) eqn:Ev; [|discriminate]. inv H.
  apply p_disp_facts in E as (_ & E & _). split; assumption.
Qed.

(** ** parameters *)
(** one parameter, after the semicolon *)
Definition p_param1 (s : str) : option ((str * bare) * str) :=
  match p_key (skip is_sp s) with
  | Some (k, r1) =>
      match r1 with
      | d :: r2 =>
          if d =? cEq then match p_bare r2 with Some (v, r3) => Some ((k, v), r3) | None => None end
          else Some ((k, BBool true), r1)
      | [] => Some ((k, BBool true), r1)
      end
  | None => None
  end.
Lemma p_params_step f acc s : p_params_f (S f) acc s =
  match s with
  | c :: r => if c =? cSemi then
                match p_param1 r with Some ((k, v), r') => p_params_f f (im_insert acc k v) r' | None => None end
              else Some (acc, s)
  | [] => Some (acc, s)
  end.
Proof.
  cbn [p_params_f]. destruct s as [|c r]; [reflexivity|]. destruct (c =? cSemi); [|reflexivity].
  unfold p_param1. destruct (p_key (skip is_sp r)) as [[k r1]|]; [|reflexivity].
  destruct r1 as [|d r2]; [reflexivity|]. destruct (d =? cEq); [|reflexivity].
  destruct (p_bare r2) as [[v r3]|]; reflexivity.
Qed.
Lemma p_param1_facts s kv r : p_param1 s = Some (kv, r) ->
  (exists u, s = u ++ r /\ u <> []) /\ wf_param kv /\ forall t, stopb t -> stopp t \/ r <> [] \/ starts_with cSemi t = true -> p_param1 (s ++ t) = Some (kv, r ++ t).
Proof.
  unfold p_param1. intro H. destruct (p_key (skip is_sp s)) as [[k r1]|] eqn:Ek; [|discriminate].
  destruct (skip_decomp is_sp s) as (w & Hs & Hw).
  destruct (p_key_progress _ _ _ Ek) as (u & Hu & Hu0).
  assert (Hskip : forall t, skip is_sp (s ++ t) = skip is_sp s ++ t).
  { intro t. apply skip_nonempty_app. rewrite Hu. destruct u; [congruence|discriminate]. }
  assert (Hk := p_key_sound _ _ _ Ek).
  destruct r1 as [|d r2]; [|destruct (d =? cEq) eqn:Ed].
  - inv H. split; [|split].
    + exists (w ++ u). split; [rewrite Hs at 1; rewrite Hu, app_assoc; reflexivity | destruct w; [exact Hu0|discriminate]].
    + split; [assumption|exact I].
    + intros t Ht1 Ht2. rewrite Hskip, (p_key_local _ _ _ t Ek Ht1). cbn [app]. destruct t as [|d t]; [reflexivity|].
      destruct (d =? cEq) eqn:Ed; [|reflexivity]. apply N.eqb_eq in Ed. subst d.
      destruct Ht2 as [Ht2|[Ht2|Ht2]]; [discriminate|congruence|discriminate].
  - destruct (p_bare r2) as [[v r3]|] eqn:Eb; [|discriminate]. inv H.
    destruct (p_bare_progress _ _ _ Eb) as (u2 & -> & Hu2). split; [|split].
    + exists (w ++ u ++ d :: u2). split; [|destruct w; [destruct u|]; discriminate].
      rewrite Hs at 1. rewrite Hu. rewrite <- !app_assoc. reflexivity.
    + split; [assumption|]. eapply p_bare_sound; eassumption.
    + intros t Ht1 Ht2. rewrite Hskip, (p_key_local _ _ _ t Ek Ht1). cbn [app]. rewrite Ed.
      rewrite (p_bare_local _ _ _ t Eb Ht1). reflexivity.
  - inv H. split; [|split].
    + exists (w ++ u). split; [|destruct w; [destruct u; [congruence|]|]; discriminate].
      rewrite Hs at 1. rewrite Hu. rewrite <- !app_assoc. reflexivity.
    + split; [assumption|exact I].
    + intros t Ht1 Ht2. rewrite Hskip, (p_key_local _ _ _ t Ek Ht1). cbn [app]. rewrite Ed. reflexivity.
Qed.
Lemma p_param1_progress : progress p_param1.
Proof. intros s a r H. apply p_param1_facts in H. apply H. Qed.
Lemma p_param1_local : local stopp p_param1.
Proof. intros s a r t H Ht. apply p_param1_facts in H as (_ & _ & H). apply H; [apply stopp_stopb; assumption | auto]. Qed.

Lemma p_params_fuel f g acc s : (length s < f)%nat -> (length s < g)%nat -> p_params_f f acc s = p_params_f g acc s.
Proof.
  revert g acc s; induction f as [|f IH]; intros g acc s Hf Hg; [lia|]. destruct g as [|g]; [lia|].
  rewrite !p_params_step. destruct s as [|c r]; [reflexivity|]. destruct (c =? cSemi); [|reflexivity].
  destruct (p_param1 r) as [[[k v] r']|] eqn:E; [|reflexivity].
  apply (progress_len _ _ _ _ p_param1_progress) in E. cbn [length] in *. apply IH; lia.
Qed.
Lemma p_params_mono f g acc s x : p_params_f f acc s = Some x -> (f <= g)%nat -> p_params_f g acc s = Some x.
Proof.
  revert g acc s; induction f as [|f IH]; intros g acc s H Hg; [discriminate|]. destruct g as [|g]; [lia|].
  rewrite p_params_step in *. destruct s as [|c r]; [assumption|]. destruct (c =? cSemi); [|assumption].
  destruct (p_param1 r) as [[[k v] r']|]; [|assumption]. apply IH; [assumption|lia].
Qed.
Lemma p_params_eq f s : (length s < f)%nat -> p_params_f f [] s = p_params s.
Proof. intro H. apply p_params_fuel; lia. Qed.
Lemma p_params_f_facts f : forall acc s ps r, p_params_f f acc s = Some (ps, r) ->
  (exists u, s = u ++ r) /\ (wf_params acc -> wf_params ps) /\ headn (N.eqb cSemi) r
  /\ forall t, stopp t -> p_params_f f acc (s ++ t) = Some (ps, r ++ t).
Proof.
  induction f as [|f IH]; intros acc s ps r H; [discriminate|]. rewrite p_params_step in H.
  destruct s as [|c s].
  - inv H. split; [exists []; reflexivity|]. split; [auto|]. split; [exact I|].
    intros t Ht. cbn [app]. rewrite p_params_step. destruct t as [|c t]; [reflexivity|].
    apply stopp_cons in Ht as (Ht & _). rewrite Ht. reflexivity.
  - destruct (c =? cSemi) eqn:E.
    + destruct (p_param1 s) as [[[k v] r']|] eqn:E1; [|discriminate].
      destruct (p_param1_facts _ _ _ E1) as ((u1 & -> & _) & Hwf & Hloc).
      destruct (IH _ _ _ _ H) as ((u2 & ->) & IH2 & IH3 & IH4). split; [|split; [|split]].
      * exists (c :: u1 ++ u2). cbn. rewrite app_assoc. reflexivity.
      * intros [Ha1 Ha2]. apply IH2. split; [|apply im_insert_nodup; assumption].
        clear -Ha1 Hwf. induction acc as [|[k' v'] acc IHa]; cbn [im_insert]; [repeat constructor; apply Hwf|].
        inv Ha1. destruct (str_eqb k k') eqn:Ek.
        -- constructor; [|assumption]. apply str_eqb_eq in Ek. subst k'. exact Hwf.
        -- constructor; [assumption|]. apply IHa; assumption.
      * exact IH3.
      * intros t Ht. cbn [app]. rewrite p_params_step, E. rewrite Hloc; [|apply stopp_stopb; assumption|auto].
        apply IH4. assumption.
    + inv H. split; [exists []; reflexivity|]. split; [auto|]. split; [unfold headn; rewrite N.eqb_sym; assumption|].
      intros t Ht. cbn [app]. rewrite p_params_step, E. reflexivity.
Qed.
Lemma p_params_facts s ps r : p_params s = Some (ps, r) ->
  (exists u, s = u ++ r) /\ wf_params ps /\ headn (N.eqb cSemi) r /\ forall t, stopp t -> p_params (s ++ t) = Some (ps, r ++ t).
Proof.
  intro H. apply p_params_f_facts in H as (H1 & H2 & H3 & H4). split; [assumption|]. split.
  - apply H2. split; constructor.
  - split; [assumption|]. intros t Ht. eapply p_params_mono; [apply H4; assumption|]. rewrite app_length. lia.
Qed.

(** ** items *)
Lemma p_item_progress : progress p_item.
Proof.
  intros s a r H. unfold p_item in H. destruct (p_bare s) as [[b x]|] eqn:E; [|discriminate].
  destruct (p_params x) as [[ps y]|] eqn:Ep; [|discriminate]. inv H.
  apply p_bare_progress in E as (u & -> & Hu). apply p_params_facts in Ep as ((u2 & ->) & _).
  exists (u ++ u2). split; [apply app_assoc|]. destruct u; [congruence|discriminate].
Qed.
Lemma p_item_local : local stopp p_item.
Proof.
  intros s a r t H Ht. unfold p_item in *. destruct (p_bare s) as [[b x]|] eqn:E; [|discriminate].
  rewrite (p_bare_local _ _ _ t E) by (apply stopp_stopb; assumption).
  destruct (p_params x) as [[ps y]|] eqn:Ep; [|discriminate]. inv H.
  apply p_params_facts in Ep as (_ & _ & _ & Ep). rewrite Ep by assumption. reflexivity.
Qed.
Lemma p_item_sound : sound wf_item p_item.
Proof.
  intros s a r H. unfold p_item in *. destruct (p_bare s) as [[b x]|] eqn:E; [|discriminate].
  destruct (p_params x) as [[ps y]|] eqn:Ep; [|discriminate]. inv H.
  apply p_params_facts in Ep as (_ & Ep & _). split; [|exact Ep]. eapply p_bare_sound; eassumption.
Qed.

(** ** inner lists *)
Lemma p_inner_fuel f g s : (length s < f)%nat -> (length s < g)%nat -> p_inner_f f s = p_inner_f g s.
Proof.
  revert g s; induction f as [|f IH]; intros g s Hf Hg; [lia|]. destruct g as [|g]; [lia|].
  cbn [p_inner_f]. assert (Hl := skip_len is_sp s). destruct (skip is_sp s) as [|c r] eqn:Es; [reflexivity|].
  destruct (c =? cRPar); [reflexivity|]. destruct (p_item (c :: r)) as [[i r1]|] eqn:E; [|reflexivity].
  apply (progress_len _ _ _ _ p_item_progress) in E.
  destruct r1 as [|d r1]; [reflexivity|]. rewrite (IH g (d :: r1)) by lia. reflexivity.
Qed.
Lemma p_inner_mono f g s x : p_inner_f f s = Some x -> (f <= g)%nat -> p_inner_f g s = Some x.
Proof.
  revert g s x; induction f as [|f IH]; intros g s x H Hg; [discriminate|]. destruct g as [|g]; [lia|].
  cbn [p_inner_f] in *. destruct (skip is_sp s) as [|c r]; [assumption|].
  destruct (c =? cRPar); [assumption|]. destruct (p_item (c :: r)) as [[i r1]|]; [|assumption].
  destruct r1 as [|d r1]; [assumption|]. destruct ((d =? cSP) || (d =? cRPar)); [|assumption].
  destruct (p_inner_f f (d :: r1)) as [[is r2]|] eqn:E; [|discriminate].
  rewrite (IH g _ _ E) by lia. assumption.
Qed.

(** a parser result with a nonempty rest does not depend on what follows that rest *)
Definition local_ne {A} (p : str -> option (A * str)) : Prop :=
  forall s a r t, p s = Some (a, r) -> r <> [] -> p (s ++ t) = Some (a, r ++ t).
Lemma span_local_ne f s a b t : span f s = (a, b) -> b <> [] -> span f (s ++ t) = (a, b ++ t).
Proof.
  intros H Hb. apply span_spec in H as (-> & H1 & H2). rewrite <- app_assoc.
  apply span_app; [assumption|]. destruct b; [congruence|exact H2].
Qed.
Lemma p_key_local_ne : local_ne p_key.
Proof.
  intros s k r t H Hr. apply p_key_some in H as (-> & H1 & H2). apply p_key_some. rewrite <- app_assoc.
  repeat split; try apply H1. destruct r; [congruence|exact H2].
Qed.
Lemma p_num_abs_local_ne neg : local_ne (p_num_abs neg).
Proof.
  intros s a r t H Hr. unfold p_num_abs in *. destruct (span is_digit s) as [ds x] eqn:E.
  assert (Hx : x <> []).
  { intros ->. destruct (Nat.eqb (length ds) 0 || Nat.ltb 15 (length ds)); [discriminate|]. congruence. }
  rewrite (span_local_ne _ _ _ _ t E Hx).
  destruct (Nat.eqb (length ds) 0 || Nat.ltb 15 (length ds)); [discriminate|].
  destruct x as [|c x]; [congruence|].
  cbn [app]. destruct (c =? cDot); [|inv H; reflexivity].
  destruct (Nat.ltb 12 (length ds)); [discriminate|].
  destruct (span is_digit x) as [fs y] eqn:Ef.
  assert (Hy : y = r) by (destruct fs as [|f1 [|f2 [|f3 [|f4 fs]]]]; try discriminate; congruence). subst y.
  rewrite (span_local_ne _ _ _ _ t Ef Hr).
  destruct fs as [|f1 [|f2 [|f3 [|f4 fs]]]]; try discriminate; inv H; reflexivity.
Qed.
Lemma p_num_local_ne : local_ne p_num.
Proof.
  intros s a r t H Hr. unfold p_num in *. destruct s as [|c s]; [discriminate|]. cbn [app].
  destruct (c =? cMinus); [|change (c :: s ++ t) with ((c :: s) ++ t)]; apply p_num_abs_local_ne; assumption.
Qed.
Lemma p_bare_local_ne : local_ne p_bare.
Proof.
  intros s a r t H Hr. destruct s as [|c s]; [discriminate|]. cbn [p_bare app] in *.
  destruct ((c =? cMinus) || is_digit c).
  { change (c :: s ++ t) with ((c :: s) ++ t). apply p_num_local_ne; assumption. }
  destruct (c =? cQuote).
  { destruct (p_str s) as [[x y]|] eqn:E; [|discriminate]. inv H. rewrite (p_str_local _ _ _ t E I). reflexivity. }
  destruct (is_tok_start c) eqn:Et.
  { change (c :: s ++ t) with ((c :: s) ++ t).
    destruct (span is_tok_char (c :: s)) as [x y] eqn:E. inv H. rewrite (span_local_ne _ _ _ _ t E Hr). reflexivity. }
  destruct (c =? cColon).
  { apply p_bytes_local; [assumption|exact I]. }
  destruct (c =? cQM).
  { destruct s as [|d s]; [discriminate|]. cbn [app]. destruct (d =? 49); [inv H; reflexivity|].
    destruct (d =? 48); [inv H; reflexivity|discriminate]. }
  destruct (c =? cAt).
  { destruct (p_num s) as [[[] y]|] eqn:E; try discriminate. inv H.
    rewrite (p_num_local_ne _ _ _ t E Hr). reflexivity. }
  destruct (c =? cPct); [|discriminate].
  destruct s as [|d s]; [discriminate|]. cbn [app]. destruct (d =? cQuote); [|discriminate].
  destruct (p_disp s) as [[x y]|] eqn:E; [|discriminate]. destruct (utf8_valid x) eqn:Ev; [|discriminate]. inv H.
  apply p_disp_facts in E as (_ & _ & E). rewrite E, Ev. reflexivity.
Qed.
Lemma p_param1_local_ne : local_ne p_param1.
Proof.
  intros s kv r t H Hr. unfold p_param1 in *. destruct (p_key (skip is_sp s)) as [[k r1]|] eqn:Ek; [|discriminate].
  destruct (p_key_progress _ _ _ Ek) as (u & Hu & Hu0).
  rewrite skip_nonempty_app by (rewrite Hu; destruct u; [congruence|discriminate]).
  assert (H1 : r1 <> []) by (intros ->; congruence).
  rewrite (p_key_local_ne _ _ _ t Ek H1). destruct r1 as [|d r2]; [congruence|]. cbn [app].
  destruct (d =? cEq); [|inv H; reflexivity].
  destruct (p_bare r2) as [[v r3]|] eqn:Eb; [|discriminate]. inv H. rewrite (p_bare_local_ne _ _ _ t Eb Hr). reflexivity.
Qed.
Lemma p_params_f_local_ne f acc s ps r t : p_params_f f acc s = Some (ps, r) -> r <> [] ->
  p_params_f f acc (s ++ t) = Some (ps, r ++ t).
Proof.
  revert acc s; induction f as [|f IH]; intros acc s H Hr; [discriminate|]. rewrite p_params_step in *.
  destruct s as [|c s]; [congruence|]. cbn [app]. destruct (c =? cSemi); [|inv H; reflexivity].
  destruct (p_param1 s) as [[[k v] r']|] eqn:E1; [|discriminate].
  assert (Hr' : r' <> []).
  { intros ->. destruct f; [discriminate|]. rewrite p_params_step in H. congruence. }
  rewrite (p_param1_local_ne _ _ _ t E1 Hr'). apply IH; assumption.
Qed.
Lemma p_params_local_ne : local_ne p_params.
Proof.
  intros s a r t H Hr. eapply p_params_mono; [eapply p_params_f_local_ne; eassumption|]. rewrite app_length. lia.
Qed.
Lemma p_item_local_ne : local_ne p_item.
Proof.
  intros s a r t H Hr. unfold p_item in *. destruct (p_bare s) as [[b x]|] eqn:E; [|discriminate].
  destruct (p_params x) as [[ps y]|] eqn:Ep; [|discriminate]. inv H.
  assert (Hx : x <> []). { intros ->. cbn in Ep. congruence. }
  rewrite (p_bare_local_ne _ _ _ t E Hx). rewrite (p_params_local_ne _ _ _ t Ep Hr). reflexivity.
Qed.
Lemma p_inner_f_facts f : forall s l r, p_inner_f f s = Some (l, r) ->
  (exists u, s = u ++ r /\ u <> []) /\ Forall wf_item l /\ forall t, p_inner_f f (s ++ t) = Some (l, r ++ t).
Proof.
  induction f as [|f IH]; intros s l r H; [discriminate|]. cbn [p_inner_f] in H.
  destruct (skip_decomp is_sp s) as (w & Hs & Hw).
  assert (Hsk : skip is_sp s <> []) by (intro E; rewrite E in H; discriminate).
  assert (Happ : forall t, skip is_sp (s ++ t) = skip is_sp s ++ t) by (intro; apply skip_nonempty_app; assumption).
  destruct (skip is_sp s) as [|c x] eqn:Es; [congruence|].
  destruct (c =? cRPar) eqn:Ec.
  - inv H. split; [|split].
    + exists (w ++ [c]). split; [rewrite <- app_assoc; reflexivity | destruct w; discriminate].
    + constructor.
    + intro t. cbn [p_inner_f]. rewrite Happ. cbn [app]. rewrite Ec. reflexivity.
  - destruct (p_item (c :: x)) as [[i r1]|] eqn:Ei; [|discriminate].
    destruct r1 as [|d r1]; [discriminate|].
    destruct ((d =? cSP) || (d =? cRPar)) eqn:Ed; [|discriminate].
    destruct (p_inner_f f (d :: r1)) as [[is r2]|] eqn:E; [|discriminate]. inv H.
    destruct (IH _ _ _ E) as ((u & Hu & Hu0) & IH2 & IH3).
    destruct (p_item_progress _ _ _ Ei) as (u1 & Hu1 & Hu10). split; [|split].
    + exists (w ++ u1 ++ u). split; [|destruct w; [destruct u1; [congruence|]|]; discriminate].
      rewrite Hu1, Hu, <- !app_assoc. reflexivity.
    + constructor; [|assumption]. eapply p_item_sound; eassumption.
    + intro t. cbn [p_inner_f]. rewrite Happ. cbn [app]. rewrite Ec.
      change (c :: x ++ t) with ((c :: x) ++ t). rewrite (p_item_local_ne _ _ _ t Ei) by discriminate.
      cbn [app]. rewrite Ed. change (d :: r1 ++ t) with ((d :: r1) ++ t). rewrite IH3. reflexivity.
Qed.
Lemma p_inner_facts s l r : p_inner s = Some (l, r) ->
  (exists u, s = u ++ r /\ u <> []) /\ wf_inner l /\ forall t, stopp t -> p_inner (s ++ t) = Some (l, r ++ t).
Proof.
  unfold p_inner. intro H. destruct (p_inner_f (S (length s)) s) as [[is x]|] eqn:E; [|discriminate].
  destruct (p_params x) as [[ps y]|] eqn:Ep; [|discriminate]. inv H.
  apply p_inner_f_facts in E as ((u & Hu & Hu0) & Hwf & Hloc).
  apply p_params_facts in Ep as ((u2 & ->) & Hp & _ & Hploc). split; [|split].
  - exists (u ++ u2). rewrite <- app_assoc. split; [assumption | destruct u; [congruence|discriminate]].
  - split; assumption.
  - intros t Ht. rewrite (p_inner_mono (S (length s)) _ _ _ (Hloc t)) by (rewrite app_length; lia).
    rewrite Hploc by assumption. reflexivity.
Qed.

(** ** list entries and dictionary members *)
Lemma p_entry_facts s e r : p_entry s = Some (e, r) ->
  (exists u, s = u ++ r /\ u <> []) /\ wf_entry e /\ forall t, stopp t -> p_entry (s ++ t) = Some (e, r ++ t).
Proof.
  unfold p_entry. intro H. destruct s as [|c s]; [discriminate|]. cbn [app]. destruct (c =? cLPar).
  - destruct (p_inner s) as [[l x]|] eqn:E; [|discriminate]. inv H.
    apply p_inner_facts in E as ((u & -> & Hu) & H1 & H2). split; [|split].
    + exists (c :: u). split; [reflexivity|discriminate].
    + assumption.
    + intros t Ht. rewrite H2 by assumption. reflexivity.
  - destruct (p_item (c :: s)) as [[l x]|] eqn:E; [|discriminate]. inv H. split; [|split].
    + apply p_item_progress in E. assumption.
    + eapply p_item_sound; eassumption.
    + intros t Ht. change (c :: s ++ t) with ((c :: s) ++ t). rewrite (p_item_local _ _ _ t E Ht). reflexivity.
Qed.
Lemma p_member_facts s e r : p_member s = Some (e, r) ->
  (exists u, s = u ++ r /\ u <> []) /\ wf_member e /\ forall t, stopp t -> p_member (s ++ t) = Some (e, r ++ t).
Proof.
  unfold p_member. intro H. destruct (p_key s) as [[k x]|] eqn:Ek; [|discriminate].
  destruct (p_key_progress _ _ _ Ek) as (u & -> & Hu). assert (Hk := p_key_sound _ _ _ Ek).
  destruct x as [|c x]; [|destruct (c =? cEq) eqn:Ec].
  - inv H. split; [|split].
    + eauto.
    + split; [exact Hk|]. split; [exact I|]. split; constructor.
    + intros t Ht. rewrite (p_key_local _ _ _ t Ek) by (apply stopp_stopb; assumption). cbn [app].
      destruct t as [|c t]; [reflexivity|]. assert (Ec : (c =? cEq) = false) by (apply stopp_cons in Ht; apply Ht).
      rewrite Ec. assert (Hp : p_params (c :: t) = Some ([], c :: t)).
      { unfold p_params. rewrite p_params_step.
        apply stopp_cons in Ht as (Ht & _). rewrite Ht. reflexivity. }
      rewrite Hp. reflexivity.
  - destruct (p_entry x) as [[y r2]|] eqn:Ee; [|discriminate]. inv H.
    apply p_entry_facts in Ee as ((u2 & -> & _) & H1 & H2). split; [|split].
    + exists (u ++ c :: u2). split; [rewrite <- app_assoc; reflexivity | destruct u; discriminate].
    + split; assumption.
    + intros t Ht. rewrite (p_key_local _ _ _ t Ek) by (apply stopp_stopb; assumption). cbn [app]. rewrite Ec.
      rewrite H2 by assumption. reflexivity.
  - destruct (p_params (c :: x)) as [[ps r2]|] eqn:Ep; [|discriminate]. inv H.
    apply p_params_facts in Ep as ((u2 & E2) & H1 & _ & H2). split; [|split].
    + exists (u ++ u2). rewrite E2. split; [apply app_assoc | destruct u; [congruence|discriminate]].
    + split; [exact Hk|]. split; [exact I|exact H1].
    + intros t Ht. rewrite (p_key_local _ _ _ t Ek) by (apply stopp_stopb; assumption). cbn [app]. rewrite Ec.
      change (c :: x ++ t) with ((c :: x) ++ t). rewrite H2 by assumption. reflexivity.
Qed.

(** ** comma separated sequences *)
Section Sep.
Context {A : Type} (p : str -> option (A * str)) (wf : A -> Prop).
Hypothesis Hp : forall s e r, p s = Some (e, r) ->
  (exists u, s = u ++ r /\ u <> []) /\ wf e /\ forall t, stopp t -> p (s ++ t) = Some (e, r ++ t).

Lemma p_sep_fuel f g s : (length s < f)%nat -> (length s < g)%nat -> p_sep_f p f s = p_sep_f p g s.
Proof.
  revert g s; induction f as [|f IH]; intros g s Hf Hg; [lia|]. destruct g as [|g]; [lia|].
  cbn [p_sep_f]. destruct s as [|c s]; [reflexivity|].
  destruct (p (c :: s)) as [[a r]|] eqn:E; [|reflexivity].
  apply Hp in E as ((u & Hu & Hu0) & _).
  assert (Hl : (length r < length (c :: s))%nat) by (rewrite Hu, app_length; destruct u; [congruence|cbn; lia]).
  assert (Hs := skip_len is_ows r). destruct (skip is_ows r) as [|d r1]; [reflexivity|].
  destruct (d =? cComma); [|reflexivity]. assert (Hs2 := skip_len is_ows r1).
  destruct (skip is_ows r1) as [|d2 r2]; [reflexivity|]. cbn [length] in *. rewrite (IH g (d2 :: r2)) by (cbn [length]; lia). reflexivity.
Qed.
Lemma p_sep_sound s l : p_sep p s = Some l -> Forall wf l.
Proof.
  unfold p_sep. generalize (S (length s)). intro f. revert s l; induction f as [|f IH]; intros s l H; [discriminate|].
  cbn [p_sep_f] in H. destruct s as [|c s]; [inv H; constructor|].
  destruct (p (c :: s)) as [[a r]|] eqn:E; [|discriminate]. apply Hp in E as (_ & Hwf & _).
  destruct (skip is_ows r) as [|d r1]; [inv H; repeat constructor; assumption|].
  destruct (d =? cComma); [|discriminate]. destruct (skip is_ows r1) as [|d2 r2]; [discriminate|].
  destruct (p_sep_f p f (d2 :: r2)) eqn:E2; [|discriminate]. inv H. constructor; [assumption|]. eapply IH; eassumption.
Qed.
Lemma p_sep_f_app f g s l1 (w s2 : str) : (length s2 < g)%nat -> p_sep_f p f s = Some l1 -> s <> [] -> forallb is_ows w = true ->
  skip is_ows s2 = s2 -> s2 <> [] ->
  p_sep_f p (f + g) (s ++ cComma :: w ++ s2) =
    match p_sep p s2 with Some l2 => Some (l1 ++ l2) | None => None end.
Proof.
  intro Hg. revert s l1; induction f as [|f IH]; intros s l1 H Hs Hw Hs2 Hne; [discriminate|].
  cbn [p_sep_f Nat.add] in *. destruct s as [|c s]; [congruence|].
  destruct (p (c :: s)) as [[a r]|] eqn:E; [|discriminate]. apply Hp in E as (_ & _ & E).
  cbn [app]. change (c :: s ++ cComma :: w ++ s2) with ((c :: s) ++ cComma :: w ++ s2).
  rewrite E by reflexivity. cbn match.
  destruct (skip is_ows r) as [|d r1] eqn:Er.
  - inv H. rewrite skip_empty_app by assumption. rewrite (skip_id is_ows (cComma :: w ++ s2)) by reflexivity.
    change (cComma =? cComma) with true. cbn iota. rewrite skip_app, Hs2 by assumption.
    destruct s2 as [|d s2]; [congruence|].
    unfold p_sep. rewrite (p_sep_fuel (f + g) (S (length (d :: s2))) (d :: s2)) by lia.
    destruct (p_sep_f p (S (length (d :: s2))) (d :: s2)); reflexivity.
  - rewrite skip_nonempty_app by (rewrite Er; discriminate). rewrite Er. cbn [app].
    destruct (d =? cComma); [|discriminate].
    destruct (skip is_ows r1) as [|d2 r2] eqn:Er1; [discriminate|].
    rewrite skip_nonempty_app by (rewrite Er1; discriminate). rewrite Er1. cbn [app].
    destruct (p_sep_f p f (d2 :: r2)) as [l|] eqn:E2; [|discriminate]. inv H.
    change (d2 :: r2 ++ cComma :: w ++ s2) with ((d2 :: r2) ++ cComma :: w ++ s2).
    rewrite (IH _ _ E2) by (try assumption; discriminate).
    destruct (p_sep p s2); reflexivity.
Qed.
Lemma p_sep_app s l1 (w s2 : str) : p_sep p s = Some l1 -> s <> [] -> forallb is_ows w = true ->
  skip is_ows s2 = s2 -> s2 <> [] ->
  p_sep p (s ++ cComma :: w ++ s2) = match p_sep p s2 with Some l2 => Some (l1 ++ l2) | None => None end.
Proof.
  intros H H1 H2 H3 H4. unfold p_sep at 1.
  rewrite <- (p_sep_f_app (S (length s)) (S (length w + length s2)) s l1 w s2 ltac:(lia) H H1 H2 H3 H4).
  apply p_sep_fuel; [lia|]. rewrite app_length; cbn [length]; rewrite app_length. lia.
Qed.
Lemma p_sep_one s a : p s = Some (a, []) -> p_sep p s = Some [a].
Proof.
  intro H. unfold p_sep. cbn [p_sep_f]. destruct s as [|c s].
  - apply Hp in H as ((u & Hu & Hu0) & _). destruct u; [congruence|discriminate].
  - rewrite H. reflexivity.
Qed.
End Sep.
