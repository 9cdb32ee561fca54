(** The parser of Sfv.v accepts exactly the grammar of SpecGrammar.v. *)
From Coq Require Import ZifyBool ZifyNat ZifyN.
From Verif Require Import Base BaseFacts Utf8 Utf8Facts Base64 Base64Facts Sfv SfvFacts SfvRound SpecSfv SpecSfvProofs SpecGrammar.
Ltac Zify.zify_post_hook ::= Z.div_mod_to_equations.

(** ** numbers *)
Lemma dval_number s : forall acc, dval acc s = acc * 10 ^ N.of_nat (length s) + number s.
Proof.
  induction s as [|c s IH]; intro acc; cbn [dval number length].
  - change (10 ^ N.of_nat 0) with 1. lia.
  - rewrite IH, Nnat.Nat2N.inj_succ, N.pow_succ_r'. lia.
Qed.
Lemma number_dval s : number s = dval 0 s.
Proof. rewrite dval_number. lia. Qed.
Lemma digit_spec s : forallb is_digit s = true <-> Forall digit s.
Proof. apply Forall_forallb. intro c. unfold is_digit, digit. lia. Qed.
Lemma frac_value fs : digits 1 3 fs -> number fs * 10 ^ N.of_nat (3 - length fs) =
  match fs with
  | [a] => 100 * (a - 48)
  | [a; b] => 100 * (a - 48) + 10 * (b - 48)
  | [a; b; c] => 100 * (a - 48) + 10 * (b - 48) + (c - 48)
  | _ => 0
  end.
Proof.
  intros [Hl _]. destruct fs as [|a [|b [|c [|d fs]]]]; cbn [length] in Hl; try lia; rewrite number_dval; cbn [dval length].
  - change (N.of_nat (3 - 1)) with 2. change (10 ^ 2) with 100. lia.
  - change (N.of_nat (3 - 2)) with 1. change (10 ^ 1) with 10. lia.
  - change (N.of_nat (3 - 3)) with 0. change (10 ^ 0) with 1. lia.
Qed.
(** a number without sign *)
Definition abs_text (neg : bool) (b : bare) (t : str) : Prop :=
  (exists ds, digits 1 15 ds /\ t = ds /\ b = BInt (signed neg (number ds)))
  \/ (exists ds fs, digits 1 12 ds /\ digits 1 3 fs /\ t = ds ++ lit "." ++ fs
        /\ b = BDec (signed neg (number ds * 1000 + number fs * 10 ^ N.of_nat (3 - length fs)))).
Lemma p_num_abs_text neg s b r : p_num_abs neg s = Some (b, r) -> exists t, s = t ++ r /\ abs_text neg b t.
Proof.
  intro H. unfold p_num_abs in H. destruct (span is_digit s) as [ds x] eqn:E.
  apply span_spec in E as (-> & H1 & H2). apply digit_spec in H1.
  destruct (Nat.eqb (length ds) 0 || Nat.ltb 15 (length ds)) eqn:E0; [discriminate|].
  assert (Hd : digits 1 15 ds) by (split; [lia|assumption]).
  assert (Hint : forall r, Some (BInt (signed neg (dval 0 ds)), x) = Some (b, r) -> exists t, ds ++ x = t ++ r /\ abs_text neg b t).
  { intros r' H'. pinv H'. exists ds. split; [reflexivity|]. left. exists ds. rewrite number_dval. auto. }
  destruct x as [|c x]; [apply Hint; exact H|].
  destruct (c =? cDot) eqn:Ec; [|apply Hint; exact H]. apply N.eqb_eq in Ec. subst c. clear Hint.
  destruct (Nat.ltb 12 (length ds)) eqn:El; [discriminate|].
  assert (Hd2 : digits 1 12 ds) by (split; [destruct Hd; lia|assumption]).
  destruct (span is_digit x) as [fs y] eqn:Ef. apply span_spec in Ef as (-> & Hf & _). apply digit_spec in Hf.
  assert (Hfs : forall z, digits 1 3 fs -> z = number ds * 1000 + number fs * 10 ^ N.of_nat (3 - length fs) ->
    exists t, ds ++ cDot :: fs ++ y = t ++ y /\ abs_text neg (BDec (signed neg z)) t).
  { intros z H3 ->. exists (ds ++ lit "." ++ fs). split; [rewrite <- !app_assoc; reflexivity|]. right. exists ds, fs. auto. }
  destruct fs as [|f1 [|f2 [|f3 [|f4 fs]]]]; try discriminate; pinv H; apply Hfs; try (split; [cbn [length]; lia|assumption]);
    rewrite frac_value by (split; [cbn [length]; lia|assumption]); rewrite number_dval; lia.
Qed.
Lemma abs_text_p neg b t : abs_text neg b t -> p_num_abs neg t = Some (b, []).
Proof.
  intros [(ds & [Hl Hd] & -> & ->)|(ds & fs & [Hl Hd] & Hf & -> & ->)]; unfold p_num_abs.
  - apply digit_spec in Hd. rewrite <- (app_nil_r ds) at 1. rewrite span_app; [|assumption|exact I].
    destruct (Nat.eqb (length ds) 0 || Nat.ltb 15 (length ds)) eqn:E0; [lia|]. rewrite number_dval. reflexivity.
  - apply digit_spec in Hd. change (lit "." ++ fs) with (cDot :: fs). rewrite span_app; [|assumption|reflexivity].
    destruct (Nat.eqb (length ds) 0 || Nat.ltb 15 (length ds)) eqn:E0; [lia|]. change (cDot =? cDot) with true. cbn iota.
    destruct (Nat.ltb 12 (length ds)) eqn:El; [lia|].
    pose proof (frac_value fs Hf) as Hv. destruct Hf as [Hfl Hf]. pose proof Hf as Hf'. apply digit_spec in Hf'.
    rewrite <- (app_nil_r fs) at 1. rewrite span_app; [|assumption|exact I]. rewrite Hv, number_dval.
    destruct fs as [|f1 [|f2 [|f3 [|f4 fs]]]]; cbn [length] in Hfl; try lia; do 4 f_equal; lia.
Qed.

Lemma cons_inj {A} (x y : A) a b : x :: a = y :: b -> x = y /\ a = b.
Proof. intro H. injection H. auto. Qed.
Definition num_text (b : bare) (t : str) : Prop :=
  match b with BInt z => integer_text z t | BDec z => decimal_text z t | _ => False end.
Lemma abs_sign_text b t : num_text b t <-> abs_text false b t \/ exists u, t = lit "-" ++ u /\ abs_text true b u.
Proof.
  unfold num_text, abs_text, integer_text, decimal_text. split.
  - destruct b as [z|z| | | | | |]; try contradiction.
    + intros (ds & Hd & Hs). destruct Hs; [left; left|right; exists ds; split; [reflexivity|]; left]; exists ds; auto.
    + intros (ds & fs & Hd & Hf & Hs). destruct Hs; [left; right|right; exists (ds ++ lit "." ++ fs); split; [reflexivity|]; right]; exists ds, fs; auto.
  - intros [[(ds & Hd & -> & ->)|(ds & fs & Hd & Hf & -> & ->)]|(u & -> & [(ds & Hd & -> & ->)|(ds & fs & Hd & Hf & -> & ->)])]; cbn [signed].
    + exists ds. split; [assumption|constructor].
    + exists ds, fs. split; [assumption|]. split; [assumption|constructor].
    + exists ds. split; [assumption|constructor].
    + exists ds, fs. split; [assumption|]. split; [assumption|constructor].
Qed.
Lemma abs_text_head neg b t : abs_text neg b t -> match t with c :: _ => is_digit c = true | [] => False end.
Proof.
  intros [(ds & [Hl Hd] & -> & ->)|(ds & fs & [Hl Hd] & Hf & -> & ->)]; apply digit_spec in Hd;
    (destruct ds as [|c ds]; [cbn [length] in Hl; lia|]); cbn [app forallb] in *; bb; assumption.
Qed.
Lemma p_num_text s b r : p_num s = Some (b, r) -> exists t, s = t ++ r /\ num_text b t.
Proof.
  unfold p_num. destruct s as [|c s]; [discriminate|]. destruct (c =? cMinus) eqn:E; intro H; apply p_num_abs_text in H as (t & Hs & Ht).
  - apply N.eqb_eq in E. subst c s. exists (lit "-" ++ t). split; [reflexivity|]. apply abs_sign_text. right. exists t. auto.
  - exists t. split; [assumption|]. apply abs_sign_text. left. assumption.
Qed.
Lemma num_text_p b t : num_text b t -> p_num t = Some (b, []).
Proof.
  intro H. apply abs_sign_text in H as [H|(u & -> & H)]; unfold p_num.
  - pose proof (abs_text_head _ _ _ H) as Hh. destruct t as [|c t]; [contradiction|]. destruct (c =? cMinus) eqn:E; [chars|]. exact (abs_text_p _ _ _ H).
  - exact (abs_text_p _ _ _ H).
Qed.
Lemma num_text_head b t : num_text b t -> match t with c :: _ => (c =? cMinus) || is_digit c = true | [] => False end.
Proof.
  intro H. apply abs_sign_text in H as [H|(u & -> & H)]; [|reflexivity].
  apply abs_text_head in H. destruct t; [assumption|]. rewrite H. apply orb_true_r.
Qed.

(** ** strings *)
Lemma p_str_text s : forall a r, p_str s = Some (a, r) -> exists t, s = t ++ cQuote :: r /\ chars_text a t.
Proof.
  induction s as [s IH] using len_ind; intros a r H. destruct s as [|c s]; [discriminate|]. rewrite p_str_unfold in H.
  destruct (c =? cBack) eqn:E1.
  - destruct s as [|d s]; [discriminate|]. destruct ((d =? cQuote) || (d =? cBack)) eqn:Ed; [|discriminate].
    destruct (p_str s) as [[a' b']|] eqn:E; [|discriminate]. pinv H. apply IH in E as (t & -> & Ht); [|cbn [length]; lia].
    apply N.eqb_eq in E1. subst c. exists (92 :: d :: t). split; [reflexivity|]. apply ct_escaped; [unfold cQuote, cBack in *; lia|assumption].
  - destruct (c =? cQuote) eqn:E2.
    + apply N.eqb_eq in E2. subst c. injection H as <- <-. exists []. split; [reflexivity|constructor].
    + destruct (is_print c) eqn:E3; [|discriminate]. destruct (p_str s) as [[a' b']|] eqn:E; [|discriminate]. pinv H.
      apply IH in E as (t & -> & Ht); [|cbn [length]; lia]. exists (c :: t). split; [reflexivity|].
      unfold is_print, cQuote, cBack in *. apply ct_plain; [unfold printable; lia|lia|lia|assumption].
Qed.
Lemma chars_text_p a t r : chars_text a t -> p_str (t ++ cQuote :: r) = Some (a, r).
Proof.
  induction 1 as [|c s t Hc H1 H2 Ht IH|c s t Hc Ht IH]; [reflexivity| |]; cbn [app]; rewrite p_str_unfold.
  - destruct (c =? cBack) eqn:F1; [unfold cBack in *; lia|]. destruct (c =? cQuote) eqn:F2; [unfold cQuote in *; lia|].
    destruct (is_print c) eqn:F3; [|unfold is_print, printable in *; lia]. rewrite IH. reflexivity.
  - change (92 =? cBack) with true. cbn iota. destruct ((c =? cQuote) || (c =? cBack)) eqn:F; [rewrite IH; reflexivity|].
    unfold cQuote, cBack in *. lia.
Qed.

(** ** byte sequences *)
Lemma b64_digit_spec v c : b64_digit v c <-> b64_val c = Some v.
Proof.
  unfold b64_digit. split.
  - intro H. assert (Hv : v < 64).
    { assert (N.to_nat v < length b64_alphabet)%nat by (apply nth_error_Some; congruence). change (length b64_alphabet) with 64%nat in *. lia. }
    apply (nth_error_nth _ _ 0) in H. rewrite <- b64_char_spec in H by assumption. subst c. apply b64_val_char. assumption.
  - intro H. apply b64_val_lt in H as [Hv <-]. rewrite b64_char_spec by assumption.
    apply nth_error_nth'. change (length b64_alphabet) with 64%nat. lia.
Qed.
Lemma b64_val_noeq c v : b64_val c = Some v -> (c =? cEq) = false.
Proof. intro H. apply b64_val_lt in H as [Hv <-]. apply b64_char_noeq. assumption. Qed.
Lemma b64_val_nocolon c v : b64_val c = Some v -> c <> cColon.
Proof. intro H. apply b64_val_lt in H as [Hv <-]. pose proof (b64_char_alpha v Hv). unfold b64_alpha, cColon in *. lia. Qed.
Lemma fin2_text a b x pad : b64_fin2 true a b = Some x -> In pad [[]; lit "="; lit "=="] -> bytes_text x (a :: b :: pad).
Proof.
  unfold b64_fin2. destruct (b64_val a) as [u|] eqn:Ea; [|discriminate]. destruct (b64_val b) as [v|] eqn:Eb; [|discriminate]. cbn [orb]. intros H Hp.
  injection H as <-. replace (u * 4 + v / 16) with ((64 * u + v) / 16) by lia. apply by_one; [apply b64_digit_spec; assumption|apply b64_digit_spec; assumption|assumption].
Qed.
Lemma fin3_text a b c x pad : b64_fin3 true a b c = Some x -> In pad [[]; lit "="] -> bytes_text x (a :: b :: c :: pad).
Proof.
  unfold b64_fin3. destruct (b64_val a) as [u|] eqn:Ea; [|discriminate]. destruct (b64_val b) as [v|] eqn:Eb; [|discriminate].
  destruct (b64_val c) as [w|] eqn:Ec; [|discriminate]. cbn [orb]. intros H Hp.
  injection H as <-. pose proof (proj1 (b64_val_lt _ _ Ea)). pose proof (proj1 (b64_val_lt _ _ Eb)). pose proof (proj1 (b64_val_lt _ _ Ec)).
  replace (u * 4 + v / 16) with ((4096 * u + 64 * v + w) / 1024) by lia.
  replace (v mod 16 * 16 + w / 4) with ((4096 * u + 64 * v + w) / 4 mod 256) by lia.
  apply by_two; try (apply b64_digit_spec; assumption). assumption.
Qed.
Lemma decode_text s : forall x, b64_decode true s = Some x -> bytes_text x s.
Proof.
  induction s as [|a|a b|a b c|a b c d r IH] using four_ind; intros x H; cbn [b64_decode] in H.
  - injection H as <-. constructor.
  - discriminate.
  - apply fin2_text; [assumption|left; reflexivity].
  - destruct (c =? cEq) eqn:Ec; [apply N.eqb_eq in Ec; subst c; apply fin2_text; [assumption|right; left; reflexivity]|].
    apply fin3_text; [assumption|left; reflexivity].
  - destruct (d =? cEq) eqn:Ed.
    + apply N.eqb_eq in Ed. subst d. destruct r; [|discriminate].
      destruct (c =? cEq) eqn:Ec; [apply N.eqb_eq in Ec; subst c; apply fin2_text; [assumption|right; right; left; reflexivity]|].
      apply fin3_text; [assumption|right; left; reflexivity].
    + destruct (b64_val a) as [u|] eqn:Va; [|discriminate]. destruct (b64_val b) as [v|] eqn:Vb; [|discriminate].
      destruct (b64_val c) as [w|] eqn:Vc; [|discriminate]. destruct (b64_val d) as [q|] eqn:Vd; [|discriminate].
      destruct (b64_decode true r) as [t|]; [|discriminate]. injection H as <-.
      pose proof (proj1 (b64_val_lt _ _ Va)). pose proof (proj1 (b64_val_lt _ _ Vb)). pose proof (proj1 (b64_val_lt _ _ Vc)). pose proof (proj1 (b64_val_lt _ _ Vd)).
      apply (by_three _ _ _ u v w q); try (apply b64_digit_spec; assumption); try (unfold octet; lia). apply IH. reflexivity.
Qed.
Lemma text_decode x s : bytes_text x s -> b64_decode true s = Some x.
Proof.
  induction 1 as [|u v a b pad Ha Hb Hp|u v w a b c pad Ha Hb Hc Hp|x y z u v w q a b c d r t Ha Hb Hc Hd E Hy Hz Ht IH]; [reflexivity| | |].
  - apply b64_digit_spec in Ha, Hb. pose proof (proj1 (b64_val_lt _ _ Ha)). pose proof (proj1 (b64_val_lt _ _ Hb)).
    assert (Hf : b64_fin2 true a b = Some [(64 * u + v) / 16]) by (unfold b64_fin2; rewrite Ha, Hb; cbn [orb]; do 2 f_equal; lia).
    destruct Hp as [<-|[<-|[<-|[]]]]; exact Hf.
  - apply b64_digit_spec in Ha, Hb, Hc. pose proof (proj1 (b64_val_lt _ _ Ha)). pose proof (proj1 (b64_val_lt _ _ Hb)). pose proof (proj1 (b64_val_lt _ _ Hc)).
    assert (Hf : b64_fin3 true a b c = Some [(4096 * u + 64 * v + w) / 1024; (4096 * u + 64 * v + w) / 4 mod 256]).
    { unfold b64_fin3. rewrite Ha, Hb, Hc. cbn [orb]. f_equal. f_equal; [lia|]. f_equal. lia. }
    pose proof (b64_val_noeq _ _ Hc) as Hn.
    destruct Hp as [<-|[<-|[]]]; [change (b64_decode true [a; b; c]) with (if c =? cEq then b64_fin2 true a b else b64_fin3 true a b c)
      |change (b64_decode true (a :: b :: c :: lit "=")) with (if c =? cEq then b64_fin2 true a b else b64_fin3 true a b c)]; rewrite Hn; exact Hf.
  - apply b64_digit_spec in Ha, Hb, Hc, Hd. pose proof (proj1 (b64_val_lt _ _ Ha)). pose proof (proj1 (b64_val_lt _ _ Hb)). pose proof (proj1 (b64_val_lt _ _ Hc)).
    pose proof (proj1 (b64_val_lt _ _ Hd)). cbn [b64_decode]. rewrite (b64_val_noeq _ _ Hd), Ha, Hb, Hc, Hd, IH. unfold octet in *.
    f_equal. f_equal; [lia|]. f_equal; [lia|]. f_equal. lia.
Qed.
Lemma bytes_text_nocolon x s : bytes_text x s -> contains cColon s = false.
Proof.
  intro H. apply contains_false. induction H as [|u v a b pad Ha Hb Hp|u v w a b c pad Ha Hb Hc Hp|x y z u v w q a b c d r t Ha Hb Hc Hd E Hy Hz Ht IH].
  - intros [].
  - apply b64_digit_spec, b64_val_nocolon in Ha, Hb. intros [H|[H|H]]; [congruence|congruence|].
    destruct Hp as [<-|[<-|[<-|[]]]]; apply contains_In in H; discriminate H.
  - apply b64_digit_spec, b64_val_nocolon in Ha, Hb, Hc. intros [H|[H|[H|H]]]; [congruence|congruence|congruence|].
    destruct Hp as [<-|[<-|[]]]; apply contains_In in H; discriminate H.
  - apply b64_digit_spec, b64_val_nocolon in Ha, Hb, Hc, Hd. intros [H|[H|[H|[H|H]]]]; congruence || contradiction.
Qed.

(** ** display strings *)
Lemma hex_spec x a : nth_error hex_digits (N.to_nat x) = Some a <-> hex_val a = Some x.
Proof.
  split.
  - intro H. assert (Hv : x < 16).
    { assert (N.to_nat x < length hex_digits)%nat by (apply nth_error_Some; congruence). change (length hex_digits) with 16%nat in *. lia. }
    assert (Hs : forallb (fun n => match hex_val (nth (N.to_nat n) hex_digits 0) with Some m => m =? n | None => false end) (map N.of_nat (seq 0 16)) = true)
      by (vm_compute; reflexivity).
    rewrite forallb_forall in Hs. specialize (Hs x). apply (nth_error_nth _ _ 0) in H. rewrite H in Hs.
    assert (Hi : In x (map N.of_nat (seq 0 16))) by (apply in_map_iff; exists (N.to_nat x); split; [lia|apply in_seq; lia]).
    specialize (Hs Hi). destruct (hex_val a); [|discriminate]. apply N.eqb_eq in Hs. congruence.
  - intro H. assert (Hs : forallb (fun c => match hex_val c with Some m => nth (N.to_nat m) hex_digits 0 =? c | None => true end) (map N.of_nat (seq 0 128)) = true)
      by (vm_compute; reflexivity).
    rewrite forallb_forall in Hs. assert (Ha : a < 128) by (unfold hex_val, is_digit in H; repeat destr_in H; inv H; lia).
    assert (Hi : In a (map N.of_nat (seq 0 128))) by (apply in_map_iff; exists (N.to_nat a); split; [lia|apply in_seq; lia]).
    specialize (Hs a Hi). cbn beta in Hs. rewrite H in Hs. apply N.eqb_eq in Hs. rewrite <- Hs. apply nth_error_nth'.
    apply hex_val_lt in H. change (length hex_digits) with 16%nat. lia.
Qed.
Lemma p_disp_text s : forall a r, p_disp s = Some (a, r) -> exists t, s = t ++ cQuote :: r /\ disp_text a t.
Proof.
  induction s as [s IH] using len_ind; intros a r H. destruct s as [|c s]; [discriminate|]. rewrite p_disp_unfold in H.
  destruct (c =? cPct) eqn:E1.
  - destruct s as [|h [|l s]]; try discriminate. destruct (hex_val h) as [x|] eqn:Eh; [|discriminate].
    destruct (hex_val l) as [y|] eqn:El; [|discriminate]. destruct (p_disp s) as [[a' b']|] eqn:E; [|discriminate]. pinv H.
    apply IH in E as (t & -> & Ht); [|cbn [length]; lia]. apply N.eqb_eq in E1. subst c. exists (37 :: h :: l :: t). split; [reflexivity|].
    apply di_hex; [apply hex_spec; assumption|apply hex_spec; assumption|assumption].
  - destruct (c =? cQuote) eqn:E2.
    + apply N.eqb_eq in E2. subst c. injection H as <- <-. exists []. split; [reflexivity|constructor].
    + destruct (is_print c) eqn:E3; [|discriminate]. destruct (p_disp s) as [[a' b']|] eqn:E; [|discriminate]. pinv H.
      apply IH in E as (t & -> & Ht); [|cbn [length]; lia]. exists (c :: t). split; [reflexivity|].
      unfold is_print, cQuote, cPct in *. apply di_plain; [unfold printable; lia|lia|lia|assumption].
Qed.
Lemma disp_text_p a t r : disp_text a t -> p_disp (t ++ cQuote :: r) = Some (a, r).
Proof.
  induction 1 as [|c s t Hc H1 H2 Ht IH|x y a b s t Ha Hb Ht IH]; [reflexivity| |]; cbn [app]; rewrite p_disp_unfold.
  - destruct (c =? cPct) eqn:F1; [unfold cPct in *; lia|]. destruct (c =? cQuote) eqn:F2; [unfold cQuote in *; lia|].
    destruct (is_print c) eqn:F3; [|unfold is_print, printable in *; lia]. rewrite IH. reflexivity.
  - change (37 =? cPct) with true. cbn iota. apply hex_spec in Ha, Hb. rewrite Ha, Hb, IH. reflexivity.
Qed.

(** ** bare items *)
Lemma p_bare_text s b r : p_bare s = Some (b, r) -> exists t, s = t ++ r /\ bare_text b t.
Proof.
  destruct s as [|c s]; [discriminate|]. cbn [p_bare]. intro H.
  destruct ((c =? cMinus) || is_digit c).
  { apply p_num_text in H as (t & -> & Ht). exists t. split; [reflexivity|]. destruct b; try contradiction; [apply ba_int|apply ba_dec]; exact Ht. }
  destruct (c =? cQuote) eqn:Eq.
  { apply N.eqb_eq in Eq. subst c. destruct (p_str s) as [[x y]|] eqn:E; [|discriminate]. pinv H. apply p_str_text in E as (t & -> & Ht).
    exists (lit """" ++ t ++ lit """"). split; [|apply ba_str; assumption]. rewrite <- !app_assoc. reflexivity. }
  destruct (is_tok_start c) eqn:Et.
  { destruct (span is_tok_char (c :: s)) as [x y] eqn:E. pinv H. apply span_spec in E as (E & H2 & H3). exists x. split; [assumption|]. apply ba_tok. apply token_text_spec.
    split; [|assumption]. destruct x as [|d x]; cbn [app] in E.
    - subst y. cbn [headn] in H3. chars.
    - inv E. assumption. }
  destruct (c =? cColon) eqn:Eco.
  { apply N.eqb_eq in Eco. subst c. unfold p_bytes in H. destruct (split_once cColon s) as [[x y]|] eqn:E; [|discriminate]. apply split_once_some in E as [-> _].
    destruct (b64_decode true x) as [v|] eqn:Ed; [|discriminate]. pinv H. exists (lit ":" ++ x ++ lit ":"). split; [rewrite <- !app_assoc; reflexivity|].
    apply ba_bytes. apply decode_text. assumption. }
  destruct (c =? cQM) eqn:Em.
  { apply N.eqb_eq in Em. subst c. destruct s as [|d s]; [discriminate|]. destruct (d =? 49) eqn:E1.
    - apply N.eqb_eq in E1. subst d. pinv H. exists (lit "?1"). split; [reflexivity|constructor].
    - destruct (d =? 48) eqn:E2; [|discriminate]. apply N.eqb_eq in E2. subst d. pinv H. exists (lit "?0"). split; [reflexivity|constructor]. }
  destruct (c =? cAt) eqn:Ea.
  { apply N.eqb_eq in Ea. subst c. destruct (p_num s) as [[[] y]|] eqn:E; try discriminate. pinv H. apply p_num_text in E as (t & -> & Ht).
    exists (lit "@" ++ t). split; [reflexivity|]. apply ba_date. exact Ht. }
  destruct (c =? cPct) eqn:Ep; [|discriminate]. apply N.eqb_eq in Ep. subst c.
  destruct s as [|d s]; [discriminate|]. destruct (d =? cQuote) eqn:Eq2; [|discriminate]. apply N.eqb_eq in Eq2. subst d.
  destruct (p_disp s) as [[x y]|] eqn:E; [|discriminate]. destruct (utf8_valid x) eqn:Ev; [|discriminate]. pinv H.
  pose proof (p_disp_facts _ _ _ E) as (_ & Hb & _). apply p_disp_text in E as (t & -> & Ht).
  exists (lit "%""" ++ t ++ lit """"). split; [rewrite <- !app_assoc; reflexivity|]. apply ba_disp; [assumption|]. apply utf8_text_spec. auto.
Qed.
Lemma bare_text_p b t : bare_text b t -> p_bare t = Some (b, []).
Proof.
  destruct 1 as [z t H|z t H|s t H|t H|b t H| | |z t H|b t H Hu].
  - pose proof (num_text_head (BInt z) t H) as Hh. apply (num_text_p (BInt z)) in H. destruct t as [|c t]; [contradiction|]. cbn [p_bare]. rewrite Hh. exact H.
  - pose proof (num_text_head (BDec z) t H) as Hh. apply (num_text_p (BDec z)) in H. destruct t as [|c t]; [contradiction|]. cbn [p_bare]. rewrite Hh. exact H.
  - change (p_bare (lit """" ++ t ++ lit """")) with (match p_str (t ++ [cQuote]) with Some (a, b) => Some (BStr a, b) | None => None end).
    rewrite (chars_text_p s t [] H). reflexivity.
  - apply token_text_spec in H as [H1 H2]. destruct t as [|c t]; [contradiction|]. cbn [p_bare].
    destruct ((c =? cMinus) || is_digit c) eqn:F1; [chars|]. destruct (c =? cQuote) eqn:F2; [chars|]. rewrite H1.
    rewrite <- (app_nil_r (c :: t)) at 1. rewrite span_app; [reflexivity|assumption|exact I].
  - change (p_bare (lit ":" ++ t ++ lit ":")) with (p_bytes (t ++ [cColon])). unfold p_bytes. pose proof (bytes_text_nocolon _ _ H) as Hn.
    replace (split_once cColon (t ++ [cColon])) with (Some (t, @nil N)) by (symmetry; apply split_once_some; auto).
    rewrite (text_decode _ _ H). reflexivity.
  - reflexivity.
  - reflexivity.
  - change (p_bare (lit "@" ++ t)) with (match p_num t with Some (BInt z, r') => Some (BDate z, r') | _ => None end).
    apply (num_text_p (BInt z)) in H. rewrite H. reflexivity.
  - change (p_bare (lit "%""" ++ t ++ lit """")) with
      (match p_disp (t ++ [cQuote]) with Some (a, b) => if utf8_valid a then Some (BDisp a, b) else None | None => None end).
    rewrite (disp_text_p b t [] H). apply utf8_text_spec in Hu as [_ ->]. reflexivity.
Qed.

(** ** maps *)
Lemma assoc_eq {V} (a b : list (str * V)) : map fst a = map fst b -> NoDup (map fst b) -> (forall k v, In (k, v) a -> In (k, v) b) -> a = b.
Proof.
  revert b; induction a as [|[k v] a IH]; intros [|[k' w] b] Hk Hn Hi; try discriminate; [reflexivity|].
  cbn [map fst] in *. apply cons_inj in Hk as [-> Hk]. apply NoDup_cons_iff in Hn as [Hn1 Hn2].
  assert (Ev : w = v). { destruct (Hi k' v ltac:(left; reflexivity)) as [E|E]; [congruence|]. exfalso. apply Hn1. apply (in_map fst) in E. exact E. }
  subst w. f_equal. apply IH; [assumption|assumption|]. intros k w H. destruct (Hi k w ltac:(right; assumption)) as [E|E]; [|assumption].
  exfalso. apply Hn1. rewrite <- Hk. apply (in_map fst) in H. cbn [fst] in H. congruence.
Qed.
Lemma map_of_spec {V} (l m : list (str * V)) : map_of l m <-> m = im_of_list l.
Proof.
  split.
  - intros [Hk Hv]. apply assoc_eq; [rewrite im_of_list_keys; assumption|apply im_of_list_nodup|].
    intros k v H. apply Hv in H. rewrite <- im_get_of_list in H. apply im_get_In. assumption.
  - intros ->. split; [apply im_of_list_keys|]. intros k v. rewrite <- im_get_of_list. split.
    + intro H. apply im_get_nodup; [apply im_of_list_nodup|assumption].
    + apply im_get_In.
Qed.

(** ** parameters *)
Lemma spaces_spec w : spaces w <-> forallb is_sp w = true.
Proof. symmetry. apply Forall_forallb. intro c. unfold is_sp, cSP. apply N.eqb_eq. Qed.
Lemma blanks_spec w : blanks w <-> forallb is_ows w = true.
Proof. symmetry. apply Forall_forallb. intro c. unfold is_ows, cSP, cTab. lia. Qed.
Lemma p_param1_text s kv r : p_param1 s = Some (kv, r) -> exists u, s = u ++ r /\ param_text kv (lit ";" ++ u).
Proof.
  unfold p_param1. destruct (skip_decomp is_sp s) as (w & Hs & Hw). intro H. apply spaces_spec in Hw.
  destruct (p_key (skip is_sp s)) as [[k r1]|] eqn:E; [|discriminate]. apply p_key_some in E as (E & Hk & _). rewrite E in Hs. clear E. apply key_text_spec in Hk.
  assert (Hflag : Some (k, BBool true, r1) = Some (kv, r) -> exists u, s = u ++ r /\ param_text kv (lit ";" ++ u)).
  { intro H1. pinv H1. exists (w ++ k). split; [rewrite <- app_assoc; assumption|]. apply pa_flag; assumption. }
  destruct r1 as [|d r2]; [apply Hflag; assumption|]. destruct (d =? cEq) eqn:Ed; [|apply Hflag; assumption].
  apply N.eqb_eq in Ed. subst d. destruct (p_bare r2) as [[v r3]|] eqn:E; [|discriminate]. pinv H. apply p_bare_text in E as (t & -> & Ht).
  exists (w ++ k ++ lit "=" ++ t). split; [rewrite Hs, <- !app_assoc; reflexivity|]. apply pa_value; assumption.
Qed.
Lemma param_text_p kv u : param_text kv u -> exists u', u = cSemi :: u' /\ forall t, stopq t -> p_param1 (u' ++ t) = Some (kv, t).
Proof.
  destruct 1 as [w k Hw Hk|w k v x Hw Hk Hx]; apply spaces_spec in Hw; apply key_text_spec in Hk.
  - exists (w ++ k). split; [reflexivity|]. intros t Ht. unfold p_param1. rewrite <- app_assoc, skip_app by assumption. rewrite skip_sp_key by assumption.
    rewrite p_key_round; [|assumption|apply stopb_key, stopq_stopb; assumption]. destruct t as [|d t]; [reflexivity|].
    unfold stopq, headn in Ht. apply orb_false_iff in Ht as [_ ->]. reflexivity.
  - exists (w ++ k ++ lit "=" ++ x). split; [reflexivity|]. intros t Ht. unfold p_param1. rewrite <- !app_assoc, skip_app by assumption. rewrite skip_sp_key by assumption.
    change (lit "=" ++ x ++ t) with (cEq :: x ++ t). rewrite p_key_round; [|assumption|reflexivity]. change (cEq =? cEq) with true. cbn iota.
    apply bare_text_p in Hx. rewrite (p_bare_local _ _ _ t Hx) by (apply stopq_stopb; assumption). reflexivity.
Qed.
Lemma param_texts_stop l ts (P : str -> Prop) t : Forall2 param_text l ts -> P t -> (forall r, P (cSemi :: r)) -> P (concat ts ++ t).
Proof.
  intros H Ht Hs. destruct H as [|kv u l ts Hu H]; [exact Ht|]. apply param_text_p in Hu as (u' & -> & _). apply Hs.
Qed.
Lemma params_text_f l ts : Forall2 param_text l ts -> forall f acc t, (length (concat ts ++ t) < f)%nat -> stopp t ->
  p_params_f f acc (concat ts ++ t) = Some (im_add acc l, t).
Proof.
  induction 1 as [|[k v] u l ts Hu H IH]; intros f acc t Hf Ht; (destruct f as [|f]; [lia|]); rewrite p_params_step.
  - cbn [concat app im_add fold_left]. destruct t as [|c t]; [reflexivity|]. apply stopp_cons in Ht as (Ht & _). rewrite Ht. reflexivity.
  - cbn [concat] in *. rewrite <- app_assoc in *. apply param_text_p in Hu as (u' & -> & Hu). cbn [app] in *. change (cSemi =? cSemi) with true. cbn iota.
    rewrite Hu.
    + rewrite im_add_cons. apply IH; [|assumption]. cbn [length] in Hf. rewrite app_length in Hf. lia.
    + apply (param_texts_stop l ts); [assumption|apply stopp_stopq; assumption|reflexivity].
Qed.
Lemma params_text_p ps u t : parameters_text ps u -> stopp t -> p_params (u ++ t) = Some (ps, t).
Proof.
  intros (l & ts & H & -> & Hm) Ht. apply map_of_spec in Hm. subst ps. unfold p_params. rewrite (params_text_f l ts H); [reflexivity|lia|assumption].
Qed.
Lemma params_text_stop ps u (P : str -> Prop) t : parameters_text ps u -> P t -> (forall r, P (cSemi :: r)) -> P (u ++ t).
Proof. intros (l & ts & H & -> & Hm). apply (param_texts_stop l ts). assumption. Qed.
Lemma p_params_f_text f : forall acc s ps r, p_params_f f acc s = Some (ps, r) ->
  exists l ts, s = concat ts ++ r /\ Forall2 param_text l ts /\ ps = im_add acc l.
Proof.
  induction f as [|f IH]; intros acc s ps r H; [discriminate|]. rewrite p_params_step in H.
  assert (Hend : Some (acc, s) = Some (ps, r) -> exists l ts, s = concat ts ++ r /\ Forall2 param_text l ts /\ ps = im_add acc l).
  { intro H1. pinv H1. exists [], []. repeat split. constructor. }
  destruct s as [|c s]; [apply Hend; assumption|]. destruct (c =? cSemi) eqn:E; [|apply Hend; assumption]. clear Hend.
  apply N.eqb_eq in E. subst c. destruct (p_param1 s) as [[[k v] r1]|] eqn:E; [|discriminate]. apply p_param1_text in E as (u & -> & Hu).
  apply IH in H as (l & ts & -> & Hl & ->). exists ((k, v) :: l), ((lit ";" ++ u) :: ts). split; [|split].
  - cbn [concat]. rewrite <- !app_assoc. reflexivity.
  - constructor; assumption.
  - reflexivity.
Qed.
Lemma p_params_text s ps r : p_params s = Some (ps, r) -> exists u, s = u ++ r /\ parameters_text ps u.
Proof.
  intro H. apply p_params_f_text in H as (l & ts & -> & Hl & ->). exists (concat ts). split; [reflexivity|]. exists l, ts. split; [assumption|]. split; [reflexivity|].
  apply map_of_spec. reflexivity.
Qed.

(** ** items *)
Lemma p_item_text s i r : p_item s = Some (i, r) -> exists u, s = u ++ r /\ item_text i u.
Proof.
  unfold p_item. destruct (p_bare s) as [[b r1]|] eqn:E; [|discriminate]. apply p_bare_text in E as (t1 & -> & H1).
  destruct (p_params r1) as [[ps r2]|] eqn:E; [|discriminate]. apply p_params_text in E as (t2 & -> & H2). intro H. pinv H.
  exists (t1 ++ t2). split; [apply app_assoc|]. exists t1, t2. auto.
Qed.
Lemma item_text_p i u t : item_text i u -> stopp t -> p_item (u ++ t) = Some (i, t).
Proof.
  intros (t1 & t2 & -> & H1 & H2) Ht. unfold p_item. rewrite <- app_assoc. apply bare_text_p in H1. rewrite (p_bare_local _ _ _ (t2 ++ t) H1).
  - cbn [app]. rewrite (params_text_p _ _ _ H2 Ht). destruct i; reflexivity.
  - apply (params_text_stop _ _ stopb _ H2); [apply stopp_stopb; assumption|reflexivity].
Qed.
Lemma p_bare_start s b r : p_bare s = Some (b, r) -> match s with c :: _ => bare_start c = true | [] => False end.
Proof.
  destruct s as [|c s]; [discriminate|]. cbn [p_bare]. intro H. unfold bare_start.
  destruct ((c =? cMinus) || is_digit c) eqn:E1; [chars|]. destruct (c =? cQuote) eqn:E2; [chars|].
  destruct (is_tok_start c) eqn:E3; [chars|]. destruct (c =? cColon) eqn:E4; [chars|]. destruct (c =? cQM) eqn:E5; [chars|].
  destruct (c =? cAt) eqn:E6; [chars|]. destruct (c =? cPct) eqn:E7; [chars|]. discriminate.
Qed.
Lemma item_text_head i u : item_text i u -> exists c r, u = c :: r /\ bare_start c = true.
Proof.
  intros (t1 & t2 & -> & H1 & H2). apply bare_text_p, p_bare_start in H1. destruct t1 as [|c r]; [contradiction|]. exists c, (r ++ t2). auto.
Qed.

(** ** inner lists *)
Definition gap (w : str) : Prop := spaces w /\ w <> [].
Definition items_text (is : list item) (body : str) : Prop :=
  exists ts, Forall2 item_text is ts /\ (ts = [] /\ body = [] \/ separated gap ts body).
Lemma items_text_cases is body : items_text is body ->
  (is = [] /\ body = []) \/ (exists i, is = [i] /\ item_text i body)
  \/ exists i u w is' body', is = i :: is' /\ body = u ++ w ++ body' /\ item_text i u /\ gap w /\ is' <> [] /\ items_text is' body'.
Proof.
  intros (ts & H & [[-> ->]|Hs]); [inversion H; auto|]. destruct Hs as [t|t w ts u Hw Hs].
  - inversion H as [|i ? is' ? Hi Hn]; subst. inversion Hn; subst. right. left. eauto.
  - inversion H as [|i ? is' ? Hi Hn]; subst. right. right. exists i, t, w, is', u. repeat split; try assumption; try apply Hw.
    + intros ->. inversion Hn; subst. inversion Hs.
    + exists ts. auto.
Qed.
Lemma items_text_head is body : items_text is body -> is <> [] -> exists c r, body = c :: r /\ bare_start c = true.
Proof.
  intros H Hn. apply items_text_cases in H as [[-> _]|[(i & -> & Hi)|(i & u & w & is' & body' & -> & -> & Hi & _)]]; [congruence| |].
  - apply item_text_head in Hi. assumption.
  - apply item_text_head in Hi as (c & r & -> & Hc). exists c, (r ++ w ++ body'). auto.
Qed.
Lemma items_text_one i u : item_text i u -> items_text [i] u.
Proof. intro H. exists [u]. split; [constructor; [assumption|constructor]|right; constructor]. Qed.
Lemma items_text_more i u w is body : item_text i u -> gap w -> items_text is body -> is <> [] -> items_text (i :: is) (u ++ w ++ body).
Proof.
  intros Hi Hw (ts & H & Hs) Hn. exists (u :: ts). split; [constructor; assumption|]. right. constructor; [assumption|].
  destruct Hs as [[-> _]|Hs]; [inversion H; subst; congruence|assumption].
Qed.
Lemma items_text_f is : forall body w w2 f t, items_text is body -> spaces w -> spaces w2 -> (length (w ++ body ++ w2 ++ cRPar :: t) < f)%nat ->
  p_inner_f f (w ++ body ++ w2 ++ cRPar :: t) = Some (is, t).
Proof.
  assert (Hnil : forall w w2 f t, spaces w -> spaces w2 -> (0 < f)%nat -> p_inner_f f (w ++ w2 ++ cRPar :: t) = Some ([], t)).
  { intros w w2 f t Hw Hw2 Hf. apply spaces_spec in Hw, Hw2. destruct f as [|f]; [lia|]. cbn [p_inner_f]. rewrite !skip_app by assumption. rewrite skip_id by reflexivity. reflexivity. }
  induction is as [|i is IH]; intros body w w2 f t H Hw Hw2 Hf.
  - apply items_text_cases in H as [[_ ->]|[(i & E & _)|(i & u & x & is' & body' & E & _)]]; try discriminate. apply Hnil; [assumption|assumption|lia].
  - assert (Hcase : exists u rest, body ++ w2 ++ cRPar :: t = u ++ rest /\ item_text i u /\ (exists d r, rest = d :: r /\ (d = cSP \/ d = cRPar))
      /\ forall g, (length rest < g)%nat -> p_inner_f g rest = Some (is, t)).
    { apply items_text_cases in H as [[E _]|[(i' & E & Hi)|(i' & u & x & is' & body' & E & -> & Hi & Hx & Hn & Ht)]]; [discriminate| |].
      - injection E as -> ->. exists body, (w2 ++ cRPar :: t). split; [reflexivity|]. split; [assumption|]. split.
        + destruct Hw2 as [|d w2 ->]; [exists cRPar, t; auto|exists cSP, (w2 ++ cRPar :: t); auto].
        + intros g Hg. apply (Hnil [] w2 g t); [constructor|assumption|lia].
      - injection E as -> ->. exists u, (x ++ body' ++ w2 ++ cRPar :: t). split; [rewrite <- !app_assoc; reflexivity|]. split; [assumption|]. split.
        + destruct Hx as [Hx Hx0]. destruct Hx as [|d x ->]; [congruence|]. exists cSP, (x ++ body' ++ w2 ++ cRPar :: t). auto.
        + intros g Hg. apply IH; [assumption|apply Hx|assumption|assumption]. }
    destruct Hcase as (u & rest & E & Hi & (d & r & Hr & Hd) & Hrest). rewrite E in *. clear E H body.
    apply spaces_spec in Hw. destruct f as [|f]; [lia|]. cbn [p_inner_f]. rewrite skip_app by assumption.
    assert (Hp : p_item (u ++ rest) = Some (i, rest)). { apply item_text_p; [assumption|]. subst rest. destruct Hd as [-> | ->]; reflexivity. }
    apply item_text_head in Hi as (c & v & -> & Hc). apply bare_start_sp in Hc as (Hc1 & _ & Hc2 & _).
    rewrite skip_id by (cbn; assumption). cbn [app] in *. rewrite Hc2, Hp.
    assert (Hlen : (length rest < f)%nat) by (rewrite app_length in Hf; cbn [length] in Hf; rewrite app_length in Hf; lia).
    specialize (Hrest f Hlen). rewrite Hr in *. rewrite Hrest. destruct ((d =? cSP) || (d =? cRPar)) eqn:Ed; [reflexivity|]. destruct Hd as [-> | ->]; discriminate Ed.
Qed.
Lemma p_inner_f_text f : forall s is r, p_inner_f f s = Some (is, r) ->
  exists w1 body w2, s = w1 ++ body ++ w2 ++ cRPar :: r /\ spaces w1 /\ spaces w2 /\ items_text is body.
Proof.
  induction f as [|f IH]; intros s is r H; [discriminate|]. cbn [p_inner_f] in H. destruct (skip_decomp is_sp s) as (w & Hs & Hw). apply spaces_spec in Hw.
  destruct (skip is_sp s) as [|c s1] eqn:E1; [discriminate|]. destruct (c =? cRPar) eqn:Ec.
  - pinv H. apply N.eqb_eq in Ec. subst c. exists w, [], []. split; [assumption|]. split; [assumption|]. split; [constructor|]. exists []. split; [constructor|auto].
  - destruct (p_item (c :: s1)) as [[i r1]|] eqn:E; [|discriminate]. apply p_item_text in E as (u & E & Hi). rewrite E in Hs. clear E.
    destruct r1 as [|d r1]; [discriminate|]. destruct ((d =? cSP) || (d =? cRPar)) eqn:Ed; [|discriminate].
    destruct (p_inner_f f (d :: r1)) as [[is' r2]|] eqn:E; [|discriminate]. pinv H.
    apply IH in E as (x & body & w2 & E & Hx & Hw2 & Hb). rewrite E in Hs.
    destruct is' as [|i2 is'].
    + apply items_text_cases in Hb as [[_ ->]|[(i' & E' & _)|(i' & u' & x' & is'' & body' & E' & _)]]; try discriminate.
      exists w, u, (x ++ w2). split; [rewrite Hs, <- !app_assoc; reflexivity|]. split; [assumption|]. split; [apply Forall_app; auto|]. apply items_text_one. assumption.
    + exists w, (u ++ x ++ body), w2. split; [rewrite Hs, <- !app_assoc; reflexivity|]. split; [assumption|]. split; [assumption|].
      apply items_text_more; [assumption| |assumption|discriminate]. split; [assumption|]. intros ->.
      destruct (items_text_head _ _ Hb ltac:(discriminate)) as (c' & v & -> & Hc'). cbn [app] in E. apply cons_inj in E as [-> _].
      unfold bare_start in Hc'. chars.
Qed.
Lemma inner_text_items l t : inner_text l t <-> exists w1 body w2 pt, t = cLPar :: w1 ++ body ++ w2 ++ cRPar :: pt /\ spaces w1 /\ spaces w2
  /\ items_text (in_items l) body /\ parameters_text (in_params l) pt.
Proof.
  split.
  - intros (w1 & ts & body & w2 & pt & -> & H1 & H2 & H3 & H4 & H5). exists w1, body, w2, pt. split; [reflexivity|]. repeat split; try assumption. exists ts. auto.
  - intros (w1 & body & w2 & pt & -> & H1 & H2 & (ts & H3 & H4) & H5). exists w1, ts, body, w2, pt. split; [reflexivity|]. auto.
Qed.
Lemma p_inner_text s l r : p_inner s = Some (l, r) -> exists u, s = u ++ r /\ inner_text l (cLPar :: u).
Proof.
  unfold p_inner. destruct (p_inner_f (S (length s)) s) as [[is r1]|] eqn:E; [|discriminate]. apply p_inner_f_text in E as (w1 & body & w2 & -> & H1 & H2 & H3).
  destruct (p_params r1) as [[ps r2]|] eqn:E; [|discriminate]. apply p_params_text in E as (pt & -> & H4). intro H. pinv H.
  exists (w1 ++ body ++ w2 ++ cRPar :: pt). split; [rewrite <- !app_assoc; reflexivity|]. apply inner_text_items. exists w1, body, w2, pt. auto.
Qed.
Lemma inner_text_p l u : inner_text l u -> exists u', u = cLPar :: u' /\ forall t, stopp t -> p_inner (u' ++ t) = Some (l, t).
Proof.
  intro H. apply inner_text_items in H as (w1 & body & w2 & pt & -> & H1 & H2 & H3 & H4). exists (w1 ++ body ++ w2 ++ cRPar :: pt). split; [reflexivity|].
  intros t Ht. unfold p_inner. rewrite <- !app_assoc. cbn [app]. rewrite (items_text_f _ _ w1 w2 _ (pt ++ t) H3); [|assumption|assumption|lia].
  rewrite (params_text_p _ _ _ H4 Ht). destruct l; reflexivity.
Qed.

(** ** entries and members *)
Lemma p_entry_text s e r : p_entry s = Some (e, r) -> exists u, s = u ++ r /\ entry_text e u.
Proof.
  unfold p_entry. destruct s as [|c s]; [discriminate|]. destruct (c =? cLPar) eqn:Ec.
  - apply N.eqb_eq in Ec. subst c. destruct (p_inner s) as [[l r1]|] eqn:E; [|discriminate]. intro H. pinv H. apply p_inner_text in E as (u & -> & Hu).
    exists (cLPar :: u). split; [reflexivity|]. constructor. assumption.
  - destruct (p_item (c :: s)) as [[i r1]|] eqn:E; [|discriminate]. intro H. pinv H. apply p_item_text in E as (u & -> & Hu).
    exists u. split; [reflexivity|]. constructor. assumption.
Qed.
Lemma entry_text_p e u t : entry_text e u -> stopp t -> p_entry (u ++ t) = Some (e, t).
Proof.
  destruct 1 as [i u H|l u H]; intro Ht.
  - pose proof (item_text_p _ _ _ H Ht) as Hp. apply item_text_head in H as (c & r & -> & Hc). cbn [app p_entry] in *.
    apply bare_start_sp in Hc as (_ & _ & _ & Hc). rewrite Hc, Hp. reflexivity.
  - apply inner_text_p in H as (u' & -> & H). cbn [app p_entry]. change (cLPar =? cLPar) with true. cbn iota. rewrite (H t Ht). reflexivity.
Qed.
Lemma entry_text_head e u : entry_text e u -> exists c r, u = c :: r /\ is_ows c = false.
Proof.
  destruct 1 as [i u H|l u H].
  - apply item_text_head in H as (c & r & -> & Hc). apply bare_start_sp in Hc as (_ & Hc & _). eauto.
  - apply inner_text_p in H as (u' & -> & _). exists cLPar, u'. auto.
Qed.
Lemma params_text_nil : parameters_text [] [].
Proof. exists [], []. split; [constructor|]. split; [reflexivity|]. apply map_of_spec. reflexivity. Qed.
Lemma p_member_text s kv r : p_member s = Some (kv, r) -> exists u, s = u ++ r /\ member_text kv u.
Proof.
  unfold p_member. destruct (p_key s) as [[k r1]|] eqn:E; [|discriminate]. apply p_key_some in E as (-> & Hk & _). apply key_text_spec in Hk. intro H.
  destruct r1 as [|c r1].
  { pinv H. exists (k ++ []). split; [rewrite !app_nil_r; reflexivity|]. apply me_flag; [assumption|apply params_text_nil]. }
  destruct (c =? cEq) eqn:Ec.
  - apply N.eqb_eq in Ec. subst c. destruct (p_entry r1) as [[e r2]|] eqn:E; [|discriminate]. pinv H. apply p_entry_text in E as (u & -> & Hu).
    exists (k ++ lit "=" ++ u). split; [rewrite <- !app_assoc; reflexivity|]. apply me_value; assumption.
  - destruct (p_params (c :: r1)) as [[ps r2]|] eqn:E; [|discriminate]. pinv H. apply p_params_text in E as (u & -> & Hu).
    exists (k ++ u). split; [rewrite <- !app_assoc; reflexivity|]. apply me_flag; assumption.
Qed.
Lemma member_text_p kv u t : member_text kv u -> stopp t -> p_member (u ++ t) = Some (kv, t).
Proof.
  destruct 1 as [k ps u Hk H|k e u Hk H]; intro Ht; apply key_text_spec in Hk; unfold p_member; rewrite <- !app_assoc.
  - rewrite p_key_round; [|assumption|apply (params_text_stop _ _ (headn is_key_char) _ H); [apply stopb_key, stopp_stopb; assumption|reflexivity]].
    pose proof (params_text_p _ _ _ H Ht) as Hp.
    assert (Hh : headn (fun c => c =? cEq) (u ++ t)).
    { apply (params_text_stop _ _ (headn (fun c => c =? cEq)) _ H); [|reflexivity]. destruct t as [|c t]; [exact I|]. apply stopp_cons in Ht. cbn [headn]. tauto. }
    destruct (u ++ t) as [|c r]; [injection Hp as <- <-; reflexivity|]. cbn [headn] in Hh. rewrite Hh, Hp. reflexivity.
  - change (lit "=" ++ u ++ t) with (cEq :: u ++ t). rewrite p_key_round; [|assumption|reflexivity]. change (cEq =? cEq) with true. cbn iota.
    rewrite (entry_text_p _ _ _ H Ht). reflexivity.
Qed.
Lemma member_text_head kv u : member_text kv u -> exists c r, u = c :: r /\ is_ows c = false.
Proof.
  assert (Hkey : forall k x, key_text k -> exists c r, k ++ x = c :: r /\ is_ows c = false).
  { intros k x Hk. apply key_text_spec in Hk as [Hk _]. destruct k as [|c k]; [contradiction|]. exists c, (k ++ x). split; [reflexivity|]. chars. }
  destruct 1; apply Hkey; assumption.
Qed.

(** ** members separated by commas *)
Section Sep.
Context {A : Type} (p : str -> option (A * str)) (text : A -> str -> Prop).
Hypothesis Hsound : forall s a r, p s = Some (a, r) -> exists u, s = u ++ r /\ text a u.
Hypothesis Hcomp : forall a u t, text a u -> stopp t -> p (u ++ t) = Some (a, t).
Hypothesis Hhead : forall a u, text a u -> exists c r, u = c :: r /\ is_ows c = false.
Definition joined (l : list A) (s : str) : Prop := exists ts t w, s = t ++ w /\ blanks w /\ Forall2 text l ts /\ separated comma ts t.
Lemma joined_one a u w : text a u -> blanks w -> joined [a] (u ++ w).
Proof. intros H Hw. exists [u], u, w. split; [reflexivity|]. split; [assumption|]. split; [constructor; [assumption|constructor]|constructor]. Qed.
Lemma joined_more a u w1 w2 l s : text a u -> blanks w1 -> blanks w2 -> joined l s -> joined (a :: l) (u ++ w1 ++ cComma :: w2 ++ s).
Proof.
  intros H H1 H2 (ts & t & w & -> & Hw & Hl & Ht). exists (u :: ts), (u ++ (w1 ++ lit "," ++ w2) ++ t), w. split; [rewrite <- !app_assoc; reflexivity|]. split; [assumption|].
  split; [constructor; assumption|]. constructor; [|assumption]. exists w1, w2. auto.
Qed.
Lemma joined_cases l s : joined l s -> (exists a u w, l = [a] /\ s = u ++ w /\ text a u /\ blanks w)
  \/ exists a u w1 w2 l' s', l = a :: l' /\ s = u ++ w1 ++ cComma :: w2 ++ s' /\ text a u /\ blanks w1 /\ blanks w2 /\ joined l' s'.
Proof.
  intros (ts & t & w & -> & Hw & Hl & Ht). destruct Ht as [u|u x ts v Hx Ht]; inversion Hl as [|a ? l' ? Ha Hn]; subst.
  - inversion Hn; subst. left. exists a, u, w. auto.
  - destruct Hx as (w1 & w2 & -> & H1 & H2). right. exists a, u, w1, w2, l', (v ++ w). split; [reflexivity|]. split; [rewrite <- !app_assoc; reflexivity|].
    repeat split; try assumption. exists ts, v, w. auto.
Qed.
Lemma joined_head l s : joined l s -> exists c r, s = c :: r /\ is_ows c = false.
Proof.
  intro H. apply joined_cases in H as [(a & u & w & _ & -> & H & _)|(a & u & w1 & w2 & l' & s' & _ & -> & H & _)];
    apply Hhead in H as (c & r & -> & Hc); cbn [app]; eauto.
Qed.
Lemma skip_nil f w : forallb f w = true -> skip f w = [].
Proof. intro H. rewrite <- (app_nil_r w), skip_app by assumption. reflexivity. Qed.
Lemma joined_p l : forall s f, joined l s -> (length s < f)%nat -> p_sep_f p f s = Some l.
Proof.
  induction l as [|a l IH]; intros s f H Hf.
  { apply joined_cases in H as [(a & u & w & E & _)|(a & u & w1 & w2 & l' & s' & E & _)]; discriminate. }
  destruct f as [|f]; [lia|]. pose proof (joined_head _ _ H) as (c & r & Hs & _). cbn [p_sep_f].
  apply joined_cases in H as [(a' & u & w & E & -> & H & Hw)|(a' & u & w1 & w2 & l' & s' & E & -> & H & H1 & H2 & Hj)]; injection E as -> ->.
  - rewrite (Hcomp _ _ w H); [|destruct Hw as [|d w [-> | ->]]; [exact I|reflexivity|reflexivity]]. rewrite Hs. apply blanks_spec in Hw. rewrite skip_nil by assumption. reflexivity.
  - rewrite (Hcomp _ _ _ H); [|destruct H1 as [|d w1 [-> | ->]]; reflexivity]. rewrite Hs. clear Hs.
    assert (Hlen : (length s' < f)%nat) by (rewrite !app_length in Hf; cbn [length] in Hf; rewrite app_length in Hf; lia).
    specialize (IH s' f Hj Hlen). apply joined_head in Hj as (d & v & -> & Hd). apply blanks_spec in H1, H2.
    rewrite skip_app by assumption. rewrite skip_id by reflexivity. change (cComma =? cComma) with true. cbn iota.
    rewrite skip_app by assumption. rewrite skip_id by exact Hd. rewrite IH. reflexivity.
Qed.
Lemma p_joined f : forall s l, p_sep_f p f s = Some l -> s = [] /\ l = [] \/ joined l s.
Proof.
  induction f as [|f IH]; intros s l H; [discriminate|]. cbn [p_sep_f] in H. destruct s as [|c s]; [injection H as <-; auto|]. right.
  destruct (p (c :: s)) as [[a r]|] eqn:E; [|discriminate]. apply Hsound in E as (u & -> & Hu).
  destruct (skip_decomp is_ows r) as (w1 & Hr & H1). apply blanks_spec in H1. destruct (skip is_ows r) as [|d r1].
  - injection H as <-. rewrite app_nil_r in Hr. subst r. apply joined_one; assumption.
  - destruct (d =? cComma) eqn:Ed; [|discriminate]. apply N.eqb_eq in Ed. subst d.
    destruct (skip_decomp is_ows r1) as (w2 & Hr1 & H2). apply blanks_spec in H2. destruct (skip is_ows r1) as [|d r2]; [discriminate|].
    destruct (p_sep_f p f (d :: r2)) as [l'|] eqn:E; [|discriminate]. injection H as <-. apply IH in E as [[E _]|E]; [discriminate|].
    rewrite Hr, Hr1. apply joined_more; assumption.
Qed.
Lemma commas_spec l s : commas text l s <-> p_sep p (skip is_sp s) = Some l.
Proof.
  split.
  - intros [[-> H]|(w1 & ts & t & w2 & -> & H1 & H2 & Hl & Ht)].
    + apply spaces_spec in H. rewrite skip_nil by assumption. reflexivity.
    + assert (Hj : joined l (t ++ w2)) by (exists ts, t, w2; auto). apply spaces_spec in H1. rewrite skip_app by assumption.
      pose proof (joined_head _ _ Hj) as (c & r & E & Hc). rewrite skip_id by (rewrite E; cbn; chars). apply joined_p; [assumption|lia].
  - intro H. destruct (skip_decomp is_sp s) as (w & Hs & Hw). apply spaces_spec in Hw. apply p_joined in H as [[E ->]|(ts & t & w2 & E & H)].
    + left. split; [reflexivity|]. rewrite Hs, E, app_nil_r. assumption.
    + right. exists w, ts, t, w2. rewrite <- E. tauto.
Qed.
End Sep.

(** ** whole fields *)
Lemma parse_item_spec s i : parse_item s = Some i <-> item_field i s.
Proof.
  unfold parse_item, item_field. split.
  - destruct (skip_decomp is_sp s) as (w & Hs & Hw). apply spaces_spec in Hw. destruct (p_item (skip is_sp s)) as [[i' r]|] eqn:E; [|discriminate].
    apply p_item_text in E as (u & E & Hu). destruct (skip_decomp is_sp r) as (w2 & Hr & Hw2). apply spaces_spec in Hw2. destruct (skip is_sp r); [|discriminate].
    intro H. injection H as ->. rewrite app_nil_r in Hr. subst r. exists w, u, w2. rewrite <- E. auto.
  - intros (w1 & t & w2 & -> & H1 & H2 & H). apply spaces_spec in H1. rewrite skip_app by assumption.
    pose proof (item_text_p i t w2 H) as Hp. apply item_text_head in H as (c & r & -> & Hc). apply bare_start_sp in Hc as (Hc & _).
    rewrite skip_id by exact Hc. rewrite Hp by (destruct H2 as [|d w2 ->]; [exact I|reflexivity]). apply spaces_spec in H2. rewrite skip_nil by assumption. reflexivity.
Qed.
Lemma parse_list_spec s l : parse_list s = Some l <-> list_field l s.
Proof. symmetry. apply (commas_spec p_entry entry_text p_entry_text entry_text_p entry_text_head). Qed.
Lemma parse_dict_spec s d : parse_dict s = Some d <-> dict_field d s.
Proof.
  unfold parse_dict, dict_field. split.
  - destruct (p_sep p_member (skip is_sp s)) as [l|] eqn:E; [|discriminate]. intro H. injection H as <-. exists l.
    split; [apply (commas_spec p_member member_text p_member_text member_text_p member_text_head); assumption|apply map_of_spec; reflexivity].
  - intros (l & H & Hm). apply (commas_spec p_member member_text p_member_text member_text_p member_text_head) in H. rewrite H. apply map_of_spec in Hm. subst d. reflexivity.
Qed.
