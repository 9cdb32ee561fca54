(** The serializer of Sfv.v writes exactly the canonical texts of SpecCanon.v. *)
From Coq Require Import ZifyBool ZifyNat ZifyN.
From Verif Require Import Base BaseFacts Utf8 Utf8Facts Base64 Base64Facts Sfv SfvFacts SfvRound SpecSfv SpecSfvProofs SpecGrammar GrammarProofs SpecCanon.
Ltac Zify.zify_post_hook ::= Z.div_mod_to_equations.

(** ** digits *)
Lemma pow10_pos n : 0 < 10 ^ N.of_nat n.
Proof. apply N.neq_0_lt_0, N.pow_nonzero. lia. Qed.
Lemma number_bound s : Forall digit s -> number s < 10 ^ N.of_nat (length s).
Proof.
  induction 1 as [|c s Hc Hs IH]; cbn [number length]; [reflexivity|]. rewrite Nnat.Nat2N.inj_succ, N.pow_succ_r'. unfold digit in Hc.
  assert (c - 48 <= 9) by lia. nia.
Qed.
Lemma number_inj a : forall b, Forall digit a -> Forall digit b -> length a = length b -> number a = number b -> a = b.
Proof.
  induction a as [|c a IH]; intros [|d b] Ha Hb Hl Hn; try discriminate Hl; [reflexivity|].
  inversion Ha as [|? ? Hc Ha']; subst. inversion Hb as [|? ? Hd Hb']; subst. cbn [length] in Hl. injection Hl as Hl.
  pose proof (number_bound a Ha') as Ba. pose proof (number_bound b Hb') as Bb. cbn [number] in Hn. rewrite <- Hl in Hn, Bb.
  unfold digit in Hc, Hd. set (P := 10 ^ N.of_nat (length a)) in *.
  assert (E : c - 48 = d - 48) by nia. f_equal; [lia|]. apply IH; auto. rewrite E in Hn. lia.
Qed.
Lemma front_length a b : digits 1 15 a -> digits 1 15 b -> no_zeros_in_front a -> no_zeros_in_front b -> number a = number b -> length a = length b.
Proof.
  assert (H : forall a b, digits 1 15 a -> digits 1 15 b -> no_zeros_in_front b -> number a = number b -> (length a < length b)%nat -> False).
  { clear. intros a b [La Ha] [Lb Hb] Z E L. destruct b as [|d b]; [cbn in L; lia|]. destruct Z as [Z|Z]; [rewrite Z in L; cbn in L; lia|].
    assert (Hd : d <> 48) by (intros ->; exact (Z b eq_refl)). inversion Hb as [|? ? Hdd Hb']; subst. unfold digit in Hdd.
    pose proof (number_bound a Ha) as B. cbn [number length] in *. pose proof (pow10_pos (length b)).
    assert (10 ^ N.of_nat (length a) <= 10 ^ N.of_nat (length b)) by (apply N.pow_le_mono_r; lia). assert (1 <= d - 48) by lia. rewrite E in B. clear - B H H0 H1.
    set (P := 10 ^ N.of_nat (length b)) in *. set (Q := 10 ^ N.of_nat (length a)) in *. set (k := d - 48) in *. set (m := number b) in *. clearbody P Q k m. assert (1 * P <= k * P) by (apply N.mul_le_mono_r; assumption). lia. }
  intros Ha Hb Za Zb E. destruct (Nat.lt_trichotomy (length a) (length b)) as [L|[L|L]]; [|exact L|]; exfalso; eauto.
Qed.
Lemma digits_weak n s : (n <= 15)%nat -> digits 1 n s -> digits 1 15 s.
Proof. intros Hn [H H']. split; [lia|assumption]. Qed.
Lemma dec_front n : no_zeros_in_front (dec n).
Proof.
  induction n as [n Hn|n Hn IH] using dec_ind; rewrite dec_unfold.
  - destruct (n <? 10) eqn:E; [|lia]. destruct (N.eq_dec n 0) as [->|H0]; [left; reflexivity|right]. intros r Hr. change (lit "0" ++ r) with (48 :: r) in Hr. apply cons_inj in Hr as [Hr _]. lia.
  - destruct (n <? 10) eqn:E; [lia|]. right. intros r Hr. destruct IH as [IH|IH].
    + assert (Hv := dec_val (n / 10)). rewrite IH in Hv. change (dvals (lit "0")) with 0 in Hv. lia.
    + pose proof (dec_nonempty (n / 10)) as Hne. destruct (dec (n / 10)) as [|c s]; [congruence|]. change (lit "0" ++ r) with (48 :: r) in Hr. cbn [app] in Hr. apply cons_inj in Hr as [-> _]. exact (IH s eq_refl).
Qed.
Lemma dec_number n : number (dec n) = n.
Proof. rewrite number_dval. apply dval_dec. Qed.
Lemma dec_digit n : Forall digit (dec n).
Proof. apply digit_spec, dec_is_digit. Qed.
Lemma dec_le n k : n < 10 ^ N.of_nat (S k) -> digits 1 (S k) (dec n).
Proof.
  intro H. split; [|apply dec_digit]. pose proof (dec_length n k H). pose proof (dec_nonempty n). destruct (dec n); [congruence|cbn [length] in *; lia].
Qed.
Lemma front_dec ds : digits 1 15 ds -> no_zeros_in_front ds -> dec (number ds) = ds.
Proof.
  intros Hd Hz. assert (Hn : number ds < 10 ^ N.of_nat 15).
  { eapply N.lt_le_trans; [apply number_bound, Hd|]. apply N.pow_le_mono_r; [lia|]. destruct Hd. lia. }
  pose proof (dec_le (number ds) 14 Hn) as Hd'. apply number_inj; [apply dec_digit|apply Hd| |apply dec_number].
  apply front_length; auto using dec_front, dec_number.
Qed.

(** ** numbers *)
Lemma sign_text n s z t : canon_sign n s z t <-> z = (if (z <? 0)%Z then - Z.of_N n else Z.of_N n)%Z /\ t = (if (z <? 0)%Z then [cMinus] else []) ++ s.
Proof.
  split.
  - intros [|H].
    + destruct (Z.of_N n <? 0)%Z eqn:E; [lia|]. auto.
    + destruct (- Z.of_N n <? 0)%Z eqn:E; [|lia]. auto.
  - intros [Hz ->]. destruct (z <? 0)%Z eqn:E; rewrite Hz; [apply cs_minus; lia|apply cs_plus].
Qed.
Lemma canon_integer_spec z t : number15 z -> (canon_integer z t <-> ser_int z = t).
Proof.
  unfold number15. intro Hz. unfold ser_int, canon_integer. split.
  - intros (ds & Hd & Hf & Hs). apply sign_text in Hs as [Ez ->]. assert (En : Z.abs_N z = number ds) by (destruct (z <? 0)%Z; lia).
    rewrite En, front_dec by assumption. destruct (z <? 0)%Z; reflexivity.
  - intros <-. exists (dec (Z.abs_N z)). split; [apply dec_le; change (10 ^ N.of_nat 15) with 1000000000000000; lia|]. split; [apply dec_front|].
    rewrite dec_number. apply sign_text. destruct (z <? 0)%Z eqn:E; (split; [lia|reflexivity]).
Qed.
Lemma frac_text fs : digits 1 3 fs -> no_zeros_behind fs -> ser_frac (number fs * 10 ^ N.of_nat (3 - length fs)) = fs
  /\ number fs * 10 ^ N.of_nat (3 - length fs) < 1000.
Proof.
  intros Hd Hz. rewrite frac_value by assumption. destruct Hd as [Hl Hd].
  destruct fs as [|a [|b [|c [|d fs]]]]; cbn [length] in Hl; try lia; unfold ser_frac; cbv zeta.
  - inversion Hd as [|? ? Ha _]; subst. unfold digit in Ha. split; [|lia].
    destruct (negb (100 * (a - 48) mod 10 =? 0)) eqn:E1; [lia|]. destruct (negb ((100 * (a - 48) / 10) mod 10 =? 0)) eqn:E2; [lia|]. f_equal. lia.
  - inversion Hd as [|? ? Ha Hd']; subst. inversion Hd' as [|? ? Hb _]; subst. unfold digit in *.
    assert (b <> 48) by (intros ->; destruct Hz as [Hz|Hz]; [discriminate Hz|exact (Hz [a] eq_refl)]). split; [|lia].
    set (n := 100 * (a - 48) + 10 * (b - 48)). assert (Hn : n = 100 * (a - 48) + 10 * (b - 48)) by reflexivity. clearbody n.
    destruct (negb (n mod 10 =? 0)) eqn:E1; [lia|]. destruct (negb ((n / 10) mod 10 =? 0)) eqn:E2; [|lia]. f_equal; [lia|f_equal; lia].
  - inversion Hd as [|? ? Ha Hd']; subst. inversion Hd' as [|? ? Hb Hd'']; subst. inversion Hd'' as [|? ? Hc _]; subst. unfold digit in *.
    assert (c <> 48) by (intros ->; destruct Hz as [Hz|Hz]; [discriminate Hz|exact (Hz [a; b] eq_refl)]). split; [|lia].
    set (n := 100 * (a - 48) + 10 * (b - 48) + (c - 48)). assert (Hn : n = 100 * (a - 48) + 10 * (b - 48) + (c - 48)) by reflexivity. clearbody n.
    destruct (negb (n mod 10 =? 0)) eqn:E1; [|lia]. f_equal; [lia|f_equal; [lia|f_equal; lia]].
Qed.
Lemma ser_frac_text n : n < 1000 -> digits 1 3 (ser_frac n) /\ no_zeros_behind (ser_frac n) /\ number (ser_frac n) * 10 ^ N.of_nat (3 - length (ser_frac n)) = n.
Proof.
  intro Hn. assert (Hd : digits 1 3 (ser_frac n)).
  { unfold ser_frac. cbv zeta. split.
    - destruct (negb (n mod 10 =? 0)); [cbn; lia|]. destruct (negb ((n / 10) mod 10 =? 0)); cbn; lia.
    - unfold digit. destruct (negb (n mod 10 =? 0)); [repeat constructor; lia|]. destruct (negb ((n / 10) mod 10 =? 0)); repeat constructor; lia. }
  split; [exact Hd|]. rewrite frac_value by exact Hd. unfold ser_frac, no_zeros_behind. cbv zeta. clear Hd.
  destruct (negb (n mod 10 =? 0)) eqn:E1; [|destruct (negb ((n / 10) mod 10 =? 0)) eqn:E2].
  - split; [right|lia]. intros r Hr. change [48 + n / 100; 48 + (n / 10) mod 10; 48 + n mod 10] with ([48 + n / 100; 48 + (n / 10) mod 10] ++ [48 + n mod 10]) in Hr.
    change (lit "0") with [48] in Hr. apply app_inj_tail in Hr as [_ Hr]. lia.
  - split; [right|lia]. intros r Hr. change [48 + n / 100; 48 + (n / 10) mod 10] with ([48 + n / 100] ++ [48 + (n / 10) mod 10]) in Hr.
    change (lit "0") with [48] in Hr. apply app_inj_tail in Hr as [_ Hr]. lia.
  - split; [left; reflexivity|]. lia.
Qed.
Lemma canon_decimal_spec z t : number15 z -> (canon_decimal z t <-> ser_dec z = t).
Proof.
  unfold number15. intro Hz. unfold ser_dec, canon_decimal. cbv zeta. split.
  - intros (ds & fs & Hd & Hf & Hfs & Hb & Hs). apply sign_text in Hs as [Ez ->]. destruct (frac_text fs Hfs Hb) as [Ef Hlt].
    set (f := number fs * 10 ^ N.of_nat (3 - length fs)) in *. clearbody f.
    assert (En : Z.abs_N z = number ds * 1000 + f) by (destruct (z <? 0)%Z; lia).
    assert (E1 : Z.abs_N z / 1000 = number ds) by lia. assert (E2 : Z.abs_N z mod 1000 = f) by lia.
    rewrite E1, E2, Ef, front_dec by (first [assumption|eapply digits_weak; [|eassumption]; lia]). reflexivity.
  - intros <-. destruct (ser_frac_text (Z.abs_N z mod 1000)) as (F1 & F2 & F3); [lia|].
    exists (dec (Z.abs_N z / 1000)), (ser_frac (Z.abs_N z mod 1000)).
    split; [apply dec_le; change (10 ^ N.of_nat 12) with 1000000000000; lia|]. split; [apply dec_front|]. split; [exact F1|]. split; [exact F2|].
    rewrite dec_number, F3. apply sign_text. split; [|reflexivity]. destruct (z <? 0)%Z eqn:E; lia.
Qed.

(** ** strings and display strings *)
Lemma chars_text_spec s t : Forall printable s -> (chars_text s t <-> flat_map esc s = t).
Proof.
  intro Hs. split.
  - intro H. clear Hs. induction H as [|c s t Hp H1 H2 H IH|c s t Hc H IH]; [reflexivity| |]; cbn [flat_map]; rewrite IH; unfold esc.
    + destruct ((c =? cQuote) || (c =? cBack)) eqn:E; [unfold cQuote, cBack in E; lia|reflexivity].
    + destruct ((c =? cQuote) || (c =? cBack)) eqn:E; [reflexivity|unfold cQuote, cBack in E; lia].
  - intros <-. induction Hs as [|c s Hc Hs IH]; [constructor|]. cbn [flat_map]. unfold esc at 1.
    destruct ((c =? cQuote) || (c =? cBack)) eqn:E; unfold cQuote, cBack in E; cbn [app].
    + apply ct_escaped; [lia|exact IH].
    + apply ct_plain; [exact Hc|lia|lia|exact IH].
Qed.
Lemma hex_nth x : x < 16 -> nth_error hex_digits (N.to_nat x) = Some (hex_digit x).
Proof. intro H. apply hex_spec. apply hex_val_digit. exact H. Qed.
Lemma nth_hex x a : nth_error hex_digits (N.to_nat x) = Some a -> x < 16 /\ a = hex_digit x.
Proof.
  intro H. assert (Hx : x < 16).
  { assert (Hl : (N.to_nat x < length hex_digits)%nat) by (apply nth_error_Some; congruence). change (length hex_digits) with 16%nat in Hl. lia. }
  split; [exact Hx|]. rewrite hex_nth in H by exact Hx. congruence.
Qed.
Lemma canon_disp_spec s t : Forall octet s -> (canon_disp s t <-> flat_map disp_esc s = t).
Proof.
  intro Hs. split.
  - intro H. clear Hs. induction H as [|c s t Hp H1 H2 H IH|x y a b s t Ha Hb Hc H IH]; [reflexivity| |]; cbn [flat_map]; rewrite IH; unfold disp_esc.
    + unfold printable in Hp. unfold is_print. destruct (_ || _) eqn:E; [unfold cPct, cQuote in E; lia|reflexivity].
    + apply nth_hex in Ha as [Hx ->]. apply nth_hex in Hb as [Hy ->]. unfold printable in Hc. unfold is_print.
      destruct (_ || _) eqn:E; [|unfold cPct, cQuote in E; lia].
      assert (E1 : (16 * x + y) / 16 = x) by lia. assert (E2 : (16 * x + y) mod 16 = y) by lia. rewrite E1, E2. reflexivity.
  - intros <-. induction Hs as [|c s Hc Hs IH]; [constructor|]. cbn [flat_map]. unfold disp_esc at 1. unfold is_print, octet in *.
    destruct (_ || _) eqn:E; unfold cPct, cQuote in *; cbn [app].
    + assert (Ec : c = 16 * (c / 16) + c mod 16) by lia. rewrite Ec at 1. apply cd_hex; try (apply hex_nth; lia); [|exact IH]. unfold printable. lia.
    + apply cd_plain; [unfold printable; lia|lia|lia|exact IH].
Qed.
Lemma canon_bare_spec b t : bare_value b -> (canon_bare b t <-> ser_bare b = t).
Proof.
  intro Hb. split.
  - intro H. destruct H as [z t H|z t H|s t H|t|b| | |z t H|b t H]; cbn [bare_value ser_bare] in *.
    + apply canon_integer_spec; assumption.
    + apply canon_decimal_spec; assumption.
    + unfold ser_str. apply chars_text_spec in H; [|assumption]. rewrite H. reflexivity.
    + reflexivity.
    + rewrite b64_text_spec by assumption. reflexivity.
    + reflexivity.
    + reflexivity.
    + apply canon_integer_spec in H; [|assumption]. rewrite H. reflexivity.
    + unfold ser_disp. apply utf8_text_spec in Hb as [Hb _]. apply canon_disp_spec in H; [|exact Hb]. rewrite H. reflexivity.
  - intros <-. destruct b as [z|z|s|s|b|[]|z|b]; cbn [bare_value ser_bare] in *.
    + constructor. apply canon_integer_spec; [assumption|reflexivity].
    + constructor. apply canon_decimal_spec; [assumption|reflexivity].
    + apply cb_str. apply chars_text_spec; [assumption|reflexivity].
    + constructor.
    + rewrite b64_text_spec by assumption. apply cb_bytes.
    + constructor.
    + constructor.
    + apply cb_date. apply canon_integer_spec; [assumption|reflexivity].
    + apply cb_disp. apply utf8_text_spec in Hb as [Hb _]. apply canon_disp_spec; [exact Hb|reflexivity].
Qed.

(** ** structures *)
Lemma Forall2_fun {A} (P : A -> Prop) (R : A -> str -> Prop) (f : A -> str) l : Forall P l -> (forall a t, P a -> (R a t <-> f a = t)) ->
  forall ts, Forall2 R l ts <-> ts = map f l.
Proof.
  intros Hl H ts. split.
  - intro H2. induction H2 as [|a t l ts Ha H2 IH]; [reflexivity|]. inversion Hl as [|? ? Hpa Hl']; subst. cbn [map]. apply H in Ha; [|assumption].
    rewrite IH by assumption. congruence.
  - intros ->. induction Hl as [|a l Ha Hl IH]; constructor; [|exact IH]. apply H; [assumption|reflexivity].
Qed.
Lemma canon_param_spec kv t : bare_value (snd kv) -> (canon_param kv t <-> ser_param kv = t).
Proof.
  destruct kv as [k v]. cbn [snd]. intro Hv. split.
  - intro H. inversion H as [k' E1 E2|k' v' t' Hn Hc E1 E2]; subst; [reflexivity|]. apply canon_bare_spec in Hc; [|assumption]. subst t'.
    unfold ser_param. cbn [fst snd]. destruct v as [z|z|s|s|b|[]|z|b]; try reflexivity. congruence.
  - intros <-. unfold ser_param. cbn [fst snd].
    assert (Hg : v <> BBool true -> canon_param (k, v) (cSemi :: k ++ cEq :: ser_bare v)).
    { intro Hn. apply (cp_value k v (ser_bare v)); [exact Hn|]. apply canon_bare_spec; [assumption|reflexivity]. }
    destruct v as [z|z|s|s|b|[]|z|b]; try (apply Hg; discriminate). apply cp_flag.
Qed.
Lemma canon_params_spec ps t : Forall (fun kv => bare_value (snd kv)) ps -> (canon_params ps t <-> ser_params ps = t).
Proof.
  intro Hp. unfold canon_params, ser_params. rewrite flat_map_concat_map. split.
  - intros (ts & H & ->). apply (Forall2_fun _ _ _ _ Hp canon_param_spec) in H. subst ts. reflexivity.
  - intros <-. eexists. split; [|reflexivity]. apply (Forall2_fun _ _ _ _ Hp canon_param_spec). reflexivity.
Qed.
Lemma params_bares ps : params_value ps -> Forall (fun kv => bare_value (snd kv)) ps.
Proof. intros [H _]. eapply Forall_impl; [|exact H]. intros a Ha. apply Ha. Qed.
Lemma canon_item_spec i t : item_value i -> (canon_item i t <-> ser_item i = t).
Proof.
  intros [Hb Hp]. apply params_bares in Hp. unfold canon_item, ser_item. split.
  - intros (t1 & t2 & -> & H1 & H2). apply canon_bare_spec in H1; [|assumption]. apply canon_params_spec in H2; [|assumption]. congruence.
  - intros <-. eexists _, _. split; [reflexivity|]. split; [apply canon_bare_spec|apply canon_params_spec]; auto.
Qed.
Lemma separated_join w ts t : separated (eq w) ts t <-> ts <> [] /\ t = join w ts.
Proof.
  split.
  - induction 1 as [t|t v ts u Hv H [IH1 IH2]]; [split; [discriminate|reflexivity]|]. subst v u. split; [discriminate|].
    destruct ts as [|x ts]; [congruence|]. reflexivity.
  - intros [Hn ->]. induction ts as [|a ts IH]; [congruence|]. destruct ts as [|b ts]; [constructor|].
    change (join w (a :: b :: ts)) with (a ++ w ++ join w (b :: ts)). constructor; [reflexivity|]. apply IH. discriminate.
Qed.
(** also with repeated parameters *)
Lemma canon_inner_text l t : Forall item_value (in_items l) -> Forall (fun kv => bare_value (snd kv)) (in_params l) -> (canon_inner l t <-> ser_inner l = t).
Proof.
  intros Hi Hp. unfold canon_inner, ser_inner. split.
  - intros (ts & body & pt & -> & H1 & H2 & H3). apply (Forall2_fun _ _ _ _ Hi canon_item_spec) in H1. apply canon_params_spec in H3; [|assumption]. subst ts.
    assert (E : body = join [cSP] (map ser_item (in_items l))).
    { destruct H2 as [[E1 ->]|H2]; [rewrite E1; reflexivity|]. apply separated_join in H2 as [_ H2]. exact H2. }
    rewrite E, H3. reflexivity.
  - intros <-. exists (map ser_item (in_items l)), (join [cSP] (map ser_item (in_items l))), (ser_params (in_params l)).
    split; [reflexivity|]. split; [apply (Forall2_fun _ _ _ _ Hi canon_item_spec); reflexivity|]. split; [|apply canon_params_spec; [assumption|reflexivity]].
    destruct (map ser_item (in_items l)) as [|x r] eqn:E; [left; auto|right]. apply separated_join. split; [discriminate|reflexivity].
Qed.
Lemma canon_inner_spec l t : Forall item_value (in_items l) -> params_value (in_params l) -> (canon_inner l t <-> ser_inner l = t).
Proof. intros Hi Hp. apply canon_inner_text; [assumption|]. apply params_bares, Hp. Qed.
Lemma canon_entry_spec e t : entry_value e -> (canon_entry e t <-> ser_entry e = t).
Proof.
  intro He. split.
  - intro H. destruct H as [i t H|l t H]; cbn [entry_value ser_entry] in *; [apply canon_item_spec; assumption|apply canon_inner_spec; [apply He|apply He|assumption]].
  - intros <-. destruct e as [i|l]; cbn [entry_value ser_entry] in *; constructor; [apply canon_item_spec; auto|apply canon_inner_spec; [apply He|apply He|reflexivity]].
Qed.
Lemma canon_member_spec kv t : entry_value (snd kv) -> (canon_member kv t <-> ser_member kv = t).
Proof.
  destruct kv as [k e]. cbn [snd]. intro He.
  assert (Hg : (forall ps, e <> EItem (mkItem (BBool true) ps)) -> ser_member (k, e) = k ++ cEq :: ser_entry e).
  { intro Hn. unfold ser_member. cbn [fst snd]. destruct e as [[b ps]|l]; [|reflexivity]. destruct b as [z|z|s|s|b|[]|z|b]; try reflexivity. destruct (Hn ps eq_refl). }
  split.
  - intro H. inversion H as [k' ps t' Hp E1 E2|k' e' t' Hn Hc E1 E2]; subst.
    + destruct He as [_ He]. cbn [it_params] in He. apply canon_params_spec in Hp; [|apply params_bares; assumption]. subst t'. reflexivity.
    + apply canon_entry_spec in Hc; [|assumption]. subst t'. apply Hg. exact Hn.
  - intros <-. assert (Hd : (exists ps, e = EItem (mkItem (BBool true) ps)) \/ forall ps, e <> EItem (mkItem (BBool true) ps)).
    { destruct e as [[b ps]|l]; [|right; discriminate]. destruct b as [z|z|s|s|b|[]|z|b]; try (right; discriminate). left. eauto. }
    destruct Hd as [[ps ->]|Hn].
    + destruct He as [_ He]. cbn [it_params] in He. apply (cm_flag k ps). apply canon_params_spec; [apply params_bares; assumption|reflexivity].
    + rewrite Hg by exact Hn. apply (cm_value k e); [exact Hn|]. apply canon_entry_spec; [assumption|reflexivity].
Qed.
Lemma canon_list_spec l t : list_value l -> (canon_list l t <-> ser_list l = Some t).
Proof.
  intro Hl. unfold canon_list. assert (E : ser_list l = match l with [] => None | _ => Some (join [cComma; cSP] (map ser_entry l)) end) by reflexivity. rewrite E. clear E. split.
  - intros (ts & H & Hs). apply (Forall2_fun _ _ _ _ Hl canon_entry_spec) in H. subst ts. apply separated_join in Hs as [Hn ->]. destruct l; [destruct Hn; reflexivity|reflexivity].
  - intro H. exists (map ser_entry l). split; [apply (Forall2_fun _ _ _ _ Hl canon_entry_spec); reflexivity|]. apply separated_join.
    destruct l as [|e l]; [discriminate H|]. split; [discriminate|]. injection H as <-. reflexivity.
Qed.
Lemma dict_entries d : dict_value d -> Forall (fun kv => entry_value (snd kv)) d.
Proof. intros [H _]. eapply Forall_impl; [|exact H]. intros a Ha. apply Ha. Qed.
Lemma canon_dict_spec d t : dict_value d -> (canon_dict d t <-> ser_dict d = Some t).
Proof.
  intro Hd. apply dict_entries in Hd. unfold canon_dict. assert (E : ser_dict d = match d with [] => None | _ => Some (join [cComma; cSP] (map ser_member d)) end) by reflexivity. rewrite E. clear E. split.
  - intros (ts & H & Hs). apply (Forall2_fun _ _ _ _ Hd canon_member_spec) in H. subst ts. apply separated_join in Hs as [Hn ->]. destruct d; [destruct Hn; reflexivity|reflexivity].
  - intro H. exists (map ser_member d). split; [apply (Forall2_fun _ _ _ _ Hd canon_member_spec); reflexivity|]. apply separated_join.
    destruct d as [|e d]; [discriminate H|]. split; [discriminate|]. injection H as <-. reflexivity.
Qed.
