(** Characters of serialized structured fields *)
From Coq Require Import ZifyBool ZifyNat ZifyN.
From Verif Require Import Base BaseFacts Utf8 Base64 Base64Facts Sfv SfvFacts SfvRound.
Ltac Zify.zify_post_hook ::= Z.div_mod_to_equations.

Definition printp (s : str) : Prop := Forall (fun c => 32 <= c <= 126) s.
Lemma printp_app a b : printp (a ++ b) <-> printp a /\ printp b.
Proof. apply Forall_app. Qed.
Lemma printp_cons c s : printp (c :: s) <-> 32 <= c <= 126 /\ printp s.
Proof. apply Forall_cons_iff. Qed.
Lemma printp_of s : forallb is_print s = true <-> printp s.
Proof.
  unfold printp. rewrite forallb_forall, Forall_forall. split; intros H c Hc; specialize (H c Hc); unfold is_print in *; lia.
Qed.
Lemma dec_print n : printp (dec n).
Proof. eapply Forall_impl; [|apply dec_digits]. unfold digitp. cbn. intros; lia. Qed.
Lemma ser_int_print z : printp (ser_int z).
Proof. unfold ser_int. destruct (z <? 0)%Z; [apply printp_cons; split; [unfold cMinus; lia|]|]; apply dec_print. Qed.
Lemma ser_frac_print f : f < 1000 -> printp (ser_frac f).
Proof.
  intro H. unfold ser_frac. destruct (negb _); [|destruct (negb _)]; repeat (constructor; [lia|]); constructor.
Qed.
Lemma ser_dec_print z : printp (ser_dec z).
Proof.
  unfold ser_dec. rewrite !printp_app, printp_cons. split; [|split; [apply dec_print|split; [unfold cDot; lia|]]].
  - destruct (z <? 0)%Z; repeat constructor; unfold cMinus; lia.
  - apply ser_frac_print. lia.
Qed.
Lemma ser_str_print s : printp s -> printp (ser_str s).
Proof.
  intro H. unfold ser_str. rewrite printp_cons, printp_app. split; [unfold cQuote; lia|]. split; [|repeat constructor; unfold cQuote; lia].
  induction H as [|c s Hc H IH]; [constructor|]. cbn [flat_map]. rewrite printp_app. split; [|assumption].
  unfold esc. destruct (_ || _); repeat constructor; unfold cBack; lia.
Qed.
Lemma ser_disp_print b : bytesp b -> printp (ser_disp b).
Proof.
  intro H. unfold ser_disp. rewrite !printp_cons, printp_app. split; [unfold cPct; lia|]. split; [unfold cQuote; lia|].
  split; [|repeat constructor; unfold cQuote; lia].
  induction H as [|c s Hc H IH]; [constructor|]. cbn [flat_map]. rewrite printp_app. split; [|assumption].
  unfold disp_esc. destruct (_ || negb (is_print c)) eqn:E.
  - unfold hex_digit, cPct. repeat constructor; try lia; destruct (_ <? 10) eqn:E1; lia.
  - repeat constructor; unfold is_print in E; lia.
Qed.
Lemma b64_alpha_print c : b64_alpha c -> 32 <= c <= 126.
Proof. unfold b64_alpha. lia. Qed.
Lemma b64_print b : bytesp b -> printp (b64_encode b).
Proof.
  intro H. eapply Forall_impl; [|apply b64_encode_chars; exact H]. cbn. intros c [Hc|Hc]; [apply b64_alpha_print, Hc|unfold cEq in Hc; lia].
Qed.
Lemma tok_char_print c : is_tok_char c = true -> 32 <= c <= 126.
Proof. intro H. chars. Qed.
Lemma key_char_print c : is_key_char c = true -> 32 <= c <= 126.
Proof. intro H. chars. Qed.
Lemma key_print k : wf_key k -> printp k.
Proof. intros [_ H]. rewrite forallb_forall in H. apply Forall_forall. intros c Hc. apply key_char_print, H, Hc. Qed.
Lemma ser_bare_print b : wf_bare b -> printp (ser_bare b).
Proof.
  destruct b; cbn [wf_bare ser_bare]; intro H.
  - apply ser_int_print.
  - apply ser_dec_print.
  - apply ser_str_print, printp_of, H.
  - destruct H as [_ H]. rewrite forallb_forall in H. apply Forall_forall. intros c Hc. apply tok_char_print, H, Hc.
  - rewrite printp_cons, printp_app. split; [unfold cColon; lia|]. split; [apply b64_print, H|repeat constructor; unfold cColon; lia].
  - destruct b; repeat constructor; unfold cQM; lia.
  - rewrite printp_cons. split; [unfold cAt; lia|apply ser_int_print].
  - apply ser_disp_print, H.
Qed.
Lemma ser_params_print ps : Forall wf_param ps -> printp (ser_params ps).
Proof.
  induction 1 as [|[k v] ps [Hk Hv] H IH]; [constructor|]. cbn [fst snd] in *. change (ser_params ((k, v) :: ps)) with (ser_param (k, v) ++ ser_params ps).
  rewrite printp_app. split; [|assumption]. rewrite ser_param_eq, printp_cons. split; [unfold cSemi; lia|].
  assert (Hc : ser_param1 (k, v) = k \/ ser_param1 (k, v) = k ++ cEq :: ser_bare v) by (unfold ser_param1; cbn [fst snd]; destruct v as [| | | | |[]| |]; auto).
  destruct Hc as [-> | ->]; [apply key_print, Hk|]. rewrite printp_app, printp_cons. split; [apply key_print, Hk|].
  split; [unfold cEq; lia|apply ser_bare_print, Hv].
Qed.
Lemma ser_item_print i : wf_item i -> printp (ser_item i).
Proof. intros [H1 [H2 _]]. unfold ser_item. rewrite printp_app. split; [apply ser_bare_print|apply ser_params_print]; assumption. Qed.
Lemma join_print sep l : printp sep -> Forall printp l -> printp (join sep l).
Proof.
  intros Hs H. induction H as [|x l Hx H IH]; [constructor|]. destruct l as [|y l]; [exact Hx|].
  change (join sep (x :: y :: l)) with (x ++ sep ++ join sep (y :: l)). rewrite !printp_app. auto.
Qed.
Lemma ser_inner_print l : wf_inner l -> printp (ser_inner l).
Proof.
  intros [H1 [H2 _]]. unfold ser_inner. rewrite printp_cons, printp_app, printp_cons. split; [unfold cLPar; lia|].
  split; [|split; [unfold cRPar; lia|apply ser_params_print, H2]].
  apply join_print; [repeat constructor; unfold cSP; lia|]. apply Forall_map. eapply Forall_impl; [|exact H1]. intros i Hi. apply ser_item_print, Hi.
Qed.

(** ** the last character is no white space *)
Definition solid (s : str) : Prop := exists u c, s = u ++ [c] /\ is_ws c = false.
Lemma solid_app a b : solid b -> solid (a ++ b).
Proof. intros (u & c & -> & H). exists (a ++ u), c. rewrite app_assoc. auto. Qed.
Lemma solid_all s : s <> [] -> Forall (fun c => is_ws c = false) s -> solid s.
Proof. intros Hn H. destruct (exists_last Hn) as (u & c & ->). exists u, c. split; [reflexivity|]. apply Forall_app in H as [_ H]. inversion H; assumption. Qed.
Lemma solid_rev s : solid s -> match rev s with c :: _ => is_ws c = false | [] => True end.
Proof. intros (u & c & -> & H). rewrite rev_app_distr. exact H. Qed.
Lemma print_ws c : 32 < c <= 126 -> is_ws c = false.
Proof. intro H. unfold is_ws. lia. Qed.
Lemma dec_solid n : solid (dec n).
Proof.
  apply solid_all; [apply dec_nonempty|]. eapply Forall_impl; [|apply dec_digits]. unfold digitp. cbn. intros; apply print_ws; lia.
Qed.
Lemma ser_int_solid z : solid (ser_int z).
Proof. unfold ser_int. destruct (z <? 0)%Z; [apply (solid_app [cMinus])|]; apply dec_solid. Qed.
Lemma last_solid u c : is_ws c = false -> solid (u ++ [c]).
Proof. intro H. exists u, c. auto. Qed.
Lemma ser_frac_solid f : f < 1000 -> solid (ser_frac f).
Proof.
  intro H. unfold ser_frac. destruct (negb _); [|destruct (negb _)];
    apply solid_all; try discriminate; repeat (constructor; [apply print_ws; lia|]); constructor.
Qed.
Lemma key_solid k : wf_key k -> solid k.
Proof.
  intros [H1 H2]. apply solid_all; [destruct k; [destruct H1|discriminate]|]. rewrite forallb_forall in H2. apply Forall_forall.
  intros c Hc. apply print_ws. specialize (H2 c Hc). chars.
Qed.
Lemma ser_bare_solid b : wf_bare b -> solid (ser_bare b).
Proof.
  destruct b; cbn [wf_bare ser_bare]; intro H.
  - apply ser_int_solid.
  - unfold ser_dec. apply solid_app, solid_app. apply (solid_app [cDot]). apply ser_frac_solid. lia.
  - unfold ser_str. apply (solid_app [cQuote]). apply last_solid. reflexivity.
  - destruct H as [H1 H2]. apply solid_all; [destruct s; [destruct H1|discriminate]|]. rewrite forallb_forall in H2. apply Forall_forall.
    intros c Hc. apply print_ws. specialize (H2 c Hc). chars.
  - apply (solid_app [cColon]). apply last_solid. reflexivity.
  - destruct b; [exists [cQM], 49|exists [cQM], 48]; auto.
  - apply (solid_app [cAt]). apply ser_int_solid.
  - unfold ser_disp. apply (solid_app [cPct; cQuote]). apply last_solid. reflexivity.
Qed.
Lemma ser_params_solid ps : ps <> [] -> Forall wf_param ps -> solid (ser_params ps).
Proof.
  intros Hn H. destruct (exists_last Hn) as (r & [k v] & ->). apply Forall_app in H as [_ H]. inversion H as [|? ? [Hk Hv] _]; subst. cbn [fst snd] in *.
  unfold ser_params. rewrite flat_map_app. apply solid_app. cbn [flat_map]. rewrite app_nil_r, ser_param_eq. apply (solid_app [cSemi]).
  assert (Hc : ser_param1 (k, v) = k \/ ser_param1 (k, v) = k ++ cEq :: ser_bare v) by (unfold ser_param1; cbn [fst snd]; destruct v as [| | | | |[]| |]; auto).
  destruct Hc as [-> | ->]; [apply key_solid, Hk|]. apply solid_app, (solid_app [cEq]), ser_bare_solid, Hv.
Qed.
Lemma ser_item_trimmed i : wf_item i -> trimmed (ser_item i).
Proof.
  intros H. split.
  - pose proof (ser_item_head i H) as Hh. destruct (ser_item i) as [|c s] eqn:E; [exact I|].
    pose proof (ser_item_print i H) as Hp. rewrite E in Hp. apply Forall_inv in Hp. cbn in Hp. apply bare_start_sp in Hh. apply print_ws.
    unfold is_sp, cSP in Hh. lia.
  - apply solid_rev. destruct H as [H1 [H2 _]]. unfold ser_item. destruct (it_params i) as [|p ps] eqn:E.
    + cbn. rewrite app_nil_r. apply ser_bare_solid, H1.
    + apply solid_app. apply ser_params_solid; [discriminate|]. assumption.
Qed.

(** ** backslashes only occur with quotes *)
Lemma b64_no_back b : bytesp b -> ~ In 92 (b64_encode b).
Proof.
  intros H Hi. apply b64_encode_chars in H. rewrite Forall_forall in H. apply H in Hi. unfold b64_alpha, cEq in Hi. lia.
Qed.
Lemma ser_bare_back b : wf_bare b -> In 92 (ser_bare b) -> In 34 (ser_bare b).
Proof.
  assert (Hd : forall n, ~ In 92 (dec n)).
  { intros n Hi. pose proof (dec_digits n) as H. rewrite Forall_forall in H. apply H in Hi. unfold digitp in Hi. lia. }
  assert (Hz : forall z, ~ In 92 (ser_int z)).
  { intros z. unfold ser_int. destruct (z <? 0)%Z; [|apply Hd]. intros [H|H]; [unfold cMinus in H; lia|]. exact (Hd _ H). }
  destruct b; cbn [wf_bare ser_bare]; intros H Hi.
  - destruct (Hz _ Hi).
  - exfalso. unfold ser_dec in Hi. rewrite !in_app_iff in Hi. destruct Hi as [Hi|[Hi|[Hi|Hi]]].
    + destruct (z <? 0)%Z; [|destruct Hi]. destruct Hi as [Hi|[]]. unfold cMinus in Hi. lia.
    + exact (Hd _ Hi).
    + unfold cDot in Hi. lia.
    + unfold ser_frac in Hi. destruct (negb _); [|destruct (negb _)]; cbn [In] in Hi; lia.
  - left. reflexivity.
  - exfalso. destruct H as [_ H]. rewrite forallb_forall in H. apply H in Hi. chars.
  - exfalso. destruct Hi as [Hi|Hi]; [unfold cColon in Hi; lia|]. apply in_app_or in Hi as [Hi|[Hi|[]]]; [exact (b64_no_back _ H Hi)|unfold cColon in Hi; lia].
  - destruct b; cbn in Hi; unfold cQM in Hi; lia.
  - destruct Hi as [Hi|Hi]; [unfold cAt in Hi; lia|destruct (Hz _ Hi)].
  - right. left. reflexivity.
Qed.
Lemma ser_params_back ps : Forall wf_param ps -> In 92 (ser_params ps) -> In 34 (ser_params ps).
Proof.
  induction 1 as [|[k v] ps [Hk Hv] H IH]; [intros []|]. change (ser_params ((k, v) :: ps)) with (ser_param (k, v) ++ ser_params ps).
  rewrite !in_app_iff. intros [Hi|Hi]; [left|right; auto]. rewrite ser_param_eq in *. destruct Hi as [Hi|Hi]; [unfold cSemi in Hi; lia|]. right.
  cbn [fst snd] in *. assert (Hnk : ~ In 92 k) by (destruct Hk as [_ Hk]; rewrite forallb_forall in Hk; intro Hx; apply Hk in Hx; chars).
  assert (Hc : ser_param1 (k, v) = k \/ ser_param1 (k, v) = k ++ cEq :: ser_bare v) by (unfold ser_param1; cbn [fst snd]; destruct v as [| | | | |[]| |]; auto).
  destruct Hc as [E|E]; rewrite E in *; [contradiction|]. apply in_app_or in Hi as [Hi|[Hi|Hi]]; [contradiction|unfold cEq in Hi; lia|].
  apply in_or_app. right. right. apply ser_bare_back; assumption.
Qed.
Lemma ser_item_back i : wf_item i -> In 92 (ser_item i) -> In 34 (ser_item i).
Proof.
  intros [H1 [H2 _]]. unfold ser_item. rewrite !in_app_iff. intros [H|H]; [left; apply ser_bare_back|right; apply ser_params_back]; assumption.
Qed.
