(** Reading and writing DER *)
From Verif Require Import Base BaseFacts Crypto SpecCrypto SpecSfv SpecDer Der.
From Coq Require Import ZifyN.
Ltac Zify.zify_post_hook ::= Z.div_mod_to_equations.

(** ** lengths *)
Lemma len_octets_head n : n < 268435456 -> exists x r, len_octets n = x :: r.
Proof. intros _. unfold len_octets. repeat destruct (_ <? _); eauto. Qed.
Lemma read_len_write n r : n < 268435456 -> read_len (len_octets n ++ r) = Some (n, r).
Proof.
  intro H. unfold len_octets. destruct (n <? 128) eqn:E1; [cbn [app read_len]; rewrite E1; reflexivity|].
  destruct (n <? 256) eqn:E2; [|destruct (n <? 65536) eqn:E3; [|destruct (n <? 16777216) eqn:E4]]; cbn [app]; unfold read_len.
  - cbv zeta. change (129 <? 128) with false. cbv iota. change (N.to_nat (129 - 128)) with 1%nat. cbn [length Nat.ltb Nat.leb firstn skipn N.eqb Pos.eqb orb N.ltb N.compare Pos.compare Pos.compare_cont].
    unfold big_endian. cbn [fold_left]. rewrite N.mul_0_l, N.add_0_l. cbn [Nat.eqb]. rewrite E1. replace (268435455 <? n) with false by lia. reflexivity.
  - cbv zeta. change (130 <? 128) with false. cbv iota. change (N.to_nat (130 - 128)) with 2%nat. cbn [length Nat.ltb Nat.leb firstn skipn]. change ((130 =? 128) || (132 <? 130) || false) with false. cbv iota.
    unfold big_endian. cbn [fold_left Nat.eqb]. replace ((0 * 256 + n / 256) * 256 + n mod 256) with n by lia. change (256 ^ (130 - 129)) with 256. rewrite E2. replace (268435455 <? n) with false by lia. reflexivity.
  - cbv zeta. change (131 <? 128) with false. cbv iota. change (N.to_nat (131 - 128)) with 3%nat. cbn [length Nat.ltb Nat.leb firstn skipn]. change ((131 =? 128) || (132 <? 131) || false) with false. cbv iota.
    unfold big_endian. cbn [fold_left Nat.eqb]. replace (((0 * 256 + n / 65536) * 256 + n / 256 mod 256) * 256 + n mod 256) with n by lia. change (256 ^ (131 - 129)) with 65536. rewrite E3. replace (268435455 <? n) with false by lia. reflexivity.
  - cbv zeta. change (132 <? 128) with false. cbv iota. change (N.to_nat (132 - 128)) with 4%nat. cbn [length Nat.ltb Nat.leb firstn skipn]. change ((132 =? 128) || (132 <? 132) || false) with false. cbv iota.
    unfold big_endian. cbn [fold_left Nat.eqb]. replace ((((0 * 256 + n / 16777216) * 256 + n / 65536 mod 256) * 256 + n / 256 mod 256) * 256 + n mod 256) with n by lia.
    change (256 ^ (132 - 129)) with 16777216. rewrite E4. replace (268435455 <? n) with false by lia. reflexivity.
Qed.
Lemma read_len_read b n r : Forall octet b -> read_len b = Some (n, r) -> b = len_octets n ++ r /\ n < 268435456.
Proof.
  intros Ho H. unfold read_len in H. destruct b as [|x b]; [discriminate|]. destruct (x <? 128) eqn:E1.
  { injection H as <- <-. unfold len_octets. rewrite E1. split; [reflexivity|lia]. }
  cbv zeta in H. destruct ((x =? 128) || (132 <? x) || Nat.ltb (length b) (N.to_nat (x - 128))) eqn:E2; [discriminate|]. apply orb_false_iff in E2 as [E2 E3]. apply orb_false_iff in E2 as [E2 E4].
  assert (Hx : x = 129 \/ x = 130 \/ x = 131 \/ x = 132) by lia. apply Nat.ltb_ge in E3. inversion Ho as [|? ? _ Hb]; subst.
  destruct Hx as [->|[->|[->| ->]]].
  - change (N.to_nat (129 - 128)) with 1%nat in *. destruct b as [|a b]; [cbn in E3; lia|]. inversion Hb as [|? ? Ha _]; subst. unfold octet in *. cbn [firstn skipn] in H. unfold big_endian in H. cbn [fold_left Nat.eqb] in H.
    destruct (_ || _) eqn:E5 in H; [discriminate|]. injection H as <- <-. apply orb_false_iff in E5 as [E5 E6]. unfold len_octets. replace (0 * 256 + a) with a in * by lia. replace (a <? 128) with false by lia. replace (a <? 256) with true by lia. split; [reflexivity|lia].
  - change (N.to_nat (130 - 128)) with 2%nat in *. destruct b as [|a [|a' b]]; [cbn in E3; lia|cbn in E3; lia|]. inversion Hb as [|? ? Ha Hb']; subst. inversion Hb' as [|? ? Ha' _]; subst. unfold octet in *. cbn [firstn skipn] in H. unfold big_endian in H. cbn [fold_left Nat.eqb] in H.
    change (256 ^ (130 - 129)) with 256 in H. destruct (_ || _) eqn:E5 in H; [discriminate|]. assert (Hn : n = (0 * 256 + a) * 256 + a') by congruence. assert (Hr : r = b) by congruence. subst r. clear H. rewrite <- Hn in E5. apply orb_false_iff in E5 as [E5 E6]. unfold len_octets.
    replace (n <? 128) with false by lia. replace (n <? 256) with false by lia. replace (n <? 65536) with true by lia. split; [|lia]. cbn [app]. replace (n / 256) with a by lia. replace (n mod 256) with a' by lia. reflexivity.
  - change (N.to_nat (131 - 128)) with 3%nat in *. destruct b as [|a [|a' [|a2 b]]]; [cbn in E3; lia..|]. inversion Hb as [|? ? Ha Hb']; subst. inversion Hb' as [|? ? Ha' Hb2]; subst. inversion Hb2 as [|? ? Ha2 _]; subst. unfold octet in *. cbn [firstn skipn] in H. unfold big_endian in H. cbn [fold_left Nat.eqb] in H.
    change (256 ^ (131 - 129)) with 65536 in H. destruct (_ || _) eqn:E5 in H; [discriminate|]. assert (Hn : n = ((0 * 256 + a) * 256 + a') * 256 + a2) by congruence. assert (Hr : r = b) by congruence. subst r. clear H. rewrite <- Hn in E5. apply orb_false_iff in E5 as [E5 E6]. unfold len_octets.
    replace (n <? 128) with false by lia. replace (n <? 256) with false by lia. replace (n <? 65536) with false by lia. replace (n <? 16777216) with true by lia. split; [|lia]. cbn [app].
    replace (n / 65536) with a by lia. replace (n / 256 mod 256) with a' by lia. replace (n mod 256) with a2 by lia. reflexivity.
  - change (N.to_nat (132 - 128)) with 4%nat in *. destruct b as [|a [|a' [|a2 [|a3 b]]]]; [cbn in E3; lia..|]. inversion Hb as [|? ? Ha Hb']; subst. inversion Hb' as [|? ? Ha' Hb2]; subst. inversion Hb2 as [|? ? Ha2 Hb3]; subst. inversion Hb3 as [|? ? Ha3 _]; subst. unfold octet in *. cbn [firstn skipn] in H. unfold big_endian in H. cbn [fold_left Nat.eqb] in H.
    change (256 ^ (132 - 129)) with 16777216 in H. destruct (_ || _) eqn:E5 in H; [discriminate|]. assert (Hn : n = (((0 * 256 + a) * 256 + a') * 256 + a2) * 256 + a3) by congruence. assert (Hr : r = b) by congruence. subst r. clear H. rewrite <- Hn in E5. apply orb_false_iff in E5 as [E5 E6]. unfold len_octets.
    replace (n <? 128) with false by lia. replace (n <? 256) with false by lia. replace (n <? 65536) with false by lia. replace (n <? 16777216) with false by lia. split; [|lia]. cbn [app].
    replace (n / 16777216) with a by lia. replace (n / 65536 mod 256) with a' by lia. replace (n / 256 mod 256) with a2 by lia. replace (n mod 256) with a3 by lia. reflexivity.
Qed.

(** ** elements *)
Lemma known_tag_spec t : known_tag t = true <-> tag t.
Proof.
  unfold known_tag, tag. rewrite andb_true_iff, negb_true_iff, N.eqb_neq, orb_true_iff, andb_true_iff, N.leb_le, N.ltb_lt, existsb_exists. split.
  - intros [H1 [[H2 H3]|(x & Hx & E)]]; [repeat split; auto|]. apply N.eqb_eq in E. subst x. split; [|split; [exact H1|right; exact Hx]]. cbn in Hx. lia.
  - intros (H1 & H2 & [H3|H3]); (split; [exact H2|]); [left; auto|right]. exists t. split; [exact H3|apply N.eqb_refl].
Qed.
Lemma octets_app (a b : bytes) : Forall octet (a ++ b) <-> Forall octet a /\ Forall octet b.
Proof. apply Forall_app. Qed.
Lemma octets_elem t c : Forall octet (elem t c) -> Forall octet c.
Proof. unfold elem. intro H. inversion H as [|? ? _ H']; subst. apply octets_app in H'. tauto. Qed.
Lemma elem_longer t c : (length c < length (elem t c))%nat.
Proof. unfold elem. cbn [length]. rewrite app_length. lia. Qed.
Lemma elem_ne t c : elem t c <> [].
Proof. discriminate. Qed.
Lemma small_app a b : small (a ++ b) -> small a /\ small b.
Proof. unfold small. rewrite app_length. lia. Qed.
Lemma small_elem t c : small (elem t c) -> small c.
Proof. unfold small. pose proof (elem_longer t c). lia. Qed.
Lemma read_any_write t c r : tag t -> small c -> read_any (elem t c ++ r) = Some (t, c, r).
Proof.
  intros Ht Hc. unfold elem. cbn [app read_any]. rewrite (proj2 (known_tag_spec t) Ht), <- app_assoc, (read_len_write _ _ Hc), app_length.
  replace (N.of_nat (length c + length r) <? N.of_nat (length c)) with false by lia. rewrite Nnat.Nat2N.id, firstn_app, skipn_app, Nat.sub_diag, firstn_all, skipn_all. cbn [firstn skipn app]. rewrite app_nil_r. reflexivity.
Qed.
Lemma read_any_read b t c r : Forall octet b -> read_any b = Some (t, c, r) -> b = elem t c ++ r /\ tag t /\ small c.
Proof.
  intros Ho H. unfold read_any in H. destruct b as [|x b]; [discriminate|]. destruct (known_tag x) eqn:Ek; [|discriminate]. destruct (read_len b) as [[n r']|] eqn:El; [|discriminate].
  destruct (_ <? n) eqn:En; [discriminate|]. injection H as <- <- <-. apply known_tag_spec in Ek. inversion Ho as [|? ? _ Hb]; subst. apply (read_len_read _ _ _ Hb) in El as [-> Hn].
  assert (El : length (firstn (N.to_nat n) r') = N.to_nat n) by (rewrite firstn_length; lia).
  split; [|split; [exact Ek|unfold small; rewrite El; lia]]. unfold elem. rewrite El, Nnat.N2Nat.id. cbn [app]. rewrite <- app_assoc, firstn_skipn. reflexivity.
Qed.
Lemma read_any_iff b t c r : Forall octet b -> small b -> (read_any b = Some (t, c, r) <-> b = elem t c ++ r /\ tag t).
Proof.
  intros Ho Hs. split; [intro H; apply read_any_read in H as (H1 & H2 & _); auto|]. intros [-> Ht]. apply read_any_write; [exact Ht|]. apply small_app in Hs as [Hs _]. exact (small_elem _ _ Hs).
Qed.
Lemma read_tag_iff t b c r : tag t -> Forall octet b -> small b -> (read_tag t b = Some (c, r) <-> b = elem t c ++ r).
Proof.
  intros Ht Ho Hs. unfold read_tag. split.
  - destruct (read_any b) as [[[t' c'] r']|] eqn:E; [|discriminate]. apply (read_any_iff _ _ _ _ Ho Hs) in E as [-> _]. destruct (N.eqb_spec t' t); [|discriminate]. intro H. injection H as <- <-. subst. reflexivity.
  - intro E. rewrite (proj2 (read_any_iff b t c r Ho Hs) (conj E Ht)), N.eqb_refl. reflexivity.
Qed.
Lemma read_only_iff t b c : tag t -> Forall octet b -> small b -> (read_only t b = Some c <-> b = elem t c).
Proof.
  intros Ht Ho Hs. unfold read_only. split.
  - destruct (read_tag t b) as [[c' r']|] eqn:E; [|discriminate]. apply (read_tag_iff _ _ _ _ Ht Ho Hs) in E. destruct r'; [|discriminate]. intro H. injection H as <-. rewrite app_nil_r in E. exact E.
  - intro E. rewrite (proj2 (read_tag_iff t b c [] Ht Ho Hs)); [reflexivity|]. rewrite app_nil_r. exact E.
Qed.
Ltac tg := split; [reflexivity|split; [discriminate|right; cbn; tauto]].
Lemma tag48 : tag 48. Proof. tg. Qed.
Lemma tag2 : tag 2. Proof. tg. Qed.
Lemma tag3 : tag 3. Proof. tg. Qed.
Lemma tag4 : tag 4. Proof. tg. Qed.
Lemma tag6 : tag 6. Proof. tg. Qed.
Lemma read_doc_iff b c : Forall octet b -> (read_doc b = Some c <-> b = elem 48 c /\ small b).
Proof.
  intro Ho. unfold read_doc. destruct (268435455 <? N.of_nat (length b)) eqn:E; [split; [discriminate|intros [_ H]; unfold small in H; lia]|].
  assert (Hs : small b) by (unfold small; lia). rewrite (read_only_iff 48 b c tag48 Ho Hs). tauto.
Qed.

(** ** object identifiers *)
Lemma arcs_false acc b l : Forall octet b -> (arcs false acc b = Some l <->
  exists p x r l', b = p ++ x :: r /\ Forall (fun d => 128 <= d < 256) p /\ x < 128 /\ fold_left (fun n d => n * 128 + d mod 128) (p ++ [x]) acc < 4294967296
  /\ arcs true 0 r = Some l' /\ l = fold_left (fun n d => n * 128 + d mod 128) (p ++ [x]) acc :: l').
Proof.
  revert acc l. induction b as [|y b IH]; intros acc l Ho.
  - cbn [arcs]. split; [discriminate|]. intros (p & x & r & l' & H & _). destruct p; discriminate H.
  - inversion Ho as [|? ? Hy Hb]; subst. unfold octet in Hy. cbn [arcs andb]. cbv zeta. destruct (128 <=? y) eqn:E.
    + rewrite (IH _ _ Hb). split.
      * intros (p & x & r & l' & -> & Hp & Hx & Hv & Ha & ->). exists (y :: p), x, r, l'. split; [reflexivity|]. split; [constructor; [lia|exact Hp]|]. cbn [app fold_left]. auto.
      * intros (p & x & r & l' & H & Hp & Hx & Hv & Ha & ->). destruct p as [|z p]; cbn [app] in H; injection H as -> ->; [lia|]. inversion Hp; subst. exists p, x, r, l'. cbn [app fold_left] in *. auto 10.
    + assert (Em : y mod 128 = y) by lia. split.
      * destruct (4294967295 <? _) eqn:Ev; [discriminate|]. destruct (arcs true 0 b) as [l'|] eqn:Ea; [|discriminate]. intro H. injection H as <-. exists [], y, b, l'. split; [reflexivity|]. split; [constructor|]. split; [lia|]. cbn [app fold_left]. split; [lia|]. auto.
      * intros (p & x & r & l' & H & Hp & Hx & Hv & Ha & ->). destruct p as [|z p]; cbn [app] in H; injection H as -> ->; [|inversion Hp; subst; lia]. cbn [app fold_left] in *.
        replace (4294967295 <? acc * 128 + x mod 128) with false by lia. rewrite Ha. reflexivity.
Qed.
Lemma arcs_spec b l : Forall octet b -> (arcs true 0 b = Some l <-> exists as', b = concat as' /\ Forall arc as' /\ l = map arc_value as').
Proof.
  intro Ho. split.
  - remember (length b) as n eqn:En. revert b l Ho En. induction n as [n IH] using lt_wf_ind. intros b l Ho En H. destruct b as [|y b]; [injection H as <-; exists []; auto|].
    cbn [arcs andb] in H. destruct (y =? 128) eqn:E0; [discriminate|]. cbv zeta in H. inversion Ho as [|? ? Hy Hb]; subst. unfold octet in Hy. destruct (128 <=? y) eqn:E.
    + apply (arcs_false _ _ _ Hb) in H as (p & x & r & l' & -> & Hp & Hx & Hv & Ha & ->). apply octets_app in Hb as [_ Hr]. inversion Hr as [|? ? _ Hr']; subst.
      destruct (IH (length r)) with (b := r) (l := l') as (as' & -> & Has & ->); [cbn [length]; rewrite app_length; cbn [length]; lia|exact Hr'|reflexivity|exact Ha|].
      exists ((y :: p ++ [x]) :: as'). split; [cbn [concat app]; rewrite <- app_assoc; reflexivity|]. split; [|reflexivity]. constructor; [|exact Has].
      exists (y :: p), x. split; [reflexivity|]. split; [constructor; [lia|exact Hp]|]. split; [exact Hx|]. split; [intros q Hq; injection Hq as -> _; discriminate E0|exact Hv].
    + destruct (4294967295 <? _) eqn:Ev; [discriminate|]. destruct (arcs true 0 b) as [l'|] eqn:Ea; [|discriminate]. injection H as <-.
      destruct (IH (length b)) with (b := b) (l := l') as (as' & -> & Has & ->); [cbn [length]; lia|exact Hb|reflexivity|exact Ea|]. exists ([y] :: as'). split; [reflexivity|]. split; [|reflexivity].
      constructor; [|exact Has]. exists [], y. split; [reflexivity|]. split; [constructor|]. split; [lia|]. split; [discriminate|]. unfold arc_value. cbn [fold_left]. lia.
  - intros (as' & -> & Has & ->). induction Has as [|a as' (p & x & -> & Hp & Hx & Hq & Hv) Has IH]; [reflexivity|]. cbn [concat map] in *. apply octets_app in Ho as [Ho1 Ho2]. specialize (IH Ho2). rewrite <- app_assoc in *.
    unfold arc_value in Hv. destruct p as [|y p].
    + cbn [app arcs andb]. replace (x =? 128) with false by lia. cbv zeta. replace (128 <=? x) with false by lia. cbn [app fold_left] in Hv. replace (4294967295 <? 0 * 128 + x mod 128) with false by lia. rewrite IH. reflexivity.
    + cbn [app arcs andb]. destruct (y =? 128) eqn:E0; [exfalso; apply (Hq p); apply N.eqb_eq in E0; congruence|]. inversion Hp as [|? ? Hy Hp']; subst. cbv zeta. replace (128 <=? y) with true by lia.
      apply arcs_false; [inversion Ho1 as [|? ? _ Ho3]; subst; apply octets_app in Ho3 as [A B]; apply octets_app; split; [exact A|]; cbn [app]; inversion B; subst; constructor; assumption|].
      exists p, x, (concat as'), (map arc_value as'). split; [reflexivity|]. split; [exact Hp'|]. split; [exact Hx|]. split; [exact Hv|]. split; [exact IH|reflexivity].
Qed.
Lemma arc_value_inj a b : arc a -> arc b -> arc_value a = arc_value b -> a = b.
Proof.
  intros (p & x & -> & Hp & Hx & Hq & _) (p' & x' & -> & Hp' & Hx' & Hq' & _) E. unfold arc_value in E. rewrite !fold_left_app in E. cbn [fold_left] in E.
  assert (Hpp : fold_left (fun n d => n * 128 + d mod 128) p 0 = fold_left (fun n d => n * 128 + d mod 128) p' 0 /\ x = x') by lia. destruct Hpp as [E' ->]. f_equal. clear E Hx Hx' x'.
  assert (Hpos : forall p n, Forall (fun d => 128 <= d < 256) p -> 0 < n -> 0 < fold_left (fun n d => n * 128 + d mod 128) p n).
  { clear. induction p as [|y p IH]; intros n Hp Hn; [exact Hn|]. inversion Hp; subst. cbn [fold_left]. apply IH; [assumption|lia]. }
  assert (Hz : forall p, Forall (fun d => 128 <= d < 256) p -> (forall q, p <> 128 :: q) -> p <> [] -> 0 < fold_left (fun n d => n * 128 + d mod 128) p 0).
  { intros q H H1 H2. destruct q as [|y q]; [contradiction|]. inversion H; subst. cbn [fold_left]. apply Hpos; [assumption|]. assert (y <> 128) by (intros ->; apply (H1 q); reflexivity). lia. }
  revert p' Hp' Hq' E'. induction p as [|y p IH] using rev_ind; intros p' Hp' Hq' E'.
  - destruct p' as [|z p']; [reflexivity|]. specialize (Hz (z :: p') Hp' Hq' ltac:(discriminate)). rewrite <- E' in Hz. cbn in Hz. lia.
  - destruct p' as [|z p' _] using rev_ind; [specialize (Hz (p ++ [y]) Hp Hq ltac:(destruct p; discriminate)); rewrite E' in Hz; cbn in Hz; lia|].
    rewrite !fold_left_app in E'. cbn [fold_left] in E'. apply Forall_app in Hp as [Hp Hy]. apply Forall_app in Hp' as [Hp' Hz']. inversion Hy; inversion Hz'; subst.
    assert (E2 : fold_left (fun n d => n * 128 + d mod 128) p 0 = fold_left (fun n d => n * 128 + d mod 128) p' 0 /\ y = z) by lia. destruct E2 as [E2 ->]. f_equal. apply IH; [exact Hp| |exact Hp'| |exact E2].
    + intros q Eq. apply (Hq (q ++ [z])). rewrite Eq. reflexivity.
    + intros q Eq. apply (Hq' (q ++ [z])). rewrite Eq. reflexivity.
Qed.
Lemma arcs_inj l l' : Forall arc l -> Forall arc l' -> map arc_value l = map arc_value l' -> l = l'.
Proof.
  intro H. revert l'. induction H as [|a l Ha _ IH]; intros l' H' E; destruct H' as [|a' l' Ha' H']; try discriminate E; [reflexivity|]. cbn [map] in E. injection E as E1 E2. rewrite (arc_value_inj _ _ Ha Ha' E1), (IH _ H' E2). reflexivity.
Qed.
Lemma digits_dot (a b s s' : str) : Forall (fun c => c <> 46) a -> Forall (fun c => c <> 46) b -> (s = [] \/ exists r, s = 46 :: r) -> (s' = [] \/ exists r, s' = 46 :: r) ->
  a ++ s = b ++ s' -> a = b /\ s = s'.
Proof.
  intro Ha. revert b. induction Ha as [|x a Hx _ IH]; intros b Hb Hs Hs' E.
  - destruct b as [|y b]; [auto|]. cbn [app] in E. apply Forall_inv in Hb. destruct Hs as [->|[r ->]]; [discriminate E|]. injection E as <- _. destruct (Hb eq_refl).
  - destruct b as [|y b]; cbn [app] in E.
    + destruct Hs' as [->|[r ->]]; [discriminate E|]. injection E as -> _. contradiction.
    + injection E as -> E. apply Forall_inv_tail in Hb. destruct (IH _ Hb Hs Hs' E) as [-> ->]. auto.
Qed.
Lemma dec_no_dot n : Forall (fun c => c <> 46) (dec n).
Proof. eapply Forall_impl; [|apply dec_digits]. intros c H. unfold digitp in H. lia. Qed.
Lemma dots_inj l l' : flat_map (fun y : str => lit "." ++ y) (map dec l) = flat_map (fun y : str => lit "." ++ y) (map dec l') -> l = l'.
Proof.
  assert (Hh : forall l, flat_map (fun y : str => lit "." ++ y) (map dec l) = [] \/ exists r, flat_map (fun y : str => lit "." ++ y) (map dec l) = 46 :: r) by (intros [|x k]; [left; reflexivity|right; eexists; reflexivity]).
  revert l'. induction l as [|a l IH]; intros [|b l'] E; try discriminate E; [reflexivity|]. cbn [map flat_map] in E. assert (E0 : dec a ++ flat_map (fun y : str => lit "." ++ y) (map dec l) = dec b ++ flat_map (fun y : str => lit "." ++ y) (map dec l')) by exact (f_equal (@tl N) E).
  destruct (digits_dot _ _ _ _ (dec_no_dot a) (dec_no_dot b) (Hh l) (Hh l') E0) as [E1 E2]. apply dec_inj in E1. rewrite E1, (IH _ E2). reflexivity.
Qed.
Lemma oid_text_spec b s : Forall octet b -> (oid_text b = Some s <-> exists x l, b = x :: concat l /\ x < 120 /\ Forall arc l /\ (3 <= length b <= 39)%nat
  /\ s = join (lit ".") (map dec (x / 40 :: x mod 40 :: map arc_value l))).
Proof.
  intro Ho. unfold oid_text. split.
  - destruct b as [|x [|y [|z b]]]; try discriminate. destruct ((119 <? x) || _) eqn:E; [discriminate|]. apply orb_false_iff in E as [E1 E2]. apply Nat.ltb_ge in E2. cbn [tl] in *. inversion Ho as [|? ? _ Hb]; subst.
    destruct (arcs true 0 (y :: z :: b)) as [l|] eqn:Ea; [|discriminate]. intro H. injection H as <-. apply (arcs_spec _ _ Hb) in Ea as (as' & Eb & Has & ->). exists x, as'. split; [rewrite Eb; reflexivity|]. split; [lia|]. split; [exact Has|]. split; [|reflexivity]. cbn [length] in *. lia.
  - intros (x & l & Eb & Hx & Hl & Hlen & ->). rewrite Eb in Ho, Hlen |- *. clear b Eb. pose proof (Forall_inv_tail Ho) as Hb. pose proof (proj2 (arcs_spec _ (map arc_value l) Hb) (ex_intro _ l (conj eq_refl (conj Hl eq_refl)))) as Ea.
    cbn [length] in Hlen. destruct (concat l) as [|y [|z r]] eqn:Ec; cbn [length] in Hlen; [lia|lia|]. replace (119 <? x) with false by lia. replace (Nat.ltb 39 (length (x :: y :: z :: r))) with false by (symmetry; apply Nat.ltb_ge; cbn [length]; lia). cbn [orb tl]. rewrite Ea. reflexivity.
Qed.
Lemma oid_text_inj b b' s : Forall octet b -> Forall octet b' -> oid_text b = Some s -> oid_text b' = Some s -> b = b'.
Proof.
  intros Ho Ho' H H'. apply (oid_text_spec _ _ Ho) in H as (x & l & -> & Hx & Hl & _ & E). apply (oid_text_spec _ _ Ho') in H' as (x' & l' & -> & Hx' & Hl' & _ & E'). rewrite E in E'.
  cbn [map join] in E'. assert (Hd : forall a k, join (lit ".") (a :: map dec k) = a ++ flat_map (fun y : str => lit "." ++ y) (map dec k)).
  { intros a k. clear. revert a. induction k as [|b k IH]; intro a; cbn [map join flat_map]; [rewrite app_nil_r; reflexivity|]. specialize (IH (dec b)). cbn [join] in IH. rewrite IH. reflexivity. }
  assert (E2 : join (lit ".") (map dec (x / 40 :: x mod 40 :: map arc_value l)) = join (lit ".") (map dec (x' / 40 :: x' mod 40 :: map arc_value l'))) by exact E'. clear E'.
  assert (E3 : flat_map (fun y : str => lit "." ++ y) (map dec (x / 40 :: x mod 40 :: map arc_value l)) = flat_map (fun y : str => lit "." ++ y) (map dec (x' / 40 :: x' mod 40 :: map arc_value l'))).
  { change (map dec (x / 40 :: x mod 40 :: map arc_value l)) with (dec (x / 40) :: map dec (x mod 40 :: map arc_value l)) in *. change (map dec (x' / 40 :: x' mod 40 :: map arc_value l')) with (dec (x' / 40) :: map dec (x' mod 40 :: map arc_value l')) in *.
    rewrite !Hd in E2. cbn [flat_map]. rewrite <- !app_assoc, E2. reflexivity. }
  apply dots_inj in E3. injection E3 as E4 E5 E6. rewrite (arcs_inj _ _ Hl Hl' E6). f_equal. lia.
Qed.
Lemma oid_valid b : Forall octet b -> (is_some (oid_text b) = true <-> oid b).
Proof.
  intro Ho. split.
  - destruct (oid_text b) as [s|] eqn:E; [|discriminate]. intros _. apply (oid_text_spec _ _ Ho) in E as (x & l & E & Hx & Hl & Hlen & _). exists x, l. auto.
  - intros (x & l & E & Hx & Hl & Hlen). rewrite (proj2 (oid_text_spec b _ Ho) (ex_intro _ x (ex_intro _ l (conj E (conj Hx (conj Hl (conj Hlen eq_refl))))))). reflexivity.
Qed.
Lemma oid_is b o s : oid_text o = Some s -> Forall octet o -> Forall octet b -> (oid_text b = Some s <-> b = o).
Proof. intros E Ho Hb. split; [intro H; exact (oid_text_inj _ _ _ Hb Ho H E)|intros ->; exact E]. Qed.

(** ** algorithm identifiers *)
Lemma read_algorithm_iff b o p r : Forall octet b -> small b -> (read_algorithm b = Some (o, p, r) <->
  exists ob ps, b = elem 48 (elem 6 ob ++ ps) ++ r /\ oid_text ob = Some o /\ (ps = [] /\ p = None \/ exists t pc, tag t /\ ps = elem t pc /\ p = if t =? 6 then oid_text pc else None)).
Proof.
  intros Ho Hs. unfold read_algorithm. split.
  - destruct (read_tag 48 b) as [[c r']|] eqn:E1; [|discriminate]. apply (read_tag_iff _ _ _ _ tag48 Ho Hs) in E1. subst b. apply octets_app in Ho as [Ho _]. apply octets_elem in Ho. apply small_app in Hs as [Hs _]. apply small_elem in Hs.
    destruct (read_tag 6 c) as [[ob ps]|] eqn:E2; [|discriminate]. apply (read_tag_iff _ _ _ _ tag6 Ho Hs) in E2. subst c. apply octets_app in Ho as [_ Ho]. apply small_app in Hs as [_ Hs].
    destruct (oid_text ob) as [name|] eqn:E3; [|discriminate]. destruct ps as [|x ps].
    + intro H. injection H as <- <- <-. exists ob, []. auto.
    + destruct (read_any (x :: ps)) as [[[t pc] [|]]|] eqn:E4; try discriminate. apply (read_any_iff _ _ _ _ Ho Hs) in E4 as [E4 Ht]. rewrite app_nil_r in E4. intro H. injection H as <- <- <-. exists ob, (x :: ps). split; [reflexivity|]. split; [exact E3|]. right. exists t, pc. auto.
  - intros (ob & ps & -> & E3 & Hp). rewrite (proj2 (read_tag_iff 48 _ _ r tag48 Ho Hs) eq_refl). apply octets_app in Ho as [Ho _]. apply octets_elem in Ho. apply small_app in Hs as [Hs _]. apply small_elem in Hs.
    rewrite (proj2 (read_tag_iff 6 _ _ ps tag6 Ho Hs) eq_refl), E3. destruct Hp as [[-> ->]|(t & pc & Ht & -> & ->)]; [reflexivity|].
    apply octets_app in Ho as [_ Ho]. apply small_app in Hs as [_ Hs]. assert (E : read_any (elem t pc) = Some (t, pc, [])) by (apply (read_any_iff _ _ _ _ Ho Hs); rewrite app_nil_r; auto). rewrite E. reflexivity.
Qed.
Lemma algorithm_iff a b r : Forall octet b -> small b -> ((exists o p, read_algorithm b = Some (o, p, r) /\ oids_of a o p) <-> exists ai, algorithm a ai /\ b = ai ++ r).
Proof.
  intros Ho Hs.
  assert (Hps : forall ps p, (ps = [] /\ p = None \/ exists t pc, tag t /\ ps = elem t pc /\ p = if t =? 6 then oid_text pc else None) -> ps = [] \/ element ps).
  { intros ps p [[-> _]|(t & pc & Ht & -> & _)]; [left; reflexivity|right; exists t, pc; auto]. }
  assert (Hps' : forall ps, ps = [] \/ element ps -> exists p, (ps = [] /\ p = None \/ exists t pc, tag t /\ ps = elem t pc /\ p = if t =? 6 then oid_text pc else None)).
  { intros ps [->|(t & c & Ht & ->)]; [exists None; auto|]. exists (if t =? 6 then oid_text c else None). right. exists t, c. auto. }
  assert (Hin : forall ob ps, b = elem 48 (elem 6 ob ++ ps) ++ r -> Forall octet ob /\ Forall octet ps).
  { intros ob ps E. rewrite E in Ho. apply octets_app in Ho as [Ho _]. apply octets_elem, octets_app in Ho as [Ho1 Ho2]. apply octets_elem in Ho1. auto. }
  assert (O1 : forall s, Forall octet s -> (oid_text s = Some (lit "1.2.840.10045.2.1") <-> s = id_ec)) by (intros s; apply oid_is; [vm_compute; reflexivity|repeat constructor]).
  assert (O2 : forall s, Forall octet s -> (oid_text s = Some (lit "1.2.840.10045.3.1.7") <-> s = id_p256)) by (intros s; apply oid_is; [vm_compute; reflexivity|repeat constructor]).
  assert (O3 : forall s, Forall octet s -> (oid_text s = Some (lit "1.3.132.0.34") <-> s = id_p384)) by (intros s; apply oid_is; [vm_compute; reflexivity|repeat constructor]).
  assert (O4 : forall s, Forall octet s -> (oid_text s = Some (lit "1.3.101.112") <-> s = id_ed25519)) by (intros s; apply oid_is; [vm_compute; reflexivity|repeat constructor]).
  assert (O5 : forall s, Forall octet s -> (oid_text s = Some (lit "1.2.840.113549.1.1.1") <-> s = id_rsa)) by (intros s; apply oid_is; [vm_compute; reflexivity|repeat constructor]).
  assert (Hc : forall cn cb, (forall s, Forall octet s -> (oid_text s = Some cn <-> s = cb)) ->
    ((exists o p, read_algorithm b = Some (o, p, r) /\ o = lit "1.2.840.10045.2.1" /\ p = Some cn) <-> b = elem 48 (elem 6 id_ec ++ elem 6 cb) ++ r)).
  { intros cn cb Hcb. split.
    - intros (o & p & H & -> & ->). apply (read_algorithm_iff _ _ _ _ Ho Hs) in H as (ob & ps & E & Hob & Hp). destruct (Hin _ _ E) as [Ho1 Ho2]. apply (O1 _ Ho1) in Hob. subst ob.
      destruct Hp as [[_ Hp]|(t & pc & Ht & -> & Hp)]; [discriminate|]. destruct (N.eqb_spec t 6) as [->|]; [|discriminate]. symmetry in Hp. apply (Hcb _ (octets_elem _ _ Ho2)) in Hp. subst pc. exact E.
    - intro E. destruct (Hin _ _ E) as [Ho1 Ho2]. exists (lit "1.2.840.10045.2.1"), (Some cn). split; [|auto]. apply (read_algorithm_iff _ _ _ _ Ho Hs). exists id_ec, (elem 6 cb). split; [exact E|]. split; [apply O1; [exact Ho1|reflexivity]|].
      right. exists 6, cb. split; [exact tag6|]. split; [reflexivity|]. rewrite N.eqb_refl. symmetry. apply Hcb; [exact (octets_elem _ _ Ho2)|reflexivity]. }
  assert (Hany : forall on ob0, (forall s, Forall octet s -> (oid_text s = Some on <-> s = ob0)) ->
    ((exists o p, read_algorithm b = Some (o, p, r) /\ o = on) <-> exists ps, (ps = [] \/ element ps) /\ b = elem 48 (elem 6 ob0 ++ ps) ++ r)).
  { intros on ob0 Hob0. split.
    - intros (o & p & H & ->). apply (read_algorithm_iff _ _ _ _ Ho Hs) in H as (ob & ps & E & Hob & Hp). destruct (Hin _ _ E) as [Ho1 Ho2]. apply (Hob0 _ Ho1) in Hob. subst ob. exists ps. eauto.
    - intros (ps & Hp & E). destruct (Hin _ _ E) as [Ho1 Ho2]. destruct (Hps' _ Hp) as (p & Hp'). exists on, p. split; [|reflexivity]. apply (read_algorithm_iff _ _ _ _ Ho Hs). exists ob0, ps. split; [exact E|]. split; [apply Hob0; [exact Ho1|reflexivity]|exact Hp']. }
  destruct a; cbn [oids_of algorithm]; unfold tSequence, tOid.
  - split; [intros (o & p & _ & [])|intros (ai & [] & _)].
  - rewrite (Hc _ _ O2). split; [intro E; eexists; split; [reflexivity|exact E]|intros (ai & -> & E); exact E].
  - rewrite (Hc _ _ O3). split; [intro E; eexists; split; [reflexivity|exact E]|intros (ai & -> & E); exact E].
  - rewrite (Hany _ _ O4). split; [intros (ps & Hp & E); eexists; split; [exists ps; split; [exact Hp|reflexivity]|exact E]|intros (ai & (ps & Hp & ->) & E); eauto].
  - rewrite (Hany _ _ O5). split; [intros (ps & Hp & E); eexists; split; [exists ps; split; [exact Hp|reflexivity]|exact E]|intros (ai & (ps & Hp & ->) & E); eauto].
  - rewrite (Hany _ _ O5). split; [intros (ps & Hp & E); eexists; split; [exists ps; split; [exact Hp|reflexivity]|exact E]|intros (ai & (ps & Hp & ->) & E); eauto].
Qed.

(** ** elements that may follow *)
Definition skipped (k : N) (e : bytes) : Prop := exists t c, tag t /\ t / 64 = 2 /\ t mod 32 < k /\ e = elem t c.
Lemma context_skips xs : forall fuel k r, Forall (skipped k) xs -> Forall octet (concat xs ++ r) -> small (concat xs ++ r) -> (length (concat xs ++ r) <= fuel)%nat ->
  exists f, (length r <= f)%nat /\ context fuel k (concat xs ++ r) = context f k r.
Proof.
  induction xs as [|x xs IH]; intros fuel k r H Ho Hs Hf; [exists fuel; auto|]. inversion H as [|? ? (t & c & Ht & H2 & Hk & ->) H']; subst. cbn [concat] in *. rewrite <- app_assoc in *.
  destruct fuel as [|fuel]; [cbn [elem app length] in Hf; lia|]. pose proof (proj2 (read_any_iff _ t c (concat xs ++ r) Ho Hs) (conj eq_refl Ht)) as Er.
  change (elem t c ++ concat xs ++ r) with (t :: (len_octets (N.of_nat (length c)) ++ c) ++ concat xs ++ r) in *. cbn [context]. rewrite (proj2 (known_tag_spec t) Ht). cbn [negb]. rewrite H2. replace (k <? t mod 32) with false by lia. cbn [N.eqb Pos.eqb negb orb].
  rewrite Er. replace (t mod 32 =? k) with false by lia. apply IH; [exact H'| | |cbn [length] in Hf; rewrite app_length in Hf; lia].
  - change (t :: (len_octets (N.of_nat (length c)) ++ c) ++ concat xs ++ r) with (elem t c ++ concat xs ++ r) in Ho. apply octets_app in Ho. tauto.
  - change (t :: (len_octets (N.of_nat (length c)) ++ c) ++ concat xs ++ r) with (elem t c ++ concat xs ++ r) in Hs. apply small_app in Hs. tauto.
Qed.
Lemma context_read fuel k : forall b x r, Forall octet b -> small b -> context fuel k b = Some (x, r) -> exists xs, Forall (skipped k) xs
  /\ match x with
     | None => b = concat xs ++ r /\ (r = [] \/ exists t r', r = t :: r' /\ tag t /\ (t / 64 <> 2 \/ k < t mod 32))
     | Some (t, c) => b = concat xs ++ elem t c ++ r /\ tag t /\ t / 64 = 2 /\ t mod 32 = k
     end.
Proof.
  induction fuel as [|fuel IH]; intros b x r Ho Hs H.
  - destruct b; [|discriminate]. injection H as <- <-. exists []. auto.
  - destruct b as [|t b]; [injection H as <- <-; exists []; auto|]. cbn [context] in H. destruct (known_tag t) eqn:Ek; [|discriminate]. cbn [negb] in H. apply known_tag_spec in Ek. destruct (negb (t / 64 =? 2) || (k <? t mod 32)) eqn:E.
    + injection H as <- <-. exists []. split; [constructor|]. split; [reflexivity|]. right. exists t, b. split; [reflexivity|]. split; [exact Ek|]. apply orb_true_iff in E as [E|E]; [left|right; lia]. apply negb_true_iff, N.eqb_neq in E. exact E.
    + apply orb_false_iff in E as [E1 E2]. apply negb_false_iff, N.eqb_eq in E1. destruct (read_any (t :: b)) as [[[t' c] r']|] eqn:Er; [|discriminate]. apply (read_any_iff _ _ _ _ Ho Hs) in Er as [Er Ht].
      assert (Et : t' = t) by (unfold elem in Er; cbn [app] in Er; congruence). subst t'. rewrite Er in *. destruct (t mod 32 =? k) eqn:Em.
      * injection H as <- <-. exists []. split; [constructor|]. cbn [concat app]. split; [reflexivity|]. split; [exact Ht|]. split; [exact E1|]. apply N.eqb_eq. exact Em.
      * apply octets_app in Ho as [_ Ho]. apply small_app in Hs as [_ Hs]. apply (IH _ _ _ Ho Hs) in H as (xs & Hx & H). exists (elem t c :: xs). split; [constructor; [exists t, c; split; [exact Ht|split; [exact E1|split; [lia|reflexivity]]]|exact Hx]|].
        cbn [concat]. rewrite <- app_assoc. destruct x as [[t1 c1]|]; destruct H as [Hb H]; (split; [rewrite Hb, <- ?app_assoc; reflexivity|exact H]).
Qed.
Lemma context_none k xs r : Forall (skipped k) xs -> Forall octet (concat xs ++ r) -> small (concat xs ++ r) -> (r = [] \/ exists t r', r = t :: r' /\ tag t /\ (t / 64 <> 2 \/ k < t mod 32)) ->
  context (length (concat xs ++ r)) k (concat xs ++ r) = Some (None, r).
Proof.
  intros H Ho Hs Hr. destruct (context_skips xs _ k r H Ho Hs (le_n _)) as (f & Hf & ->). destruct Hr as [->|(t & r' & -> & Ht & Hk)]; [destruct f; reflexivity|]. destruct f as [|f]; [cbn in Hf; lia|]. cbn [context].
  rewrite (proj2 (known_tag_spec t) Ht). cbn [negb]. destruct (negb (t / 64 =? 2) || (k <? t mod 32)) eqn:E; [reflexivity|]. apply orb_false_iff in E as [E1 E2]. apply negb_false_iff, N.eqb_eq in E1. lia.
Qed.
Lemma context_some k xs t c r : Forall (skipped k) xs -> Forall octet (concat xs ++ elem t c ++ r) -> small (concat xs ++ elem t c ++ r) -> tag t -> t / 64 = 2 -> t mod 32 = k ->
  context (length (concat xs ++ elem t c ++ r)) k (concat xs ++ elem t c ++ r) = Some (Some (t, c), r).
Proof.
  intros H Ho Hs Ht H2 Hk. destruct (context_skips xs _ k (elem t c ++ r) H Ho Hs (le_n _)) as (f & Hf & ->). apply octets_app in Ho as [_ Ho]. apply small_app in Hs as [_ Hs].
  pose proof (proj2 (read_any_iff _ t c r Ho Hs) (conj eq_refl Ht)) as Er. destruct f as [|f]; [cbn [elem app length] in Hf; lia|]. change (elem t c ++ r) with (t :: (len_octets (N.of_nat (length c)) ++ c) ++ r) in *. cbn [context].
  rewrite (proj2 (known_tag_spec t) Ht), H2. cbn [negb N.eqb Pos.eqb orb]. replace (k <? t mod 32) with false by lia. rewrite Er, (proj2 (N.eqb_eq _ _) Hk). reflexivity.
Qed.
Lemma skipped_attribute e : skipped 1 e <-> attribute e.
Proof.
  split.
  - intros (t & c & (H1 & _) & H2 & H3 & ->). exists t, c. split; [lia|reflexivity].
  - intros (t & c & [->| ->] & ->); [exists 128, c|exists 160, c]; (split; [split; [reflexivity|split; [discriminate|left; discriminate]]|]); (split; [reflexivity|]); (split; [reflexivity|reflexivity]).
Qed.
Lemma skipped_none xs : Forall (skipped 0) xs -> xs = [].
Proof. destruct 1 as [|x xs (t & c & _ & _ & H & _) _]; [reflexivity|lia]. Qed.
Lemma extension_tag t : 160 <= t <= 190 <-> tag t /\ 160 <= t < 192.
Proof. unfold tag. split; [intro H; split; [split; [lia|split; [lia|lia]]|lia]|intros [(H1 & H2 & _) H3]; lia]. Qed.
Lemma extensions_iff fuel : forall b, (length b <= fuel)%nat -> Forall octet b -> small b -> (extensions fuel b = true <-> exists es, b = concat es /\ Forall extension es).
Proof.
  induction fuel as [|fuel IH]; intros b Hf Ho Hs.
  - destruct b; [|cbn in Hf; lia]. split; [intros _; exists []; auto|reflexivity].
  - destruct b as [|x b]; [split; [intros _; exists []; auto|reflexivity]|]. cbn [extensions]. split.
    + destruct (read_any (x :: b)) as [[[t c] r]|] eqn:E; [|discriminate]. apply (read_any_iff _ _ _ _ Ho Hs) in E as [E Ht]. intro H. apply andb_true_iff in H as [H H4]. apply andb_true_iff in H as [H H3]. apply andb_true_iff in H as [H1 H2].
      destruct (read_any c) as [[[t1 c1] [|]]|] eqn:Ec; try discriminate. rewrite E in Hf, Ho, Hs |- *. apply octets_app in Ho as [Ho1 Ho2]. apply small_app in Hs as [Hs1 Hs2]. apply (read_any_iff _ _ _ _ (octets_elem _ _ Ho1) (small_elem _ _ Hs1)) in Ec as [Ec Ht1]. rewrite app_nil_r in Ec.
      apply IH in H4 as (es & -> & Hes); [|rewrite app_length in Hf; cbn [elem length] in Hf; lia|exact Ho2|exact Hs2]. exists (elem t c :: es). split; [reflexivity|]. constructor; [|exact Hes]. exists t, c. split; [apply extension_tag; split; [exact Ht|lia]|]. split; [exists t1, c1; auto|reflexivity].
    + intros (es & E & Hes). destruct Hes as [|e es (t & c & Ht & (t1 & c1 & Ht1 & ->) & ->) Hes]; [discriminate|]. cbn [concat] in E. apply extension_tag in Ht as [Ht Hr]. rewrite E in *. rewrite (proj2 (read_any_iff _ t (elem t1 c1) (concat es) Ho Hs) (conj eq_refl Ht)).
      apply octets_app in Ho as [Ho1 Ho2]. apply small_app in Hs as [Hs1 Hs2]. pose proof (proj2 (read_any_iff (elem t1 c1) t1 c1 [] (octets_elem _ _ Ho1) (small_elem _ _ Hs1)) (conj (eq_sym (app_nil_r _)) Ht1)) as Ec. rewrite Ec.
      replace (160 <=? t) with true by lia. replace (t <? 192) with true by lia. cbn [andb]. apply IH; [rewrite app_length in Hf; cbn [elem length] in Hf; lia|exact Ho2|exact Hs2|]. exists es. auto.
Qed.
Lemma whole_octets_iff c : is_some (whole_octets c) = true <-> exists k, c = 0 :: k.
Proof.
  unfold whole_octets, bit_string. split.
  - destruct c as [|u b]; [discriminate|]. destruct ((7 <? u) || _); [discriminate|]. destruct u; [|discriminate]. intros _. exists b. reflexivity.
  - intros (k & ->). reflexivity.
Qed.
Lemma tag129 : tag 129. Proof. split; [reflexivity|split; [discriminate|left; discriminate]]. Qed.
Lemma tag160 : tag 160. Proof. split; [reflexivity|split; [discriminate|left; discriminate]]. Qed.
Lemma tag161 : tag 161. Proof. split; [reflexivity|split; [discriminate|left; discriminate]]. Qed.

(** ** the documents *)
Lemma pki_tail_iff v r : Forall octet r -> small r ->
  (match context (length r) 1 r with
   | Some (None, r) => (v =? 0) && extensions (length r) r
   | Some (Some (t, c), r) => (v =? 1) && (t =? 129) && is_some (whole_octets c) && extensions (length r) r
   | None => false
   end = true <-> pki_tail v r).
Proof.
  intros Ho Hs. split.
  - destruct (context (length r) 1 r) as [[[[t c]|] r']|] eqn:E; [| |discriminate]; apply (context_read _ _ _ _ _ Ho Hs) in E as (xs & Hx & E).
    + destruct E as (-> & Ht & H2 & H3). intro H. apply andb_true_iff in H as [H He]. apply andb_true_iff in H as [H Hw]. apply andb_true_iff in H as [Hv Ht']. apply N.eqb_eq in Hv, Ht'. subst. apply whole_octets_iff in Hw as (k & ->).
      apply octets_app in Ho as [_ Ho]. apply octets_app in Ho as [_ Ho]. apply small_app in Hs as [_ Hs]. apply small_app in Hs as [_ Hs]. apply extensions_iff in He as (es & -> & Hes); [|lia|exact Ho|exact Hs].
      exists xs, (elem 129 (0 :: k)), es. split; [eapply Forall_impl; [|exact Hx]; intro; apply skipped_attribute|]. split; [exact Hes|]. split; [reflexivity|]. right. eauto.
    + destruct E as [-> Hr]. intro H. apply andb_true_iff in H as [Hv He]. apply N.eqb_eq in Hv. subst v. apply octets_app in Ho as [_ Ho]. apply small_app in Hs as [_ Hs]. apply extensions_iff in He as (es & -> & Hes); [|lia|exact Ho|exact Hs].
      exists xs, [], es. split; [eapply Forall_impl; [|exact Hx]; intro; apply skipped_attribute|]. split; [exact Hes|]. split; [reflexivity|]. left. split; [reflexivity|]. split; [reflexivity|]. intros e es' ->. inversion Hes as [|? ? (t & c & Ht & _ & ->) _]; subst.
      cbn [concat elem app hd] in *. destruct Hr as [Hr|(t' & r' & Hr & _ & Hr')]; [discriminate|]. injection Hr as <- _. lia.
  - intros (xs & pub & es & Hx & Hes & -> & Hv). assert (Hx' : Forall (skipped 1) xs) by (eapply Forall_impl; [|exact Hx]; intro; apply skipped_attribute). destruct Hv as [(-> & -> & Hh)|(-> & k & ->)].
    + cbn [app] in *. rewrite (context_none 1 xs (concat es) Hx' Ho Hs).
      * rewrite N.eqb_refl. apply octets_app in Ho as [_ Ho]. apply small_app in Hs as [_ Hs]. apply extensions_iff; [lia|exact Ho|exact Hs|eauto].
      * destruct Hes as [|e es (t & c & Ht & _ & ->) Hes]; [left; reflexivity|]. right. specialize (Hh _ _ eq_refl). cbn [elem hd] in Hh. cbn [concat elem app]. do 2 eexists. split; [reflexivity|]. split; [apply extension_tag in Ht; tauto|]. lia.
    + rewrite (context_some 1 xs 129 (0 :: k) (concat es) Hx' Ho Hs tag129 eq_refl eq_refl). apply octets_app in Ho as [_ Ho]. apply octets_app in Ho as [_ Ho]. apply small_app in Hs as [_ Hs]. apply small_app in Hs as [_ Hs].
      cbn [N.eqb Pos.eqb andb]. rewrite (proj2 (whole_octets_iff (0 :: k))) by eauto. cbn [andb]. apply extensions_iff; [lia|exact Ho|exact Hs|eauto].
Qed.
Lemma der_pki_iff a b key : Forall octet b -> ((exists i, der_pki b = Some i /\ oids_of a (ki_oid i) (ki_params i) /\ ki_key i = key) <-> exists ai, algorithm a ai /\ pki_file b ai key).
Proof.
  intro Ho. unfold der_pki, pki_file. split.
  - intros (i & H & Ha & Hk). destruct (read_doc b) as [c|] eqn:E; [|discriminate]. apply (read_doc_iff _ _ Ho) in E as [-> Hs]. apply octets_elem in Ho. pose proof (small_elem _ _ Hs) as Hc.
    destruct (read_tag 2 c) as [[[|v [|]] r]|] eqn:E; try discriminate. apply (read_tag_iff _ _ _ _ tag2 Ho Hc) in E. subst c. apply octets_app in Ho as [_ Ho]. apply small_app in Hc as [_ Hc].
    destruct (read_algorithm r) as [[[o p] r1]|] eqn:E; [|discriminate]. destruct (read_tag 4 r1) as [[key1 r2]|] eqn:E4; [|discriminate].
    assert (Hi : i = mkKeyInfo o p key1 /\ match context (length r2) 1 r2 with
        | Some (None, r) => (v =? 0) && extensions (length r) r
        | Some (Some (t, c), r) => (v =? 1) && (t =? 129) && is_some (whole_octets c) && extensions (length r) r
        | None => false
        end = true).
    { cbv zeta in H. destruct (context (length r2) 1 r2) as [[[[t c]|] r3]|]; [| |discriminate]; (destruct (_ && _) in H |- *; [|discriminate]); injection H as <-; auto. }
    destruct Hi as [-> Ht]. cbn [ki_oid ki_params ki_key] in *. subst key1.
    destruct (proj1 (algorithm_iff a r r1 Ho Hc)) as (ai & Hai & ->); [eauto|]. apply octets_app in Ho as [_ Ho]. apply small_app in Hc as [_ Hc]. apply (read_tag_iff _ _ _ _ tag4 Ho Hc) in E4. subst r1. apply octets_app in Ho as [_ Ho]. apply small_app in Hc as [_ Hc].
    apply (pki_tail_iff _ _ Ho Hc) in Ht. exists ai. split; [exact Hai|]. exists v, r2. auto.
  - intros (ai & Hai & v & t & Ht & -> & Hs). rewrite (proj2 (read_doc_iff _ _ Ho) (conj eq_refl Hs)). apply octets_elem in Ho. apply small_elem in Hs. rewrite (proj2 (read_tag_iff 2 _ _ _ tag2 Ho Hs) eq_refl). apply octets_app in Ho as [_ Ho]. apply small_app in Hs as [_ Hs].
    destruct (proj2 (algorithm_iff a _ (elem tOctets key ++ t) Ho Hs)) as (o & p & E & Hoid); [eauto|]. rewrite E. apply octets_app in Ho as [_ Ho]. apply small_app in Hs as [_ Hs]. rewrite (proj2 (read_tag_iff 4 _ _ _ tag4 Ho Hs) eq_refl).
    apply octets_app in Ho as [_ Ho]. apply small_app in Hs as [_ Hs]. apply (pki_tail_iff _ _ Ho Hs) in Ht. cbv zeta. exists (mkKeyInfo o p key). split; [|auto]. destruct (context (length t) 1 t) as [[[[t1 c]|] r3]|]; [| |discriminate]; rewrite Ht; reflexivity.
Qed.
Lemma der_spki_iff a b key : Forall octet b -> ((exists i, der_spki b = Some i /\ oids_of a (si_oid i) (si_params i) /\ si_key i = Some key) <-> exists ai, algorithm a ai /\ spki_file b ai key).
Proof.
  intro Ho. unfold der_spki, spki_file. split.
  - intros (i & H & Ha & Hk). destruct (read_doc b) as [c|] eqn:E; [|discriminate]. apply (read_doc_iff _ _ Ho) in E as [-> Hs]. apply octets_elem in Ho. pose proof (small_elem _ _ Hs) as Hc.
    destruct (read_algorithm c) as [[[o p] r1]|] eqn:E; [|discriminate]. destruct (read_only 3 r1) as [k|] eqn:E3; [|discriminate]. destruct (bit_string k) as [[u ks]|] eqn:Eb; [|discriminate]. injection H as <-. cbn [si_oid si_params si_key] in *.
    destruct (N.eqb_spec u 0) as [->|]; [|discriminate]. injection Hk as ->. destruct (proj1 (algorithm_iff a c r1 Ho Hc)) as (ai & Hai & ->); [eauto|]. apply octets_app in Ho as [_ Ho]. apply small_app in Hc as [_ Hc]. apply (read_only_iff _ _ _ tag3 Ho Hc) in E3. subst r1.
    exists ai. split; [exact Hai|]. split; [|exact Hs]. unfold bit_string in Eb. destruct k as [|u k]; [discriminate|]. destruct (_ || _) in Eb; [discriminate|]. injection Eb as -> ->. reflexivity.
  - intros (ai & Hai & -> & Hs). rewrite (proj2 (read_doc_iff _ _ Ho) (conj eq_refl Hs)). apply octets_elem in Ho. apply small_elem in Hs.
    destruct (proj2 (algorithm_iff a _ (elem tBits (0 :: key)) Ho Hs)) as (o & p & E & Hoid); [eauto|]. rewrite E. apply octets_app in Ho as [_ Ho]. apply small_app in Hs as [_ Hs]. rewrite (proj2 (read_only_iff 3 _ _ tag3 Ho Hs) eq_refl). cbn. eexists. split; [reflexivity|]. auto.
Qed.
Lemma der_ec_iff b key : Forall octet b -> (der_ec b = Some key <-> ec_file b key).
Proof.
  intro Ho. unfold der_ec, ec_file. split.
  - intro H. destruct (read_doc b) as [c|] eqn:E; [|discriminate]. apply (read_doc_iff _ _ Ho) in E as [-> Hs]. apply octets_elem in Ho. pose proof (small_elem _ _ Hs) as Hc.
    destruct (read_tag 2 c) as [[[|v [|]] r]|] eqn:E; try discriminate; [|destruct v as [|[|?|]]; discriminate]. apply (read_tag_iff _ _ _ _ tag2 Ho Hc) in E. subst c. apply octets_app in Ho as [_ Ho]. apply small_app in Hc as [_ Hc].
    destruct v as [|[v|v|]]; try discriminate. destruct (read_tag 4 r) as [[key1 r2]|] eqn:E4; [|discriminate]. apply (read_tag_iff _ _ _ _ tag4 Ho Hc) in E4. subst r. apply octets_app in Ho as [_ Ho]. apply small_app in Hc as [_ Hc].
    destruct (context (length r2) 0 r2) as [[ps r3]|] eqn:E0; [|discriminate]. apply (context_read _ _ _ _ _ Ho Hc) in E0 as (zs & Hz & E0). apply skipped_none in Hz. subst zs. cbn [concat app] in E0.
    assert (Hps : exists pb, r2 = pb ++ r3 /\ (pb = [] /\ (r3 = [] \/ exists t r', r3 = t :: r' /\ tag t /\ (t / 64 <> 2 \/ 0 < t mod 32)) \/ exists o, oid o /\ pb = elem 160 (elem tOid o))).
    { destruct ps as [[t c]|]; [|destruct E0 as [-> E0]; exists []; auto]. destruct E0 as (-> & Ht & _). exists (elem t c). split; [reflexivity|]. right. destruct (t =? 160) eqn:Et; [|discriminate]. cbn [andb] in H. apply N.eqb_eq in Et. subst t.
      apply octets_app in Ho as [Ho _]. apply small_app in Hc as [Hc _]. apply octets_elem in Ho. apply small_elem in Hc. destruct (read_only 6 c) as [o|] eqn:E6; [|discriminate]. apply (read_only_iff _ _ _ tag6 Ho Hc) in E6. subst c.
      destruct (is_some (oid_text o)) eqn:Eo; [|discriminate]. apply (oid_valid _ (octets_elem _ _ Ho)) in Eo. eauto. }
    destruct Hps as (pb & -> & Hps). apply octets_app in Ho as [_ Ho]. apply small_app in Hc as [_ Hc].
    assert (H' : match context (length r3) 1 r3 with
                       | Some (None, []) => Some key1
                       | Some (Some (t, c), []) => if (t =? 161) && match read_only 3 c with Some k => is_some (whole_octets k) | None => false end then Some key1 else None
                       | _ => None
                       end = Some key) by (destruct (match ps with None => true | Some _ => _ end) in H; [exact H|discriminate]).
    clear H E0. destruct (context (length r3) 1 r3) as [[[[t c]|] [|]]|] eqn:E1; try discriminate; apply (context_read _ _ _ _ _ Ho Hc) in E1 as (xs & Hx & E1).
    + destruct E1 as (-> & _). destruct ((t =? 161) && _) eqn:Et; [|discriminate]. injection H' as <-. apply andb_true_iff in Et as [Et Ew]. apply N.eqb_eq in Et. subst t.
      apply octets_app in Ho as [_ Ho]. apply small_app in Hc as [_ Hc]. rewrite app_nil_r in *. apply octets_elem in Ho. apply small_elem in Hc. destruct (read_only 3 c) as [k|] eqn:E3; [|discriminate]. apply (read_only_iff _ _ _ tag3 Ho Hc) in E3. subst c. apply whole_octets_iff in Ew as (k' & ->).
      exists (pb ++ concat xs ++ elem 161 (elem 3 (0 :: k'))). split; [|auto]. exists pb, xs, (elem 161 (elem 3 (0 :: k'))). split; [reflexivity|]. split; [eapply Forall_impl; [|exact Hx]; intro; apply skipped_attribute|]. split; [|right; exists k'; reflexivity].
      destruct Hps as [[-> Hr]|Hps]; [left|right; exact Hps]. split; [reflexivity|]. destruct Hx as [|x xs (t & c & _ & H2 & H3 & ->) _]; [reflexivity|]. destruct Hr as [Hr|(t' & r' & Hr & _ & Hr')]; cbn [concat elem app] in Hr; [discriminate|]. injection Hr as <- _. lia.
    + destruct E1 as [-> _]. injection H' as <-. rewrite app_nil_r in *. exists (pb ++ concat xs). split; [|auto]. exists pb, xs, []. rewrite app_nil_r. split; [reflexivity|]. split; [eapply Forall_impl; [|exact Hx]; intro; apply skipped_attribute|]. split; [|auto].
      destruct Hps as [[-> Hr]|Hps]; [left|right; exact Hps]. split; [reflexivity|]. destruct Hx as [|x xs (t & c & _ & H2 & H3 & ->) _]; [reflexivity|]. destruct Hr as [Hr|(t' & r' & Hr & _ & Hr')]; cbn [concat elem app] in Hr; [discriminate|]. injection Hr as <- _. lia.
  - intros (t & (ps & xs & pub & -> & Hx & Hps & Hpub) & -> & Hs). assert (Hx' : Forall (skipped 1) xs) by (eapply Forall_impl; [|exact Hx]; intro; apply skipped_attribute).
    rewrite (proj2 (read_doc_iff _ _ Ho) (conj eq_refl Hs)). apply octets_elem in Ho. apply small_elem in Hs. rewrite (proj2 (read_tag_iff 2 _ _ _ tag2 Ho Hs) eq_refl). apply octets_app in Ho as [_ Ho]. apply small_app in Hs as [_ Hs].
    rewrite (proj2 (read_tag_iff 4 _ _ _ tag4 Ho Hs) eq_refl). apply octets_app in Ho as [_ Ho]. apply small_app in Hs as [_ Hs].
    assert (E1 : forall r3, r3 = concat xs ++ pub -> Forall octet r3 -> small r3 -> match context (length r3) 1 r3 with
                       | Some (None, []) => Some key
                       | Some (Some (t, c), []) => if (t =? 161) && match read_only 3 c with Some k => is_some (whole_octets k) | None => false end then Some key else None
                       | _ => None
                       end = Some key).
    { intros r3 -> Ho3 Hs3. destruct Hpub as [->|(k & ->)].
      - rewrite (context_none 1 xs [] Hx' Ho3 Hs3) by auto. reflexivity.
      - rewrite <- (app_nil_r (elem 161 (elem tBits (0 :: k)))) in *. rewrite (context_some 1 xs 161 _ [] Hx' Ho3 Hs3 tag161 eq_refl eq_refl). cbn [N.eqb Pos.eqb andb]. apply octets_app in Ho3 as [_ Ho3]. apply octets_app in Ho3 as [Ho3 _]. apply small_app in Hs3 as [_ Hs3]. apply small_app in Hs3 as [Hs3 _].
        rewrite (proj2 (read_only_iff 3 _ _ tag3 (octets_elem _ _ Ho3) (small_elem _ _ Hs3)) eq_refl). reflexivity. }
    destruct Hps as [[-> ->]|(o & Hoid & ->)].
    + cbn [concat app] in *. pose proof (context_none 0 [] pub (Forall_nil _) Ho Hs) as E0. cbn [concat app] in E0. rewrite E0; [apply E1; auto|]. destruct Hpub as [->|(k & ->)]; [left; reflexivity|]. right. exists 161. eexists. split; [reflexivity|]. split; [exact tag161|]. right. reflexivity.
    + pose proof (context_some 0 [] 160 (elem tOid o) (concat xs ++ pub) (Forall_nil _) Ho Hs tag160 eq_refl eq_refl) as E0. cbn [concat app] in E0. change (([] ++ elem 160 (elem tOid o)) ++ concat xs ++ pub) with (elem 160 (elem tOid o) ++ concat xs ++ pub) in E0. rewrite E0. cbn [N.eqb Pos.eqb andb].
      apply octets_app in Ho as [Ho1 Ho2]. apply small_app in Hs as [Hs1 Hs2]. rewrite (proj2 (read_only_iff 6 _ _ tag6 (octets_elem _ _ Ho1) (small_elem _ _ Hs1)) eq_refl), (proj2 (oid_valid _ (octets_elem _ _ (octets_elem _ _ Ho1))) Hoid). apply E1; auto.
Qed.
