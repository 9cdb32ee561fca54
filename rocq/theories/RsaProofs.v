(** Lemmas about RSA keys for Props_Rsa.v. *)
From Verif Require Import Base Crypto SpecSfv Der SpecDer DerProofs Rsa SpecRsa.
From Coq Require Import Lia.

(** ** numbers *)
Definition val (c : bytes) : N := fold_left (fun a d => a * 256 + d) c 0.
Lemma val_acc c : forall a, fold_left (fun a d => a * 256 + d) c a = a * 256 ^ N.of_nat (length c) + val c.
Proof.
  unfold val. induction c as [|x c IH]; intro a; [cbn; lia|]. cbn [fold_left length]. rewrite IH, (IH (0 * 256 + x)), Nnat.Nat2N.inj_succ, N.pow_succ_r'. lia.
Qed.
Lemma val_cons x c : val (x :: c) = x * 256 ^ N.of_nat (length c) + val c.
Proof. unfold val at 1. cbn [fold_left]. rewrite val_acc. lia. Qed.
Lemma val_lt c : Forall octet c -> val c < 256 ^ N.of_nat (length c).
Proof.
  induction 1 as [|x c Hx _ IH]; [reflexivity|]. rewrite val_cons. cbn [length]. rewrite Nnat.Nat2N.inj_succ, N.pow_succ_r'. unfold octet in Hx. nia.
Qed.
Lemma val_inj c : forall c', Forall octet c -> Forall octet c' -> length c = length c' -> val c = val c' -> c = c'.
Proof.
  induction c as [|x c IH]; intros [|x' c'] H H' Hl E; try discriminate Hl; [reflexivity|]. inversion H; inversion H'; subst. injection Hl as Hl. rewrite !val_cons, <- Hl in E.
  pose proof (val_lt c ltac:(assumption)) as B. pose proof (val_lt c' ltac:(assumption)) as B'. rewrite <- Hl in B'. set (p := 256 ^ N.of_nat (length c)) in *.
  assert (x = x') by nia. subst x'. f_equal. apply IH; auto. lia.
Qed.
Lemma number_upper c n : number c n -> n < 128 * 256 ^ N.of_nat (length c - 1).
Proof.
  intros (H1 & H2 & <- & H3 & _). destruct c as [|x c]; [congruence|]. cbn [hd] in H3. inversion H2; subst. fold (val (x :: c)). rewrite val_cons. replace (length (x :: c) - 1)%nat with (length c) by (cbn; lia).
  pose proof (val_lt c ltac:(assumption)). nia.
Qed.
Lemma number_lower c n : number c n -> (2 <= length c)%nat -> 128 * 256 ^ N.of_nat (length c - 2) <= n.
Proof.
  intros (H1 & H2 & <- & H3 & H4) Hl. destruct c as [|x [|y c]]; cbn [length] in Hl; try lia. fold (val (x :: y :: c)). rewrite !val_cons. cbn [length]. replace (S (S (length c)) - 2)%nat with (length c) by lia.
  rewrite Nnat.Nat2N.inj_succ, N.pow_succ_r'. destruct (N.eq_dec x 0) as [->|Hx]; [specialize (H4 y c eq_refl); nia|nia].
Qed.
Lemma number_inj c c' n : number c n -> number c' n -> c = c'.
Proof.
  intros H H'. assert (Hlen : forall a b, number a n -> number b n -> (length b <= length a)%nat).
  { intros a b Ha Hb. destruct (Nat.le_gt_cases (length b) (length a)) as [?|Hlt]; [assumption|]. exfalso.
    assert (La : (1 <= length a)%nat) by (destruct Ha as (Ha & _); destruct a; [congruence|cbn; lia]). pose proof (number_upper _ _ Ha) as U. pose proof (number_lower _ _ Hb ltac:(lia)) as L.
    assert (256 ^ N.of_nat (length a - 1) <= 256 ^ N.of_nat (length b - 2)) by (apply N.pow_le_mono_r; lia). lia. }
  pose proof (Hlen _ _ H H'). pose proof (Hlen _ _ H' H). destruct H as (_ & Ho & E & _), H' as (_ & Ho' & E' & _). apply val_inj; auto; [lia|unfold val; congruence].
Qed.
Lemma number_fun c n n' : number c n -> number c n' -> n = n'.
Proof. intros (_ & _ & E & _) (_ & _ & E' & _). congruence. Qed.
Lemma uint_iff c n : Forall octet c -> (uint c = Some n <-> number c n).
Proof.
  intro Ho. unfold uint, number, big_endian. destruct c as [|x [|y c]].
  - split; [discriminate|intros [H _]; congruence].
  - cbn [fold_left hd]. destruct (N.ltb_spec x 128); (split; [intro E; try discriminate E|intros (_ & _ & E & H' & _); try lia]).
    + injection E as <-. split; [discriminate|]. split; [exact Ho|]. split; [lia|]. split; [assumption|]. intros; discriminate.
    + f_equal. lia.
  - destruct ((128 <=? x) || ((x =? 0) && (y <? 128))) eqn:E; (split; [intro H; try discriminate H|intros (_ & _ & H1 & H2 & H3)]).
    + exfalso. cbn [hd] in H2. apply orb_true_iff in E as [E|E]; [lia|]. apply andb_true_iff in E as [E1 E2]. apply N.eqb_eq in E1. subst x. specialize (H3 y c eq_refl). lia.
    + injection H as H. split; [discriminate|]. split; [exact Ho|]. split; [exact H|]. apply orb_false_iff in E as [E1 E2]. cbn [hd]. split; [lia|]. intros y' r Hc. injection Hc as -> -> ->. cbn in E2. lia.
    + f_equal. exact H1.
Qed.

(** ** reading *)
Lemma read_uints_iff k : forall b l r, Forall octet b -> small b -> (read_uints k b = Some (l, r) <-> exists cs, Forall2 number cs l /\ length l = k /\ b = concat (map (elem 2) cs) ++ r).
Proof.
  induction k as [|k IH]; intros b l r Ho Hs; cbn [read_uints].
  - split; [intro H; injection H as <- <-; exists []; auto|]. intros (cs & H & Hl & ->). destruct l; [|discriminate]. inversion H; subst. reflexivity.
  - split.
    + destruct (read_tag 2 b) as [[c r']|] eqn:E; [|discriminate]. apply (read_tag_iff 2 b c r' tag2 Ho Hs) in E. subst b. apply octets_app in Ho as [Hc Ho]. apply octets_elem in Hc. apply small_app in Hs as [_ Hs].
      destruct (uint c) as [n|] eqn:En; [|discriminate]. destruct (read_uints k r') as [[l' r0]|] eqn:El; [|discriminate]. intro H. injection H as <- <-.
      apply (IH _ _ _ Ho Hs) in El as (cs & H1 & H2 & ->). exists (c :: cs). split; [constructor; [apply uint_iff; assumption|exact H1]|]. split; [cbn; lia|]. cbn [map concat]. rewrite app_assoc. reflexivity.
    + intros (cs & H & Hl & E). destruct l as [|n l]; [discriminate|]. inversion H as [|c n' cs' l' Hn H' E1 E2]; subst. cbn [map concat] in *. rewrite <- app_assoc in *.
      rewrite (proj2 (read_tag_iff 2 _ c (concat (map (elem 2) cs') ++ r) tag2 Ho Hs) eq_refl). apply octets_app in Ho as [Hc Ho]. apply octets_elem in Hc. apply small_app in Hs as [_ Hs].
      rewrite (proj2 (uint_iff c n Hc) Hn). injection Hl as Hl. rewrite (proj2 (IH _ l r Ho Hs)); [reflexivity|]. exists cs'. auto.
Qed.
Lemma pkcs1_public_iff b n e : Forall octet b -> (pkcs1_public b = Some (n, e) <-> rsa_public_octets b n e).
Proof.
  intro Ho. unfold pkcs1_public, rsa_public_octets. split.
  - destruct (read_doc b) as [c|] eqn:E; [|discriminate]. apply (read_doc_iff _ _ Ho) in E as [-> Hs]. apply octets_elem in Ho. pose proof (small_elem _ _ Hs) as Hc.
    destruct (read_uints 2 c) as [[l r]|] eqn:El; [|discriminate]. apply (read_uints_iff 2 _ _ _ Ho Hc) in El as (cs & H & _ & ->). destruct l as [|x [|y [|]]], r; try discriminate. intro H'. injection H' as -> ->.
    inversion H as [|cn ? ? ? Hn H']; subst. inversion H' as [|ce ? ? ? He H'']; subst. inversion H''; subst. exists cn, ce. split; [exact Hn|]. split; [exact He|]. cbn [map concat] in *. rewrite !app_nil_r in *. auto.
  - intros (cn & ce & Hn & He & -> & Hs). rewrite (proj2 (read_doc_iff _ (elem tInteger cn ++ elem tInteger ce) Ho) (conj eq_refl Hs)). apply octets_elem in Ho. apply small_elem in Hs.
    rewrite (proj2 (read_uints_iff 2 _ [n; e] [] Ho Hs)); [reflexivity|]. exists [cn; ce]. split; [constructor; [exact Hn|constructor; [exact He|constructor]]|]. split; [reflexivity|]. cbn [map concat]. rewrite !app_nil_r. reflexivity.
Qed.
Lemma pkcs1_private_iff b l : Forall octet b -> (pkcs1_private b = Some l <-> rsa_private_octets b l).
Proof.
  intro Ho. unfold pkcs1_private, rsa_private_octets. split.
  - destruct (read_doc b) as [c|] eqn:E; [|discriminate]. apply (read_doc_iff _ _ Ho) in E as [-> Hs]. apply octets_elem in Ho. pose proof (small_elem _ _ Hs) as Hc.
    destruct (read_tag 2 c) as [[v r]|] eqn:Ev; [|discriminate]. apply (read_tag_iff 2 _ _ _ tag2 Ho Hc) in Ev. subst c. destruct v as [|[|] [|]]; try discriminate.
    apply octets_app in Ho as [_ Ho]. apply small_app in Hc as [_ Hc]. destruct (read_uints 8 r) as [[l' r']|] eqn:El; [|discriminate]. apply (read_uints_iff 8 _ _ _ Ho Hc) in El as (cs & H & Hl & ->).
    destruct r'; [|discriminate]. intro H'. injection H' as <-. exists cs. rewrite app_nil_r in *. auto.
  - intros (cs & H & Hl & -> & Hs). rewrite (proj2 (read_doc_iff _ (elem tInteger [0] ++ concat (map (elem tInteger) cs)) Ho) (conj eq_refl Hs)). apply octets_elem in Ho. apply small_elem in Hs.
    rewrite (proj2 (read_tag_iff 2 _ [0] _ tag2 Ho Hs) eq_refl). apply octets_app in Ho as [_ Ho]. apply small_app in Hs as [_ Hs].
    rewrite (proj2 (read_uints_iff 8 _ l [] Ho Hs)); [reflexivity|]. exists cs. rewrite app_nil_r. auto.
Qed.

(** ** writing *)
Lemma octets_be_spec f : forall n acc, n < 256 ^ N.of_nat f -> exists b, octets_be f n acc = b ++ acc /\ val b = n /\ Forall octet b /\ (forall r, b <> 0 :: r).
Proof.
  induction f as [|f IH]; intros n acc H; cbn [octets_be]; [exists []; cbn in H; assert (n = 0) by lia; subst; repeat split; auto; discriminate|].
  destruct (N.eqb_spec n 0) as [->|Hn]; [exists []; repeat split; auto; discriminate|]. rewrite Nnat.Nat2N.inj_succ, N.pow_succ_r' in H.
  destruct (IH (n / 256) (n mod 256 :: acc)) as (b & E & V & Hb & H0); [apply N.div_lt_upper_bound; lia|]. exists (b ++ [n mod 256]). rewrite E, <- app_assoc. split; [reflexivity|].
  split; [unfold val in *; rewrite fold_left_app, V; cbn [fold_left]; pose proof (N.div_mod n 256); lia|]. split; [apply Forall_app; split; [exact Hb|]; constructor; [|constructor]; unfold octet; apply N.mod_lt; lia|].
  intros r Hr. destruct b as [|x b]; [|cbn [app] in Hr; injection Hr as -> _; exact (H0 _ eq_refl)]. cbn [app] in Hr. injection Hr as Hr _. cbn in V. pose proof (N.div_mod n 256). lia.
Qed.
Lemma octets_spec n : val (octets n) = n /\ Forall octet (octets n) /\ (forall r, octets n <> 0 :: r).
Proof.
  destruct (octets_be_spec (N.to_nat (N.size n)) n []) as (b & E & H).
  - rewrite Nnat.N2Nat.id. pose proof (N.size_gt n) as H. eapply N.lt_le_trans; [exact H|]. apply N.pow_le_mono_l. lia.
  - unfold octets. rewrite E, app_nil_r. exact H.
Qed.
Lemma write_uint_number n : number (write_uint n) n.
Proof.
  destruct (octets_spec n) as (V & Ho & H0). unfold write_uint, number. destruct (octets n) as [|x r].
  - cbn in V. subst n. split; [discriminate|]. split; [constructor; [reflexivity|constructor]|]. split; [reflexivity|]. split; [reflexivity|]. intros; discriminate.
  - destruct (N.leb_spec 128 x).
    + split; [discriminate|]. split; [constructor; [reflexivity|exact Ho]|]. split; [exact V|]. split; [reflexivity|]. intros y r' E. injection E as <- <-. assumption.
    + split; [discriminate|]. split; [exact Ho|]. split; [exact V|]. split; [assumption|]. intros y r' E. injection E as -> _. destruct (H0 _ eq_refl).
Qed.
Lemma octets_len n k : Forall octet k -> val k = n -> (forall r, k <> 0 :: r) -> octets n = k.
Proof.
  intros Hk V H0. destruct (octets_spec n) as (V' & Ho & H0'). assert (Hlen : forall a b, Forall octet a -> Forall octet b -> (forall r, b <> 0 :: r) -> val a = val b -> (length b <= length a)%nat).
  { intros a b Ha Hb Hz E. destruct b as [|x b]; [cbn; lia|]. destruct (Nat.le_gt_cases (length (x :: b)) (length a)) as [?|Hlt]; [assumption|]. exfalso. pose proof (val_lt a Ha) as U. rewrite E, val_cons in U.
    assert (x <> 0) by (intros ->; exact (Hz _ eq_refl)). cbn [length] in Hlt. assert (256 ^ N.of_nat (length a) <= 256 ^ N.of_nat (length b)) by (apply N.pow_le_mono_r; lia). nia. }
  apply val_inj; auto; [|congruence]. pose proof (Hlen _ _ Ho Hk H0 ltac:(congruence)). pose proof (Hlen _ _ Hk Ho H0' ltac:(congruence)). lia.
Qed.
Lemma write_elem_spec t c : N.of_nat (length c) < 4294967296 -> write_elem t c = elem t c.
Proof.
  intro H. unfold write_elem, elem. set (n := N.of_nat (length c)) in *. unfold len_octets. destruct (N.ltb_spec n 128) as [|E1]; [reflexivity|]. f_equal. f_equal.
  assert (Hd : forall m, m mod 256 < 256) by (intro; apply N.mod_lt; lia). pose proof (Hd n) as D0. pose proof (Hd (n / 256)) as D1. pose proof (Hd (n / 65536)) as D2. clear Hd.
  pose proof (N.div_mod n 256 ltac:(lia)) as E2. pose proof (N.div_mod (n / 256) 256 ltac:(lia)) as E3. pose proof (N.div_mod (n / 65536) 256 ltac:(lia)) as E4.
  assert (Q1 : n / 256 / 256 = n / 65536) by (rewrite N.div_div by lia; reflexivity). assert (Q2 : n / 65536 / 256 = n / 16777216) by (rewrite N.div_div by lia; reflexivity). rewrite Q1 in E3. rewrite Q2 in E4.
  assert (K : forall k, Forall octet k -> val k = n -> (forall r, k <> 0 :: r) -> 128 + N.of_nat (length (octets n)) :: octets n = 128 + N.of_nat (length k) :: k) by (intros k A B C; rewrite (octets_len n k A B C); reflexivity).
  destruct (N.ltb_spec n 256); [apply (K [n]); [repeat constructor; unfold octet; lia|unfold val; cbn [fold_left]; lia|intros r E; injection E as E; lia]|].
  destruct (N.ltb_spec n 65536); [apply (K [n / 256; n mod 256]); [repeat constructor; unfold octet; lia|unfold val; cbn [fold_left]; lia|intros r E; injection E as E; lia]|].
  destruct (N.ltb_spec n 16777216); [apply (K [n / 65536; n / 256 mod 256; n mod 256]); [repeat constructor; unfold octet; lia|unfold val; cbn [fold_left]; lia|intros r E; injection E as E; lia]|].
  apply (K [n / 16777216; n / 65536 mod 256; n / 256 mod 256; n mod 256]); [repeat constructor; unfold octet; lia|unfold val; cbn [fold_left]; lia|intros r E; injection E as E; lia].
Qed.
Lemma octet_len n : n < 268435456 -> Forall octet (len_octets n).
Proof.
  intro Hn. unfold len_octets. repeat match goal with |- context [if ?c then _ else _] => destruct c eqn:?E end; repeat constructor; unfold octet; try lia; try (apply N.mod_lt; lia); try (apply N.div_lt_upper_bound; lia).
Qed.
Lemma octets_elem_small t c : t < 256 -> Forall octet c -> small c -> Forall octet (elem t c).
Proof. intros Ht Hc Hs. unfold elem. constructor; [exact Ht|]. apply Forall_app. split; [exact (octet_len _ Hs)|exact Hc]. Qed.
Lemma write_elem_longer t c : (length c < length (write_elem t c))%nat.
Proof. unfold write_elem. cbn [length]. rewrite app_length. lia. Qed.
Lemma write_public_iff n e b : write_pkcs1_public (n, e) = Some b <-> rsa_public_octets b n e.
Proof.
  unfold write_pkcs1_public, rsa_public_octets. cbn [fst snd]. set (cn := write_uint n). set (ce := write_uint e).
  assert (Hw : N.of_nat (length (write_elem 48 (write_elem 2 cn ++ write_elem 2 ce))) < 268435456 \/ small (elem 48 (elem 2 cn ++ elem 2 ce)) ->
    write_elem 48 (write_elem 2 cn ++ write_elem 2 ce) = elem tSequence (elem tInteger cn ++ elem tInteger ce)).
  { intros [H|H].
    - pose proof (write_elem_longer 48 (write_elem 2 cn ++ write_elem 2 ce)) as L. rewrite app_length in L. pose proof (write_elem_longer 2 cn). pose proof (write_elem_longer 2 ce).
      assert (E : write_elem 2 cn = elem 2 cn /\ write_elem 2 ce = elem 2 ce) by (split; apply write_elem_spec; lia). destruct E as [E1 E2]. rewrite E1, E2 in L, H |- *. unfold tInteger, tSequence. apply write_elem_spec. rewrite app_length. lia.
    - apply small_elem in H. pose proof (small_app _ _ H) as [H1 H2]. apply small_elem in H1. apply small_elem in H2. unfold small in *.
      rewrite (write_elem_spec 2 cn), (write_elem_spec 2 ce) by lia. unfold tInteger, tSequence. apply write_elem_spec. lia. }
  split.
  - destruct (N.ltb_spec 268435455 (N.of_nat (length (write_elem 48 (write_elem 2 cn ++ write_elem 2 ce))))) as [|E]; [discriminate|]. intro H. assert (Hb : b = write_elem 48 (write_elem 2 cn ++ write_elem 2 ce)) by congruence. clear H. subst b. pose proof (Hw (or_introl (proj2 (N.lt_succ_r _ 268435455) E))) as W. rewrite W in E |- *. exists cn, ce. split; [apply write_uint_number|]. split; [apply write_uint_number|]. split; [reflexivity|]. unfold small. lia.
  - intros (cn' & ce' & Hn & He & -> & Hs). rewrite (number_inj _ _ _ Hn (write_uint_number n)), (number_inj _ _ _ He (write_uint_number e)) in *. fold cn ce in Hs |- *. rewrite Hw by (right; exact Hs).
    unfold small in Hs. change (elem 48 (elem 2 cn ++ elem 2 ce)) with (elem tSequence (elem tInteger cn ++ elem tInteger ce)) in *. destruct (N.ltb_spec 268435455 (N.of_nat (length (elem tSequence (elem tInteger cn ++ elem tInteger ce))))); [lia|reflexivity].
Qed.
