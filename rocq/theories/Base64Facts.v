(** Facts about base64 *)
From Coq Require Import ZifyBool ZifyNat ZifyN.
From Verif Require Import Base BaseFacts Base64.
Ltac Zify.zify_post_hook ::= Z.div_mod_to_equations.

Ltac inv_forall := repeat match goal with H : Forall _ (_ :: _) |- _ => inv H end.
Definition bytesp (b : bytes) : Prop := Forall (fun x => x < 256) b.

Lemma b64_val_char v : v < 64 -> b64_val (b64_char v) = Some v.
Proof.
  intro H. assert (Hs : forallb (fun n => match b64_val (b64_char n) with Some m => m =? n | None => false end)
    (map N.of_nat (seq 0 64)) = true) by (vm_compute; reflexivity).
  rewrite forallb_forall in Hs. specialize (Hs v).
  destruct (b64_val (b64_char v)) eqn:E.
  - f_equal. apply N.eqb_eq. apply Hs. apply in_map_iff. exists (N.to_nat v). split; [lia|]. apply in_seq. lia.
  - exfalso. assert (false = true); [|discriminate]. apply Hs. apply in_map_iff. exists (N.to_nat v).
    split; [lia|]. apply in_seq. lia.
Qed.

Lemma b64_val_lt c v : b64_val c = Some v -> v < 64 /\ b64_char v = c.
Proof.
  unfold b64_val, b64_char. intro H.
  repeat destr_in H; inv H; split; try lia; repeat destr; lia.
Qed.

Definition b64_alpha (c : char) : Prop :=
  (65 <= c <= 90) \/ (97 <= c <= 122) \/ (48 <= c <= 57) \/ c = 43 \/ c = 47.
Lemma b64_char_alpha v : v < 64 -> b64_alpha (b64_char v).
Proof. intro H. unfold b64_char, b64_alpha. repeat destr; lia. Qed.
Lemma b64_char_noeq v : v < 64 -> (b64_char v =? cEq) = false.
Proof. intro H. pose proof (b64_char_alpha v H). unfold b64_alpha, cEq in *. lia. Qed.

(** three at a time *)
Lemma three_ind {A} (P : list A -> Prop) :
  P [] -> (forall a, P [a]) -> (forall a b, P [a; b]) -> (forall a b c r, P r -> P (a :: b :: c :: r)) -> forall l, P l.
Proof.
  intros H0 H1 H2 H3 l. assert (H : forall n l, (length l <= n)%nat -> P l); [|apply (H (length l) l); lia].
  induction n as [|n IH]; intros k Hk.
  - destruct k; [assumption | cbn in Hk; lia].
  - destruct k as [|a [|b [|c r]]]; auto. apply H3, IH. cbn in Hk. lia.
Qed.
Lemma four_ind {A} (P : list A -> Prop) :
  P [] -> (forall a, P [a]) -> (forall a b, P [a; b]) -> (forall a b c, P [a; b; c]) ->
  (forall a b c d r, P r -> P (a :: b :: c :: d :: r)) -> forall l, P l.
Proof.
  intros H0 H1 H2 H2' H3 l. assert (H : forall n l, (length l <= n)%nat -> P l); [|apply (H (length l) l); lia].
  induction n as [|n IH]; intros k Hk.
  - destruct k; [assumption | cbn in Hk; lia].
  - destruct k as [|a [|b [|c [|d r]]]]; auto. apply H3, IH. cbn in Hk. lia.
Qed.

Lemma b64_roundtrip lax b : bytesp b -> b64_decode lax (b64_encode b) = Some b.
Proof.
  induction b as [|a|a b|a b c r IH] using three_ind; intro H.
  - reflexivity.
  - unfold bytesp in *; inv_forall. cbn [b64_encode b64_decode].
    replace (cEq =? cEq) with true by reflexivity. cbn iota. unfold b64_fin2.
    rewrite !b64_val_char by lia. destruct lax; cbn [orb].
    + do 2 f_equal. lia.
    + destruct (a mod 4 * 16 mod 16 =? 0) eqn:E; [do 2 f_equal; lia | lia].
  - unfold bytesp in *; inv_forall. cbn [b64_encode b64_decode].
    replace (cEq =? cEq) with true by reflexivity. cbn iota.
    rewrite b64_char_noeq by lia. unfold b64_fin3. rewrite !b64_val_char by lia. destruct lax; cbn [orb].
    + do 2 f_equal; [lia|]. f_equal. lia.
    + destruct (b mod 16 * 4 mod 4 =? 0) eqn:E; [do 2 f_equal; [lia | f_equal; lia] | lia].
  - unfold bytesp in *; inv_forall. cbn [b64_encode b64_decode].
    rewrite b64_char_noeq by lia. rewrite !b64_val_char by lia. rewrite IH by assumption.
    f_equal. f_equal; [lia|]. f_equal; [lia|]. f_equal; lia.
Qed.

Lemma b64_encode_chars b : bytesp b -> Forall (fun c => b64_alpha c \/ c = cEq) (b64_encode b).
Proof.
  induction b as [|a|a b|a b c r IH] using three_ind; intro H; cbn [b64_encode]; unfold bytesp in *; inv_forall;
    repeat (apply Forall_cons; [first [right; reflexivity | left; apply b64_char_alpha; lia]|]);
    try apply Forall_nil.
  apply IH; assumption.
Qed.

Lemma b64_encode_length b : length (b64_encode b) = (4 * ((length b + 2) / 3))%nat.
Proof.
  induction b as [|a|a b|a b c r IH] using three_ind; try reflexivity.
  cbn [b64_encode length]. rewrite IH. lia.
Qed.

Lemma b64_decode_bytes lax s b : b64_decode lax s = Some b -> bytesp b.
Proof.
  assert (F2 : forall a c r, b64_fin2 lax a c = Some r -> bytesp r).
  { unfold b64_fin2. intros a c r H. destruct (b64_val a) eqn:E1; [|discriminate].
    destruct (b64_val c) eqn:E2; [|discriminate]. apply b64_val_lt in E1, E2.
    destruct (lax || _); inv H. repeat constructor; lia. }
  assert (F3 : forall a c d r, b64_fin3 lax a c d = Some r -> bytesp r).
  { unfold b64_fin3. intros a c d r H. destruct (b64_val a) eqn:E1; [|discriminate].
    destruct (b64_val c) eqn:E2; [|discriminate]. destruct (b64_val d) eqn:E3; [|discriminate].
    apply b64_val_lt in E1, E2, E3.
    destruct (lax || _); inv H. repeat constructor; lia. }
  revert b; induction s as [|a|a b|a b c|a b c d r IH] using four_ind; intros x H; cbn [b64_decode] in H.
  - inv H. constructor.
  - discriminate.
  - destruct lax; [eapply F2; eassumption|discriminate].
  - destruct lax; [|discriminate]. destruct (c =? cEq); [eapply F2 | eapply F3]; eassumption.
  - destruct (d =? cEq).
    + destruct r; [|discriminate]. destruct (c =? cEq); [eapply F2 | eapply F3]; eassumption.
    + destruct (b64_val a) eqn:E1; [|discriminate]. destruct (b64_val b) eqn:E2; [|discriminate].
      destruct (b64_val c) eqn:E3; [|discriminate]. destruct (b64_val d) eqn:E4; [|discriminate].
      apply b64_val_lt in E1, E2, E3, E4.
      destruct (b64_decode lax r) eqn:E; [|discriminate]. inv H.
      repeat constructor; try lia. apply IH. reflexivity.
Qed.

(** strict decoding accepts the canonical text only *)
Lemma b64_strict_canonical s b : b64_decode false s = Some b -> s = b64_encode b.
Proof.
  assert (F2 : forall a c r, b64_fin2 false a c = Some r -> [a; c; cEq; cEq] = b64_encode r).
  { unfold b64_fin2. intros a c r H. destruct (b64_val a) eqn:E1; [|discriminate].
    destruct (b64_val c) eqn:E2; [|discriminate]. apply b64_val_lt in E1 as [? <-], E2 as [? <-].
    cbn [orb] in H. destruct (n0 mod 16 =? 0) eqn:E; inv H. cbn [b64_encode].
    f_equal; [f_equal; lia|]. f_equal. f_equal; lia. }
  assert (F3 : forall a c d r, b64_fin3 false a c d = Some r -> [a; c; d; cEq] = b64_encode r).
  { unfold b64_fin3. intros a c d r H. destruct (b64_val a) eqn:E1; [|discriminate].
    destruct (b64_val c) eqn:E2; [|discriminate]. destruct (b64_val d) eqn:E3; [|discriminate].
    apply b64_val_lt in E1 as [? <-], E2 as [? <-], E3 as [? <-].
    cbn [orb] in H. destruct (n1 mod 4 =? 0) eqn:E; inv H. cbn [b64_encode].
    f_equal; [f_equal; lia|]. f_equal; [f_equal; lia|]. f_equal. f_equal; lia. }
  revert b; induction s as [|a|a b|a b c|a b c d r IH] using four_ind; intros x H; cbn [b64_decode] in H;
    try discriminate.
  - inv H. reflexivity.
  - destruct (d =? cEq) eqn:Ed.
    + apply N.eqb_eq in Ed. subst d. destruct r; [|discriminate]. destruct (c =? cEq) eqn:Ec.
      * apply N.eqb_eq in Ec. subst c. apply F2. assumption.
      * apply F3. assumption.
    + destruct (b64_val a) eqn:E1; [|discriminate]. destruct (b64_val b) eqn:E2; [|discriminate].
      destruct (b64_val c) eqn:E3; [|discriminate]. destruct (b64_val d) eqn:E4; [|discriminate].
      apply b64_val_lt in E1 as [? <-], E2 as [? <-], E3 as [? <-], E4 as [? <-].
      destruct (b64_decode false r) eqn:E; [|discriminate]. inv H. cbn [b64_encode].
      f_equal; [f_equal; lia|]. f_equal; [f_equal; lia|]. f_equal; [f_equal; lia|]. f_equal; [f_equal; lia|].
      apply IH. reflexivity.
Qed.

Lemma b64_encode_inj a b : bytesp a -> bytesp b -> b64_encode a = b64_encode b -> a = b.
Proof. intros Ha Hb H. apply (f_equal (b64_decode true)) in H. rewrite !b64_roundtrip in H by assumption. congruence. Qed.
