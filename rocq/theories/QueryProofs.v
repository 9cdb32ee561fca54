(** Form encoding *)
From Coq Require Import ZifyBool ZifyNat ZifyN.
From Verif Require Import Base BaseFacts Sfv Component SpecSfv SpecGrammar SpecId SpecValue ValueProofs SpecQuery.

Definition enc1 (c : N) : str := if plain c then [c] else [37; upper_hex (c / 16); upper_hex (c mod 16)].
Definition enc1_ok (c : N) : bool :=
  if plain c then negb (c =? 37) && negb (c =? 43) && negb (c =? 61)
  else match hex_value (upper_hex (c / 16)), hex_value (upper_hex (c mod 16)) with Some x, Some y => (16 * x + y =? c) | _, _ => false end
       && negb (upper_hex (c / 16) =? 61) && negb (upper_hex (c mod 16) =? 61).
Lemma enc1_all : forallb enc1_ok (map N.of_nat (seq 0 256)) = true.
Proof. vm_compute. reflexivity. Qed.
Lemma enc1_spec c : c < 256 -> enc1_ok c = true.
Proof. intro H. apply (proj1 (forallb_forall enc1_ok _) enc1_all). apply in_map_iff. exists (N.to_nat c). split; [lia|]. apply in_seq. lia. Qed.
Lemma decode_encode b : Forall (fun c => c < 256) b -> form_decode (form_encode b) = b.
Proof.
  induction 1 as [|c b Hc _ IH]; [reflexivity|]. apply enc1_spec in Hc. unfold form_encode in *. cbn [flat_map]. unfold enc1_ok in Hc. destruct (plain c) eqn:P.
  - apply andb_prop in Hc as [Hc _]. apply andb_prop in Hc as [H1 H2]. apply negb_true_iff in H1, H2. cbn [app form_decode]. rewrite H1, H2, IH. reflexivity.
  - cbn [app form_decode]. change (37 =? 43) with false. change (37 =? 37) with true. cbn iota.
    destruct (hex_value (upper_hex (c / 16))) as [x|]; [|discriminate]. destruct (hex_value (upper_hex (c mod 16))) as [y|]; [|discriminate].
    apply andb_prop in Hc as [Hc _]. apply andb_prop in Hc as [Hc _]. apply N.eqb_eq in Hc. rewrite IH, Hc. reflexivity.
Qed.
Lemma encode_no_eq b : Forall (fun c => c < 256) b -> ~ In 61 (form_encode b).
Proof.
  induction 1 as [|c b Hc _ IH]; [intros []|]. apply enc1_spec in Hc. unfold form_encode in *. cbn [flat_map]. rewrite in_app_iff. intros [H|H]; [|auto]. unfold enc1_ok in Hc. destruct (plain c).
  - apply andb_prop in Hc as [_ Hc]. destruct H as [H|[]]. subst. discriminate.
  - destruct (hex_value _); [|discriminate]. destruct (hex_value _); [|discriminate]. apply andb_prop in Hc as [Hc H2]. apply andb_prop in Hc as [_ H1].
    destruct H as [H|[H|[H|[]]]]; [discriminate|rewrite H in H1; discriminate|rewrite H in H2; discriminate].
Qed.
Lemma utf8_bytes b : utf8_text b -> Forall (fun c => c < 256) b.
Proof. induction 1; repeat (apply Forall_cons; [lia|]); try assumption; constructor. Qed.
Lemma encoded_nil w : encoded w = [] <-> w = [].
Proof.
  split; [|intros ->; reflexivity]. unfold encoded. intro H. assert (E : form_decode w = []).
  { destruct (form_decode w) as [|c b]; [reflexivity|]. unfold form_encode in H. cbn [flat_map] in H. destruct (plain c); discriminate. }
  destruct w as [|c r]; [reflexivity|]. cbn [form_decode] in E. destruct (c =? 43); [discriminate|]. destruct (c =? 37); [|discriminate].
  destruct r as [|x [|y r]]; try discriminate. destruct (hex_value x); [destruct (hex_value y)|]; discriminate.
Qed.
Lemma split_eq x w y v : x ++ 61 :: w = y ++ 61 :: v -> ~ In 61 x -> ~ In 61 y -> x = y /\ w = v.
Proof.
  revert y. induction x as [|c x IH]; intros [|d y] E Hx Hy.
  - injection E as ->. auto.
  - injection E as <- _. destruct Hy. left. reflexivity.
  - injection E as -> _. destruct Hx. left. reflexivity.
  - injection E as <- E. cbn [In] in *. destruct (IH y E) as [-> ->]; tauto.
Qed.
Lemma piece_fun p x w y v : piece_pair p x w -> piece_pair p y v -> x = y /\ w = v.
Proof.
  intros (_ & [[-> Hx]|(-> & -> & Hx)]) (_ & [[E Hy]|(E & -> & Hy)]).
  - apply split_eq; assumption.
  - exfalso. apply Hy. apply in_or_app. right. left. reflexivity.
  - exfalso. apply Hx. rewrite E. apply in_or_app. right. left. reflexivity.
  - auto.
Qed.
Lemma only_fun (P : str -> Prop) a p b a' p' b' : a ++ p :: b = a' ++ p' :: b' -> P p -> P p' -> Forall (fun q => ~ P q) (a ++ b) -> Forall (fun q => ~ P q) (a' ++ b') -> p = p'.
Proof.
  revert a'. induction a as [|c a IH]; intros [|d a'] E Hp Hp' H H'.
  - injection E as -> _. reflexivity.
  - injection E as -> _. inversion H'; contradiction.
  - injection E as -> _. inversion H; contradiction.
  - injection E as -> E. inversion H; inversion H'; subst. eapply IH; eassumption.
Qed.
Lemma only_pair_fun n ps x w y v : only_pair n ps x w -> only_pair n ps y v -> x = y /\ w = v.
Proof.
  intros (a & p & b & -> & H1 & H2 & H3) (a' & p' & b' & E & K1 & K2 & K3). assert (p = p') as <-.
  { eapply (only_fun (has_name n)); [exact E| | |exact H3|exact K3]; eexists _, _; eauto. }
  eapply piece_fun; eassumption.
Qed.
Lemma qvalues_app n a b oa ob : qvalues n a oa -> qvalues n b ob -> qvalues n (a ++ b) (oa ++ ob).
Proof. induction 1; cbn [app]; auto using qv_take, qv_skip. Qed.
Lemma qvalues_none n ps : encoded n = n -> Forall (fun q => ~ has_name n q) ps -> qvalues n ps [].
Proof.
  intro Hn. induction 1 as [|q ps Hq _ IH]; constructor; [|assumption]. intros v (-> & Hi). apply Hq. exists n, v. split; [|assumption]. split; [destruct n; discriminate|]. left. split; [reflexivity|assumption].
Qed.
Lemma only_values n ps x w : only_pair n ps x w -> utf8_text (form_decode x) ->
  exists out, qvalues n ps out /\ (w = [] /\ (out = [] \/ out = [[]]) \/ w <> [] /\ (x = n /\ out = [w] \/ x <> n /\ out = [])).
Proof.
  intros (a & p & b & -> & (Hp & H1) & H2 & H3) Hu. apply Forall_app in H3 as [Ha Hb]. apply utf8_bytes in Hu.
  assert (Hn : encoded n = n) by (rewrite <- H2; unfold encoded at 1; unfold encoded at 1; rewrite decode_encode by assumption; reflexivity).
  assert (Hi : ~ In 61 n) by (rewrite <- H2; apply encode_no_eq, Hu).
  assert (Hq : exists o, qvalues n [p] o /\ (w = [] /\ (o = [] \/ o = [[]]) \/ w <> [] /\ (x = n /\ o = [w] \/ x <> n /\ o = []))).
  { destruct H1 as [[-> Hx]|(-> & -> & Hx)].
    - destruct (list_eq_dec N.eq_dec x n) as [->|Hne].
      + exists [w]. split; [apply (qv_take n w [] []); [assumption|constructor]|]. destruct w; [left; auto|right; split; [discriminate|auto]].
      + exists []. split; [apply qv_skip; [|constructor]; intros v (E & _); apply split_eq in E as [E _]; auto|]. destruct w; [left; auto|right; split; [discriminate|auto]].
    - exists []. split; [|left; auto]. apply qv_skip; [|constructor]. intros v (E & _). apply Hx. rewrite E. apply in_or_app. right. left. reflexivity. }
  destruct Hq as (o & Hq & Ho). exists o. split; [|exact Ho].
  replace (a ++ p :: b) with (a ++ [p] ++ b) by reflexivity. replace o with ([] ++ o ++ []) by apply app_nil_r. apply qvalues_app; [apply qvalues_none; assumption|]. apply qvalues_app; [assumption|apply qvalues_none; assumption].
Qed.
