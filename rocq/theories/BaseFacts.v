(** Facts about Base.v *)
From Coq Require Import ZifyBool ZifyNat ZifyN.
From Verif Require Import Base.
Ltac Zify.zify_post_hook ::= Z.div_mod_to_equations.

(** case split on the first [if]/[match] found *)
Ltac destr :=
  match goal with
  | |- context [match ?x with _ => _ end] => destruct x eqn:?
  end.
Ltac destr_in H :=
  match type of H with
  | context [match ?x with _ => _ end] => destruct x eqn:?
  end.
Ltac inv H := inversion H; subst; clear H.

Lemma list_eqb_eq {A} (eqb : A -> A -> bool) (Heq : forall x y, eqb x y = true <-> x = y) a b :
  list_eqb eqb a b = true <-> a = b.
Proof.
  revert b; induction a as [|x a IH]; destruct b as [|y b]; cbn [list_eqb]; split; intro H; try congruence.
  - apply andb_true_iff in H as [H1 H2]. apply Heq in H1. apply IH in H2. congruence.
  - inv H. apply andb_true_iff. split; [apply Heq | apply IH]; reflexivity.
Qed.

Lemma str_eqb_eq a b : str_eqb a b = true <-> a = b.
Proof. apply list_eqb_eq. intros. apply N.eqb_eq. Qed.
Lemma str_eqb_refl a : str_eqb a a = true.
Proof. apply str_eqb_eq; reflexivity. Qed.
Lemma str_eqb_neq a b : str_eqb a b = false <-> a <> b.
Proof.
  split; intros H.
  - intros ->. rewrite str_eqb_refl in H. discriminate.
  - destruct (str_eqb a b) eqn:E; [|reflexivity]. apply str_eqb_eq in E. congruence.
Qed.
Lemma str_eqb_sym a b : str_eqb a b = str_eqb b a.
Proof.
  destruct (str_eqb a b) eqn:E; symmetry.
  - apply str_eqb_eq in E. subst. apply str_eqb_refl.
  - apply str_eqb_neq. apply str_eqb_neq in E. congruence.
Qed.
Lemma str_eq_dec (a b : str) : {a = b} + {a <> b}.
Proof. apply (list_eq_dec N.eq_dec). Qed.

(** ** collect *)
Lemma collect_ok {E A B} (f : A -> result E B) l r :
  collect f l = Ok r <-> Forall2 (fun x y => f x = Ok y) l r.
Proof.
  revert r; induction l as [|x l IH]; intros r; cbn [collect].
  - split; intro H; inv H; constructor.
  - split; intro H.
    + destruct (f x) eqn:Ef; try discriminate.
      destruct (collect f l) eqn:El; inv H.
      constructor; [assumption | apply IH; reflexivity].
    + inv H. rewrite H2. apply IH in H4. rewrite H4. reflexivity.
Qed.

Lemma collect_ext {E A B} (f g : A -> result E B) l :
  (forall x, In x l -> f x = g x) -> collect f l = collect g l.
Proof.
  induction l as [|x l IH]; intro H; cbn [collect]; [reflexivity|].
  rewrite (H x (or_introl eq_refl)). rewrite IH; [reflexivity|].
  intros y Hy. apply H. right; assumption.
Qed.

Lemma collect_map {E A B C} (f : B -> result E C) (g : A -> B) l :
  collect f (map g l) = collect (fun x => f (g x)) l.
Proof. induction l as [|x l IH]; cbn [collect map]; [reflexivity|]. rewrite IH. reflexivity. Qed.

Lemma collect_all_ok {E A B} (f : A -> result E B) (g : A -> B) l :
  (forall x, In x l -> f x = Ok (g x)) -> collect f l = Ok (map g l).
Proof.
  induction l as [|x l IH]; intro H; cbn [collect map]; [reflexivity|].
  rewrite (H x (or_introl eq_refl)), IH; [reflexivity|].
  intros y Hy; apply H; right; assumption.
Qed.

Lemma collect_app {E A B} (f : A -> result E B) l1 l2 :
  collect f (l1 ++ l2) = bind (collect f l1) (fun r1 => bind (collect f l2) (fun r2 => Ok (r1 ++ r2))).
Proof.
  induction l1 as [|x l1 IH]; cbn [collect app bind].
  - destruct (collect f l2); reflexivity.
  - destruct (f x); cbn; try reflexivity. rewrite IH.
    destruct (collect f l1); cbn; try reflexivity. destruct (collect f l2); reflexivity.
Qed.

Lemma Forall2_len {A B} (R : A -> B -> Prop) l r : Forall2 R l r -> length l = length r.
Proof. induction 1; cbn; congruence. Qed.

Lemma collect_length {E A B} (f : A -> result E B) l r : collect f l = Ok r -> length r = length l.
Proof. intro H. apply collect_ok in H. symmetry. eapply Forall2_len; eassumption. Qed.

Lemma Forall2_functional {A B} (R : A -> B -> Prop) l r r' :
  (forall a b b', R a b -> R a b' -> b = b') -> Forall2 R l r -> Forall2 R l r' -> r = r'.
Proof.
  intros Hf H. revert r'. induction H; intros r' H'; inv H'; [reflexivity|].
  f_equal; [eapply Hf; eassumption | apply IHForall2; assumption].
Qed.

Lemma ocollect_some {A B} (f : A -> option B) l r :
  ocollect f l = Some r <-> Forall2 (fun x y => f x = Some y) l r.
Proof.
  revert r; induction l as [|x l IH]; intros r; cbn [ocollect].
  - split; intro H; inv H; constructor.
  - split; intro H.
    + destruct (f x) eqn:Ef; try discriminate.
      destruct (ocollect f l) eqn:El; inv H.
      constructor; [assumption | apply IH; reflexivity].
    + inv H. rewrite H2. apply IH in H4. rewrite H4. reflexivity.
Qed.

(** ** filter_map *)
Lemma filter_map_app {A B} (f : A -> option B) a b :
  filter_map f (a ++ b) = filter_map f a ++ filter_map f b.
Proof. induction a as [|x a IH]; cbn [filter_map app]; [reflexivity|]. destruct (f x); cbn; rewrite IH; reflexivity. Qed.
Lemma in_filter_map {A B} (f : A -> option B) l y :
  In y (filter_map f l) <-> exists x, In x l /\ f x = Some y.
Proof.
  induction l as [|x l IH]; cbn [filter_map].
  - split; [intros [] | intros (x & [] & _)].
  - destruct (f x) eqn:E; split.
    + intros [<- | H]; [exists x; cbn; auto|]. apply IH in H as (z & Hz & Hf). exists z; cbn; auto.
    + intros (z & [<- | Hz] & Hf); [left; congruence|]. right. apply IH. eauto.
    + intro H. apply IH in H as (z & Hz & Hf). exists z; cbn; auto.
    + intros (z & [<- | Hz] & Hf); [congruence|]. apply IH. eauto.
Qed.

(** ** trim *)
Lemma trim_start_suffix s : exists w, s = w ++ trim_start s /\ forallb is_ws w = true.
Proof.
  induction s as [|c s IH]; cbn [trim_start].
  - exists []; split; reflexivity.
  - destruct (is_ws c) eqn:E.
    + destruct IH as (w & Hw & Hf). exists (c :: w); split; cbn; [congruence|]. rewrite E; assumption.
    + exists []; split; reflexivity.
Qed.
Lemma trim_start_head s : match trim_start s with c :: _ => is_ws c = false | [] => True end.
Proof. induction s as [|c s IH]; cbn [trim_start]; [exact I|]. destruct (is_ws c) eqn:E; assumption. Qed.
Lemma trim_start_ws w s : forallb is_ws w = true -> trim_start (w ++ s) = trim_start s.
Proof.
  induction w as [|c w IH]; cbn [forallb app trim_start]; intro H; [reflexivity|].
  apply andb_true_iff in H as [H1 H2]. rewrite H1. apply IH; assumption.
Qed.
Lemma trim_start_id s : match s with c :: _ => is_ws c = false | [] => True end -> trim_start s = s.
Proof. destruct s as [|c s]; cbn [trim_start]; intro H; [reflexivity|]. rewrite H. reflexivity. Qed.
Lemma trim_start_idem s : trim_start (trim_start s) = trim_start s.
Proof. apply trim_start_id. apply trim_start_head. Qed.
Lemma trim_start_all w : forallb is_ws w = true -> trim_start w = [].
Proof. intro H. rewrite <- (app_nil_r w). rewrite trim_start_ws by assumption. reflexivity. Qed.

(** no whitespace at either end *)
Definition trimmed (s : str) : Prop :=
  match s with c :: _ => is_ws c = false | [] => True end /\
  match rev s with c :: _ => is_ws c = false | [] => True end.
Lemma trim_id s : trimmed s -> trim s = s.
Proof.
  intros [H1 H2]. unfold trim. rewrite (trim_start_id s H1). rewrite (trim_start_id _ H2). apply rev_involutive.
Qed.
Lemma forallb_rev {A} (f : A -> bool) l : forallb f (rev l) = forallb f l.
Proof.
  induction l as [|x l IH]; cbn [rev forallb]; [reflexivity|].
  rewrite forallb_app, IH. cbn. destruct (f x), (forallb f l); reflexivity.
Qed.
Lemma trim_trimmed s : trimmed (trim s).
Proof.
  unfold trim, trimmed. rewrite rev_involutive. split; [|apply trim_start_head].
  set (u := trim_start s). assert (Hu := trim_start_head s). fold u in Hu.
  destruct (trim_start_suffix (rev u)) as (w & Hw & Hf).
  assert (Hu' : u = rev (trim_start (rev u)) ++ rev w).
  { rewrite <- rev_app_distr, <- Hw. symmetry; apply rev_involutive. }
  destruct (rev (trim_start (rev u))) as [|c r] eqn:E; [exact I|].
  rewrite Hu' in Hu. cbn in Hu. assumption.
Qed.
Lemma trim_pad w1 w2 s : forallb is_ws w1 = true -> forallb is_ws w2 = true -> trim (w1 ++ s ++ w2) = trim s.
Proof.
  intros H1 H2. unfold trim. rewrite trim_start_ws by assumption.
  assert (Hs : trim_start (rev (trim_start (s ++ w2))) = trim_start (rev (trim_start s))).
  { destruct (trim_start_suffix s) as (w & Hw & Hf).
    destruct (trim_start s) as [|c r] eqn:E.
    - rewrite app_nil_r in Hw. rewrite (trim_start_all (s ++ w2)); [reflexivity|].
      rewrite forallb_app, Hw, Hf, H2. reflexivity.
    - assert (Hh := trim_start_head s). rewrite E in Hh.
      rewrite Hw, <- app_assoc, trim_start_ws by assumption.
      cbn [trim_start app]. rewrite Hh.
      change (c :: r ++ w2) with ((c :: r) ++ w2). rewrite rev_app_distr, trim_start_ws; [reflexivity|].
      rewrite forallb_rev. assumption. }
  rewrite Hs. reflexivity.
Qed.
Lemma trim_decomp s : exists w1 w2, s = w1 ++ trim s ++ w2 /\ forallb is_ws w1 = true /\ forallb is_ws w2 = true.
Proof.
  destruct (trim_start_suffix s) as (w1 & H1 & F1).
  destruct (trim_start_suffix (rev (trim_start s))) as (w2 & H2 & F2).
  exists w1, (rev w2). split; [|split; [assumption | rewrite forallb_rev; assumption]].
  unfold trim. rewrite <- rev_app_distr, <- H2, rev_involutive. assumption.
Qed.

(** ** split_once *)
Lemma split_once_some c s a b : split_once c s = Some (a, b) <-> s = a ++ c :: b /\ contains c a = false.
Proof.
  revert a b; induction s as [|x s IH]; intros a b; cbn [split_once].
  - split; [discriminate|]. intros [H _]. destruct a; discriminate.
  - destruct (x =? c) eqn:E.
    + apply N.eqb_eq in E. subst x. split.
      * intro H; inv H. split; reflexivity.
      * intros [H1 H2]. destruct a as [|y a]; cbn in H1; inv H1; [reflexivity|].
        cbn in H2. rewrite N.eqb_refl in H2. discriminate.
    + destruct (split_once c s) as [[a' b']|] eqn:Es; split; intro H.
      * inv H. destruct (proj1 (IH a' b) eq_refl) as [H1 H2]. split; cbn; [congruence|].
        rewrite N.eqb_sym, E. assumption.
      * destruct H as [H1 H2]. destruct a as [|y a]; cbn in H1; inv H1; [rewrite N.eqb_refl in E; discriminate|].
        cbn in H2. apply orb_false_iff in H2 as [_ H2].
        assert (Hc : Some (a', b') = Some (a, b)) by (apply IH; split; [reflexivity|assumption]).
        inv Hc. reflexivity.
      * discriminate.
      * destruct H as [H1 H2]. destruct a as [|y a]; cbn in H1; inv H1; [rewrite N.eqb_refl in E; discriminate|].
        cbn in H2. apply orb_false_iff in H2 as [_ H2].
        assert (Hc : None = Some (a, b)) by (apply IH; split; [reflexivity|assumption]). discriminate.
Qed.
Lemma split_once_none c s : split_once c s = None <-> contains c s = false.
Proof.
  induction s as [|x s IH]; cbn [split_once contains existsb]; [split; reflexivity|].
  rewrite (N.eqb_sym c x). destruct (x =? c) eqn:E; cbn [orb]; [split; discriminate|].
  fold (contains c s). destruct (split_once c s) as [[a b]|].
  - split; [discriminate|]. intro H. apply IH in H. discriminate.
  - split; [|reflexivity]. intros _. apply IH. reflexivity.
Qed.

Lemma contains_In c s : contains c s = true <-> In c s.
Proof.
  unfold contains. rewrite existsb_exists. split.
  - intros (x & Hx & E). apply N.eqb_eq in E. subst; assumption.
  - intro H. exists c. split; [assumption | apply N.eqb_refl].
Qed.
Lemma contains_false c s : contains c s = false <-> ~ In c s.
Proof. rewrite <- contains_In. destruct (contains c s); split; congruence. Qed.
Lemma contains_app c a b : contains c (a ++ b) = contains c a || contains c b.
Proof. unfold contains. apply existsb_app. Qed.

(** ** decimal printing *)
Definition digitp (c : char) : Prop := 48 <= c <= 57.
Definition dvals (s : str) : N := fold_left (fun a c => 10 * a + (c - 48)) s 0.

Lemma dec_fuel_enough f n : n < 2 ^ N.of_nat f -> dec_fuel (S f) n = dec_fuel (S (S f)) n.
Proof.
  revert n; induction f as [|f IH]; intros n H.
  - change (2 ^ N.of_nat 0) with 1 in H. assert (n = 0) by lia. subst. reflexivity.
  - cbn [dec_fuel]. destruct (n <? 10) eqn:E; [reflexivity|]. f_equal.
    assert (H' : n / 10 < 2 ^ N.of_nat f).
    { rewrite Nnat.Nat2N.inj_succ, N.pow_succ_r' in H. apply N.ltb_ge in E.
      apply N.div_lt_upper_bound; lia. }
    specialize (IH (n / 10) H'). cbn [dec_fuel] in IH. exact IH.
Qed.
Lemma dec_fuel_indep f g n : n < 2 ^ N.of_nat f -> (f <= g)%nat -> dec_fuel (S f) n = dec_fuel (S g) n.
Proof.
  intros H Hg. induction Hg as [|g Hg IH]; [reflexivity|].
  rewrite IH. apply dec_fuel_enough.
  eapply N.lt_le_trans; [exact H|]. apply N.pow_le_mono_r; lia.
Qed.
Lemma size_nat_bound n : n < 2 ^ N.of_nat (N.size_nat n).
Proof.
  destruct n as [|p]; [reflexivity|].
  cbn [N.size_nat]. induction p as [p IH|p IH|]; cbn [Pos.size_nat];
    rewrite ?Nnat.Nat2N.inj_succ, ?N.pow_succ_r' in *; lia.
Qed.
Lemma dec_unfold n : dec n = if n <? 10 then [48 + n] else dec (n / 10) ++ [48 + n mod 10].
Proof.
  unfold dec at 1. cbn [dec_fuel]. destruct (n <? 10) eqn:E; [reflexivity|]. f_equal.
  apply N.ltb_ge in E. unfold dec.
  assert (Hn := size_nat_bound n). assert (Hd := size_nat_bound (n / 10)).
  set (f := N.size_nat n) in *. set (g := N.size_nat (n / 10)) in *.
  destruct f as [|f].
  { change (2 ^ N.of_nat 0) with 1 in Hn. lia. }
  assert (Hn' : n / 10 < 2 ^ N.of_nat f).
  { rewrite Nnat.Nat2N.inj_succ, N.pow_succ_r' in Hn. apply N.div_lt_upper_bound; lia. }
  destruct (Nat.le_ge_cases f g).
  - apply dec_fuel_indep; assumption.
  - symmetry. apply dec_fuel_indep; assumption.
Qed.
Lemma dec_ind (P : N -> Prop) :
  (forall n, n < 10 -> P n) -> (forall n, 10 <= n -> P (n / 10) -> P n) -> forall n, P n.
Proof.
  intros H0 H1 n. induction n as [n IH] using (well_founded_induction N.lt_wf_0).
  destruct (N.lt_ge_cases n 10); [apply H0; assumption|]. apply H1; [assumption|]. apply IH.
  apply N.div_lt; lia.
Qed.
Lemma dec_digits n : Forall digitp (dec n).
Proof.
  induction n using dec_ind; rewrite dec_unfold.
  - destruct (n <? 10) eqn:E; [|apply N.ltb_ge in E; lia]. repeat constructor; lia.
  - destruct (n <? 10) eqn:E; [apply N.ltb_lt in E; lia|].
    apply Forall_app. split; [assumption|]. repeat constructor; lia.
Qed.
Lemma dvals_app a c : dvals (a ++ [c]) = 10 * dvals a + (c - 48).
Proof. unfold dvals. rewrite fold_left_app. reflexivity. Qed.
Lemma dec_val n : dvals (dec n) = n.
Proof.
  induction n using dec_ind; rewrite dec_unfold.
  - destruct (n <? 10) eqn:E; [|apply N.ltb_ge in E; lia]. cbn [dvals fold_left]. unfold dvals. cbn [fold_left]. lia.
  - destruct (n <? 10) eqn:E; [apply N.ltb_lt in E; lia|].
    rewrite dvals_app, IHn. lia.
Qed.
Lemma dec_inj a b : dec a = dec b -> a = b.
Proof. intro H. rewrite <- (dec_val a), <- (dec_val b), H. reflexivity. Qed.
Lemma dec_nonempty n : dec n <> [].
Proof. rewrite dec_unfold. destruct (n <? 10); [discriminate|]. intro H. apply app_eq_nil in H as [_ H]. discriminate. Qed.
Lemma dec_length n k : n < 10 ^ N.of_nat (S k) -> (length (dec n) <= S k)%nat.
Proof.
  revert n; induction k as [|k IH]; intros n H; rewrite dec_unfold.
  - change (10 ^ N.of_nat 1) with 10 in H. destruct (n <? 10) eqn:E; [cbn; lia|]. apply N.ltb_ge in E; lia.
  - destruct (n <? 10) eqn:E; [cbn; lia|]. rewrite app_length. cbn [length].
    assert (n / 10 < 10 ^ N.of_nat (S k)).
    { rewrite (Nnat.Nat2N.inj_succ (S k)), N.pow_succ_r' in H. apply N.div_lt_upper_bound; lia. }
    specialize (IH _ H0). lia.
Qed.
Lemma dec_length_lb n k : 10 ^ N.of_nat k <= n -> (k < length (dec n))%nat.
Proof.
  revert n; induction k as [|k IH]; intros n H.
  - assert (Hn := dec_nonempty n). destruct (dec n); [congruence|cbn; lia].
  - rewrite dec_unfold. rewrite Nnat.Nat2N.inj_succ, N.pow_succ_r' in H.
    assert (Hp : 0 < 10 ^ N.of_nat k) by (apply N.neq_0_lt_0, N.pow_nonzero; lia).
    destruct (n <? 10) eqn:E; [apply N.ltb_lt in E; lia|].
    rewrite app_length. cbn [length].
    assert (10 ^ N.of_nat k <= n / 10) by (apply N.div_le_lower_bound; lia).
    specialize (IH _ H0). lia.
Qed.

(** ** IndexMap *)
Lemma im_get_insert_same {V} (m : list (str * V)) k v : im_get (im_insert m k v) k = Some v.
Proof.
  induction m as [|[k' v'] m IH]; cbn [im_insert im_get].
  - rewrite str_eqb_refl. reflexivity.
  - destruct (str_eqb k k') eqn:E; cbn [im_get]; rewrite E; [reflexivity | assumption].
Qed.
Lemma im_get_insert_other {V} (m : list (str * V)) k k2 v : k2 <> k -> im_get (im_insert m k v) k2 = im_get m k2.
Proof.
  intro Hn. induction m as [|[k' v'] m IH]; cbn [im_insert im_get].
  - apply str_eqb_neq in Hn. rewrite Hn. reflexivity.
  - destruct (str_eqb k k') eqn:E; cbn [im_get].
    + apply str_eqb_eq in E. subst k'. apply str_eqb_neq in Hn. rewrite Hn. reflexivity.
    + rewrite IH. reflexivity.
Qed.
Lemma im_insert_new {V} (m : list (str * V)) k v : ~ In k (map fst m) -> im_insert m k v = m ++ [(k, v)].
Proof.
  induction m as [|[k' v'] m IH]; cbn [im_insert map app fst]; intro H; [reflexivity|].
  destruct (str_eqb k k') eqn:E.
  - apply str_eqb_eq in E. subst. exfalso; apply H; left; reflexivity.
  - rewrite IH; [reflexivity|]. intro; apply H; right; assumption.
Qed.
Lemma im_insert_keys {V} (m : list (str * V)) k v :
  map fst (im_insert m k v) = if existsb (str_eqb k) (map fst m) then map fst m else map fst m ++ [k].
Proof.
  induction m as [|[k' v'] m IH]; cbn [im_insert map fst existsb app]; [reflexivity|].
  destruct (str_eqb k k') eqn:E; cbn [map fst orb]; [reflexivity|].
  rewrite IH. destruct (existsb (str_eqb k) (map fst m)); reflexivity.
Qed.
Lemma existsb_str k l : existsb (str_eqb k) l = true <-> In k l.
Proof.
  rewrite existsb_exists. split.
  - intros (x & Hx & E). apply str_eqb_eq in E. subst; assumption.
  - intro H. exists k. split; [assumption | apply str_eqb_refl].
Qed.
Lemma im_insert_nodup {V} (m : list (str * V)) k v : NoDup (map fst m) -> NoDup (map fst (im_insert m k v)).
Proof.
  intro H. rewrite im_insert_keys. destruct (existsb (str_eqb k) (map fst m)) eqn:E; [assumption|].
  pose proof (Add_app k (map fst m) []) as HA. rewrite app_nil_r in HA.
  apply (NoDup_Add HA). split; [assumption|]. intro Hin. apply existsb_str in Hin. congruence.
Qed.
Lemma im_fold_nodup {V} (l m : list (str * V)) :
  NoDup (map fst m) -> NoDup (map fst (fold_left (fun m kv => im_insert m (fst kv) (snd kv)) l m)).
Proof. revert m; induction l as [|[k v] l IH]; intros m H; cbn [fold_left]; [assumption|]. apply IH, im_insert_nodup, H. Qed.
Lemma im_of_list_nodup {V} (l : list (str * V)) : NoDup (map fst (im_of_list l)).
Proof. apply im_fold_nodup. constructor. Qed.
Lemma im_fold_app {V} (l m : list (str * V)) :
  NoDup (map fst (m ++ l)) -> fold_left (fun m kv => im_insert m (fst kv) (snd kv)) l m = m ++ l.
Proof.
  revert m; induction l as [|[k v] l IH]; intros m H; cbn [fold_left]; [symmetry; apply app_nil_r|].
  cbn [fst snd]. rewrite im_insert_new.
  - rewrite IH; rewrite <- app_assoc; [reflexivity | assumption].
  - rewrite map_app in H. cbn in H. apply NoDup_remove_2 in H. intro Hin. apply H. apply in_or_app. left; assumption.
Qed.
Lemma im_of_list_id {V} (l : list (str * V)) : NoDup (map fst l) -> im_of_list l = l.
Proof. intro H. unfold im_of_list. rewrite im_fold_app; [reflexivity | exact H]. Qed.
Lemma im_get_In {V} (m : list (str * V)) k v : im_get m k = Some v -> In (k, v) m.
Proof.
  induction m as [|[k' v'] m IH]; cbn [im_get]; [discriminate|].
  destruct (str_eqb k k') eqn:E; intro H.
  - apply str_eqb_eq in E. inv H. left; reflexivity.
  - right; apply IH; assumption.
Qed.
Lemma im_get_nodup {V} (m : list (str * V)) k v : NoDup (map fst m) -> In (k, v) m -> im_get m k = Some v.
Proof.
  induction m as [|[k' v'] m IH]; cbn [map fst]; intros Hn H; [destruct H|].
  cbn [im_get]. inv Hn. destruct H as [H|H].
  - inv H. rewrite str_eqb_refl. reflexivity.
  - destruct (str_eqb k k') eqn:E; [|apply IH; assumption].
    apply str_eqb_eq in E. subst. exfalso. apply H2. apply (in_map fst) in H. assumption.
Qed.
Lemma im_get_none {V} (m : list (str * V)) k : im_get m k = None <-> ~ In k (map fst m).
Proof.
  induction m as [|[k' v'] m IH]; cbn [im_get map fst In]; [split; [intros _ []|reflexivity]|].
  destruct (str_eqb k k') eqn:E.
  - apply str_eqb_eq in E. subst. split; [discriminate|]. intro H. exfalso; apply H; left; reflexivity.
  - apply str_eqb_neq in E. rewrite IH. split; intro H; [intros [->|]; congruence | intro; apply H; right; assumption].
Qed.
Lemma im_contains_In {V} (m : list (str * V)) k : im_contains m k = true <-> In k (map fst m).
Proof.
  unfold im_contains. destruct (im_get m k) eqn:E.
  - split; [|reflexivity]. intros _. apply im_get_In in E. apply (in_map fst) in E. assumption.
  - apply im_get_none in E. split; [discriminate|]. intro; contradiction.
Qed.
