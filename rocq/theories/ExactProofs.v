(** What is printed without escapes is read back only if nothing needs escapes: backslashes are counted.  *)
From Coq Require Import ZifyBool ZifyNat ZifyN.
From Verif Require Import Base BaseFacts Utf8 Base64 Base64Facts Sfv SfvFacts SfvRound TextFacts SpecSfv SpecSfvProofs SpecGrammar GrammarProofs SpecCanon CanonProofs Component SpecId IdProofs Crypto Params SpecParams ParamsProofs SigBase Http Hyper SpecIdText IdTextProofs SpecMsg HeaderProofs MsgProofs Utf8Facts SpecExtract SpecBase BaseProofs SpecSign SignProofs.
Open Scope nat_scope.

(** ** counting a character *)
Definition cnt (x : N) (s : str) : nat := count_occ N.eq_dec s x.
Definition tot {A} (f : A -> nat) (l : list A) : nat := list_sum (map f l).
Lemma cnt_app x a b : cnt x (a ++ b) = cnt x a + cnt x b.
Proof. apply count_occ_app. Qed.
Lemma cnt_cons x c s : cnt x (c :: s) = cnt x [c] + cnt x s.
Proof. apply (cnt_app x [c] s). Qed.
Lemma cnt_none x s : ~ In x s <-> cnt x s = 0.
Proof. apply count_occ_not_In. Qed.
Lemma cnt_rev x s : cnt x (rev s) = cnt x s.
Proof. induction s as [|c s IH]; [reflexivity|]. cbn [rev]. rewrite cnt_app, (cnt_cons x c s), IH. lia. Qed.
Lemma tot_cons {A} (f : A -> nat) a l : tot f (a :: l) = f a + tot f l.
Proof. reflexivity. Qed.
Lemma tot_nil {A} (f : A -> nat) : tot f [] = 0.
Proof. reflexivity. Qed.
Lemma tot_app {A} (f : A -> nat) a b : tot f (a ++ b) = tot f a + tot f b.
Proof. unfold tot. rewrite map_app. apply list_sum_app. Qed.
Lemma tot_zero {A} (f : A -> nat) l : tot f l = 0 -> forall a, In a l -> f a = 0.
Proof. induction l as [|b l IH]; intros H a Ha; [destruct Ha|]. rewrite tot_cons in H. destruct Ha as [->|Ha]; [lia|]. apply IH; [lia|assumption]. Qed.
Lemma tot_le {A} (f g : A -> nat) l : (forall a, In a l -> f a <= g a) -> tot f l <= tot g l.
Proof. induction l as [|a l IH]; intro H; [reflexivity|]. rewrite !tot_cons. pose proof (H a (or_introl eq_refl)). assert (tot f l <= tot g l) by (apply IH; intros; apply H; right; assumption). lia. Qed.
Lemma tot_add {A} (f g : A -> nat) l : tot (fun a => f a + g a) l = tot f l + tot g l.
Proof. induction l as [|a l IH]; [reflexivity|]. rewrite !tot_cons, IH. lia. Qed.
Lemma cnt_flat {A} x (f : A -> str) l : cnt x (flat_map f l) = tot (fun a => cnt x (f a)) l.
Proof. induction l as [|a l IH]; [reflexivity|]. cbn [flat_map]. rewrite cnt_app, IH. reflexivity. Qed.
Lemma cnt_skip x f s : cnt x (skip f s) <= cnt x s.
Proof. destruct (skip_decomp f s) as (w & E & _). rewrite E at 2. rewrite cnt_app. lia. Qed.
Lemma cnt_trim_start x s : cnt x (trim_start s) <= cnt x s.
Proof. destruct (trim_start_suffix s) as (w & E & _). rewrite E at 2. rewrite cnt_app. lia. Qed.
Lemma cnt_trim x s : cnt x (trim s) <= cnt x s.
Proof. unfold trim. rewrite cnt_rev. pose proof (cnt_trim_start x (rev (trim_start s))) as H. rewrite cnt_rev in H. pose proof (cnt_trim_start x s). lia. Qed.

(** ** the texts of a value, escaped *)
Definition wt (x : N) (s : str) : nat := cnt x (flat_map esc s).
Definition w_bare (x : N) (b : bare) : nat := match b with BStr s => wt x s | _ => 0 end.
Definition w_params (x : N) (ps : params) : nat := tot (fun kv => w_bare x (snd kv)) ps.
Definition w_item (x : N) (i : item) : nat := w_bare x (it_bare i) + w_params x (it_params i).
Definition w_inner (x : N) (l : inner) : nat := tot (w_item x) (in_items l) + w_params x (in_params l).
Definition w_entry (x : N) (e : entry) : nat := match e with EItem i => w_item x i | EInner l => w_inner x l end.

Lemma p_str_inv s : forall a r, p_str s = Some (a, r) -> s = flat_map esc a ++ cQuote :: r.
Proof.
  induction s as [|c|c d s IH1 IH2] using two_ind; intros a r H; cbn [p_str] in H.
  - discriminate.
  - destruct (c =? cBack)%N; [discriminate|]. destruct (c =? cQuote)%N eqn:Ec; [|destruct (is_print c); discriminate].
    apply N.eqb_eq in Ec. pinv H. subst c. reflexivity.
  - destruct (c =? cBack)%N eqn:Ec.
    + destruct ((d =? cQuote) || (d =? cBack))%N eqn:Ed; [|discriminate].
      destruct (p_str s) as [[a' b']|] eqn:E; [|discriminate]. pinv H. apply N.eqb_eq in Ec. subst c.
      rewrite (IH1 _ _ eq_refl). cbn [flat_map]. unfold esc at 2. rewrite Ed. reflexivity.
    + destruct (c =? cQuote)%N eqn:Eq; [apply N.eqb_eq in Eq; pinv H; subst c; reflexivity|].
      destruct (is_print c); [|discriminate].
      change (match p_str (d :: s) with Some (a, b) => Some (c :: a, b) | None => None end = Some (a, r)) in H.
      destruct (p_str (d :: s)) as [[a' b']|] eqn:E; [|discriminate]. pinv H.
      rewrite (IH2 _ _ eq_refl). cbn [flat_map]. unfold esc at 2. rewrite Ec, Eq. reflexivity.
Qed.
Lemma suffix_cnt x (s u r : str) : s = u ++ r -> cnt x r <= cnt x s.
Proof. intros ->. rewrite cnt_app. lia. Qed.
Lemma p_bare_w x s b r : p_bare s = Some (b, r) -> w_bare x b + cnt x r <= cnt x s.
Proof.
  intro H. destruct (p_bare_progress _ _ _ H) as (u & Hu & _). pose proof (suffix_cnt x _ _ _ Hu) as Hs.
  destruct b as [ | |t| | | | | ]; cbn [w_bare]; try lia.
  destruct s as [|c s]; [discriminate|]. unfold p_bare in H.
  destruct ((c =? cMinus) || is_digit c)%N.
  { exfalso. apply p_num_sound in H. exact H. }
  destruct (c =? cQuote)%N.
  { destruct (p_str s) as [[a b]|] eqn:E; [|discriminate]. injection H as -> ->. apply p_str_inv in E. rewrite cnt_cons, E, cnt_app, (cnt_cons x cQuote). unfold wt. lia. }
  exfalso. destruct (is_tok_start c); [destruct (span is_tok_char (c :: s)); congruence|].
  destruct (c =? cColon)%N.
  { unfold p_bytes in H. repeat match type of H with match ?e with _ => _ end = _ => destruct e; try discriminate end. }
  destruct (c =? cQM)%N; [destruct s as [|d s]; [discriminate|]; destruct (d =? 49)%N; [congruence|]; destruct (d =? 48)%N; congruence|].
  destruct (c =? cAt)%N; [destruct (p_num s) as [[[] ?]|]; congruence|].
  destruct (c =? cPct)%N; [|discriminate]. destruct s as [|d s]; [discriminate|]. destruct (d =? cQuote)%N; [|discriminate].
  destruct (p_disp s) as [[a b]|]; [|discriminate]. destruct (utf8_valid a); congruence.
Qed.
Lemma im_insert_w {V} (f : V -> nat) m k v : tot (fun kv => f (snd kv)) (im_insert m k v) <= tot (fun kv : str * V => f (snd kv)) m + f v.
Proof.
  induction m as [|[k' v'] m IH]; cbn [im_insert]; [rewrite tot_cons, tot_nil; cbn [snd]; lia|]. destruct (str_eqb k k'); rewrite !tot_cons; cbn [snd]; lia.
Qed.
Lemma p_param1_w x s k v r : p_param1 s = Some ((k, v), r) -> w_bare x v + cnt x r <= cnt x s.
Proof.
  unfold p_param1. intro H. destruct (p_key (skip is_sp s)) as [[k1 r1]|] eqn:Ek; [|discriminate].
  destruct (p_key_progress _ _ _ Ek) as (u & Hu & _). pose proof (suffix_cnt x _ _ _ Hu) as Hs. pose proof (cnt_skip x is_sp s) as Hk.
  destruct r1 as [|d r2]; [injection H as <- <- <-; cbn [w_bare]; lia|].
  destruct (d =? cEq)%N; [|injection H as <- <- <-; cbn [w_bare]; lia].
  destruct (p_bare r2) as [[b r3]|] eqn:Eb; [|discriminate]. injection H as <- <- <-. apply (p_bare_w x) in Eb. rewrite (cnt_cons x d r2) in Hs. lia.
Qed.
Lemma p_params_f_w x f : forall acc s ps r, p_params_f f acc s = Some (ps, r) -> w_params x ps + cnt x r <= w_params x acc + cnt x s.
Proof.
  induction f as [|f IH]; intros acc s ps r H; [discriminate|]. rewrite p_params_step in H.
  destruct s as [|c s]; [injection H as <- <-; lia|]. destruct (c =? cSemi)%N; [|injection H as <- <-; lia].
  destruct (p_param1 s) as [[[k v] r']|] eqn:E; [|discriminate]. apply (p_param1_w x) in E. apply IH in H.
  pose proof (im_insert_w (w_bare x) acc k v) as Hi. fold (w_params x acc) in Hi. fold (w_params x (im_insert acc k v)) in Hi. rewrite (cnt_cons x c s). lia.
Qed.
Lemma p_params_w x s ps r : p_params s = Some (ps, r) -> w_params x ps + cnt x r <= cnt x s.
Proof. intro H. apply (p_params_f_w x) in H. exact H. Qed.
Lemma p_item_w x s i r : p_item s = Some (i, r) -> w_item x i + cnt x r <= cnt x s.
Proof.
  unfold p_item. destruct (p_bare s) as [[b r1]|] eqn:Eb; [|discriminate]. destruct (p_params r1) as [[ps r2]|] eqn:Ep; [|discriminate].
  intro H. injection H as <- <-. apply (p_bare_w x) in Eb. apply (p_params_w x) in Ep. unfold w_item. cbn [it_bare it_params]. lia.
Qed.
Lemma p_inner_f_w x f : forall s l r, p_inner_f f s = Some (l, r) -> tot (w_item x) l + cnt x r <= cnt x s.
Proof.
  induction f as [|f IH]; intros s l r H; [discriminate|]. cbn [p_inner_f] in H. pose proof (cnt_skip x is_sp s) as Hs.
  destruct (skip is_sp s) as [|c s1]; [discriminate|]. destruct (c =? cRPar)%N.
  - injection H as <- <-. rewrite (cnt_cons x c s1) in Hs. change (tot (w_item x) []) with 0. lia.
  - destruct (p_item (c :: s1)) as [[i r1]|] eqn:Ei; [|discriminate]. destruct r1 as [|d r1]; [discriminate|].
    destruct ((d =? cSP) || (d =? cRPar))%N; [|discriminate]. destruct (p_inner_f f (d :: r1)) as [[is r2]|] eqn:E; [|discriminate].
    injection H as <- <-. apply IH in E. apply (p_item_w x) in Ei. rewrite tot_cons. lia.
Qed.
Lemma p_inner_w x s l r : p_inner s = Some (l, r) -> w_inner x l + cnt x r <= cnt x s.
Proof.
  unfold p_inner. destruct (p_inner_f _ s) as [[is r1]|] eqn:Ei; [|discriminate]. destruct (p_params r1) as [[ps r2]|] eqn:Ep; [|discriminate].
  intro H. injection H as <- <-. apply (p_inner_f_w x) in Ei. apply (p_params_w x) in Ep. unfold w_inner. cbn [in_items in_params]. lia.
Qed.
Lemma p_entry_w x s e r : p_entry s = Some (e, r) -> w_entry x e + cnt x r <= cnt x s.
Proof.
  unfold p_entry. destruct s as [|c s]; [discriminate|]. destruct (c =? cLPar)%N.
  - destruct (p_inner s) as [[l r1]|] eqn:E; [|discriminate]. intro H. injection H as <- <-. apply (p_inner_w x) in E. rewrite (cnt_cons x c s). cbn [w_entry]. lia.
  - destruct (p_item (c :: s)) as [[i r1]|] eqn:E; [|discriminate]. intro H. injection H as <- <-. apply (p_item_w x) in E. exact E.
Qed.
Definition w_member (x : N) (kv : str * entry) : nat := w_entry x (snd kv).
Lemma p_member_w x s kv r : p_member s = Some (kv, r) -> w_member x kv + cnt x r <= cnt x s.
Proof.
  unfold p_member. destruct (p_key s) as [[k r1]|] eqn:Ek; [|discriminate]. destruct (p_key_progress _ _ _ Ek) as (u & Hu & _).
  pose proof (suffix_cnt x _ _ _ Hu) as Hs. destruct r1 as [|c r1].
  - intro H. injection H as <- <-. unfold w_member. cbn. lia.
  - destruct (c =? cEq)%N.
    + destruct (p_entry r1) as [[e r2]|] eqn:E; [|discriminate]. intro H. injection H as <- <-. apply (p_entry_w x) in E. rewrite (cnt_cons x c r1) in Hs. unfold w_member. cbn [snd]. lia.
    + destruct (p_params (c :: r1)) as [[ps r2]|] eqn:E; [|discriminate]. intro H. injection H as <- <-. apply (p_params_w x) in E.
      unfold w_member. cbn [snd w_entry]. unfold w_item. cbn [it_bare it_params w_bare]. lia.
Qed.
Lemma p_sep_f_w {A} (w : A -> nat) x (p : str -> option (A * str)) : (forall s a r, p s = Some (a, r) -> w a + cnt x r <= cnt x s) ->
  forall f s l, p_sep_f p f s = Some l -> tot w l <= cnt x s.
Proof.
  intros Hp. induction f as [|f IH]; intros s l H; [discriminate|]. cbn [p_sep_f] in H. destruct s as [|c s]; [injection H as <-; unfold tot; cbn; lia|].
  destruct (p (c :: s)) as [[a r]|] eqn:E; [|discriminate]. apply Hp in E. pose proof (cnt_skip x is_ows r) as Hs.
  destruct (skip is_ows r) as [|d r1]; [injection H as <-; unfold tot; cbn [map list_sum fold_right]; lia|].
  destruct (d =? cComma)%N; [|discriminate]. pose proof (cnt_skip x is_ows r1) as Hs1. destruct (skip is_ows r1) as [|d2 r2]; [discriminate|].
  destruct (p_sep_f p f (d2 :: r2)) as [l'|] eqn:E2; [|discriminate]. injection H as <-. apply IH in E2. rewrite tot_cons. rewrite (cnt_cons x d r1) in Hs. lia.
Qed.
Lemma parse_item_w x s i : parse_item s = Some i -> w_item x i <= cnt x s.
Proof.
  unfold parse_item. destruct (p_item (skip is_sp s)) as [[j r]|] eqn:E; [|discriminate]. destruct (skip is_sp r); [|discriminate].
  intro H. injection H as <-. apply (p_item_w x) in E. pose proof (cnt_skip x is_sp s). lia.
Qed.
Lemma parse_list_w x s l : parse_list s = Some l -> tot (w_entry x) l <= cnt x s.
Proof. intro H. apply (p_sep_f_w (w_entry x) x) in H; [|apply p_entry_w]. pose proof (cnt_skip x is_sp s). lia. Qed.
Lemma im_of_list_w (f : entry -> nat) d : tot (fun kv => f (snd kv)) (im_of_list d) <= tot (fun kv : str * entry => f (snd kv)) d.
Proof.
  unfold im_of_list. cut (forall m, tot (fun kv => f (snd kv)) (fold_left (fun m kv => im_insert m (fst kv) (snd kv)) d m) <= tot (fun kv : str * entry => f (snd kv)) m + tot (fun kv : str * entry => f (snd kv)) d).
  { intro H. specialize (H []). exact H. }
  induction d as [|[k e] d IH]; intro m; cbn [fold_left]; [rewrite !tot_nil; lia|]. rewrite tot_cons. cbn [fst snd].
  specialize (IH (im_insert m k e)). pose proof (im_insert_w f m k e). lia.
Qed.
Lemma parse_dict_w x s d : parse_dict s = Some d -> tot (w_member x) d <= cnt x s.
Proof.
  unfold parse_dict. destruct (p_sep p_member (skip is_sp s)) as [l|] eqn:E; [|discriminate]. intro H. injection H as <-.
  apply (p_sep_f_w (w_member x) x) in E; [|apply p_member_w]. pose proof (cnt_skip x is_sp s). pose proof (im_of_list_w (w_entry x) l) as Hi.
  unfold w_member in *. lia.
Qed.

(** ** identifiers *)
(** the texts as printed, and escaped *)
Definition id_sum (f : str -> nat) (i : cid) : nat :=
  match id_name i with HttpField s => f s | Derived _ => 0 end
  + tot (fun p => match p with Key v | Name v => f v | _ => 0 end) (id_params i).
Lemma cid_of_item_w x it i : cid_of_item it = Ok i -> id_sum (wt x) i <= w_item x it.
Proof.
  unfold cid_of_item. intro H. destruct (name_of_bare (it_bare it)) as [nm| |] eqn:En; try discriminate. cbn [bind] in H.
  destruct (cparams_of (it_params it)) as [ps| |] eqn:Ep; try discriminate. cbn [bind] in H.
  destruct (existsb is_name_param ps && negb (is_qp nm)); [discriminate|]. destruct (existsb is_field_param ps && negb (is_hf nm)); [discriminate|].
  injection H as <-. unfold id_sum, w_item. cbn [id_name id_params].
  assert (Hn : match nm with HttpField s => wt x s | Derived _ => 0 end <= w_bare x (it_bare it)).
  { unfold name_of_bare in En. destruct (it_bare it) as [ | |s| | | | | ]; try discriminate. destruct (starts_with cAt s).
    - destruct (derived_of_str s); try discriminate. injection En as <-. lia.
    - injection En as <-. reflexivity. }
  assert (Hp : tot (fun p => match p with Key v | Name v => wt x v | _ => 0 end) ps <= w_params x (it_params it)); [|lia].
  unfold cparams_of in Ep. destruct (collect cparam_of (it_params it)) as [l| |] eqn:E; try discriminate. cbn [bind] in Ep. injection Ep as <-.
  apply collect_ok in E.
  assert (H1 : tot (fun p => match p with Key v | Name v => wt x v | _ => 0 end) l <= w_params x (it_params it)).
  { induction E as [|[k v] p ps l Hx E IH]; [reflexivity|]. unfold w_params. rewrite !tot_cons. cbn [snd]. fold (w_params x ps).
    apply cparam_of_inv in Hx as [_ Hx]. destruct p; try (subst v; cbn [w_bare]; lia); lia. }
  cut (forall s, tot (fun p => match p with Key v | Name v => wt x v | _ => 0 end) (fold_left set_insert l s)
    <= tot (fun p => match p with Key v | Name v => wt x v | _ => 0 end) s + tot (fun p => match p with Key v | Name v => wt x v | _ => 0 end) l).
  { intro Hc. specialize (Hc []). rewrite tot_nil in Hc. lia. }
  clear. induction l as [|p l IH]; intro s; cbn [fold_left]; [rewrite tot_nil; lia|]. specialize (IH (set_insert s p)). rewrite tot_cons.
  unfold set_insert in *. destruct (set_contains s p); [lia|]. rewrite tot_app, tot_cons, tot_nil in IH. lia.
Qed.
Lemma cid_of_str_w x s i : x <> cQuote -> cid_of_str s = Ok i -> id_sum (wt x) i <= cnt x s.
Proof.
  intros Hx. rewrite cid_of_str_unfold. pose proof (cnt_trim x s) as Ht.
  assert (Hq : cnt x [cQuote] = 0) by (apply cnt_none; intros [H|[]]; congruence).
  destruct (negb _ && negb _ && negb _ && negb _);
    match goal with |- bind (ok_or (parse_item ?t) _) _ = _ -> _ => destruct (parse_item t) as [it|] eqn:E; [|discriminate] end;
    cbn [ok_or bind]; intro H; apply (cid_of_item_w x) in H; apply (parse_item_w x) in E; [rewrite cnt_cons, cnt_app in E; lia|lia].
Qed.
Lemma cid_of_ser_w it i : wf_item it -> cid_of_str (ser_item it) = Ok i -> id_sum (wt cBack) i <= w_item cBack it.
Proof.
  intros Hw. rewrite cid_of_str_unfold. rewrite (trim_id (ser_item it)) by (apply ser_item_trimmed; assumption).
  destruct (negb (starts_with cQuote (ser_item it)) && _ && _ && _) eqn:Eb.
  - assert (Hno : cnt cBack (ser_item it) = 0).
    { apply cnt_none. intro H. apply ser_item_back in H; [|assumption]. assert (Hc : contains cQuote (ser_item it) = true) by (apply contains_In; exact H). rewrite Hc in Eb. cbn [negb] in Eb. rewrite andb_false_r in Eb. discriminate. }
    destruct (parse_item _) as [j|] eqn:E; [|discriminate]. cbn [ok_or bind]. intro H. apply (cid_of_item_w cBack) in H. apply (parse_item_w cBack) in E.
    rewrite cnt_cons, cnt_app in E. change (cnt cBack [cQuote]) with 0 in E. lia.
  - rewrite parse_item_round by assumption. cbn [ok_or bind]. apply cid_of_item_w.
Qed.
(** how often a character occurs in the printed text *)
Lemma name_text_cnt x n : (forall d, ~ In x (derived_str d)) -> cnt x (name_text n) = match n with HttpField s => cnt x s | Derived _ => 0 end.
Proof. intro H. destruct n as [s|d]; [reflexivity|]. apply cnt_none, H. Qed.
Lemma cid_str_cnt x i : x = cBack \/ x = cColon -> cnt x (cid_str i) = id_sum (cnt x) i.
Proof.
  intro Hx. unfold cid_str. rewrite name_str_text, cparams_str_flat, cnt_app, cnt_flat, cnt_cons, cnt_app.
  assert (Hq : cnt x [cQuote] = 0) by (destruct Hx as [->| ->]; reflexivity).
  rewrite Hq, name_text_cnt by (destruct Hx as [->| ->]; intros d H; apply contains_In in H; destruct d; discriminate H).
  unfold id_sum. rewrite Nat.add_0_r. cbn [Nat.add]. f_equal.
  induction (id_params i) as [|p l IH]; [reflexivity|]. rewrite !tot_cons, IH. f_equal.
  assert (Hc : forall u v : str, cnt x u = 0 -> cnt x (u ++ cQuote :: v ++ [cQuote]) = cnt x v).
  { intros u v Hu. rewrite cnt_app, cnt_cons, cnt_app. lia. }
  destruct p; cbn [cparam_str]; try (destruct Hx as [->| ->]; reflexivity);
    match goal with |- cnt x (cSemi :: ?u ++ _) = _ => apply (Hc (cSemi :: u)); destruct Hx as [->| ->]; reflexivity end.
Qed.
(** every text has at least as many backslashes escaped as printed, and more if it needs escapes *)
Definition excess (s : str) : nat := cnt cQuote s + cnt cBack s.
Lemma wt_excess s : wt cBack s = cnt cBack s + excess s.
Proof.
  unfold excess, wt. induction s as [|c s IH]; [reflexivity|]. cbn [flat_map]. rewrite cnt_app, IH, (cnt_cons cBack c), (cnt_cons cQuote c).
  unfold esc. destruct (c =? cQuote)%N eqn:E1; [apply N.eqb_eq in E1; subst c; cbn [orb]; change (cnt cBack [cBack; cQuote]) with 1; change (cnt cBack [cQuote]) with 0; change (cnt cQuote [cQuote]) with 1; lia|].
  destruct (c =? cBack)%N eqn:E2; [apply N.eqb_eq in E2; subst c; cbn [orb]; change (cnt cBack [cBack; cBack]) with 2; change (cnt cBack [cBack]) with 1; change (cnt cQuote [cBack]) with 0; lia|].
  cbn [orb]. assert (Hq : cnt cQuote [c] = 0) by (apply cnt_none; intros [H|[]]; subst c; discriminate).
  assert (Hb : cnt cBack [c] = 0) by (apply cnt_none; intros [H|[]]; subst c; discriminate). lia.
Qed.
Lemma wt_other x s : x <> cBack -> wt x s = cnt x s.
Proof.
  intro Hx. unfold wt. rewrite cnt_flat. induction s as [|c s IH]; [reflexivity|]. rewrite tot_cons, IH, (cnt_cons x c s). f_equal. unfold esc.
  destruct ((c =? cQuote) || (c =? cBack))%N; [|reflexivity]. rewrite (cnt_cons x cBack). assert (H : cnt x [cBack] = 0) by (apply cnt_none; intros [H|[]]; congruence). lia.
Qed.
Lemma excess_zero s : excess s = 0 -> clean s.
Proof. unfold excess. intro H. split; apply cnt_none; unfold cQuote, cBack in H; lia. Qed.
Lemma id_sum_add f g i : id_sum (fun s => f s + g s) i = id_sum f i + id_sum g i.
Proof.
  unfold id_sum. enough (H : forall l, tot (fun p => match p with Key v | Name v => f v + g v | _ => 0 end) l
    = tot (fun p => match p with Key v | Name v => f v | _ => 0 end) l + tot (fun p => match p with Key v | Name v => g v | _ => 0 end) l).
  { rewrite H. destruct (id_name i); lia. }
  intro l. rewrite <- tot_add. unfold tot. f_equal. apply map_ext. intros []; reflexivity.
Qed.
Lemma id_sum_ext f g i : (forall s, f s = g s) -> id_sum f i = id_sum g i.
Proof.
  intro H. unfold id_sum. f_equal; [destruct (id_name i); [apply H|reflexivity]|]. unfold tot. f_equal. apply map_ext. intros []; try reflexivity; apply H.
Qed.
Lemma id_sum_zero f i : id_sum f i = 0 -> (forall s, id_name i = HttpField s -> f s = 0) /\ (forall v, In (Key v) (id_params i) -> f v = 0) /\ (forall v, In (Name v) (id_params i) -> f v = 0).
Proof.
  unfold id_sum. intro H. split; [intros s E; rewrite E in H; lia|].
  assert (H2 : tot (fun p => match p with Key v | Name v => f v | _ => 0 end) (id_params i) = 0) by lia.
  split; intros v Hv; exact (tot_zero _ _ H2 _ Hv).
Qed.
Lemma id_excess i : id_sum (wt cBack) i = id_sum (cnt cBack) i + id_sum excess i.
Proof. rewrite <- id_sum_add. apply id_sum_ext, wt_excess. Qed.
Lemma id_clean i : id_sum excess i = 0 -> clean_id i.
Proof. intro H. apply id_sum_zero in H as (H1 & H2 & H3). repeat split; intros; (apply excess_zero; eauto) || idtac. Qed.
Lemma cid_exact i : cid_of_str (cid_str i) = Ok i <-> valid_id i /\ clean_id i.
Proof.
  split; [|intros [H1 H2]; apply cid_round; assumption]. intro H. split; [eapply cid_of_str_valid; eassumption|]. apply id_clean.
  apply (cid_of_str_w cBack) in H; [|discriminate]. rewrite cid_str_cnt in H by (left; reflexivity). rewrite id_excess in H. lia.
Qed.
Lemma line_exact c v : comp_of_str (comp_str c) = Ok (mkComp (co_id c) v) <->
  (valid_id (co_id c) /\ clean_id (co_id c) /\ lacks cColon (co_id c)) /\ v = VString (trim (cvalue_str (co_value c))).
Proof.
  split; [|intros [(H1 & H2 & H3) ->]; apply comp_round; assumption]. intro H.
  assert (Hl : lacks cColon (co_id c)).
  { unfold comp_of_str in H. destruct (split_once cColon (comp_str c)) as [[a b]|] eqn:E; [|discriminate].
    destruct (negb _); [discriminate|]. destruct (cid_of_str (trim a)) as [i| |] eqn:Ei; try discriminate. cbn [bind] in H. injection H as Hi _. subst i.
    apply split_once_some in E as [_ E]. apply contains_false in E. apply cnt_none in E. apply (cid_of_str_w cColon) in Ei; [|discriminate].
    pose proof (cnt_trim cColon a). assert (H0 : id_sum (wt cColon) (co_id c) = 0) by lia. rewrite (id_sum_ext _ (cnt cColon)) in H0 by (intro; apply wt_other; discriminate).
    apply id_sum_zero in H0 as (H1 & H2 & H3). split; [|split]; intros; apply cnt_none; eauto. }
  assert (Hs : split_once cColon (comp_str c) = Some (cid_str (co_id c), cSP :: cvalue_str (co_value c))).
  { apply split_once_some. split; [reflexivity|]. apply contains_false, cnt_none. rewrite cid_str_cnt by (right; reflexivity).
    destruct Hl as (H1 & H2 & H3). unfold id_sum. assert (E0 : forall l : list cparam, (forall p, In p l -> match p with Key v | Name v => cnt cColon v | _ => 0 end = 0) -> tot (fun p => match p with Key v | Name v => cnt cColon v | _ => 0 end) l = 0).
    { induction l as [|p l IH]; intro Hf; [reflexivity|]. rewrite tot_cons, (Hf p) by (left; reflexivity). apply IH. intros; apply Hf; right; assumption. }
    rewrite E0; [destruct (id_name (co_id c)); [rewrite Nat.add_0_r; apply cnt_none; auto|reflexivity]|].
    intros p Hp. destruct p; try reflexivity; apply cnt_none; eauto. }
  unfold comp_of_str in H. rewrite Hs in H. destruct (negb _); [discriminate|]. destruct (cid_of_str (trim (cid_str (co_id c)))) as [i| |] eqn:Ei; try discriminate. cbn [bind] in H.
  injection H as Hi Hv. subst i. assert (Ei' : cid_of_str (cid_str (co_id c)) = Ok (co_id c)).
  { rewrite cid_of_str_unfold. rewrite cid_of_str_unfold in Ei. rewrite (trim_id (trim (cid_str (co_id c)))) in Ei by apply trim_trimmed. exact Ei. }
  apply cid_exact in Ei' as [H1 H2]. split; [auto|]. rewrite <- Hv. f_equal.
Qed.

(** ** parameters *)
Definition opt_sum (f : str -> nat) (o : option str) : nat := match o with Some s => f s | None => 0 end.
Definition sp_sum (f : str -> nat) (p : sparams) : nat :=
  tot (id_sum f) (sp_covered p) + tot (opt_sum f) [sp_nonce p; sp_alg p; sp_keyid p; sp_tag p].
Lemma last_value_w x ks : NoDup ks -> forall ps : params, tot (fun k => opt_sum (wt x) (reads text_of k ps)) ks <= w_params x ps.
Proof.
  intro Hn. induction ps as [|[k0 v0] ps IH].
  { assert (H : forall l : list str, tot (fun k => opt_sum (wt x) (reads text_of k [])) l = 0) by (induction l as [|k l IHl]; [reflexivity|]; rewrite tot_cons, IHl; reflexivity). rewrite H. unfold w_params. rewrite tot_nil. lia. }
  unfold w_params. rewrite tot_cons. cbn [snd]. fold (w_params x ps).
  assert (H1 : tot (fun k => opt_sum (wt x) (reads text_of k ((k0, v0) :: ps))) ks
    <= tot (fun k => (if list_eq_dec N.eq_dec k k0 then w_bare x v0 else 0) + opt_sum (wt x) (reads text_of k ps)) ks).
  { apply tot_le. intros k _. unfold reads. cbn [last_value]. destruct (last_value k ps) as [b|]; [lia|]. destruct (list_eq_dec N.eq_dec k k0); [|cbn; lia].
    destruct v0; cbn [text_of opt_sum w_bare]; lia. }
  rewrite tot_add in H1.
  assert (H2 : tot (fun k => if list_eq_dec N.eq_dec k k0 then w_bare x v0 else 0) ks <= w_bare x v0).
  { clear - Hn. assert (H0 : forall l, ~ In k0 l -> tot (fun k => if list_eq_dec N.eq_dec k k0 then w_bare x v0 else 0) l = 0).
    { induction l as [|k l IHl]; intro H; [reflexivity|]. rewrite tot_cons. destruct (list_eq_dec N.eq_dec k k0) as [->|_]; [exfalso; apply H; left; reflexivity|].
      apply IHl. intro; apply H; right; assumption. }
    induction Hn as [|k l Hk Hl IHl]; [rewrite tot_nil; lia|]. rewrite tot_cons. destruct (list_eq_dec N.eq_dec k k0) as [->|_]; [rewrite H0 by assumption; lia|]. lia. }
  lia.
Qed.
Lemma entry_w e p : wf_entry e -> sparams_of_entry e = Ok p -> sp_sum (wt cBack) p <= w_entry cBack e.
Proof.
  destruct e as [i|[items ps]]; [discriminate|]. intros [Hi [Hp Hn]] H. rewrite entry_reads in H by assumption.
  destruct (collect _ items) as [ids|e|q] eqn:E; try discriminate. cbn [bind] in H.
  destruct (has_unique_elements ids); [|discriminate]. cbn [negb] in H. destruct (neg_times ps); [discriminate|]. injection H as <-.
  unfold sp_sum. cbn [read_params sp_nonce sp_alg sp_keyid sp_tag sp_covered w_entry]. unfold w_inner. cbn [in_items in_params].
  assert (H1 : tot (id_sum (wt cBack)) ids <= tot (w_item cBack) items).
  { apply collect_ok in E. cbn [in_items] in Hi. clear - E Hi. induction E as [|it i items ids Hx E IH]; [reflexivity|]. inversion Hi; subst. rewrite !tot_cons.
    apply cid_of_ser_w in Hx; [|assumption]. specialize (IH H2). lia. }
  assert (H2 : NoDup [lit "nonce"; lit "alg"; lit "keyid"; lit "tag"]).
  { repeat constructor; cbn [In]; intuition discriminate. }
  pose proof (last_value_w cBack _ H2 ps) as H3. unfold tot in H3 |- *. cbn [map list_sum fold_right] in H3 |- *. unfold tot in H1. lia.
Qed.
Lemma cnt_join x l : cnt x (join [cSP] l) = tot (cnt x) l + (List.length l - 1) * cnt x [cSP].
Proof.
  destruct l as [|a l]; [reflexivity|]. rewrite join_cons_flat, cnt_app, cnt_flat, tot_cons. cbn [List.length]. replace (S (List.length l) - 1) with (List.length l) by lia.
  rewrite <- Nat.add_assoc. f_equal. induction l as [|b l IH]; [reflexivity|]. rewrite !tot_cons, IH. cbn [List.length]. rewrite (cnt_app x [cSP] b). lia.
Qed.
Lemma digits_back n : cnt cBack (dec n) = 0.
Proof.
  apply cnt_none. intro H. pose proof (dec_digits n) as Hd. rewrite Forall_forall in Hd. apply Hd in H. unfold digitp, cBack in H. lia.
Qed.
Lemma sparams_str_cnt p : cnt cBack (sparams_str p) = sp_sum (cnt cBack) p.
Proof.
  unfold sparams_str. rewrite joined_ids. rewrite !cnt_app, cnt_join. change (cnt cBack [cSP]) with 0. change (cnt cBack (lit "(")) with 0. change (cnt cBack (lit ")")) with 0.
  assert (Ht : forall u o, cnt cBack u = 0 -> cnt cBack (opt_str o (fun v => u ++ quoted v)) = opt_sum (cnt cBack) o).
  { intros u [v|] Hu; cbn [opt_str opt_sum]; [|reflexivity]. unfold quoted. rewrite cnt_app, (cnt_cons cBack cQuote), cnt_app. change (cnt cBack [cQuote]) with 0. lia. }
  assert (Hd : forall u o, cnt cBack u = 0 -> cnt cBack (opt_str o (fun v => u ++ dec v)) = 0).
  { intros u [v|] Hu; cbn [opt_str]; [|reflexivity]. rewrite cnt_app, digits_back. lia. }
  rewrite !Hd, !Ht by reflexivity. unfold sp_sum. rewrite !tot_cons, tot_nil.
  assert (Hi : tot (cnt cBack) (map cid_str (sp_covered p)) = tot (id_sum (cnt cBack)) (sp_covered p)).
  { unfold tot. rewrite map_map. f_equal. apply map_ext. intro i. apply cid_str_cnt. left. reflexivity. }
  rewrite Hi. lia.
Qed.
Lemma sp_excess p : sp_sum (wt cBack) p = sp_sum (cnt cBack) p + sp_sum excess p.
Proof.
  unfold sp_sum. assert (H1 : tot (id_sum (wt cBack)) (sp_covered p) = tot (id_sum (cnt cBack)) (sp_covered p) + tot (id_sum excess) (sp_covered p)).
  { rewrite <- tot_add. unfold tot. f_equal. apply map_ext, id_excess. }
  rewrite H1, !tot_cons, !tot_nil.
  assert (Ho : forall o, opt_sum (wt cBack) o = opt_sum (cnt cBack) o + opt_sum excess o) by (intros [s|]; [apply wt_excess|reflexivity]).
  rewrite !Ho. lia.
Qed.
Lemma sp_unescaped p : sp_sum excess p = 0 -> unescaped p.
Proof.
  unfold sp_sum. intro H. split.
  - intros s Hs. apply excess_zero. assert (H2 : tot (opt_sum excess) [sp_nonce p; sp_alg p; sp_keyid p; sp_tag p] = 0) by lia. exact (tot_zero _ _ H2 _ Hs).
  - apply Forall_forall. intros i Hi. apply id_clean. assert (H2 : tot (id_sum excess) (sp_covered p) = 0) by lia. exact (tot_zero _ _ H2 _ Hi).
Qed.
Lemma sparams_exact p : sparams_of_str (sparams_str p) = Ok p <-> writable p.
Proof.
  split; [|apply sparams_round]. unfold sparams_of_str. destruct (parse_list (sparams_str p)) as [l|] eqn:E; [|discriminate]. cbn [ok_or bind].
  destruct l as [|[i|x] [|e l]]; try discriminate. intro H. pose proof (parse_list_wf _ _ E) as Hw. inversion Hw as [|? ? Hx _]; subst.
  eapply parsed_writable; [exact Hx|exact H|]. apply sp_unescaped. apply (parse_list_w cBack) in E. apply entry_w in H; [|exact Hx].
  rewrite tot_cons, tot_nil in E. rewrite sparams_str_cnt in E. rewrite sp_excess in H. lia.
Qed.

(** ** headers *)
Lemma cnt_comma l : cnt cBack (comma_join l) = tot (cnt cBack) l.
Proof.
  destruct l as [|a l]; [reflexivity|]. unfold comma_join. rewrite cnt_app, cnt_flat, tot_cons. reflexivity.
Qed.
Lemma key_back k : wf_key k -> cnt cBack k = 0.
Proof. intros [_ H]. apply cnt_none. intro Hi. rewrite forallb_forall in H. apply H in Hi. discriminate. Qed.
(** signatures read from members whose texts weigh no more than the lines written for them *)
Lemma weighed_sendable ds di l : Forall wf_member ds -> Forall wf_member di -> Forall2 (paired ds) di (map with_name l) ->
  tot (w_member cBack) di <= tot (cnt cBack) (map signature_input_header_value l) -> Forall sendable l.
Proof.
  intros Ws Wi H Ei. rewrite Forall_forall in Ws.
  assert (Hw : forall h, In h l -> wf_key (sh_name h) /\ Forall octet (sh_sig h) /\ exists e, wf_entry e /\ sparams_of_entry e = Ok (sh_params h)).
  { clear Ei. remember (map with_name l) as l' eqn:El. revert l El.
    induction H as [|kv r di l' Hp H IH]; intros l El h Hh; destruct l as [|h0 l]; try discriminate; [destruct Hh|]. cbn [map] in El. injection El as -> ->.
    inversion Wi as [|? ? [Hk1 Hk2] Wi']; subst. destruct Hh as [->|Hh]; [|eapply IH; try eassumption; reflexivity].
    destruct Hp as (E1 & E2 & E3 & ps & E4). cbn [with_name fst snd] in *. rewrite E1. split; [assumption|]. split; [|eauto].
    apply Ws in E4 as [_ [E4 _]]. exact E4. }
  assert (Hs : tot (fun h => sp_sum (wt cBack) (sh_params h)) l <= tot (w_member cBack) di).
  { clear Ei Hw. remember (map with_name l) as l' eqn:El. revert l El.
    induction H as [|kv r di l' Hp H IH]; intros l El; destruct l as [|h0 l]; try discriminate; [reflexivity|]. cbn [map] in El. injection El as -> ->.
    inversion Wi as [|? ? [Hk1 Hk2] Wi']; subst. rewrite !tot_cons. specialize (IH Wi' l eq_refl). destruct Hp as (E1 & E2 & E3 & _). cbn [with_name fst snd] in E3.
    apply entry_w in E3; [|assumption]. unfold w_member at 1. lia. }
  assert (Hc : tot (cnt cBack) (map signature_input_header_value l) = tot (fun h => sp_sum (cnt cBack) (sh_params h)) l).
  { clear - Hw. induction l as [|h l IH]; [reflexivity|]. cbn [map]. rewrite !tot_cons. rewrite IH by (intros; apply Hw; right; assumption). f_equal.
    unfold signature_input_header_value. rewrite !cnt_app, sparams_str_cnt. destruct (Hw h (or_introl eq_refl)) as [Hk _]. rewrite (key_back _ Hk). reflexivity. }
  assert (He : tot (fun h => sp_sum (wt cBack) (sh_params h)) l = tot (fun h => sp_sum (cnt cBack) (sh_params h)) l + tot (fun h => sp_sum excess (sh_params h)) l).
  { rewrite <- tot_add. unfold tot. f_equal. apply map_ext. intro h. apply sp_excess. }
  assert (Hz : tot (fun h => sp_sum excess (sh_params h)) l = 0) by lia.
  apply Forall_forall. intros h Hh. destruct (Hw h Hh) as (H1 & H2 & e & H3 & H4).
  split; [apply key_text_spec, H1|]. split; [assumption|]. eapply parsed_writable; [exact H3|exact H4|]. apply sp_unescaped. exact (tot_zero _ _ Hz _ Hh).
Qed.
Lemma headers_exact l : try_parse (comma_join (map signature_header_value l)) (comma_join (map signature_input_header_value l)) = Ok (map (fun h => (sh_name h, h)) l)
  <-> Forall sendable l /\ NoDup (map sh_name l).
Proof.
  split; [|intros [H1 H2]; apply headers_parse_back; assumption]. intro H. apply try_parse_spec in H as (ds & di & Es & Ei & Hk & H).
  pose proof (parse_dict_wf _ _ Es) as [Ws Ns]. pose proof (parse_dict_wf _ _ Ei) as [Wi Ni].
  pose proof (paired_keys _ _ _ H) as Hn. rewrite map_map in Hn. cbn [fst] in Hn. rewrite <- Hn in Ni. split; [|exact Ni].
  apply (parse_dict_w cBack) in Ei. rewrite cnt_comma in Ei. exact (weighed_sendable _ _ _ Ws Wi H Ei).
Qed.
(** the same behind other members *)
Lemma parse_dict_behind s1 s2 d1 : parse_dict s1 = Some d1 -> d1 <> [] -> s2 <> [] -> skip is_ows s2 = s2 -> skip is_sp s2 = s2 ->
  parse_dict (s1 ++ lit ", " ++ s2) = match parse_dict s2 with Some d2 => Some (im_add d1 d2) | None => None end.
Proof.
  unfold parse_dict. destruct (p_sep p_member (skip is_sp s1)) as [l1|] eqn:E1; [|discriminate]. intros H N1 N2 S1 S2. injection H as <-. rewrite S2.
  assert (E : skip is_sp s1 <> []) by (intro E; rewrite E in E1; cbn in E1; injection E1 as <-; apply N1; reflexivity).
  rewrite skip_nonempty_app by assumption. change (lit ", " ++ s2) with (cComma :: [cSP] ++ s2).
  rewrite (p_sep_app p_member wf_member p_member_facts _ l1) by first [assumption|reflexivity].
  destruct (p_sep p_member s2) as [l2|]; [|reflexivity]. rewrite im_add_of_list, !im_of_list_add, im_add_app. reflexivity.
Qed.
Lemma lines_start (f : sigheaders -> str) g l : (forall h, f h = sh_name h ++ g h) -> l <> [] -> (forall h, In h l -> wf_key (sh_name h)) ->
  let t := comma_join (map f l) in t <> [] /\ skip is_ows t = t /\ skip is_sp t = t.
Proof.
  intros Hf Hl Hk. destruct l as [|h l]; [congruence|]. cbn [map comma_join]. rewrite Hf. destruct (Hk h (or_introl eq_refl)) as [H _].
  destruct (sh_name h) as [|c n]; [destruct H|]. cbn [app]. split; [discriminate|]. split; apply skip_id; cbn [headn app]; [destruct (is_ows c) eqn:E|destruct (is_sp c) eqn:E]; first [reflexivity|chars].
Qed.
Lemma tot_incl {A} (f : A -> nat) a : NoDup a -> forall b, incl a b -> tot f a <= tot f b.
Proof.
  induction 1 as [|x a Hx Ha IH]; intros b Hb; [rewrite tot_nil; lia|]. destruct (in_split x b (Hb x (or_introl eq_refl))) as (b1 & b2 & ->).
  rewrite tot_app, !tot_cons. enough (H : tot f a <= tot f (b1 ++ b2)) by (rewrite tot_app in H; lia). apply IH. intros y Hy.
  pose proof (Hb y (or_intror Hy)) as H. apply in_app_or in H. apply in_or_app. destruct H as [H|[->|H]]; [auto|contradiction|auto].
Qed.
Lemma headers_exact_behind s i l0 l : hold s i l0 -> l0 <> [] -> l <> [] ->
  hold (s ++ lit ", " ++ comma_join (map signature_header_value l)) (i ++ lit ", " ++ comma_join (map signature_input_header_value l)) (l0 ++ map with_name l) ->
  Forall sendable l.
Proof.
  intros (ds0 & di0 & Es0 & Ei0 & Hk0 & Hp0) N0 Nl (ds & di & Es & Ei & Hk & Hp).
  assert (Ndi0 : di0 <> []) by (intro; subst; inversion Hp0; subst; congruence).
  pose proof (parse_dict_wf _ _ Es) as [Ws Ns]. pose proof (parse_dict_wf _ _ Ei) as [Wi Ni]. pose proof (parse_dict_wf _ _ Ei0) as [_ Ni0].
  pose proof (paired_keys _ _ _ Hp) as Kp. pose proof (paired_keys _ _ _ Hp0) as Kp0. rewrite map_app, fst_with_name in Kp.
  assert (Hkey : forall h, In h l -> wf_key (sh_name h)).
  { intros h Hh. assert (Hi : In (sh_name h) (map fst di)) by (rewrite <- Kp; apply in_or_app; right; apply in_map; assumption).
    apply in_map_iff in Hi as (kv & <- & Hi). rewrite Forall_forall in Wi. apply (Wi kv Hi). }
  destruct (lines_start signature_input_header_value _ l (fun _ => eq_refl) Nl Hkey) as (T1 & T2 & T3).
  rewrite (parse_dict_behind _ _ di0) in Ei by assumption. destruct (parse_dict (comma_join (map signature_input_header_value l))) as [di2|] eqn:E2; [|discriminate].
  injection Ei as <-. apply Forall2_app_inv_r in Hp as (da & db & _ & Hb & Ed).
  pose proof (paired_keys _ _ _ Hb) as Kb. rewrite fst_with_name in Kb. rewrite <- Kp in Ni. pose proof Ni as Ni'.
  assert (Nb : NoDup (map fst db)) by (rewrite <- Kb; clear - Ni; revert Ni; induction (map fst l0); [tauto|]; cbn [app]; intro H; inversion H; auto).
  assert (Hin : incl db di2).
  { intros [k e] Hx. assert (Hg : im_get (im_add di0 di2) k = Some e) by (apply BaseFacts.im_get_nodup; [rewrite <- Kp; assumption|rewrite Ed; apply in_or_app; right; assumption]).
    rewrite im_get_add in Hg. destruct (last_value k di2) as [e'|] eqn:El; [injection Hg as ->; apply SpecSfvProofs.last_value_In; assumption|]. exfalso.
    apply BaseFacts.im_get_In in Hg. apply (in_map fst) in Hg, Hx. cbn [fst] in Hg, Hx. rewrite <- Kp0 in Hg. rewrite <- Kb in Hx.
    apply in_split in Hx as (x1 & x2 & Ex). rewrite Ex, app_assoc in Ni. apply NoDup_remove_2 in Ni. apply Ni. apply in_or_app. left. apply in_or_app. left. assumption. }
  apply (weighed_sendable ds db); [assumption| |assumption|].
  - rewrite Ed in Wi. apply Forall_app in Wi. apply Wi.
  - apply (parse_dict_w cBack) in E2. rewrite cnt_comma in E2. pose proof (tot_incl (w_member cBack) db (NoDup_map_inv _ _ Nb) di2 Hin). lia.
Qed.

(** ** messages *)
Lemma legible_utf8 t : legible (utf8 t) -> utf8 t = t.
Proof.
  intro H. apply utf8_ascii. unfold utf8 in H. induction t as [|c t IH]; [constructor|]. cbn [flat_map] in H. apply Forall_app in H as [H1 H2].
  constructor; [|apply IH, H2]. unfold utf8_enc1 in H1. destruct (c <? 128)%N eqn:E; [apply N.ltb_lt in E; exact E|]. exfalso.
  assert (Hc : forall k d : N, (127 < k)%N -> (32 <= k + d <= 126 \/ k + d = 9)%N -> False) by (intros; lia).
  destruct (c <? 2048)%N; [|destruct (c <? 65536)%N]; apply Forall_inv in H1; cbv beta in H1; apply Hc in H1; try exact H1; reflexivity.
Qed.
Lemma lines_signature l : field_lines (flat_map pair_lines l) (lit "signature") = map signature_line l /\ field_lines (flat_map pair_lines l) (lit "signature-input") = map input_line l.
Proof.
  induction l as [|s l [IH1 IH2]]; [split; reflexivity|]. cbn [flat_map map]. rewrite !field_lines_app, IH1, IH2. split; reflexivity.
Qed.
Lemma message_exact m l : field_lines (msg_headers m) (lit "signature") = [] -> field_lines (msg_headers m) (lit "signature-input") = [] -> Forall (fun s => Forall octet (sh_sig s)) l ->
  (received (msg_set_headers m (msg_headers m ++ flat_map pair_lines l)) (map with_name l) <-> l <> [] /\ Forall sendable l /\ NoDup (map sh_name l)).
Proof.
  intros E1 E2 Ho. destruct (lines_signature l) as [L1 L2]. unfold received, signed. cbv zeta. rewrite set_headers_get, !field_lines_app, E1, E2, L1, L2. cbn [app]. split.
  - intros ((H0 & _) & H1 & H2 & H). split; [destruct l; [cbn in H0; congruence|discriminate]|]. apply headers_exact. apply hold_spec.
    assert (F1 : map signature_line l = map signature_header_value l).
    { apply map_ext_in. intros s Hs. unfold signature_header_value. rewrite b64_text_spec by (rewrite Forall_forall in Ho; apply Ho, Hs).
      rewrite Forall_map, Forall_forall in H1. specialize (H1 s Hs). unfold signature_line in *. apply legible_utf8, H1. }
    assert (F2 : map input_line l = map signature_input_header_value l).
    { apply map_ext_in. intros s Hs. unfold signature_input_header_value. rewrite params_text_spec.
      rewrite Forall_map, Forall_forall in H2. specialize (H2 s Hs). unfold input_line in *. apply legible_utf8, H2. }
    rewrite <- F1, <- F2. apply header_texts_spec, H.
  - intros (H0 & Hs & Hn).
    assert (F1 : map signature_line l = map signature_header_value l).
    { apply map_ext_in. intros s Hi. rewrite Forall_forall in Hs. apply (sendable_lines s (Hs s Hi)). }
    assert (F2 : map input_line l = map signature_input_header_value l).
    { apply map_ext_in. intros s Hi. rewrite Forall_forall in Hs. apply (sendable_lines s (Hs s Hi)). }
    rewrite F1, F2. assert (Hl : forall t, printp t -> legible t) by (intros t Ht; eapply Forall_impl; [|exact Ht]; cbn; lia).
    split; [split; destruct l; try congruence; discriminate|]. rewrite !Forall_map.
    split; [eapply Forall_impl; [|exact Hs]; intros s Hi; apply Hl, (sendable_lines s Hi)|].
    split; [eapply Forall_impl; [|exact Hs]; intros s Hi; apply Hl, (sendable_lines s Hi)|].
    apply header_texts_spec, hold_spec, headers_exact. split; assumption.
Qed.
Lemma carries_exact m l0 l : carries m l0 -> Forall (fun s => Forall octet (sh_sig s)) l ->
  (carries (msg_set_headers m (msg_headers m ++ flat_map pair_lines l)) (l0 ++ map with_name l) <-> Forall sendable l /\ NoDup (map fst l0 ++ map sh_name l)).
Proof.
  intros Hc Ho. split.
  - intro H. destruct l as [|h l].
    { split; [constructor|]. cbn [map]. rewrite app_nil_r. destruct Hc as [(-> & _)|[_ Hr]]; [constructor|]. eapply received_keys; eassumption. }
    destruct H as [(E & _)|(_ & H)]; [destruct l0; discriminate|]. set (L := h :: l) in *.
    destruct Hc as [(-> & E1 & E2)|(N0 & Hr)]; [apply (message_exact m L E1 E2 Ho) in H; split; apply H|].
    pose proof (received_keys _ _ H) as Hn. rewrite map_app, fst_with_name in Hn. split; [|assumption].
    apply received_hold in Hr as ((A1 & A2) & B1 & B2 & Hh). apply received_hold in H as (_ & H1 & H2 & H). rewrite set_headers_get, !field_lines_app in *. destruct (lines_signature L) as [L1 L2]. rewrite L1, L2 in *.
    apply Forall_app in H1 as [_ H1]. apply Forall_app in H2 as [_ H2].
    assert (F1 : map signature_line L = map signature_header_value L).
    { apply map_ext_in. intros s Hs. unfold signature_header_value. rewrite b64_text_spec by (rewrite Forall_forall in Ho; apply Ho, Hs).
      rewrite Forall_map, Forall_forall in H1. specialize (H1 s Hs). unfold signature_line in *. apply legible_utf8, H1. }
    assert (F2 : map input_line L = map signature_input_header_value L).
    { apply map_ext_in. intros s Hs. unfold signature_input_header_value. rewrite params_text_spec.
      rewrite Forall_map, Forall_forall in H2. specialize (H2 s Hs). unfold input_line in *. apply legible_utf8, H2. }
    rewrite F1, F2 in H. rewrite !comma_join_app in H by first [assumption|discriminate].
    eapply headers_exact_behind; [exact Hh|exact N0| |exact H]. discriminate.
  - intros [Hs Hn]. rewrite <- (im_add_fresh l0 (map with_name l)) by (rewrite fst_with_name; assumption). apply carries_batch; assumption.
Qed.
