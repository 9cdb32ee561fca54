(** The specification vocabulary of SpecSfv.v agrees with the predicates used in the proofs *)
From Coq Require Import ZifyBool ZifyNat ZifyN.
From Verif Require Import Base BaseFacts Utf8 Utf8Facts Base64 Base64Facts Sfv SfvFacts SfvRound SpecSfv.
Ltac Zify.zify_post_hook ::= Z.div_mod_to_equations.

(** ** maps *)
Lemma im_get_add {V} (l : list (str * V)) : forall m k,
  im_get (im_add m l) k = match last_value k l with Some v => Some v | None => im_get m k end.
Proof.
  induction l as [|[k' v] l IH]; intros m k; [reflexivity|].
  rewrite im_add_cons, IH. cbn [last_value]. destruct (last_value k l); [reflexivity|].
  destruct (list_eq_dec N.eq_dec k k') as [->|Hn]; [apply im_get_insert_same | apply im_get_insert_other; assumption].
Qed.
Lemma im_get_of_list {V} (l : list (str * V)) k : im_get (im_of_list l) k = last_value k l.
Proof. rewrite im_of_list_add, im_get_add. destruct (last_value k l); reflexivity. Qed.
Lemma distinct_ext l : forall s s', (forall k, In k s <-> In k s') -> distinct s l = distinct s' l.
Proof.
  induction l as [|k l IH]; intros s s' H; [reflexivity|]. cbn [distinct].
  destruct (in_dec (list_eq_dec N.eq_dec) k s) as [Hi|Hi], (in_dec (list_eq_dec N.eq_dec) k s') as [Hi'|Hi'].
  - apply IH; assumption.
  - exfalso. apply Hi', H, Hi.
  - exfalso. apply Hi, H, Hi'.
  - f_equal. apply IH. intro x. cbn. rewrite H. reflexivity.
Qed.
Lemma im_add_keys {V} (l : list (str * V)) : forall m, map fst (im_add m l) = map fst m ++ distinct (map fst m) (map fst l).
Proof.
  induction l as [|[k v] l IH]; intro m; [symmetry; apply app_nil_r|].
  rewrite im_add_cons, IH, im_insert_keys. cbn [map fst distinct].
  destruct (in_dec (list_eq_dec N.eq_dec) k (map fst m)) as [Hi|Hi].
  - apply existsb_str in Hi. rewrite Hi. reflexivity.
  - destruct (existsb (str_eqb k) (map fst m)) eqn:E; [apply existsb_str in E; contradiction|].
    rewrite <- app_assoc. cbn [app]. do 2 f_equal. apply distinct_ext. intro x. rewrite in_app_iff. cbn. tauto.
Qed.
Lemma im_of_list_keys {V} (l : list (str * V)) : map fst (im_of_list l) = distinct [] (map fst l).
Proof. rewrite im_of_list_add, im_add_keys. reflexivity. Qed.
Lemma last_value_In {V} (l : list (str * V)) k v : last_value k l = Some v -> In (k, v) l.
Proof.
  induction l as [|[k' v'] l IH]; cbn [last_value]; [discriminate|]. destruct (last_value k l) eqn:E.
  - intro H. right. apply IH. exact H.
  - destruct (list_eq_dec N.eq_dec k k') as [->|]; [|discriminate]. intro H; inv H. left; reflexivity.
Qed.
Lemma last_value_none {V} (l : list (str * V)) k : last_value k l = None <-> ~ In k (map fst l).
Proof.
  induction l as [|[k' v'] l IH]; cbn [last_value map fst In]; [tauto|]. destruct (last_value k l) eqn:E.
  - split; [discriminate|]. intro H. exfalso. apply H. right. apply last_value_In in E. apply (in_map fst) in E. exact E.
  - destruct (list_eq_dec N.eq_dec k k') as [->|Hn].
    + split; [discriminate|]. intro H. exfalso; apply H; left; reflexivity.
    + split; [|reflexivity]. intros _ [H|H]; [congruence|]. apply IH in H; [assumption|reflexivity].
Qed.
Lemma last_value_nodup {V} (l : list (str * V)) k : NoDup (map fst l) -> last_value k l = im_get l k.
Proof. intro H. rewrite <- im_get_of_list, im_of_list_id by assumption. reflexivity. Qed.

(** ** characters *)
Lemma Forall_forallb {A} (P : A -> Prop) (f : A -> bool) l : (forall x, f x = true <-> P x) -> (forallb f l = true <-> Forall P l).
Proof.
  intro H. rewrite forallb_forall, Forall_forall. split; intros Hl x Hx; apply H, Hl, Hx.
Qed.
Lemma lit_in_dec c s : In c s <-> existsb (N.eqb c) s = true.
Proof. symmetry. apply contains_In. Qed.
Lemma is_tchar_spec c : is_tchar c = true <-> tchar c.
Proof.
  unfold tchar, alpha, lcalpha, digit, is_tchar, is_alpha, is_lcalpha, is_digit. rewrite lit_in_dec.
  cbv [lit map String.list_ascii_of_string Ascii.N_of_ascii Ascii.N_of_digits N.add N.mul Pos.add Pos.mul Pos.succ existsb]. lia.
Qed.
Lemma key_text_spec k : wf_key k <-> key_text k.
Proof.
  unfold wf_key, key_text. split.
  - intros [H1 H2]. destruct k as [|c r]; [destruct H1|]. exists c, r. split; [reflexivity|]. split.
    + unfold is_key_start, is_lcalpha, lcalpha, cStar in *. change (lit "*") with [42]. cbn [In]. lia.
    + cbn [forallb] in H2. bb. apply (Forall_forallb (fun c => lcalpha c \/ digit c \/ In c (lit "_-.*")) is_key_char); [|assumption].
      intro x. unfold is_key_char, is_lcalpha, is_digit, lcalpha, digit, cUnder, cMinus, cDot, cStar.
      change (lit "_-.*") with [95; 45; 46; 42]. cbn [In]. lia.
  - intros (c & r & -> & H1 & H2). split.
    + unfold is_key_start, is_lcalpha, lcalpha, cStar in *. change (lit "*") with [42] in H1. cbn [In] in H1. lia.
    + cbn [forallb]. apply andb_true_iff. split.
      * unfold lcalpha in H1. change (lit "*") with [42] in H1. cbn [In] in H1. chars.
      * apply (Forall_forallb (fun c => lcalpha c \/ digit c \/ In c (lit "_-.*")) is_key_char); [|assumption].
        intro x. unfold is_key_char, is_lcalpha, is_digit, lcalpha, digit, cUnder, cMinus, cDot, cStar.
        change (lit "_-.*") with [95; 45; 46; 42]. cbn [In]. lia.
Qed.
Lemma is_tok_char_spec x : is_tok_char x = true <-> tchar x \/ In x (lit ":/").
Proof.
  unfold is_tok_char. rewrite !orb_true_iff, is_tchar_spec, !N.eqb_eq. change (lit ":/") with [58; 47]. cbn [In].
  unfold cColon, cSlash. split; [intros [[|]|]; auto | intros [|[<-|[<-|[]]]]; auto].
Qed.
Lemma token_text_spec s :
  (match s with c :: _ => is_tok_start c = true | [] => False end /\ forallb is_tok_char s = true) <-> token_text s.
Proof.
  assert (Hstart : forall c, is_tok_start c = true <-> alpha c \/ In c (lit "*")).
  { intro c. unfold is_tok_start, is_alpha, is_lcalpha, alpha, lcalpha, cStar. change (lit "*") with [42]. cbn [In]. lia. }
  unfold token_text. split.
  - intros [H1 H2]. destruct s as [|c r]; [destruct H1|]. exists c, r. split; [reflexivity|]. split; [apply Hstart, H1|].
    cbn [forallb] in H2. bb. apply (Forall_forallb _ is_tok_char); [|assumption]. apply is_tok_char_spec.
  - intros (c & r & -> & H1 & H2). apply Hstart in H1. split; [assumption|]. cbn [forallb]. apply andb_true_iff. split; [chars|].
    apply (Forall_forallb (fun c => tchar c \/ In c (lit ":/"))); [|assumption]. apply is_tok_char_spec.
Qed.
Lemma utf8_text_spec b : bytesp b /\ utf8_valid b = true <-> utf8_text b.
Proof.
  split.
  - intros [_ H]. revert H. induction b as [b IH] using len_ind. intro H.
    destruct b as [|a r]; [constructor|]. cbn [utf8_valid] in H.
    destruct (a <? 128) eqn:E1; [apply U1; [lia|]; apply IH; [cbn; lia|assumption]|].
    destruct ((194 <=? a) && (a <? 224)) eqn:E2.
    { destruct r as [|b r]; [discriminate|]. unfold is_cont in H. bb. apply U2; [lia|lia|]. apply IH; [cbn; lia|assumption]. }
    destruct ((224 <=? a) && (a <? 240)) eqn:E3.
    { destruct r as [|b [|c r]]; try discriminate. apply andb_true_iff in H as [H H3]. apply andb_true_iff in H as [H H2].
      unfold is_cont in *. apply U3; [|lia|apply IH; [cbn; lia|assumption]].
      destruct (a =? 224) eqn:F1; [|destruct (a =? 237) eqn:F2]; lia. }
    destruct ((240 <=? a) && (a <? 245)) eqn:E4; [|discriminate].
    destruct r as [|b [|c [|d r]]]; try discriminate. apply andb_true_iff in H as [H H4]. apply andb_true_iff in H as [H H3].
    apply andb_true_iff in H as [H H2].
    unfold is_cont in *. apply U4; [|lia|lia|apply IH; [cbn; lia|assumption]].
    destruct (a =? 240) eqn:F1; [|destruct (a =? 244) eqn:F2]; lia.
  - induction 1 as [|a r Ha Hr [IH1 IH2]|a b r Ha Hb Hr [IH1 IH2]|a b c r Hab Hc Hr [IH1 IH2]|a b c d r Hab Hc Hd Hr [IH1 IH2]];
      (split; [repeat (apply Forall_cons; [lia|]); try assumption; try constructor|]); cbn [utf8_valid]; try reflexivity;
      unfold is_cont; try rewrite IH2.
    + destruct (a <? 128) eqn:E; [reflexivity|lia].
    + destruct (a <? 128) eqn:E; [lia|]. destruct ((194 <=? a) && (a <? 224)) eqn:E2; lia.
    + destruct (a <? 128) eqn:E; [lia|]. destruct ((194 <=? a) && (a <? 224)) eqn:E2; [lia|].
      destruct ((224 <=? a) && (a <? 240)) eqn:E3; [|lia]. destruct (a =? 224) eqn:F1; [|destruct (a =? 237) eqn:F2]; lia.
    + destruct (a <? 128) eqn:E; [lia|]. destruct ((194 <=? a) && (a <? 224)) eqn:E2; [lia|].
      destruct ((224 <=? a) && (a <? 240)) eqn:E3; [lia|]. destruct ((240 <=? a) && (a <? 245)) eqn:E4; [|lia].
      destruct (a =? 240) eqn:F1; [|destruct (a =? 244) eqn:F2]; lia.
Qed.

Lemma print_spec s : forallb is_print s = true <-> Forall printable s.
Proof. apply Forall_forallb. intro c. unfold is_print, printable. lia. Qed.
Lemma bare_value_spec b : wf_bare b <-> bare_value b.
Proof.
  destruct b; cbn [wf_bare bare_value]; unfold number15, lim15; try lia; try tauto.
  - apply print_spec.
  - apply token_text_spec.
  - apply utf8_text_spec.
Qed.
Lemma Forall_iff {A} (P Q : A -> Prop) l : (forall x, P x <-> Q x) -> (Forall P l <-> Forall Q l).
Proof. intro H. split; apply Forall_impl; intros; apply H; assumption. Qed.
Lemma params_value_spec ps : wf_params ps <-> params_value ps.
Proof.
  unfold wf_params, params_value.
  rewrite (Forall_iff wf_param (fun kv => key_text (fst kv) /\ bare_value (snd kv))); [tauto|].
  intro kv. unfold wf_param. rewrite key_text_spec, bare_value_spec. tauto.
Qed.
Lemma item_value_spec i : wf_item i <-> item_value i.
Proof. unfold wf_item, item_value. rewrite bare_value_spec, params_value_spec. tauto. Qed.
Lemma entry_value_spec e : wf_entry e <-> entry_value e.
Proof.
  destruct e; cbn [wf_entry entry_value]; [apply item_value_spec|]. unfold wf_inner.
  rewrite (Forall_iff wf_item item_value) by apply item_value_spec. rewrite params_value_spec. tauto.
Qed.
Lemma list_value_spec l : wf_list l <-> list_value l.
Proof. apply Forall_iff. apply entry_value_spec. Qed.
Lemma dict_value_spec d : wf_dict d <-> dict_value d.
Proof.
  unfold wf_dict, dict_value.
  rewrite (Forall_iff wf_member (fun kv => key_text (fst kv) /\ entry_value (snd kv))); [tauto|].
  intro kv. unfold wf_member. rewrite key_text_spec, entry_value_spec. tauto.
Qed.

(** ** base64 *)
Lemma b64_char_spec v : v < 64 -> b64_char v = nth (N.to_nat v) b64_alphabet 0.
Proof.
  intro H. assert (Hs : forallb (fun n => b64_char n =? nth (N.to_nat n) b64_alphabet 0) (map N.of_nat (seq 0 64)) = true)
    by (vm_compute; reflexivity).
  rewrite forallb_forall in Hs. apply N.eqb_eq. apply Hs. apply in_map_iff. exists (N.to_nat v). split; [lia|]. apply in_seq. lia.
Qed.
Lemma b64_text_spec b : Forall octet b -> b64_encode b = b64_text b.
Proof.
  assert (Hs : forall g v i, v = (g / 64 ^ (3 - i)) mod 64 -> b64_char v = sextet g i).
  { intros g v i ->. unfold sextet. apply b64_char_spec. lia. }
  unfold octet.
  induction b as [|a|a b|a b c r IH] using three_ind; intro H; inv_forall; cbn [b64_encode b64_text]; cbv zeta.
  - reflexivity.
  - rewrite (Hs (a * 65536) (a / 4) 0), (Hs (a * 65536) (a mod 4 * 16) 1); [reflexivity| |].
    + change (64 ^ (3 - 1)) with 4096. lia.
    + change (64 ^ (3 - 0)) with 262144. lia.
  - set (g := a * 65536 + b * 256).
    rewrite (Hs g (a / 4) 0), (Hs g (a mod 4 * 16 + b / 16) 1), (Hs g (b mod 16 * 4) 2); [reflexivity| | |]; unfold g.
    + change (64 ^ (3 - 2)) with 64. lia.
    + change (64 ^ (3 - 1)) with 4096. lia.
    + change (64 ^ (3 - 0)) with 262144. lia.
  - set (g := a * 65536 + b * 256 + c).
    rewrite (Hs g (a / 4) 0), (Hs g (a mod 4 * 16 + b / 16) 1), (Hs g (b mod 16 * 4 + c / 64) 2), (Hs g (c mod 64) 3);
      [rewrite IH by assumption; reflexivity| | | |]; unfold g.
    + change (64 ^ (3 - 3)) with 1. lia.
    + change (64 ^ (3 - 2)) with 64. lia.
    + change (64 ^ (3 - 1)) with 4096. lia.
    + change (64 ^ (3 - 0)) with 262144. lia.
Qed.

(** ** UTF-8 *)
Lemma rust_text_spec s : rust_text s <-> scalars s.
Proof. apply Forall_iff. intro c. unfold is_scalar. lia. Qed.
Lemma utf8_bytes_spec s : rust_text s -> utf8_bytes_of s (utf8 s).
Proof.
  induction 1 as [|c s Hc Hs IH]; [constructor|]. cbn [utf8 flat_map]. fold (utf8 s). unfold utf8_enc1.
  destruct (c <? 128) eqn:F1; [apply E1; [lia|assumption]|].
  destruct (c <? 2048) eqn:F2.
  { replace (c :: s) with ((192 + c / 64 - 192) * 64 + (128 + c mod 64 - 128) :: s) by (f_equal; lia).
    apply E2; unfold tail_byte; lia || assumption. }
  destruct (c <? 65536) eqn:F3.
  { replace (c :: s) with ((224 + c / 4096 - 224) * 4096 + (128 + (c / 64) mod 64 - 128) * 64 + (128 + c mod 64 - 128) :: s)
      by (f_equal; lia).
    apply E3; unfold tail_byte; lia || assumption. }
  replace (c :: s) with ((240 + c / 262144 - 240) * 262144 + (128 + (c / 4096) mod 64 - 128) * 4096
    + (128 + (c / 64) mod 64 - 128) * 64 + (128 + c mod 64 - 128) :: s) by (f_equal; lia).
  apply E4; unfold tail_byte; lia || assumption.
Qed.
