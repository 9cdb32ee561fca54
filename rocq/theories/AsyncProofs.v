(** Futures under any polling order *)
From Coq Require Import ZifyBool ZifyNat ZifyN.
From Verif Require Import Base BaseFacts Utf8 Base64 Sfv Component Crypto Params SigBase Http Hyper Digest Async SpecMsg VerifyProofs SpecExtract SpecSign SignProofs SpecAsync.

Definition own {W} (i : nat) (polls : list (nat * W)) : list W := map snd (filter (fun p : nat * W => Nat.eqb (fst p) i) polls).
Definition drive {W A} (f : fut W A) (ws : list W) : fut W A := fold_left poll ws f.
Lemma drive_ready {W A} (a : A) (ws : list W) : drive (Ready a) ws = Ready a.
Proof. induction ws; [reflexivity|assumption]. Qed.
Lemma first_own {W} i (polls : list (nat * W)) : first_poll i polls = hd_error (own i polls).
Proof. unfold own. induction polls as [|[j w] r IH]; [reflexivity|]. cbn [first_poll filter fst]. destruct (Nat.eqb j i); [reflexivity|assumption]. Qed.
Lemma drive_block {W A} (b : W -> A) i polls : drive (async_block b) (own i polls) = match first_poll i polls with Some w => Ready (b w) | None => async_block b end.
Proof. rewrite first_own. destruct (own i polls) as [|w ws]; [reflexivity|]. cbn [hd_error drive fold_left poll async_block]. apply (drive_ready (b w) ws). Qed.
Lemma replace_length {A} (l : list A) i x : length (replace l i x) = length l.
Proof. revert i. induction l as [|y l IH]; intros [|i]; cbn; auto. Qed.
Lemma replace_nth {A} (l : list A) i x j : nth_error (replace l i x) j = if Nat.eqb i j then match nth_error l j with Some _ => Some x | None => None end else nth_error l j.
Proof.
  revert i j. induction l as [|y l IH]; intros [|i] [|j]; try reflexivity.
  - cbn [replace nth_error]. destruct (Nat.eqb _ _); reflexivity.
  - cbn [replace nth_error Nat.eqb]. apply IH.
Qed.
Definition stays {W X A} (f f' : fut W (result X A)) (ws : list W) : Prop := f' = drive f ws.
Lemma children_ok {W X A F} (polls : list (nat * W)) : forall (slots s' : list (fut W (result X A))), @poll_children W X A F slots polls = Ok s' ->
  length s' = length slots /\ forall i f, nth_error slots i = Some f -> nth_error s' i = Some (drive f (own i polls)).
Proof.
  induction polls as [|[i w] rest IH]; intros slots s' H; cbn [poll_children] in H.
  - inv H. split; [reflexivity|]. intros i f Hf. exact Hf.
  - assert (Hskip : (forall g, nth_error slots i = Some (Pend g) -> False) -> poll_children slots rest = @Ok F _ s' -> length s' = length slots /\ forall j f, nth_error slots j = Some f -> nth_error s' j = Some (drive f (own j ((i, w) :: rest)))).
    { intros Hn H'. apply IH in H' as [L H']. split; [assumption|]. intros j f Hj. rewrite (H' j f Hj). unfold own. cbn [filter fst]. destruct (Nat.eqb i j) eqn:E; [|reflexivity].
      apply Nat.eqb_eq in E. subst j. destruct f as [a|g]; [|destruct (Hn g Hj)]. cbn [map snd]. f_equal. }
    assert (Hpoll : forall g f', nth_error slots i = Some (Pend g) -> f' = g w -> poll_children (replace slots i f') rest = @Ok F _ s' -> length s' = length slots /\ forall j f, nth_error slots j = Some f -> nth_error s' j = Some (drive f (own j ((i, w) :: rest)))).
    { intros g f' Hg -> H'. apply IH in H' as [L H']. rewrite replace_length in L. split; [assumption|]. intros j f Hj. specialize (H' j). rewrite replace_nth, Hj in H'. unfold own in *. cbn [filter fst].
      destruct (Nat.eqb i j) eqn:E; [|apply H'; reflexivity]. apply Nat.eqb_eq in E. subst j. rewrite Hj in Hg. inv Hg. apply H'. reflexivity. }
    destruct (nth_error slots i) as [[a|g]|] eqn:E; [apply Hskip; [discriminate|assumption]| |apply Hskip; [discriminate|assumption]].
    destruct (g w) as [[a|e|p]|g'] eqn:Eg; try discriminate; exact (Hpoll g _ eq_refl (eq_sym Eg) H).
Qed.
Lemma children_no_err {W X A F} (polls : list (nat * W)) : forall (slots : list (fut W (result X A))) e, @poll_children W X A F slots polls <> Err e.
Proof.
  induction polls as [|[i w] rest IH]; intros slots e; cbn [poll_children]; [discriminate|]. destruct (nth_error slots i) as [[a|g]|]; try apply IH.
  destruct (g w) as [[a|x|p]|g']; try apply IH. discriminate.
Qed.
Lemma children_panic {W X A F} (polls : list (nat * W)) : forall (slots : list (fut W (result X A))) p, @poll_children W X A F slots polls = Panic p ->
  exists i f ws ws', nth_error slots i = Some f /\ own i polls = ws ++ ws' /\ drive f ws = Ready (Panic p).
Proof.
  induction polls as [|[i w] rest IH]; intros slots p H; cbn [poll_children] in H; [discriminate|].
  assert (Hskip : (forall g, nth_error slots i = Some (Pend g) -> False) -> poll_children slots rest = @Panic F _ p ->
    exists j f ws ws', nth_error slots j = Some f /\ own j ((i, w) :: rest) = ws ++ ws' /\ drive f ws = Ready (Panic p)).
  { intros Hn H'. apply IH in H' as (j & f & ws & ws' & H1 & H2 & H3). exists j, f. unfold own in *. cbn [filter fst]. destruct (Nat.eqb i j) eqn:E; [|exists ws, ws'; auto].
    apply Nat.eqb_eq in E. subst j. destruct f as [a|g]; [|destruct (Hn g H1)]. exists (w :: ws), ws'. cbn [map snd app]. rewrite H2. split; [assumption|]. split; [reflexivity|exact H3]. }
  assert (Hpoll : forall g f', nth_error slots i = Some (Pend g) -> f' = g w -> poll_children (replace slots i f') rest = @Panic F _ p ->
    exists j f ws ws', nth_error slots j = Some f /\ own j ((i, w) :: rest) = ws ++ ws' /\ drive f ws = Ready (Panic p)).
  { intros g f' Hg -> H'. apply IH in H' as (j & f & ws & ws' & H1 & H2 & H3). rewrite replace_nth in H1. unfold own in *. cbn [filter fst]. destruct (Nat.eqb i j) eqn:E.
    - apply Nat.eqb_eq in E. subst j. rewrite Hg in H1. inv H1. exists i, (Pend g), (w :: ws), ws'. rewrite Nat.eqb_refl. cbn [map snd app]. rewrite H2. auto.
    - exists j, f, ws, ws'. rewrite E. auto. }
  destruct (nth_error slots i) as [[a|g]|] eqn:E; [apply Hskip; [discriminate|assumption]| |apply Hskip; [discriminate|assumption]].
  destruct (g w) as [[a|e|q]|g'] eqn:Eg; try exact (Hpoll g _ eq_refl (eq_sym Eg) H).
  inv H. exists i, (Pend g), [w], (own i rest). split; [assumption|]. split; [unfold own; cbn [filter fst]; rewrite Nat.eqb_refl; reflexivity|]. cbn. rewrite Eg. reflexivity.
Qed.
Lemma children_app {W X A F} (a b : list (nat * W)) : forall (slots : list (fut W (result X A))),
  @poll_children W X A F slots (a ++ b) = bind (poll_children slots a) (fun s => poll_children s b).
Proof.
  induction a as [|[i w] a IH]; intro slots; [reflexivity|]. cbn [app poll_children]. destruct (nth_error slots i) as [[x|g]|]; try apply IH.
  destruct (g w) as [[x|e|p]|g']; try apply IH. reflexivity.
Qed.
Lemma outputs_spec {W A} (s : list (fut W A)) l : outputs s = Some l <-> s = map Ready l.
Proof.
  revert l. induction s as [|[a|g] s IH]; intro l; cbn [outputs].
  - split; [intro H; inv H; reflexivity|]. destruct l; [reflexivity|discriminate].
  - destruct (outputs s) as [r|].
    + rewrite (proj1 (IH r) eq_refl). split; [intro H; inv H; reflexivity|]. destruct l as [|x l]; [discriminate|]. cbn [map]. intro H. injection H as -> H.
      f_equal. f_equal. clear -H. revert l H. induction r as [|y r IHr]; intros [|x l] H; try discriminate; [reflexivity|]. cbn [map] in H. injection H as -> H. f_equal. auto.
    + split; [discriminate|]. destruct l as [|x l]; [discriminate|]. cbn [map]. intro H. injection H as -> H. apply IH in H. discriminate.
  - split; [discriminate|]. destruct l; discriminate.
Qed.
Lemma children_finished {W X A F} (l : list (result X A)) (polls : list (nat * W)) : @poll_children W X A F (map Ready l) polls = Ok (map Ready l).
Proof.
  induction polls as [|[i w] r IH]; [reflexivity|]. cbn [poll_children]. destruct (nth_error (map Ready l) i) as [[a|g]|] eqn:E; try assumption.
  apply nth_error_In in E. apply in_map_iff in E as (x & E & _). discriminate.
Qed.

(** ** children that are async blocks *)
Lemma nth_ext_error {A} (l l' : list A) : (forall i, nth_error l i = nth_error l' i) -> l = l'.
Proof.
  revert l'. induction l as [|x l IH]; intros [|y l'] H; [reflexivity|specialize (H 0%nat); discriminate..|].
  pose proof (H 0%nat) as H0. cbn in H0. inv H0. f_equal. apply IH. intro i. exact (H (S i)).
Qed.
Lemma first_poll_covers {W} n (polls : list (nat * W)) : covers n polls <-> forall i, (i < n)%nat -> exists w, first_poll i polls = Some w.
Proof.
  assert (H : forall i, In i (map fst polls) <-> exists w, first_poll i polls = Some w).
  { intro i. induction polls as [|[j w] r IH]; cbn [map fst In first_poll]; [split; [tauto|intros [w H]; discriminate]|].
    destruct (Nat.eqb j i) eqn:E; [apply Nat.eqb_eq in E; split; eauto|]. apply Nat.eqb_neq in E. rewrite IH. split; [intros [H|H]; [contradiction|assumption]|auto]. }
  unfold covers. split; intros Hc i Hi; apply H, Hc, Hi.
Qed.
Lemma blocks_done {W X A F} (bodies : list (W -> result X A)) polls (s : list (fut W (result X A))) rs : @poll_children W X A F (map async_block bodies) polls = Ok s -> outputs s = Some rs ->
  length rs = length bodies /\ (forall i b, nth_error bodies i = Some b -> exists w, first_poll i polls = Some w /\ nth_error rs i = Some (b w)) /\ (forall p, ~ In (Panic p) rs).
Proof.
  intros H Ho. pose proof (children_ok _ _ _ H) as [L Hn]. apply outputs_spec in Ho. subst s. rewrite !map_length in L. split; [assumption|].
  assert (Hi : forall i b, nth_error bodies i = Some b -> exists w, first_poll i polls = Some w /\ nth_error rs i = Some (b w)).
  { intros i b Hb. specialize (Hn i (async_block b)). rewrite nth_error_map, Hb in Hn. specialize (Hn eq_refl). rewrite nth_error_map, drive_block in Hn.
    destruct (nth_error rs i) as [x|]; [|discriminate]. destruct (first_poll i polls) as [w|]; [|discriminate]. exists w. split; [reflexivity|]. cbn in Hn. injection Hn as ->. reflexivity. }
  split; [assumption|]. clear -H. intros p Hp.
  assert (Hg : forall (polls : list (nat * W)) (slots s' : list (fut W (result X A))), @poll_children W X A F slots polls = Ok s' -> In (Ready (Panic p)) s' -> In (Ready (Panic p)) slots).
  { clear. induction polls as [|[i w] rest IH]; intros slots s' H Hp; cbn [poll_children] in H; [inv H; assumption|].
    destruct (nth_error slots i) as [[a|g]|] eqn:Ei; [eapply IH; eassumption| |eapply IH; eassumption].
    assert (Hr : forall f, f <> Ready (Panic p) -> In (Ready (Panic p)) (replace slots i f) -> In (Ready (Panic p)) slots).
    { intros f Hf Hin. apply In_nth_error in Hin as [j Hj]. rewrite replace_nth in Hj. destruct (Nat.eqb i j); [|eapply nth_error_In; eassumption]. destruct (nth_error slots j); [|discriminate]. inv Hj. contradiction. }
    destruct (g w) as [[a|e|q]|g']; try discriminate; (eapply Hr; [|eapply IH; [exact H|exact Hp]]; discriminate). }
  apply (in_map (@Ready W _)) in Hp. apply (Hg _ _ _ H) in Hp. apply in_map_iff in Hp as (b & Hb & _). discriminate.
Qed.
Lemma blocks_panic {W X A F} (bodies : list (W -> result X A)) polls p : @poll_children W X A F (map async_block bodies) polls = Panic p ->
  exists i b w, nth_error bodies i = Some b /\ first_poll i polls = Some w /\ b w = Panic p.
Proof.
  intro H. apply children_panic in H as (i & f & ws & ws' & Hi & Ho & Hd). rewrite nth_error_map in Hi. destruct (nth_error bodies i) as [b|] eqn:Eb; [|discriminate]. cbn in Hi. inv Hi.
  destruct ws as [|w ws]; [discriminate|]. cbn [drive fold_left poll async_block] in Hd. fold (drive (Ready (b w)) ws) in Hd. rewrite drive_ready in Hd. inv Hd.
  exists i, b, w. rewrite first_own, Ho. auto.
Qed.
Lemma blocks_cover {W X A F} (bodies : list (W -> result X A)) polls s : @poll_children W X A F (map async_block bodies) polls = Ok s -> covers (length bodies) polls -> exists rs, outputs s = Some rs.
Proof.
  intros H Hc. pose proof (children_ok _ _ _ H) as [L Hn]. rewrite map_length in L. rewrite first_poll_covers in Hc.
  assert (Hall : Forall (fun f => exists a, f = Ready a) s).
  { apply Forall_forall. intros f Hf. apply In_nth_error in Hf as [i Hi]. assert (Hlt : (i < length bodies)%nat) by (rewrite <- L; apply nth_error_Some; congruence).
    destruct (nth_error bodies i) as [b|] eqn:Eb; [|apply nth_error_None in Eb; lia]. specialize (Hn i (async_block b)). rewrite nth_error_map, Eb in Hn. specialize (Hn eq_refl).
    rewrite drive_block in Hn. destruct (Hc i Hlt) as [w Hw]. rewrite Hw, Hi in Hn. inv Hn. eauto. }
  clear -Hall. induction Hall as [|f s [a ->] _ [rs IH]]; cbn [outputs]; [eauto|]. rewrite IH. eauto.
Qed.
Lemma mapi_nth {A B} (f : nat -> A -> B) k l i : nth_error (mapi f k l) i = option_map (f (k + i)%nat) (nth_error l i).
Proof.
  revert k i. induction l as [|x l IH]; intros k [|i]; cbn [mapi nth_error option_map]; try reflexivity; [rewrite Nat.add_0_r; reflexivity|].
  rewrite IH. replace (S k + i)%nat with (k + S i)%nat by lia. reflexivity.
Qed.

(** ** verification *)
Definition vrun m rfp keys := fold_left (verify_poll m rfp keys).
Lemma vrun_done m rfp keys polls r : vrun m rfp keys polls (VDone r) = VDone r.
Proof. induction polls; [reflexivity|assumption]. Qed.
Lemma vrun_join m rfp keys polls : forall slots r, vrun m rfp keys polls (VJoin slots) = VDone r ->
  (exists s rs, poll_children (F := herr) slots (concat polls) = Ok s /\ outputs s = Some rs /\ r = Ok rs) \/ (exists p, poll_children (F := herr) slots (concat polls) = Panic p /\ r = Panic p).
Proof.
  induction polls as [|p rest IH]; intros slots r H; [discriminate|]. cbn [vrun fold_left verify_poll concat] in *. fold (vrun m rfp keys rest) in H. rewrite children_app. unfold join_verify in H.
  pose proof (children_no_err (F := herr) p slots) as Hne. destruct (poll_children slots p) as [s|e|q]; [|destruct (Hne e eq_refl)|].
  - destruct (outputs s) as [rs|] eqn:Eo.
    + rewrite (vrun_done m rfp keys rest) in H. inv H. left. cbn [bind]. pose proof Eo as Es. apply outputs_spec in Es. subst s. rewrite children_finished. eauto.
    + cbn [bind]. apply IH, H.
  - rewrite (vrun_done m rfp keys rest) in H. inv H. right. exists q. auto.
Qed.
Lemma vrun_first m rfp keys slots a rest : vrun m rfp keys rest (join_verify slots a) = vrun m rfp keys (a :: rest) (VJoin slots).
Proof. reflexivity. Qed.
Lemma verify_schedule m rfp keys polls r : vrun m rfp keys polls VNew = VDone r -> same_outcome r (verify_message_signatures (clock_of (concat polls)) m rfp keys).
Proof.
  destruct polls as [|a rest]; [discriminate|]. cbn [vrun fold_left verify_poll]. fold (vrun m rfp keys rest). unfold verify_message_signatures.
  destruct (negb (has_message_signature m)); [rewrite vrun_done; intro H; inv H; left; reflexivity|].
  destruct (extract_signatures m rfp) as [l|e|q]; cbn [bind]; try (rewrite vrun_done; intro H; inv H; left; reflexivity).
  rewrite vrun_first. intro H. set (polls := a :: rest) in *.
  set (bodies := map (fun k : verifying_key * option str => fun e => verify_one (e_clock e) l (fst k) (snd k)) keys).
  assert (Ec : verify_children l keys = map async_block bodies) by (unfold verify_children, bodies; rewrite map_map; reflexivity). rewrite Ec in H.
  apply vrun_join in H as [(s & rs & H & Ho & ->)|(p & H & ->)].
  - left. destruct (blocks_done _ _ _ _ H Ho) as (L & Hn & Hp).
    assert (E : mapi (fun i (k : verifying_key * option str) => verify_one (clock_of (concat polls) i) l (fst k) (snd k)) 0 keys = rs).
    { apply nth_ext_error. intro i. rewrite mapi_nth. specialize (Hn i). unfold bodies in Hn, L. rewrite nth_error_map in Hn. rewrite map_length in L. cbn [Nat.add]. destruct (nth_error keys i) as [k|] eqn:Ek; cbn [option_map] in *.
      - destruct (Hn _ eq_refl) as (w & Hw & ->). unfold clock_of. rewrite Hw. reflexivity.
      - symmetry. apply nth_error_None. rewrite L. apply nth_error_None. assumption. }
    unfold verify_message_signatures_inner, join_all. rewrite E. rewrite first_panic_none; [reflexivity|]. intros x q Hx ->. exact (Hp q Hx).
  - right. split; [eauto|]. destruct (blocks_panic _ _ _ H) as (i & b & w & Hb & Hw & Hpn). unfold bodies in Hb. rewrite nth_error_map in Hb. destruct (nth_error keys i) as [k|] eqn:Ek; [|discriminate]. cbn in Hb. inv Hb.
    unfold verify_message_signatures_inner, join_all. destruct (first_panic _) as [q|] eqn:Ef; [eauto|]. exfalso.
    assert (Hin : nth_error (mapi (fun i (k : verifying_key * option str) => verify_one (clock_of (concat polls) i) l (fst k) (snd k)) 0 keys) i = Some (Panic p)).
    { rewrite mapi_nth, Ek. cbn [option_map Nat.add]. unfold clock_of. rewrite Hw. f_equal. exact Hpn. }
    apply nth_error_In in Hin. clear -Hin Ef. induction (mapi _ 0 keys) as [|x r IH]; [destruct Hin|]. cbn [first_panic] in Ef. destruct Hin as [->|Hin]; [discriminate|]. destruct x; auto. discriminate.
Qed.
Lemma verify_completes m rfp keys a rest : covers (length keys) a -> exists r, vrun m rfp keys (a :: rest) VNew = VDone r /\ verify_poll m rfp keys VNew a = VDone r.
Proof.
  intro Hc. assert (Hd : exists r, verify_poll m rfp keys VNew a = VDone r).
  { cbn [verify_poll]. destruct (negb (has_message_signature m)); [eauto|]. destruct (extract_signatures m rfp) as [l|e|q]; eauto. unfold join_verify.
    set (bodies := map (fun k : verifying_key * option str => fun e => verify_one (e_clock e) l (fst k) (snd k)) keys).
    assert (Ec : verify_children l keys = map async_block bodies) by (unfold verify_children, bodies; rewrite map_map; reflexivity). rewrite Ec.
    destruct (poll_children (F := herr) (map async_block bodies) a) as [s|e|q] eqn:E; eauto. destruct (blocks_cover _ _ _ E) as [rs ->]; [unfold bodies; rewrite map_length; assumption|eauto]. }
  destruct Hd as [r Hr]. exists r. split; [|assumption]. cbn [vrun fold_left]. rewrite Hr. apply vrun_done.
Qed.

(** ** signing *)
Definition srun rfp jobs := fold_left (sign_poll rfp jobs).
Lemma srun_done rfp jobs polls m r : srun rfp jobs polls (m, SDone r) = (m, SDone r).
Proof. induction polls; [reflexivity|assumption]. Qed.
Definition finish (m : msg) (rs : list (result err sigheaders)) : msg * result herr unit :=
  match map_err HttpSigError (collect (fun r => r) rs) with
  | Ok l => let (h, r) := append_signatures (msg_headers m) l in (msg_set_headers m h, r)
  | Err e => (m, Err e)
  | Panic p => (m, Panic p)
  end.
Lemma join_sign_spec m slots polls : join_sign m slots polls = match poll_children (F := herr) slots polls with
  | Ok s => match outputs s with Some rs => (fst (finish m rs), SDone (snd (finish m rs))) | None => (m, SJoin s) end
  | Err e => (m, SDone (Err e))
  | Panic p => (m, SDone (Panic p)) end.
Proof.
  unfold join_sign, finish. destruct (poll_children slots polls) as [s|e|p]; try reflexivity. destruct (outputs s) as [rs|]; [|reflexivity].
  destruct (map_err HttpSigError (collect _ rs)) as [l|e|p]; try reflexivity. destruct (append_signatures (msg_headers m) l). reflexivity.
Qed.
Lemma srun_join rfp jobs polls : forall m slots m' s', srun rfp jobs polls (m, SJoin slots) = (m', s') ->
  (m' = m /\ forall r, s' <> SDone r)
  \/ (exists s rs, poll_children (F := herr) slots (concat polls) = Ok s /\ outputs s = Some rs /\ m' = fst (finish m rs) /\ s' = SDone (snd (finish m rs)))
  \/ (exists p, poll_children (F := herr) slots (concat polls) = Panic p /\ m' = m /\ s' = SDone (Panic p)).
Proof.
  induction polls as [|p rest IH]; intros m slots m' s' H; [cbn in H; inv H; left; split; [reflexivity|discriminate]|].
  cbn [srun fold_left sign_poll concat] in *. fold (srun rfp jobs rest) in H. rewrite children_app. rewrite join_sign_spec in H.
  pose proof (children_no_err (F := herr) p slots) as Hne. destruct (poll_children slots p) as [s|e|q]; [|destruct (Hne e eq_refl)|].
  - destruct (outputs s) as [rs|] eqn:Eo.
    + rewrite (srun_done rfp jobs rest) in H. inv H. right. left. cbn [bind]. pose proof Eo as Es. apply outputs_spec in Es. subst s. rewrite children_finished. eauto 6.
    + cbn [bind]. apply IH in H. exact H.
  - rewrite (srun_done rfp jobs rest) in H. inv H. right. right. exists q. auto.
Qed.
Lemma srun_first rfp jobs m slots a rest : srun rfp jobs rest (join_sign m slots a) = srun rfp jobs (a :: rest) (m, SJoin slots).
Proof. reflexivity. Qed.
Lemma collect_jobs polls m rfp jobs k : collect (fun j => rmap (fun b => (b, j)) (build_signature_base m (j_params j) rfp)) (seeded_from polls k jobs)
  = rmap (fun bs : list (sigbase * job) => mapi (fun i bj => (fst bj, seeded polls i (snd bj))) k bs) (collect (fun j => rmap (fun b => (b, j)) (build_signature_base m (j_params j) rfp)) jobs).
Proof.
  revert k. induction jobs as [|j jobs IH]; intro k; [reflexivity|]. cbn [seeded_from collect seeded j_params]. destruct (build_signature_base m (j_params j) rfp) as [b|e|q]; cbn [rmap bind]; try reflexivity.
  rewrite IH. destruct (collect _ jobs) as [bs|e|q]; reflexivity.
Qed.
Lemma mapi_map {A B C} (f : nat -> A -> B) (g : B -> C) k l : map g (mapi f k l) = mapi (fun i x => g (f i x)) k l.
Proof. revert k. induction l as [|x l IH]; intro k; [reflexivity|]. cbn [mapi map]. rewrite IH. reflexivity. Qed.
Lemma sign_schedule m rfp jobs polls m' s' : srun rfp jobs polls (m, SNew) = (m', s') ->
  (m' = m /\ forall r, s' <> SDone r)
  \/ exists r, s' = SDone r /\ same_outcome r (snd (set_message_signatures m rfp (seeded_from (concat polls) 0 jobs))) /\ m' = fst (set_message_signatures m rfp (seeded_from (concat polls) 0 jobs)).
Proof.
  destruct polls as [|a rest]; [cbn; intro H; inv H; left; split; [reflexivity|discriminate]|]. cbn [srun fold_left sign_poll]. fold (srun rfp jobs rest).
  set (polls := a :: rest). unfold set_message_signatures, make_signatures. rewrite collect_jobs.
  destruct (collect _ jobs) as [bs|e|q]; cbn [rmap bind]; try (rewrite srun_done; intro H; inv H; right; eexists; split; [reflexivity|]; split; [left|]; reflexivity).
  rewrite srun_first. fold polls. intro H.
  set (bodies := map (fun bj : sigbase * job => fun e => build_signature_headers (fst bj) (j_key (snd bj)) (j_name (snd bj)) (e_seed e)) bs).
  assert (Ec : sign_children bs = map async_block bodies) by (unfold sign_children, bodies; rewrite map_map; reflexivity). rewrite Ec in H. rewrite mapi_map. cbn [fst snd j_key j_name j_seed seeded].
  apply srun_join in H as [H|[(s & rs & H & Ho & -> & ->)|(p & H & -> & ->)]]; [left; assumption| |]; right.
  - eexists. split; [reflexivity|]. destruct (blocks_done _ _ _ _ H Ho) as (L & Hn & Hp).
    match goal with |- context [join_all ?x] => assert (E : x = rs) end.
    { apply nth_ext_error. intro i. rewrite mapi_nth. specialize (Hn i). unfold bodies in Hn, L. rewrite nth_error_map in Hn. rewrite map_length in L. cbn [Nat.add]. destruct (nth_error bs i) as [k|] eqn:Ek; cbn [option_map] in *.
      - destruct (Hn _ eq_refl) as (w & Hw & ->). rewrite Hw. reflexivity.
      - symmetry. apply nth_error_None. rewrite L. apply nth_error_None. assumption. }
    rewrite E. unfold join_all. rewrite first_panic_none; [|intros x q Hx ->; exact (Hp q Hx)]. cbn [bind]. unfold finish.
    destruct (map_err HttpSigError (collect _ rs)) as [l|e|q]; [destruct (append_signatures _ l)| |]; (split; [left|]; reflexivity).
  - eexists. split; [reflexivity|]. destruct (blocks_panic _ _ _ H) as (i & b & w & Hb & Hw & Hpn). unfold bodies in Hb. rewrite nth_error_map in Hb. destruct (nth_error bs i) as [k|] eqn:Ek; [|discriminate]. cbn in Hb. inv Hb.
    match goal with |- context [join_all ?x] => assert (Hin : nth_error x i = Some (Panic p)) end.
    { rewrite mapi_nth, Ek. cbn [option_map Nat.add]. rewrite Hw. f_equal. exact Hpn. }
    unfold join_all. destruct (first_panic _) as [q|] eqn:Ef; [cbn [bind fst snd]; split; [right; split; eauto|reflexivity]|]. exfalso.
    apply nth_error_In in Hin. clear -Hin Ef. induction (mapi _ 0 bs) as [|x r IH]; [destruct Hin|]. cbn [first_panic] in Ef. destruct Hin as [->|Hin]; [discriminate|]. destruct x; auto. discriminate.
Qed.
Lemma sign_completes m rfp jobs a rest : covers (length jobs) a -> exists m' r, srun rfp jobs (a :: rest) (m, SNew) = (m', SDone r) /\ sign_poll rfp jobs (m, SNew) a = (m', SDone r).
Proof.
  intro Hc. assert (Hd : exists m' r, sign_poll rfp jobs (m, SNew) a = (m', SDone r)).
  { cbn [sign_poll]. destruct (collect _ jobs) as [bs|e|q] eqn:Eb; [|eauto|eauto]. rewrite join_sign_spec.
    set (bodies := map (fun bj : sigbase * job => fun e => build_signature_headers (fst bj) (j_key (snd bj)) (j_name (snd bj)) (e_seed e)) bs).
    assert (Ec : sign_children bs = map async_block bodies) by (unfold sign_children, bodies; rewrite map_map; reflexivity). rewrite Ec.
    destruct (poll_children (F := herr) (map async_block bodies) a) as [s|e|q] eqn:E; eauto. destruct (blocks_cover _ _ _ E) as [rs ->]; [|eauto].
    unfold bodies. rewrite map_length. apply collect_ok in Eb. assert (El : length jobs = length bs) by (clear -Eb; induction Eb; cbn; auto). rewrite <- El. assumption. }
  destruct Hd as (m' & r & Hr). exists m', r. split; [|assumption]. cbn [srun fold_left]. rewrite Hr. apply srun_done.
Qed.

(** ** blocking *)
Lemma run_until_one {S P R} (step : S -> P -> S) out s p rest (r : R) : out s = None -> out (step s p) = Some r -> run_until step out s (p :: rest) = Some r.
Proof. intros H1 H2. cbn [run_until]. rewrite H1. destruct rest; cbn [run_until]; rewrite H2; reflexivity. Qed.

(** ** bodies that arrive over time *)
Lemma collect_poll_spec s : forall acc, match collect_poll acc s with
  | CDone r => r = match into_bytes (frames s) with Some x => Some (acc ++ x) | None => None end
  | CRun acc' s' => (pendings s' < pendings s)%nat /\ (length s' < length s)%nat
      /\ (match into_bytes (frames s) with Some x => Some (acc ++ x) | None => None end = match into_bytes (frames s') with Some x => Some (acc' ++ x) | None => None end)
  end.
Proof.
  induction s as [|[[d|t|]|] s IH]; intro acc; cbn [collect_poll frames flat_map app into_bytes].
  - rewrite app_nil_r. reflexivity.
  - specialize (IH (acc ++ d)). fold (frames s). unfold pendings in *. cbn [filter length]. destruct (collect_poll (acc ++ d) s) as [acc' s'|r].
    + destruct IH as (H1 & H2 & H3). split; [assumption|]. split; [lia|]. destruct (into_bytes (frames s)); [rewrite app_assoc|]; assumption.
    + destruct (into_bytes (frames s)); [rewrite app_assoc|]; assumption.
  - specialize (IH acc). fold (frames s). unfold pendings in *. cbn [filter length]. destruct (collect_poll acc s) as [acc' s'|r]; [|assumption]. destruct IH as (H1 & H2 & H3). split; [assumption|]. split; [lia|assumption].
  - reflexivity.
  - fold (frames s). unfold pendings. cbn [filter length]. split; [lia|]. split; [lia|reflexivity].
Qed.
Lemma collect_run_ge n : forall acc s r, (forall polls, length polls = n -> run_until collect_step collect_out (CRun acc s) polls = Some r -> r = match into_bytes (frames s) with Some x => Some (acc ++ x) | None => None end).
Proof.
  induction n as [|n IH]; intros acc s r polls Hl H; destruct polls as [|[] polls]; try discriminate. cbn [run_until collect_out collect_step] in H.
  pose proof (collect_poll_spec s acc) as Hs. destruct (collect_poll acc s) as [acc' s'|r'].
  - destruct Hs as (_ & _ & ->). apply (IH acc' s' r polls); [cbn in Hl; lia|assumption].
  - destruct polls; cbn [run_until collect_out] in H; congruence.
Qed.
Lemma collect_finishes n : forall acc s polls, (pendings s < length polls)%nat -> (pendings s <= n)%nat -> exists r, run_until collect_step collect_out (CRun acc s) polls = Some r.
Proof.
  induction n as [|n IH]; intros acc s polls Hl Hn; destruct polls as [|[] polls]; cbn [length] in Hl; try lia; cbn [run_until collect_out collect_step];
    pose proof (collect_poll_spec s acc) as Hs; destruct (collect_poll acc s) as [acc' s'|r'].
  - lia.
  - destruct polls; cbn; eauto.
  - apply IH; lia.
  - destruct polls; cbn; eauto.
Qed.
Lemma run_until_fold {S P R} (step : S -> P -> S) (out : S -> option R) polls : (forall s p r, out s = Some r -> out (step s p) = Some r) ->
  forall s, run_until step out s polls = out (fold_left step polls s).
Proof.
  intro Hst. assert (Hf : forall polls s r, out s = Some r -> out (fold_left step polls s) = Some r).
  { intros ps. induction ps as [|p ps IH]; intros s r H; [assumption|]. cbn [fold_left]. apply IH, Hst, H. }
  induction polls as [|p rest IH]; intro s; cbn [run_until].
  - destruct (out s) eqn:E; cbn [fold_left]; auto.
  - destruct (out s) eqn:E; [symmetry; apply Hf; assumption|]. apply IH.
Qed.
Lemma verify_stable m rfp keys s p r : verify_out s = Some r -> verify_out (verify_poll m rfp keys s p) = Some r.
Proof. destruct s; cbn; intro H; inv H. reflexivity. Qed.
Lemma verify_single_stable m rfp keys s p r : verify_single_out s = Some r -> verify_single_out (verify_poll m rfp keys s p) = Some r.
Proof. destruct s; cbn [verify_single_out]; intro H; try discriminate. exact H. Qed.
Lemma sign_stable rfp jobs s p r : sign_out s = Some r -> sign_out (sign_poll rfp jobs s p) = Some r.
Proof. destruct s as [m [| |r']]; cbn; intro H; inv H. reflexivity. Qed.
Lemma verify_runs m rfp keys polls r : run_until (verify_poll m rfp keys) verify_out VNew polls = Some r -> same_outcome r (verify_message_signatures (clock_of (concat polls)) m rfp keys).
Proof.
  rewrite (run_until_fold _ _ polls (verify_stable m rfp keys)). fold (vrun m rfp keys polls VNew). destruct (vrun m rfp keys polls VNew) as [| |r'] eqn:E; try discriminate.
  intro H. cbn in H. injection H as ->. apply verify_schedule. assumption.
Qed.
Lemma verify_single_runs m rfp key kid polls r : run_until (verify_poll m rfp [(key, kid)]) verify_single_out VNew polls = Some r -> same_outcome r (verify_message_signature (clock_of (concat polls)) m rfp key kid).
Proof.
  rewrite (run_until_fold _ _ polls (verify_single_stable m rfp [(key, kid)])). fold (vrun m rfp [(key, kid)] polls VNew). destruct (vrun m rfp [(key, kid)] polls VNew) as [| |r'] eqn:E; try discriminate.
  intro H. cbn [verify_single_out] in H. injection H as <-. apply verify_schedule in E. unfold verify_message_signature. destruct E as [->|[[p ->] [q ->]]]; [left; reflexivity|].
  right. cbn [bind]. eauto.
Qed.
Lemma sign_runs m rfp jobs polls m' r : run_until (sign_poll rfp jobs) sign_out (m, SNew) polls = Some (m', r) ->
  m' = fst (set_message_signatures m rfp (seeded_from (concat polls) 0 jobs)) /\ same_outcome r (snd (set_message_signatures m rfp (seeded_from (concat polls) 0 jobs))).
Proof.
  rewrite (run_until_fold _ _ polls (sign_stable rfp jobs)). fold (srun rfp jobs polls (m, SNew)). destruct (srun rfp jobs polls (m, SNew)) as [m1 s] eqn:E.
  apply sign_schedule in E as [[_ E]|(r' & -> & E1 & E2)]; [destruct s; cbn; intro H; inv H; destruct (E r eq_refl)|]. cbn. intro H. inv H. auto.
Qed.
Lemma verify_ends m rfp keys a rest : covers (length keys) a -> exists r, run_until (verify_poll m rfp keys) verify_out VNew (a :: rest) = Some r.
Proof. intro Hc. destruct (verify_completes m rfp keys a rest Hc) as (r & H1 & _). exists r. rewrite (run_until_fold _ _ _ (verify_stable m rfp keys)). fold (vrun m rfp keys (a :: rest) VNew). rewrite H1. reflexivity. Qed.
Lemma verify_single_ends m rfp key kid a rest : covers 1 a -> exists r, run_until (verify_poll m rfp [(key, kid)]) verify_single_out VNew (a :: rest) = Some r.
Proof.
  intro Hc. destruct (verify_completes m rfp [(key, kid)] a rest Hc) as (r & H1 & _). eexists. rewrite (run_until_fold _ _ _ (verify_single_stable m rfp [(key, kid)])).
  fold (vrun m rfp [(key, kid)] (a :: rest) VNew). rewrite H1. reflexivity.
Qed.
Lemma sign_ends m rfp jobs a rest : covers (length jobs) a -> exists r, run_until (sign_poll rfp jobs) sign_out (m, SNew) (a :: rest) = Some r.
Proof. intro Hc. destruct (sign_completes m rfp jobs a rest Hc) as (m' & r & H1 & _). eexists. rewrite (run_until_fold _ _ _ (sign_stable rfp jobs)). fold (srun rfp jobs (a :: rest) (m, SNew)). rewrite H1. reflexivity. Qed.

(** digests of bodies that arrive over time *)
Lemma collect_stable c p r : collect_out c = Some r -> collect_out (collect_step c p) = Some r.
Proof. destruct c; cbn; intro H; inv H; reflexivity. Qed.
Lemma collect_runs s polls r : run_until collect_step collect_out (CRun [] s) polls = Some r -> r = into_bytes (frames s).
Proof. intro H. rewrite (collect_run_ge (length polls) [] s r polls eq_refl H). destruct (into_bytes (frames s)); reflexivity. Qed.
Lemma set_digest_stable H h t c p r : set_digest_out H h t c = Some r -> set_digest_out H h t (collect_step c p) = Some r.
Proof. unfold set_digest_out. destruct (collect_out c) as [x|] eqn:E; [|discriminate]. rewrite (collect_stable _ p _ E). auto. Qed.
Lemma set_digest_runs H h t s polls r : run_until collect_step (set_digest_out H h t) (CRun [] s) polls = Some r -> r = set_digest H h (frames s) t.
Proof.
  rewrite (run_until_fold _ _ _ (set_digest_stable H h t)). unfold set_digest_out. destruct (collect_out _) as [x|] eqn:E; [|discriminate]. cbn [option_map]. intro Hx. injection Hx as <-.
  rewrite <- (run_until_fold _ _ _ collect_stable) in E. apply collect_runs in E. subst x. unfold set_digest, into_bytes_with_digest, set_digest_rest. destruct (into_bytes (frames s)); reflexivity.
Qed.
Lemma set_digest_ends H h t s polls : (pendings s < length polls)%nat -> exists r, run_until collect_step (set_digest_out H h t) (CRun [] s) polls = Some r.
Proof.
  intro Hl. destruct (collect_finishes (pendings s) [] s polls Hl) as [r Hr]; [lia|]. rewrite (run_until_fold _ _ _ collect_stable) in Hr.
  rewrite (run_until_fold _ _ _ (set_digest_stable H h t)). unfold set_digest_out. rewrite Hr. cbn. eauto.
Qed.
Lemma verify_digest_stable H h d p r : verify_digest_out d = Some r -> verify_digest_out (verify_digest_poll H h d p) = Some r.
Proof. destruct d; cbn; intro E; inv E. reflexivity. Qed.
Lemma digest_read_runs H h t x n : forall acc s polls r, length polls = n -> run_until (verify_digest_poll H h) verify_digest_out (DRead t x (CRun acc s)) polls = Some r ->
  r = match (match into_bytes (frames s) with Some y => Some (acc ++ y) | None => None end) with
      | None => Err HttpBodyError
      | Some bs => if is_equal_digest (derive_digest H bs t) x then Ok (h, full bs) else Err InvalidContentDigest
      end.
Proof.
  induction n as [|n IH]; intros acc s polls r Hl Hr; destruct polls as [|[] polls]; try discriminate. cbn [run_until verify_digest_out verify_digest_poll collect_step] in Hr.
  pose proof (collect_poll_spec s acc) as Hs. destruct (collect_poll acc s) as [acc' s'|r'].
  - destruct Hs as (_ & _ & ->). apply (IH acc' s' polls); [cbn in Hl; lia|assumption].
  - rewrite <- Hs. destruct r' as [bs|]; destruct polls; cbn [verify_digest_read run_until verify_digest_out] in Hr; congruence.
Qed.
Lemma verify_digest_runs H h s polls r : run_until (verify_digest_poll H h) verify_digest_out (DNew s) polls = Some r -> r = verify_digest H h (frames s).
Proof.
  destruct polls as [|[] polls]; [discriminate|]. cbn [run_until verify_digest_out verify_digest_poll]. unfold verify_digest.
  destruct (extract_content_digest h) as [[t x]|e|q]; cbn [bind]; try (destruct polls; cbn [run_until verify_digest_out]; congruence).
  pose proof (collect_poll_spec s []) as Hs. destruct (collect_poll [] s) as [acc' s'|r'].
  - destruct Hs as (_ & _ & Hs). cbn [verify_digest_read]. intro Hr. rewrite (digest_read_runs H h t x (length polls) acc' s' polls r eq_refl Hr), <- Hs. destruct (into_bytes (frames s)); reflexivity.
  - intro Hr. assert (E : into_bytes (frames s) = r') by (destruct (into_bytes (frames s)); symmetry; exact Hs). rewrite E.
    destruct r' as [bs|]; destruct polls; cbn [verify_digest_read run_until verify_digest_out] in Hr; congruence.
Qed.
Lemma digest_read_ends H h t x n : forall acc s polls, (pendings s < length polls)%nat -> (pendings s <= n)%nat -> exists r, run_until (verify_digest_poll H h) verify_digest_out (DRead t x (CRun acc s)) polls = Some r.
Proof.
  induction n as [|n IH]; intros acc s polls Hl Hn; destruct polls as [|[] polls]; cbn [length] in Hl; try lia; cbn [run_until verify_digest_out verify_digest_poll collect_step];
    pose proof (collect_poll_spec s acc) as Hs; destruct (collect_poll acc s) as [acc' s'|[bs|]]; try (destruct polls; cbn; eauto; fail).
  - lia.
  - cbn [verify_digest_read]. apply IH; lia.
Qed.
Lemma verify_digest_ends H h s polls : (pendings s < length polls)%nat -> exists r, run_until (verify_digest_poll H h) verify_digest_out (DNew s) polls = Some r.
Proof.
  intro Hl. destruct polls as [|[] polls]; cbn [length] in Hl; [lia|]. cbn [run_until verify_digest_out verify_digest_poll].
  destruct (extract_content_digest h) as [[t x]|e|q]; try (destruct polls; cbn; eauto; fail).
  pose proof (collect_poll_spec s []) as Hs. destruct (collect_poll [] s) as [acc' s'|[bs|]]; try (destruct polls; cbn; eauto; fail).
  cbn [verify_digest_read]. apply (digest_read_ends H h t x (pendings s')); lia.
Qed.
