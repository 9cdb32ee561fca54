(** Boolean tests for the examples *)
From Verif Require Import Base BaseFacts Sfv SfvFacts SpecSfv SpecSfvProofs Component Crypto Params SpecId IdProofs SpecParams ParamsProofs.

Definition cleanb (s : str) : bool := negb (contains 34 s) && negb (contains 92 s).
Lemma cleanb_ok s : cleanb s = true -> clean s.
Proof.
  unfold cleanb. rewrite andb_true_iff, !negb_true_iff. intros [H1 H2]. split; intro H; apply contains_In in H; congruence.
Qed.
Definition plainb (o : option str) : bool := match o with Some s => forallb is_print s && cleanb s | None => true end.
Lemma plainb_ok o : plainb o = true -> plain o.
Proof. destruct o; [|exact (fun _ => I)]. cbn. rewrite andb_true_iff. intros [H1 H2]. split; [apply print_spec, H1|apply cleanb_ok, H2]. Qed.
Definition shortb (o : option N) : bool := match o with Some n => n <=? 999999999999999 | None => true end.
Lemma shortb_ok o : shortb o = true -> short o.
Proof. destruct o; [|exact (fun _ => I)]. cbn [shortb short]. apply N.leb_le. Qed.
Definition allowedb (n : cname) (p : cparam) : bool :=
  match p with
  | Req => true
  | Name v => match n with Derived QueryParam => forallb is_print v | _ => false end
  | Key v => match n with HttpField _ => forallb is_print v | _ => false end
  | Sf | Bs | Tr => match n with HttpField _ => true | _ => false end
  end.
Lemma allowedb_ok n p : allowedb n p = true -> allowed n p.
Proof.
  destruct p; cbn; try exact (fun _ => I); destruct n as [s0|[]]; try discriminate; eauto; intro H.
  - split; [eauto|]. apply print_spec, H.
  - split; [reflexivity|]. apply print_spec, H.
Qed.
Definition kind_eqb (a b : pkind) : bool :=
  match a, b with KSf, KSf | KKey, KKey | KBs, KBs | KTr, KTr | KReq, KReq | KName, KName => true | _, _ => false end.
Fixpoint nodupb (l : list pkind) : bool := match l with [] => true | x :: r => negb (existsb (kind_eqb x) r) && nodupb r end.
Lemma nodupb_ok l : nodupb l = true -> NoDup l.
Proof.
  induction l as [|x l IH]; [constructor|]. cbn. rewrite andb_true_iff, negb_true_iff. intros [H1 H2]. constructor; [|auto].
  intro Hi. assert (existsb (kind_eqb x) l = true) by (apply existsb_exists; exists x; split; [assumption|destruct x; reflexivity]). congruence.
Qed.
Definition valid_idb (i : cid) : bool :=
  match id_name i with HttpField s => forallb is_print s && negb (starts_with 64 s) | Derived _ => true end
  && forallb (allowedb (id_name i)) (id_params i) && nodupb (map kind (id_params i)).
Lemma valid_idb_ok i : valid_idb i = true -> valid_id i.
Proof.
  unfold valid_idb. rewrite !andb_true_iff. intros [[H1 H2] H3]. split; [|split].
  - unfold valid_name. destruct (id_name i) as [s|d]; [|exact I]. apply andb_true_iff in H1 as [H1 H4]. split; [apply print_spec, H1|].
    intros r ->. discriminate H4.
  - apply Forall_forall. intros p Hp. rewrite forallb_forall in H2. apply allowedb_ok, H2, Hp.
  - apply nodupb_ok, H3.
Qed.
Definition clean_idb (i : cid) : bool :=
  match id_name i with HttpField s => cleanb s | Derived _ => true end
  && forallb (fun p => match p with Key v | Name v => cleanb v | _ => true end) (id_params i).
Lemma clean_idb_ok i : clean_idb i = true -> clean_id i.
Proof.
  unfold clean_idb. rewrite andb_true_iff, forallb_forall. intros [H1 H2]. split; [|split].
  - intros s Hs. rewrite Hs in H1. apply cleanb_ok, H1.
  - intros v Hv. apply H2 in Hv. apply cleanb_ok, Hv.
  - intros v Hv. apply H2 in Hv. apply cleanb_ok, Hv.
Qed.
Definition writableb (p : sparams) : bool :=
  shortb (sp_created p) && shortb (sp_expires p) && plainb (sp_nonce p) && plainb (sp_alg p) && plainb (sp_keyid p) && plainb (sp_tag p)
  && forallb valid_idb (sp_covered p) && forallb clean_idb (sp_covered p) && has_unique_elements (sp_covered p).
Lemma writableb_ok p : writableb p = true -> writable p.
Proof.
  unfold writableb. rewrite !andb_true_iff, !forallb_forall. intros [[[[[[[[H1 H2] H3] H4] H5] H6] H7] H8] H9].
  assert (Hv : Forall valid_id (sp_covered p)) by (apply Forall_forall; intros i Hi; apply valid_idb_ok, H7, Hi).
  assert (Hc : Forall clean_id (sp_covered p)) by (apply Forall_forall; intros i Hi; apply clean_idb_ok, H8, Hi).
  unfold writable. repeat split; auto using shortb_ok, plainb_ok. apply has_unique_spec; assumption.
Qed.
