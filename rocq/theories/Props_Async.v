(** C55, C56, C65, C66: futures, polling orders and blocking calls *)
From Verif Require Import Base BaseFacts Utf8 Base64 Sfv SpecGrammar GrammarProofs SpecCanon CanonProofs Component Crypto Params SigBase Http Hyper Digest Async SpecIdText IdTextProofs SpecMsg MsgProofs VerifyProofs SpecExtract SpecSign SignProofs SpecDigest SpecAsync AsyncProofs Toy Props_Verify Props_Sign Props_Frame Props_Digest.

(** ** C55 *)
(** whatever the polling order: the result list of the sequential function, key by key, with the clock that each key's future saw *)
Theorem C55_verify : forall m rfp keys polls r, run_until (verify_poll m rfp keys) verify_out VNew polls = Some r ->
  same_outcome r (verify_message_signatures (clock_of (concat polls)) m rfp keys).
Proof. exact verify_runs. Qed.
Print Assumptions C55_verify.
Lemma mapi_ext {A B} (f g : nat -> A -> B) k l : (forall i x, In x l -> f i x = g i x) -> mapi f k l = mapi g k l.
Proof. revert k. induction l as [|x l IH]; intros k H; [reflexivity|]. cbn [mapi]. f_equal; [apply H; left; reflexivity|]. apply IH. intros. apply H. right. assumption. Qed.
Lemma expired_spec now h : is_expired now (sh_params h) = true <-> expired now h.
Proof.
  unfold is_expired, expired. destruct (sp_expires (sh_params h)) as [e|].
  - rewrite N.ltb_lt. split; [eauto|]. intros (x & E & H). congruence.
  - split; [discriminate|]. intros (x & E & _). discriminate.
Qed.
Lemma clock_irrelevant clk clk' m rfp keys :
  (forall l n h i i' j j', received m l -> In (n, h) l -> (expired (clk i j) h <-> expired (clk' i' j') h)) ->
  verify_message_signatures clk m rfp keys = verify_message_signatures clk' m rfp keys.
Proof.
  intro H. unfold verify_message_signatures. destruct (negb (has_message_signature m)); [reflexivity|]. destruct (extract_signatures m rfp) as [cs|e|q] eqn:E; [|reflexivity..]. cbn [bind].
  apply extract_signatures_spec in E as (l & Hl & Hc). unfold verify_message_signatures_inner. f_equal. apply mapi_ext. intros i [key kid] _. cbn [fst snd]. unfold verify_one.
  set (f := match kid with Some k => filter _ cs | None => cs end). assert (Hf : forall x, In x f -> In x cs) by (unfold f; destruct kid; [intros x Hx; apply filter_In in Hx as [Hx _]; exact Hx|auto]).
  destruct (is_empty f); [reflexivity|]. cbv zeta.
  rewrite (mapi_ext (fun j (x : str * (sigbase * sigheaders)) => (fst x, verify_signature_headers (clk i j) (fst (snd x)) key (snd (snd x))))
    (fun j (x : str * (sigbase * sigheaders)) => (fst x, verify_signature_headers (clk' i j) (fst (snd x)) key (snd (snd x))))); [reflexivity|].
  intros j [n [b h]] Hx. cbn [fst snd]. f_equal. unfold verify_signature_headers. apply Hf in Hx. eapply candidates_in in Hx as (Hx & _); [|exact Hc].
  pose proof (H l n h i i j j Hl Hx) as He. rewrite <- !expired_spec in He. destruct (is_expired (clk i j) (sh_params h)), (is_expired (clk' i j) (sh_params h)); try reflexivity; exfalso; [discriminate (proj1 He eq_refl)|discriminate (proj2 He eq_refl)].
Qed.
(** if no signature of the message expires between the readings of the clock, all polling orders give the same *)
Theorem C55_verify_any_order : forall m rfp keys polls polls' r r',
  run_until (verify_poll m rfp keys) verify_out VNew polls = Some r -> run_until (verify_poll m rfp keys) verify_out VNew polls' = Some r' ->
  (forall l n h i i' j j', received m l -> In (n, h) l -> (expired (clock_of (concat polls) i j) h <-> expired (clock_of (concat polls') i' j') h)) ->
  same_outcome r r'.
Proof.
  intros m rfp keys polls polls' r r' H H' He. apply C55_verify in H. apply C55_verify in H'. rewrite (clock_irrelevant _ _ m rfp keys He) in H. unfold same_outcome in *.
  destruct H as [->|[H1 H2]], H' as [->|[H3 H4]]; auto.
Qed.
Print Assumptions C55_verify_any_order.
(** signing: the message and the result are those of the sequential function with the random numbers that each job's future drew *)
Theorem C55_sign : forall m rfp jobs polls m' r, run_until (sign_poll rfp jobs) sign_out (m, SNew) polls = Some (m', r) ->
  m' = fst (set_message_signatures m rfp (seeded_from (concat polls) 0 jobs)) /\ same_outcome r (snd (set_message_signatures m rfp (seeded_from (concat polls) 0 jobs))).
Proof. exact sign_runs. Qed.
Print Assumptions C55_sign.
(** with deterministic keys all polling orders give the same *)
Theorem C55_sign_any_order : forall m rfp jobs polls polls' m1 r1 m2 r2,
  run_until (sign_poll rfp jobs) sign_out (m, SNew) polls = Some (m1, r1) -> run_until (sign_poll rfp jobs) sign_out (m, SNew) polls' = Some (m2, r2) ->
  (forall j s s' d, In j jobs -> sk_sign (j_key j) s d = sk_sign (j_key j) s' d) -> m1 = m2 /\ same_outcome r1 r2.
Proof.
  intros m rfp jobs polls polls' m1 r1 m2 r2 H1 H2 Hd. apply C55_sign in H1 as [-> H1]. apply C55_sign in H2 as [-> H2].
  assert (E : set_message_signatures m rfp (seeded_from (concat polls) 0 jobs) = set_message_signatures m rfp (seeded_from (concat polls') 0 jobs)).
  { unfold set_message_signatures, make_signatures. rewrite !collect_jobs. destruct (collect _ jobs) as [bs|e|q] eqn:Eb; [|reflexivity..]. cbn [rmap bind]. rewrite !mapi_map.
    rewrite (mapi_ext (fun i (x : sigbase * job) => build_signature_headers (fst (fst x, seeded (concat polls) i (snd x))) (j_key (snd (fst x, seeded (concat polls) i (snd x)))) (j_name (snd (fst x, seeded (concat polls) i (snd x)))) (j_seed (snd (fst x, seeded (concat polls) i (snd x)))))
      (fun i (x : sigbase * job) => build_signature_headers (fst (fst x, seeded (concat polls') i (snd x))) (j_key (snd (fst x, seeded (concat polls') i (snd x)))) (j_name (snd (fst x, seeded (concat polls') i (snd x)))) (j_seed (snd (fst x, seeded (concat polls') i (snd x)))))); [reflexivity|].
    intros i [b j] Hx. cbn [fst snd seeded j_key j_name j_seed]. unfold build_signature_headers, build_raw_signature.
    assert (Hj : In j jobs).
    { apply collect_ok in Eb. clear -Eb Hx. induction Eb as [|j' bj js bs Hb Eb IH]; [destruct Hx|]. destruct Hx as [->|Hx]; [|right; auto]. left.
      destruct (build_signature_base m (j_params j') rfp); cbn in Hb; inv Hb. reflexivity. }
    rewrite (Hd j _ (match first_poll i (concat polls') with Some e => e_seed e | None => 0 end) (base_bytes b) Hj). reflexivity. }
  rewrite E in *. split; [reflexivity|]. unfold same_outcome in *. destruct H1 as [->|[H1 H3]], H2 as [->|[H2 H4]]; auto.
Qed.
Print Assumptions C55_sign_any_order.
(** join_all polls every future in its first poll, and then everything is finished *)
Theorem C55_completes : forall m rfp keys jobs a rest,
  (covers (length keys) a -> exists r, run_until (verify_poll m rfp keys) verify_out VNew (a :: rest) = Some r)
  /\ (covers (length jobs) a -> exists r, run_until (sign_poll rfp jobs) sign_out (m, SNew) (a :: rest) = Some r).
Proof. intros. split; [apply verify_ends|apply sign_ends]. Qed.
Print Assumptions C55_completes.
Definition at_time (t : N) (seed : N) : penv := mkEnv (fun _ => t) seed.
Definition key_pair (k : str) : verifying_key * option str := (shared_verifying toy (ShHmacSha256 k), None).
(** three keys, polled in the order 2, 0, 1 with spurious polls; one of them matches *)
Example C55_example :
  let polls := [[(2%nat, at_time 5 0); (7%nat, at_time 5 0); (2%nat, at_time 5 0)]; []; [(0%nat, at_time 5 0); (1%nat, at_time 5 0)]] in
  run_until (verify_poll ex_signed None [key_pair (lit "x"); (toy_vk, None); (toy_vk, Some (lit "z"))]) verify_out VNew polls
  = Some (Ok [Err HInvalidSignature; Ok (lit "sig1"); Err NoSignatureHeaders])
  /\ run_until (verify_poll ex_signed None [key_pair (lit "x"); (toy_vk, None); (toy_vk, Some (lit "z"))]) verify_out VNew (firstn 2 polls) = None.
Proof. cbv zeta. split; vm_compute; reflexivity. Qed.
Example C55_sign_example : run_until (sign_poll None [ex_job; job2]) sign_out (MReq ex_req, SNew) [[(1%nat, at_time 0 3)]; [(0%nat, at_time 0 9)]]
  = Some (set_message_signatures (MReq ex_req) None [ex_job; job2]).
Proof. vm_compute. reflexivity. Qed.

(** ** C56 *)
(** the blocking functions do what the async functions do (compared here with the sequential functions, as in C55), and return at once *)
Theorem C56_request_sign : forall r jobs polls m' x, req_set_signatures_sync false r jobs polls = Some (m', x) ->
  m' = fst (set_message_signatures (MReq r) None (seeded_from (concat polls) 0 jobs)) /\ same_outcome x (snd (set_message_signatures (MReq r) None (seeded_from (concat polls) 0 jobs))).
Proof. intros r jobs polls m' x H. apply sign_runs. exact H. Qed.
Print Assumptions C56_request_sign.
Theorem C56_request_sign_one : forall r j polls m' x, req_set_signature_sync false r j polls = Some (m', x) ->
  m' = fst (set_message_signature (MReq r) None (seeded (concat polls) 0 j)) /\ same_outcome x (snd (set_message_signature (MReq r) None (seeded (concat polls) 0 j))).
Proof. intros r j polls m' x H. exact (sign_runs (MReq r) None [j] polls m' x H). Qed.
Print Assumptions C56_request_sign_one.
Theorem C56_request_verify : forall r keys polls x, req_verify_signatures_sync false r keys polls = Some x -> same_outcome x (verify_message_signatures (clock_of (concat polls)) (MReq r) None keys).
Proof. intros r keys polls x H. apply verify_runs. exact H. Qed.
Print Assumptions C56_request_verify.
Theorem C56_request_verify_one : forall r key kid polls x, req_verify_signature_sync false r key kid polls = Some x -> same_outcome x (verify_message_signature (clock_of (concat polls)) (MReq r) None key kid).
Proof. intros r key kid polls x H. apply verify_single_runs. exact H. Qed.
Print Assumptions C56_request_verify_one.
Theorem C56_response_sign : forall r rfp jobs polls m' x, res_set_signatures_sync false r rfp jobs polls = Some (m', x) ->
  m' = fst (set_message_signatures (MRes r) rfp (seeded_from (concat polls) 0 jobs)) /\ same_outcome x (snd (set_message_signatures (MRes r) rfp (seeded_from (concat polls) 0 jobs))).
Proof. intros r rfp jobs polls m' x H. apply sign_runs. exact H. Qed.
Print Assumptions C56_response_sign.
Theorem C56_response_sign_one : forall r rfp j polls m' x, res_set_signature_sync false r rfp j polls = Some (m', x) ->
  m' = fst (set_message_signature (MRes r) rfp (seeded (concat polls) 0 j)) /\ same_outcome x (snd (set_message_signature (MRes r) rfp (seeded (concat polls) 0 j))).
Proof. intros r rfp j polls m' x H. exact (sign_runs (MRes r) rfp [j] polls m' x H). Qed.
Print Assumptions C56_response_sign_one.
Theorem C56_response_verify : forall r rfp keys polls x, res_verify_signatures_sync false r rfp keys polls = Some x -> same_outcome x (verify_message_signatures (clock_of (concat polls)) (MRes r) rfp keys).
Proof. intros r rfp keys polls x H. apply verify_runs. exact H. Qed.
Print Assumptions C56_response_verify.
Theorem C56_response_verify_one : forall r rfp key kid polls x, res_verify_signature_sync false r rfp key kid polls = Some x -> same_outcome x (verify_message_signature (clock_of (concat polls)) (MRes r) rfp key kid).
Proof. intros r rfp key kid polls x H. apply verify_single_runs. exact H. Qed.
Print Assumptions C56_response_verify_one.
Theorem C56_returns : forall q r rfp jobs j keys key kid a rest,
  (covers (length jobs) a -> (exists x, req_set_signatures_sync false q jobs (a :: rest) = Some x) /\ exists x, res_set_signatures_sync false r rfp jobs (a :: rest) = Some x)
  /\ (covers (length keys) a -> (exists x, req_verify_signatures_sync false q keys (a :: rest) = Some x) /\ exists x, res_verify_signatures_sync false r rfp keys (a :: rest) = Some x)
  /\ (covers 1 a -> (exists x, req_set_signature_sync false q j (a :: rest) = Some x) /\ (exists x, res_set_signature_sync false r rfp j (a :: rest) = Some x)
       /\ (exists x, req_verify_signature_sync false q key kid (a :: rest) = Some x) /\ exists x, res_verify_signature_sync false r rfp key kid (a :: rest) = Some x).
Proof.
  intros. split; [intro H; split; apply sign_ends; assumption|]. split; [intro H; split; apply verify_ends; assumption|].
  intro H. split; [apply (sign_ends _ None [j]); assumption|]. split; [apply (sign_ends _ rfp [j]); assumption|]. split; apply verify_single_ends; assumption.
Qed.
Print Assumptions C56_returns.
(** inside another executor they panic, without touching the message *)
Theorem C56_nested : forall q r rfp jobs j keys key kid polls,
  req_set_signatures_sync true q jobs polls = Some (MReq q, Panic PNested) /\ res_set_signatures_sync true r rfp jobs polls = Some (MRes r, Panic PNested)
  /\ req_verify_signatures_sync true q keys polls = Some (Panic PNested) /\ res_verify_signatures_sync true r rfp keys polls = Some (Panic PNested)
  /\ req_set_signature_sync true q j polls = Some (MReq q, Panic PNested) /\ res_set_signature_sync true r rfp j polls = Some (MRes r, Panic PNested)
  /\ req_verify_signature_sync true q key kid polls = Some (Panic PNested) /\ res_verify_signature_sync true r rfp key kid polls = Some (Panic PNested).
Proof. intros. repeat split. Qed.
Print Assumptions C56_nested.
Example C56_example : covers 1 [(0%nat, at_time 0 0)] /\ match ex_signed with MReq q => req_verify_signature_sync false q toy_vk None [[(0%nat, at_time 0 0)]] = Some (Ok (lit "sig1")) | _ => False end.
Proof. split; [intros i Hi; left; cbn; lia|]. vm_compute. reflexivity. Qed.

(** ** C65 *)
(** a signing future that is dropped before it has finished leaves the message as it was *)
Theorem C65_cancel : forall m rfp jobs polls m' s, fold_left (sign_poll rfp jobs) polls (m, SNew) = (m', s) -> (forall r, s <> SDone r) -> m' = m.
Proof. intros m rfp jobs polls m' s H Hs. apply sign_schedule in H as [[-> _]|(r & -> & _)]; [reflexivity|]. destruct (Hs r eq_refl). Qed.
Print Assumptions C65_cancel.
(** the futures never wait: one poll of join_all that polls every future finishes them; once finished, nothing changes any more *)
Theorem C65_one_poll : forall m rfp jobs keys a, 
  (covers (length jobs) a -> exists m' r, sign_poll rfp jobs (m, SNew) a = (m', SDone r) /\ forall b, sign_poll rfp jobs (m', SDone r) b = (m', SDone r))
  /\ (covers (length keys) a -> exists r, verify_poll m rfp keys VNew a = VDone r /\ forall b, verify_poll m rfp keys (VDone r) b = VDone r).
Proof.
  intros m rfp jobs keys a. split; intro H.
  - destruct (sign_completes m rfp jobs a [] H) as (m' & r & _ & E). exists m', r. split; [exact E|reflexivity].
  - destruct (verify_completes m rfp keys a [] H) as (r & _ & E). exists r. split; [exact E|reflexivity].
Qed.
Print Assumptions C65_one_poll.
Example C65_example : exists s, fold_left (sign_poll None [ex_job; job2]) [[(1%nat, at_time 0 3)]; []] (MReq ex_req, SNew) = (MReq ex_req, s) /\ forall r, s <> SDone r.
Proof. eexists. split; [vm_compute; reflexivity|]. intros r. discriminate. Qed.

(** ** C66 *)
(** the result does not depend on the times at which the parts of the body arrive *)
Theorem C66_set : forall H h t s polls r, run_until collect_step (set_digest_out H h t) (CRun [] s) polls = Some r -> r = set_digest H h (frames s) t.
Proof. exact set_digest_runs. Qed.
Print Assumptions C66_set.
Theorem C66_verify : forall H h s polls r, run_until (verify_digest_poll H h) verify_digest_out (DNew s) polls = Some r -> r = verify_digest H h (frames s).
Proof. exact verify_digest_runs. Qed.
Print Assumptions C66_verify.
(** one poll more than the body is pending is enough *)
Theorem C66_finishes : forall H h t s polls, (pendings s < length polls)%nat ->
  (exists r, run_until collect_step (set_digest_out H h t) (CRun [] s) polls = Some r) /\ exists r, run_until (verify_digest_poll H h) verify_digest_out (DNew s) polls = Some r.
Proof. intros H h t s polls Hl. split; [apply set_digest_ends|apply verify_digest_ends]; assumption. Qed.
Print Assumptions C66_finishes.
(** nor on how the body is cut into frames, and trailers do not matter *)
Theorem C66_chunks : forall H m b b' t, readable b -> readable b' -> data_of b = data_of b' ->
  set_content_digest H (set_body m b) t = set_content_digest H (set_body m b') t
  /\ verify_content_digest H (set_body m b) = verify_content_digest H (set_body m b').
Proof.
  intros H m b b' t Hr Hr' E.
  assert (Ei : into_bytes b = into_bytes b') by (rewrite (proj2 (DigestProofs.into_bytes_spec b _) (conj Hr eq_refl)), (proj2 (DigestProofs.into_bytes_spec b' _) (conj Hr' eq_refl)), E; reflexivity).
  destruct m as [q|x]; cbn [set_body set_content_digest verify_content_digest]; unfold req_set_digest, res_set_digest, req_verify_digest, res_verify_digest, set_digest, verify_digest, into_bytes_with_digest; cbn [rq_body rs_body rq_headers rs_headers rq_method rq_uri rs_status];
    rewrite Ei; split; reflexivity.
Qed.
Print Assumptions C66_chunks.
Example C66_example : let s := [Some (FData (lit "he")); None; None; Some (FData (lit "llo")); Some (FTrailers []); None] in
  pendings s = 3%nat
  /\ run_until (verify_digest_poll toy_hashes [(lit "content-digest", hello_digest)]) verify_digest_out (DNew s) [tt; tt; tt; tt] = Some (Ok ([(lit "content-digest", hello_digest)], [FData (lit "hello")]))
  /\ run_until (verify_digest_poll toy_hashes [(lit "content-digest", hello_digest)]) verify_digest_out (DNew s) [tt; tt; tt] = None.
Proof. cbv zeta. split; [reflexivity|]. split; vm_compute; reflexivity. Qed.
