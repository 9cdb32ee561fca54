(** C90-C93: what a second body, a second message or a second key would mean: computing their hashes shows a collision of the SHA-2 compression function. *)
From Verif Require Import Base BaseFacts Utf8 Utf8Facts Base64 Base64Facts Sfv SfvFacts SfvRound TextFacts SpecSfv SpecSfvProofs SpecGrammar GrammarProofs SpecCanon CanonProofs Component Crypto SpecCrypto CryptoProofs Params SigBase Http Hyper Digest Sha2 Sha2Proofs SpecSha CompressProofs CollisionProofs SpecId IdProofs SpecParams ParamsProofs SpecValue ValueProofs SpecBase BaseProofs SpecIdText IdTextProofs SpecMsg HeaderProofs MsgProofs VerifyProofs SpecExtract ExtractProofs TamperProofs SpecSign SignProofs SpecDigest DigestProofs Decide Toy Props_Crypto Props_Params Props_Verify Props_Base Props_Sign Props_Frame Props_Digest Props_Sha.

Definition collision (t : cdtype) : bytes -> bytes -> Prop := match t with Sha256 => collide256 | Sha512 => collide512 end.
Lemma hash_collide t a b : in_memory a -> in_memory b -> hash sha2 t a = hash sha2 t b -> a = b \/ collision t a b.
Proof.
  intros [Ha La] [Hb Lb] H. destruct (list_eq_dec N.eq_dec a b) as [E|E]; [left; exact E|right].
  assert (Hl : 2 ^ 60 < 2 ^ 61) by reflexivity. pose proof (N.lt_trans _ _ _ La Hl) as La'. pose proof (N.lt_trans _ _ _ Lb Hl) as Lb'.
  destruct t; [apply (sha256_collide a b)|apply (sha512_collide a b)]; assumption.
Qed.
Lemma digest_of_collide n a b d : in_memory a -> in_memory b -> digest_of sha2 n a d -> digest_of sha2 n b d -> a = b \/ exists t, n = type_name t /\ collision t a b.
Proof.
  intros Ha Hb [[Hn H]|[Hn H]] [[Hn' H']|[Hn' H']]; try (subst n; discriminate).
  - destruct (hash_collide Sha256 a b Ha Hb) as [E|E]; [cbn [hash sha2 h256] in *; congruence|left; exact E|right; exists Sha256; auto].
  - destruct (hash_collide Sha512 a b Ha Hb) as [E|E]; [cbn [hash sha2 h512] in *; congruence|left; exact E|right; exists Sha512; auto].
Qed.

(** ** C90: bodies *)
(** two bodies for one digest *)
Theorem C90_digest : forall m b x x', verify_content_digest sha2 m = Ok x -> verify_content_digest sha2 (set_body m b) = Ok x' ->
  in_memory (data_of (msg_body m)) -> in_memory (data_of b) -> data_of b = data_of (msg_body m) \/ exists t, collision t (data_of b) (data_of (msg_body m)).
Proof.
  intros m b x x' H H' Sm Sb. apply C50_accepts in H as (v & r & n & d & c & Hv & [_ [ps Hd]] & _ & Ho & _). apply C50_accepts in H' as (v' & r' & n' & d' & c' & Hv' & [_ [ps' Hd']] & _ & Ho' & _).
  assert (E1 : msg_headers (set_body m b) = msg_headers m) by (destruct m; reflexivity). assert (E2 : msg_body (set_body m b) = b) by (destruct m; reflexivity). rewrite E1 in Hv'. rewrite E2 in Ho'.
  rewrite Hv in Hv'. injection Hv' as <- <-. apply parse_dict_spec in Hd, Hd'. rewrite Hd in Hd'. injection Hd' as <- <- _.
  destruct (digest_of_collide _ _ _ _ Sb Sm Ho' Ho) as [E|(t & _ & E)]; eauto.
Qed.
Print Assumptions C90_digest.
(** a signed digest: if the key saw the same bytes, the bodies are the same *)
Theorem C90_signed : forall m m' rfp rfp' p l' n' h' t t' v x x', proper m rfp -> proper m' rfp' -> writable p -> In digest_id (sp_covered p) ->
  field_lines (msg_headers m) (lit "content-digest") = [v] -> ~ In 44 v ->
  received m' l' -> In (n', h') l' -> signed_text m rfp p t -> signed_text m' rfp' (sh_params h') t' -> utf8 t = utf8 t' ->
  verify_content_digest sha2 m = Ok x -> verify_content_digest sha2 m' = Ok x' ->
  in_memory (data_of (msg_body m)) -> in_memory (data_of (msg_body m')) -> data_of (msg_body m) = data_of (msg_body m')
  \/ exists a d, digest_line v (type_name a) d /\ collision a (data_of (msg_body m)) (data_of (msg_body m')).
Proof.
  intros m m' rfp rfp' p l' n' h' t t' v x x' H1 H2 H3 H4 H5 H6 H7 H8 H9 H10 H11 H12 H13 S S'.
  destruct (C54_same_hash sha2 m m' rfp rfp' p l' n' h' t t' v x x' H1 H2 H3 H4 H5 H6 H7 H8 H9 H10 H11 H12 H13) as (a & d & Hd & Ha & Ha').
  destruct (hash_collide a _ _ S S' (eq_trans Ha (eq_sym Ha'))) as [E|E]; eauto.
Qed.
Print Assumptions C90_signed.
(** the whole way: digest set, message signed, sent, verified, digest checked *)
Theorem C90_end_to_end : forall m t m1 rfp j m2 m' rfp' clk key kid n' l' h' x,
  set_content_digest sha2 m t = Ok m1 -> set_message_signature m1 rfp j = (m2, Ok tt) -> writable (j_params j) -> In digest_id (sp_covered (j_params j)) -> proper m1 rfp ->
  verify_message_signature clk m' rfp' key kid = Ok n' -> received m' l' -> In (n', h') l' -> proper m' rfp' -> verify_content_digest sha2 m' = Ok x ->
  in_memory (data_of (msg_body m)) -> in_memory (data_of (msg_body m')) ->
  exists s s', signed_text m1 rfp (j_params j) s /\ signed_text m' rfp' (sh_params h') s' /\ vk_verify key (utf8 s') (sh_sig h') = Ok tt
  /\ (utf8 s = utf8 s' -> data_of (msg_body m) = data_of (msg_body m') \/ collision t (data_of (msg_body m)) (data_of (msg_body m'))).
Proof.
  intros m t m1 rfp j m2 m' rfp' clk key kid n' l' h' x H1 H2 H3 H4 H5 H6 H7 H8 H9 H10 S S'.
  destruct (C54_end_to_end sha2 m t m1 rfp j m2 m' rfp' clk key kid n' l' h' x sha2_octet H1 H2 H3 H4 H5 H6 H7 H8 H9 H10) as (s & s' & A & B & C & D).
  exists s, s'. repeat (split; [assumption|]). intro E. apply (hash_collide t _ _ S S' (D E)).
Qed.
Print Assumptions C90_end_to_end.
(** the constants are those of FIPS 180-4 *)
Theorem C90_constants : exists l, first_primes l /\ List.length l = 80%nat
  /\ Forall2 (cube_root_bits 32) (firstn 64 l) (s_k sha256_params) /\ Forall2 (cube_root_bits 64) l (s_k sha512_params)
  /\ Forall2 (square_root_bits 32) (firstn 8 l) (state_words sha256_init) /\ Forall2 (square_root_bits 64) (firstn 8 l) (state_words sha512_init).
Proof. exists primes. split; [exact primes_first|exact constants]. Qed.
Print Assumptions C90_constants.
(** the hash of a body is the state after its blocks (FIPS 180-4, 6.2.2 and 6.4.2) *)
Theorem C90_blocks : forall m bs, Forall octet m ->
  (blocks_of 32 m bs -> h256 sha2 m = flat_map (be_bytes 4) (state_words (fold_left (sha_block sha256_params) bs sha256_init)))
  /\ (blocks_of 64 m bs -> h512 sha2 m = flat_map (be_bytes 8) (state_words (fold_left (sha_block sha512_params) bs sha512_init))).
Proof. intros m bs Hm. split; [apply sha256_blocks, Hm|apply sha512_blocks, Hm]. Qed.
Print Assumptions C90_blocks.
(** numbers are written as bytes with the most significant first (FIPS 180-4, 3.1) *)
Theorem C90_octets : forall n x b, x < 256 ^ N.of_nat n -> (b = be_bytes n x <-> List.length b = n /\ Forall octet b /\ big_endian b = x).
Proof. exact be_bytes_exact. Qed.
Print Assumptions C90_octets.
Example C90_octets_example : 1779033703 < 256 ^ N.of_nat 4 /\ be_bytes 4 1779033703 = [106; 9; 230; 103].
Proof. split; vm_compute; reflexivity. Qed.
(** what is done with a block (FIPS 180-4, 6.2.2 and 6.4.2), bit by bit; nothing else meets the description *)
Theorem C90_compression : forall s ws r, List.length ws = 16%nat ->
  (words 32 (state_words s) -> words 32 ws -> (compression256 (s_k sha256_params) s ws r <-> r = sha_block sha256_params s ws))
  /\ (words 64 (state_words s) -> words 64 ws -> (compression512 (s_k sha512_params) s ws r <-> r = sha_block sha512_params s ws)).
Proof.
  intros s ws r Hl. split; intros Hs Hw.
  - apply (compression_spec sha256_params); try assumption. repeat split; apply Nat.leb_le; reflexivity.
  - apply (compression_spec sha512_params); try assumption. repeat split; apply Nat.leb_le; reflexivity.
Qed.
Print Assumptions C90_compression.
Example C90_compression_example : let ws := 2147483648 :: repeat 0 15 in words 32 (state_words sha256_init) /\ words 32 ws /\ List.length ws = 16%nat
  /\ compression256 (s_k sha256_params) sha256_init ws (sha_block sha256_params sha256_init ws).
Proof.
  cbv zeta. assert (A : words 32 (state_words sha256_init)) by repeat (constructor; [reflexivity|]; try apply Forall_nil).
  assert (B : words 32 (2147483648 :: repeat 0 15)) by repeat (constructor; [reflexivity|]; try apply Forall_nil).
  split; [exact A|]. split; [exact B|]. split; [reflexivity|]. apply (C90_compression sha256_init (2147483648 :: repeat 0 15)); [reflexivity|exact A|exact B|reflexivity].
Qed.
(** there are blocks; and not every pair of texts shows a collision *)
Example C90_no_collision : (exists bs, blocks_of 32 (lit "body") bs) /\ ~ collide256 (lit "body") (lit "Body").
Proof.
  assert (A : Forall octet (lit "body")) by repeat constructor. assert (B : Forall octet (lit "Body")) by repeat constructor.
  split; [eexists; exact (pad_blocks_of sha256_params 4 (Nat.neq_succ_0 3) eq_refl _ A)|]. apply no_collision256; [exact A|exact B|]. vm_compute. reflexivity.
Qed.
Example C90_example : exists m x x', set_content_digest sha2 (MReq chunked) Sha256 = Ok m /\ verify_content_digest sha2 m = Ok x
  /\ verify_content_digest sha2 (set_body m [FData (data_of (msg_body m))]) = Ok x' /\ in_memory (data_of (msg_body m)) /\ data_of (msg_body m) <> [].
Proof.
  do 3 eexists. split; [vm_compute; reflexivity|]. split; [vm_compute; reflexivity|]. split; [vm_compute; reflexivity|]. split; [|vm_compute; discriminate].
  split; [|vm_compute; reflexivity]. vm_compute. repeat constructor.
Qed.

(** ** C91: messages *)
(** the MAC of a shared key is that of RFC 2104, and only it is accepted *)
Theorem C91_definition : forall P kb seed d, standard_hashes P -> exists t, outer_text kb d t /\ (forall t', outer_text kb d t' -> t' = t)
  /\ sk_sign (shared_signing P (ShHmacSha256 kb)) seed d = Ok (sha256 t)
  /\ forall mac, vk_verify (shared_verifying P (ShHmacSha256 kb)) d mac = Ok tt <-> mac = sha256 t.
Proof.
  intros P kb seed d [_ Hh]. eexists. split; [apply hmac_outer|]. split; [intros t' H; exact (outer_unique _ _ _ _ H (hmac_outer kb d))|].
  rewrite <- hmac_unfold. split; [cbn [shared_signing sk_sign shared_sign]; rewrite Hh; reflexivity|]. intro mac. cbn [shared_verifying vk_verify].
  rewrite shared_verify_exact. cbn [shared_sign]. rewrite Hh. split; [intro H; injection H as <-; reflexivity|intros ->; reflexivity].
Qed.
Print Assumptions C91_definition.
(** one MAC for two byte strings *)
Theorem C91_mac : forall P kb d d' mac, standard_hashes P -> Forall octet kb -> in_memory d -> in_memory d' ->
  vk_verify (shared_verifying P (ShHmacSha256 kb)) d mac = Ok tt -> vk_verify (shared_verifying P (ShHmacSha256 kb)) d' mac = Ok tt ->
  d = d' \/ mac_collide kb d kb d'.
Proof.
  intros P kb d d' mac [_ Hh] Hk Sd Sd' H H'. cbn [shared_verifying vk_verify] in H, H'. apply shared_verify_exact in H, H'. cbn [shared_sign] in H, H'. rewrite Hh in H, H'.
  destruct (list_eq_dec N.eq_dec d d') as [E|E]; [left; exact E|right]. apply (hmac_collide kb d d'); try assumption. congruence.
Qed.
Print Assumptions C91_mac.
Lemma text_octets m rfp l n h t : proper m rfp -> received m l -> In (n, h) l -> signed_text m rfp (sh_params h) t -> Forall octet (utf8 t).
Proof.
  intros Hm Hl Hi (vs & Hv & ->). apply utf8_bytes, rust_text_spec. destruct (params_line _ (received_printable _ _ _ _ Hl Hi)) as [P1 P2].
  apply base_text_line_rust; [|assumption]. apply Forall_app. split; [assumption|]. eapply values_line; eassumption.
Qed.
(** one signature on two messages: every covered component has the same value in both *)
Theorem C91_message : forall P kb clk clk' m m' rfp rfp' kid kid' n n' l l' h h', standard_hashes P -> Forall octet kb ->
  let key := shared_verifying P (ShHmacSha256 kb) in
  proper m rfp -> proper m' rfp' ->
  verify_message_signature clk m rfp key kid = Ok n -> verify_message_signature clk' m' rfp' key kid' = Ok n' ->
  received m l -> received m' l' -> In (n, h) l -> In (n', h') l' -> sh_params h = sh_params h' -> sh_sig h = sh_sig h' ->
  (forall t, signed_text m rfp (sh_params h) t -> N.of_nat (List.length (utf8 t)) < 2 ^ 60) ->
  (forall t, signed_text m' rfp' (sh_params h') t -> N.of_nat (List.length (utf8 t)) < 2 ^ 60) ->
  (forall i v, In i (sp_covered (sh_params h)) -> (message_value m rfp i v <-> message_value m' rfp' i v))
  \/ exists t t', signed_text m rfp (sh_params h) t /\ signed_text m' rfp' (sh_params h') t' /\ mac_collide kb (utf8 t) kb (utf8 t').
Proof.
  intros P kb clk clk' m m' rfp rfp' kid kid' n n' l l' h h' Hh Hk key Hm Hm' H H' Hl Hl' Hi Hi' Hp Hs St St'.
  destruct (accepted_text _ _ _ _ _ _ _ _ H Hl Hi) as (t & Ht & Ha). destruct (accepted_text _ _ _ _ _ _ _ _ H' Hl' Hi') as (t' & Ht' & Ha'). rewrite <- Hs in Ha'.
  assert (M : in_memory (utf8 t)) by (split; [exact (text_octets m rfp l n h t Hm Hl Hi Ht)|auto]). assert (M' : in_memory (utf8 t')) by (split; [exact (text_octets m' rfp' l' n' h' t' Hm' Hl' Hi' Ht')|auto]).
  destruct (C91_mac P kb (utf8 t) (utf8 t') (sh_sig h) Hh Hk M M' Ha Ha') as [E|E]; [|right; exists t, t'; auto].
  left. apply (C37_same_bytes_same_values m m' rfp rfp' l l' n n' h h' t t'); assumption.
Qed.
Print Assumptions C91_message.
(** one signature that covers the content digest on two messages: the bodies are the same *)
Theorem C91_body : forall P kb clk clk' m m' rfp rfp' kid kid' n n' l l' h h' v x x', standard_hashes P -> Forall octet kb ->
  let key := shared_verifying P (ShHmacSha256 kb) in
  proper m rfp -> proper m' rfp' ->
  verify_message_signature clk m rfp key kid = Ok n -> verify_message_signature clk' m' rfp' key kid' = Ok n' ->
  received m l -> received m' l' -> In (n, h) l -> In (n', h') l' -> sh_params h = sh_params h' -> sh_sig h = sh_sig h' ->
  (forall t, signed_text m rfp (sh_params h) t -> N.of_nat (List.length (utf8 t)) < 2 ^ 60) ->
  (forall t, signed_text m' rfp' (sh_params h') t -> N.of_nat (List.length (utf8 t)) < 2 ^ 60) ->
  unescaped (sh_params h) -> In digest_id (sp_covered (sh_params h)) -> field_lines (msg_headers m) (lit "content-digest") = [v] -> ~ In 44 v ->
  verify_content_digest sha2 m = Ok x -> verify_content_digest sha2 m' = Ok x' ->
  in_memory (data_of (msg_body m)) -> in_memory (data_of (msg_body m')) ->
  data_of (msg_body m) = data_of (msg_body m') \/ (exists a d, digest_line v (type_name a) d /\ collision a (data_of (msg_body m)) (data_of (msg_body m')))
  \/ exists t t', signed_text m rfp (sh_params h) t /\ signed_text m' rfp' (sh_params h') t' /\ mac_collide kb (utf8 t) kb (utf8 t').
Proof.
  intros P kb clk clk' m m' rfp rfp' kid kid' n n' l l' h h' v x x' Hh Hk key Hm Hm' H H' Hl Hl' Hi Hi' Hp Hs St St' Hu Hc Hv Hn Hx Hx' S S'.
  destruct (accepted_text _ _ _ _ _ _ _ _ H Hl Hi) as (t & Ht & Ha). destruct (accepted_text _ _ _ _ _ _ _ _ H' Hl' Hi') as (t' & Ht' & Ha'). rewrite <- Hs in Ha'.
  assert (M : in_memory (utf8 t)) by (split; [exact (text_octets m rfp l n h t Hm Hl Hi Ht)|auto]). assert (M' : in_memory (utf8 t')) by (split; [exact (text_octets m' rfp' l' n' h' t' Hm' Hl' Hi' Ht')|auto]).
  destruct (C91_mac P kb (utf8 t) (utf8 t') (sh_sig h) Hh Hk M M' Ha Ha') as [E|E]; [|right; right; exists t, t'; auto].
  assert (Hw : writable (sh_params h)).
  { pose proof Hl as Hl0. apply received_hold in Hl0 as (_ & _ & _ & ds & di & _ & Ei & _ & Hd). pose proof (parse_dict_wf _ _ Ei) as [Wi _]. clear - Hd Wi Hi Hu.
    induction Hd as [|kv r di l (E1 & E2 & E3 & _) Hd IH]; [destruct Hi|]. apply Forall_cons_iff in Wi as [[_ W] Wi]. destruct Hi as [->|Hi]; [|apply IH; assumption].
    cbn [snd] in E3. eapply parsed_writable; eassumption. }
  destruct (C90_signed m m' rfp rfp' (sh_params h) l' n' h' t t' v x x' Hm Hm' Hw Hc Hv Hn Hl' Hi' Ht Ht' E Hx Hx' S S') as [E'|E']; auto.
Qed.
Print Assumptions C91_body.
(** a message with a content digest, signed with a shared key; it meets the hypotheses together with itself *)
Definition mac_job : job := mkJob digest_params (shared_signing toy_sha (ShHmacSha256 (lit "secret"))) (Some (lit "sig1")) 0.
Definition mac_message : msg := match set_content_digest sha2 (MReq chunked) Sha256 with Ok m => fst (set_message_signature m None mac_job) | _ => MReq chunked end.
Lemma digest_params_unescaped : unescaped digest_params.
Proof.
  split; [|constructor; [|constructor; [|constructor]]].
  - intros s [E|[E|[E|[E|[]]]]]; try discriminate E. injection E as <-. split; intro Hx; apply contains_In in Hx; vm_compute in Hx; discriminate Hx.
  - split; [intros s E; discriminate E|]. split; intros v [].
  - split; [|split; intros v []]. intros s E. injection E as <-. split; intro Hx; apply contains_In in Hx; vm_compute in Hx; discriminate Hx.
Qed.
Example C91_example : exists x l h v, let key := shared_verifying toy_sha (ShHmacSha256 (lit "secret")) in
  proper mac_message None /\ verify_message_signature (fun _ _ => 0) mac_message None key None = Ok (lit "sig1") /\ received mac_message l /\ In (lit "sig1", h) l
  /\ (forall t, signed_text mac_message None (sh_params h) t -> N.of_nat (List.length (utf8 t)) < 2 ^ 60)
  /\ unescaped (sh_params h) /\ In digest_id (sp_covered (sh_params h)) /\ field_lines (msg_headers mac_message) (lit "content-digest") = [v] /\ ~ In 44 v
  /\ verify_content_digest sha2 mac_message = Ok x /\ in_memory (data_of (msg_body mac_message)) /\ data_of (msg_body mac_message) <> [].
Proof.
  assert (P : exists h b, mac_message = MReq (mkReq (lit "POST") ex_uri h b)) by (eexists; eexists; vm_compute; reflexivity).
  assert (P' : proper mac_message None).
  { destruct P as (h & b & ->). split; [|exact I]. unfold proper_request. cbn [rq_method rq_uri]. repeat split; cbn [maybe u_scheme u_auth u_path u_query ex_uri]. all: apply (line_lit (lit _)); reflexivity. }
  assert (L : exists l h, received mac_message l /\ In (lit "sig1", h) l /\ sh_params h = digest_params) by (eexists; eexists; split; [apply extract_spec; vm_compute; reflexivity|]; split; [left; reflexivity|reflexivity]).
  destruct L as (l & h & Hl & Hi & Hp).
  assert (V : exists v, field_lines (msg_headers mac_message) (lit "content-digest") = [v] /\ ~ In 44 v) by (eexists; split; [vm_compute; reflexivity|]; intro H; apply contains_In in H; vm_compute in H; discriminate H).
  assert (X : exists x, verify_content_digest sha2 mac_message = Ok x) by (eexists; vm_compute; reflexivity).
  destruct V as (v & V1 & V2). destruct X as [x X]. exists x, l, h, v. cbv zeta. split; [exact P'|]. split; [vm_compute; reflexivity|]. split; [exact Hl|]. split; [exact Hi|]. rewrite Hp.
  assert (T : exists t, signed_text mac_message None digest_params t /\ N.of_nat (List.length (utf8 t)) < 2 ^ 60).
  { assert (B : exists b, build_signature_base mac_message digest_params None = Ok b /\ (N.of_nat (List.length (utf8 (base_str b))) <? 2 ^ 60) = true) by (eexists; split; [vm_compute; reflexivity|]; vm_compute; reflexivity).
    destruct B as (b & B & Bl). exists (base_str b). split; [apply signed_text_spec; eauto|apply N.ltb_lt, Bl]. }
  destruct T as (t0 & T1 & T2). split; [intros t Ht; rewrite (signed_text_fun _ _ _ _ _ Ht T1); exact T2|].
  split; [exact digest_params_unescaped|]. split; [right; left; reflexivity|]. split; [exact V1|]. split; [exact V2|]. split; [exact X|].
  split; [split; [vm_compute; repeat constructor|vm_compute; reflexivity]|vm_compute; discriminate].
Qed.

(** ** C92: shared keys *)
(** false as stated: HMAC fills keys up with zeros, so a key and the same key with a zero byte behind it accept the same MACs, although their key ids differ *)
Theorem C92_refuted : exists k k', k <> k' /\ (forall P seed d, standard_hashes P ->
    sk_sign (shared_signing P (ShHmacSha256 k)) seed d = sk_sign (shared_signing P (ShHmacSha256 k')) seed d
    /\ forall mac, vk_verify (shared_verifying P (ShHmacSha256 k)) d mac = vk_verify (shared_verifying P (ShHmacSha256 k')) d mac)
  /\ vk_key_id (shared_verifying toy_sha (ShHmacSha256 k)) <> vk_key_id (shared_verifying toy_sha (ShHmacSha256 k')).
Proof.
  exists (lit "secret"), (lit "secret" ++ [0]). split; [discriminate|]. split; [|vm_compute; discriminate]. intros P seed d [_ Hh].
  assert (E : forall d, hmac256 (lit "secret") d = hmac256 (lit "secret" ++ [0]) d).
  { intro x. rewrite !hmac_unfold. change (hmac_key (lit "secret" ++ [0])) with (hmac_key (lit "secret")). reflexivity. }
  split; [|intro mac]; cbn [sk_sign vk_verify shared_signing shared_verifying]; unfold shared_verify, shared_sign; rewrite !Hh, E; reflexivity.
Qed.
Print Assumptions C92_refuted.
(** keys that make the same MAC for some data are, up to this replacement, equal or differ only by zero bytes at the end *)
Theorem C92_same_mac_partial : forall P k k' d mac, standard_hashes P -> Forall octet k -> Forall octet k' ->
  vk_verify (shared_verifying P (ShHmacSha256 k)) d mac = Ok tt -> vk_verify (shared_verifying P (ShHmacSha256 k')) d mac = Ok tt ->
  (exists n, effective k' = effective k ++ repeat 0 n \/ effective k = effective k' ++ repeat 0 n) \/ outer_collide k d k' d.
Proof.
  intros P k k' d mac [_ Hh] Hk Hk' H H'. cbn [shared_verifying vk_verify] in H, H'. apply shared_verify_exact in H, H'. cbn [shared_sign] in H, H'. rewrite Hh in H, H'.
  assert (E : hmac256 k d = hmac256 k' d) by congruence. clear H H'.
  destruct (list_eq_dec N.eq_dec (hmac_key k) (hmac_key k')) as [Ek|Ek]; [left|right; exact (hmac_keys_collide k k' d Hk Hk' E Ek)].
  unfold hmac_key in Ek. cbv zeta in Ek. rewrite <- !effective_spec in Ek. apply padded_eq in Ek as [[n E2]|[n E2]]; exists n; auto.
Qed.
Print Assumptions C92_same_mac_partial.
(** different keys of the same length make different MACs, whatever the data *)
Theorem C92_same_length_partial : forall P k k' d mac, standard_hashes P -> in_memory k -> in_memory k' -> List.length k = List.length k' ->
  vk_verify (shared_verifying P (ShHmacSha256 k)) d mac = Ok tt -> vk_verify (shared_verifying P (ShHmacSha256 k')) d mac = Ok tt ->
  k = k' \/ outer_collide k d k' d \/ collide256 k k'.
Proof.
  intros P k k' d mac Hh M M' Hl H H'. destruct (C92_same_mac_partial P k k' d mac Hh (proj1 M) (proj1 M') H H') as [[n E]|E]; [|right; left; exact E].
  assert (Ee : effective k = effective k').
  { assert (Le : List.length (effective k) = List.length (effective k')) by (unfold effective; rewrite <- Hl; destruct (le_lt_dec _ 64); [exact Hl|rewrite !sha256_length; reflexivity]).
    destruct E as [E|E]; rewrite E in Le |- *; rewrite app_length, repeat_length in Le; replace n with 0%nat by lia; [symmetry|]; apply app_nil_r. }
  unfold effective in Ee. rewrite <- Hl in Ee. destruct (le_lt_dec (List.length k) 64); [left; exact Ee|]. destruct (hash_collide Sha256 k k' M M' Ee) as [E'|E']; [left; exact E'|right; right; exact E'].
Qed.
Print Assumptions C92_same_length_partial.
Example C92_example : standard_hashes toy_sha /\ vk_verify (shared_verifying toy_sha (ShHmacSha256 (lit "secret"))) (lit "data") (hmac256 (lit "secret") (lit "data")) = Ok tt.
Proof. split; [apply toy_sha_standard|vm_compute; reflexivity]. Qed.

(** ** C93: key ids *)
Lemma id_collide a b : in_memory a -> in_memory b -> b64_text (sha256 a) = b64_text (sha256 b) -> a = b \/ collide256 a b.
Proof.
  intros Ha Hb H. rewrite <- !b64_text_spec in H by apply sha256_octet. apply b64_encode_inj in H; [|apply sha256_octet..]. exact (hash_collide Sha256 a b Ha Hb H).
Qed.
(** the key id identifies the key: the encoding of a public key, the bytes of a shared key *)
Theorem C93_public : forall P (k k' : public_key P) b b', standard_hashes P -> identity_bytes k b -> identity_bytes k' b' -> in_memory b -> in_memory b' ->
  vk_key_id (public_verifying k) = vk_key_id (public_verifying k') -> b = b' \/ collide256 b b'.
Proof.
  intros P k k' b b' [Hs _] Hb Hb' M M' H. rewrite (C30_key_id P k b Hb), (C30_key_id P k' b' Hb'), !Hs in H by (rewrite Hs; apply sha256_octet). exact (id_collide b b' M M' H).
Qed.
Print Assumptions C93_public.
Theorem C93_shared : forall P kb kb', standard_hashes P -> in_memory kb -> in_memory kb' ->
  vk_key_id (shared_verifying P (ShHmacSha256 kb)) = vk_key_id (shared_verifying P (ShHmacSha256 kb')) -> kb = kb' \/ collide256 kb kb'.
Proof.
  intros P kb kb' [Hs _] M M' H. destruct (C30_shared P kb) as (_ & E & _); [rewrite Hs; apply sha256_octet|]. destruct (C30_shared P kb') as (_ & E' & _); [rewrite Hs; apply sha256_octet|].
  rewrite E, E', !Hs in H. exact (id_collide kb kb' M M' H).
Qed.
Print Assumptions C93_shared.
(** also between the two kinds of keys *)
Theorem C93_mixed : forall P (k : public_key P) b kb, standard_hashes P -> identity_bytes k b -> in_memory b -> in_memory kb ->
  vk_key_id (public_verifying k) = vk_key_id (shared_verifying P (ShHmacSha256 kb)) -> b = kb \/ collide256 b kb.
Proof.
  intros P k b kb [Hs _] Hb M M' H. destruct (C30_shared P kb) as (_ & E & _); [rewrite Hs; apply sha256_octet|].
  rewrite E, (C30_key_id P k b Hb), !Hs in H by (rewrite Hs; apply sha256_octet). exact (id_collide b kb M M' H).
Qed.
Print Assumptions C93_mixed.
Example C93_example : in_memory (lit "secret") /\ in_memory (lit "Secret")
  /\ vk_key_id (shared_verifying toy_sha (ShHmacSha256 (lit "secret"))) <> vk_key_id (shared_verifying toy_sha (ShHmacSha256 (lit "Secret"))).
Proof. split; [split; [repeat constructor|reflexivity]|]. split; [split; [repeat constructor|reflexivity]|]. vm_compute. discriminate. Qed.
