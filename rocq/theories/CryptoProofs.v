(** Proofs about keys *)
From Coq Require Import ZifyBool ZifyNat ZifyN.
From Verif Require Import Base BaseFacts Base64 Base64Facts Component Crypto SpecSfv SpecSfvProofs SpecCrypto Toy.

Lemma alg_of_str_spec rsa s a :
  alg_of_str rsa s = Ok a <-> In (s, a) (registered ++ if rsa then registered_rsa else []).
Proof.
  unfold alg_of_str. split.
  - intro H. destruct rsa; cbn [andb] in H;
      repeat match type of H with (if str_eqb s ?l then _ else _) = _ =>
        destruct (str_eqb s l) eqn:Ex; [apply str_eqb_eq in Ex; subst s; inversion H; cbn; tauto | clear Ex] end; discriminate.
  - destruct rsa; cbn [registered registered_rsa app In]; intro H;
      repeat (destruct H as [H|H]; [inv H; reflexivity|]); destruct H.
Qed.
Lemma alg_of_str_total rsa s : (exists a, alg_of_str rsa s = Ok a) \/ alg_of_str rsa s = Err InvalidAlgorithmName.
Proof. unfold alg_of_str. repeat destr; eauto. Qed.
Lemma alg_str_spec a : In (alg_str a, a) (registered ++ registered_rsa).
Proof. destruct a; cbn; tauto. Qed.
Lemma alg_str_inj a b : alg_str a = alg_str b -> a = b.
Proof. destruct a, b; cbn; intro H; try reflexivity; discriminate. Qed.
Lemma alg_round rsa a : enabled rsa a -> alg_of_str rsa (alg_str a) = Ok a.
Proof. destruct a, rsa; cbn; intro H; try reflexivity; discriminate. Qed.
Lemma alg_eqb_eq a b : alg_eqb a b = true <-> a = b.
Proof. unfold alg_eqb. rewrite str_eqb_eq. split; [apply alg_str_inj|intros ->; reflexivity]. Qed.
Lemma bytes_eqb_eq a b : bytes_eqb a b = true <-> a = b.
Proof. apply list_eqb_eq. intros; apply N.eqb_eq. Qed.

Lemma shared_verify_exact P k d m : shared_verify P k d m = Ok tt <-> shared_sign P k d = Ok m.
Proof.
  destruct k as [k]. cbn [shared_verify shared_sign]. destruct (bytes_eqb _ _) eqn:E.
  - apply bytes_eqb_eq in E. subst. tauto.
  - split; [discriminate|]. intro H. inv H. assert (bytes_eqb (p_hmac256 P k d) (p_hmac256 P k d) = true) by (apply bytes_eqb_eq; reflexivity). congruence.
Qed.
Lemma shared_verify_else P k d m : shared_sign P k d <> Ok m -> shared_verify P k d m = Err InvalidSignature.
Proof.
  intro H. assert (Hn : shared_verify P k d m <> Ok tt) by (rewrite shared_verify_exact; exact H).
  destruct k as [k]. cbn [shared_verify] in *. destruct (bytes_eqb _ _); [congruence|reflexivity].
Qed.

Lemma has_len_eq n b : has_len n b = true <-> List.length b = n.
Proof. unfold has_len. apply Nat.eqb_eq. Qed.
Lemma secret_from_bytes_spec P rsa a b k :
  secret_from_bytes P rsa a b = Ok k <-> enabled rsa a /\ secret_kind k = a /\ secret_octets P k b.
Proof.
  unfold secret_from_bytes. split.
  - intro H. destruct a; try discriminate;
      repeat (match type of H with context [if ?c then _ else _] => destruct c eqn:?E; try discriminate end);
      try (destruct (p256_sk P b) eqn:?F); try (destruct (p384_sk P b) eqn:?F); try (destruct (rsa_sk P b) eqn:?F);
      cbn [ok_or rmap] in H; inv H; cbn; try (apply has_len_eq in E); auto.
  - intros (He & <- & Ho). destruct k; cbn [enabled secret_kind secret_octets] in *;
      try (destruct Ho as [Hl Ho]; apply has_len_eq in Hl; rewrite Hl); try rewrite He; try rewrite Ho; reflexivity.
Qed.
Lemma public_from_bytes_spec P rsa a b k :
  public_from_bytes P rsa a b = Ok k <-> enabled rsa a /\ public_kind k = a /\ public_octets P k b.
Proof.
  unfold public_from_bytes. split.
  - intro H. destruct a; try discriminate;
      repeat (match type of H with context [if ?c then _ else _] => destruct c eqn:?E; try discriminate end);
      try (destruct (p256_pk P b) eqn:?F); try (destruct (p384_pk P b) eqn:?F); try (destruct (rsa_pk P b) eqn:?F);
      try (destruct (ed_pk P b) eqn:?F);
      cbn [ok_or rmap] in H; inv H; cbn; auto.
  - intros (He & <- & Ho). destruct k; cbn [enabled public_kind public_octets] in *;
      try rewrite He; try rewrite Ho; reflexivity.
Qed.
Lemma curve_alg_some o a : curve_alg o = Some a <->
  (o = oid_p256 /\ a = EcdsaP256Sha256) \/ (o = oid_p384 /\ a = EcdsaP384Sha384).
Proof.
  unfold curve_alg. destruct (str_eqb o oid_p256) eqn:E1.
  - apply str_eqb_eq in E1; subst. split; [intro H; inv H; auto|]. intros [[_ ->]|[H _]]; [reflexivity|discriminate H].
  - destruct (str_eqb o oid_p384) eqn:E2.
    + apply str_eqb_eq in E2; subst. split; [intro H; inv H; auto|]. intros [[H _]|[_ ->]]; [discriminate H|reflexivity].
    + apply str_eqb_neq in E1, E2. split; [discriminate|]. intros [[-> _]|[-> _]]; contradiction.
Qed.

Definition der_spec P rsa a der k := exists pki b,
  d_pki P der = Some pki /\ oids_of a (ki_oid pki) (ki_params pki) /\ file_octets P a (ki_key pki) b
  /\ enabled rsa a /\ secret_kind k = a /\ secret_octets P k b.
Lemma secret_from_der_sound P rsa a der k : secret_from_der P rsa a der = Ok k -> der_spec P rsa a der k.
Proof.
  unfold secret_from_der, der_spec. destruct (d_pki P der) as [pki|]; cbn [ok_or bind]; [|discriminate]. intro H.
  exists pki. destruct (str_eqb (ki_oid pki) oid_ec) eqn:E1.
  - apply str_eqb_eq in E1. destruct (ki_params pki) as [pa|] eqn:Ep; cbn [ok_or bind] in H; [|discriminate].
    destruct (curve_alg pa) as [an|] eqn:Ec; cbn [ok_or bind] in H; [|discriminate].
    destruct (alg_eqb an a) eqn:Ea; cbn [negb bind] in H; [|discriminate]. apply alg_eqb_eq in Ea. subst an.
    destruct (d_ec P (ki_key pki)) as [b|] eqn:Eb; cbn [ok_or bind] in H; [|discriminate].
    apply secret_from_bytes_spec in H. exists b. apply curve_alg_some in Ec as [[-> ->]|[-> ->]]; (split; [reflexivity|]); cbn; auto.
  - destruct (str_eqb (ki_oid pki) oid_ed25519) eqn:E2.
    + apply str_eqb_eq in E2. destruct (alg_eqb Ed25519 a) eqn:Ea; cbn [negb bind] in H; [|discriminate].
      apply alg_eqb_eq in Ea. subst a. destruct (ki_key pki) as [|x [|y b]] eqn:Ek; try discriminate H.
      cbn in H. apply (secret_from_bytes_spec P rsa Ed25519) in H. exists b. split; [reflexivity|]. cbn. split; [assumption|]. eauto.
    + destruct (rsa && str_eqb (ki_oid pki) oid_rsa) eqn:E3; [|discriminate].
      apply andb_true_iff in E3 as [-> E3]. apply str_eqb_eq in E3.
      destruct (is_rsa_alg a) eqn:Er; cbn [negb bind] in H; [|discriminate].
      apply secret_from_bytes_spec in H. exists (ki_key pki). split; [reflexivity|]. destruct a; try discriminate; cbn; auto.
Qed.
Lemma secret_from_der_complete P rsa a der k : der_spec P rsa a der k -> secret_from_der P rsa a der = Ok k.
Proof.
  intros (pki & b & Hd & Ho & Hf & He & Hk & Hs). unfold secret_from_der. rewrite Hd. cbn [ok_or bind].
  assert (Hb : secret_from_bytes P rsa a b = Ok k) by (apply secret_from_bytes_spec; auto).
  destruct a; cbn [oids_of file_octets enabled] in *; try contradiction.
  - destruct Ho as [-> ->]. cbn [ok_or bind]. change (str_eqb (lit "1.2.840.10045.2.1") oid_ec) with true. cbn iota.
    change (curve_alg (lit "1.2.840.10045.3.1.7")) with (Some EcdsaP256Sha256). cbn [ok_or bind].
    change (negb (alg_eqb EcdsaP256Sha256 EcdsaP256Sha256)) with false. cbn iota. rewrite Hf. exact Hb.
  - destruct Ho as [-> ->]. cbn [ok_or bind]. change (str_eqb (lit "1.2.840.10045.2.1") oid_ec) with true. cbn iota.
    change (curve_alg (lit "1.3.132.0.34")) with (Some EcdsaP384Sha384). cbn [ok_or bind].
    change (negb (alg_eqb EcdsaP384Sha384 EcdsaP384Sha384)) with false. cbn iota. rewrite Hf. exact Hb.
  - rewrite Ho. destruct Hf as (x & y & ->).
    change (str_eqb (lit "1.3.101.112") oid_ec) with false. change (str_eqb (lit "1.3.101.112") oid_ed25519) with true.
    cbn iota. change (negb (alg_eqb Ed25519 Ed25519)) with false. cbn iota. exact Hb.
  - rewrite Ho, He. change (str_eqb (lit "1.2.840.113549.1.1.1") oid_ec) with false.
    change (str_eqb (lit "1.2.840.113549.1.1.1") oid_ed25519) with false.
    change (true && str_eqb (lit "1.2.840.113549.1.1.1") oid_rsa) with true. cbn iota. rewrite Hf. rewrite <- He. exact Hb.
  - rewrite Ho, He. change (str_eqb (lit "1.2.840.113549.1.1.1") oid_ec) with false.
    change (str_eqb (lit "1.2.840.113549.1.1.1") oid_ed25519) with false.
    change (true && str_eqb (lit "1.2.840.113549.1.1.1") oid_rsa) with true. cbn iota. rewrite Hf. rewrite <- He. exact Hb.
Qed.
Lemma secret_from_der_iff P rsa a der k : secret_from_der P rsa a der = Ok k <-> der_spec P rsa a der k.
Proof. split; [apply secret_from_der_sound | apply secret_from_der_complete]. Qed.
Lemma secret_from_pem_iff P rsa a pem k : secret_from_pem P rsa a pem = Ok k <->
  exists doc, d_pem P pem = Some (lit "PRIVATE KEY", doc) /\ secret_from_der P rsa a doc = Ok k.
Proof.
  unfold secret_from_pem. destruct (d_pem P pem) as [[tag doc]|]; cbn [ok_or bind]; [|split; [discriminate|intros (? & H & _); discriminate H]].
  destruct (str_eqb tag (lit "PRIVATE KEY")) eqn:E; cbn [negb].
  - apply str_eqb_eq in E; subst. split; [eauto|]. intros (d & H & H'). inv H. assumption.
  - apply str_eqb_neq in E. split; [discriminate|]. intros (d & H & H'). inv H. contradiction.
Qed.
Definition spki_spec P rsa a doc k := exists s b,
  d_spki P doc = Some s /\ oids_of a (si_oid s) (si_params s) /\ si_key s = Some b
  /\ enabled rsa a /\ public_kind k = a /\ public_octets P k b.
Lemma public_from_pem_sound P rsa a pem k : public_from_pem P rsa a pem = Ok k ->
  exists doc, d_pem P pem = Some (lit "PUBLIC KEY", doc) /\ spki_spec P rsa a doc k.
Proof.
  unfold public_from_pem, spki_spec. destruct (d_pem P pem) as [[tag doc]|]; cbn [ok_or bind]; [|discriminate].
  destruct (str_eqb tag (lit "PUBLIC KEY")) eqn:E; cbn [negb]; [|discriminate].
  apply str_eqb_eq in E; subst. intro H. exists doc. split; [reflexivity|].
  destruct (d_spki P doc) as [s|]; cbn [ok_or bind] in H; [|discriminate]. exists s.
  destruct (str_eqb (si_oid s) oid_ec) eqn:E1.
  - apply str_eqb_eq in E1. destruct (si_params s) as [pa|] eqn:Ep; cbn [ok_or bind] in H; [|discriminate].
    destruct (curve_alg pa) as [an|] eqn:Ec; cbn [ok_or bind] in H; [|discriminate].
    destruct (alg_eqb an a) eqn:Ea; cbn [negb bind] in H; [|discriminate]. apply alg_eqb_eq in Ea. subst an.
    destruct (si_key s) as [b|] eqn:Eb; cbn [ok_or bind] in H; [|discriminate].
    apply public_from_bytes_spec in H. exists b. apply curve_alg_some in Ec as [[-> ->]|[-> ->]]; (split; [reflexivity|]); cbn; auto.
  - destruct (str_eqb (si_oid s) oid_ed25519) eqn:E2.
    + apply str_eqb_eq in E2. destruct (alg_eqb Ed25519 a) eqn:Ea; cbn [negb bind] in H; [|discriminate].
      apply alg_eqb_eq in Ea. subst a. destruct (si_key s) as [b|] eqn:Eb; cbn [ok_or bind] in H; [|discriminate].
      apply public_from_bytes_spec in H. exists b. split; [reflexivity|]. cbn. auto.
    + destruct (rsa && str_eqb (si_oid s) oid_rsa) eqn:E3; [|discriminate].
      apply andb_true_iff in E3 as [-> E3]. apply str_eqb_eq in E3.
      destruct (is_rsa_alg a) eqn:Er; cbn [negb bind] in H; [|discriminate].
      destruct (si_key s) as [b|] eqn:Eb; cbn [ok_or bind] in H; [|discriminate].
      apply public_from_bytes_spec in H. exists b. split; [reflexivity|]. destruct a; try discriminate; cbn; auto.
Qed.
Lemma public_from_pem_complete P rsa a pem k doc : d_pem P pem = Some (lit "PUBLIC KEY", doc) -> spki_spec P rsa a doc k ->
  public_from_pem P rsa a pem = Ok k.
Proof.
  intros Hp (s & b & Hd & Ho & Hf & He & Hk & Hs). unfold public_from_pem. rewrite Hp. cbn [ok_or bind].
  change (negb (str_eqb (lit "PUBLIC KEY") (lit "PUBLIC KEY"))) with false. cbn iota. rewrite Hd. cbn [ok_or bind].
  assert (Hb : public_from_bytes P rsa a b = Ok k) by (apply public_from_bytes_spec; auto).
  destruct a; cbn [oids_of enabled] in *; try contradiction.
  - destruct Ho as [-> ->]. cbn [ok_or bind]. change (str_eqb (lit "1.2.840.10045.2.1") oid_ec) with true. cbn iota.
    change (curve_alg (lit "1.2.840.10045.3.1.7")) with (Some EcdsaP256Sha256). cbn [ok_or bind].
    change (negb (alg_eqb EcdsaP256Sha256 EcdsaP256Sha256)) with false. cbn iota. rewrite Hf. exact Hb.
  - destruct Ho as [-> ->]. cbn [ok_or bind]. change (str_eqb (lit "1.2.840.10045.2.1") oid_ec) with true. cbn iota.
    change (curve_alg (lit "1.3.132.0.34")) with (Some EcdsaP384Sha384). cbn [ok_or bind].
    change (negb (alg_eqb EcdsaP384Sha384 EcdsaP384Sha384)) with false. cbn iota. rewrite Hf. exact Hb.
  - rewrite Ho, Hf.
    change (str_eqb (lit "1.3.101.112") oid_ec) with false. change (str_eqb (lit "1.3.101.112") oid_ed25519) with true.
    cbn iota. change (negb (alg_eqb Ed25519 Ed25519)) with false. cbn iota. exact Hb.
  - rewrite Ho, He. change (str_eqb (lit "1.2.840.113549.1.1.1") oid_ec) with false.
    change (str_eqb (lit "1.2.840.113549.1.1.1") oid_ed25519) with false.
    change (true && str_eqb (lit "1.2.840.113549.1.1.1") oid_rsa) with true. cbn iota. rewrite Hf. rewrite <- He. exact Hb.
  - rewrite Ho, He. change (str_eqb (lit "1.2.840.113549.1.1.1") oid_ec) with false.
    change (str_eqb (lit "1.2.840.113549.1.1.1") oid_ed25519) with false.
    change (true && str_eqb (lit "1.2.840.113549.1.1.1") oid_rsa) with true. cbn iota. rewrite Hf. rewrite <- He. exact Hb.
Qed.

Lemma secret_kind_alg {P} (k : secret_key P) : public_alg (secret_public k) = secret_kind k.
Proof. destruct k; reflexivity. Qed.
Lemma public_kind_alg {P} (k : public_key P) : public_alg k = public_kind k.
Proof. destruct k; reflexivity. Qed.

Lemma hmac_der P rsa der : secret_from_der P rsa HmacSha256 der = Err ParsePrivateKeyError.
Proof.
  unfold secret_from_der. destruct (d_pki P der) as [pki|]; cbn [ok_or bind]; [|reflexivity].
  destruct (str_eqb (ki_oid pki) oid_ec).
  - destruct (ki_params pki) as [pa|]; cbn [ok_or bind]; [|reflexivity].
    destruct (curve_alg pa) as [an|] eqn:E; cbn [ok_or bind]; [|reflexivity].
    apply curve_alg_some in E as [[_ ->]|[_ ->]]; reflexivity.
  - destruct (str_eqb (ki_oid pki) oid_ed25519); [reflexivity|]. destruct (rsa && _); reflexivity.
Qed.
Lemma hmac_pem P rsa pem : secret_from_pem P rsa HmacSha256 pem = Err ParsePrivateKeyError.
Proof.
  unfold secret_from_pem. destruct (d_pem P pem) as [[tag doc]|]; cbn [ok_or bind]; [|reflexivity].
  destruct (negb _); [reflexivity|]. apply hmac_der.
Qed.
Lemma hmac_pub P rsa pem : public_from_pem P rsa HmacSha256 pem = Err ParsePublicKeyError.
Proof.
  unfold public_from_pem. destruct (d_pem P pem) as [[tag doc]|]; cbn [ok_or bind]; [|reflexivity].
  destruct (negb _); [reflexivity|]. destruct (d_spki P doc) as [s|]; cbn [ok_or bind]; [|reflexivity].
  destruct (str_eqb (si_oid s) oid_ec).
  - destruct (si_params s) as [pa|]; cbn [ok_or bind]; [|reflexivity].
    destruct (curve_alg pa) as [an|] eqn:E; cbn [ok_or bind]; [|reflexivity].
    apply curve_alg_some in E as [[_ ->]|[_ ->]]; reflexivity.
  - destruct (str_eqb (si_oid s) oid_ed25519); [reflexivity|]. destruct (rsa && _); reflexivity.
Qed.

(** ** panics *)
Definition ec_bad_length {P} (k : public_key P) (sig : bytes) : Prop :=
  match k with
  | PkP256 _ => List.length sig <> 64%nat
  | PkP384 _ => List.length sig <> 96%nat
  | _ => False
  end.
Lemma public_verify_panic {P} (k : public_key P) d s : (exists p, public_verify k d s = Panic p) <-> ec_bad_length k s.
Proof.
  unfold public_verify, ec_bad_length. destruct k;
    try (destruct (has_len _ s) eqn:E);
    try (apply has_len_eq in E);
    split; intro H; try (destruct H as [p H]; repeat destr_in H; congruence); try contradiction; eauto.
  - intro Hc. apply has_len_eq in Hc. congruence.
  - intro Hc. apply has_len_eq in Hc. congruence.
Qed.

(** ** what a secret key signs is accepted *)
Lemma sign_verify P (k : secret_key P) r d : correct P ->
  exists s, secret_sign k r d = Ok s /\ public_verify (secret_public k) d s = Ok tt.
Proof.
  intros [H1 H2 H3 H4]. destruct k; cbn [secret_sign secret_public public_verify]; eexists; (split; [reflexivity|]).
  - destruct (H2 k d) as (L & -> & ->). apply has_len_eq in L. rewrite L. reflexivity.
  - destruct (H1 k d) as (L & -> & ->). apply has_len_eq in L. rewrite L. reflexivity.
  - destruct (H3 r k d) as (-> & ->). reflexivity.
  - destruct (H4 RsaV1_5Sha256 r k d) as (-> & ->). reflexivity.
  - destruct (H4 RsaPssSha512 r k d) as (-> & ->). reflexivity.
Qed.

Lemma pad_length n b : List.length (pad n b) = n.
Proof. unfold pad. rewrite firstn_length, app_length, repeat_length. lia. Qed.
Lemma bytes_eqb_refl b : bytes_eqb b b = true.
Proof. apply bytes_eqb_eq; reflexivity. Qed.
Lemma toy_correct : correct toy.
Proof.
  constructor; intros; cbn -[pad].
  - split; [apply pad_length|]. split; [reflexivity|apply bytes_eqb_refl].
  - split; [apply pad_length|]. split; [reflexivity|apply bytes_eqb_refl].
  - split; [reflexivity|apply bytes_eqb_refl].
  - split; [reflexivity|apply bytes_eqb_refl].
Qed.
Lemma oct_octets b : Forall (fun x => x < 256) (oct b).
Proof. apply Forall_map, Forall_forall. intros x _. apply N.mod_lt. lia. Qed.
Lemma pad_octets n b : Forall (fun x => x < 256) b -> Forall (fun x => x < 256) (pad n b).
Proof.
  intro H. unfold pad. assert (Hb : Forall (fun x => x < 256) (b ++ repeat 0 n)) by (apply Forall_app; split; [assumption|apply Forall_forall; intros x Hx; apply repeat_spec in Hx; lia]).
  rewrite <- (firstn_skipn n (b ++ repeat 0 n)) in Hb. apply Forall_app in Hb. apply Hb.
Qed.
Lemma toy_octets : octet_output toy.
Proof.
  assert (Hr : forall r, r mod 256 < 256) by (intro; apply N.mod_lt; lia).
  constructor; intros; cbn -[pad oct N.modulo]; try apply pad_octets; try (constructor; [apply Hr|]); apply oct_octets.
Qed.
