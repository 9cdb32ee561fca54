(** C110 which private key files are read, C111 Ed25519 files, C112 EC files, C113 which public key files are read. *)
From Verif Require Import Base Base64 Component Crypto Toy SpecSfv SpecCrypto SpecErrors CryptoProofs ErrorProofs Der SpecDer DerProofs Props_Crypto Props_Errors.
From Coq Require Import Lia.

(** ** C110 *)
Theorem C110_read : forall P rsa a b k, Forall octet b -> (secret_from_der (with_der P) rsa a b = Ok k <->
  exists ai key s, algorithm a ai /\ pki_file b ai key /\ inner_octets a key s /\ enabled rsa a /\ secret_kind k = a /\ secret_octets (with_der P) k s).
Proof.
  intros P rsa a b k Ho. rewrite C29_secret_der. cbn [d_pki with_der].
  assert (Hf : forall key s, Forall octet key -> (file_octets (with_der P) a key s <-> inner_octets a key s)) by (intros key s Hk; destruct a; cbn [file_octets inner_octets d_ec with_der]; try reflexivity; apply der_ec_iff; exact Hk).
  assert (Hkey : forall ai key, pki_file b ai key -> Forall octet key).
  { intros ai key (v & t & _ & -> & _). apply octets_elem in Ho. do 2 apply octets_app in Ho as [_ Ho]. apply octets_app in Ho as [Ho _]. exact (octets_elem _ _ Ho). }
  split.
  - intros (pki & s & H1 & H2 & H3 & H4). destruct (proj1 (der_pki_iff a b (ki_key pki) Ho)) as (ai & Hai & Hp); [eauto|]. exists ai, (ki_key pki), s. split; [exact Hai|]. split; [exact Hp|]. split; [apply Hf; [exact (Hkey _ _ Hp)|exact H3]|exact H4].
  - intros (ai & key & s & Hai & Hp & Hi & H4). destruct (proj2 (der_pki_iff a b key Ho)) as (pki & H1 & H2 & <-); [eauto|]. exists pki, s. split; [exact H1|]. split; [exact H2|]. split; [apply Hf; [exact (Hkey _ _ Hp)|exact Hi]|exact H4].
Qed.
Print Assumptions C110_read.
Theorem C110_panics : forall P rsa a b, Forall octet b -> ((exists q, secret_from_der (with_der P) rsa a b = Panic q) <->
  exists ai key, algorithm a ai /\ pki_file b ai key /\ wrong_key_length a key).
Proof.
  intros P rsa a b Ho. rewrite C89_secret_panics. cbn [d_pki with_der].
  assert (Hkey : forall ai key, pki_file b ai key -> Forall octet key).
  { intros ai key (v & t & _ & -> & _). apply octets_elem in Ho. do 2 apply octets_app in Ho as [_ Ho]. apply octets_app in Ho as [Ho _]. exact (octets_elem _ _ Ho). }
  assert (Hf : forall key, Forall octet key -> (bad_key_length (with_der P) a key <-> wrong_key_length a key)).
  { intros key Hk. destruct a; cbn [bad_key_length wrong_key_length d_ec with_der]; try reflexivity; (split; intros (s & Hs & Hl); exists s; (split; [apply der_ec_iff; [exact Hk|exact Hs]|exact Hl])). }
  split.
  - intros (pki & H1 & H2 & H3). destruct (proj1 (der_pki_iff a b (ki_key pki) Ho)) as (ai & Hai & Hp); [eauto|]. exists ai, (ki_key pki). split; [exact Hai|]. split; [exact Hp|]. apply Hf; [exact (Hkey _ _ Hp)|exact H3].
  - intros (ai & key & Hai & Hp & Hw). destruct (proj2 (der_pki_iff a b key Ho)) as (pki & H1 & H2 & <-); [eauto|]. exists pki. split; [exact H1|]. split; [exact H2|]. apply Hf; [exact (Hkey _ _ Hp)|exact Hw].
Qed.
Print Assumptions C110_panics.
(** a document has one algorithm and one string of secret octets *)
Theorem C110_unique : forall b a a' ai ai' key key' s s', Forall octet b -> algorithm a ai -> algorithm a' ai' -> pki_file b ai key -> pki_file b ai' key' ->
  same_file_algorithm a a' /\ key = key' /\ (a = a' -> inner_octets a key s -> inner_octets a' key' s' -> s = s').
Proof.
  intros b a a' ai ai' key key' s s' Ho Ha Ha' Hp Hp'. destruct (proj2 (der_pki_iff a b key Ho)) as (i & E & Hi & Hk); [eauto|]. destruct (proj2 (der_pki_iff a' b key' Ho)) as (i' & E' & Hi' & Hk'); [eauto|].
  assert (i' = i) by congruence. subst i'. assert (Hkk : key = key') by congruence. split; [|split; [exact Hkk|]].
  - assert (Hec : forall x y o p, oids_of x o p -> oids_of y o p -> same_file_algorithm x y).
    { intros x y o p Hx Hy. unfold same_file_algorithm. destruct x, y; cbn [oids_of] in Hx, Hy; try tauto; exfalso;
        repeat match goal with H : _ /\ _ |- _ => destruct H end; repeat match goal with H : ?v = _, H' : ?v = _ |- _ => rewrite H in H'; try discriminate H'; clear H' end. }
    exact (Hec _ _ _ _ Hi Hi').
  - intros <- Hs Hs'. rewrite <- Hkk in Hs'. assert (Hok : Forall octet key).
    { destruct Hp as (v & t & _ & -> & _). apply octets_elem in Ho. do 2 apply octets_app in Ho as [_ Ho]. apply octets_app in Ho as [Ho _]. exact (octets_elem _ _ Ho). }
    destruct a; cbn [inner_octets] in Hs, Hs'; try contradiction; try congruence; try (apply (der_ec_iff _ _ Hok) in Hs, Hs'; congruence). destruct Hs as (x & y & Hs), Hs' as (x' & y' & Hs'). congruence.
Qed.
Print Assumptions C110_unique.
Theorem C110_pem : forall P rsa a pem k, (forall l d, d_pem P pem = Some (l, d) -> Forall octet d) -> (secret_from_pem (with_der P) rsa a pem = Ok k <->
  exists doc ai key s, d_pem P pem = Some (lit "PRIVATE KEY", doc) /\ algorithm a ai /\ pki_file doc ai key /\ inner_octets a key s
    /\ enabled rsa a /\ secret_kind k = a /\ secret_octets (with_der P) k s).
Proof.
  intros P rsa a pem k Hd. rewrite C29_secret_pem. cbn [d_pem with_der]. split.
  - intros (doc & H1 & H2). apply C110_read in H2 as (ai & key & s & H2); [|exact (Hd _ _ H1)]. exists doc, ai, key, s. auto.
  - intros (doc & ai & key & s & H1 & H2). exists doc. split; [exact H1|]. apply C110_read; [exact (Hd _ _ H1)|]. exists ai, key, s. exact H2.
Qed.
Print Assumptions C110_pem.
(** the test key of asymmetric.rs:455-460, and the same file with the last octet of the scalar taken away *)
Definition octets_of (t : str) : bytes := match b64_decode false t with Some b => b | None => [] end.
Definition p256_file : bytes := octets_of (lit "MIGHAgEAMBMGByqGSM49AgEGCCqGSM49AwEHBG0wawIBAQQgv7zxW56ojrWwmSo14uOdbVhUfj9Jd+5aZIB9u8gtWnihRANCAARGYsMe0CT6pIypwRvoJlLNs4+cTh2KL7fUNb5i6WbKxkpAoO+6T3pMBG5Yw7+8NuGTvvtrZAXduA2giPxQ8zCf").
Definition p256_scalar : bytes := octets_of (lit "v7zxW56ojrWwmSo14uOdbVhUfj9Jd+5aZIB9u8gtWng=").
Definition p256_public : bytes := octets_of (lit "BEZiwx7QJPqkjKnBG+gmUs2zj5xOHYovt9Q1vmLpZsrGSkCg77pPekwEbljDv7w24ZO++2tkBd24DaCI/FDzMJ8=").
Definition ec_key (s ps pub : bytes) : bytes := elem tSequence (elem tInteger [1] ++ elem tOctets s ++ ps ++ pub).
Definition pki (ai key : bytes) : bytes := elem tSequence (elem tInteger [0] ++ ai ++ elem tOctets key).
Definition ai_p256 : bytes := elem tSequence (elem tOid id_ec ++ elem tOid id_p256).
Definition ai_ed25519 : bytes := elem tSequence (elem tOid id_ed25519).
(** the algorithm and the octets of a key that was read *)
Definition outcome (r : result err (secret_key (with_der toy))) : result err (alg * bytes) :=
  match r with
  | Ok k => Ok (secret_kind k, match k with SkP256 s => s | SkP384 s => s | SkEd25519 s => s | SkRsa15 s => s | SkPss s => s end)
  | Err e => Err e
  | Panic q => Panic q
  end.
Example C110_example : forallb (fun x => x <? 256) p256_file = true /\ p256_file = pki ai_p256 (ec_key p256_scalar [] (elem 161 (elem tBits (0 :: p256_public))))
  /\ outcome (secret_from_der (with_der toy) false EcdsaP256Sha256 p256_file) = Ok (EcdsaP256Sha256, p256_scalar)
  /\ outcome (secret_from_der (with_der toy) false EcdsaP384Sha384 p256_file) = Err ParsePrivateKeyError
  /\ outcome (secret_from_der (with_der toy) false EcdsaP256Sha256 (p256_file ++ [0])) = Err ParsePrivateKeyError
  /\ (exists q, outcome (secret_from_der (with_der toy) false EcdsaP256Sha256 (pki ai_p256 (ec_key (removelast p256_scalar) [] []))) = Panic q).
Proof. repeat split; try (vm_compute; reflexivity). eexists. vm_compute. reflexivity. Qed.

(** ** C111 *)
Lemma no_tail : pki_tail 0 [].
Proof. exists [], [], []; split; [constructor|]; split; [constructor|]; split; [reflexivity|]; left; split; [reflexivity|]; split; [reflexivity|]; discriminate. Qed.
Definition any_seed : bytes := map N.of_nat (seq 100 32).
Lemma octetsb b : forallb (fun x => x <? 256) b = true -> Forall octet b.
Proof. intro H. apply Forall_forall. intros x Hx. rewrite forallb_forall in H. apply N.ltb_lt, H. exact Hx. Qed.
(** the seed of a document of RFC 8410 is read *)
Theorem C111_standard_partial : forall P rsa b seed, Forall octet b -> ed25519_document b seed ->
  secret_from_der (with_der P) rsa Ed25519 b = Ok (SkEd25519 (ed_sk P seed : SkEd (with_der P))).
Proof.
  intros P rsa b seed Ho [Hl Hf]. apply C110_read; [exact Ho|]. exists (elem tSequence (elem tOid id_ed25519)), (elem tOctets seed), seed. split; [exists []; auto|]. split; [exact Hf|].
  split; [|split; [exact I|split; [reflexivity|split; [exact Hl|reflexivity]]]]. cbn [inner_octets]. unfold elem at 1, len_octets. rewrite Hl. exists tOctets, 32. reflexivity.
Qed.
Print Assumptions C111_standard_partial.
(** what else is read: any two octets before the seed, any parameters *)
Theorem C111_exactly_partial : forall P rsa b k, Forall octet b -> (secret_from_der (with_der P) rsa Ed25519 b = Ok k <->
  exists ps x y seed, (ps = [] \/ element ps) /\ List.length seed = 32%nat /\ pki_file b (elem tSequence (elem tOid id_ed25519 ++ ps)) (x :: y :: seed)
    /\ k = SkEd25519 (ed_sk P seed : SkEd (with_der P))).
Proof.
  intros P rsa b k Ho. rewrite (C110_read P rsa Ed25519 b k Ho). split.
  - intros (ai & key & s & (ps & Hps & ->) & Hf & (x & y & ->) & _ & Hk & Hs). destruct k as [k|k|k|k|k]; try discriminate Hk. destruct Hs as [Hl ->]. exists ps, x, y, s. auto.
  - intros (ps & x & y & seed & Hps & Hl & Hf & ->). exists (elem tSequence (elem tOid id_ed25519 ++ ps)), (x :: y :: seed), seed. split; [exists ps; auto|]. split; [exact Hf|]. split; [exists x, y; reflexivity|]. split; [exact I|]. split; [reflexivity|]. split; [exact Hl|reflexivity].
Qed.
Print Assumptions C111_exactly_partial.
(** not every file that is read is a document of RFC 8410 *)
Theorem C111_refuted : ~ (forall P b k, Forall octet b -> secret_from_der (with_der P) false Ed25519 b = Ok k -> exists seed, ed25519_document b seed).
Proof.
  intro H. set (b := pki ai_ed25519 (255 :: 255 :: any_seed)). assert (Ho : Forall octet b) by (apply octetsb; vm_compute; reflexivity).
  destruct (H toy b (SkEd25519 (ed_sk toy any_seed : SkEd (with_der toy))) Ho) as (seed & Hl & Hf).
  { apply C111_exactly_partial; [exact Ho|]. exists [], 255, 255, any_seed. split; [left; reflexivity|]. split; [vm_compute; reflexivity|]. split; [|reflexivity]. exists 0, []. split; [exact no_tail|]. split; [vm_compute; reflexivity|]. unfold small. vm_compute. reflexivity. }
  destruct (proj2 (der_pki_iff Ed25519 b (elem tOctets seed) Ho)) as (i & Hi & _ & Hk); [exists (elem tSequence (elem tOid id_ed25519)); split; [exists []; auto|exact Hf]|].
  assert (E : der_pki b = Some (mkKeyInfo (lit "1.3.101.112") None (255 :: 255 :: any_seed))) by (vm_compute; reflexivity). rewrite E in Hi. injection Hi as <-. cbn [ki_key] in Hk. discriminate Hk.
Qed.
Print Assumptions C111_refuted.
(** every other length of the key octets panics *)
Theorem C111_panics_partial : forall P rsa b ps key, Forall octet b -> ps = [] \/ element ps -> pki_file b (elem tSequence (elem tOid id_ed25519 ++ ps)) key ->
  ((exists q, secret_from_der (with_der P) rsa Ed25519 b = Panic q) <-> List.length key <> 34%nat).
Proof.
  intros P rsa b ps key Ho Hps Hf. rewrite (C110_panics P rsa Ed25519 b Ho). assert (Ha : algorithm Ed25519 (elem tSequence (elem tOid id_ed25519 ++ ps))) by (exists ps; auto). split.
  - intros (ai & key' & Ha' & Hf' & Hw). destruct (C110_unique b Ed25519 Ed25519 _ _ _ _ [] [] Ho Ha Ha' Hf Hf') as (_ & -> & _). exact Hw.
  - intro Hw. exists (elem tSequence (elem tOid id_ed25519 ++ ps)), key. auto.
Qed.
Print Assumptions C111_panics_partial.
Definition ed_file : bytes := octets_of (lit "MC4CAQAwBQYDK2VwBCIEIDSHAE++q1BP7T8tk+mJtS+hLf81B0o6CFyWgucDFN/C").
Definition ed_seed : bytes := octets_of (lit "NIcAT76rUE/tPy2T6Ym1L6Et/zUHSjoIXJaC5wMU38I=").
Example C111_example : ed25519_document ed_file ed_seed /\ outcome (secret_from_der (with_der toy) false Ed25519 ed_file) = Ok (Ed25519, ed_seed)
  /\ outcome (secret_from_der (with_der toy) false Ed25519 (pki (elem tSequence (elem tOid id_ed25519 ++ elem 5 [])) (255 :: 0 :: ed_seed))) = Ok (Ed25519, ed_seed)
  /\ (exists q, outcome (secret_from_der (with_der toy) false Ed25519 (pki ai_ed25519 ed_seed)) = Panic q) /\ (exists q, outcome (secret_from_der (with_der toy) false Ed25519 (pki ai_ed25519 [])) = Panic q).
Proof.
  split; [|split; [vm_compute; reflexivity|split; [vm_compute; reflexivity|split; eexists; vm_compute; reflexivity]]]. split; [vm_compute; reflexivity|]. exists 0, []. split; [exact no_tail|].
  split; [vm_compute; reflexivity|]. unfold small. vm_compute. reflexivity.
Qed.

(** ** C112 *)
(** a file whose EC structure names another curve and carries another public key is read *)
Theorem C112_refuted :
  (exists b s, Forall octet b /\ pki_file b ai_p256 (ec_key s (elem 160 (elem tOid id_p384)) []) /\ forall P rsa, (exists k, p256_sk P s = Some k) -> exists k, secret_from_der (with_der P) rsa EcdsaP256Sha256 b = Ok k)
  /\ (exists b s pub, Forall octet b /\ ec_document EcdsaP256Sha256 b s pub /\ forall P rsa k, p256_sk P s = Some k -> p256_pk P pub <> Some (p256_pub P k) ->
      secret_from_der (with_der P) rsa EcdsaP256Sha256 b = Ok (SkP256 (k : Sk256 (with_der P)))).
Proof.
  pose proof no_tail as Ht.
  assert (Hfile : forall ai key, small (pki ai key) -> pki_file (pki ai key) ai key) by (intros ai key Hs; exists 0, []; rewrite app_nil_r; auto).
  split.
  - exists (pki ai_p256 (ec_key p256_scalar (elem 160 (elem tOid id_p384)) [])), p256_scalar. assert (Ho : Forall octet (pki ai_p256 (ec_key p256_scalar (elem 160 (elem tOid id_p384)) []))) by (apply octetsb; vm_compute; reflexivity).
    split; [exact Ho|]. split; [apply Hfile; unfold small; vm_compute; reflexivity|]. intros P rsa (k & Hk). exists (SkP256 (k : Sk256 (with_der P))). apply C110_read; [exact Ho|]. exists ai_p256, (ec_key p256_scalar (elem 160 (elem tOid id_p384)) []), p256_scalar.
    split; [reflexivity|]. split; [apply Hfile; unfold small; vm_compute; reflexivity|]. split; [|split; [exact I|split; [reflexivity|split; [vm_compute; reflexivity|exact Hk]]]]. cbn [inner_octets]. apply der_ec_iff; [apply octetsb|]; vm_compute; reflexivity.
  - set (key := ec_key p256_scalar [] (elem 161 (elem tBits (0 :: 4 :: any_seed ++ any_seed)))). exists (pki ai_p256 key), p256_scalar, (4 :: any_seed ++ any_seed). assert (Ho : Forall octet (pki ai_p256 key)) by (apply octetsb; vm_compute; reflexivity). split; [exact Ho|].
    assert (Hf : pki_file (pki ai_p256 key) ai_p256 key) by (apply Hfile; unfold small; vm_compute; reflexivity). split; [split; [vm_compute; reflexivity|]; exists [], key; auto|]. intros P rsa k Hk _. apply C110_read; [exact Ho|]. exists ai_p256, key, p256_scalar.
    split; [reflexivity|]. split; [exact Hf|]. split; [|split; [exact I|split; [reflexivity|split; [vm_compute; reflexivity|exact Hk]]]]. cbn [inner_octets]. apply der_ec_iff; [apply octetsb|]; vm_compute; reflexivity.
Qed.
Print Assumptions C112_refuted.
(** the scalar of a document of RFC 5915 is read *)
Theorem C112_standard_partial : forall P rsa a b s pub, Forall octet b -> a = EcdsaP256Sha256 \/ a = EcdsaP384Sha384 -> ec_document a b s pub ->
  forall k, secret_from_der (with_der P) rsa a b = Ok k <-> secret_kind k = a /\ secret_octets (with_der P) k s.
Proof.
  intros P rsa a b s pub Ho Ha (Hl & ps & key & Hps & Hkey & Hf) k. rewrite (C110_read P rsa a b k Ho).
  assert (Hai : algorithm a (elem tSequence (elem tOid id_ec ++ elem tOid (curve_oid a)))) by (destruct Ha as [-> | ->]; reflexivity).
  assert (Hin : inner_octets a key s).
  { assert (He : ec_file key s).
    { exists (ps ++ elem 161 (elem tBits (0 :: pub))). split; [|split; [exact Hkey|]].
      - exists ps, [], (elem 161 (elem tBits (0 :: pub))). split; [reflexivity|]. split; [constructor|]. split; [|right; eauto]. destruct Hps as [->| ->]; [left; auto|right]. exists (curve_oid a). split; [|reflexivity]. apply oid_valid; [|destruct Ha as [-> | ->]; vm_compute; reflexivity]. apply octetsb. destruct Ha as [-> | ->]; vm_compute; reflexivity.
      - destruct Hf as (v & t & _ & -> & Hs). apply small_elem in Hs. do 2 apply small_app in Hs as [_ Hs]. apply small_app in Hs as [Hs _]. exact (small_elem _ _ Hs). }
    destruct Ha as [-> | ->]; exact He. }
  split.
  - intros (ai & key' & s' & Hai' & Hf' & Hin' & _ & Hk & Hs). destruct (C110_unique b a a _ _ _ _ s s' Ho Hai Hai' Hf Hf') as (_ & _ & Hu). rewrite (Hu eq_refl Hin Hin'). auto.
  - intros [Hk Hs]. exists (elem tSequence (elem tOid id_ec ++ elem tOid (curve_oid a))), key, s. split; [exact Hai|]. split; [exact Hf|]. split; [exact Hin|]. split; [destruct Ha as [-> | ->]; exact I|auto].
Qed.
Print Assumptions C112_standard_partial.
(** the curve and public key in the EC structure, and what follows the key octets of the document, change nothing *)
Theorem C112_ignored_partial : forall P rsa a b b' ai key key' s, Forall octet b -> Forall octet b' -> algorithm a ai -> pki_file b ai key -> pki_file b' ai key' -> inner_octets a key s -> inner_octets a key' s ->
  secret_from_der (with_der P) rsa a b = secret_from_der (with_der P) rsa a b'.
Proof.
  intros P rsa a b b' ai key key' s Ho Ho' Ha Hf Hf' Hi Hi'.
  assert (Hr : forall b key, Forall octet b -> pki_file b ai key -> inner_octets a key s -> enabled rsa a /\ secret_from_der (with_der P) rsa a b = secret_from_bytes (with_der P) rsa a s \/ ~ enabled rsa a /\ secret_from_der (with_der P) rsa a b = Err ParsePrivateKeyError).
  { intros b0 key0 Ho0 Hf0 Hi0. destruct (proj2 (der_pki_iff a b0 key0 Ho0)) as (pki & H1 & H2 & H3); [eauto|].
    assert (Hk0 : Forall octet key0). { destruct Hf0 as (v & t & _ & -> & _). apply octets_elem in Ho0. do 2 apply octets_app in Ho0 as [_ Ho0]. apply octets_app in Ho0 as [Ho0 _]. exact (octets_elem _ _ Ho0). }
    assert (Hfo : file_octets (with_der P) a key0 s) by (destruct a; cbn [file_octets inner_octets d_ec with_der] in *; try exact Hi0; apply der_ec_iff; assumption).
    destruct (der_steps (with_der P) rsa a b0) as [(E & Hn & _)|(pki' & E1 & _ & He & E)].
    - right. split; [|exact E]. intro He. apply (Hn pki H1 H2 He s). rewrite H3. exact Hfo.
    - cbn [d_pki with_der] in E1. assert (pki' = pki) by congruence. subst pki'. rewrite H3 in E. left. split; [exact He|]. destruct E as [(s' & Hs' & E)|(-> & Hl & _)].
      + rewrite E. f_equal. destruct a; cbn [file_octets] in Hs', Hfo; try contradiction; try congruence. destruct Hs' as (x & y & Hs'), Hfo as (x' & y' & Hfo). congruence.
      + destruct Hfo as (x & y & ->). cbn [length] in Hl. lia. }
  destruct (Hr b key Ho Hf Hi) as [[H1 ->]|[H1 ->]]; destruct (Hr b' key' Ho' Hf' Hi') as [[H2 ->]|[H2 ->]]; try reflexivity; contradiction.
Qed.
Print Assumptions C112_ignored_partial.
Example C112_example : ec_document EcdsaP256Sha256 p256_file p256_scalar p256_public
  /\ outcome (secret_from_der (with_der toy) false EcdsaP256Sha256 p256_file) = Ok (EcdsaP256Sha256, p256_scalar)
  /\ outcome (secret_from_der (with_der toy) false EcdsaP256Sha256 (pki ai_p256 (ec_key p256_scalar (elem 160 (elem tOid id_p384)) (elem 161 (elem tBits (0 :: 4 :: any_seed)))))) = Ok (EcdsaP256Sha256, p256_scalar)
  /\ outcome (secret_from_der (with_der toy) false EcdsaP384Sha384 (pki ai_p256 (ec_key p256_scalar (elem 160 (elem tOid id_p384)) []))) = Err ParsePrivateKeyError.
Proof.
  split; [|split; [vm_compute; reflexivity|split; vm_compute; reflexivity]]. split; [vm_compute; reflexivity|]. exists [], (ec_key p256_scalar [] (elem 161 (elem tBits (0 :: p256_public)))). split; [left; reflexivity|]. split; [reflexivity|].
  exists 0, []. split; [exact no_tail|]. split; [vm_compute; reflexivity|]. unfold small. vm_compute. reflexivity.
Qed.

(** ** C113 *)
Theorem C113_read : forall P rsa a pem k, (forall l d, d_pem P pem = Some (l, d) -> Forall octet d) -> (public_from_pem (with_der P) rsa a pem = Ok k <->
  exists doc ai key, d_pem P pem = Some (lit "PUBLIC KEY", doc) /\ algorithm a ai /\ spki_file doc ai key
    /\ enabled rsa a /\ public_kind k = a /\ public_octets (with_der P) k key).
Proof.
  intros P rsa a pem k Hd. rewrite C29_public_pem. cbn [d_pem d_spki with_der]. split.
  - intros (doc & H1 & s & key & H2 & H3 & H4 & H5). destruct (proj1 (der_spki_iff a doc key (Hd _ _ H1))) as (ai & Ha & Hf); [eauto|]. exists doc, ai, key. auto.
  - intros (doc & ai & key & H1 & Ha & Hf & H5). exists doc. split; [exact H1|]. destruct (proj2 (der_spki_iff a doc key (Hd _ _ H1))) as (s & H2 & H3 & H4); [eauto|]. exists s, key. auto.
Qed.
Print Assumptions C113_read.
(** an algorithm and key octets of EC have one document, and a document has one algorithm and one string of key octets *)
Theorem C113_unique : forall doc doc' a a' ai ai' key key', Forall octet doc -> algorithm a ai -> algorithm a' ai' -> spki_file doc ai key ->
  (spki_file doc ai' key' -> same_file_algorithm a a' /\ ai = ai' /\ key = key')
  /\ (a = EcdsaP256Sha256 \/ a = EcdsaP384Sha384 -> a' = a -> spki_file doc' ai' key -> doc' = doc).
Proof.
  intros doc doc' a a' ai ai' key key' Ho Ha Ha' Hf. split.
  - intro Hf'. destruct (proj2 (der_spki_iff a doc key Ho)) as (i & E & Hi & Hk); [eauto|]. destruct (proj2 (der_spki_iff a' doc key' Ho)) as (i' & E' & Hi' & Hk'); [eauto|].
    assert (i' = i) by congruence. subst i'. assert (Hkk : key = key') by congruence. split; [|split; [|exact Hkk]].
    + unfold same_file_algorithm. destruct a, a'; cbn [oids_of] in Hi, Hi'; try tauto; exfalso;
        repeat match goal with H : _ /\ _ |- _ => destruct H end; repeat match goal with H : ?v = _, H' : ?v = _ |- _ => rewrite H in H'; try discriminate H'; clear H' end.
    + subst key'. destruct Hf as [E1 Hs], Hf' as [E2 _]. rewrite E1 in E2, Hs, Ho. pose proof (proj2 (read_doc_iff _ _ Ho) (conj eq_refl Hs)) as R1. pose proof (proj2 (read_doc_iff _ _ Ho) (conj E2 Hs)) as R2. rewrite R1 in R2. injection R2 as R2. exact (app_inv_tail _ _ _ R2).
  - intros Hec -> [-> _]. destruct Hf as [-> _]. destruct Hec as [-> | ->]; cbn [algorithm] in Ha, Ha'; congruence.
Qed.
Print Assumptions C113_unique.
(** every string of key octets that is not too long has a document *)
Theorem C113_every : forall P rsa a key k l, l = lit "PUBLIC KEY" -> a <> HmacSha256 -> Forall octet key -> N.of_nat (List.length key) < 200000000 -> enabled rsa a -> public_kind k = a -> public_octets (with_der P) k key ->
  exists doc ai, algorithm a ai /\ spki_file doc ai key /\ Forall octet doc /\ forall pem, d_pem P pem = Some (l, doc) -> public_from_pem (with_der P) rsa a pem = Ok k.
Proof.
  intros P rsa a key k l -> Hh Ho Hl He Hk Hp.
  assert (Hai : exists ai, algorithm a ai /\ Forall octet ai /\ (length ai < 100)%nat).
  { destruct a; try congruence;
      [exists ai_p256|exists (elem tSequence (elem tOid id_ec ++ elem tOid id_p384))|exists ai_ed25519|exists (elem tSequence (elem tOid id_rsa))|exists (elem tSequence (elem tOid id_rsa))];
      (split; [first [reflexivity|exists []; auto]|split; [apply octetsb; vm_compute; reflexivity|apply Nat.ltb_lt; vm_compute; reflexivity]]). }
  destruct Hai as (ai & Ha & Hao & Hal).
  assert (Hlo : forall n, n < 268435456 -> Forall octet (len_octets n) /\ (length (len_octets n) <= 5)%nat).
  { intros n Hn. unfold len_octets. repeat match goal with |- context [if ?c then _ else _] => destruct c eqn:?E end; (split; [|cbn [length]; lia]); repeat constructor; unfold octet; try lia;
      try (apply N.mod_lt; lia); try (apply N.div_lt_upper_bound; lia). }
  assert (Hel : forall t c, t < 256 -> Forall octet c -> N.of_nat (length c) < 268435456 -> Forall octet (elem t c) /\ (length (elem t c) <= 6 + length c)%nat).
  { intros t c Ht Hc Hn. destruct (Hlo _ Hn) as [H1 H2]. unfold elem. split; [constructor; [exact Ht|]; apply Forall_app; auto|]. cbn [length]. rewrite app_length. lia. }
  destruct (Hel tBits (0 :: key)) as [B1 B2]; [reflexivity|constructor; [reflexivity|exact Ho]|cbn [length]; lia|].
  destruct (Hel tSequence (ai ++ elem tBits (0 :: key))) as [D1 D2]; [reflexivity|apply Forall_app; auto|rewrite app_length; cbn [length] in B2; lia|].
  exists (elem tSequence (ai ++ elem tBits (0 :: key))), ai. assert (Hf : spki_file (elem tSequence (ai ++ elem tBits (0 :: key))) ai key) by (split; [reflexivity|]; unfold small; rewrite app_length in D2; cbn [length] in B2; lia).
  split; [exact Ha|]. split; [exact Hf|]. split; [exact D1|]. intros pem Hd. apply C113_read; [intros l d E; assert (d = elem tSequence (ai ++ elem tBits (0 :: key))) by congruence; subst d; exact D1|]. exists (elem tSequence (ai ++ elem tBits (0 :: key))), ai, key. auto 10.
Qed.
Print Assumptions C113_every.
(** the public key of asymmetric.rs:484-487 *)
Definition ed_public_file : bytes := octets_of (lit "MCowBQYDK2VwAyEA1ixMQcxO46PLlgQfYS46ivFd+n0CcDHSKUnuhm3i1O0=").
Definition ed_public : bytes := octets_of (lit "1ixMQcxO46PLlgQfYS46ivFd+n0CcDHSKUnuhm3i1O0=").
Definition public_outcome (r : result err (public_key (with_der toy))) : result err (alg * bytes) :=
  match r with
  | Ok k => Ok (public_kind k, match k with PkP256 s => s | PkP384 s => s | PkEd25519 s => s | PkRsa15 s => s | PkPss s => s end)
  | Err e => Err e
  | Panic q => Panic q
  end.
Example C113_example : spki_file ed_public_file ai_ed25519 ed_public
  /\ public_outcome (public_from_pem (with_der toy) false Ed25519 (lit "PUBLIC KEY:" ++ ed_public_file)) = Ok (Ed25519, ed_public)
  /\ public_outcome (public_from_pem (with_der toy) false Ed25519 (lit "PUBLIC KEY:" ++ elem tSequence (ai_ed25519 ++ elem tBits (1 :: ed_public)))) = Err ParsePublicKeyError
  /\ public_outcome (public_from_pem (with_der toy) false Ed25519 (lit "PUBLIC KEY:" ++ elem tSequence (ai_ed25519 ++ elem tBits (0 :: ed_public) ++ [5; 0]))) = Err ParsePublicKeyError
  /\ public_outcome (public_from_pem (with_der toy) false Ed25519 (lit "PUBLIC KEY:" ++ 48 :: 129 :: tl ed_public_file)) = Err ParsePublicKeyError.
Proof. split; [split; [vm_compute; reflexivity|unfold small; vm_compute; reflexivity]|]. repeat split; vm_compute; reflexivity. Qed.
